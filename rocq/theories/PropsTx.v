(** * Properties of the transaction context: C55, C65. *)

From Verif Require Import SpecInt SpecAbi Spec Tac RtAlloc RtStor RtRouter SpecRouter SpecStr RtTx.

(** C55.  What is proved: the fresh u256 the contract receives for the call value, the base fee or
    the gas price has the 32 bytes of the number the chain supplied in reversed order, because the host
    writes big-endian and Move integers are little-endian.  So it is that number only if its
    32 bytes read the same backwards; see [C55_refuted]. *)
Theorem C55_bytes_partial : forall h w v, wok w -> host_value h (host w) = Some v -> 0 <= v < 2 ^ 256 ->
  (exists p w', returns (host_word h) [] w [p] w' /\ extends w w' /\ gnext w <= p /\ live w' p 32 /\
     bytes 32 (mem w') p = be_bytes 32 v /\ be_bytes 32 (load 32 (mem w') p) = rev (be_bytes 32 v)) \/
  out_of_memory (host_word h) [] w 32.
Proof. exact host_word_result. Qed.
Print Assumptions C55_bytes_partial.

Definition host_tx (args : list Z) (value basefee gas_price : Z) : hostst :=
  mkHost (fun _ => 0) (fun _ => 0) (fun _ => 0) args 161 162 value 1 1 basefee gas_price [] [] ext0.
Definition w_tx (args : list Z) (value basefee gas_price : Z) : world :=
  mkW zmem 1 100 600 (65536 - 600) 0 (host_tx args value basefee gas_price).
Lemma w_tx_ok : forall args a b c, wok (w_tx args a b c).
Proof. intros. unfold wok, w_tx; cbn [pages maxpages gnext gavail mem]. repeat (split; [lia|]). reflexivity. Qed.

(** C55 is false of the code: with a call value, base fee and gas price of 1 the contract reads 2^248. *)
Theorem C55_refuted : exists w, wok w /\ h_value (host w) = 1 /\ h_basefee (host w) = 1 /\ h_gas_price (host w) = 1 /\
  forall f, In f [native_msg_value; native_block_basefee; native_gas_price] ->
    exists p w', returns f [] w [p] w' /\ load 32 (mem w') p = 2 ^ 248.
Proof.
  exists (w_tx [] 1 1 1). split; [apply w_tx_ok|]. repeat (split; [reflexivity|]).
  assert (G : forall f, runs_to 200 f [] (w_tx [] 1 1 1) (fun r w' => zs_eqb r [600] && (load 32 (mem w') 600 =? 2 ^ 248)) = true ->
    exists p w', returns f [] (w_tx [] 1 1 1) [p] w' /\ load 32 (mem w') p = 2 ^ 248).
  { intros f Hf. destruct (runs_to_vals 200 f [] (w_tx [] 1 1 1) [600] (fun w' => load 32 (mem w') 600 =? 2 ^ 248) Hf) as (w'&R&E).
    exists 600, w'. split; [exact R|apply Z.eqb_eq; exact E]. }
  intros f [<-|[<-|[<-|[]]]]; apply G; vm_compute; reflexivity.
Qed.
Print Assumptions C55_refuted.

(** C65.  `sender()` is the address of the caller, in a fresh block (addresses are 32 bytes, big-endian). *)
Theorem C65_sender : forall w, wok w -> 0 <= h_sender (host w) < 2 ^ 160 ->
  (exists p w', returns native_sender [] w [p] w' /\ extends w w' /\ gnext w <= p /\ live w' p 32 /\
     bytes 32 (mem w') p = be_bytes 32 (h_sender (host w))) \/
  out_of_memory native_sender [] w 32.
Proof. exact sender_result. Qed.
Print Assumptions C65_sender.

(** C65.  `data()` is the calldata of the transaction: [w] is the state when the transaction started,
    [w1] the state in which the router calls the selected function (C41), [w2] any later one. *)
Theorem C65_data : forall w w1 w2 data, begins w w1 (List.length (h_args (host w))) data ->
  firstn (List.length (h_args (host w))) data = h_args (host w) -> extends w1 w2 ->
  Z.of_nat (List.length (h_args (host w))) < 2 ^ 31 - 8 -> wok w ->
  (exists p w', returns native_data [] w2 [p] w' /\ extends w2 w' /\ gnext w2 <= p /\ byte_vec w' p (h_args (host w))) \/
  out_of_memory native_data [] w2 (8 + Z.of_nat (List.length (h_args (host w)))).
Proof. exact data_begins. Qed.
Print Assumptions C65_data.

Example C65_example :
  let w := w_tx [1; 2; 3; 4; 5] 0 0 0 in
  let w1 := mkW (store 4 (store 4 (write_bytes zmem 600 [1; 2; 3; 4; 5]) 396 5) 400 600) 1 100 605 (65536 - 605) 0 (host w) in
  wok w /\ begins w w1 5 [1; 2; 3; 4; 5] /\ extends w1 w1 /\ 0 <= h_sender (host w) < 2 ^ 160 /\
  (exists w', returns native_sender [] w [600] w' /\ load_be 32 (mem w') 600 = 162) /\
  (exists w', returns native_data [] w1 [605] w' /\ byte_vec w' 605 [1; 2; 3; 4; 5]).
Proof.
  cbv zeta. set (w := w_tx [1; 2; 3; 4; 5] 0 0 0).
  set (w1 := mkW (store 4 (store 4 (write_bytes zmem 600 [1; 2; 3; 4; 5]) 396 5) 400 600) 1 100 605 (65536 - 605) 0 (host w)).
  assert (Hw : wok w) by apply w_tx_ok.
  assert (Hw1 : wok w1).
  { unfold wok, w1; cbn [pages maxpages gnext gavail mem]. repeat (split; [lia|]). intros a Ha.
    rewrite !rd_store_out by lia. rewrite rd_write_bytes_out by (unfold within; cbn; lia). reflexivity. }
  assert (B : begins w w1 5 [1; 2; 3; 4; 5]).
  { unfold begins. split; [exact Hw1|]. repeat (split; [reflexivity || (cbn; lia)|]). intros a Ha Hn. unfold within in Hn. unfold w1; cbn [mem].
    cbn in Ha. rewrite !rd_store_out by lia. rewrite rd_write_bytes_out by (unfold within; cbn; lia). reflexivity. }
  assert (X : extends w1 w1) by (apply extends_refl; exact Hw1).
  split; [exact Hw|]. split; [exact B|]. split; [exact X|]. split; [cbn; lia|]. split.
  - destruct (runs_to_vals 200%nat native_sender [] w [600] (fun w' => load_be 32 (mem w') 600 =? 162) ltac:(vm_compute; reflexivity)) as (w'&R&E).
    exists w'. split; [exact R|apply Z.eqb_eq; exact E].
  - destruct (runs_to_vals 300%nat native_data [] w1 [605] (fun _ => true) ltac:(vm_compute; reflexivity)) as (w'&R&_).
    exists w'. split; [exact R|]. destruct (C65_data w w1 w1 [1; 2; 3; 4; 5] B eq_refl X ltac:(cbn; lia) Hw) as [(p&w2&R2&_&_&V)|(_&O)].
    + destruct (returns_unique _ _ _ _ _ _ _ R R2) as [E <-]. injection E as <-. exact V.
    + exfalso. revert O. unfold oom. cbn. lia.
Qed.
