(** * Ids of new objects (C44, C71). *)

From Verif Require Import SpecInt Spec Tac RtAlloc RtErr RtSwap RtCopy SpecAbi SpecStor RtStor LemStore ExObj SpecId RtFresh LemFresh.

(** C44, full statement: the ids of a history have pairwise different preimages.  Missing: two ids of
    the same block with 2^32 generations or more from one to the other, for which it is false. *)
Theorem C44_fresh_ids_partial : forall k w l w', 0 <= k < 2 ^ 256 -> id_history (fresh_id k) k w l w' ->
  exists pre : nat -> list Z, (forall i b id, nth_error l i = Some (b, id) -> id = hash (host w) (pre i)) /\
    (forall i j b b' id id', nth_error l i = Some (b, id) -> nth_error l j = Some (b', id') -> i <> j ->
       b <> b' \/ Z.abs (Z.of_nat i - Z.of_nat j) < 2 ^ 32 -> pre i <> pre j).
Proof. exact fresh_ids. Qed.
Print Assumptions C44_fresh_ids_partial.

(** C44.  Whatever the hash function, there is a history in one block that produces an id twice. *)
Theorem C44_wrap_refuted : forall k w, wok w -> 0 <= k < 2 ^ 256 -> ~ oom w 116 ->
  exists l w' b id i j, id_history (fresh_id k) k w l w' /\ i <> j /\ nth_error l i = Some (b, id) /\ nth_error l j = Some (b, id).
Proof. exact fresh_wrap. Qed.
Print Assumptions C44_wrap_refuted.

(** C71.  Generating an id completes unless memory runs out; it changes no storage word but the
    counter's, commits the storage, and leaves the memory in use as it is. *)
Theorem C71_fresh_id_keeps_state : forall k w, wok w -> 0 <= k < 2 ^ 256 ->
  wpf (fresh_id k) [] w (resq (fun r w' => exists a, r = [a] /\ gnext w <= a /\ a + 32 <= gnext w' /\ wok w' /\
    (forall y, y <> k -> stor (host w') y = stor (host w) y) /\ stor (host w') k <> stor (host w) k /\ committed (host w') = stor (host w') /\
    (forall x, 0 <= x < gnext w -> rd (mem w') x = rd (mem w) x)) (oom w 116)).
Proof.
  intros k w Hw Hk. eapply wpf_conseq; [apply fresh_id_spec; assumption|]. intros o; destruct o; cbn [resq]; try tauto.
  intros (a&->&S1&S2&S3&S4&S5&S6&S7&S8&S9&S10&S11). exists a. split; [reflexivity|]. split; [exact S5|]. split; [exact S6|]. split; [exact S1|].
  split; [exact S9|]. split; [exact (counter_changes _ _ _ S8)|]. split; [exact S10|exact S11].
Qed.
Print Assumptions C71_fresh_id_keeps_state.

(** Two ids of one block and one of the next. *)
Definition at_block (n : Z) (st : Z -> Z) : world :=
  let h := host (wh zmem 468 st) in
  set_host (wh zmem 468 st) (mkHost (keccak h) (stor h) (committed h) (h_args h) (h_origin h) (h_sender h) (h_value h) n (1000 + n) (h_basefee h)
    (h_gas_price h) (h_result h) (h_logs h) (h_ext h)).

Example C44_example : exists w l w', wok w /\ ~ oom w 116 /\ id_history (fresh_id 12345) 12345 w l w' /\ List.length l = 3%nat /\
  exists b1 b2 x y z, l = [(b1, x); (b1, y); (b2, z)] /\ b1 <> b2.
Proof.
  set (k := 12345). assert (Hk : 0 <= k < 2 ^ 256) by (unfold k; lia).
  assert (Ok : forall n st, wok (at_block n st)) by (intros; apply wh_ok, wm_ok; lia).
  assert (G : forall n st, exists a w2, returns (fresh_id k) [] (at_block n st) [a] w2 /\ wok w2 /\ keccak (host w2) = keccak (host (at_block n st))).
  { intros. destruct (wpf_cases _ _ _ _ _ (fresh_id_spec k _ (Ok n st) Hk)) as [(vs&w2&R&a&->&S)|(_&T)].
    - exists a, w2. split; [exact R|]. split; apply S.
    - exfalso. revert T. unfold oom. cbn. lia. }
  destruct (G 7 (fun _ => 0)) as (a&w1&R1&O1&K1). destruct (G 7 (stor (host w1))) as (b&w2&R2&O2&K2). destruct (G 8 (stor (host w2))) as (c&w3&R3&O3&K3).
  pose (x1 := (block_of (at_block 7 (fun _ => 0)), load_be 32 (mem w1) a)).
  pose (x2 := (block_of (at_block 7 (stor (host w1))), load_be 32 (mem w2) b)).
  pose (x3 := (block_of (at_block 8 (stor (host w2))), load_be 32 (mem w3) c)).
  exists (at_block 7 (fun _ => 0)), [x1; x2; x3], w3.
  split; [apply Ok|]. split; [unfold oom; cbn; lia|]. split; [|split; [reflexivity|]].
  - eapply (ih_fresh _ _ _ [x1; x2]); [|exact R3]. eapply ih_other; [|apply Ok|exact (eq_sym K2)|reflexivity].
    eapply (ih_fresh _ _ _ [x1]); [|exact R2]. eapply ih_other; [|apply Ok|exact (eq_sym K1)|reflexivity].
    eapply (ih_fresh _ _ _ []); [|exact R1]. apply ih_start. apply Ok.
  - exists (block_of (at_block 7 (fun _ => 0))), (block_of (at_block 8 (fun _ => 0))). do 3 eexists. split; [reflexivity|]. vm_compute. discriminate.
Qed.

Example C71_example : let w := at_block 7 (fun _ => 0) in wok w /\ ~ oom w 116 /\
  exists w', returns (fresh_id 12345) [] w [532] w' /\ (stor (host w') 12345 =? 2 ^ 248) = true.
Proof.
  intros w. split; [apply wh_ok, wm_ok; lia|]. split; [unfold oom; cbn; lia|].
  apply (runs_to_vals 500). vm_compute. reflexivity.
Qed.
