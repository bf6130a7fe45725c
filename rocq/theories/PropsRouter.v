(** * Properties of the entry point and the constructor (C40, C41, C43, C64). *)

From Verif Require Import Tac RtAlloc RtErr SpecAbi Spec RtAbort RtRouter SpecRouter LemRouter.
Ltac Zify.zify_post_hook ::= idtac.

(** ** A contract and a machine to run it on *)

(** Writes its 32-byte argument to storage slot 0 and returns the four bytes before the argument
    (its own selector). *)
Definition f_set : func := Func 1 0 2
  [ Const 0; LocalGet 0; Host H_storage_cache; LocalGet 0; Const 4; Bin I32 Sub; Const 4 ].
Definition f_fall : func := Func 1 0 2 [ LocalGet 0; Const 2 ].
Definition c_ex (fb : option func) : contract :=
  mkContract [([1; 2; 3; 4], aborting 42); ([18; 52; 86; 0], f_set)] (Some [18; 52; 86; 0]) fb (Func 0 0 0 []).
Definition w_ex (args : list Z) : world :=
  mkW zmem 1 100 1000 (65536 - 1000) 0
    (mkHost (fun _ => 0) (fun _ => 5) (fun _ => 5) args 161 162 0 1 1 0 0 [] [] ext0).

Lemma c_ex_ok : forall fb, (forall f, fb = Some f -> is_wrapper f) -> contract_ok (c_ex fb).
Proof.
  intros fb H. unfold contract_ok, c_ex, selector_ok. cbn [c_funs c_receive c_fallback c_save].
  split; [|split; [|split]].
  - intros s f [E|[E|[]]]; injection E as <- <-; (split; [split; [reflexivity|repeat constructor; lia]|unfold is_wrapper, aborting, f_set; eauto]).
  - intros s E. injection E as <-. split; [reflexivity|repeat constructor; lia].
  - exact H.
  - eauto.
Qed.

Lemma w_ex_ok : forall args, Forall (fun b => 0 <= b < 256) args -> Z.of_nat (List.length args) < 2 ^ 31 -> fresh_call (w_ex args).
Proof.
  intros args H L. unfold fresh_call. split; [|split; [reflexivity|split; [exact H|exact L]]].
  unfold wok, w_ex; cbn [pages maxpages gnext gavail mem]. repeat (split; [lia|]). reflexivity.
Qed.

(** C41.  A call runs the public function whose selector equals the first four calldata bytes, or
    else the fallback function; the router then answers for it.  Without a match and without a
    fallback function the call fails with status 1, the error message "100", and no other effect.
    The only other outcome is a trap because memory is exhausted. *)
Theorem C41_dispatch : forall c w s rest, contract_ok c -> fresh_call w ->
  h_args (host w) = s ++ rest -> selector_ok s ->
  transaction c w FTrap /\ oom w (Z.of_nat (List.length (s ++ rest))) \/
  exists w1, begins w w1 (List.length (s ++ rest)) (s ++ rest) /\
    (forall f off r res, selected c s f off -> evals f [gnext w + off] w1 r -> answers c r res -> transaction c w res) /\
    (none_selected c s ->
       transaction c w FTrap /\ oom w1 125 \/
       exists w', transaction c w (FRet [1] w') /\ host w' = set_result (host w) (error_string [49; 48; 48])).
Proof. exact dispatch. Qed.
Print Assumptions C41_dispatch.

(** C41.  Empty calldata is treated as a call of the receive function when there is one. *)
Theorem C41_receive : forall c w s, contract_ok c -> fresh_call w -> h_args (host w) = [] -> c_receive c = Some s ->
  transaction c w FTrap /\ oom w 4 \/
  exists w1, begins w w1 0 s /\
    (forall f off r res, selected c s f off -> evals f [gnext w + off] w1 r -> answers c r res -> transaction c w res).
Proof.
  intros c w s HC HF E R. pose proof (dispatch_empty c w HC HF E) as D. cbv zeta in D. rewrite R in D.
  destruct HC as (_&H2&_). destruct (H2 s R) as [L _]. rewrite L in D.
  destruct D as [D|(w1&B&D&_)]; [left; exact D|right; exists w1; auto].
Qed.
Print Assumptions C41_receive.

(** The matching function runs; the fallback runs; nothing matches; receive runs. *)
Example C41_example : let arg := repeat 0 31 ++ [9] in
  (contract_ok (c_ex None) /\ contract_ok (c_ex (Some f_fall)) /\ selector_ok [18; 52; 86; 0]) /\
  (fresh_call (w_ex ([18; 52; 86; 0] ++ arg)) /\ selected (c_ex None) [18; 52; 86; 0] f_set 4 /\
   exists w', transaction (c_ex None) (w_ex ([18; 52; 86; 0] ++ arg)) (FRet [0] w') /\
     stor (host w') 0 = 9 /\ h_result (host w') = [18; 52; 86; 0]) /\
  (selected (c_ex (Some f_fall)) [7; 7; 7; 7] f_fall 0 /\
   exists w', transaction (c_ex (Some f_fall)) (w_ex ([7; 7; 7; 7] ++ arg)) (FRet [0] w') /\ h_result (host w') = [7; 7]) /\
  (none_selected (c_ex None) [7; 7; 7; 7] /\
   exists w', transaction (c_ex None) (w_ex ([7; 7; 7; 7] ++ arg)) (FRet [1] w') /\
     h_result (host w') = error_string [49; 48; 48]) /\
  (exists w', transaction (c_ex None) (w_ex []) (FRet [0] w') /\ h_result (host w') = [18; 52; 86; 0]).
Proof.
  intros arg. split; [split; [apply c_ex_ok; discriminate|split; [apply c_ex_ok; intros f E; injection E as <-; unfold is_wrapper, f_fall; eauto|]]|].
  { split; [reflexivity|repeat constructor; lia]. }
  split; [|split; [|split]].
  - split; [apply w_ex_ok; [repeat constructor; lia|reflexivity]|]. split.
    + apply (sel_public _ _ [([1; 2; 3; 4], aborting 42)] [] f_set); [reflexivity|].
      intros s' f' [E|[]]. injection E as <- _. discriminate.
    + destruct (runs_to_vals 1000 (router (c_ex None)) [36] (w_ex ([18; 52; 86; 0] ++ arg)) [0]
        (fun w' => (stor (host w') 0 =? 9) && zs_eqb (h_result (host w')) [18; 52; 86; 0])) as (w'&R&H); [vm_compute; reflexivity|].
      apply andb_prop in H. destruct H as [H1 H2]. apply zs_eqb_eq in H2. exists w'. split; [exact R|]. split; [lia|exact H2].
  - split.
    + apply sel_fallback; [|reflexivity]. intros s' f' [E|[E|[]]]; injection E as <- _; discriminate.
    + destruct (runs_to_vals 1000 (router (c_ex (Some f_fall))) [36] (w_ex ([7; 7; 7; 7] ++ arg)) [0]
        (fun w' => zs_eqb (h_result (host w')) [7; 7])) as (w'&R&H); [vm_compute; reflexivity|].
      apply zs_eqb_eq in H. exists w'. split; [exact R|exact H].
  - split.
    + split; [|reflexivity]. intros s' f' [E|[E|[]]]; injection E as <- _; discriminate.
    + destruct (runs_to_vals 2000 (router (c_ex None)) [36] (w_ex ([7; 7; 7; 7] ++ arg)) [1]
        (fun w' => zs_eqb (h_result (host w')) (error_string [49; 48; 48]))) as (w'&R&H); [vm_compute; reflexivity|].
      apply zs_eqb_eq in H. exists w'. split; [exact R|exact H].
  - destruct (runs_to_vals 1000 (router (c_ex None)) [0] (w_ex []) [0]
        (fun w' => zs_eqb (h_result (host w')) [18; 52; 86; 0])) as (w'&R&H); [vm_compute; reflexivity|].
    apply zs_eqb_eq in H. exists w'. split; [exact R|exact H].
Qed.

(** C41, refuted for short calldata.  Three bytes of calldata are no selector, yet they run the
    public function whose selector is those bytes followed by a zero byte. *)
Theorem C41_short_refuted : exists c w s f w', contract_ok c /\ fresh_call w /\
  List.length (h_args (host w)) = 3%nat /\ firstn 4 (h_args (host w)) <> s /\ In (s, f) (c_funs c) /\
  c_fallback c = None /\ transaction c w (FRet [0] w') /\ h_result (host w') = s.
Proof.
  destruct (runs_to_vals 1000 (router (c_ex None)) [3] (w_ex [18; 52; 86]) [0]
        (fun w' => zs_eqb (h_result (host w')) [18; 52; 86; 0])) as (w'&R&H); [vm_compute; reflexivity|].
  apply zs_eqb_eq in H. exists (c_ex None), (w_ex [18; 52; 86]), [18; 52; 86; 0], f_set, w'.
  split; [apply c_ex_ok; discriminate|]. split; [apply w_ex_ok; [repeat constructor; lia|reflexivity]|].
  split; [reflexivity|]. split; [discriminate|]. split; [right; left; reflexivity|]. split; [reflexivity|].
  split; [exact R|exact H].
Qed.
Print Assumptions C41_short_refuted.

(** C41, refuted for empty calldata without a receive function: it runs the function whose selector
    is four zero bytes. *)
Theorem C41_empty_refuted : exists c w f w', contract_ok c /\ fresh_call w /\
  h_args (host w) = [] /\ c_receive c = None /\ c_fallback c = None /\ In ([0; 0; 0; 0], f) (c_funs c) /\
  transaction c w (FRet [0] w') /\ h_result (host w') = [0; 0; 0; 0].
Proof.
  set (c := mkContract [([0; 0; 0; 0], f_set)] None None (Func 0 0 0 [])).
  destruct (runs_to_vals 1000 (router c) [0] (w_ex []) [0]
        (fun w' => zs_eqb (h_result (host w')) [0; 0; 0; 0])) as (w'&R&H); [vm_compute; reflexivity|].
  apply zs_eqb_eq in H. exists c, (w_ex []), f_set, w'. split.
  { unfold contract_ok, c, selector_ok. cbn [c_funs c_receive c_fallback c_save].
    split; [|split; [discriminate|split; [discriminate|eauto]]].
    intros s f [E|[]]; injection E as <- <-. split; [split; [reflexivity|repeat constructor; lia]|unfold is_wrapper, f_set; eauto]. }
  split; [apply w_ex_ok; [constructor|reflexivity]|].
  split; [reflexivity|]. split; [reflexivity|]. split; [reflexivity|]. split; [left; reflexivity|].
  split; [exact R|exact H].
Qed.
Print Assumptions C41_empty_refuted.

(** C40.  Whatever the selected function does: the chain keeps its writes, together with those of
    saving borrowed dynamic fields, exactly when the function finished without abort and the entry
    point returned status 0; in all other cases the chain's storage is what it was. *)
Theorem C40_commit : forall c w s rest, contract_ok c -> fresh_call w -> h_args (host w) = s ++ rest -> selector_ok s ->
  transaction c w FTrap /\ oom w (Z.of_nat (List.length (s ++ rest))) \/
  exists w1, begins w w1 (List.length (s ++ rest)) (s ++ rest) /\
    forall f off r res, selected c s f off -> evals f [gnext w + off] w1 r -> answers c r res ->
    transaction c w res /\ forall old,
      (exists len ptr w2 w3, r = FRet [len; ptr] w2 /\ abort_flag w2 = 0 /\
         returns (c_save c) [] (with_result w2 ptr len) [] w3 /\
         (exists w', res = FRet [0] w' /\ h_result (host w') = h_result (host w3)) /\ chain_after old res = stor (host w3)) \/
      (forall w', res <> FRet [0] w') /\ chain_after old res = old.
Proof. exact commits. Qed.
Print Assumptions C40_commit.

(** C40.  A function that executes [abort code]: status 1, the Solidity Error(string) of the code as
    return data, nothing written to storage, nothing flushed, no log. *)
Theorem C40_abort : forall c w s rest code, contract_ok c -> fresh_call w -> h_args (host w) = s ++ rest -> selector_ok s ->
  0 <= code < 2 ^ 64 -> selected c s (aborting code) 4 ->
  transaction c w FTrap \/
  exists w' msg, transaction c w (FRet [1] w') /\ is_decimal code msg /\
    host w' = set_result (host w) (error_string msg).
Proof. exact abort_reverts. Qed.
Print Assumptions C40_abort.

Example C40_example : let arg := repeat 0 31 ++ [9] in
  selected (c_ex None) [1; 2; 3; 4] (aborting 42) 4 /\
  (exists w', transaction (c_ex None) (w_ex ([1; 2; 3; 4] ++ arg)) (FRet [1] w') /\ h_result (host w') = error_string [52; 50] /\
     committed (host w') 0 = 5) /\
  (exists w', transaction (c_ex None) (w_ex ([18; 52; 86; 0] ++ arg)) (FRet [0] w') /\ committed (host w') 0 = 9).
Proof.
  intros arg. split; [|split].
  - apply (sel_public _ _ [] [([18; 52; 86; 0], f_set)]); [reflexivity|]. intros ? ? [].
  - destruct (runs_to_vals 2000 (router (c_ex None)) [36] (w_ex ([1; 2; 3; 4] ++ arg)) [1]
        (fun w' => (committed (host w') 0 =? 5) && zs_eqb (h_result (host w')) (error_string [52; 50]))) as (w'&R&H); [vm_compute; reflexivity|].
    apply andb_prop in H. destruct H as [H1 H2]. apply zs_eqb_eq in H2. exists w'. split; [exact R|]. split; [exact H2|lia].
  - destruct (runs_to_vals 1000 (router (c_ex None)) [36] (w_ex ([18; 52; 86; 0] ++ arg)) [0]
        (fun w' => committed (host w') 0 =? 9)) as (w'&R&H); [vm_compute; reflexivity|].
    exists w'. split; [exact R|lia].
Qed.

(** C43.  The first constructor call runs [init] and leaves the flag set, with everything [init]
    wrote flushed. *)
Theorem C43_first : forall k init w w', wok w -> 0 <= k < 2 ^ 256 -> ordinary init ->
  stor (host w) k mod 2 ^ 256 = 0 -> returns (constructor k init) [] w [] w' ->
  exists w1 w2, extends w w1 /\ returns init [gnext w + 64] w1 [] w2 /\
    stor (host w') = upd (stor (host w2)) k (2 ^ 248) /\ committed (host w') = stor (host w').
Proof. exact first_call. Qed.
Print Assumptions C43_first.

(** C43.  In every storage the contract can have once its constructor has completed, a constructor
    call changes nothing, whatever [init] would do: it is not run. *)
Theorem C43_later : forall k init init' s w, 0 <= k < 2 ^ 256 -> ordinary init -> initialised k init s ->
  wok w -> stor (host w) = s ->
  (exists w', returns (constructor k init') [] w [] w' /\ extends w w') \/ traps (constructor k init') [] w /\ oom w 64.
Proof.
  intros k init init' s w Hk HI HS Hw E. apply later_calls; auto. rewrite E. eapply initialised_stays; eassumption.
Qed.
Print Assumptions C43_later.

(** An [init] that writes storage slot 0. *)
Definition f_init : func := Func 1 0 0 [ Const 0; Const 32; Host H_storage_cache ].
Lemma f_init_run : forall a w, wok w ->
  returns f_init [a] w [] (set_host w (set_stor (host w) (upd (stor (host w)) (load_be 32 (mem w) 0) (load_be 32 (mem w) 32)))).
Proof.
  intros a w Hw. exists 10%nat. split; [|discriminate]. unfold f_init.
  assert (I : inb w 0 32 = true /\ inb w 32 32 = true) by (unfold inb, page_size; destruct Hw; lia). destruct I as [I1 I2].
  cbn [runf exec List.length Nat.eqb negb app repeat bindo step hostcall]. rewrite I1, I2. reflexivity.
Qed.
Lemma f_init_ordinary : ordinary f_init.
Proof.
  split; [unfold f_init; eauto|]. split.
  - intros args w vs w' Hw R. destruct args as [|a [|]].
    1,3: destruct R as (n&R&_); discriminate R.
    destruct (returns_unique _ _ _ _ _ _ _ R (f_init_run a w Hw)) as [_ ->]. cbn [gnext mem set_host].
    split; [exact Hw|]. split; [lia|reflexivity].
  - intros a w Hw. eexists. split; [apply f_init_run; exact Hw|discriminate].
Qed.

(** The second call happens in a new instance over the storage the first one left; its [init] would
    trap if it were run. *)
Example C43_example : exists k w w' w'', 0 <= k < 2 ^ 256 /\ wok w /\ stor (host w) k mod 2 ^ 256 = 0 /\
  returns (constructor k f_init) [] w [] w' /\ initialised k f_init (stor (host w')) /\ wok (set_host w (host w')) /\
  stor (host w') 0 = 1 /\ stor (host w') k = 2 ^ 248 /\
  returns (constructor k (Func 1 0 0 [Unreachable])) [] (set_host w (host w')) [] w''.
Proof.
  set (m := store_be 32 zmem 32 1).
  set (w := mkW m 1 100 1000 (65536 - 1000) 0 (mkHost (fun _ => 0) (fun _ => 0) (fun _ => 0) [] 161 162 0 1 1 0 0 [] [] ext0)).
  set (k := 2 ^ 200 + 77).
  destruct (runs_to_vals 2000 (constructor k f_init) [] w []
     (fun w' => (stor (host w') 0 =? 1) && (stor (host w') k =? 2 ^ 248) &&
        runs_to 2000 (constructor k (Func 1 0 0 [Unreachable])) [] (set_host w (host w')) (fun vs _ => zs_eqb vs []))) as (w'&R&H); [vm_compute; reflexivity|].
  apply andb_prop in H. destruct H as [H H3]. apply andb_prop in H. destruct H as [H1 H2].
  apply runs_to_ok in H3. destruct H3 as (vs&w''&R2&E). apply zs_eqb_eq in E. subst vs.
  assert (Hw : wok w).
  { unfold wok, w; cbn [pages maxpages gnext gavail mem]. repeat (split; [lia|]). intros a Ha.
    unfold m. rewrite rd_store_be_out by lia. reflexivity. }
  exists k, w, w', w''. split; [split; [discriminate|reflexivity]|]. split; [exact Hw|]. split; [reflexivity|].
  split; [exact R|]. split; [eapply in_first; [exact Hw|exact R]|]. split; [exact Hw|].
  split; [lia|]. split; [lia|exact R2].
Qed.

(** C64, refuted.  The code meant to produce the [signer] argument of a public function gives its
    caller no value, whatever the state: the emitted function is declared without results. *)
Theorem C64_signer_refuted : forall w vs w', returns inject_signer [] w vs w' -> vs = [].
Proof.
  intros w vs w' (n&R&_). unfold inject_signer in R. cbn [runf List.length Nat.eqb negb] in R.
  destruct (exec n _ _ _ w); try discriminate; injection R as <- _; reflexivity.
Qed.
Print Assumptions C64_signer_refuted.

(** It does run to its end, so the missing value is not due to a trap. *)
Example C64_example : exists w', returns inject_signer [] (w_ex []) [] w' /\ load_be 20 (mem w') 1012 = 161.
Proof.
  destruct (runs_to_vals 200 inject_signer [] (w_ex []) [] (fun w' => load_be 20 (mem w') 1012 =? 161)) as (w'&R&H); [vm_compute; reflexivity|].
  exists w'. split; [exact R|lia].
Qed.
