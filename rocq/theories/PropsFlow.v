(** * Control flow: C77. *)

From Coq Require Import ZArith List String Bool Lia.
From Verif Require Import SpecInt Wasm Logic RtCall SpecFlow RtFlow SpecShape LemFlow ExFlow ExObj.
Import ListNotations.
Open Scope Z_scope.

(** C77, for functions in which a conditional with two arms is a BrFalse that jumps forward (or a BrTrue that jumps back), and
    for shapes that are right for the graph of blocks.  A function compiled from a graph of basic blocks ends as the
    graph does: with the same trap, error return or result, and in the same world. *)
Theorem C77_control_flow_partial : forall P sh f np nl r ts code,
  build P sh = Some f -> right_shape P (mkA [] []) None sh -> right_order P sh -> translate (np + nl) f = Some code -> (r < np + nl)%nat ->
  forall m x args w o, starts sh None = Some x -> List.length args = np -> runs P m x (args ++ repeat 0 nl) w o ->
  evals (move_function np (S nl) r code ts) args w (result_of r (if ts then 0 else 1) o).
Proof. exact function_flow. Qed.
Print Assumptions C77_control_flow_partial.

(** A loop: for every [n] the compiled [while (i < n) { i = i + 1 }; i] returns [n]. *)
Example C77_loop_example : exists f code, build count count_shape = Some f /\ right_shape count (mkA [] []) None count_shape /\ right_order count count_shape /\
  translate 3 f = Some code /\ starts count_shape None = Some 0%nat /\
  forall n w, 0 <= n < 2 ^ 32 -> returns (move_function 1 3 2 code [SpecVal.TU32]) [n] w [n] w.
Proof.
  eexists. eexists. split; [vm_compute; reflexivity|]. split; [cbn; repeat split; eauto|]. split; [cbn; repeat split; auto|].
  split; [vm_compute; reflexivity|]. split; [reflexivity|]. intros n w Hn.
  assert (L : forall k i, 0 <= i -> n = i + Z.of_nat k -> forall r0 : Z, exists m, runs count m 2%nat [n; i; r0] w (OBr "result" [] [n; n; n] w)).
  { induction k as [|k IH]; intros i Hi E r0.
    - exists 1%nat. eapply (runs_go _ _ _ _ 4).
      + reflexivity.
      + cbn [exec step nth_error bindo binop]. replace (i <? n) with false by lia. reflexivity.
      + reflexivity.
      + assert (i = n) by lia. subst i. eapply (runs_end _ _ _ _ 4); reflexivity.
    - destruct (IH (i + 1) ltac:(lia) ltac:(lia) r0) as (m&R). exists (S (S m)). eapply (runs_go _ _ _ _ 4).
      + reflexivity.
      + cbn [exec step nth_error bindo binop]. replace (i <? n) with true by lia. reflexivity.
      + reflexivity.
      + eapply (runs_go _ _ _ _ 5).
        * reflexivity.
        * cbn [exec step nth_error bindo binop set_nth]. unfold wrapt, w32. rewrite Z.mod_small by lia. reflexivity.
        * reflexivity.
        * exact R. }
  destruct (L (Z.to_nat n) 0 ltac:(lia) ltac:(lia) 0) as (m&R).
  refine (C77_control_flow_partial count count_shape _ 1 2 2 [SpecVal.TU32] _ _ _ _ _ _ (S m) 0%nat [n] w (OBr "result" [] [n; n; n] w) _ _ _);
    [vm_compute; reflexivity|cbn; repeat split; eauto|cbn; repeat split; auto|vm_compute; reflexivity|lia|reflexivity|reflexivity|].
  eapply (runs_go _ _ _ _ 3); [reflexivity|reflexivity|reflexivity|exact R].
Qed.

(** A switch over three variants. *)
Example C77_switch_example : exists f code, build pick pick_shape = Some f /\ right_shape pick (mkA [] []) None pick_shape /\ right_order pick pick_shape /\
  translate 2 f = Some code /\ starts pick_shape None = Some 0%nat /\
  forall w, returns (move_function 1 2 1 code [SpecVal.TU32]) [0] w [10] w /\ returns (move_function 1 2 1 code [SpecVal.TU32]) [1] w [20] w /\
    returns (move_function 1 2 1 code [SpecVal.TU32]) [2] w [30] w.
Proof.
  eexists. eexists. split; [vm_compute; reflexivity|]. split; [cbn; repeat split; eauto|]. split; [cbn; repeat split; auto|].
  split; [vm_compute; reflexivity|]. split; [reflexivity|]. intros w.
  split; [|split]; exists 40%nat; (split; [reflexivity|discriminate]).
Qed.

(** In general C77 fails.  The shape does not depend on which kind of conditional branch ends a block, and neither does
    the code of its two arms: whichever arm comes first, the compiled [if] goes the wrong way for one of the two kinds. *)
Theorem C77_conditional_refuted : forall a b, (a = 2%nat /\ b = 4%nat) \/ (a = 4%nat /\ b = 2%nat) ->
  exists t f code v v', (t = TBrTrue 4%nat 2%nat \/ t = TBrFalse 4%nat 2%nat) /\
    build (choose t) (choose_shape a b) = Some f /\ (a = 2%nat -> right_shape (choose t) (mkA [] []) None (choose_shape a b)) /\
    starts (choose_shape a b) None = Some 0%nat /\ translate 2 f = Some code /\
    forall w, runs (choose t) 1 0%nat [1; 0] w (OBr "result" [] [1; v] w) /\
      returns (move_function 1 2 1 code [SpecVal.TU32]) [1] w [v'] w /\ v <> v'.
Proof.
  intros a b [[-> ->]|[-> ->]].
  - exists (TBrTrue 4%nat 2%nat). do 2 eexists. exists 2, 1. split; [auto|]. split; [vm_compute; reflexivity|].
    split; [intros _; cbn; repeat split; discriminate|]. split; [reflexivity|].
    split; [vm_compute; reflexivity|]. intros w. split; [|split; [exists 30%nat; split; [reflexivity|discriminate]|lia]].
    eapply (runs_go _ _ _ _ 2); [reflexivity|reflexivity|reflexivity|]. eapply (runs_end _ _ _ _ 4); reflexivity.
  - exists (TBrFalse 4%nat 2%nat). do 2 eexists. exists 1, 2. split; [auto|]. split; [vm_compute; reflexivity|].
    split; [discriminate|]. split; [reflexivity|].
    split; [vm_compute; reflexivity|]. intros w. split; [|split; [exists 30%nat; split; [reflexivity|discriminate]|lia]].
    eapply (runs_go _ _ _ _ 2); [reflexivity|reflexivity|reflexivity|]. eapply (runs_end _ _ _ _ 4); reflexivity.
Qed.
Print Assumptions C77_conditional_refuted.
