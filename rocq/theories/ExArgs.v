(** * Concrete states for the examples of PropsArgs.v. *)

From Verif Require Import SpecInt Spec Tac RtAlloc RtErr SpecVal LemVal RtCopy RtVec RtVec2 SpecVec LemVec ExVec SpecRef RtRef LemRef ExRef SpecArgs RtArgs LemArgs.
Ltac Zify.zify_post_hook ::= idtac.

(** The value of ExRef.v with a second reference to it at 780. *)
Definition w_two : world := wm (store 4 m_ref 780 604) 800.
Lemma w_two_ok : wok w_two.
Proof. unfold w_two. apply wm_store_ok; [|lia]. exact (proj1 w_ref_running). Qed.
Lemma w_two_agree : forall F, sub F (between 0 780) -> agree (mem w_ref) (mem w_two) F.
Proof. intros F S y Y. apply S in Y. unfold between in Y. cbn [mem w_two w_ref wm]. apply rd_store_out. lia. Qed.
Lemma w_two_refs : ref_to w_two T_ref 600 v_ref (between 604 732) /\ ref_to w_two T_ref 780 v_ref (between 604 732).
Proof.
  destruct w_ref_ref as (_&_&_&R). assert (R' : field_of (mem w_two) T_ref (vrep (mem w_two) T_ref) v_ref 604 (between 604 732)).
  { eapply field_of_agree; [apply w_two_agree|exact R]. unfold sub, between; intros; lia. }
  split; (split; [nums|split; [nums|split; [nums|]]]); exact R'.
Qed.
Lemma w_two_spare : owns w_two TU128 (VInt 6) 740 (between 740 756).
Proof. split; [|nums]. eapply vrep_ext; [apply w_two_agree|exact (proj1 w_ref_spare)]. unfold sub, between; intros; lia. Qed.
(** The second reference to the vector of ExVec.v. *)
Lemma w_u64_second : vec_ref w_u64 TU64 484 [VInt 7; VInt 9] (between 500 524).
Proof. split; [nums|]. split; [nums|]. split; [nums|]. exact (proj1 w_u64_owns). Qed.
Lemma w_u64_words : words (mem w_u64) (plain_fields [TU64; TU64; TU64; TU64]) [VInt 1; VInt 2; VInt 3; VInt 4] [1; 2; 3; 4] empty.
Proof.
  cbn [plain_fields map words]. repeat (exists empty, empty; split; [unfold word; cbn [fst snd vrep]; nums|split; [cbn [snd esize]; lia|split; [|nums]]]). exact Logic.I.
Qed.
