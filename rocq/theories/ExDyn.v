(** * Concrete memories for the examples of PropsDyn.v. *)

From Verif Require Import SpecInt Spec Tac RtAlloc RtErr RtSwap RtCopy SpecAbi SpecVal LemVal SpecVec LemVec ExVec SpecStor SpecLayout RtStor RtStore LemStore RtSave RtLoad RtLoadObj LemPlace LemObj ExObj SpecDyn RtDyn LemDyn RtChild LemChild.
Ltac Zify.zify_post_hook ::= idtac.

(** The parent's address at 500; the names [[1]; [2]] at 532, [[1; 2]] at 572, [] at 600 and [7; 8] at 608. *)
Definition m_names : memory :=
  store 4 (store 4 (store 4 (store 4 (store 1 (store 4 (store 4 (store 1
   (store 4 (store 4 (store 4 (store 4 (store 4 (store 1 (store 1
   (store 4 (store 4 (store 1 (store 1 (store_be 32 zmem 500 77)
   617 8) 616 7) 612 2) 608 2)
   593 2) 592 1) 588 2) 584 2) 580 584) 576 1) 572 1)
   568 2) 564 1) 560 1)
   556 1) 552 1) 548 1) 544 560) 540 548.
Definition m_names' : memory := store 4 (store 4 m_names 536 2) 532 2.
Definition w_names : world := wm m_names' 700.
Lemma w_names_ok : wok w_names.
Proof. unfold w_names, m_names', m_names. repeat first [apply wm_store_be_ok; [|cbn; lia]|apply wm_store_ok; [|lia]]. apply wm_ok. lia. Qed.

Lemma names_two : name_at w_names (TVec (TVec TU8)) two_bytes 532 (between 532 572).
Proof.
  split; [exact w_names_ok|]. split; [|nums]. cbn [vrep two_bytes]. exists [VVec [VInt 1]; VVec [VInt 2]], 2, (between 548 572). nums.
  cbn [elems]. exists (between 548 560), (between 560 572). nums.
  - cbn [vrep]. exists [VInt 1], 1, empty. nums. cbn [elems vrep]. exists empty, empty. nums.
  - exists (between 560 572), empty. nums. cbn [vrep]. exists [VInt 2], 1, empty. nums. cbn [elems vrep]. exists empty, empty. nums.
Qed.
Lemma names_one : name_at w_names (TVec (TVec TU8)) one_string 572 (between 572 600).
Proof.
  split; [exact w_names_ok|]. split; [|nums]. cbn [vrep one_string]. exists [VVec [VInt 1; VInt 2]], 1, (between 584 600). nums.
  cbn [elems]. exists (between 584 600), empty. nums. cbn [vrep]. exists [VInt 1; VInt 2], 2, empty. nums. cbn [elems vrep]. exists empty, empty. nums.
  exists empty, empty. nums.
Qed.
Lemma names_empty : name_at w_names (TVec TU8) (VVec []) 600 (between 600 608).
Proof. split; [exact w_names_ok|]. split; [|nums]. cbn [vrep]. exists [], 0, empty. nums. Qed.
Lemma names_string : name_at w_names (TVec TU8) (VVec [VInt 7; VInt 8]) 608 (between 608 620).
Proof.
  split; [exact w_names_ok|]. split; [|nums]. cbn [vrep]. exists [VInt 7; VInt 8], 2, empty. nums. cbn [elems vrep]. exists empty, empty. nums.
  exists empty, empty. nums.
Qed.

(** The object of ExObj at 564 with id 9 at 620, the parent's address at 700 and its uid at 732. *)
Definition m_child : memory := store 4 (store 4 (store_be 32 (store_be 32 (store_be 32 m_flat 160 1) 192 2) 700 77) 736 700) 732 736.
Definition w_child (st : Z -> Z) : world := wh m_child 740 st.
Lemma w_child_ok : forall st, wok (w_child st).
Proof.
  intros st. apply wh_ok. unfold m_child, m_flat. repeat first [apply wm_store_be_ok; [|cbn; lia]|apply wm_store_ok; [|lia]]. apply wm_ok. lia.
Qed.
Lemma w_child_statics : forall st, statics (w_child st).
Proof. intros st. repeat split; vm_compute; reflexivity. Qed.
Lemma w_child_object : forall st, object_at (mem (w_child st)) fs_flat 161 9 vs_flat 564 (between 532 700).
Proof.
  intros st. eapply object_agree; [|exact w_flat_object]. intros y Hy. unfold between in Hy. cbn [w_child wh mem]. unfold m_child.
  rewrite !rd_store_out, !rd_store_be_out by lia. reflexivity.
Qed.
