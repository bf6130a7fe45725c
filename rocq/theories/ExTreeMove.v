(** * Concrete objects for the examples of PropsTreeMove.v. *)

From Verif Require Import SpecInt Spec Tac RtAlloc RtErr RtSwap RtCopy SpecAbi SpecVal LemVal SpecVec LemVec ExVec SpecStor SpecLayout RtStor RtEnumPos RtStore LemStore RtSave RtLoad RtLoadObj LemPlace LemObj ExObj ExMove SpecWrap RtWrap RtWrapLoad RtWrapObj ExWrap SpecTto RtTto LemTto ExTto RtTreeMove LemTreeMove.
Ltac Zify.zify_post_hook ::= idtac.

(** As in ExTto.v, with the owner [o] of the object 9 and the address 4660 of a recipient at 468. *)
Definition m_hand (o : Z) : memory := store_be 32 (store_be 32 (m_tto 161) 532 o) 468 4660.
Definition w_hand (o : Z) (st : Z -> Z) : world := mkW (m_hand o) 1 100 900 (65536 - 900) 0 (mkHost hash2 st st [] 161 162 0 1 1 0 0 [] [] ext0).
Lemma w_hand_ok : forall o st, wok (w_hand o st).
Proof.
  intros o st. apply (wh_ok (m_hand o) 900 st). unfold m_hand, m_tto, m_child, m_parent. repeat first [apply wm_store_be_ok; [|cbn; lia]|apply wm_store_ok; [|lia]]. apply wm_ok. lia.
Qed.
Lemma w_hand_statics : forall o st, o = 161 \/ o = 1 -> statics (w_hand o st).
Proof. intros o st [->| ->]; repeat split; vm_compute; reflexivity. Qed.
Lemma w_hand_tree : forall o st, o = 161 \/ o = 1 -> tree_at (mem (w_hand o st)) fs_tto o 9 (vs_tto 161) 564 (between 532 900).
Proof.
  intros o st Ho. change (mem (w_hand o st)) with (m_hand o). apply (tree_reown (mem (w_tto 161 st)) (m_hand o) fs_tto 161 o 9 (vs_tto 161) 564 (between 532 900) (w_tto_tree st)).
  - intros y Hy Ny. unfold m_hand. unfold within, between in *. rewrite !rd_store_be_out by (change (Z.of_nat 32) with 32; lia). reflexivity.
  - destruct Ho as [->| ->]; vm_compute; reflexivity.
Qed.

(** The account 161 has both objects; so far the object 12 was in the object 9. *)
Definition st_hand (y : Z) : Z := if y =? home hash2 161 9 + 1 then 12 else st_tto y.
Lemma st_hand_there : Forall2 (was_there hash2 st_hand) (departures fs_tto 161 9 (vs_tto 161)) [[VInt 70; VInt 12]; [VInt 4]].
Proof.
  constructor; [|constructor; [|constructor]].
  - split; [discriminate|]. split; [repeat constructor|]. split; [constructor; [exists 70; split; [reflexivity|cbn; lia]|constructor; [exists 12; split; [reflexivity|cbn; lia]|constructor]]|].
    split; [|split; [|exact I]]; [exists 70|exists 12]; (split; [reflexivity|]); vm_compute; repeat split; discriminate.
  - split; [discriminate|]. split; [repeat constructor|]. split; [constructor; [exists 4; split; [reflexivity|cbn; lia]|constructor]|].
    split; [|exact I]. exists 4. split; [reflexivity|]. vm_compute. repeat split; discriminate.
Qed.
