(** * Concrete objects for the examples of PropsCacheTree.v. *)

From Verif Require Import SpecInt Spec Tac RtAlloc RtErr RtSwap RtCopy SpecAbi SpecVal LemVal SpecVec LemVec ExVec SpecStor SpecLayout RtStor RtEnumPos RtStore LemStore RtSave RtLoad RtLoadObj LemPlace LemObj ExObj ExMove SpecCache RtCache SpecWrap RtWrap RtWrapLoad RtWrapObj ExWrap SpecTto RtTto LemTto ExTto SpecTake RtTake SpecCacheTree LemCacheTree.
Ltac Zify.zify_post_hook ::= idtac.

(** As in ExTto.v, the object 9 with the object 11 inside; then the object 15 of the account 161 at 1000, with a u64 78, to
    which there is a reference at 1072; then a deleted object at 1120 (id 16), to which there is a reference at 1192. *)
Definition m_other (x o id v : Z) (m : memory) : memory :=
  store 4 (store 8 (store_be 32 (store_be 32 (store 4 (store 4 (store 4 (store 4 m x (x + 8)) (x + 8) (x + 12)) (x + 12) (x + 16)) (x + 4) (x + 60)) (x + 16) id) (x - 32) o) (x + 60) v) (x + 72) x.
Definition m_trees : memory := m_other 1120 0 16 79 (m_other 1000 161 15 78 (m_tto 161)).
Definition w_trees (st : Z -> Z) : world := mkW m_trees 1 100 1200 (65536 - 1200) 0 (mkHost hash2 st st [] 161 162 0 1 1 0 0 [] [] ext0).
Lemma w_trees_ok : forall st, wok (w_trees st).
Proof.
  intros st. apply (wh_ok m_trees 1200 st). unfold m_trees, m_other, m_tto, m_child, m_parent. repeat first [apply wm_store_be_ok; [|cbn; lia]|apply wm_store_ok; [|lia]]. apply wm_ok. lia.
Qed.
Lemma w_trees_statics : forall st, statics (w_trees st).
Proof. intros st. repeat split; vm_compute; reflexivity. Qed.
Lemma w_trees_1 : forall st, tree_at (mem (w_trees st)) fs_tto 161 9 (vs_tto 161) 564 (between 532 900).
Proof.
  intros st. change (mem (w_trees st)) with m_trees. eapply tree_ext; [|apply (w_tto_tree st)]. change (mem (w_tto 161 st)) with (m_tto 161).
  intros y Hy. unfold between in Hy. unfold m_trees, m_other. repeat first [rewrite rd_store_be_out by (change (Z.of_nat 32) with 32; lia)|rewrite rd_store_out by (change (Z.of_nat 4) with 4; change (Z.of_nat 8) with 8; lia)]. reflexivity.
Qed.
Lemma w_trees_other : forall st x o id v, (x, o, id, v) = (1000, 161, 15, 78) \/ (x, o, id, v) = (1120, 0, 16, 79) ->
  tree_at (mem (w_trees st)) [Value TU64] o id [VInt v] x (between (x - 32) (x + 68)).
Proof.
  intros st x o id v E. change (mem (w_trees st)) with m_trees. 
  destruct E as [E|E]; injection E as -> -> -> ->; 
  [exists 1008, 1012, 1016, (between 1060 1068)|exists 1128, 1132, 1136, (between 1180 1188)]; do 5 (split; [vm_compute; reflexivity|]); cbn [List.length];
  do 5 (split; [nums|]); do 2 (split; [unfold disj, union, between; intros; lia|]); cbn [map fields];
  [exists (between 1060 1068), empty|exists (between 1180 1188), empty]; (split; [cbn [shape_at]; nums|]; split; [exact I|nums]).
Qed.
Definition tree_1 : held_tree := HeldTree 0 632 5 fs_tto 161 9 (vs_tto 161) (between 532 900) [[VInt 4]].
Definition tree_2 : held_tree := HeldTree 1 1072 7 [Value TU64] 161 15 [VInt 78] (between 968 1068) [].
Definition tree_3 : held_tree := HeldTree 2 1192 7 [Value TU64] 0 16 [VInt 79] (between 1088 1188) [].
Definition trees : list held_tree := [tree_1; tree_2; tree_3].

Lemma trees_in_hand : forall st l, Forall (tree_in_hand (w_trees st) (632 :: 1072 :: 1192 :: l)) trees.
Proof.
  intros st l. constructor; [|constructor; [|constructor; [|constructor]]]; (split; [reflexivity|]); (split; [vm_compute; discriminate|]); (split; [vm_compute; discriminate|]);
  (split; [|intros y; unfold heap, between; change (gnext (w_trees st)) with 1200; cbn [t_area tree_1 tree_2 tree_3]; unfold between; lia]).
  - change (load 4 (mem (w_trees st)) (t_ref tree_1)) with 564. apply w_trees_1.
  - change (load 4 (mem (w_trees st)) (t_ref tree_2)) with 1000. apply (w_trees_other st 1000). auto.
  - change (load 4 (mem (w_trees st)) (t_ref tree_3)) with 1120. apply (w_trees_other st 1120). auto.
Qed.
Lemma trees_savable : Forall (tree_savable (w_trees st_tto)) trees.
Proof.
  constructor; [|constructor; [|constructor; [|constructor]]]; (split; [reflexivity|]); (split; [reflexivity|]); (split; [cbn [t_hash tree_1 tree_2 tree_3]; lia|]); intros N.
  - split; [exact st_tto_there|]. do 2 (split; [apply separateb_ok; vm_compute; reflexivity|]).
    unfold lastings, tree_1, fs_tto, vs_tto, VObj; cbn [t_shapes t_vals map along lasting no_shrink]; repeat split.
  - split; [constructor|]. do 2 (split; [apply separateb_ok; vm_compute; reflexivity|]).
    unfold lastings, tree_2; cbn [t_shapes t_vals map along lasting no_shrink]; repeat split.
  - exfalso. apply N. reflexivity.
Qed.
(** Slots of two lists that have none in common. *)
Definition apart_slots (l l' : list (Z * Z)) : bool := forallb (fun a => forallb (fun b => (snd a <? fst b) || (snd b <? fst a)) l') l.
Lemma apart_slots_ok : forall l l', apart_slots l l' = true -> forall y, covers l y -> covers l' y -> False.
Proof.
  intros l l' E y (a&Ha&Ya) (b&Hb&Yb). unfold apart_slots in E. rewrite forallb_forall in E. specialize (E a Ha). rewrite forallb_forall in E. specialize (E b Hb).
  apply orb_prop in E. destruct E as [E|E]; apply Z.ltb_lt in E; lia.
Qed.
Lemma trees_distinct : forall st, distinct_trees (host (w_trees st)) trees.
Proof.
  intros st. constructor; [|constructor; [|constructor; [|constructor]]].
  - constructor; [|constructor; [|constructor]]; (split; [apply apart_slots_ok; vm_compute; reflexivity|]); cbn [t_area t_ref tree_1 tree_2 tree_3]; unfold disj, union, between; intros; lia.
  - constructor; [|constructor]; (split; [apply apart_slots_ok; vm_compute; reflexivity|]); cbn [t_area t_ref tree_1 tree_2 tree_3]; unfold disj, union, between; intros; lia.
  - constructor.
Qed.
