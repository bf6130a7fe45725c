(** * Concrete objects for the examples of PropsTto.v. *)

From Verif Require Import SpecInt Spec Tac RtAlloc RtErr RtSwap RtCopy SpecAbi SpecVal LemVal SpecVec LemVec ExVec SpecStor SpecLayout RtStor RtEnumPos RtStore LemStore RtSave RtLoad RtLoadObj LemPlace LemObj ExObj ExMove SpecWrap RtWrap RtWrapLoad RtWrapObj ExWrap SpecTto RtTto LemTto.
Ltac Zify.zify_post_hook ::= idtac.

(** The object 9 of the account 161 at 564: a u64 77 and the object 11 (at 700), which has one field, a u64, and was an
    object of the account 161 before.  At 632: a reference to the object 9. *)
Definition fs_tto : list shape := [Value TU64; Object 6 [Value TU64]].
Definition vs_tto (o : Z) : list val := [VInt 77; VObj o 11 [VInt 5]].
Definition m_child (o : Z) (m : memory) : memory :=
  store 8 (store_be 32 (store_be 32 (store 4 (store 4 (store 4 (store 4 m 700 708) 708 712) 712 716) 704 760) 716 11) 668 o) 760 5.
Definition m_parent : memory :=
  store 4 (store_be 32 (store_be 32 (store 4 (store 4 (store 4 (store_be 32 (store_be 32 (store 32 zmem 32 1) 160 1) 192 2)
   564 580) 580 584) 584 588) 588 9) 532 161) 632 564.
Definition m_tto (o : Z) : memory := m_child o (store 8 (store 4 (store 4 m_parent 568 620) 572 700) 620 77).
Definition w_tto (o : Z) (st : Z -> Z) : world := mkW (m_tto o) 1 100 900 (65536 - 900) 0 (mkHost hash2 st st [] 161 162 0 1 1 0 0 [] [] ext0).
Lemma w_tto_ok : forall o st, wok (w_tto o st).
Proof.
  intros o st. apply (wh_ok (m_tto o) 900 st). unfold m_tto, m_child, m_parent. repeat first [apply wm_store_be_ok; [|cbn; lia]|apply wm_store_ok; [|lia]]. apply wm_ok. lia.
Qed.
Lemma w_tto_statics : forall st, statics (w_tto 161 st).
Proof. intros st. repeat split; vm_compute; reflexivity. Qed.
Lemma w_tto_tree : forall st, tree_at (mem (w_tto 161 st)) fs_tto 161 9 (vs_tto 161) 564 (between 532 900).
Proof.
  intros st. change (mem (w_tto 161 st)) with (m_tto 161). exists 580, 584, 588, (between 620 900). do 5 (split; [vm_compute; reflexivity|]). unfold fs_tto. cbn [List.length].
  do 5 (split; [nums|]). do 2 (split; [unfold disj, union, between; intros; lia|]). cbn [map fields vs_tto].
  exists (between 620 628), (between 640 900). split; [cbn [shape_at]; nums|]. split; [|nums].
  exists (between 668 768), empty. split; [|split; [exact I|unfold disj, sub, empty, between; repeat split; intros; try lia; tauto]].
  change (load 4 (m_tto 161) (564 + 4 + 4)) with 700. exists 161, 11, [VInt 5]. split; [reflexivity|]. exists 708, 712, 716, (between 760 768). do 5 (split; [vm_compute; reflexivity|]). cbn [List.length].
  do 5 (split; [nums|]). do 2 (split; [unfold disj, union, between; intros; lia|]). cbn [map fields].
  exists (between 760 768), empty. split; [cbn [shape_at]; nums|]. split; [exact I|nums].
Qed.

(** Storage in which the account 161 has both objects; the object 11 has a 4 there. *)
Definition k_old : Z := home hash2 161 11.
Definition k_new : Z := home hash2 9 11.
Definition st_tto (y : Z) : Z := if y =? k_old then bswap 8 6 + 4 * 2 ^ 64 else if y =? home hash2 161 9 then bswap 8 5 + 70 * 2 ^ 64 else 0.
Lemma st_tto_there : Forall2 (was_there hash2 st_tto) (all_arrivals fs_tto 9 (vs_tto 161)) [[VInt 4]].
Proof.
  constructor; [|constructor]. split; [discriminate|]. split; [constructor; [reflexivity|constructor]|]. split; [constructor; [exists 4; split; [reflexivity|cbn; lia]|constructor]|].
  split; [|exact I]. exists 4. split; [reflexivity|]. vm_compute. repeat split; discriminate.
Qed.

(** The object 9 with a struct (at 640) that has a u64, 2147483648, and the object 11, which has been inside all the time. *)
Definition fs_str : list shape := [Group [Value TU64; Object 6 [Value TU64]]].
Definition vs_str : list val := [VStruct 0 [VInt 2147483648; VObj 9 11 [VInt 5]]].
Definition m_str : memory := m_child 9 (store 8 (store 4 (store 4 (store 4 m_parent 568 640) 640 648) 644 700) 648 2147483648).
Definition w_str (st : Z -> Z) : world := mkW m_str 1 100 900 (65536 - 900) 0 (mkHost hash2 st st [] 161 162 0 1 1 0 0 [] [] ext0).
Lemma w_str_ok : forall st, wok (w_str st).
Proof.
  intros st. apply (wh_ok m_str 900 st). unfold m_str, m_child, m_parent. repeat first [apply wm_store_be_ok; [|cbn; lia]|apply wm_store_ok; [|lia]]. apply wm_ok. lia.
Qed.
Lemma w_str_tree : forall st, tree_at (mem (w_str st)) fs_str 161 9 vs_str 564 (between 532 900).
Proof.
  intros st. change (mem (w_str st)) with m_str. exists 580, 584, 588, (between 640 900). do 5 (split; [vm_compute; reflexivity|]). unfold fs_str. cbn [List.length].
  do 5 (split; [nums|]). do 2 (split; [unfold disj, union, between; intros; lia|]). cbn [map fields vs_str].
  exists (between 640 900), empty. split; [|split; [exact I|unfold disj, sub, empty, between; repeat split; intros; try lia; tauto]].
  change (load 4 m_str (564 + 4)) with 640. exists [VInt 2147483648; VObj 9 11 [VInt 5]], (between 648 900). split; [reflexivity|]. cbn [List.length].
  split; [nums|]. split; [nums|]. split; [nums|]. cbn [map fields].
  exists (between 648 656), (between 668 900). split; [cbn [shape_at]; nums|]. split; [|unfold disj, sub, between; repeat split; intros; lia].
  exists (between 668 768), empty. split; [|split; [exact I|unfold disj, sub, empty, between; repeat split; intros; try lia; tauto]].
  change (load 4 m_str (640 + 4)) with 700. exists 9, 11, [VInt 5]. split; [reflexivity|]. exists 708, 712, 716, (between 760 768). do 5 (split; [vm_compute; reflexivity|]). cbn [List.length].
  do 5 (split; [nums|]). do 2 (split; [unfold disj, union, between; intros; lia|]). cbn [map fields].
  exists (between 760 768), empty. split; [cbn [shape_at]; nums|]. split; [exact I|nums].
Qed.

Lemma str_traps : forall st, traps (cache_tree ep0 5 fs_str) [632] (w_str st).
Proof. intros st. apply (traps_by_ok 2000). vm_compute. reflexivity. Qed.
