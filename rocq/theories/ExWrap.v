(** * A concrete object with objects inside, for the examples of PropsWrap.v. *)

From Verif Require Import SpecInt Spec Tac RtAlloc RtErr RtSwap RtCopy SpecAbi SpecVal LemVal SpecVec LemVec ExVec SpecStor SpecLayout RtStor RtStore LemStore RtSave RtLoad RtLoadObj LemPlace LemObj ExObj ExMove SpecWrap RtWrap RtWrapLoad RtWrapObj.
Ltac Zify.zify_post_hook ::= idtac.

(** The object 9 of the account 161 at 564, in slot 7 (at 500): a u64 77, the object 11 (at 700), and a struct (at 640) with a
    bool and the object 12 (at 832).  The objects inside have one field, a u64.  The owner of 12 is not yet the object 9:
    it has just been put inside. *)
Definition fs_wrap : list shape := [Value TU64; Object 6 [Value TU64]; Group [Value TBool; Object 6 [Value TU64]]].
Definition vs_wrap (o : Z) : list val := [VInt 77; VObj 9 11 [VInt 5]; VStruct 0 [VInt 1; VObj o 12 [VInt 6]]].
Definition m_wrap : memory :=
  store 8 (store 8 (store_be 32 (store_be 32 (store_be 32 (store_be 32 (store 4 (store 4 (store 4 (store 4 (store 4 (store 4 (store 4 (store 4
   (store 1 (store 4 (store 4
   (store_be 32 (store_be 32 (store_be 32 (store 8
   (store 4 (store 4 (store 4 (store 4 (store 4 (store 4 (store 32 zmem 32 1)
   564 580) 580 584) 584 588) 568 620) 572 700) 576 640)
   620 77) 588 9) 532 161) 500 7)
   640 648) 644 832) 648 1)
   700 708) 708 712) 712 716) 704 760) 832 840) 840 844) 844 848) 836 884)
   716 11) 848 12) 668 9) 800 161) 760 5) 884 6.
Definition w_wrap (st : Z -> Z) : world := mkW m_wrap 1 100 900 (65536 - 900) 0 (mkHost hash2 st st [] 161 162 0 1 1 0 0 [] [] ext0).

Lemma w_wrap_ready : forall st, ready ep0 (w_wrap st) 500 /\ zeros (w_wrap st) /\ load_be 32 (mem (w_wrap st)) 500 = 7.
Proof.
  intros st. split; [|repeat split; vm_compute; reflexivity]. split; [|split; [exact ep0_ok|split; [vm_compute; reflexivity|cbn; lia]]]. apply (wh_ok m_wrap 900 st). unfold m_wrap.
  repeat first [apply wm_store_be_ok; [|cbn; lia]|apply wm_store_ok; [|lia]]. apply wm_ok. lia.
Qed.
Lemma w_wrap_tree : forall st, tree_at (mem (w_wrap st)) fs_wrap 161 9 (vs_wrap 161) 564 (between 532 900).
Proof.
  intros st. change (mem (w_wrap st)) with m_wrap. exists 580, 584, 588, (between 620 900). do 5 (split; [vm_compute; reflexivity|]). unfold fs_wrap. cbn [List.length].
  do 5 (split; [nums|]). do 2 (split; [unfold disj, union, between; intros; lia|]). cbn [map fields vs_wrap].
  exists (between 620 628), (between 640 900). split; [cbn [shape_at]; nums|]. split; [|nums].
  exists (between 668 768), (union (between 640 650) (between 800 900)). split; [|split; [|unfold disj, sub, union, between; repeat split; intros; lia]].
  - change (load 4 m_wrap (564 + 4 + 4)) with 700. exists 9, 11, [VInt 5]. split; [reflexivity|]. exists 708, 712, 716, (between 760 768). do 5 (split; [vm_compute; reflexivity|]). cbn [List.length].
    do 5 (split; [nums|]). do 2 (split; [unfold disj, union, between; intros; lia|]). cbn [map fields].
    exists (between 760 768), empty. split; [cbn [shape_at]; nums|]. split; [exact I|nums].
  - exists (union (between 640 650) (between 800 900)), empty. split; [|split; [exact I|unfold disj, sub, empty; repeat split; intros; tauto]].
    change (load 4 m_wrap (564 + 4 + 4 + 4)) with 640. exists [VInt 1; VObj 161 12 [VInt 6]], (union (between 648 650) (between 800 900)). split; [reflexivity|]. cbn [List.length].
    split; [unfold sub, union, between; intros; lia|]. split; [unfold sub, union, between; intros; lia|]. split; [unfold disj, union, between; intros; lia|]. cbn [map fields].
    exists (between 648 649), (between 800 900). split; [cbn [shape_at]; nums|]. split; [|unfold disj, sub, union, between; repeat split; intros; lia].
    exists (between 800 900), empty. split; [|split; [exact I|nums]].
    change (load 4 m_wrap (640 + 4)) with 832. exists 161, 12, [VInt 6]. split; [reflexivity|]. exists 840, 844, 848, (between 884 892). do 5 (split; [vm_compute; reflexivity|]). cbn [List.length].
    do 5 (split; [nums|]). do 2 (split; [unfold disj, union, between; intros; lia|]). cbn [map fields].
    exists (between 884 892), empty. split; [cbn [shape_at]; nums|]. split; [exact I|nums].
Qed.

Definition apartb (a b : Z * Z) : bool := (snd a <? fst b) || (snd b <? fst a).
Fixpoint separateb (l : list (Z * Z)) : bool :=
  match l with [] => true | a :: l' => forallb (apartb a) l' && (0 <=? fst a) && (snd a <? 2 ^ 256) && separateb l' end.
Lemma separateb_ok : forall l, separateb l = true -> separate l.
Proof.
  induction l as [|a l IH]; intros E; [split; constructor|]. cbn [separateb] in E. apply andb_true_iff in E. destruct E as (E&E4). apply andb_true_iff in E. destruct E as (E&E3). apply andb_true_iff in E. destruct E as (E1&E2).
  destruct (IH E4) as (S1&S2). split; constructor; auto.
  - apply Forall_forall. intros b Hb. rewrite forallb_forall in E1. specialize (E1 b Hb). unfold apartb, apart in *. apply orb_true_iff in E1. rewrite !Z.ltb_lt in E1. exact E1.
  - apply Z.leb_le in E2. apply Z.ltb_lt in E3. split; assumption.
Qed.
Lemma w_wrap_separate : separate (tree_slots hash2 fs_wrap 9 (vs_wrap 161) 7).
Proof. apply separateb_ok. vm_compute. reflexivity. Qed.
Lemma w_wrap_lasting : forall st, lastings hash2 st fs_wrap 9 (vs_wrap 161) (7, 8).
Proof. intros st. unfold lastings, fs_wrap, vs_wrap, VObj. cbn [map along lasting no_shrink]. repeat split. Qed.

(** The slots of the two objects inside. *)
Definition k_wrap (id : Z) : Z := home hash2 9 id.
Lemma w_wrap_saved : runs_to 3000 (save_tree ep0 5 fs_wrap) [564; 500] (w_wrap (fun _ => 12345)) (fun r w' =>
  zs_eqb r [] && (stor (host w') 7 =? bswap 8 5 + 77 * 2 ^ 64) && (stor (host w') 8 =? 11) && (stor (host w') 9 mod 256 =? 1) && (stor (host w') 10 =? 12) && (stor (host w') 11 =? 12345) &&
  (stor (host w') (k_wrap 11) =? bswap 8 6 + 5 * 2 ^ 64) && (stor (host w') (k_wrap 12) =? bswap 8 6 + 6 * 2 ^ 64)) = true.
Proof. vm_compute. reflexivity. Qed.

(** What saving leaves, and loading from it: the object 12 now has the owner 9. *)
Definition st_wrap (y : Z) : Z :=
  if y =? 7 then bswap 8 5 + 77 * 2 ^ 64 else if y =? 8 then 11 else if y =? 9 then 1 else if y =? 10 then 12 else
  if y =? k_wrap 11 then bswap 8 6 + 5 * 2 ^ 64 else if y =? k_wrap 12 then bswap 8 6 + 6 * 2 ^ 64 else 0.
Lemma w_wrap_loaded : runs_to 3000 (load_tree ep0 5 fs_wrap) [500; 588; 532] (w_wrap st_wrap) (fun r w' => match r with
  | [x] => let m := mem w' in let c1 := load 4 m (x + 8) in let g := load 4 m (x + 12) in let c2 := load 4 m (g + 4) in
      (load_be 32 m (x - 32) =? 161) && (load 8 m (load 4 m (x + 4)) =? 77) &&
      (load_be 32 m (c1 - 32) =? 9) && (load_be 32 m (load 4 m (load 4 m (load 4 m c1))) =? 11) && (load 8 m (load 4 m (c1 + 4)) =? 5) &&
      (load 1 m (load 4 m g) =? 1) && (load_be 32 m (c2 - 32) =? 9) && (load_be 32 m (load 4 m (load 4 m (load 4 m c2))) =? 12) && (load 8 m (load 4 m (c2 + 4)) =? 6)
  | _ => false end) = true.
Proof. vm_compute. reflexivity. Qed.
