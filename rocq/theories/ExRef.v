(** * A concrete value for the examples of PropsRef.v. *)

From Verif Require Import SpecInt Spec Tac RtAlloc RtErr SpecVal LemVal RtCopy RtVec RtVec2 SpecVec LemVec ExVec SpecRef RtRef LemRef.
Ltac Zify.zify_post_hook ::= idtac.

(** A struct at 604 (reference to it at 600) with three fields: u64 77 (at 620); an enum (at 628) in its second variant, with
    u128 5 (at 640) and vector<u64> [11; 12] (at 656); a vector (at 700) of two structs with one u32 each, 8 and 9.
    A spare u128 6 at 740, and a spare vector<u64> [] at 756. *)
Definition m_ref : memory :=
  store 4 (store 4 (store 4 (store 4 (store 8 (store 4 (store 4 (store 4 (store 16 (store 4 (store 4 (store 8 (store 8
  (store 4 (store 4 (store 4 (store 4 (store 4 (store 4 (store 4 (store 4 (store 16 zmem
   740 6) 728 9) 724 728) 720 8) 716 720) 712 724) 708 716) 704 2) 700 2)
   672 12) 664 11) 660 2) 656 2) 640 5) 636 656) 632 640) 628 1) 620 77) 612 700) 608 628) 604 620) 600 604.
Definition T_point : ty := TStruct false [TU32].
Definition T_choice : ty := TEnum [[]; [TU128; TVec TU64]].
Definition T_ref : ty := TStruct false [TU64; T_choice; TVec T_point].
Definition v_nums : val := VVec [VInt 11; VInt 12].
Definition v_choice : val := VEnum 1 [VInt 5; v_nums].
Definition v_points : val := VVec [VStruct 0 [VInt 8]; VStruct 0 [VInt 9]].
Definition v_ref : val := VStruct 0 [VInt 77; v_choice; v_points].
Definition w_ref : world := wm m_ref 800.
Lemma w_ref_running : running ep0 w_ref.
Proof. split; [|split; [exact ep0_ok|vm_compute; reflexivity]]. unfold w_ref, m_ref. repeat (apply wm_store_ok; [|lia]). apply wm_ok. lia. Qed.
Lemma w_ref_ref : ref_to w_ref T_ref 600 v_ref (between 604 732).
Proof.
  split; [nums|]. split; [nums|]. split; [nums|]. change (load 4 (mem w_ref) 600) with 604. unfold field_of. cbn [is_stack T_ref].
  cbn [vrep]. exists 0, [VInt 77; v_choice; v_points], (between 616 732). nums. cbn [map fields].
  exists (between 620 628), (between 628 732). split; [nums|]. split; [|nums].
  exists (between 628 680), (between 700 732). split; [|split; [|nums]].
  - change (load 4 (mem w_ref) (604 + 4)) with 628. unfold field_of. cbn [is_stack T_choice vrep]. exists 1%nat, [VInt 5; v_nums], (between 640 680). nums.
    cbn [map nth_error fields]. exists (between 640 656), (between 656 680). split; [nums|]. split; [|nums].
    exists (between 656 680), empty. split; [|split; [exact Logic.I|nums]]. change (load 4 (mem w_ref) (628 + 4 + 4)) with 656. unfold field_of. cbn [is_stack vrep].
    exists [VInt 11; VInt 12], 2, empty. nums. cbn [elems vrep]. exists empty, empty. nums. exists empty, empty. nums.
  - exists (between 700 732), empty. split; [|split; [exact Logic.I|nums]]. change (load 4 (mem w_ref) (604 + 4 + 4)) with 700. unfold field_of. cbn [is_stack vrep].
    change (esize T_point) with 4%nat. exists [VStruct 0 [VInt 8]; VStruct 0 [VInt 9]], 2, (between 716 732). nums. cbn [elems]. exists (between 716 724), (between 724 732).
    split; [|split; [|nums]].
    + change (load 4 (mem w_ref) (700 + 8)) with 716. cbn [vrep T_point]. exists 0, [VInt 8], (between 720 724). nums. cbn [map fields].
      exists (between 720 724), empty. nums.
    + exists (between 724 732), empty. split; [|split; [exact Logic.I|nums]]. change (load 4 (mem w_ref) (700 + 8 + Z.of_nat 4)) with 724. cbn [vrep T_point].
      exists 0, [VInt 9], (between 728 732). nums. cbn [map fields]. exists (between 728 732), empty. nums.
Qed.
Lemma part_root : part T_ref v_ref [] T_ref v_ref.
Proof. apply part_here. Qed.
Lemma part_choice : part T_ref v_ref [1%nat] T_choice v_choice.
Proof. eapply part_field; try reflexivity. apply part_here. Qed.
Lemma part_u128 : part T_ref v_ref [1%nat; 0%nat] TU128 (VInt 5).
Proof. eapply part_field; try reflexivity. eapply part_variant; try reflexivity. apply part_here. Qed.
Lemma part_nums : part T_ref v_ref [1%nat; 1%nat] (TVec TU64) v_nums.
Proof. eapply part_field; try reflexivity. eapply part_variant; try reflexivity. apply part_here. Qed.
Lemma part_points : part T_ref v_ref [2%nat] (TVec T_point) v_points.
Proof. eapply part_field; try reflexivity. apply part_here. Qed.
Lemma part_point : part T_ref v_ref [2%nat; 1%nat] T_point (VStruct 0 [VInt 9]).
Proof. eapply part_field; try reflexivity. eapply part_elem; try reflexivity. apply part_here. Qed.
Lemma part_u32 : part T_ref v_ref [2%nat; 1%nat; 0%nat] TU32 (VInt 9).
Proof. eapply part_field; try reflexivity. eapply part_elem; try reflexivity. eapply part_field; try reflexivity. apply part_here. Qed.
Lemma w_ref_spare : owns w_ref TU128 (VInt 6) 740 (between 740 756).
Proof. split; [|nums]. cbn [vrep]. nums. Qed.
Lemma w_ref_spare_vec : owns w_ref (TVec TU64) (VVec []) 756 (between 756 764).
Proof. split; [|nums]. cbn [vrep]. exists [], 0, empty. nums. Qed.
Lemma runs_by : forall n is s l w s' l' (f : world -> bool),
  match exec n is s l w with ONormal a b w' => if list_eq_dec Z.eq_dec a s' then if list_eq_dec Z.eq_dec b l' then f w' else false else false | _ => false end = true ->
  exists w', runs is s l w s' l' w' /\ f w' = true.
Proof.
  intros n is s l w s' l' f H. destruct (exec n is s l w) as [a b w'| | | | |] eqn:E; try discriminate.
  destruct (list_eq_dec Z.eq_dec a s') as [->|]; [|discriminate]. destruct (list_eq_dec Z.eq_dec b l') as [->|]; [|discriminate].
  exists w'. split; [exists n; exact E|exact H].
Qed.
