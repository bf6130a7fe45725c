(** * Property C80: references lead to the part they name.

    [part t v path t' v'] (SpecRef.v): following [path] into the value [v] leads to [v'].  [ref_to w t r v F] (SpecVec.v): [r] is a
    reference to the value [v] of type [t], stored in [F].  [cell_of]: the reference to the part at a path.  [put v path u]: the
    value [v] with the part at [path] replaced by [u]. *)

From Verif Require Import SpecInt Spec Tac RtAlloc RtErr SpecVal LemVal RtCopy RtCopy2 RtVec RtVec2 SpecVec LemVec ExVec SpecRef RtRef LemRef ExRef.

(** C80: from a reference to a struct, [borrow_field] makes the reference to the field it names. *)
Theorem C80_field_reference : forall w t r v F path k fs o vs i ti vi s l, wok w -> ref_to w t r v F ->
  part t v path (TStruct k fs) (VStruct o vs) -> nth_error fs i = Some ti -> nth_error vs i = Some vi ->
  part t v (path ++ [i]) ti vi /\
  runs (borrow_field i) (cell_of (mem w) v path r :: s) l w (cell_of (mem w) v (path ++ [i]) r :: s) l w.
Proof. exact borrow_field_ok. Qed.
Print Assumptions C80_field_reference.
Example C80_field_example : wok w_ref /\ ref_to w_ref T_ref 600 v_ref (between 604 732) /\ part T_ref v_ref [] T_ref v_ref /\
  runs (borrow_field 1) [600] [] w_ref [608] [] w_ref /\ cell_of (mem w_ref) v_ref [1%nat] 600 = 608.
Proof.
  split; [exact (proj1 w_ref_running)|]. split; [exact w_ref_ref|]. split; [exact part_root|]. split; [|vm_compute; reflexivity].
  exact (proj2 (borrow_field_ok w_ref T_ref 600 v_ref _ [] false _ 0 _ 1 _ _ [] [] (proj1 w_ref_running) w_ref_ref part_root eq_refl eq_refl)).
Qed.

(** C80: from a reference to an enum, unpacking its variant makes the references to all its fields. *)
Theorem C80_variant_references : forall w t r v F path vts g fs vs p s l, wok w -> ref_to w t r v F ->
  part t v path (TEnum vts) (VEnum g vs) -> nth_error vts g = Some fs -> (p < List.length l)%nat ->
  exists l', runs (unpack_variant_ref p (List.length fs)) (cell_of (mem w) v path r :: s) l w (field_refs (mem w) v path r (List.length fs) ++ s) l' w /\
    same_locals [p] l l' /\
    (forall i ti, nth_error fs i = Some ti -> exists vi, nth_error vs i = Some vi /\ part t v (path ++ [i]) ti vi).
Proof. exact unpack_variant_ref_ok. Qed.
Print Assumptions C80_variant_references.
Example C80_variant_example : wok w_ref /\ ref_to w_ref T_ref 600 v_ref (between 604 732) /\ part T_ref v_ref [1%nat] T_choice v_choice /\
  (exists w', runs (unpack_variant_ref 0 2) [608; 5] [0] w_ref [636; 632; 5] [628] w' /\ (gnext w' =? 800) = true) /\ field_refs (mem w_ref) v_ref [1%nat] 600 2 = [636; 632].
Proof.
  split; [exact (proj1 w_ref_running)|]. split; [exact w_ref_ref|]. split; [exact part_choice|]. split; [|vm_compute; reflexivity].
  apply (runs_by 100 _ _ _ _ _ _ (fun w' => gnext w' =? 800)). vm_compute. reflexivity.
Qed.

(** C80: from a reference to a vector of values kept behind pointers, borrowing an element makes the reference to it. *)
Theorem C80_element_reference : forall ep w t r v F path te vs i vi, running ep w -> ref_to w t r v F -> part t v path (TVec te) (VVec vs) -> is_stack te = false ->
  nth_error vs i = Some vi -> part t v (path ++ [i]) te vi /\
  returns (vec_borrow_op ep te) [cell_of (mem w) v path r; Z.of_nat i] w [cell_of (mem w) v (path ++ [i]) r] w.
Proof. exact borrow_elem_ok. Qed.
Print Assumptions C80_element_reference.
Example C80_element_example : running ep0 w_ref /\ ref_to w_ref T_ref 600 v_ref (between 604 732) /\ part T_ref v_ref [2%nat] (TVec T_point) v_points /\
  returns (vec_borrow_op ep0 T_point) [612; 1] w_ref [712] w_ref /\ cell_of (mem w_ref) v_ref [2%nat; 1%nat] 600 = 712.
Proof.
  split; [exact w_ref_running|]. split; [exact w_ref_ref|]. split; [exact part_points|]. split; [|vm_compute; reflexivity].
  exact (proj2 (borrow_elem_ok ep0 w_ref T_ref 600 v_ref _ [2%nat] T_point _ 1 _ w_ref_running w_ref_ref part_points eq_refl eq_refl)).
Qed.

(** C80: from a reference to a vector of numbers (bool to u64, kept inline), borrowing an element makes a new reference.  Reading
    through it gives the element; writing through it changes exactly that element of the whole value. *)
Theorem C80_number_element : forall ep w t r v F path te vs i vi u x p q s l, running ep w -> ref_to w t r v F -> part t v path (TVec te) (VVec vs) -> is_stack te = true ->
  nth_error vs i = Some vi -> int_val te u x -> p <> q -> (p < List.length l)%nat -> (q < List.length l)%nat ->
  (exists e w1, returns (vec_borrow_op ep te) [cell_of (mem w) v path r; Z.of_nat i] w [e] w1 /\ extends w w1 /\
     (exists n, vi = VInt n /\ runs (read_ref ep te) (e :: s) l w1 (n :: s) l w1) /\
     (exists w2 l', runs (write_ref te p q) (e :: x :: s) l w1 s l' w2 /\ same_locals [p; q] l l' /\ frame w1 w2 F /\ ref_to w2 t r (put v (path ++ [i]) u) F)) \/
  out_of_memory (vec_borrow_op ep te) [cell_of (mem w) v path r; Z.of_nat i] w 4.
Proof. exact number_element_ok. Qed.
Print Assumptions C80_number_element.
Example C80_number_example : running ep0 w_ref /\ ref_to w_ref T_ref 600 v_ref (between 604 732) /\ part T_ref v_ref [1%nat; 1%nat] (TVec TU64) v_nums /\
  int_val TU64 (VInt 13) 13 /\ put v_ref [1%nat; 1%nat; 1%nat] (VInt 13) = VStruct 0 [VInt 77; VEnum 1 [VInt 5; VVec [VInt 11; VInt 13]]; v_points].
Proof.
  split; [exact w_ref_running|]. split; [exact w_ref_ref|]. split; [exact part_nums|]. split; [split; [reflexivity|cbn; lia]|reflexivity].
Qed.

(** C80: reading through a reference gives the value of the part it leads to, as a copy of its own: it lies in new memory.
    Nothing that was in memory changes.  Reading traps only if memory runs out (see C59 for the precise bound [ctrap]). *)
Theorem C80_read_through_reference : forall ep w t r v F path t' v' s l, wf_ty t' -> wok w -> ref_to w t r v F -> part t v path t' v' ->
  (exists x w', runs (read_ref ep t') (cell_of (mem w) v path r :: s) l w (x :: s) l w' /\ extends w w' /\
     owns w' t' v' x (fresh w w') /\ 0 <= x < 256 ^ Z.of_nat (esize t') /\ ref_to w' t r v F) \/
  (crashes (read_ref ep t') (cell_of (mem w) v path r :: s) l w /\ is_stack t' = false /\ ctrap w (has_small t') (csize t' v')).
Proof. exact read_ok. Qed.
Print Assumptions C80_read_through_reference.
Example C80_read_example : wf_ty T_point /\ wok w_ref /\ ref_to w_ref T_ref 600 v_ref (between 604 732) /\ part T_ref v_ref [2%nat; 1%nat] T_point (VStruct 0 [VInt 9]) /\
  exists w', runs (read_ref ep0 T_point) [712] [] w_ref [800] [] w' /\ (load 4 (mem w') (load 4 (mem w') 800) =? 9) = true.
Proof.
  split; [cbn; repeat split; lia|]. split; [exact (proj1 w_ref_running)|]. split; [exact w_ref_ref|]. split; [exact part_point|].
  apply (runs_by 300 _ _ _ _ _ _ (fun w' => load 4 (mem w') (load 4 (mem w') 800) =? 9)). vm_compute. reflexivity.
Qed.

(** C80: writing [u] through the reference to the part at [path] makes the whole value [put v path u] and changes no other
    memory.  Every reference to a part that is not inside the one overwritten stays the reference to that part. *)
Theorem C80_write_through_reference : forall w t r v F path t' v' u x Fx p q s l, p <> q -> (p < List.length l)%nat -> (q < List.length l)%nat ->
  wok w -> ref_to w t r v F -> part t v path t' v' -> owns w t' u x Fx -> 0 <= x < 256 ^ Z.of_nat (esize t') -> disj (cell r) Fx -> disj F Fx ->
  exists w' l', runs (write_ref t' p q) (cell_of (mem w) v path r :: x :: s) l w s l' w' /\ same_locals [p; q] l l' /\
    frame w w' (union (cell r) F) /\ ref_to w' t r (put v path u) (union F Fx) /\
    (forall path2 t2 v2, part t v path2 t2 v2 -> ~ beyond path path2 -> cell_of (mem w') (put v path u) path2 r = cell_of (mem w) v path2 r).
Proof. exact write_ok. Qed.
Print Assumptions C80_write_through_reference.
Example C80_write_example : wok w_ref /\ ref_to w_ref T_ref 600 v_ref (between 604 732) /\ part T_ref v_ref [1%nat; 0%nat] TU128 (VInt 5) /\
  owns w_ref TU128 (VInt 6) 740 (between 740 756) /\ disj (cell 600) (between 740 756) /\ disj (between 604 732) (between 740 756) /\
  part T_ref v_ref [1%nat; 1%nat] (TVec TU64) v_nums /\ owns w_ref (TVec TU64) (VVec []) 756 (between 756 764) /\
  put v_ref [1%nat; 0%nat] (VInt 6) = VStruct 0 [VInt 77; VEnum 1 [VInt 6; v_nums]; v_points] /\
  put v_ref [1%nat; 1%nat] (VVec []) = VStruct 0 [VInt 77; VEnum 1 [VInt 5; VVec []]; v_points].
Proof.
  split; [exact (proj1 w_ref_running)|]. split; [exact w_ref_ref|]. split; [exact part_u128|]. split; [exact w_ref_spare|].
  split; [nums|]. split; [nums|]. split; [exact part_nums|]. split; [exact w_ref_spare_vec|]. split; reflexivity.
Qed.

(** C80: in [put v path u] the part at [path] is [u], and every part that does not overlap the one at [path] is as in [v]. *)
Theorem C80_other_parts_kept : forall t v path t' v' u, part t v path t' v' ->
  part t (put v path u) path t' u /\
  (forall path2 t2 v2, part t v path2 t2 v2 -> path2 <> path -> ~ beyond path path2 -> ~ beyond path2 path -> part t (put v path u) path2 t2 v2).
Proof. intros t v path t' v' u P. split; [exact (part_put_same _ _ _ _ _ P u)|]. intros path2 t2 v2 P2. exact (part_put_apart _ _ _ _ _ P path2 t2 v2 u P2). Qed.
Print Assumptions C80_other_parts_kept.
Example C80_other_example : part T_ref v_ref [2%nat; 1%nat] T_point (VStruct 0 [VInt 9]) /\ part T_ref v_ref [1%nat; 1%nat] (TVec TU64) v_nums /\
  ~ beyond [2%nat; 1%nat] [1%nat; 1%nat] /\ ~ beyond [1%nat; 1%nat] [2%nat; 1%nat].
Proof. split; [exact part_point|]. split; [exact part_nums|]. split; intros (i&p&E); discriminate E. Qed.
