(** * Property C81: values put into structs, enums and locals come back unchanged.

    [words m fs vs xs F] (SpecRef.v): the operand words [xs] represent the values [vs] of the fields [fs], each in its own part of
    the memory [F].  The operand stack has the last field on top: [rev xs ++ s].  [owns w t v x F] (SpecVec.v): the word [x]
    represents the value [v] of type [t], stored in [F]. *)

From Verif Require Import SpecInt Spec Tac RtAlloc RtErr SpecVal LemVal RtCopy RtCopy2 RtVec RtVec2 SpecVec LemVec ExVec SpecStor SpecLayout SpecRef RtRef LemRef ExRef RtLocal LemLocal ExLocal.

(** C81: packing a struct makes a struct of the values on the stack.  It changes no memory in use but the words reserved before
    ids, and fails only when memory runs out. *)
Theorem C81_pack : forall key fs p d v xs vs F s l w, NoDup [p; d; v] -> (forall k, In k [p; d; v] -> (k < List.length l)%nat) ->
  Z.of_nat (List.length fs) < 65536 -> wok w -> words (mem w) fs vs xs F -> sub F (heap w) ->
  (exists x w' l', runs (pack_struct key fs p d v) (rev xs ++ s) l w (x :: s) l' w' /\ same_locals [p; d; v] l l' /\
     evolves w w' (id_cells fs xs) /\ owns w' (TStruct key (map snd fs)) (VStruct 0 vs) x (union F (fresh w w')) /\ x = gnext w + (if key then 32 else 0) /\ x < 2 ^ 32 /\
     held_by (mem w') x 0 fs xs) \/
  (crashes (pack_struct key fs p d v) (rev xs ++ s) l w /\ oom w (struct_memory key (map snd fs))).
Proof. exact pack_struct_ok. Qed.
Print Assumptions C81_pack.
Example C81_pack_example : wok w_id /\ words (mem w_id) (plain_fields [TU64; TVec TU64]) [VInt 77; VVec []] [77; 540] (between 540 548) /\ sub (between 540 548) (heap w_id) /\
  exists w', runs (pack_struct false (plain_fields [TU64; TVec TU64]) 0 1 2) [540; 77; 5] [0; 0; 0] w_id [600; 5] [600; 608; 77] w' /\
    (load 8 (mem w') (load 4 (mem w') 600) =? 77) && (load 4 (mem w') 604 =? 540) = true.
Proof.
  split; [exact w_id_ok|]. split; [exact w_id_fields|]. split; [nums|]. apply (runs_by 300 _ _ _ _ _ _ (fun w' => (load 8 (mem w') (load 4 (mem w') 600) =? 77) && (load 4 (mem w') 604 =? 540))).
  vm_compute. reflexivity.
Qed.

(** C81: unpacking a struct gives back the values of its fields, in their order, and changes nothing. *)
Theorem C81_unpack : forall key ts p o vs x F s l w, (p < List.length l)%nat -> wok w -> owns w (TStruct key ts) (VStruct o vs) x F -> 0 <= x ->
  exists xs l', runs (unpack_struct ts p) (x :: s) l w (rev xs ++ s) l' w /\ same_locals [p] l l' /\ words (mem w) (plain_fields ts) vs xs F.
Proof. exact unpack_struct_ok. Qed.
Print Assumptions C81_unpack.
Example C81_unpack_example : wok w_ref /\ owns w_ref T_ref v_ref 604 (between 604 732) /\
  exists w', runs (unpack_struct [TU64; T_choice; TVec T_point] 0) [604] [0] w_ref [700; 628; 77] [604] w' /\ (gnext w' =? 800) = true.
Proof.
  split; [exact (proj1 w_ref_running)|]. split; [exact w_ref_owns|]. apply (runs_by 300 _ _ _ _ _ _ (fun w' => gnext w' =? 800)). vm_compute. reflexivity.
Qed.

(** C81: the same for the variants of an enum. *)
Theorem C81_pack_variant : forall vts g ts p d v xs vs F s l w, NoDup [p; d; v] -> (forall k, In k [p; d; v] -> (k < List.length l)%nat) ->
  wf_ty (TEnum vts) -> nth_error vts g = Some ts -> wok w -> words (mem w) (plain_fields ts) vs xs F -> sub F (heap w) ->
  (exists x w' l', runs (pack_variant vts g ts p d v) (rev xs ++ s) l w (x :: s) l' w' /\ same_locals [p; d; v] l l' /\
     extends w w' /\ owns w' (TEnum vts) (VEnum g vs) x (union F (fresh w w')) /\ gnext w <= x < 2 ^ 32) \/
  (crashes (pack_variant vts g ts p d v) (rev xs ++ s) l w /\ oom w (enum_size vts + boxes ts)).
Proof. exact pack_variant_ok. Qed.
Print Assumptions C81_pack_variant.
Theorem C81_unpack_variant : forall vts g ts p vs x F s l w, (p < List.length l)%nat -> wok w -> owns w (TEnum vts) (VEnum g vs) x F -> nth_error vts g = Some ts ->
  exists xs l', runs (unpack_variant ts p) (x :: s) l w (rev xs ++ s) l' w /\ same_locals [p] l l' /\ words (mem w) (plain_fields ts) vs xs F.
Proof. exact unpack_variant_ok. Qed.
Print Assumptions C81_unpack_variant.
Example C81_variant_example : wok w_ref /\ wf_ty T_choice /\ words (mem w_ref) (plain_fields [TU128; TVec TU64]) [VInt 6; VVec []] [740; 756] (between 740 764) /\
  sub (between 740 764) (heap w_ref) /\ owns w_ref T_choice v_choice 628 (between 628 680) /\
  (exists w', runs (pack_variant [[]; [TU128; TVec TU64]] 1 [TU128; TVec TU64] 0 1 2) [756; 740] [0; 0; 0] w_ref [800] [800; 740; 0] w' /\ (load 4 (mem w') 800 =? 1) && (load 4 (mem w') 804 =? 740) && (load 4 (mem w') 808 =? 756) = true) /\
  (exists w', runs (unpack_variant [TU128; TVec TU64] 0) [628] [0] w_ref [656; 640] [632] w' /\ (gnext w' =? 800) = true).
Proof.
  split; [exact (proj1 w_ref_running)|]. split; [cbn; lia|]. split; [exact w_ref_words|]. split; [nums|]. split; [exact w_ref_choice|]. split.
  - apply (runs_by 300 _ _ _ _ _ _ (fun w' => (load 4 (mem w') 800 =? 1) && (load 4 (mem w') 804 =? 740) && (load 4 (mem w') 808 =? 756))). vm_compute. reflexivity.
  - apply (runs_by 300 _ _ _ _ _ _ (fun w' => gnext w' =? 800)). vm_compute. reflexivity.
Qed.

(** C81: an object made of an id and of fields has that id, those fields and no owner; the word before the id has the object's
    address.  An id can be made of any 32 bytes. *)
Theorem C81_new_id : forall t p d v x u F s l w, NoDup [p; d; v] -> (forall k, In k [p; d; v] -> (k < List.length l)%nat) ->
  wok w -> owns w t u x F -> 0 <= x < 256 ^ Z.of_nat (esize t) ->
  (exists y w' l', runs (pack_id t p d v) (x :: s) l w (y :: s) l' w' /\ same_locals [p; d; v] l l' /\ extends w w' /\
     word (mem w') (true, TStruct false [t]) (VStruct 0 [u]) y (union F (fresh w w')) /\ sub (union F (fresh w w')) (heap w') /\ 0 <= y < 2 ^ 32) \/
  (crashes (pack_id t p d v) (x :: s) l w /\ oom w (4 + struct_memory false [t])).
Proof. exact pack_id_ok. Qed.
Print Assumptions C81_new_id.
Theorem C81_new_object : forall fs id p d v x xs vs F F0 s l w, NoDup [p; d; v] -> (forall k, In k [p; d; v] -> (k < List.length l)%nat) ->
  Z.of_nat (List.length fs) < 65535 -> wok w -> word (mem w) (true, T_uid) (v_uid id) x F0 -> 0 <= x < 2 ^ 32 -> words (mem w) (plain_fields fs) vs xs F -> sub F (heap w) -> sub F0 (heap w) -> disj F0 F ->
  (exists y w' l', runs (pack_struct true ((true, T_uid) :: plain_fields fs) p d v) (rev xs ++ x :: s) l w (y :: s) l' w' /\ same_locals [p; d; v] l l' /\
     evolves w w' (between (x - 4) x) /\ object_at (mem w') fs 0 id vs y (union (union F0 F) (fresh w w')) /\ gnext w <= y < 2 ^ 32 /\ load 4 (mem w') y = x /\ load 4 (mem w') (x - 4) = y) \/
  (crashes (pack_struct true ((true, T_uid) :: plain_fields fs) p d v) (rev xs ++ x :: s) l w /\ oom w (struct_memory true (T_uid :: fs))).
Proof. exact pack_object_ok. Qed.
Print Assumptions C81_new_object.
Example C81_object_example : wok w_id /\ owns w_id T_id (VStruct 0 [VInt 9]) 504 (between 504 540) /\ word (mem w_id) (true, T_uid) (v_uid 9) 500 (between 496 540) /\
  words (mem w_id) (plain_fields [TU64; TVec TU64]) [VInt 77; VVec []] [77; 540] (between 540 548) /\ disj (between 496 540) (between 540 548) /\
  exists w', runs (pack_struct true ((true, T_uid) :: plain_fields [TU64; TVec TU64]) 0 1 2) [540; 77; 500] [0; 0; 0] w_id [632] [632; 500; 77] w' /\
    (load 4 (mem w') 632 =? 500) && (load 4 (mem w') 496 =? 632) && (load 4 (mem w') 640 =? 540) = true.
Proof.
  split; [exact w_id_ok|]. split; [exact w_id_id|]. split; [exact w_id_uid|]. split; [exact w_id_fields|]. split; [nums|].
  apply (runs_by 300 _ _ _ _ _ _ (fun w' => (load 4 (mem w') 632 =? 500) && (load 4 (mem w') 496 =? 632) && (load 4 (mem w') 640 =? 540))). vm_compute. reflexivity.
Qed.

(** C81: storing a value in a local and borrowing the local gives a reference to that value (see C80 for what it reads and
    writes).  Moving it out gives the value the reference leads to, copying it out gives a copy of its own. *)
Theorem C81_store_local : forall t k v q x u F s l w, NoDup [k; v; q] -> (forall j, In j [k; v; q] -> (j < List.length l)%nat) ->
  wok w -> owns w t u x F -> 0 <= x < 256 ^ Z.of_nat (esize t) ->
  (exists r w' l', runs (box_local t k v q) (x :: s) l w s l' w' /\ same_locals [k; v; q] l l' /\ nth_error l' k = Some r /\
     extends w w' /\ r = gnext w /\ ref_to w' t r u (union F (between (r + 4) (gnext w')))) \/
  (crashes (box_local t k v q) (x :: s) l w /\ oom w (box_memory t)).
Proof. exact box_local_ok. Qed.
Print Assumptions C81_store_local.
Theorem C81_move_local : forall t k r u F s l w, nth_error l k = Some r -> wok w -> ref_to w t r u F ->
  exists x, runs (move_local t k) s l w (x :: s) l w /\ owns w t u x F /\ 0 <= x < 256 ^ Z.of_nat (esize t).
Proof. exact move_local_ok. Qed.
Print Assumptions C81_move_local.
Theorem C81_copy_local : forall ep t k r u F s l w, wf_ty t -> nth_error l k = Some r -> wok w -> ref_to w t r u F ->
  (exists x w', runs (copy_local ep t k) s l w (x :: s) l w' /\ extends w w' /\ owns w' t u x (fresh w w') /\ 0 <= x < 256 ^ Z.of_nat (esize t) /\ ref_to w' t r u F) \/
  (crashes (copy_local ep t k) s l w /\ is_stack t = false /\ ctrap w (has_small t) (csize t u)).
Proof. exact copy_local_ok. Qed.
Print Assumptions C81_copy_local.
Example C81_local_example : wok w_ref /\ owns w_ref TU128 (VInt 6) 740 (between 740 756) /\ ref_to w_ref T_ref 600 v_ref (between 604 732) /\ wf_ty T_ref /\
  (exists w', runs (box_local TU128 0 1 2 ++ move_local TU128 0) [740] [0; 0; 0] w_ref [740] [800; 0; 740] w' /\ (load 4 (mem w') 800 =? 740) = true) /\
  (exists w', runs (box_local TU64 0 1 2 ++ move_local TU64 0) [77] [0; 0; 0] w_ref [77] [800; 77; 804] w' /\ (load 4 (mem w') 800 =? 804) = true).
Proof.
  split; [exact (proj1 w_ref_running)|]. split; [exact w_ref_spare|]. split; [exact w_ref_ref|]. split; [cbn; lia|].
  split; [apply (runs_by 300 _ _ _ _ _ _ (fun w' => load 4 (mem w') 800 =? 740))|apply (runs_by 300 _ _ _ _ _ _ (fun w' => load 4 (mem w') 800 =? 804))]; vm_compute; reflexivity.
Qed.
