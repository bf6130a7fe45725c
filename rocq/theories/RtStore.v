(** * Objects in storage: storage/encoding.rs, storage/decoding.rs, storage/common.rs. *)

From Verif Require Import Tac RtAlloc RtErr RtInt RtInt2 RtEq RtMul RtDiv RtShift RtSwap RtAscii Ops SpecAbi LemAbi SpecVal LemVal RtCopy RtCopy2 SpecStor RtStor SpecLayout.
From Verif Require Export LemPos RtEnumPos.
Ltac Zify.zify_post_hook ::= idtac.

(** wasm_builder_extensions.rs 197-224 [slot_data_ptr_plus_offset]. *)
Definition slot_data_ptr (o : nat) : list instr :=
  [ LocalGet o; Un Eqz;
    If 0 [ Unreachable ] [ LocalGet o; Const 32; Bin I32 GtU; If 0 [ Unreachable ] [] ];
    Const 64; Const 32; LocalGet o; Bin I32 Sub; Bin I32 Add ].

(** runtime/storage.rs 1571-1617 [build_accumulate_or_advance_slot].
    Locals: 0 slot_ptr, 1 slot_offset, 2 field_size. *)
Definition accumulate (mode : list instr) : func := Func 3 0 1
 [ LocalGet 1; LocalGet 2; Bin I32 Add; Const 32; Bin I32 GtU;
   If 0 (mode ++ [ LocalGet 2; LocalSet 1 ]) [ LocalGet 1; LocalGet 2; Bin I32 Add; LocalSet 1 ];
   LocalGet 1 ].
(** runtime/storage.rs 1437-1464 [accumulate_or_advance_slot_delete]. *)
Definition accumulate_delete (ep : errtab) : func := accumulate
 [ LocalGet 0; Const 0; Host H_storage_cache; LocalGet 0; Call (storage_next_slot ep); LocalSet 0 ].
(** runtime/storage.rs 1480-1505 [accumulate_or_advance_slot_read]. *)
Definition accumulate_read (ep : errtab) : func := accumulate
 [ LocalGet 0; Call (storage_next_slot ep); LocalTee 0; Const A_SLOT_DATA; Host H_storage_load ].
(** runtime/storage.rs 1521-1554 [accumulate_or_advance_slot_write]. *)
Definition accumulate_write (ep : errtab) : func := accumulate
 [ LocalGet 0; Const A_SLOT_DATA; Host H_storage_cache;
   Const A_SLOT_DATA; Const 0; Const 32; MemFill;
   LocalGet 0; Call (storage_next_slot ep); LocalSet 0 ].

(** ** Deleting (storage/common.rs)

    In the code these are instructions inlined into the caller; here each type has its own
    function that takes slot_offset and returns it changed. *)

(** storage/common.rs 150-273 [add_delete_storage_vector_instructions]; [del] deletes an element.
    Locals: 0 slot_ptr, 1 len, 2 elem_slot_ptr, 3 i, 4 elem_slot_offset. *)
Definition delete_vector (del : func) : func := Func 1 4 0
 [ Const 32; Call alloc; LocalSet 2;
   LocalGet 0; Const A_SLOT_DATA; Host H_storage_load;
   Const A_SLOT_DATA; Load 4 28; Call swap_i32_bytes; LocalSet 1;
   LocalGet 0; Const 0; Host H_storage_cache;
   Block "block" 0
     [ LocalGet 1; Un Eqz; BrIf "block";
       LocalGet 0; Const 32; LocalGet 2; Host H_keccak;
       Const 0; LocalSet 3; Const 0; LocalSet 4;
       Block "inner" 0
         [ Loop "loop" 0
             [ LocalGet 2; LocalGet 4; Call del; LocalSet 4;
               LocalGet 3; LocalGet 1; Const 1; Bin I32 Sub; Bin I32 Eq; BrIf "inner";
               LocalGet 3; Const 1; Bin I32 Add; LocalSet 3; Br "loop" ] ];
       LocalGet 2; Const 0; Host H_storage_cache ] ].

(** storage/common.rs 70-138 [add_delete_storage_enum_instructions].
    Locals: 0 slot_ptr, 1 slot_offset, 2 tail_slot_ptr. *)
Definition delete_enum (ep : errtab) (vts : list (list ty)) : func := Func 2 1 1
 [ LocalGet 0; LocalGet 1; Call (enum_tail ep vts); LocalSet 2;
   Loop "loop" 0
     [ LocalGet 0; LocalGet 2; Const 32; Call a_equals_b;
       If 0 []
         [ LocalGet 0; Const 0; Host H_storage_cache; LocalGet 0; Call (storage_next_slot ep); LocalSet 0; Br "loop" ] ];
   LocalGet 2; Load 4 32; LocalSet 1; LocalGet 1 ].

(** storage/common.rs 287-371 [add_delete_field_instructions] and 30-68
    [add_delete_storage_struct_instructions].  Nothing is emitted for children with [key].
    Locals: 0 slot_ptr, 1 slot_offset. *)
Fixpoint delete_field (ep : errtab) (t : ty) : func := Func 2 0 1
 ([ LocalGet 0; LocalGet 1; Const (field_size t); Call (accumulate_delete ep); LocalSet 1 ] ++
  (match t with
   | TStruct false fs =>
       List.concat (map (fun t' => [ LocalGet 0; LocalGet 1; Call (delete_field ep t'); LocalSet 1 ]) fs) ++
       [ LocalGet 0; Const 0; Host H_storage_cache ]
   | TVec t' => [ LocalGet 0; Call (delete_vector (delete_field ep t')) ]
   | TEnum vts => [ LocalGet 0; LocalGet 1; Call (delete_enum ep vts); LocalSet 1 ]
   | _ => []
   end) ++ [ LocalGet 1 ]).

(** ** Encoding (storage/encoding.rs) *)

(** storage/encoding.rs 412-698 [add_encode_and_save_into_storage_vector_instructions]; [enc]
    encodes an element.  In the code the whole is inlined: elem_slot_offset then is 0 at its first
    use only if the instructions run once, and the early return on a flagged error leaves the
    enclosing function.
    Locals: 0 vector_ptr, 1 slot_ptr, 2 owner_ptr, 3 elem_slot_ptr, 4 len, 5 old_len, 6 i,
    7 elem_slot_offset, 8 elem_size_local. *)
Definition encode_vector (ep : errtab) (t : ty) (enc : func) : func := Func 3 6 0
 [ Const A_SLOT_DATA; Const 0; Const 32; MemFill;
   Const 32; Call alloc; LocalSet 3;
   LocalGet 0; Load 4 0; LocalSet 4;
   LocalGet 1; Const A_SLOT_DATA; Host H_storage_load;
   Const A_SLOT_DATA; Load 4 28; Call swap_i32_bytes; LocalSet 5;
   Block "outer" 0
     [ LocalGet 5; LocalGet 4; Bin I32 LeU; BrIf "outer";
       Block "inner" 0
         ([ LocalGet 4; LocalSet 6; Const (field_size t); LocalSet 8;
            LocalGet 1; LocalGet 4; LocalGet 8; LocalGet 3; Call (derive_dyn_array_slot ep) ] ++ propagate true ++
          [ Loop "loop" 0
              [ LocalGet 3; LocalGet 7; Call (delete_field ep t); LocalSet 7;
                LocalGet 6; LocalGet 5; Const 1; Bin I32 Sub; Bin I32 GeU; BrIf "inner";
                LocalGet 6; Const 1; Bin I32 Add; LocalSet 6; Br "loop" ] ]);
       LocalGet 3; Const 0; Host H_storage_cache ];
   Const 0; LocalSet 6; Const 0; LocalSet 7;
   Block "outer" 0
     [ LocalGet 4; Un Eqz; BrIf "outer";
       LocalGet 1; Const 32; LocalGet 3; Host H_keccak;
       Block "inner" 0
         [ Loop "loop" 0
             ([ LocalGet 3; LocalGet 7; Const (field_size t); Call (accumulate_write ep); LocalSet 7 ] ++
              vec_elem_ptr 0 6 (Z.of_nat (esize t)) ++
              [ Load (esize t) 0; LocalGet 3; LocalGet 7; LocalGet 2; Call enc; LocalSet 7;
                LocalGet 6; LocalGet 4; Const 1; Bin I32 Sub; Bin I32 Eq; BrIf "inner";
                LocalGet 6; Const 1; Bin I32 Add; LocalSet 6; Br "loop" ]) ];
       LocalGet 3; Const A_SLOT_DATA; Host H_storage_cache ];
   Const A_SLOT_DATA; Const 0; Const 32; MemFill;
   Const A_SLOT_DATA; LocalGet 4; Call swap_i32_bytes; Store 4 28 ].

(** storage/encoding.rs 777-785, storage/decoding.rs 724-729: after swapping the bytes of a 32-bit
    value, the 8 or 16 significant bits are moved down. *)
Definition shift_narrow (t : ty) : list instr :=
  match t with TBool | TU8 => [ Const 24; Bin I32 ShrU ] | TU16 => [ Const 16; Bin I32 ShrU ] | _ => [] end.

(** storage/encoding.rs 740-841: scalars.  [fld]: the value is reached through a field pointer
    (is_field).  Locals: 0 the value on the stack, 1 slot_ptr, 2 slot_offset, 3 owner_ptr, 4 val_32/val_64. *)
Definition encode_scalar (t : ty) (fld : bool) : list instr :=
  match t with
  | TBool | TU8 | TU16 | TU32 | TU64 =>
      [ LocalGet 0 ] ++ (if fld then [ Load (esize t) 0 ] else []) ++
      [ Call (if Nat.eqb (esize t) 8 then swap_i64_bytes else swap_i32_bytes) ] ++
      shift_narrow t ++
      [ LocalSet 4 ] ++ slot_data_ptr 2 ++ [ LocalGet 4; Store (esize t) 0 ]
  | TU128 => [ LocalGet 0 ] ++ slot_data_ptr 2 ++ [ Call swap_i128_bytes ]
  | TU256 => [ LocalGet 0 ] ++ slot_data_ptr 2 ++ [ Call swap_i256_bytes ]
  | TAddress =>
      [ LocalGet 0; LocalSet 4 ] ++ slot_data_ptr 2 ++ [ LocalGet 4; Const 12; Bin I32 Add; Const 20; MemCopy ]
  | _ => [ Unreachable ]
  end.

(** storage/encoding.rs 105-142: the fields from index [i] on, [encs] their encoders.
    Locals: 0 struct_ptr, 1 slot_ptr, 2 slot_offset, 3 field_owner_ptr. *)
Fixpoint encode_fields (ep : errtab) (encs : list (Z * func)) (i : Z) : list instr :=
  match encs with
  | [] => []
  | (size, enc) :: r =>
      [ LocalGet 1; LocalGet 2; Const size; Call (accumulate_write ep); LocalSet 2;
        LocalGet 0; Load 4 (4 * i); LocalGet 1; LocalGet 2; LocalGet 3; Call enc; LocalSet 2 ] ++
      encode_fields ep r (i + 1)
  end.

(** storage/encoding.rs 302-382: the slots from the one after the variant's last one to the enum's last
    one are cleared.  Locals: 1 slot_ptr, 4 tail_slot_ptr. *)
Definition clear_to_tail (ep : errtab) : list instr :=
 [ LocalGet 1; LocalGet 4; Const 32; Call a_equals_b;
   If 0 []
     [ LocalGet 1; Const A_SLOT_DATA; Host H_storage_cache;
       Const A_SLOT_DATA; Const 0; Const 32; MemCopy;
       LocalGet 1; Call (storage_next_slot ep); LocalSet 1;
       LocalGet 1; Const A_SLOT_DATA; Host H_storage_cache;
       Loop "loop" 0
         [ LocalGet 1; LocalGet 4; Const 32; Call a_equals_b;
           If 0 []
             [ LocalGet 1; Call (storage_next_slot ep); LocalSet 1; LocalGet 1; Const 0; Host H_storage_cache; Br "loop" ] ] ] ].

(** storage/encoding.rs 166-398 [add_encode_and_save_into_storage_enum_instructions]; [tail] computes
    the tail position, [vts] has the encoders of the fields of each variant.  (Inline, the error return
    for an invalid variant index leaves the enclosing function.)
    Locals: 0 enum_ptr, 1 slot_ptr, 2 slot_offset, 3 owner_ptr, 4 tail_slot_ptr, 5 variant_index, 6 encoded_error_ptr. *)
Definition encode_enum (ep : errtab) (tail : func) (vts : list (list (Z * func))) : func := Func 4 3 1
 [ LocalGet 1; LocalGet 2; Call tail; LocalSet 4;
   LocalGet 0; Load 4 0; LocalSet 5;
   Block "join" 0 (match_arms 5 0 (map (fun encs =>
       [ LocalGet 1; LocalGet 2; Const 1; Call (accumulate_write ep); LocalSet 2 ] ++
       slot_data_ptr 2 ++ [ LocalGet 5; Store 1 0 ] ++ encode_fields ep encs 1 ++ clear_to_tail ep) vts) ++
     return_error ep OutOfBounds 6 true);
   LocalGet 4; Load 4 32; LocalSet 2; LocalGet 2 ].

(** storage/encoding.rs 716-973 [add_encode_intermediate_type_instructions] and, for structs without
    [key], 40-151 [add_encode_and_save_into_storage_struct_instructions].  Inlined in the code; here
    a function of the value, slot_ptr, slot_offset and owner_ptr that returns slot_offset.
    For children with [key] (854-915) see RtWrap.v. *)
Fixpoint encode_type (ep : errtab) (t : ty) (fld : bool) : func :=
  match t with
  | TStruct false fs => Func 4 0 1
      (encode_fields ep (map (fun t' => (field_size t', encode_type ep t' true)) fs) 0 ++
       [ LocalGet 1; Const A_SLOT_DATA; Host H_storage_cache; LocalGet 2 ])
  | TVec t' => Func 4 0 1
      [ LocalGet 0; LocalGet 1; LocalGet 3; Call (encode_vector ep t' (encode_type ep t' false)); Const 32; LocalSet 2; LocalGet 2 ]
  | TEnum vts => encode_enum ep (enum_tail ep vts) (map (map (fun t' => (field_size t', encode_type ep t' true))) vts)
  | _ => Func 4 1 1 (encode_scalar t fld ++ [ LocalGet 2 ])
  end.

(** runtime/storage.rs 837-873 [add_encode_and_save_into_storage_fn] for a struct with [key], whose
    first field is its id and whose other fields are [fs]; [h] is the type hash (storage/encoding.rs 68-97).
    Locals: 0 struct_ptr, 1 slot_ptr, 2 slot_offset, 3 field_owner_ptr. *)
Definition save_object (ep : errtab) (h : Z) (fs : list ty) : func := Func 2 2 0
 ([ Const 0; LocalSet 2;
    Const A_SLOT_DATA; Const 0; Const 32; MemCopy;
    Const A_SLOT_DATA; Const h; Store 8 24;
    Const 8; LocalSet 2;
    LocalGet 0; Call get_id_bytes_ptr; LocalSet 3 ] ++
  encode_fields ep (map (fun t => (field_size t, encode_type ep t true)) fs) 1 ++
  [ LocalGet 1; Const A_SLOT_DATA; Host H_storage_cache ]).

(** ** What encoding means

    The state of an encoder: the current slot, the bytes of it already used, its contents so far
    and the storage. *)
Record sst := mkS { s_slot : Z; s_off : Z; s_word : Z; s_stor : Z -> Z }.

(** Room for [sz] more bytes. *)
Definition acc (q : sst) (sz : Z) : sst :=
  if s_off q + sz <=? 32 then mkS (s_slot q) (s_off q + sz) (s_word q) (s_stor q)
  else mkS (s_slot q + 1) sz 0 (upd (s_stor q) (s_slot q) (s_word q)).
Definition cache (q : sst) : sst := mkS (s_slot q) (s_off q) (s_word q) (upd (s_stor q) (s_slot q) (s_word q)).
(** [word] with the [sz] bytes below byte [o] replaced by [n]. *)
Definition ins (word o sz n : Z) : Z := word mod 256 ^ (o - sz) + n * 256 ^ (o - sz) + word / 256 ^ o * 256 ^ o.
Definition put_int (q : sst) (sz n : Z) : sst := mkS (s_slot q) (s_off q) (ins (s_word q) (s_off q) sz n) (s_stor q).

(** [n] slots from [k] on become zero. *)
Fixpoint wipe (n : nat) (st : Z -> Z) (k : Z) : Z -> Z :=
  match n with O => st | S n' => wipe n' (upd st k 0) (k + 1) end.
(** On from the end of a variant to the end [T] of the enum's room. *)
Definition ending (T : position) (q : sst) : sst :=
  if s_slot q =? fst T then mkS (fst T) (snd T) (s_word q) (s_stor q)
  else mkS (fst T) (snd T) 0 (wipe (Z.to_nat (fst T - s_slot q)) (upd (s_stor q) (s_slot q) (s_word q)) (s_slot q + 1)).

Fixpoint put (H : list Z -> Z) (t : ty) (v : val) (q : sst) : sst :=
  match t, v with
  | TStruct _ fs, VStruct _ vs =>
      cache ((fix go fs vs q := match fs, vs with
              | t' :: fs', v' :: vs' => go fs' vs' (put H t' v' (acc q (field_size t')))
              | _, _ => q
              end) fs vs q)
  | TVec t', VVec vs =>
      let e0 := mkS (data_slot H (s_slot q)) 0 (s_stor q (s_slot q) mod 2 ^ 256) (s_stor q) in
      let e1 := fold_left (fun e v' => put H t' v' (acc e (field_size t'))) vs e0 in
      mkS (s_slot q) 32 (Z.of_nat (List.length vs)) (match vs with [] => s_stor q | _ => s_stor (cache e1) end)
  | TEnum vts, VEnum tag vs =>
      match nth_error (map (fun fs =>
        (fix go fs vs q := match fs, vs with
         | t' :: fs', v' :: vs' => go fs' vs' (put H t' v' (acc q (field_size t')))
         | _, _ => q
         end) fs) vts) tag with
      | Some f => ending (after t (s_slot q, s_off q)) (f vs (put_int (acc q 1) 1 (Z.of_nat tag)))
      | None => q
      end
  | _, VInt n => put_int q (field_size t) n
  | _, _ => q
  end.
Fixpoint puts (H : list Z -> Z) (fs : list ty) (vs : list val) (q : sst) : sst :=
  match fs, vs with
  | t :: fs', v :: vs' => puts H fs' vs' (put H t v (acc q (field_size t)))
  | _, _ => q
  end.
Definition put_elems (H : list Z -> Z) (t : ty) (vs : list val) (q : sst) : sst :=
  fold_left (fun e v => put H t v (acc e (field_size t))) vs q.

Lemma puts_go : forall H fs vs q, (fix go (fs0 : list ty) (vs0 : list val) (q0 : sst) {struct fs0} : sst := match fs0, vs0 with
    | t' :: fs', v' :: vs' => go fs' vs' (put H t' v' (acc q0 (field_size t')))
    | _, _ => q0
    end) fs vs q = puts H fs vs q.
Proof. intros H. induction fs as [|t fs IH]; intros [|v vs] q'; cbn [puts]; auto. Qed.

Lemma put_struct : forall H k fs o vs q, put H (TStruct k fs) (VStruct o vs) q = cache (puts H fs vs q).
Proof.
  intros. cbn [put]. f_equal. generalize q. revert vs. induction fs as [|t fs IH]; intros [|v vs] q'; cbn [puts]; auto.
Qed.

Lemma put_enum : forall H vts tag fs vs q, nth_error vts tag = Some fs ->
  put H (TEnum vts) (VEnum tag vs) q = ending (after (TEnum vts) (s_slot q, s_off q)) (puts H fs vs (put_int (acc q 1) 1 (Z.of_nat tag))).
Proof.
  intros H vts tag fs vs q E. cbn [put]. rewrite (map_nth_error _ _ _ E). f_equal. generalize (put_int (acc q 1) 1 (Z.of_nat tag)). clear E. revert vs.
  induction fs as [|t fs IH]; intros [|v vs] q'; cbn [puts]; auto.
Qed.

(** The encoding stays inside what is proved here: no slot number overflows, and no vector is shorter
    than what is stored in its place (the cleaning up of the rest is C37). *)
Definition in_range (q : sst) : Prop := s_slot q < 2 ^ 256.
Fixpoint safe (H : list Z -> Z) (t : ty) (v : val) (q : sst) : Prop :=
  match t, v with
  | TStruct _ fs, VStruct _ vs =>
      (fix go fs vs q := match fs, vs with
       | t' :: fs', v' :: vs' => in_range (acc q (field_size t')) /\ safe H t' v' (acc q (field_size t')) /\
            go fs' vs' (put H t' v' (acc q (field_size t')))
       | _, _ => True
       end) fs vs q
  | TVec t', VVec vs =>
      s_stor q (s_slot q) mod 2 ^ 32 <= Z.of_nat (List.length vs) /\
      (fix go vs e := match vs with
       | v' :: vs' => in_range (acc e (field_size t')) /\ safe H t' v' (acc e (field_size t')) /\
            go vs' (put H t' v' (acc e (field_size t')))
       | [] => True
       end) vs (mkS (data_slot H (s_slot q)) 0 (s_stor q (s_slot q) mod 2 ^ 256) (s_stor q))
  | TEnum vts, VEnum tag vs =>
      in_range (acc q 1) /\
      match nth_error (map (fun fs =>
        (fix go fs vs q := match fs, vs with
         | t' :: fs', v' :: vs' => in_range (acc q (field_size t')) /\ safe H t' v' (acc q (field_size t')) /\
              go fs' vs' (put H t' v' (acc q (field_size t')))
         | _, _ => True
         end) fs) vts) tag with
      | Some P => P vs (put_int (acc q 1) 1 (Z.of_nat tag))
      | None => True
      end /\
      match nth_error vts tag with
      | Some fs => s_slot ((fix go fs vs q := match fs, vs with
          | t' :: fs', v' :: vs' => go fs' vs' (put H t' v' (acc q (field_size t')))
          | _, _ => q
          end) fs vs (put_int (acc q 1) 1 (Z.of_nat tag))) <= fst (after t (s_slot q, s_off q)) < 2 ^ 256
      | None => True
      end
  | _, _ => True
  end.
Fixpoint safes (H : list Z -> Z) (fs : list ty) (vs : list val) (q : sst) : Prop :=
  match fs, vs with
  | t :: fs', v :: vs' => in_range (acc q (field_size t)) /\ safe H t v (acc q (field_size t)) /\
      safes H fs' vs' (put H t v (acc q (field_size t)))
  | _, _ => True
  end.
Fixpoint safe_elems (H : list Z -> Z) (t : ty) (vs : list val) (q : sst) : Prop :=
  match vs with
  | v :: vs' => in_range (acc q (field_size t)) /\ safe H t v (acc q (field_size t)) /\
      safe_elems H t vs' (put H t v (acc q (field_size t)))
  | [] => True
  end.

Lemma safes_go : forall H fs vs q, (fix go (fs0 : list ty) (vs0 : list val) (q0 : sst) {struct fs0} : Prop := match fs0, vs0 with
    | t' :: fs', v' :: vs' => in_range (acc q0 (field_size t')) /\ safe H t' v' (acc q0 (field_size t')) /\
         go fs' vs' (put H t' v' (acc q0 (field_size t')))
    | _, _ => True
    end) fs vs q <-> safes H fs vs q.
Proof. intros H. induction fs as [|t fs IH]; intros [|v vs] q'; cbn [safes]; try tauto. rewrite <- IH. reflexivity. Qed.

Lemma safe_enum : forall H vts tag fs vs q, nth_error vts tag = Some fs -> safe H (TEnum vts) (VEnum tag vs) q <->
  in_range (acc q 1) /\ safes H fs vs (put_int (acc q 1) 1 (Z.of_nat tag)) /\
  s_slot (puts H fs vs (put_int (acc q 1) 1 (Z.of_nat tag))) <= fst (after (TEnum vts) (s_slot q, s_off q)) < 2 ^ 256.
Proof.
  intros H vts tag fs vs q E. cbn [safe]. rewrite (map_nth_error _ _ _ E), E, safes_go, puts_go. reflexivity.
Qed.

(** ** Memory and frames *)

(** The parts of memory an encoder or decoder working on the slot number at [p] changes: the slot's
    data, the table of enum sizes and the slot number. *)
Definition slot_mem (p : Z) : mset := fun x => (within 64 32 x \/ within 260 128 x) \/ within p 32 x.

(** ** Bytes of a slot *)

Lemma split_word : forall a b c A B C, 0 <= a -> 0 <= b -> 0 <= c -> 0 <= A -> 0 <= B < 256 ^ b -> 0 <= C < 256 ^ c ->
  let W := A * 256 ^ (b + c) + B * 256 ^ c + C in
  W mod 256 ^ c = C /\ W / 256 ^ (b + c) = A /\ part W c b = B.
Proof.
  intros a b c A B C Ha Hb Hc HA HB HC W. unfold W, part. rewrite Z.pow_add_r by lia.
  pose proof (pow256_pos b Hb). pose proof (pow256_pos c Hc). set (x := 256 ^ b) in *. set (y := 256 ^ c) in *. clearbody x y.
  replace (A * (x * y) + B * y + C) with (C + (A * x + B) * y) by ring. split; [|split].
  - rewrite Z_mod_plus_full. apply Z.mod_small. lia.
  - rewrite (Z.mul_comm x y), <- Z.div_div by lia. rewrite Z.div_add by lia. rewrite (Z.div_small C) by lia.
    rewrite Z.add_0_l, (Z.add_comm _ B), Z.div_add by lia. rewrite (Z.div_small B) by lia. lia.
  - rewrite Z.div_add by lia. rewrite (Z.div_small C) by lia. rewrite Z.add_0_l, (Z.add_comm _ B), Z_mod_plus_full. apply Z.mod_small. lia.
Qed.

Lemma slot_split : forall (o sz : nat) m, (sz <= o <= 32)%nat ->
  load_be 32 m 64 = load_be (32 - o) m 64 * 256 ^ Z.of_nat o + load_be sz m (96 - Z.of_nat o) * 256 ^ Z.of_nat (o - sz) +
    load_be (o - sz) m (96 - Z.of_nat o + Z.of_nat sz).
Proof.
  intros o sz m H. replace 32%nat with ((32 - o) + (sz + (o - sz)))%nat at 1 by lia. rewrite load_be_split.
  replace (64 + Z.of_nat (32 - o)) with (96 - Z.of_nat o) by lia. rewrite (load_be_split sz).
  replace (Z.of_nat (sz + (o - sz))) with (Z.of_nat o) by lia. ring.
Qed.

Lemma slot_put : forall (o sz : nat) m m' n, (sz <= o <= 32)%nat ->
  load_be sz m' (96 - Z.of_nat o) = n ->
  (forall x, ~ within (96 - Z.of_nat o) (Z.of_nat sz) x -> rd m' x = rd m x) ->
  load_be 32 m' 64 = ins (load_be 32 m 64) (Z.of_nat o) (Z.of_nat sz) n.
Proof.
  intros o sz m m' n H Hn Ho. rewrite (slot_split o sz m), (slot_split o sz m') by lia. rewrite Hn.
  pose proof (load_be_range (32 - o) m 64). pose proof (load_be_range sz m (96 - Z.of_nat o)).
  pose proof (load_be_range (o - sz) m (96 - Z.of_nat o + Z.of_nat sz)).
  destruct (split_word (Z.of_nat (32 - o)) (Z.of_nat sz) (Z.of_nat (o - sz)) (load_be (32 - o) m 64) (load_be sz m (96 - Z.of_nat o))
    (load_be (o - sz) m (96 - Z.of_nat o + Z.of_nat sz))) as (E1&E2&_); try lia.
  unfold ins. replace (Z.of_nat o - Z.of_nat sz) with (Z.of_nat (o - sz)) by lia.
  replace (Z.of_nat sz + Z.of_nat (o - sz)) with (Z.of_nat o) in * by lia. rewrite E1, E2.
  rewrite (load_be_ext (32 - o) m' m 64 64), (load_be_ext (o - sz) m' m (96 - Z.of_nat o + Z.of_nat sz) (96 - Z.of_nat o + Z.of_nat sz)).
  - ring.
  - intros. apply Ho. unfold within. lia.
  - intros. apply Ho. unfold within. lia.
Qed.

Lemma slot_get : forall (o sz : nat) m, (sz <= o <= 32)%nat ->
  load_be sz m (96 - Z.of_nat o) = part (load_be 32 m 64) (Z.of_nat o - Z.of_nat sz) (Z.of_nat sz).
Proof.
  intros o sz m H. rewrite (slot_split o sz m) by lia.
  pose proof (load_be_range (32 - o) m 64). pose proof (load_be_range sz m (96 - Z.of_nat o)).
  pose proof (load_be_range (o - sz) m (96 - Z.of_nat o + Z.of_nat sz)).
  destruct (split_word (Z.of_nat (32 - o)) (Z.of_nat sz) (Z.of_nat (o - sz)) (load_be (32 - o) m 64) (load_be sz m (96 - Z.of_nat o))
    (load_be (o - sz) m (96 - Z.of_nat o + Z.of_nat sz))) as (_&_&E3); try lia.
  replace (Z.of_nat o - Z.of_nat sz) with (Z.of_nat (o - sz)) by lia.
  replace (Z.of_nat sz + Z.of_nat (o - sz)) with (Z.of_nat o) in * by lia. symmetry. exact E3.
Qed.

Lemma wp_slot_data_ptr : forall o k r (Q : outcome -> Prop) s l w, nth_error l o = Some k -> 0 < k <= 32 ->
  wp r Q (96 - k :: s) l w -> wp (slot_data_ptr o ++ r) Q s l w.
Proof.
  intros o k r Q s l w N K H. unfold slot_data_ptr. cbn [app].
  eapply wp_lget; [exact N|]. ws1. apply wp_if; intros C.
  { exfalso. apply C. destruct (k =? 0) eqn:E; [lia|reflexivity]. }
  eapply wp_lget; [exact N|]. ws1. ws1. apply wp_if; intros C2.
  { exfalso. apply C2. unfold b2z. destruct (k >? 32) eqn:E; [lia|]. destruct (32 <? k) eqn:E2; lia || reflexivity. }
  ws1. ws1. ws1. ws1. eapply wp_lget; [exact N|]. ws1. ws1.
  replace (64 + (32 - k)) with (96 - k) by lia. exact H.
Qed.

(** ** Moving to the next slot *)

Definition at_state (w : world) (p : Z) (q : sst) : Prop :=
  load_be 32 (mem w) p = s_slot q /\ load_be 32 (mem w) 64 = s_word q /\ stor (host w) = s_stor q.

(** The machine is ready to work on the slot number at [p]. *)
Definition ready (ep : errtab) (w : world) (p : Z) : Prop :=
  wok w /\ errtab_ok ep /\ load 32 (mem w) 32 = 1 /\ (p = 128 \/ 468 <= p) /\ p + 32 <= gnext w.

Lemma ready_grows : forall ep w w' p p', ready ep w p -> grows (slot_mem p') w w' -> p' = 128 \/ 468 <= p' -> ready ep w' p.
Proof.
  intros ep w w' p p' (R1&R2&R3&R4&R5) G H. pose proof G as (G1&_&_&G4&_). pose proof R1 as (P1&P2&P3&P4&P5&P6).
  split; [exact G1|]. split; [exact R2|]. split; [|lia]. rewrite <- R3.
  eapply load_grows; [exact G|lia|lia|]. intros x Hx [Y|Y]; unfold within in Y; lia.
Qed.

Lemma accumulate_write_spec : forall ep w p q sz, ready ep w p -> at_state w p q -> 0 <= s_off q <= 32 -> 0 <= sz <= 32 ->
  in_range (acc q sz) ->
  wpf (accumulate_write ep) [p; s_off q; sz] w (resq (fun vs w' => vs = [s_off (acc q sz)] /\ grows (slot_mem p) w w' /\
    gnext w' = gnext w /\ at_state w' p (acc q sz)) False).
Proof.
  intros ep w p q sz (Hw&He&H1&Hp&Hp2) (A1&A2&A3) Ho Hs. unfold acc. intros B. pose proof Hw as (P1&P2&P3&P4&P5&P6).
  apply wpf_intro; [reflexivity|]. wc. ws1. ws1. ws1. ws1. ws1. apply wp_if; intros C; unb C.
  - assert (E : s_off q + sz <=? 32 = false) by lia.
    rewrite E in B |- *. clear C E. unfold in_range in B. cbn [s_slot] in B. cbn [s_off]. cbn [app]. unfold A_SLOT_DATA.
    ws1. ws1. apply wp_scache; [exact Hw|unfold live; lia|unfold live; lia|].
    rewrite A1, A2, A3. set (w1 := set_host _ _). assert (Pg : pages w1 = pages w) by reflexivity.
    ws1. ws1. ws1. ws1. set (w2 := set_mem w1 _).
    assert (G2 : grows (slot_mem p) w w2).
    { eapply grows_trans; [exact (grows_stor (slot_mem p) w (upd (s_stor q) (s_slot q) (s_word q)) Hw)|].
      apply grows_set_mem; [exact (proj1 (grows_stor (slot_mem p) w (upd (s_stor q) (s_slot q) (s_word q)) Hw))| |].
      - intros a Ha. change (mem w1) with (mem w). apply rd_mfill_out. unfold slot_mem, within in Ha. lia.
      - change (gnext w1) with (gnext w). unfold slot_mem, within. lia. }
    assert (Hw2 : wok w2) by apply G2. cbn zeta.
    assert (L2 : load_be 32 (mem w2) p = s_slot q).
    { rewrite <- A1. cbn [w2 w1 mem set_mem set_host]. apply load_be_ext. intros. apply rd_mfill_out. lia. }
    assert (O2 : load 32 (mem w2) 32 = 1).
    { rewrite <- H1. cbn [w2 w1 mem set_mem set_host]. apply load_ext. intros. apply rd_mfill_out. lia. }
    destruct (storage_next_slot_spec ep w2 p Hw2 He O2) as (w3&R3&S3); [unfold live; cbn [w2 w1 gnext set_mem set_host]; lia|lia|].
    rewrite L2 in R3, S3. destruct (Z.eqb_spec (s_slot q) (2 ^ 256 - 1)) as [X|X]; [exfalso; lia|]. destruct S3 as (F3&V3).
    ws1. eapply wp_call; [reflexivity|cbn [List.length]; lia|]. wc. eapply returns_wpf; [exact R3|].
    wc. ws1. ws1. ws1. ws1. ws1. ws1.
    split; [reflexivity|]. assert (G3 : grows (slot_mem p) w2 w3).
    { eapply grows_frame; [exact Hw2|exact F3|unfold sub, slot_mem; auto|]. intros a Ha. cbn [w2 w1 gnext set_mem set_host]. unfold within in Ha. lia. }
    split; [eapply grows_trans; eassumption|]. destruct F3 as (F31&F32&F33&F34&F35&F36&F37). split; [rewrite F33; reflexivity|].
    split; [exact V3|]. split; [|rewrite F36; reflexivity]. cbn [s_word].
    rewrite (load_be_ext 32 (mem w3) (mem w2) 64 64) by (intros; apply F37; unfold within; lia).
    apply load_be_zero. intros x Hx. cbn [w2 w1 mem set_mem set_host]. rewrite rd_mfill_in by lia. reflexivity.
  - assert (E : s_off q + sz <=? 32 = true) by lia.
    rewrite E in B |- *. cbn [s_off]. ws1. ws1. ws1. ws1. ws1. ws1. ws1.
    split; [reflexivity|]. split; [apply grows_refl; exact Hw|]. split; [reflexivity|]. split; [exact A1|]. split; assumption.
Qed.

(** ** Scalars *)

Definition nomem (w : world) (n : Z) : Prop := 0 < n /\ oom w n.

Lemma bswap_narrow : forall sz k v, 0 <= v < 256 ^ Z.of_nat sz -> bswap (sz + k) v / 256 ^ Z.of_nat k = bswap sz v.
Proof.
  intros sz k v H. rewrite bswap_add, (Z.div_small v) by lia. rewrite bswap_0, Z.add_0_r. apply Z.div_mul.
  pose proof (pow256_pos (Z.of_nat k)). lia.
Qed.

Lemma wp_swap_narrow : forall t n r (Q : outcome -> Prop) s l w, is_stack t = true -> 0 <= n < 256 ^ Z.of_nat (esize t) ->
  wp r Q (bswap (esize t) n :: s) l w ->
  wp ([ Call (if Nat.eqb (esize t) 8 then swap_i64_bytes else swap_i32_bytes) ] ++
      shift_narrow t ++ r) Q (n :: s) l w.
Proof.
  intros t n r Q s l w St Hn H. destruct t; try discriminate; cbn [esize Nat.eqb app shift_narrow] in *; change (Z.of_nat 1) with 1 in *; change (Z.of_nat 2) with 2 in *;
    change (Z.of_nat 4) with 4 in *; change (Z.of_nat 8) with 8 in *.
  1-4: (eapply wp_call; [reflexivity|cbn [List.length]; lia|]; wc; eapply returns_wpf; [apply swap_i32_spec; lia|]; wc).
  - ws1. ws1. change (24 mod 32) with 24. change (2 ^ 24) with (256 ^ Z.of_nat 3). change 4%nat with (1 + 3)%nat. rewrite bswap_narrow by (change (Z.of_nat 1) with 1; lia). exact H.
  - ws1. ws1. change (24 mod 32) with 24. change (2 ^ 24) with (256 ^ Z.of_nat 3). change 4%nat with (1 + 3)%nat. rewrite bswap_narrow by (change (Z.of_nat 1) with 1; lia). exact H.
  - ws1. ws1. change (16 mod 32) with 16. change (2 ^ 16) with (256 ^ Z.of_nat 2). change 4%nat with (2 + 2)%nat. rewrite bswap_narrow by (change (Z.of_nat 2) with 2; lia). exact H.
  - exact H.
  - eapply wp_call; [reflexivity|cbn [List.length]; lia|]; wc; eapply returns_wpf; [apply swap_i64_spec; lia|]; wc. exact H.
Qed.

Lemma stack_width : forall t v n, is_stack t = true -> int_val t v n -> v = VInt n /\ 0 <= n < 256 ^ Z.of_nat (esize t) /\ field_size t = Z.of_nat (esize t) /\ (esize t <= 8)%nat /\ (1 <= esize t)%nat.
Proof.
  intros t v n St [-> H]. destruct t; try discriminate; cbn in H |- *; change (Z.pow_pos 256 1) with 256; change (Z.pow_pos 256 2) with 65536; change (Z.pow_pos 256 4) with 4294967296; change (Z.pow_pos 256 8) with 18446744073709551616; repeat split; lia.
Qed.

(** Memory changed only inside the current slot's data. *)
Lemma put_state : forall ep w p q (o sz : nat) n m, ready ep w p -> at_state w p q -> s_off q = Z.of_nat o -> (sz <= o <= 32)%nat ->
  load_be sz m (96 - Z.of_nat o) = n ->
  (forall x, ~ within (96 - Z.of_nat o) (Z.of_nat sz) x -> rd m x = rd (mem w) x) ->
  grows (slot_mem p) w (set_mem w m) /\ at_state (set_mem w m) p (put_int q (Z.of_nat sz) n).
Proof.
  intros ep w p q o sz n m (Hw&He&H1&Hp&Hp2) (A1&A2&A3) Ho Hs Hl Hm. pose proof Hw as (P1&P2&P3&P4&P5&P6). split.
  - apply grows_set_mem; [exact Hw| |].
    + intros a Ha. apply Hm. intros Y. apply Ha. left. unfold within in *. lia.
    + unfold slot_mem, within. lia.
  - split; [|split; [|exact A3]]; cbn [mem set_mem put_int s_slot s_word].
    + rewrite <- A1. apply load_be_ext. intros. apply Hm. unfold within. lia.
    + rewrite <- A2, Ho. apply slot_put; assumption.
Qed.

Definition enc_post (w : world) (p : Z) (q' : sst) (c : Z) (vs : list Z) (w' : world) : Prop :=
  vs = [s_off q'] /\ grows (slot_mem p) w w' /\ gnext w' <= gnext w + c /\ at_state w' p q'.

Lemma wp_opt_load : forall (fld : bool) k x n r (Q : outcome -> Prop) s l w,
  (if fld then load k (mem w) x = n /\ live w x (Z.of_nat k) else x = n) -> wok w ->
  wp r Q (n :: s) l w -> wp ((if fld then [ Load k 0 ] else []) ++ r) Q (x :: s) l w.
Proof.
  intros fld k x n r Q s l w Hx (P1&P2&P3&P4&P5&P6) X. destruct fld; cbn [app]; [|subst x; exact X].
  destruct Hx as (Hx&Hl). unfold live in Hl. apply wp_load; [lia|unfold page_size; lia|]. rewrite Z.add_0_r, Hx. exact X.
Qed.

Lemma encode_int_spec : forall ep t (fld : bool) w p x ow q n, is_stack t = true -> ready ep w p -> at_state w p q ->
  field_size t <= s_off q <= 32 -> 0 <= n < 256 ^ Z.of_nat (esize t) ->
  (if fld then load (esize t) (mem w) x = n /\ live w x (Z.of_nat (esize t)) else x = n) ->
  wpf (encode_type ep t fld) [x; p; s_off q; ow] w (resq (enc_post w p (put_int q (field_size t) n) 0) False).
Proof.
  intros ep t fld w p x ow q n St Rd At Ho Hn Hx. pose proof Rd as (Hw&He&H1&Hp&Hp2). pose proof Hw as (P1&P2&P3&P4&P5&P6).
  assert (W : field_size t = Z.of_nat (esize t) /\ (1 <= esize t <= 8)%nat) by (destruct t; try discriminate; cbn; lia).
  destruct W as (W&W2). rewrite W in *. set (o := Z.to_nat (s_off q)). assert (Eo : s_off q = Z.of_nat o) by lia.
  assert (Ef : encode_type ep t fld = Func 4 1 1 (encode_scalar t fld ++ [ LocalGet 2 ])) by (destruct t; try discriminate; reflexivity).
  rewrite Ef. apply wpf_intro; [reflexivity|]. wc.
  assert (Ec : encode_scalar t fld = [ LocalGet 0 ] ++ (if fld then [ Load (esize t) 0 ] else []) ++
      [ Call (if Nat.eqb (esize t) 8 then swap_i64_bytes else swap_i32_bytes) ] ++
      shift_narrow t ++
      [ LocalSet 4 ] ++ slot_data_ptr 2 ++ [ LocalGet 4; Store (esize t) 0 ]) by (destruct t; try discriminate; reflexivity).
  rewrite Ec. rewrite <- !app_assoc. cbn [app]. ws1.
  apply (wp_opt_load fld (esize t) x n); [exact Hx|exact Hw|].
  apply (wp_swap_narrow t n); [exact St|exact Hn|]. cbn [app].
  ws1. apply (wp_slot_data_ptr 2 (s_off q)); [reflexivity|lia|]. ws1. apply wp_store; [lia|unfold page_size; lia|]. rewrite Z.add_0_r.
  ws1. ws1. destruct (put_state ep w p q o (esize t) n (store (Z.of_nat (esize t)) (mem w) (96 - s_off q) (bswap (esize t) n)) Rd At Eo) as (G&A).
  - lia.
  - rewrite Eo. apply load_be_store_swapped. exact Hn.
  - intros y Hy. apply rd_store_out. rewrite Eo. unfold within in Hy. lia.
  - split; [reflexivity|]. split; [exact G|]. split; [cbn [gnext set_mem]; lia|exact A].
Qed.

Lemma encode_big_spec : forall ep t (fld : bool) w p x ow v q F, In t [TU128; TU256; TAddress] -> ready ep w p -> at_state w p q ->
  field_size t <= s_off q <= 32 -> vrep (mem w) t v x F -> sub F (heap w) ->
  exists n, v = VInt n /\ 0 <= n < 256 ^ field_size t /\
  wpf (encode_type ep t fld) [x; p; s_off q; ow] w (resq (enc_post w p (put_int q (field_size t) n) 0) False).
Proof.
  intros ep t fld w p x ow v q F It Rd At Ho R SF. pose proof Rd as (Hw&He&H1&Hp&Hp2). pose proof Hw as (P1&P2&P3&P4&P5&P6).
  set (o := Z.to_nat (s_off q)). assert (Eo : s_off q = Z.of_nat o) by (destruct It as [<-|[<-|[<-|[]]]]; cbn in Ho; lia).
  assert (Ef : encode_type ep t fld = Func 4 1 1 (encode_scalar t fld ++ [ LocalGet 2 ])) by (destruct It as [<-|[<-|[<-|[]]]]; reflexivity).
  rewrite Ef. clear Ef.
  assert (LF : forall k, 0 < k -> sub (between x (x + k)) F -> 468 <= x /\ x + k <= gnext w).
  { intros k Hk S. pose proof (SF x (S x ltac:(unfold between; lia))) as B1. pose proof (SF (x + k - 1) (S (x + k - 1) ltac:(unfold between; lia))) as B2.
    unfold heap, between in B1, B2. lia. }
  destruct It as [<-|[<-|[<-|[]]]]; cbn [vrep] in R; destruct R as ((->&Rn)&S); cbn [vbits] in Rn; cbn [field_size] in *; eexists; (split; [reflexivity|]);
    (split; [first [exact Rn|change (256 ^ 16) with (2 ^ 128); exact Rn|change (256 ^ 32) with (2 ^ 256); exact Rn|change (256 ^ 20) with (2 ^ 160); exact Rn]|]);
    apply wpf_intro; try reflexivity; wc; unfold encode_scalar; rewrite <- ?app_assoc; cbn [app]; ws1.
  - destruct (LF 16 ltac:(lia) S) as (L1&L2). apply (wp_slot_data_ptr 2 (s_off q)); [reflexivity|lia|].
    destruct (swap_bytes_values 2 w x (96 - s_off q) Hw) as (m&Rm&Fm&V1&V2); try (unfold live; lia).
    change (8 * 2)%nat with 16%nat in *. change (8 * Z.of_nat 2) with 16 in *.
    eapply wp_call; [reflexivity|cbn [List.length]; lia|]. wc. eapply returns_wpf; [exact Rm|]. wc. ws1. ws1.
    destruct (put_state ep w p q o 16 (load 16 (mem w) x) m Rd At Eo) as (G&A); [lia|rewrite <- Eo; exact V1|rewrite <- Eo; exact Fm|].
    split; [reflexivity|]. split; [exact G|]. split; [cbn [gnext set_mem]; lia|exact A].
  - destruct (LF 32 ltac:(lia) S) as (L1&L2). apply (wp_slot_data_ptr 2 (s_off q)); [reflexivity|lia|].
    destruct (swap_bytes_values 4 w x (96 - s_off q) Hw) as (m&Rm&Fm&V1&V2); try (unfold live; lia).
    change (8 * 4)%nat with 32%nat in *. change (8 * Z.of_nat 4) with 32 in *.
    eapply wp_call; [reflexivity|cbn [List.length]; lia|]. wc. eapply returns_wpf; [exact Rm|]. wc. ws1. ws1.
    destruct (put_state ep w p q o 32 (load 32 (mem w) x) m Rd At Eo) as (G&A); [lia|rewrite <- Eo; exact V1|rewrite <- Eo; exact Fm|].
    split; [reflexivity|]. split; [exact G|]. split; [cbn [gnext set_mem]; lia|exact A].
  - destruct (LF 32 ltac:(lia) S) as (L1&L2). ws1. apply (wp_slot_data_ptr 2 (s_off q)); [reflexivity|lia|].
    ws1. ws1. ws1. ws1. apply wp_mcopy; [lia|unfold page_size; lia|lia|unfold page_size; lia|]. ws1. ws1.
    destruct (put_state ep w p q o 20 (load_be 32 (mem w) x) (mcopy (mem w) (96 - s_off q) (x + 12) 20) Rd At Eo) as (G&A).
    + lia.
    + change 32%nat with (12 + 20)%nat. rewrite <- (load_be_low 12 20 (mem w) x) by (change (12 + 20)%nat with 32%nat; change (256 ^ Z.of_nat 20) with (2 ^ 160); lia).
      change (Z.of_nat 12) with 12. apply load_be_ext. intros i Hi. rewrite <- Eo, rd_mcopy_in by lia. f_equal. lia.
    + intros y Hy. apply rd_mcopy_out. rewrite Eo. unfold within in Hy. lia.
    + split; [reflexivity|]. split; [exact G|]. split; [cbn [gnext set_mem]; lia|exact A].
Qed.

(** ** Values *)

(** Memory an encoder allocates: a slot number per vector, two and an offset per enum. *)
Fixpoint cost (v : val) : Z :=
  match v with
  | VInt _ => 0
  | VVec l => 32 + fold_right (fun v c => cost v + c) 0 l
  | VStruct _ l => fold_right (fun v c => cost v + c) 0 l
  | VEnum _ l => 68 + fold_right (fun v c => cost v + c) 0 l
  end.
Definition costs (l : list val) : Z := fold_right (fun v c => cost v + c) 0 l.

Lemma cost_nonneg : forall v, 0 <= cost v.
Proof.
  fix IH 1. intros [n|l|o l|g l]; cbn [cost]; [lia| | |];
    (assert (0 <= fold_right (fun v c => cost v + c) 0 l); [|lia]; induction l as [|v l IHl]; cbn [fold_right]; [lia|specialize (IH v); lia]).
Qed.
Lemma costs_nonneg : forall l, 0 <= costs l.
Proof. induction l as [|v l IH]; cbn [costs fold_right] in *; [lia|]. pose proof (cost_nonneg v). unfold costs in IH. lia. Qed.
Lemma costs_cons : forall v l, costs (v :: l) = cost v + costs l.
Proof. reflexivity. Qed.
Lemma costs_app : forall l k, costs (l ++ k) = costs l + costs k.
Proof. induction l as [|v l IH]; intros k; cbn [app]; [reflexivity|]. rewrite !costs_cons, IH. lia. Qed.

Lemma field_size_range : forall t, 0 <= field_size t <= 32.
Proof. destruct t; cbn; try lia. destruct key; lia. Qed.

Lemma acc_off : forall q t, 0 <= s_off q <= 32 -> field_size t <= s_off (acc q (field_size t)) <= 32.
Proof. intros q t H. pose proof (field_size_range t). unfold acc. destruct (s_off q + field_size t <=? 32) eqn:E; cbn; lia. Qed.

Lemma put_off : forall H t v q, 0 <= s_off q <= 32 -> 0 <= s_off (put H t v q) <= 32.
Proof.
  intros H t. refine (ty_rec' (fun t => forall v q, 0 <= s_off q <= 32 -> 0 <= s_off (put H t v q) <= 32) _ _ _ _ _ _ _ t); clear t.
  - intros t St v q Hq. destruct t; try discriminate; destruct v; exact Hq.
  - intros v q Hq. destruct v; exact Hq.
  - intros v q Hq. destruct v; exact Hq.
  - intros v q Hq. destruct v; exact Hq.
  - intros t _ v q Hq. destruct v; try exact Hq. cbn. lia.
  - intros k fs IH v q Hq. destruct v as [n|l|o l|g l]; try exact Hq. rewrite put_struct. cbn [cache s_off].
    revert l q Hq. induction IH as [|t fs Ht _ IHf]; intros [|v l] q Hq; cbn [puts]; try exact Hq.
    apply IHf. apply Ht. pose proof (field_size_range t). pose proof (acc_off q t Hq). lia.
  - intros vts _ v q Hq. destruct v as [n|l|o l|g l]; try exact Hq. destruct (nth_error vts g) as [fs|] eqn:E.
    + rewrite (put_enum H vts g fs l q E). pose proof (at_byte_good (fold_left (fun n fs => Z.max n (lin (fold_left (fun p t' => after t' p) fs (room (s_slot q, s_off q) 1)))) vts (lin (room (s_slot q, s_off q) 1)))) as Gd.
      unfold good in Gd. unfold ending. cbn [after]. destruct (_ =? _); cbn [s_off]; exact Gd.
    + cbn [put]. assert (N : nth_error (map (fun fs => (fix go (fs0 : list ty) (vs0 : list val) (q0 : sst) {struct fs0} : sst := match fs0, vs0 with
        | t' :: fs', v' :: vs' => go fs' vs' (put H t' v' (acc q0 (field_size t')))
        | _, _ => q0
        end) fs) vts) g = None) by (apply nth_error_None; rewrite map_length; apply nth_error_None; exact E).
      rewrite N. exact Hq.
Qed.

Definition rep_of (fld : bool) (m : memory) (t : ty) (v : val) (x : Z) (F : mset) : Prop :=
  if fld then field_of m t (vrep m t) v x F else vrep m t v x F.

Lemma encode_type_shape : forall ep t fld, exists nl b, encode_type ep t fld = Func 4 nl 1 b.
Proof. intros. destruct t as [| | | | | | | | |[]|]; do 2 eexists; reflexivity. Qed.

Definition writes (t : ty) : Prop := forall ep (fld : bool) w p x ow v q F, ready ep w p -> load_be 32 (mem w) 0 = 0 -> at_state w p q ->
  field_size t <= s_off q <= 32 -> safe (keccak (host w)) t v q -> rep_of fld (mem w) t v x F -> sub F (heap w) ->
  disj F (between p (p + 32)) ->
  wpf (encode_type ep t fld) [x; p; s_off q; ow] w (resq (enc_post w p (put (keccak (host w)) t v q) (cost v)) (nomem w (cost v))).

Lemma keccak_grows : forall M w w', grows M w w' -> keccak (host w') = keccak (host w).
Proof. intros M w w' (_&_&_&_&_&H&_). rewrite H. reflexivity. Qed.

Lemma nomem_grows : forall M w w' c c', grows M w w' -> nomem w' c -> gnext w' + c <= gnext w + c' -> c <= c' -> nomem w c'.
Proof. unfold nomem, oom. intros M w w' c c' (_&H&_) (A&B) H1 H2. lia. Qed.

Lemma agree_grows : forall p w w' F, grows (slot_mem p) w w' -> sub F (heap w) -> disj F (between p (p + 32)) -> agree (mem w) (mem w') F.
Proof.
  intros p w w' F (_&_&_&_&_&_&G) S D x Hx. pose proof (S x Hx) as B. unfold heap, between in B. apply G; [lia|].
  intros [Y|Y]; unfold within in Y; [lia|]. apply (D x Hx). unfold between. lia.
Qed.

Lemma heap_grows : forall M w w' F, grows M w w' -> sub F (heap w) -> sub F (heap w').
Proof. intros M w w' F (_&_&_&H&_) S x Hx. specialize (S x Hx). unfold heap, between in *. lia. Qed.

Lemma fields_grows : forall fs p w w' vs a G, grows (slot_mem p) w w' -> sub G (heap w) -> disj G (between p (p + 32)) ->
  468 <= a -> a + 4 * Z.of_nat (List.length fs) <= gnext w -> (forall x, a <= x < a + 4 * Z.of_nat (List.length fs) -> ~ within p 32 x) ->
  fields (map (fun t => field_of (mem w) t (vrep (mem w) t)) fs) (mem w) vs a G ->
  fields (map (fun t => field_of (mem w') t (vrep (mem w') t)) fs) (mem w') vs a G.
Proof.
  intros fs p w w' vs a G Gr S D A1 A2 A3 H. eapply fields_ext; [| |exact H].
  - apply Forall2_map. apply Forall_forall. intros t _ v x G0 S0. apply field_of_ext; [apply vrep_ext|].
    eapply agree_sub; [|exact S0]. eapply agree_grows; eassumption.
  - rewrite map_length. intros y Hy. destruct Gr as (_&_&_&_&_&_&Gr). apply Gr; [lia|]. intros [Y|Y]; [unfold within in Y; lia|]. exact (A3 y ltac:(lia) Y).
Qed.

Lemma zero_grows : forall p w w', grows (slot_mem p) w w' -> wok w -> p = 128 \/ 468 <= p -> load_be 32 (mem w) 0 = 0 -> load_be 32 (mem w') 0 = 0.
Proof.
  intros p w w' G (P1&P2&P3&_) Hp Z0. transitivity (load_be 32 (mem w) 0); [|exact Z0]. apply (load_be_grows 32 (slot_mem p) w w' 0 G); [lia|lia|]. intros x Hx [Y|Y]; unfold within in Y; lia.
Qed.

Lemma encode_fields_wp : forall fs, Forall writes fs -> forall ep w p x ow ex vs q G i r (Q : outcome -> Prop) s,
  ready ep w p -> load_be 32 (mem w) 0 = 0 -> at_state w p q -> 0 <= s_off q <= 32 -> safes (keccak (host w)) fs vs q -> 0 <= i ->
  fields (map (fun t => field_of (mem w) t (vrep (mem w) t)) fs) (mem w) vs (x + 4 * i) G -> sub G (heap w) -> disj G (between p (p + 32)) ->
  468 <= x -> x + 4 * i + 4 * Z.of_nat (List.length fs) <= gnext w ->
  (forall y, x + 4 * i <= y < x + 4 * i + 4 * Z.of_nat (List.length fs) -> ~ within p 32 y) ->
  (nomem w (costs vs) -> Q OTrap) ->
  (forall w', grows (slot_mem p) w w' -> gnext w' <= gnext w + costs vs -> at_state w' p (puts (keccak (host w)) fs vs q) ->
     wp r Q s (x :: p :: s_off (puts (keccak (host w)) fs vs q) :: ow :: ex) w') ->
  wp (encode_fields ep (map (fun t => (field_size t, encode_type ep t true)) fs) i ++ r) Q s (x :: p :: s_off q :: ow :: ex) w.
Proof.
  intros fs W. induction W as [|t fs Wt _ IH]; intros ep w p x ow ex vs q G i r Q s Rd Z0 At Ho Sf Hi Fl SG DG X1 X2 X3 T K.
  - cbn [map fields] in Fl. destruct vs; [|contradiction]. cbn [map encode_fields app]. apply K; [apply grows_refl, Rd|cbn; lia|exact At].
  - pose proof Rd as (Hw&He&H1&Hp&Hp2). pose proof Hw as (P1&P2&P3&P4&P5&P6).
    cbn [map fields] in Fl. destruct vs as [|v vs]; [contradiction|]. destruct Fl as (F1&F2&R1&R2&D12&S1&S2).
    cbn [safes] in Sf. destruct Sf as (I1&Sv&Sf). cbn [List.length] in X2, X3. rewrite Nat2Z.inj_succ in X2, X3.
    cbn [map encode_fields]. rewrite <- app_assoc. cbn [app]. ws1. ws1. ws1.
    eapply wp_call_spec; [reflexivity|cbn [List.length]; lia|wc; eapply accumulate_write_spec; [exact Rd|exact At|exact Ho|apply field_size_range|exact I1]|intros []|].
    intros vs1 w1 (->&G1&N1&At1). wc. ws1. ws1. pose proof (proj1 G1) as Hw1. pose proof Hw1 as (P1'&P2'&P3'&P4'&P5'&P6').
    apply wp_load; [lia|unfold page_size; lia|]. ws1. ws1. ws1.
    pose proof (ready_grows ep w w1 p p Rd G1 Hp) as Rd1. pose proof (keccak_grows _ _ _ G1) as K1.
    rewrite (load_grows 4 (slot_mem p) w w1 (x + 4 * i) G1) by (first [lia|intros y Hy [Y|Y]; [unfold within in Y; lia|exact (X3 y ltac:(lia) Y)]]).
    assert (R1' : rep_of true (mem w1) t v (load 4 (mem w) (x + 4 * i)) F1).
    { unfold rep_of. eapply field_of_ext; [apply vrep_ext| |exact R1].
      eapply agree_grows; [exact G1|eapply sub_trans; eassumption|eapply disj_sub; [exact DG|exact S1|apply sub_refl]]. }
    pose proof (costs_nonneg vs) as CN. pose proof (cost_nonneg v) as CN2.
    destruct (encode_type_shape ep t true) as (nl&b&Ef).
    eapply wp_call_spec; [exact Ef|cbn [List.length]; lia| | |].
    { wc. eapply (Wt ep true w1 p (load 4 (mem w) (x + 4 * i)) ow v (acc q (field_size t)) F1); [exact Rd1|eapply zero_grows; [exact G1|exact Hw|exact Hp|exact Z0]|exact At1|apply acc_off; exact Ho|rewrite K1; exact Sv|exact R1'| |].
      - eapply heap_grows; [exact G1|]. eapply sub_trans; eassumption.
      - eapply disj_sub; [exact DG|exact S1|apply sub_refl]. }
    { intros N. apply T. rewrite costs_cons. eapply nomem_grows; [exact G1|exact N|lia|lia]. }
    rewrite K1. intros vs2 w2 (->&G2&N2&At2). wc. ws1.
    pose proof (grows_trans _ _ _ _ G1 G2) as G12. pose proof (keccak_grows _ _ _ G12) as K2.
    pose proof (put_off (keccak (host w)) t v (acc q (field_size t)) ltac:(pose proof (field_size_range t); pose proof (acc_off q t Ho); lia)) as Ho2.
    pose proof G2 as (_&_&_&N2'&_).
    eapply (IH ep w2 p x ow ex vs _ F2 (i + 1) r Q s).
    + eapply ready_grows; [exact Rd|exact G12|exact Hp].
    + eapply zero_grows; [exact G12|exact Hw|exact Hp|exact Z0].
    + exact At2.
    + exact Ho2.
    + rewrite K2. exact Sf.
    + lia.
    + replace (x + 4 * (i + 1)) with (x + 4 * i + 4) by lia. eapply fields_grows; [exact G12|eapply sub_trans; eassumption|eapply disj_sub; [exact DG|exact S2|apply sub_refl]|lia|lia| |exact R2].
      intros y Hy. apply X3. lia.
    + eapply heap_grows; [exact G12|]. eapply sub_trans; eassumption.
    + eapply disj_sub; [exact DG|exact S2|apply sub_refl].
    + exact X1.
    + lia.
    + intros y Hy. apply X3. lia.
    + intros N. apply T. rewrite costs_cons. eapply nomem_grows; [exact G12|exact N|lia|lia].
    + rewrite K2. intros w3 G3 N3 At3. apply K; [eapply grows_trans; eassumption|rewrite costs_cons; lia|exact At3].
Qed.

(** Working on a fresh slot number [e]. *)
Lemma grows_inner : forall p e w w1 w2, grows (slot_mem p) w w1 -> grows (slot_mem e) w1 w2 -> gnext w <= e -> grows (slot_mem p) w w2.
Proof.
  intros p e w w1 w2 (A1&A2&A3&A4&A5&A6&A7) (B1&B2&B3&B4&B5&B6&B7) He. unfold grows.
  repeat (split; [first [assumption|congruence|lia]|]). split.
  - rewrite B6 at 1. rewrite A6 at 1. reflexivity.
  - intros x H1 H2. rewrite B7, A7; auto; [lia|]. intros [Y|Y]; unfold within in Y; [|lia]. apply H2. left. exact Y.
Qed.

Lemma low4 : forall m a, load_be 4 m (a + 28) = load_be 32 m a mod 2 ^ 32.
Proof.
  intros. change 32%nat with (28 + 4)%nat. rewrite load_be_split. change (256 ^ Z.of_nat 4) with (2 ^ 32).
  change (Z.of_nat 28) with 28. rewrite (Z.add_comm (_ * _)), Z_mod_plus_full. symmetry. apply Z.mod_small. exact (load_be_range 4 m (a + 28)).
Qed.

Lemma put_elems_snoc : forall H t vs v q, put_elems H t (vs ++ [v]) q = put H t v (acc (put_elems H t vs q) (field_size t)).
Proof. intros. unfold put_elems. rewrite fold_left_app. reflexivity. Qed.

Lemma safe_elems_mid : forall H t vs1 v vs2 q, safe_elems H t (vs1 ++ v :: vs2) q ->
  in_range (acc (put_elems H t vs1 q) (field_size t)) /\ safe H t v (acc (put_elems H t vs1 q) (field_size t)).
Proof. induction vs1 as [|u vs1 IH]; intros v vs2 q S; cbn [app safe_elems] in S; [cbn; tauto|]. cbn [put_elems fold_left]. apply (IH v vs2). tauto. Qed.

Lemma safe_vec : forall H t vs q, safe H (TVec t) (VVec vs) q ->
  s_stor q (s_slot q) mod 2 ^ 32 <= Z.of_nat (List.length vs) /\
  safe_elems H t vs (mkS (data_slot H (s_slot q)) 0 (s_stor q (s_slot q) mod 2 ^ 256) (s_stor q)).
Proof.
  intros H t vs q [S1 S2]. split; [exact S1|]. revert S2. generalize (mkS (data_slot H (s_slot q)) 0 (s_stor q (s_slot q) mod 2 ^ 256) (s_stor q)).
  clear S1. induction vs as [|v vs IH]; intros e S; cbn [safe_elems]; [exact Logic.I|]. destruct S as (A&B&C). auto.
Qed.

Lemma put_vec : forall H t vs q, put H (TVec t) (VVec vs) q =
  mkS (s_slot q) 32 (Z.of_nat (List.length vs)) (match vs with [] => s_stor q | _ =>
    s_stor (cache (put_elems H t vs (mkS (data_slot H (s_slot q)) 0 (s_stor q (s_slot q) mod 2 ^ 256) (s_stor q)))) end).
Proof. reflexivity. Qed.

Lemma put_elems_off : forall H t vs q, 0 <= s_off q <= 32 -> 0 <= s_off (put_elems H t vs q) <= 32.
Proof.
  induction vs as [|v vs IH]; intros q Hq; cbn [put_elems fold_left]; [exact Hq|]. apply IH. apply put_off.
  pose proof (field_size_range t). pose proof (acc_off q t Hq). lia.
Qed.

Lemma elems_grows : forall t p w w' vs a G, grows (slot_mem p) w w' -> sub G (heap w) -> disj G (between p (p + 32)) ->
  468 <= a -> a + Z.of_nat (esize t) * Z.of_nat (List.length vs) <= gnext w ->
  (forall x, a <= x < a + Z.of_nat (esize t) * Z.of_nat (List.length vs) -> ~ within p 32 x) ->
  elems (vrep (mem w) t) (esize t) (mem w) vs a G -> elems (vrep (mem w') t) (esize t) (mem w') vs a G.
Proof.
  intros t p w w' vs a G Gr S D A1 A2 A3 H. eapply elems_ext; [| |exact H].
  - intros v x G0 S0. apply vrep_ext. eapply agree_sub; [|exact S0]. eapply agree_grows; eassumption.
  - intros y Hy. destruct Gr as (_&_&_&_&_&_&Gr). apply Gr; [lia|]. intros [Y|Y]; [unfold within in Y; lia|]. exact (A3 y ltac:(lia) Y).
Qed.

Lemma mul_bound : forall s i n, 0 <= s -> 0 <= i -> i + 1 <= n -> s * i + s <= s * n /\ 0 <= i * s.
Proof. intros. nia. Qed.

Lemma encode_vector_loop : forall t, writes t -> forall ep w e x ow vs q0 G cap p old es r (Q : outcome -> Prop) s,
  ready ep w e -> load_be 32 (mem w) 0 = 0 -> at_state w e q0 -> 0 <= s_off q0 <= 32 -> safe_elems (keccak (host w)) t vs q0 -> vs <> [] ->
  Z.of_nat (List.length vs) <= cap -> 8 + cap * Z.of_nat (esize t) < 2147483648 ->
  elems (vrep (mem w) t) (esize t) (mem w) vs (x + 8) G -> sub G (heap w) -> disj G (between e (e + 32)) ->
  468 <= x -> x + 8 + Z.of_nat (esize t) * Z.of_nat (List.length vs) <= gnext w ->
  (forall y, x <= y < x + 8 + Z.of_nat (esize t) * Z.of_nat (List.length vs) -> ~ within e 32 y) ->
  (nomem w (costs vs) -> Q OTrap) ->
  (forall w' i, grows (slot_mem e) w w' -> gnext w' <= gnext w + costs vs -> at_state w' e (put_elems (keccak (host w)) t vs q0) ->
     wp r Q s [x; p; ow; e; Z.of_nat (List.length vs); old; i; s_off (put_elems (keccak (host w)) t vs q0); es] w') ->
  wp (Block "inner" 0
         [ Loop "loop" 0
             ([ LocalGet 3; LocalGet 7; Const (field_size t); Call (accumulate_write ep); LocalSet 7 ] ++
              vec_elem_ptr 0 6 (Z.of_nat (esize t)) ++
              [ Load (esize t) 0; LocalGet 3; LocalGet 7; LocalGet 2; Call (encode_type ep t false); LocalSet 7;
                LocalGet 6; LocalGet 4; Const 1; Bin I32 Sub; Bin I32 Eq; BrIf "inner";
                LocalGet 6; Const 1; Bin I32 Add; LocalSet 6; Br "loop" ]) ] :: r) Q s
    [x; p; ow; e; Z.of_nat (List.length vs); old; 0; s_off q0; es] w.
Proof.
  intros t Wt ep w e x ow vs q0 G cap p old es r Q s Rd Z0 At Ho Sf Ne Hc Hc2 El SG DG X1 X2 X3 T K.
  pose proof Rd as (Hw&He&H1&Hp&Hp2). pose proof Hw as (P1&P2&P3&P4&P5&P6).
  set (H := keccak (host w)) in *. set (n := Z.of_nat (List.length vs)) in *.
  assert (Esz : (1 <= esize t <= 8)%nat) by (destruct t; cbn; lia).
  assert (Hn : 0 <= n) by (unfold n; lia). assert (n * Z.of_nat (esize t) <= cap * Z.of_nat (esize t)) by nia.
  apply wp_block.
  apply (wp_loop (fun k l w' => exists vs1 vs2, vs = vs1 ++ vs2 /\ List.length vs2 = k /\ vs2 <> [] /\
     l = [x; p; ow; e; n; old; Z.of_nat (List.length vs1); s_off (put_elems H t vs1 q0); es] /\
     grows (slot_mem e) w w' /\ gnext w' <= gnext w + costs vs1 /\ at_state w' e (put_elems H t vs1 q0)) (List.length vs)).
  { exists [], vs. split; [reflexivity|]. split; [reflexivity|]. split; [exact Ne|]. split; [reflexivity|].
    split; [apply grows_refl; exact Hw|]. split; [cbn; lia|exact At]. }
  intros k l w1 (vs1&vs2&E&Lk&Ne2&->&G1&N1&At1). destruct vs2 as [|v vs2]; [congruence|]. clear Ne2. cbn [List.length] in Lk.
  assert (En : n = Z.of_nat (List.length vs1) + 1 + Z.of_nat (List.length vs2)) by (unfold n; rewrite E, app_length; cbn [List.length]; lia).
  set (i := Z.of_nat (List.length vs1)) in *. assert (Hi : 0 <= i) by (unfold i; lia).
  pose proof (ready_grows ep w w1 e e Rd G1 Hp) as Rd1. pose proof (keccak_grows _ _ _ G1) as K1.
  pose proof G1 as (_&_&_&N1'&_). pose proof Rd1 as (Hw1&_&_&_&Hp1). pose proof Hw1 as (P1'&P2'&P3'&P4'&P5'&P6').
  pose proof (put_elems_off H t vs1 q0 Ho) as Ho1.
  rewrite E in Sf. destruct (safe_elems_mid H t vs1 v vs2 q0 Sf) as (I1&Sv).
  cbn [app vec_elem_ptr]. ws1. ws1. ws1.
  eapply wp_call_spec; [reflexivity|cbn [List.length]; lia|wc; eapply accumulate_write_spec; [exact Rd1|exact At1|exact Ho1|apply field_size_range|exact I1]|intros []|].
  intros r1 w2 (->&G2&N2&At2). wc. pose proof (grows_trans _ _ _ _ G1 G2) as G12.
  pose proof (ready_grows ep w w2 e e Rd G12 Hp) as Rd2. pose proof (keccak_grows _ _ _ G12) as K2.
  pose proof Rd2 as (Hw2&_&_&_&Hp2'). pose proof Hw2 as (P1''&P2''&P3''&P4''&P5''&P6'').
  destruct (mul_bound (Z.of_nat (esize t)) i n) as (Bi&B2); [lia|exact Hi|lia|].
  assert (B3 : i * Z.of_nat (esize t) = Z.of_nat (esize t) * i) by lia.
  ws1. ws1. ws1. ws1. ws1. ws1. ws1. ws1.
  apply wp_load; [lia|unfold page_size; lia|]. rewrite Z.add_0_r.
  set (xv := load (esize t) (mem w2) (x + 8 + i * Z.of_nat (esize t))).
  assert (El2 : elems (vrep (mem w2) t) (esize t) (mem w2) vs (x + 8) G).
  { eapply elems_grows; [exact G12|exact SG|exact DG|lia|exact X2| |exact El]. intros y Hy. apply X3. lia. }
  rewrite E in El2. apply elems_split in El2. destruct El2 as (FA&FB&_&EB&_&_&SB).
  cbn [elems] in EB. destruct EB as (F1&F2&R1&_&_&S1&_). fold i in R1.
  replace (x + 8 + Z.of_nat (esize t) * i) with (x + 8 + i * Z.of_nat (esize t)) in R1 by lia. fold xv in R1.
  ws1. ws1. ws1.
  destruct (encode_type_shape ep t false) as (nl&b&Ef).
  pose proof (costs_nonneg vs1) as CN. pose proof (cost_nonneg v) as CN2. pose proof (costs_nonneg vs2) as CN3.
  assert (Ec : costs vs = costs vs1 + (cost v + costs vs2)) by (rewrite E, costs_app, costs_cons; reflexivity).
  eapply wp_call_spec; [exact Ef|cbn [List.length]; lia| | |].
  { wc. eapply (Wt ep false w2 e xv ow v (acc (put_elems H t vs1 q0) (field_size t)) F1); [exact Rd2|eapply zero_grows; [exact G12|exact Hw|exact Hp|exact Z0]|exact At2|apply acc_off; exact Ho1|rewrite K2; exact Sv|exact R1| |].
    - eapply heap_grows; [exact G12|]. eapply sub_trans; [exact S1|]. eapply sub_trans; eassumption.
    - eapply disj_sub; [exact DG|eapply sub_trans; eassumption|apply sub_refl]. }
  { intros N. apply T. eapply nomem_grows; [exact G12|exact N|lia|lia]. }
  rewrite K2. fold H. intros r2 w3 (->&G3&N3&At3). wc. pose proof (grows_trans _ _ _ _ G12 G3) as G13.
  rewrite <- put_elems_snoc in At3 |- *. pose proof G3 as (_&_&_&N3'&_).
  ws1. ws1. ws1. ws1. ws1. ws1. ws1.
  - assert (vs2 = []) by (destruct vs2; [reflexivity|cbn [List.length] in En; lia]). subst vs2. rewrite <- E in *.
    apply K; [exact G13|lia|exact At3].
  - ws1. ws1. ws1. ws1. ws1. exists (List.length vs2). split; [lia|]. exists (vs1 ++ [v]), vs2.
    split; [rewrite <- app_assoc; exact E|]. split; [reflexivity|]. split; [intros ->; cbn in En; lia|].
    split; [|split; [exact G13|split; [rewrite costs_app, costs_cons; cbn; lia|exact At3]]].
    rewrite app_length. cbn [List.length]. do 6 f_equal. f_equal. unfold i. lia.
Qed.

Lemma data_slot_bytes : forall (Hk : list Z -> Z) m p slot, load_be 32 m p = slot -> data_slot Hk slot = Hk (bytes 32 m p) mod 2 ^ 256.
Proof. intros Hk m p slot E. unfold data_slot, word. rewrite (bytes_be 32 m p slot E). reflexivity. Qed.

Lemma heap_block : forall F w x n, sub F (heap w) -> sub (between x (x + n)) F -> 0 < n -> 468 <= x /\ x + n <= gnext w.
Proof.
  intros F w x n SF S Hn. pose proof (SF x (S x ltac:(unfold between; lia))) as B1. pose proof (SF (x + n - 1) (S (x + n - 1) ltac:(unfold between; lia))) as B2.
  unfold heap, between in B1, B2. lia.
Qed.

Lemma encode_vector_spec : forall t, writes t -> forall ep w p x ow v q F, ready ep w p -> load_be 32 (mem w) 0 = 0 -> at_state w p q ->
  safe (keccak (host w)) (TVec t) v q -> vrep (mem w) (TVec t) v x F -> sub F (heap w) -> disj F (between p (p + 32)) ->
  wpf (encode_vector ep t (encode_type ep t false)) [x; p; ow] w (resq (fun vs w' => vs = [] /\ grows (slot_mem p) w w' /\
    gnext w' <= gnext w + cost v /\ at_state w' p (put (keccak (host w)) (TVec t) v q)) (nomem w (cost v))).
Proof.
  intros t Wt ep w p x ow v q F Rd Z0 At Sf R SF DF. pose proof Rd as (Hw&He&H1&Hp&Hp2). pose proof Hw as (P1&P2&P3&P4&P5&P6).
  destruct At as (A1&A2&A3). cbn [vrep] in R. destruct R as (vs&cap&G&->&L1&L2&L3&L4&S1&S2&DJ&El).
  set (H := keccak (host w)) in *. destruct (safe_vec _ _ _ _ Sf) as (Sl&Se). set (n := Z.of_nat (List.length vs)) in *.
  assert (Hn : 0 <= n) by (unfold n; lia). assert (Esz : (1 <= esize t <= 8)%nat) by (destruct t; cbn; lia).
  assert (Hcs : n * Z.of_nat (esize t) <= cap * Z.of_nat (esize t)) by (apply Z.mul_le_mono_nonneg_r; lia).
  assert (Hn0 : 0 <= n * Z.of_nat (esize t)) by (apply Z.mul_nonneg_nonneg; lia).
  assert (Hc0 : 0 <= cap * Z.of_nat (esize t)) by lia.
  destruct (heap_block F w x (8 + cap * Z.of_nat (esize t)) SF) as (X1&X2); [replace (x + (8 + cap * Z.of_nat (esize t))) with (x + 8 + cap * Z.of_nat (esize t)) by lia; exact S1|lia|].
  assert (X3 : forall y, x <= y < x + 8 + cap * Z.of_nat (esize t) -> ~ within p 32 y).
  { intros y Hy Y. apply (DF y); [apply S1; unfold between; lia|unfold within in Y; unfold between; lia]. }
  assert (Cn : cost (VVec vs) = 32 + costs vs) by reflexivity. pose proof (costs_nonneg vs) as Cp. rewrite Cn.
  apply wpf_intro; [reflexivity|]. wc. unfold A_SLOT_DATA. ws1. ws1. ws1. ws1. set (w1 := set_mem w _).
  assert (Fm : forall a, ~ within 64 32 a -> rd (mem w1) a = rd (mem w) a).
  { intros a Ha. cbn [w1 mem set_mem]. apply rd_mfill_out. unfold within in Ha. lia. }
  assert (G1 : grows (slot_mem p) w w1).
  { apply grows_set_mem; [exact Hw| |]; unfold slot_mem, within; [|intros; lia]. intros a Ha. apply Fm. unfold within. lia. }
  assert (Hw1 : wok w1) by apply G1. assert (Gn1 : gnext w1 = gnext w) by reflexivity. assert (Hh1 : host w1 = host w) by reflexivity.
  ws1. wcall alloc_spec; [exact Hw1|lia|intros O; split; [lia|unfold oom in *; rewrite Gn1 in O; change (maxpages w1) with (maxpages w) in O; lia]|].
  intros r1 w2 (->&Al). pose proof (alloc_extends w1 w2 32 Hw1 Al ltac:(lia)) as Ex. pose proof Al as (Hw2&Em&_&_&Gn2&_). rewrite Gn1 in Gn2.
  pose proof (grows_trans _ _ _ _ G1 (grows_extends (slot_mem p) _ _ Ex)) as G2. pose proof Ex as (_&_&_&_&_&Hh2&_). rewrite Hh1 in Hh2.
  pose proof Hw2 as (P1'&P2'&P3'&P4'&P5'&P6'). wc. ws1. rewrite Gn1. set (e := gnext w) in *.
  assert (Rd2 : forall a, ~ within 64 32 a -> rd (mem w2) a = rd (mem w) a) by (intros a Ha; rewrite Em; apply Fm; exact Ha).
  ws1. apply wp_load; [lia|unfold page_size; lia|]. rewrite Z.add_0_r.
  replace (load 4 (mem w2) x) with n by (rewrite <- L1; symmetry; apply load_ext; intros; apply Rd2; unfold within; lia).
  ws1. ws1. ws1. apply wp_sload; [exact Hw2|unfold live; lia|unfold live; lia|].
  replace (load_be 32 (mem w2) p) with (s_slot q) by (rewrite <- A1; symmetry; apply load_be_ext; intros; apply Rd2; unfold within; lia).
  rewrite Hh2, A3. set (old := s_stor q (s_slot q)). set (w3 := set_mem w2 _).
  assert (Fm3 : forall a, ~ within 64 32 a -> rd (mem w3) a = rd (mem w) a).
  { intros a Ha. rewrite <- Rd2 by exact Ha. cbn [w3 mem set_mem]. apply rd_store_be_out. unfold within in Ha. lia. }
  assert (V3 : load_be 32 (mem w3) 64 = old mod 2 ^ 256) by (cbn [w3 mem set_mem]; apply load_be_store32).
  assert (G3 : grows (slot_mem p) w w3).
  { eapply grows_trans; [exact G2|]. apply grows_set_mem; [exact Hw2| |]; unfold slot_mem, within; [|intros; lia].
    intros a Ha. apply rd_store_be_out. lia. }
  assert (Hw3 : wok w3) by apply G3. assert (Pg3 : pages w3 = pages w2) by reflexivity. assert (Gn3 : gnext w3 = e + 32) by exact Gn2.
  assert (Hh3 : host w3 = host w) by exact Hh2.
  ws1. apply wp_load; [lia|unfold page_size; lia|].
  eapply wp_call; [reflexivity|cbn [List.length]; lia|]. wc. eapply returns_wpf; [apply swap_i32_spec; exact (load_range 4 (mem w3) (64 + 28))|]. wc.
  rewrite bswap_load, low4, V3.
  assert (Eo : old mod 2 ^ 256 mod 2 ^ 32 = old mod 2 ^ 32).
  { symmetry; apply (Znumtheory.Zmod_div_mod (2 ^ 32) (2 ^ 256)); [lia|lia|exists (2 ^ 224); reflexivity]. }
  rewrite Eo. fold old in Sl. pose proof (Z.mod_pos_bound old (2 ^ 32) ltac:(lia)) as Ob. set (ol := old mod 2 ^ 32) in *. clearbody ol. clear Eo.
  ws1. apply wp_block. ws1. ws1. ws1. apply wp_brif; intros C; unb C; [|exfalso; lia]. wc. clear C.
  ws1. ws1. ws1. ws1.
  assert (Epi : forall w5 st, grows (slot_mem p) w w5 -> gnext w5 <= gnext w + (32 + costs vs) -> load_be 32 (mem w5) p = s_slot q -> stor (host w5) = st ->
     forall (Q : outcome -> Prop) l, nth_error l 4 = Some n -> (forall w6, grows (slot_mem p) w w6 -> gnext w6 <= gnext w + (32 + costs vs) -> at_state w6 p (mkS (s_slot q) 32 n st) -> Q (ONormal [] l w6)) ->
     wp [Const 64; Const 0; Const 32; MemFill; Const 64; LocalGet 4; Call swap_i32_bytes; Store 4 28] Q [] l w5).
  { intros w5 st G5 N5 B1 B2 Q l Nl HQ. pose proof (proj1 G5) as Hw5. pose proof Hw5 as (Q1&Q2&Q3&Q4&Q5&Q6). pose proof G5 as (_&_&_&N5'&_).
    ws1. ws1. ws1. ws1. ws1. eapply wp_lget; [exact Nl|].
    eapply wp_call; [reflexivity|cbn [List.length]; lia|]. wc. eapply returns_wpf; [apply swap_i32_spec; lia|]. wc.
    apply wp_store; [lia|unfold page_size; cbn [pages set_mem]; lia|]. apply wp_nil. cbn [mem set_mem]. change (64 + 28) with 92. set (m := store _ _ _ _).
    assert (Fr : forall a, ~ within 64 32 a -> rd m a = rd (mem w5) a).
    { intros a Ha. unfold within in Ha. unfold m. change (Z.of_nat 4) with 4. rewrite rd_store_out by lia. apply rd_mfill_out. lia. }
    change (set_mem (set_mem w5 (mfill (mem w5) 64 0 32)) m) with (set_mem w5 m).
    apply HQ.
    - eapply grows_trans; [exact G5|]. apply grows_set_mem; [exact Hw5| |]; unfold slot_mem, within; [|intros; lia]. intros a Ha. apply Fr. unfold within. lia.
    - exact N5.
    - split; [|split; [|exact B2]]; cbn [mem set_mem s_slot s_word].
      + rewrite <- B1. apply load_be_ext. intros. apply Fr. unfold within. lia.
      + change 32%nat with (28 + 4)%nat. rewrite load_be_split, (load_be_zero 28).
        * change (64 + Z.of_nat 28) with 92. unfold m. rewrite (load_be_store_swapped 4) by (change (256 ^ Z.of_nat 4) with 4294967296; lia). lia.
        * intros y Hy. unfold m. change (Z.of_nat 4) with 4. rewrite rd_store_out by lia. rewrite rd_mfill_in by lia. reflexivity. }
  assert (Lp3 : load_be 32 (mem w3) p = s_slot q) by (rewrite <- A1; apply load_be_ext; intros; apply Fm3; unfold within; lia).
  assert (St3 : stor (host w3) = s_stor q) by (rewrite Hh3; exact A3).
  apply wp_block. ws1. ws1. apply wp_brif; intros C; unb C; wc.
  - assert (n = 0) by lia.
    assert (vs = []) by (destruct vs; [reflexivity|unfold n in *; cbn [List.length] in *; lia]). subst vs.
    eapply (Epi w3 (s_stor q) G3); [rewrite Gn3; cbn; lia|exact Lp3|exact St3|reflexivity|].
    intros w6 G6 N6 At6. wc. split; [reflexivity|]. split; [exact G6|]. split; [exact N6|exact At6].
  - assert (Nv : vs <> []) by (intros ->; unfold n in C; cbn in C; lia).
    ws1. ws1. ws1. apply wp_keccak; [exact Hw3|unfold live; lia|unfold live; lia|]. change (Z.to_nat 32) with 32%nat.
    rewrite Hh3. fold H. set (w4 := set_mem w3 _).
    assert (Fm4 : forall a, ~ within e 32 a -> rd (mem w4) a = rd (mem w3) a).
    { intros a Ha. cbn [w4 mem set_mem]. apply rd_store_be_out. unfold within in Ha. lia. }
    assert (G4 : grows (slot_mem e) w3 w4).
    { apply grows_set_mem; [exact Hw3| |]; unfold slot_mem; [intros a Ha; apply Fm4; tauto|]. intros a. unfold within. lia. }
    pose proof (grows_inner p e w w3 w4 G3 G4 ltac:(lia)) as G4'. assert (Gn4 : gnext w4 = e + 32) by exact Gn3.
    assert (Rd4 : ready ep w4 e).
    { split; [apply G4|]. split; [exact He|]. split; [|lia]. rewrite <- H1. apply load_ext. intros. rewrite Fm4, Fm3; [reflexivity| |]; unfold within; lia. }
    set (e0 := mkS (data_slot H (s_slot q)) 0 (old mod 2 ^ 256) (s_stor q)).
    assert (At4 : at_state w4 e e0).
    { split; [|split; [|exact St3]]; cbn [e0 s_slot s_word].
      - cbn [w4 mem set_mem]. rewrite load_be_store32. symmetry. apply data_slot_bytes. exact Lp3.
      - rewrite <- V3. apply load_be_ext. intros. apply Fm4. unfold within. lia. }
    assert (Kk : keccak (host w4) = H) by exact (f_equal keccak Hh3).
    assert (SG : sub G (heap w)) by (eapply sub_trans; eassumption).
    assert (DE : forall y, G y -> ~ within e 32 y) by (intros y Hy Y; specialize (SG y Hy); unfold heap, between in SG; unfold within in Y; lia).
    change 0 with (s_off e0) at 2.
    eapply (encode_vector_loop t Wt ep w4 e x ow vs e0 G cap p ol 0).
    + exact Rd4.
    + transitivity (load_be 32 (mem w) 0); [|exact Z0]. apply load_be_ext. intros. rewrite Fm4, Fm3; [reflexivity| |]; unfold within; lia.
    + exact At4.
    + cbn. lia.
    + rewrite Kk. exact Se.
    + exact Nv.
    + exact L3.
    + lia.
    + eapply elems_ext; [| |exact El].
      * intros v0 x0 G0 S0. apply vrep_ext. intros y Hy. rewrite Fm4, Fm3; [reflexivity| |]; specialize (SG y (S0 y Hy)); unfold heap, between in SG; unfold within; lia.
      * fold n. intros y Hy. rewrite Fm4, Fm3; [reflexivity| |]; unfold within; lia.
    + eapply heap_grows; [exact G4'|exact SG].
    + intros y Hy Y. apply (DE y Hy). unfold between in Y. unfold within. lia.
    + exact X1.
    + fold n. lia.
    + fold n. intros y Hy. unfold within. lia.
    + intros N. eapply nomem_grows; [exact G4'|exact N|lia|lia].
    + rewrite Kk. intros w5 i5 G5 N5 At5. pose proof (grows_inner p e w w4 w5 G4' G5 ltac:(lia)) as G5'.
      pose proof G5 as (Hw5&_&_&N5'&_). pose proof Hw5 as (Q1&Q2&Q3&Q4&Q5&Q6). destruct At5 as (B1&B2&B3).
      ws1. ws1. apply wp_scache; [exact Hw5|unfold live; lia|unfold live; lia|]. rewrite B1, B2, B3. set (w6 := set_host _ _).
      pose proof (grows_stor (slot_mem p) w5 (upd (s_stor (put_elems H t vs e0)) (s_slot (put_elems H t vs e0)) (s_word (put_elems H t vs e0))) Hw5) as G6. fold w6 in G6.
      apply wp_nil. wc.
      eapply (Epi w6 _ (grows_trans _ _ _ _ G5' G6)); [change (gnext w6) with (gnext w5); lia| |reflexivity|reflexivity|].
      { change (mem w6) with (mem w5). rewrite (load_be_grows 32 (slot_mem e) w4 w5 p G5) by (first [lia|intros y Hy [Y|Y]; unfold within in Y; lia]).
        rewrite <- Lp3. apply load_be_ext. intros. apply Fm4. unfold within. lia. }
      intros w7 G7 N7 At7. wc. split; [reflexivity|]. split; [exact G7|]. split; [exact N7|]. rewrite put_vec. destruct vs as [|v vs]; [congruence|]. exact At7.
Qed.

(** ** Enums *)

Lemma eqb_be : forall m a b, (load 32 m a =? load 32 m b) = (load_be 32 m a =? load_be 32 m b).
Proof.
  intros m a b. destruct (Z.eqb_spec (load 32 m a) (load 32 m b)) as [E|E]; destruct (Z.eqb_spec (load_be 32 m a) (load_be 32 m b)) as [F|F]; try reflexivity; exfalso.
  - apply F. apply load_be_ext. apply load_inj. exact E.
  - apply E. apply load_ext. apply load_be_inj. exact F.
Qed.

Lemma wipe_snoc : forall n st k, wipe (S n) st k = upd (wipe n st k) (k + Z.of_nat n) 0.
Proof.
  induction n as [|n IH]; intros st k; [cbn [wipe]; rewrite Z.add_0_r; reflexivity|].
  change (wipe (S (S n)) st k) with (wipe (S n) (upd st k 0) (k + 1)). rewrite IH. cbn [wipe]. f_equal. lia.
Qed.

(** The next slot number. *)
Lemma wp_next_slot : forall ep w p k (Q : outcome -> Prop) r s l, ready ep w p -> load_be 32 (mem w) p = k -> k + 1 < 2 ^ 256 ->
  (forall w', frame w w' (within p 32) -> load_be 32 (mem w') p = k + 1 -> wp r Q (p :: s) l w') ->
  wp (Call (storage_next_slot ep) :: r) Q (p :: s) l w.
Proof.
  intros ep w p k Q r s l (Hw&He&H1&Hp&Hp2) Lp Hk K. destruct (storage_next_slot_spec ep w p Hw He H1) as (w1&R1&S1); [unfold live; lia|lia|].
  rewrite Lp in R1, S1. destruct (Z.eqb_spec k (2 ^ 256 - 1)) as [X|_]; [exfalso; lia|]. destruct S1 as (F1&V1).
  eapply wp_call; [reflexivity|cbn [List.length]; lia|]. wc. eapply returns_wpf; [exact R1|]. wc. apply K; assumption.
Qed.

Lemma frame_slot : forall p w w', wok w -> p = 128 \/ 468 <= p -> p + 32 <= gnext w -> frame w w' (within p 32) -> grows (slot_mem p) w w'.
Proof.
  intros p w w' Hw Hp Hp2 F. eapply grows_frame; [exact Hw|exact F|unfold sub, slot_mem; auto|]. intros a Ha. unfold within in Ha. lia.
Qed.

Lemma clear_to_tail_wp : forall ep w x p o ow tp ex q T r (Q : outcome -> Prop) s, ready ep w p -> load_be 32 (mem w) 0 = 0 -> at_state w p q ->
  s_slot q <= fst T < 2 ^ 256 -> load_be 32 (mem w) tp = fst T -> 468 <= tp -> tp + 32 <= gnext w -> (tp + 32 <= p \/ p + 32 <= tp) ->
  (forall w' , grows (slot_mem p) w w' -> gnext w' = gnext w -> at_state w' p (ending T q) -> wp r Q s (x :: p :: o :: ow :: tp :: ex) w') ->
  wp (clear_to_tail ep ++ r) Q s (x :: p :: o :: ow :: tp :: ex) w.
Proof.
  intros ep w x p o ow tp ex q T r Q s Rd Z0 (A1&A2&A3) HT Lt T1 T2 T3 K. pose proof Rd as (Hw&He&H1&Hp&Hp2). pose proof Hw as (P1&P2&P3&P4&P5&P6).
  unfold clear_to_tail. cbn [app]. ws1. ws1. ws1.
  eapply wp_call; [reflexivity|cbn [List.length]; lia|]. wc. eapply returns_wpf; [apply (a_equals_b_spec 32 w p tp Hw); unfold live; lia|]. wc.
  rewrite eqb_be, A1, Lt. unfold ending in K. destruct (Z.eqb_spec (s_slot q) (fst T)) as [E|N].
  - apply wp_if; intros C; [|exfalso; cbn in C; lia]. ws1. apply K; [apply grows_refl; exact Hw|reflexivity|]. split; [cbn [s_slot]; congruence|]. split; [exact A2|exact A3].
  - apply wp_if; intros C; [exfalso; cbn in C; lia|]. unfold A_SLOT_DATA. ws1. ws1. apply wp_scache; [exact Hw|unfold live; lia|unfold live; lia|].
    rewrite A1, A2, A3. set (st1 := upd _ _ _). set (w1 := set_host _ _). pose proof (grows_stor (slot_mem p) w st1 Hw) as G1. change (set_host w (set_stor (host w) st1)) with w1 in G1.
    assert (Pg1 : pages w1 = pages w) by reflexivity. ws1. ws1. ws1. apply wp_mcopy; [lia|unfold page_size; lia|lia|unfold page_size; lia|]. wc. set (w2 := set_mem w1 _).
    assert (F2 : forall a, ~ within 64 32 a -> rd (mem w2) a = rd (mem w) a).
    { intros a Ha. cbn [w2 mem set_mem]. change (mem w1) with (mem w). apply rd_mcopy_out. unfold within in Ha. lia. }
    assert (G2 : grows (slot_mem p) w w2).
    { eapply grows_trans; [exact G1|]. apply grows_set_mem; [apply G1| |].
      - intros a Ha. change (mem w1) with (mem w). apply F2. intros Y. apply Ha. left. left. exact Y.
      - change (gnext w1) with (gnext w). unfold slot_mem, within. lia. }
    assert (Rd2 : ready ep w2 p) by (eapply ready_grows; [exact Rd|exact G2|exact Hp]).
    assert (Z2 : load_be 32 (mem w2) 64 = 0).
    { transitivity (load_be 32 (mem w) 0); [|exact Z0]. apply load_be_ext. intros i Hi. cbn [w2 mem set_mem]. rewrite rd_mcopy_in by lia. f_equal. lia. }
    assert (L2 : load_be 32 (mem w2) p = s_slot q) by (rewrite <- A1; apply load_be_ext; intros; apply F2; unfold within; lia).
    ws1. eapply wp_next_slot; [exact Rd2|exact L2|lia|]. intros w3 F3 L3. pose proof (proj1 G2) as Hw2. change (gnext w) with (gnext w2) in Hp2.
    pose proof (frame_slot p w2 w3 Hw2 Hp Hp2 F3) as G3. pose proof (grows_trans _ _ _ _ G2 G3) as G23. pose proof F3 as (F31&F32&F33&F34&F35&F36&F37).
    pose proof (proj1 G23) as Hw3. pose proof Hw3 as (Q1&Q2&Q3&Q4&Q5&Q6). assert (Gn3 : gnext w3 = gnext w) by exact F33.
    ws1. ws1. ws1. change (gnext w2) with (gnext w) in Hp2. apply wp_scache; [exact Hw3|unfold live; lia|unfold live; lia|].
    rewrite L3. replace (load_be 32 (mem w3) 64) with 0 by (symmetry; transitivity (load_be 32 (mem w2) 64); [apply load_be_ext; intros; apply F37; unfold within; lia|exact Z2]).
    assert (St3 : stor (host w3) = st1) by (rewrite F36; reflexivity). rewrite St3. set (st4 := upd st1 (s_slot q + 1) 0). set (w4 := set_host _ _).
    assert (G4 : grows (slot_mem p) w w4) by (eapply grows_trans; [exact G23|exact (grows_stor (slot_mem p) w3 st4 Hw3)]).
    apply (wp_loop (fun k l w' => exists j, (1 <= j)%nat /\ s_slot q + Z.of_nat j + Z.of_nat k = fst T /\ l = x :: p :: o :: ow :: tp :: ex /\
       grows (slot_mem p) w w' /\ gnext w' = gnext w /\ at_state w' p (mkS (s_slot q + Z.of_nat j) 0 0 (wipe j st1 (s_slot q + 1)))) (Z.to_nat (fst T - s_slot q - 1))).
    { exists 1%nat. split; [lia|]. split; [lia|]. split; [reflexivity|]. split; [exact G4|]. split; [exact Gn3|]. split; [exact L3|]. split; [|reflexivity].
      cbn [s_word]. transitivity (load_be 32 (mem w2) 64); [|exact Z2]. apply load_be_ext. intros. apply F37. unfold within. lia. }
    intros k l w5 (j&Hj&Hk&->&G5&Gn5&(B1&B2&B3)). cbn [s_slot s_word s_stor] in B1, B2, B3.
    pose proof (ready_grows ep w w5 p p Rd G5 Hp) as Rd5. pose proof Rd5 as (Hw5&_&_&_&Hp5). pose proof Hw5 as (S1&S2&S3&S4&S5&S6).
    assert (Lt5 : load_be 32 (mem w5) tp = fst T).
    { rewrite <- Lt. apply (load_be_grows 32 (slot_mem p) w w5 tp G5); [lia|lia|]. intros a Ha [Y|Y]; unfold within in Y; lia. }
    ws1. ws1. ws1. eapply wp_call; [reflexivity|cbn [List.length]; lia|]. wc. eapply returns_wpf; [apply (a_equals_b_spec 32 w5 p tp Hw5); unfold live; lia|]. wc.
    rewrite eqb_be, B1, Lt5. destruct (Z.eqb_spec (s_slot q + Z.of_nat j) (fst T)) as [E|Ne].
    + apply wp_if; intros C5; [|exfalso; cbn in C5; lia]. ws1. ws1. ws1. wc. apply K; [exact G5|exact Gn5|]. split; [cbn [s_slot]; congruence|]. split; [exact B2|]. cbn [s_stor].
      rewrite B3. f_equal. lia.
    + apply wp_if; intros C5; [exfalso; cbn in C5; lia|]. ws1. eapply wp_next_slot; [exact Rd5|exact B1|lia|]. intros w6 F6 L6.
      pose proof (frame_slot p w5 w6 Hw5 Hp ltac:(lia) F6) as G6. pose proof (grows_trans _ _ _ _ G5 G6) as G56. pose proof F6 as (F61&F62&F63&F64&F65&F66&F67).
      pose proof (proj1 G56) as Hw6. pose proof Hw6 as (R1&R2&R3&R4&R5&R6). assert (Gn6 : gnext w6 = gnext w) by (rewrite F63; exact Gn5).
      ws1. ws1. ws1. apply wp_scache; [exact Hw6|unfold live; lia|unfold live; lia|]. assert (St6 : stor (host w6) = wipe j st1 (s_slot q + 1)) by (rewrite F66; exact B3). rewrite L6, (zero_grows p w w6 G56 Hw Hp Z0), St6.
      ws1. exists (k - 1)%nat. split; [lia|]. exists (S j). split; [lia|]. split; [lia|]. split; [reflexivity|].
      split; [eapply grows_trans; [exact G56|apply grows_stor; exact Hw6]|]. split; [exact Gn6|]. split; [cbn [s_slot]; cbn [mem set_host]; rewrite L6; lia|].
      split; [cbn [s_word mem set_host]; transitivity (load_be 32 (mem w5) 64); [|exact B2]; apply load_be_ext; intros; apply F67; unfold within; lia|].
      cbn [s_stor stor host set_host set_stor]. rewrite wipe_snoc. f_equal. lia.
Qed.

Lemma writes_enum : forall vts, Forall (Forall writes) vts -> storable (TEnum vts) = true -> writes (TEnum vts).
Proof.
  intros vts IH St ep fld w p x ow v q F Rd Z0 At Ho Sf R SF DF. pose proof Rd as (Hw&He&H1&Hp&Hp2). pose proof Hw as (P1&P2&P3&P4&P5&P6).
  assert (R' : vrep (mem w) (TEnum vts) v x F) by (destruct fld; exact R). clear R. cbn [vrep] in R'. destruct R' as (tag&vs&G&->&Ht&S1&S2&Dj&V).
  destruct (nth_error (map (fun fs => map (fun t' => field_of (mem w) t' (vrep (mem w) t')) fs) vts) tag) as [Rs|] eqn:En; [|destruct V].
  destruct (nth_error_map2 _ (fun _ => []) _ _ _ En) as (fs&Ef&->&_). clear En.
  pose proof (enum_size_ge _ _ _ Ef) as Hge. pose proof (enum_size_pos vts) as Hsz. set (sz := enum_size vts) in *.
  apply (safe_enum _ _ _ _ _ _ Ef) in Sf. destruct Sf as (I1&Sf&B1&B2). rewrite (put_enum _ _ _ _ _ _ Ef).
  set (T := after (TEnum vts) (s_slot q, s_off q)) in *. set (H := keccak (host w)) in *. cbn [field_size] in Ho.
  assert (Htag : (tag < List.length vts)%nat) by (apply nth_error_Some; congruence).
  assert (Hlen : (List.length vts <= 256)%nat) by (cbn [storable] in St; apply andb_true_iff in St; destruct St as (St&_); apply andb_true_iff in St; destruct St as (St&_); apply Nat.leb_le in St; exact St).
  destruct (heap_block F w x sz SF S1) as (X1&X2); [lia|].
  pose proof (costs_nonneg vs) as Cp. assert (Cn : cost (VEnum tag vs) = 68 + costs vs) by reflexivity. rewrite Cn.
  cbn [encode_type]. unfold encode_enum. apply wpf_intro; [reflexivity|]. wc. ws1. ws1. destruct At as (A1&A2&A3).
  eapply wp_call_spec; [reflexivity|cbn [List.length]; lia|wc; apply (enum_tail_any ep vts w p (s_off q) St Hw He Hp Hp2 Ho); rewrite A1; fold T; exact B2| |].
  { intros O. split; [lia|]. unfold oom in *. lia. }
  rewrite A1. fold T. intros r1 w1 (->&G1&Gn1&Hh1&Lt1&Lo1). wc. set (tp := gnext w) in *.
  assert (G1' : grows (slot_mem p) w w1) by (eapply grows_mono; [exact G1|]; unfold table, slot_mem; tauto).
  pose proof (ready_grows ep w w1 p p Rd G1' Hp) as Rd1. pose proof Rd1 as (Hw1&_&_&_&Hp1). pose proof Hw1 as (Q1&Q2&Q3&Q4&Q5&Q6).
  assert (At1 : at_state w1 p q).
  { split; [|split].
    - rewrite <- A1. apply (load_be_grows 32 table w w1 p G1); [lia|lia|]. intros a Ha Y. unfold table, within in Y. lia.
    - rewrite <- A2. apply (load_be_grows 32 table w w1 64 G1); [lia|lia|]. intros a Ha Y. unfold table, within in Y. lia.
    - rewrite Hh1. exact A3. }
  ws1. ws1. apply wp_load; [lia|unfold page_size; lia|]. rewrite Z.add_0_r.
  rewrite (load_grows 4 table w w1 x G1) by (first [lia|intros a Ha Y; unfold table, within in Y; lia]). rewrite Ht.
  ws1. apply wp_block. eapply (wp_match_arms _ 5 0 _ _ _ _ _ tag); [cbn [nth_error]; f_equal; lia|lia|rewrite !map_length; lia| |].
  { rewrite map_map. exact (map_nth_error (fun fs => [ LocalGet 1; LocalGet 2; Const 1; Call (accumulate_write ep); LocalSet 2 ] ++
       slot_data_ptr 2 ++ [ LocalGet 5; Store 1 0 ] ++ encode_fields ep (map (fun t' => (field_size t', encode_type ep t' true)) fs) 1 ++ clear_to_tail ep) _ _ Ef). }
  rewrite <- !app_assoc. cbn [app]. ws1. ws1. ws1.
  eapply wp_call_spec; [reflexivity|cbn [List.length]; lia|wc; eapply accumulate_write_spec; [exact Rd1|exact At1|exact Ho|lia|exact I1]|intros []|].
  intros r2 w2 (->&G2&N2&At2). wc. pose proof (grows_trans _ _ _ _ G1' G2) as G12. pose proof (ready_grows ep w w2 p p Rd G12 Hp) as Rd2.
  pose proof Rd2 as (Hw2&_&_&_&Hp2'). pose proof Hw2 as (S1'&S2'&S3'&S4'&S5'&S6').
  assert (Oo : 1 <= s_off (acc q 1) <= 32) by (unfold acc; destruct (s_off q + 1 <=? 32) eqn:E1; cbn [s_off]; lia).
  ws1. apply (wp_slot_data_ptr 2 (s_off (acc q 1))); [reflexivity|lia|]. ws1. apply wp_store; [lia|unfold page_size; lia|]. rewrite Z.add_0_r.
  destruct (put_state ep w2 p (acc q 1) (Z.to_nat (s_off (acc q 1))) 1 (Z.of_nat tag) (store 1 (mem w2) (96 - s_off (acc q 1)) (Z.of_nat tag)) Rd2 At2) as (G3&At3).
  { lia. }
  { lia. }
  { rewrite Z2Nat.id by lia. change (load_be 1 (store 1 (mem w2) (96 - s_off (acc q 1)) (Z.of_nat tag)) (96 - s_off (acc q 1))) with (rd (store 1 (mem w2) (96 - s_off (acc q 1)) (Z.of_nat tag)) (96 - s_off (acc q 1)) * 1 + 0).
    rewrite rd_store_in by lia. rewrite Z.sub_diag. change (256 ^ 0) with 1. rewrite Z.div_1_r, Z.mod_small by lia. lia. }
  { intros y Hy. apply rd_store_out. unfold within in Hy. lia. }
  change (Z.of_nat 1) with 1 in At3. change (Z.of_nat 1) with 1 in G3. change (Z.of_nat 1) with 1. set (w3 := set_mem w2 _) in *.
  pose proof (grows_trans _ _ _ _ G12 G3) as G13. pose proof (ready_grows ep w w3 p p Rd G13 Hp) as Rd3. pose proof (keccak_grows _ _ _ G13) as K3.
  assert (Gn3 : gnext w3 = gnext w1) by exact N2. assert (HG : sub G (heap w)) by (eapply sub_trans; eassumption).
  eapply (encode_fields_wp fs (nth_error_Forall _ _ _ _ IH Ef) ep w3 p x ow [tp; Z.of_nat tag; 0] vs (put_int (acc q 1) 1 (Z.of_nat tag)) G 1).
  - exact Rd3.
  - eapply zero_grows; [exact G13|exact Hw|exact Hp|exact Z0].
  - exact At3.
  - cbn [put_int s_off]. lia.
  - rewrite K3. exact Sf.
  - lia.
  - replace (x + 4 * 1) with (x + 4) by lia. eapply fields_grows; [exact G13|exact HG| |lia|lia| |exact V].
    + eapply disj_sub; [exact DF|exact S2|apply sub_refl].
    + intros y Hy Y. apply (DF y); [apply S1; unfold between; lia|unfold within in Y; unfold between; lia].
  - eapply heap_grows; [exact G13|exact HG].
  - eapply disj_sub; [exact DF|exact S2|apply sub_refl].
  - exact X1.
  - lia.
  - intros y Hy Y. apply (DF y); [apply S1; unfold between; lia|unfold within in Y; unfold between; lia].
  - wc. intros N. eapply nomem_grows; [exact G13|exact N|lia|lia].
  - rewrite K3. fold H. intros w4 G4 N4 At4. pose proof (grows_trans _ _ _ _ G13 G4) as G14. pose proof (ready_grows ep w w4 p p Rd G14 Hp) as Rd4. pose proof G4 as (_&_&_&N4'&_).
    assert (GG : grows (slot_mem p) w1 w4) by (eapply grows_trans; [exact G2|eapply grows_trans; eassumption]).
    eapply clear_to_tail_wp; [exact Rd4|eapply zero_grows; [exact G14|exact Hw|exact Hp|exact Z0]|exact At4|split; [exact B1|exact B2]| |lia|lia|lia|].
    { rewrite <- Lt1. apply (load_be_grows 32 (slot_mem p) w1 w4 tp GG); [lia|lia|]. intros a Ha [Y|Y]; unfold within in Y; lia. }
    intros w5 G5 N5 At5. apply wp_br. cbn [blk String.eqb Ascii.eqb Bool.eqb firstn app]. pose proof (grows_trans _ _ _ _ G14 G5) as G15. pose proof (grows_trans _ _ _ _ GG G5) as GG5.
    pose proof (proj1 G15) as Hw5. pose proof Hw5 as (T1&T2&T3&T4&T5&T6). ws1. apply wp_load; [lia|unfold page_size; lia|].
    rewrite (load_grows 4 (slot_mem p) w1 w5 (tp + 32) GG5) by (first [lia|intros a Ha [Y|Y]; unfold within in Y; lia]). rewrite Lo1.
    ws1. ws1. ws1. split; [f_equal; unfold ending; destruct (_ =? _); reflexivity|]. split; [exact G15|]. split; [lia|exact At5].
Qed.

Lemma writes_storable : forall t, storable t = true -> writes t.
Proof.
  intros t. refine (ty_rec' (fun t => storable t = true -> writes t) _ _ _ _ _ _ _ t); clear t.
  - intros t St _ ep fld w p x ow v q F Rd Z0 At Ho _ R SF DF.
    assert (exists n, v = VInt n /\ 0 <= n < 256 ^ Z.of_nat (esize t) /\ (if fld then load (esize t) (mem w) x = n /\ live w x (Z.of_nat (esize t)) else x = n)) as (n&->&Hn&Hx).
    { unfold rep_of, field_of in R. rewrite St in R. destruct fld.
      - destruct R as (S&I). exists (load (esize t) (mem w) x). destruct (stack_width t v _ St I) as (->&B&_&B2&B3). split; [reflexivity|]. split; [exact B|].
        split; [reflexivity|]. destruct (heap_block F w x (Z.of_nat (esize t)) SF S) as (X1&X2); [lia|]. unfold live. lia.
      - assert (I : int_val t v x) by (destruct t; try discriminate; exact R). exists x. destruct (stack_width t v _ St I) as (->&B&_). auto. }
    assert (E : put (keccak (host w)) t (VInt n) q = put_int q (field_size t) n) by (destruct t; try discriminate; reflexivity). rewrite E.
    eapply wpf_conseq; [eapply (encode_int_spec ep t fld w p x ow q n); eassumption|]. intros []; cbn [resq]; auto. intros [].
  - intros _ ep fld w p x ow v q F Rd Z0 At Ho _ R SF DF. destruct (encode_big_spec ep TU128 fld w p x ow v q F) as (n&->&_&Hs); [cbn; tauto|exact Rd|exact At|exact Ho|destruct fld; exact R|exact SF|].
    eapply wpf_conseq; [exact Hs|]. intros []; cbn [resq]; auto. intros [].
  - intros _ ep fld w p x ow v q F Rd Z0 At Ho _ R SF DF. destruct (encode_big_spec ep TU256 fld w p x ow v q F) as (n&->&_&Hs); [cbn; tauto|exact Rd|exact At|exact Ho|destruct fld; exact R|exact SF|].
    eapply wpf_conseq; [exact Hs|]. intros []; cbn [resq]; auto. intros [].
  - intros _ ep fld w p x ow v q F Rd Z0 At Ho _ R SF DF. destruct (encode_big_spec ep TAddress fld w p x ow v q F) as (n&->&_&Hs); [cbn; tauto|exact Rd|exact At|exact Ho|destruct fld; exact R|exact SF|].
    eapply wpf_conseq; [exact Hs|]. intros []; cbn [resq]; auto. intros [].
  - intros t IH Pl ep fld w p x ow v q F Rd Z0 At Ho Sf R SF DF. cbn [storable] in Pl.
    assert (R' : vrep (mem w) (TVec t) v x F) by (destruct fld; exact R). clear R. cbn [encode_type].
    apply wpf_intro; [reflexivity|]. wc. ws1. ws1. ws1.
    eapply wp_call_spec; [reflexivity|cbn [List.length]; lia|wc; eapply (encode_vector_spec t (IH Pl)); eassumption|intros N; exact N|].
    intros r1 w1 (->&G1&N1&At1). wc. ws1. ws1. ws1. ws1.
    assert (E : s_off (put (keccak (host w)) (TVec t) v q) = 32) by (cbn [vrep] in R'; destruct R' as (vs&cap&G&->&_); reflexivity).
    split; [rewrite E; reflexivity|]. auto.
  - intros k fs IH Pl ep fld w p x ow v q F Rd Z0 At Ho Sf R SF DF. destruct k; [discriminate|]. cbn [storable] in Pl. apply andb_true_iff in Pl. destruct Pl as (_&Pl).
    assert (R' : vrep (mem w) (TStruct false fs) v x F) by (destruct fld; exact R). clear R.
    cbn [vrep] in R'. destruct R' as (o&vs&G&->&_&S1&S2&DJ&Fl). cbn [encode_type]. rewrite put_struct.
    apply wpf_intro; [reflexivity|]. wc. cbn [field_size] in Ho. pose proof Rd as (Hw&He&H1&Hp&Hp2).
    assert (Wf : Forall writes fs).
    { rewrite Forall_forall in IH |- *. intros t Ht. apply IH; [exact Ht|]. rewrite forallb_forall in Pl. auto. }
    assert (Sfs : safes (keccak (host w)) fs vs q).
    { cbn [safe] in Sf. clear -Sf. revert vs q Sf. induction fs as [|t fs IH]; intros [|v vs] q Sf; cbn [safes]; try exact Logic.I.
      destruct Sf as (A&B&C). auto. }
    replace (fold_right (fun v c => cost v + c) 0 vs) with (costs vs) by reflexivity.
    destruct fs as [|t0 fs'].
    { cbn [map fields] in Fl. destruct vs; [|contradiction]. cbn [map encode_fields app puts]. unfold A_SLOT_DATA.
      ws1. ws1. pose proof Hw as (P1&P2&P3&P4&P5&P6). apply wp_scache; [exact Hw|unfold live; lia|unfold live; lia|]. ws1. ws1.
      split; [reflexivity|]. destruct At as (A1&A2&A3). rewrite A1, A2, A3.
      split; [apply grows_stor; exact Hw|]. split; [cbn; lia|]. split; [exact A1|]. split; [exact A2|reflexivity]. }
    set (fs := t0 :: fs') in *.
    destruct (heap_block F w x (4 * Z.of_nat (List.length fs)) SF S1) as (X1&X2); [unfold fs; cbn [List.length]; lia|].
    eapply (encode_fields_wp fs Wf ep w p x ow [] vs q G 0).
    + exact Rd.
    + exact Z0.
    + exact At.
    + lia.
    + exact Sfs.
    + lia.
    + replace (x + 4 * 0) with x by lia. exact Fl.
    + eapply sub_trans; eassumption.
    + eapply disj_sub; [exact DF|exact S2|apply sub_refl].
    + exact X1.
    + lia.
    + intros y Hy Y. apply (DF y); [apply S1; unfold between; lia|unfold within in Y; unfold between; lia].
    + intros N. exact N.
    + intros w1 G1 N1 At1. pose proof G1 as (Hw1&_&_&N1'&_). pose proof Hw1 as (P1&P2&P3&P4&P5&P6). unfold A_SLOT_DATA.
      ws1. ws1. apply wp_scache; [exact Hw1|unfold live; lia|unfold live; lia|]. ws1. ws1.
      destruct At1 as (A1&A2&A3). rewrite A1, A2, A3. split; [reflexivity|].
      split; [eapply grows_trans; [exact G1|apply grows_stor; exact Hw1]|]. split; [exact N1|]. split; [exact A1|]. split; [exact A2|reflexivity].
  - intros vts IH Pl. apply writes_enum; [|exact Pl]. cbn [storable] in Pl. apply andb_true_iff in Pl. destruct Pl as (Pl&_). apply andb_true_iff in Pl. destruct Pl as (_&Pl).
    rewrite forallb_forall in Pl. rewrite Forall_forall in IH |- *. intros fs Hf. specialize (IH fs Hf). specialize (Pl fs Hf). rewrite forallb_forall in Pl.
    rewrite Forall_forall in IH |- *. auto.
Qed.
