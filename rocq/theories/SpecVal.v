(** * Move types and values, and how values are laid out in WASM memory.

    This is the specification of the memory format (translation/intermediate_types.rs and the
    data layouts documented in runtime/vector.rs 755-757, intermediate_types/structs.rs 90-103,
    intermediate_types/enums.rs 85-95).  Type parameters and references do not occur inside
    values; [signer] is not modelled. *)

From Verif Require Import Tac.

(** A struct type records whether it has the [key] ability (then a 32-byte owner precedes it
    in memory) and its field types; an enum type the field types of each variant. *)
Inductive ty :=
| TBool | TU8 | TU16 | TU32 | TU64 | TU128 | TU256 | TAddress
| TVec (t : ty)
| TStruct (key : bool) (fs : list ty)
| TEnum (vs : list (list ty)).

(** Integers, booleans (0/1) and addresses are [VInt].  The owner of a struct without [key] is 0. *)
Inductive val :=
| VInt (n : Z)
| VVec (l : list val)
| VStruct (owner : Z) (l : list val)
| VEnum (tag : nat) (l : list val).

(** intermediate_types.rs 120-143 [wasm_memory_data_size]: bytes a value of the type takes as a
    vector element (a pointer for the heap types). *)
Definition esize (t : ty) : nat :=
  match t with
  | TBool | TU8 => 1
  | TU16 => 2
  | TU64 => 8
  | _ => 4
  end.

(** intermediate_types.rs 949-969 [is_stack_type]. *)
Definition is_stack (t : ty) : bool :=
  match t with TBool | TU8 | TU16 | TU32 | TU64 => true | _ => false end.

(** Sets of addresses. *)
Definition mset := Z -> Prop.
Definition sub (F G : mset) : Prop := forall x, F x -> G x.
Definition disj (F G : mset) : Prop := forall x, F x -> G x -> False.
Definition empty : mset := fun _ => False.
Definition union (F G : mset) : mset := fun x => F x \/ G x.
(** [lo, hi). *)
Definition between (lo hi : Z) : mset := fun x => lo <= x < hi.

(** The values [vs] are the elements of size [sz] starting at [a], each represented (by [R], given
    the element's bits) in its own part of [F]. *)
Fixpoint elems (R : val -> Z -> mset -> Prop) (sz : nat) (m : memory) (vs : list val) (a : Z) (F : mset) : Prop :=
  match vs with
  | [] => True
  | v :: vs' => exists F1 F2, R v (load sz m a) F1 /\ elems R sz m vs' (a + Z.of_nat sz) F2 /\
      disj F1 F2 /\ sub F1 F /\ sub F2 F
  end.

(** The values [vs] are the fields of a struct or variant whose 4-byte field pointers start at [a]. *)
Fixpoint fields (Rs : list (val -> Z -> mset -> Prop)) (m : memory) (vs : list val) (a : Z) (F : mset) : Prop :=
  match Rs, vs with
  | [], [] => True
  | R :: Rs', v :: vs' => exists F1 F2, R v (load 4 m a) F1 /\ fields Rs' m vs' (a + 4) F2 /\
      disj F1 F2 /\ sub F1 F /\ sub F2 F
  | _, _ => False
  end.

(** Bits of the integer types; a boolean is one bit in one byte, an address 160 bits. *)
Definition vbits (t : ty) : Z :=
  match t with
  | TBool => 1 | TU8 => 8 | TU16 => 16 | TU32 => 32 | TU64 => 64 | TU128 => 128 | TU256 => 256
  | TAddress => 160 | _ => 0
  end.

Definition int_val (t : ty) (v : val) (n : Z) : Prop := v = VInt n /\ 0 <= n < 2 ^ vbits t.

(** A field: the field pointer leads to the bytes of a stack value, or is the heap value. *)
Definition field_of (m : memory) (t : ty) (R : val -> Z -> mset -> Prop) (v : val) (q : Z) (F : mset) : Prop :=
  if is_stack t then sub (between q (q + Z.of_nat (esize t))) F /\
                     int_val t v (load (esize t) m q)
  else R v q F.

(** enums.rs 96-116 [heap_size]: variant index and the longest variant's field pointers. *)
Definition enum_size (vs : list (list ty)) : Z :=
  4 + 4 * fold_right (fun fs n => Z.max (Z.of_nat (List.length fs)) n) 0 vs.

(** [vrep m t v x F]: in memory [m] the 32/64-bit word [x] represents the value [v] of type [t],
    and everything reachable from it lies in [F], without sharing. *)
Fixpoint vrep (m : memory) (t : ty) (v : val) (x : Z) (F : mset) {struct t} : Prop :=
  match t with
  | TBool | TU8 | TU16 | TU32 | TU64 => int_val t v x
  | TU128 => int_val t v (load 16 m x) /\ sub (between x (x + 16)) F
  | TU256 => int_val t v (load 32 m x) /\ sub (between x (x + 32)) F
  | TAddress => int_val t v (load_be 32 m x) /\ sub (between x (x + 32)) F
  | TVec t' => exists vs cap G, v = VVec vs /\
      load 4 m x = Z.of_nat (List.length vs) /\ load 4 m (x + 4) = cap /\ Z.of_nat (List.length vs) <= cap /\
      8 + cap * Z.of_nat (esize t') < 2147483648 /\
      sub (between x (x + 8 + cap * Z.of_nat (esize t'))) F /\ sub G F /\
      disj (between x (x + 8 + cap * Z.of_nat (esize t'))) G /\
      elems (vrep m t') (esize t') m vs (x + 8) G
  | TStruct key fs => exists o vs G, v = VStruct o vs /\
      o = (if key then load_be 32 m (x - 32) else 0) /\
      sub (between (if key then x - 32 else x) (x + 4 * Z.of_nat (List.length fs))) F /\ sub G F /\
      disj (between (if key then x - 32 else x) (x + 4 * Z.of_nat (List.length fs))) G /\
      fields (map (fun t' => field_of m t' (vrep m t')) fs) m vs x G
  | TEnum vts => exists tag vs G, v = VEnum tag vs /\
      load 4 m x = Z.of_nat tag /\ sub (between x (x + enum_size vts)) F /\ sub G F /\
      disj (between x (x + enum_size vts)) G /\
      match nth_error (map (fun fs => map (fun t' => field_of m t' (vrep m t')) fs) vts) tag with
      | Some Rs => fields Rs m vs (x + 4) G
      | None => False
      end
  end.

(** Types as the Move bytecode format allows them (at most 255 fields and 127 variants). *)
Fixpoint wf_ty (t : ty) : Prop :=
  match t with
  | TVec t' => wf_ty t'
  | TStruct _ fs => Z.of_nat (List.length fs) < 65536 /\ fold_right and True (map wf_ty fs)
  | TEnum vts => Z.of_nat (List.length vts) < 65536 /\
      fold_right and True (map (fun fs => Z.of_nat (List.length fs) < 65536 /\ fold_right and True (map wf_ty fs)) vts)
  | _ => True
  end.

(** The addresses the program may own: live heap. *)
Definition heap (w : world) : mset := between 468 (gnext w).
