(** * Vocabulary of the integer properties. *)

From Verif Require Import Tac RtAlloc RtErr.

(** The six integer types of Move (translation/intermediate_types.rs [IntermediateType]). *)
Inductive ity := U8 | U16 | U32 | U64 | U128 | U256.

Definition width (t : ity) : Z :=
  match t with U8 => 8 | U16 => 16 | U32 => 32 | U64 => 64 | U128 => 128 | U256 => 256 end.

(** u128 and u256 values are pointers to little-endian heap blocks of 16 and 32 bytes
    (heap_integers.rs 73 and 465 [HEAP_SIZE]); [hw] counts their 64-bit words. *)
Definition is_heap (t : ity) : bool := match t with U128 | U256 => true | _ => false end.
Definition hw (t : ity) : nat := match t with U256 => 4 | _ => 2 end.
Definition heap_size (t : ity) : Z := match t with U256 => 32 | _ => 16 end.

(** [v], as found on the WASM stack, represents the number [z] of type [t]. *)
Definition repr (w : world) (t : ity) (v z : Z) : Prop :=
  0 <= z < 2 ^ width t /\
  (if is_heap t then live w v (heap_size t) /\ load (8 * hw t) (mem w) v = z else v = z).

(** Arithmetic and bitwise, comparison and shift operators of Move. *)
Inductive aop := MAdd | MSub | MMul | MDiv | MMod | MBitOr | MBitAnd | MXor.
Inductive cop := MLt | MLe | MGt | MGe | MEq | MNeq.
Inductive sop := MShl | MShr.

Definition move_cmp (op : cop) (a b : Z) : bool :=
  match op with
  | MLt => a <? b | MLe => a <=? b | MGt => b <? a | MGe => b <=? a | MEq => a =? b | MNeq => negb (a =? b)
  end.

(** The value of a shift within range. *)
Definition shifted (op : sop) (t : ity) (a n : Z) : Z :=
  match op with MShl => (a * 2 ^ n) mod 2 ^ width t | MShr => a / 2 ^ n end.

(** Bit [i] of the result, for each operator. *)
Definition bit_of (op : aop) (x y : bool) : bool :=
  match op with MBitAnd => x && y | MBitOr => x || y | _ => xorb x y end.
Definition bitwise_op (op : aop) : Prop := op = MBitAnd \/ op = MBitOr \/ op = MXor.

(** The pairs of types whose narrowing cast is correct. *)
Definition sound_narrowing (from to : ity) : Prop :=
  match from, to with U64, (U8 | U16) | U256, U128 => False | _, _ => True end.

(** A state in which a contract runs normally: well-formed memory, no abort pending, sensible
    error addresses. *)
Definition running (ep : errtab) (w : world) : Prop := wok w /\ errtab_ok ep /\ abort_flag w = 0.

(** The call returns the number [z] of type [t], has only added to the heap, and
    reports no error. *)
Definition yields (f : func) (args : list Z) (w : world) (t : ity) (z : Z) : Prop :=
  exists v w', returns f args w [v] w' /\ repr w' t v z /\ extends w w' /\ abort_flag w' = 0.

(** For u128/u256: the result is a new object. *)
Definition yields_fresh (f : func) (args : list Z) (w : world) (t : ity) (z : Z) : Prop :=
  exists v w', returns f args w [v] w' /\ repr w' t v z /\ extends w w' /\ abort_flag w' = 0 /\ gnext w <= v.

(** The call ends with the error [e]: apart from fresh heap, the only change is the abort flag,
    which now holds the address of the message of [e]. *)
Definition aborts_with (ep : errtab) (f : func) (args : list Z) (w : world) (e : rt_error) : Prop :=
  exists w1 w', returns f args w [BADF00D] w' /\ extends w w1 /\ aborted ep e w1 w'.

(** The call traps, and [n] more bytes of heap may exceed the memory limit. *)
Definition out_of_memory (f : func) (args : list Z) (w : world) (n : Z) : Prop :=
  traps f args w /\ oom w n.
