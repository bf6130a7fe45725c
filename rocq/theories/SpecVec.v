(** * Vocabulary of the vector properties. *)

From Verif Require Import Tac RtAlloc RtErr SpecVal RtCopy RtVec RtVecEq.

(** [x] represents the value [v] of type [t] in live memory [F]. *)
Definition owns (w : world) (t : ty) (v : val) (x : Z) (F : mset) : Prop :=
  vrep (mem w) t v x F /\ sub F (heap w).

(** A reference: the address of a live 4-byte cell outside the referenced value; the cell holds the pointer
    to the value, for a stack type the address of its bytes. *)
Definition ref_to (w : world) (t : ty) (r : Z) (v : val) (F : mset) : Prop :=
  sub (cell r) (heap w) /\ disj (cell r) F /\ sub F (heap w) /\ field_of (mem w) t (vrep (mem w) t) v (load 4 (mem w) r) F.

(** A reference to a vector with the elements [vs]. *)
Definition vec_ref (w : world) (t : ty) (r : Z) (vs : list val) (F : mset) : Prop := ref_to w (TVec t) r (VVec vs) F.

(** Memory allocated between two states. *)
Definition fresh (w w' : world) : mset := between (gnext w) (gnext w').

(** A trap for lack of memory: either [n] more bytes may exceed the memory limit, or, when a vector of
    1- or 2-byte elements is copied, the copy ends within 3 bytes of a page end ([ctrap], RtCopy.v). *)
Definition no_memory (f : func) (args : list Z) (w : world) (small : bool) (n : Z) : Prop :=
  traps f args w /\ ctrap w small n.

(** The compiled copy of a value behind a pointer, and the compiled comparison of two values, as
    functions. *)
Definition copy_fn (ep : errtab) (t : ty) : func := Func 1 0 1 (LocalGet 0 :: copy_ptr ep t).
Definition eq_fn (ep : errtab) (t : ty) : func := Func 2 0 1 (LocalGet 0 :: LocalGet 1 :: equality ep t).

(** [erase v]: the value without the owners of the structs in it ([erase], RtVecEq.v): what Move's
    [==] compares. *)
