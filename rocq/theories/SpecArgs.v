(** * Arguments of Move functions (specification). *)

From Verif Require Import Tac SpecVal RtCopy RtErr RtVec SpecVec.

(** A parameter: of type [t]; of type [&t] or [&mut t], where in the second case [t] is not a vector; of type [&mut vector<t>]. *)
Inductive arg := AVal (t : ty) | ARef (t : ty) | AVec (t : ty).
Definition by_ref (a : arg) : bool := match a with AVal _ => false | _ => true end.
(** The type of the value passed, or of what the reference passed leads to. *)
Definition target (a : arg) : ty := match a with AVal t => t | ARef t => t | AVec t => TVec t end.

(** The word [x] that the caller passes for the parameter: the value [u], or a reference to it. *)
Definition at_call (w : world) (a : arg) (x : Z) (u : val) (F : mset) : Prop :=
  match a with AVal t => owns w t u x F | _ => ref_to w (target a) x u F end.
(** Words that fit the parameter's type; references are addresses of live cells. *)
Definition arg_ok (w : world) (a : arg) (x : Z) : Prop :=
  match a with AVal t => 0 <= x < 256 ^ Z.of_nat (esize t) | _ => sub (cell x) (heap w) end.
(** In the callee the parameter is a reference [r] of its own to the value passed, or to the very value that the reference
    passed leads to. *)
Definition passed (w w' : world) (a : arg) (x r : Z) (u : val) (F : mset) : Prop :=
  sub (cell r) (fresh w w') /\
  if by_ref a then ref_to w' (target a) r u F /\ load 4 (mem w') r = load 4 (mem w') x
  else exists F', ref_to w' (target a) r u F' /\ sub F' (union F (fresh w w')).

(** Types whose values are written in place. *)
Definition is_number (t : ty) : bool := match t with TVec _ | TStruct _ _ | TEnum _ => false | _ => true end.

(** A sequence of [push_back]s through the reference [r]. *)
Fixpoint pushes (ep : errtab) (t : ty) (r : Z) (xs : list Z) (w w' : world) : Prop :=
  match xs with [] => w' = w | x :: xs' => exists w1, returns (vec_push_back ep t) [r; x] w [] w1 /\ pushes ep t r xs' w1 w' end.
