(** * Names that differ in one letter (specification). *)

From Coq Require Import ZArith List String.
From Verif Require Import SpecAbi Comp RtUid.
Import ListNotations.

(** Two lists of the same length that differ in one place. *)
Inductive differ_in_one {A} : list A -> list A -> Prop :=
  | differ_here : forall x y l, x <> y -> differ_in_one (x :: l) (y :: l)
  | differ_next : forall x l k, differ_in_one l k -> differ_in_one (x :: l) (x :: k).

(** One byte of the address, or one character of the module's name or of the struct's name. *)
Definition one_letter_apart (s t : struct_name) : Prop :=
  differ_in_one (be_bytes 32 (s_address s)) (be_bytes 32 (s_address t)) /\ s_module s = s_module t /\ s_ident s = s_ident t \/
  s_address s = s_address t /\ differ_in_one (ascii_bytes (s_module s)) (ascii_bytes (s_module t)) /\ s_ident s = s_ident t \/
  s_address s = s_address t /\ s_module s = s_module t /\ differ_in_one (ascii_bytes (s_ident s)) (ascii_bytes (s_ident t)).

