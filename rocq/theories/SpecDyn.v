(** * What the name of a dynamic field is hashed from. *)

From Verif Require Import Tac SpecAbi SpecVal SpecSol.

(** The lowest [n] bytes of an integer, lowest first. *)
Fixpoint le_bytes (n : nat) (v : Z) : list Z :=
  match n with O => [] | S n' => v mod 256 :: le_bytes n' (v / 256) end.

(** Bytes of an integer type in memory. *)
Definition int_size (t : ty) : nat :=
  match t with TBool | TU8 => 1 | TU16 => 2 | TU32 => 4 | TU64 => 8 | TU128 => 16 | _ => 32 end.

(** The bytes of a name: its integers one after the other, in the order of the fields and elements. *)
Fixpoint key_bytes (t : ty) (v : val) {struct t} : list Z :=
  match t, v with
  | TVec t', VVec l => List.concat (map (key_bytes t') l)
  | TStruct _ fs, VStruct _ l =>
      (fix go fs l := match fs, l with f :: fs', v' :: l' => key_bytes f v' ++ go fs' l' | _, _ => [] end) fs l
  | TAddress, VInt n => be_bytes 32 n
  | TEnum _, _ => []
  | _, VInt n => le_bytes (int_size t) n
  | _, _ => []
  end.

(** What is hashed: the parent's address, the name, the name of its type. *)
Definition preimage (parent : Z) (t : ty) (v : val) (name : list Z) : list Z :=
  be_bytes 32 parent ++ key_bytes t v ++ name.

(** Types of names the compiler accepts: no enums inside. *)
Fixpoint key_type (t : ty) : bool :=
  match t with
  | TVec t' => key_type t'
  | TStruct _ fs => forallb key_type fs
  | TEnum _ => false
  | _ => true
  end.

(** No empty vector occurs inside the value. *)
Fixpoint full (v : val) : Prop :=
  match v with
  | VInt _ => True
  | VVec l => l <> [] /\ fold_right and True (map full l)
  | VStruct _ l | VEnum _ l => fold_right and True (map full l)
  end.

(** Types whose values all take the same number of bytes, at least one. *)
Fixpoint fixed_size (t : ty) : bool :=
  match t with
  | TVec _ | TEnum _ => false
  | TStruct _ fs => negb (Nat.eqb (List.length fs) 0) && forallb fixed_size fs
  | _ => true
  end.

(** Types with at most one part of variable size: a vector of fixed-size elements. *)
Fixpoint one_vector (t : ty) : bool :=
  match t with
  | TVec t' => fixed_size t'
  | TStruct _ fs => forallb one_vector fs && (List.length (filter (fun f => negb (fixed_size f)) fs) <=? 1)%nat
  | TEnum _ => false
  | _ => true
  end.

(** Names as Move has them: the values of a type, structs without [key]. *)
Fixpoint name_of (t : ty) (v : val) {struct t} : Prop :=
  match t with
  | TVec t' => exists l, v = VVec l /\ Forall (name_of t') l
  | TStruct _ fs => exists l, v = VStruct 0 l /\
      (fix go fs l := match fs, l with [], [] => True | f :: fs', v' :: l' => name_of f v' /\ go fs' l' | _, _ => False end) fs l
  | TEnum _ => False
  | _ => exists n, int_val t v n
  end.

(** The value [v] of type [t] is in memory at [x]. *)
Definition name_at (w : world) (t : ty) (v : val) (x : Z) (F : mset) : Prop := wok w /\ vrep (mem w) t v x F /\ sub F (heap w).

(** A reference to a UID at [u]: through two structs of one field each it leads to the 32 bytes at [p]. *)
Definition uid_at (w : world) (u p : Z) : Prop :=
  468 <= u /\ u + 4 <= gnext w /\ 468 <= load 4 (mem w) u /\ load 4 (mem w) u + 4 <= gnext w /\
  load 4 (mem w) (load 4 (mem w) u) = p /\ 468 <= p /\ p + 32 <= gnext w.
