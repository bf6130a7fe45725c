(** * Objects with other objects inside (specification).

    An object (a struct with [key]) that is a field of another one is not part of the outer object's slots: it has slots of
    its own, where an object that the outer one owns has them, and the outer object has its id in the field's place. *)

From Coq Require Import ZArith List Bool.
From Verif Require Import Wasm Tac RtSwap SpecAbi SpecVal SpecStor SpecLayout.
Import ListNotations.
Open Scope Z_scope.

(** The types of fields: types without objects inside, objects with type hash [h] and the fields [fs] after their id, and
    structs without [key].  (Vectors and enums with objects inside are left out.) *)
Inductive shape := Value (t : ty) | Object (h : Z) (fs : list shape) | Group (fs : list shape).

(** An object as a value: its owner, its id and its other fields. *)
Definition VObj (owner id : Z) (vs : list val) : val := VStruct owner (VInt id :: vs).

(** What a field takes in the slots of the object it is in: an inner object takes as much as a 256-bit number, its id. *)
Fixpoint slot_ty (s : shape) : ty :=
  match s with Value t => t | Object _ _ => TU256 | Group fs => TStruct false (map slot_ty fs) end.

(** Shapes that storage can hold. *)
Fixpoint sound (s : shape) : bool :=
  match s with
  | Value t => storable t
  | Object h fs => (0 <=? h) && (h <? 2 ^ 64) && forallb sound fs
  | Group fs => negb (Nat.eqb (List.length fs) 0) && forallb sound fs
  end.

(** The slot of the object [id] that [owner] has ([slot_of]). *)
Definition home (H : list Z -> Z) (owner id : Z) : Z := H (word id ++ word (H (word owner ++ word 0) mod 2 ^ 256)) mod 2 ^ 256.

(** The relations [l] hold for the values [vs] of fields of the given types, one after the other from position [p] on. *)
Fixpoint along (l : list (ty * (val -> position -> Prop))) (vs : list val) (p : position) : Prop :=
  match l, vs with
  | [], [] => True
  | (t, R) :: l', v :: vs' => R v p /\ along l' vs' (after t p)
  | _, _ => False
  end.
Fixpoint gather (l : list (ty * (val -> position -> list (Z * Z)))) (vs : list val) (p : position) : list (Z * Z) :=
  match l, vs with
  | (t, f) :: l', v :: vs' => f v p ++ gather l' vs' (after t p)
  | _, _ => []
  end.

(** Storage [st] has the field [v] of shape [s] of the object [parent] from position [p] on: for an object, its id is
    there, and in the slots that belong to it as an object of [parent] are the hash of its type and its fields. *)
Fixpoint contains (H : list Z -> Z) (st : Z -> Z) (s : shape) (parent : Z) (v : val) (p : position) {struct s} : Prop :=
  match s with
  | Value t => held H st t v p
  | Object h fs => exists o id vs, v = VObj o id vs /\ held H st TU256 (VInt id) p /\
      let k := home H parent id in
      st k mod 2 ^ 64 = bswap 8 h /\ along (map (fun s' => (slot_ty s', contains H st s' id)) fs) vs (k, 8)
  | Group fs => exists vs, v = VStruct 0 vs /\ along (map (fun s' => (slot_ty s', contains H st s' parent)) fs) vs p
  end.
Definition contents (H : list Z -> Z) (st : Z -> Z) (fs : list shape) (parent : Z) (vs : list val) (p : position) : Prop :=
  along (map (fun s => (slot_ty s, contains H st s parent)) fs) vs p.

(** The runs of slots of the inner objects and of the elements of vectors. *)
Fixpoint reach (H : list Z -> Z) (s : shape) (parent : Z) (v : val) (p : position) {struct s} : list (Z * Z) :=
  match s, v with
  | Value t, _ => areas H t v p
  | Object h fs, VStruct _ (VInt id :: vs) => let k := home H parent id in
      (k, fst (afters (map slot_ty fs) (k, 8))) :: gather (map (fun s' => (slot_ty s', reach H s' id)) fs) vs (k, 8)
  | Group fs, VStruct _ vs => gather (map (fun s' => (slot_ty s', reach H s' parent)) fs) vs p
  | _, _ => []
  end.
Definition reaches (H : list Z -> Z) (fs : list shape) (parent : Z) (vs : list val) (p : position) : list (Z * Z) :=
  gather (map (fun s => (slot_ty s, reach H s parent)) fs) vs p.
(** All runs of slots of an object with the id [id] in slot [k]. *)
Definition tree_slots (H : list Z -> Z) (fs : list shape) (id : Z) (vs : list val) (k : Z) : list (Z * Z) :=
  (k, fst (afters (map slot_ty fs) (k, 8))) :: reaches H fs id vs (k, 8).

(** No vector inside is shorter than what the storage has in its place. *)
Fixpoint lasting (H : list Z -> Z) (st : Z -> Z) (s : shape) (parent : Z) (v : val) (p : position) {struct s} : Prop :=
  match s, v with
  | Value t, _ => no_shrink H st t v p
  | Object h fs, VStruct _ (VInt id :: vs) => along (map (fun s' => (slot_ty s', lasting H st s' id)) fs) vs (home H parent id, 8)
  | Group fs, VStruct _ vs => along (map (fun s' => (slot_ty s', lasting H st s' parent)) fs) vs p
  | _, _ => False
  end.
Definition lastings (H : list Z -> Z) (st : Z -> Z) (fs : list shape) (parent : Z) (vs : list val) (p : position) : Prop :=
  along (map (fun s => (slot_ty s, lasting H st s parent)) fs) vs p.

(** At [x] in memory is the field [v] of shape [s]; an object as in [object_at], its fields being shapes again. *)
Definition whole_at (R : shape -> val -> Z -> mset -> Prop) (m : memory) (fs : list shape) (owner id : Z) (vs : list val) (x : Z) (F : mset) : Prop :=
  exists a b c G, load 4 m x = a /\ load 4 m a = b /\ load 4 m b = c /\
    load_be 32 m c = id /\ load_be 32 m (x - 32) = owner /\
    sub (between (x - 32) (x + 4 + 4 * Z.of_nat (List.length fs))) F /\
    sub (between a (a + 4)) F /\ sub (between b (b + 4)) F /\ sub (between c (c + 32)) F /\ sub G F /\
    disj (between (x - 32) (x + 4 + 4 * Z.of_nat (List.length fs)))
      (union G (union (between a (a + 4)) (union (between b (b + 4)) (between c (c + 32))))) /\
    disj G (union (between a (a + 4)) (union (between b (b + 4)) (between c (c + 32)))) /\
    fields (map R fs) m vs (x + 4) G.
Fixpoint shape_at (m : memory) (s : shape) (v : val) (x : Z) (F : mset) {struct s} : Prop :=
  match s with
  | Value t => field_of m t (vrep m t) v x F
  | Object h fs => exists owner id vs, v = VObj owner id vs /\ whole_at (shape_at m) m fs owner id vs x F
  | Group fs => exists vs G, v = VStruct 0 vs /\ sub (between x (x + 4 * Z.of_nat (List.length fs))) F /\ sub G F /\
      disj (between x (x + 4 * Z.of_nat (List.length fs))) G /\ fields (map (shape_at m) fs) m vs x G
  end.
Definition tree_at (m : memory) (fs : list shape) (owner id : Z) (vs : list val) (x : Z) (F : mset) : Prop := whole_at (shape_at m) m fs owner id vs x F.

(** The same value with the right owner in every inner object: the object it is in. *)
Fixpoint adopt_all (fs : list (val -> val)) (vs : list val) : list val :=
  match fs, vs with f :: fs', v :: vs' => f v :: adopt_all fs' vs' | _, _ => vs end.
Fixpoint adopt (s : shape) (parent : Z) (v : val) {struct s} : val :=
  match s, v with
  | Object _ fs, VStruct _ (VInt id :: vs) => VObj parent id (adopt_all (map (fun s' => adopt s' id) fs) vs)
  | Group fs, VStruct o vs => VStruct o (adopt_all (map (fun s' => adopt s' parent) fs) vs)
  | _, _ => v
  end.
Definition adopts (fs : list shape) (parent : Z) (vs : list val) : list val := adopt_all (map (fun s => adopt s parent) fs) vs.
