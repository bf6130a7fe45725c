(** * Objects that have been put into other objects (specification).

    An object in memory has the owner it was loaded with, 0 if it is new.  When it has been put into another object since,
    storage still has it in the slots of that owner: they must be cleared when the other object is saved. *)

From Coq Require Import ZArith List Bool.
From Verif Require Import Wasm RtSwap SpecAbi SpecVal SpecStor SpecLayout SpecWrap.
Import ListNotations.
Open Scope Z_scope.

(** Fields that are values without objects inside, or objects with such fields.  (Structs without [key] that have objects
    inside are left out: for them see [C96_refuted].) *)
Fixpoint direct (s : shape) : bool :=
  match s with Value t => storable t | Object _ fs => forallb direct fs | Group _ => false end.

Fixpoint collect {A} (l : list (val -> list A)) (vs : list val) : list A :=
  match l, vs with f :: l', v :: vs' => f v ++ collect l' vs' | _, _ => [] end.

(** The objects in the field [v] of the object [parent], at any depth, that come from another place: neither new nor
    owned by the object they are in.  For each one: the types of its fields in storage, the former owner, the id. *)
Fixpoint arrivals (s : shape) (parent : Z) (v : val) {struct s} : list (list ty * Z * Z) :=
  match s, v with
  | Object _ fs, VStruct o (VInt id :: vs) =>
      collect (map (fun s' => arrivals s' id) fs) vs ++ (if (o =? 0) || (o =? parent) then [] else [(map slot_ty fs, o, id)])
  | Group fs, VStruct _ vs => collect (map (fun s' => arrivals s' parent) fs) vs
  | _, _ => []
  end.
Definition all_arrivals (fs : list shape) (parent : Z) (vs : list val) : list (list ty * Z * Z) :=
  collect (map (fun s => arrivals s parent) fs) vs.

(** The slots where the object [a] was, when storage has [us] for its fields there. *)
Definition former (H : list Z -> Z) (a : list ty * Z * Z) (us : list val) : list (Z * Z) :=
  let '(ts, o, id) := a in slots H ts us (home H o id, 8).
(** Storage has [us] for the fields of [a] in those slots; the object was not frozen. *)
Definition was_there (H : list Z -> Z) (st : Z -> Z) (a : list ty * Z * Z) (us : list val) : Prop :=
  let '(ts, o, id) := a in o <> frozen_owner /\ Forall (fun t => erasable t = true) ts /\ Forall2 typed ts us /\ helds H st ts us (home H o id, 8).
(** All their slots. *)
Fixpoint formers (H : list Z -> Z) (l : list (list ty * Z * Z)) (uss : list (list val)) : list (Z * Z) :=
  match l, uss with a :: l', us :: uss' => former H a us ++ formers H l' uss' | _, _ => [] end.

(** The value with the owner 0 in all of these objects. *)
Fixpoint settled (s : shape) (parent : Z) (v : val) {struct s} : val :=
  match s, v with
  | Object _ fs, VStruct o (VInt id :: vs) => VObj (if o =? parent then o else 0) id (adopt_all (map (fun s' => settled s' id) fs) vs)
  | Group fs, VStruct o vs => VStruct o (adopt_all (map (fun s' => settled s' parent) fs) vs)
  | _, _ => v
  end.
Definition all_settled (fs : list shape) (parent : Z) (vs : list val) : list val := adopt_all (map (fun s => settled s parent) fs) vs.

(** What has a former place when an object moves to another owner: the object itself, unless it is new, and the objects
    in it that come from another place. *)
Definition departures (fs : list shape) (owner id : Z) (vs : list val) : list (list ty * Z * Z) :=
  (if owner =? 0 then [] else [(map slot_ty fs, owner, id)]) ++ all_arrivals fs id vs.
(** Between the storages [st] and [st'] the object [id], with the objects in it, moved to slot [k], where it has the type
    tag [tag]; of its former places [C] nothing is left, and nothing else changed. *)
Definition tree_relocated (H : list Z -> Z) (st st' : Z -> Z) (tag : Z) (fs : list shape) (id : Z) (vs : list val) (C : list (Z * Z)) (k : Z) : Prop :=
  st' k mod 2 ^ 64 = tag /\ contents H st' fs id vs (k, 8) /\
  (forall y, covers C y -> ~ covers (tree_slots H fs id vs k) y -> st' y = 0) /\
  (forall y, ~ covers C y -> ~ covers (tree_slots H fs id vs k) y -> st' y = st y).
