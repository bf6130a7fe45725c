(** * Objects that change hands (specification). *)

From Coq Require Import ZArith List Bool.
From Verif Require Import Wasm SpecAbi SpecVal SpecLayout.
Import ListNotations.
Open Scope Z_scope.

(** The slots of an object with fields [vs] kept in slot [k] under [owner]; owner 0 stands for a new object,
    which is not in storage yet. *)
Definition slots_under (H : list Z -> Z) (fs : list ty) (vs : list val) (owner k : Z) : list (Z * Z) :=
  if owner =? 0 then [] else slots H fs vs (k, 8).

(** Storage [st] has an object with fields [vs] in slot [k] (unless it is new). *)
Definition kept (H : list Z -> Z) (st : Z -> Z) (fs : list ty) (vs : list val) (owner k : Z) : Prop :=
  owner <> 0 -> Forall2 typed fs vs /\ helds H st fs vs (k, 8) /\ separate (slots H fs vs (k, 8)).

(** Slot [k] has room for an object with fields [vs]. *)
Definition room_for (H : list Z -> Z) (st : Z -> Z) (fs : list ty) (vs : list val) (k : Z) : Prop :=
  separate (slots H fs vs (k, 8)) /\ no_shrinks H st fs vs (k, 8).

(** Between the storages [st] and [st'] an object moved from the slots [old] to slot [k], where it has type tag [tag] and fields [vs];
    nothing is left of it elsewhere and nothing else changed. *)
Definition relocated (H : list Z -> Z) (st st' : Z -> Z) (tag : Z) (fs : list ty) (vs : list val) (old : list (Z * Z)) (k : Z) : Prop :=
  st' k mod 2 ^ 64 = tag /\ helds H st' fs vs (k, 8) /\
  (forall y, covers old y -> ~ covers (slots H fs vs (k, 8)) y -> st' y = 0) /\
  (forall y, ~ covers old y -> ~ covers (slots H fs vs (k, 8)) y -> st' y = st y).
