(** * Objects a transaction gets as arguments, and what it leaves in storage (specification). *)

From Coq Require Import ZArith List Bool.
From Verif Require Import Wasm SpecAbi SpecVal RtSwap SpecLayout SpecStor SpecMove.
Import ListNotations.
Open Scope Z_scope.

(** An object in the hands of a function: the local with the reference to it (or the box it was passed in), the hash of
    its type, and the owner, id and fields it has in memory at the time.  Owner 0: it was deleted. *)
Record held_arg := HeldArg { a_local : nat; a_hash : Z; a_types : list ty; a_owner : Z; a_id : Z; a_vals : list val }.

(** The local [a_local a] is a reference: the address of a word that has the address of the object. *)
Definition in_hand (w : world) (l : list Z) (a : held_arg) : Prop :=
  exists q F, nth_error l (a_local a) = Some q /\ 468 <= q /\ q + 4 <= gnext w /\
    object_at (mem w) (a_types a) (a_owner a) (a_id a) (a_vals a) (load 4 (mem w) q) F /\ sub F (heap w).

(** Its slot, under its owner and id, and the slots it takes. *)
Definition a_slot (h : hostst) (a : held_arg) : Z := slot_of h (a_owner a) (a_id a).
Definition a_slots (h : hostst) (a : held_arg) : list (Z * Z) :=
  slots_under (keccak h) (a_types a) (a_vals a) (a_owner a) (a_slot h a).

(** No slot belongs to two of the objects: they are different objects. *)
Definition distinct_objects (h : hostst) (l : list held_arg) : Prop :=
  ForallOrdPairs (fun a b => forall y, covers (a_slots h a) y -> covers (a_slots h b) y -> False) l.

(** Storage [st] has the object as it is in memory. *)
Definition up_to_date (h : hostst) (st : Z -> Z) (a : held_arg) : Prop :=
  a_owner a <> 0 -> st (a_slot h a) mod 2 ^ 64 = bswap 8 (a_hash a) /\ helds (keccak h) st (a_types a) (a_vals a) (a_slot h a, 8).

(** An object that can be saved: the fields after its id hold no objects, its parts take different slots, and no vector is
    shorter than the one that storage has. *)
Definition savable (w : world) (a : held_arg) : Prop :=
  forallb storable (a_types a) = true /\ 0 <= a_hash a < 2 ^ 64 /\
  (a_owner a <> 0 -> room_for (keccak (host w)) (stor (host w)) (a_types a) (a_vals a) (a_slot (host w) a)).

(** The value [x] of the variable in which a place of the program that borrows a dynamic field leaves the field's object:
    -1 when it borrowed none, else the object's address. *)
Definition field_in_hand (w : world) (x : Z) (d : option held_arg) : Prop :=
  match d with
  | None => x = 4294967295
  | Some a => x < 4294967295 /\ exists F, object_at (mem w) (a_types a) (a_owner a) (a_id a) (a_vals a) x F /\ sub F (heap w)
  end.

(** The objects borrowed, and agreement with the type hash and the fields that place was compiled for. *)
Definition somes (ds : list (option held_arg)) : list held_arg := List.concat (map (fun d => match d with Some a => [a] | None => [] end) ds).
Definition field_type (d : option held_arg) (t : Z * list ty) : Prop := match d with Some a => a_hash a = fst t /\ a_types a = snd t | None => True end.
