(** * Objects with objects inside that a function has when it returns (specification). *)

From Coq Require Import ZArith List Bool.
From Verif Require Import Tac RtSwap SpecAbi SpecVal SpecStor SpecLayout SpecWrap SpecTto.
Import ListNotations.
Open Scope Z_scope.

(** An object that an entry function has taken by mutable reference or by value: the local with the reference and the
    reference itself, the hash of its type and its fields, the owner, id and values it has in memory, and the memory it takes.
    [t_before]: what storage has in the former places of the objects put into it.  Owner 0: it was deleted. *)
Record held_tree := HeldTree { t_local : nat; t_ref : Z; t_hash : Z; t_shapes : list shape; t_owner : Z; t_id : Z; t_vals : list val; t_area : mset; t_before : list (list val) }.

Definition tree_in_hand (w : world) (l : list Z) (a : held_tree) : Prop :=
  nth_error l (t_local a) = Some (t_ref a) /\ 468 <= t_ref a /\ t_ref a + 4 <= gnext w /\
  tree_at (mem w) (t_shapes a) (t_owner a) (t_id a) (t_vals a) (load 4 (mem w) (t_ref a)) (t_area a) /\ sub (t_area a) (heap w).

(** Its slot, all slots it takes, and those of the former places of objects put into it. *)
Definition t_slot (h : hostst) (a : held_tree) : Z := home (keccak h) (t_owner a) (t_id a).
Definition t_slots (h : hostst) (a : held_tree) : list (Z * Z) := tree_slots (keccak h) (t_shapes a) (t_id a) (t_vals a) (t_slot h a).
Definition t_left (h : hostst) (a : held_tree) : list (Z * Z) := formers (keccak h) (all_arrivals (t_shapes a) (t_id a) (t_vals a)) (t_before a).
Definition t_touched (h : hostst) (a : held_tree) : list (Z * Z) := if t_owner a =? 0 then [] else t_left h a ++ t_slots h a.

(** They are different objects: no slot belongs to two of them, and they do not overlap in memory. *)
Definition distinct_trees (h : hostst) (l : list held_tree) : Prop :=
  ForallOrdPairs (fun a b => (forall y, covers (t_touched h a) y -> covers (t_touched h b) y -> False) /\
    disj (t_area a) (union (t_area b) (between (t_ref b) (t_ref b + 4)))) l.

(** Storage [st] has the object, and the objects inside, as they are in memory, and nothing in the former places. *)
Definition tree_up_to_date (h : hostst) (st : Z -> Z) (a : held_tree) : Prop :=
  t_owner a <> 0 -> st (t_slot h a) mod 2 ^ 64 = bswap 8 (t_hash a) /\
    contents (keccak h) st (t_shapes a) (t_id a) (t_vals a) (t_slot h a, 8) /\
    (forall y, covers (t_left h a) y -> ~ covers (t_slots h a) y -> st y = 0).

(** An object that can be saved (C95, C96): its parts take different slots, no vector is shorter than the one storage has. *)
Definition tree_savable (w : world) (a : held_tree) : Prop :=
  forallb sound (t_shapes a) = true /\ forallb direct (t_shapes a) = true /\ 0 <= t_hash a < 2 ^ 64 /\
  (t_owner a <> 0 -> Forall2 (was_there (keccak (host w)) (stor (host w))) (all_arrivals (t_shapes a) (t_id a) (t_vals a)) (t_before a) /\
     separate (t_left (host w) a) /\ separate (t_slots (host w) a) /\
     lastings (keccak (host w)) (stor (host w)) (t_shapes a) (t_id a) (t_vals a) (t_slot (host w) a, 8)).
