(** * Objects that the caller of a delegate call has in memory. *)

From Verif Require Import Tac SpecVal SpecStor SpecLayout SpecMove SpecCache.

(** An object of the calling function whose id was passed: the object [s_now] as storage has it after the call, and the same
    object in the caller's memory at [s_at], with the values [s_old] from before the call; [s_uid] is where its id field is.
    The program finds the object through the pointer that is kept before the id field. *)
Record shown := Shown { s_now : held_arg; s_old : list val; s_at : Z; s_uid : Z; s_mem : mset }.

Definition in_memory (w : world) (s : shown) : Prop :=
  object_at (mem w) (a_types (s_now s)) (a_owner (s_now s)) (a_id (s_now s)) (s_old s) (s_at s) (s_mem s) /\
  load 4 (mem w) (s_at s) = s_uid s /\ load 4 (mem w) (s_uid s - 4) = s_at s /\
  sub (between (s_uid s - 4) (s_uid s)) (s_mem s) /\ sub (s_mem s) (heap w).

(** Storage has the object, for its owner only among those that are asked: the sender of the transaction and everybody. *)
Definition in_storage (h : hostst) (s : shown) : Prop :=
  let a := s_now s in up_to_date h (stor h) a /\ 0 < a_hash a < 2 ^ 64 /\ legible (keccak h) (a_types a) (a_vals a) (a_slot h a) /\
  Forall (fun p => snd p < 2 ^ 256) (a_slots h a) /\ object_memory (a_types a) (a_vals a) < 2 ^ 31 /\
  (a_owner a = originator h \/ a_owner a = shared_owner) /\ a_owner a <> 0 /\
  (forall o, o = originator h \/ o = shared_owner -> o <> a_owner a -> stored h o (a_id a) = 0).

(** The words of the object itself: the pointers to its id field and its other fields. *)
Definition cells (s : shown) : mset := between (s_at s) (s_at s + 4 + 4 * Z.of_nat (List.length (a_types (s_now s)))).

(** The hash of the type and the fields of every object; the memory that is needed to load them. *)
Definition shown_types (l : list shown) : list (Z * list ty) := map (fun s => (a_hash (s_now s), a_types (s_now s))) l.
Definition shown_memory (l : list shown) : Z := fold_right Z.add 0 (map (fun s => object_memory (a_types (s_now s)) (a_vals (s_now s))) l).

(** After the call every object has the values from storage, at the address it had before; nothing else that was in memory
    has changed, and storage has not. *)
Definition all_reloaded (w w' : world) (l : list shown) : Prop :=
  wok w' /\ maxpages w' = maxpages w /\ host w' = host w /\ abort_flag w' = 0 /\ statics w' /\
  gnext w <= gnext w' <= gnext w + shown_memory l /\
  (forall y, 468 <= y < gnext w -> (forall s, In s l -> ~ cells s y) -> rd (mem w') y = rd (mem w) y) /\
  Forall (fun s => exists F, object_at (mem w') (a_types (s_now s)) (a_owner (s_now s)) (a_id (s_now s)) (a_vals (s_now s)) (s_at s) F /\
    sub F (union (s_mem s) (between (gnext w) (gnext w')))) l.
