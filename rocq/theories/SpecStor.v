(** * Specification vocabulary for persistent storage. *)

From Verif Require Import Wasm Tac RtErr SpecAbi.
From Coq Require Import ZArith List Bool.
Import ListNotations.
Open Scope Z_scope.

(** keccak256 as a 256-bit number. *)
Definition hash (h : hostst) (bs : list Z) : Z := keccak h bs mod 2 ^ 256.

(** The storage location of object [id] held by [owner]: Solidity's
    mapping(bytes32 owner => mapping(bytes32 id => ..)) at slot 0. *)
Definition slot_of (h : hostst) (owner id : Z) : Z :=
  hash h (word id ++ word (hash h (word owner ++ word 0))).

(** What is stored for object [id] under [owner] (zero: nothing). *)
Definition stored (h : hostst) (owner id : Z) : Z := stor h (slot_of h owner id) mod 2 ^ 256.

(** The first of the candidate owners [os] holding object [id]. *)
Definition holder (h : hostst) (os : list Z) (id : Z) : option Z :=
  find (fun o => negb (stored h o id =? 0)) os.

(** The owners under which shared and frozen objects are kept, and the address of
    the account that sent the transaction. *)
Definition shared_owner : Z := 1.
Definition frozen_owner : Z := 2.
Definition originator (h : hostst) : Z := h_origin h mod 2 ^ 160.

(** Two different byte strings with the same hash. *)
Definition collision (h : hostst) (x y : list Z) : Prop := x <> y /\ hash h x = hash h y.

(** The constants the compiler puts into the reserved area (data.rs, lib.rs). *)
Definition statics (w : world) : Prop :=
  load_be 32 (mem w) 0 = 0 /\ load 32 (mem w) 32 = 1 /\ load_be 32 (mem w) 96 = 0 /\
  load_be 32 (mem w) 160 = shared_owner /\ load_be 32 (mem w) 192 = frozen_owner.

(** Adding [a] and [b] produces no carry between bytes. *)
Definition carry_free (a b : Z) : Prop :=
  forall k, 0 <= k -> (a / 256 ^ k) mod 256 + (b / 256 ^ k) mod 256 < 256.

(** Slot index of element [i], relative to the first, for elements of [sz] bytes:
    small elements share slots, large ones take several. *)
Definition elem_index (i sz : Z) : Z :=
  if sz <? 32 then i / (32 / sz) else i * ((sz + 31) / 32).

(** The reserved words lookups work in: slot data, object slot, owner and hash input. *)
Definition scratch (x : Z) : Prop :=
  within 64 32 x \/ within 128 32 x \/ within 224 32 x \/ within 404 64 x.

(** Looking [id] up among the owners [os], in this order: the result points to the
    owner's 32 bytes, the slot number is at 128 and its content at 64; if no owner
    holds the object the call fails with object-not-found. *)
Definition lookup_post (ep : errtab) (w : world) (os : list Z) (id : Z) (vs : list Z) (w' : world) : Prop :=
  match holder (host w) os id with
  | Some o => exists p, vs = [p] /\ 0 <= p /\ p + 32 <= 256 /\ load_be 32 (mem w') p = o /\ frame w w' scratch /\
      load_be 32 (mem w') 128 = slot_of (host w) o id /\ load_be 32 (mem w') 64 = stored (host w) o id
  | None => vs = [BADF00D] /\ frame w w' (fun x => scratch x \/ within 256 4 x) /\
      abort_flag w' = ep StorageObjectNotFound
  end.
