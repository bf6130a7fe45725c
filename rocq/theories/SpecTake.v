(** * Objects as arguments of entry functions: who may name which object. *)

From Verif Require Import Tac SpecStor.

(** An object parameter can be declared to be owned, shared or frozen (attributes [#[owned_objects]], [#[shared_objects]],
    [#[frozen_objects]]; abi_types/unpacking.rs 24-38). *)
Inductive object_kind := Owned | Shared | Frozen.

(** The owners whose objects the caller may pass, in the order in which they are asked: the caller itself, and anyone's
    shared objects; frozen ones only for parameters that are immutable references ([imm]). *)
Definition searched (h : hostst) (kind : option object_kind) (imm : bool) : list Z :=
  match kind with
  | Some Owned => [originator h]
  | Some Shared => [shared_owner]
  | Some Frozen => [frozen_owner]
  | None => [originator h; shared_owner] ++ (if imm then [frozen_owner] else [])
  end.
