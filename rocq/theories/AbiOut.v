(** * The results of functions in the published ABI and in the contract. *)

From Verif Require Import SpecInt Spec Tac RtErr Comp SpecVal SpecAbi SpecSol AbiGen.
From Coq Require Import String Ascii.

(** ** The generator *)

(** abi.rs 875-933 [process_return_type]: the structs that the results of a function add to those to process. *)
Fixpoint return_struct (t : mty) : list mty := match t with MRef i => return_struct i | _ => if to_process t then [t] else [] end.
Definition return_structs (ts : list mty) : list mty := List.concat (map return_struct ts).
(** abi.rs 364-389, json_format.rs 222-234: the outputs of a function.  A tuple is listed by its elements, so one result, many and none ([Type::None], left out
    by [process_io]) are the same case. *)
Definition json_outputs (n : nat) (structs : list abi_struct) (ts : list mty) : option (list jty) := json_inputs n structs (map gof ts).

(** ** The compiler *)

Definition prim_ty (p : prim) : ty :=
  match p with PBool => TBool | PU8 => TU8 | PU16 => TU16 | PU32 => TU32 | PU64 => TU64 | PU128 => TU128 | PU256 => TU256 | PAddress => TAddress end.
(** abi_types/packing.rs 224-462, runtime/packing/structs.rs 34-255: the type with which a result is encoded, and by abi_types/unpacking.rs 118-365, runtime/unpacking/structs.rs 81-260 an argument decoded (see RtPack.v for the encoding itself).  Structs
    are packed field by field, also those with [key] and those of the framework (object.move 23-33, 86-88).  [n]: the number of variants of the enum, which
    [mty] leaves out.  The address in an id has 32 bytes, all of which are written as they are (runtime/packing/heap_uint.rs 141-161, [pack_address_spec] in RtAbi.v): a word of
    256 bits.  Left out: BytesN, which has no values. *)
Inductive packs : mty -> aty -> Prop :=
| pk_prim : forall p, packs (MPrim p) (AInt (prim_ty p))
| pk_string : packs MString AString
| pk_id : packs MId (AStruct [AInt TU256])
| pk_uid : packs MUid (AStruct [AStruct [AInt TU256]])
| pk_named : packs MNamedId (AStruct [AStruct [AInt TU256]])
| pk_vec : forall i a, packs i a -> packs (MVec i) (AVec a)
| pk_ref : forall i a, packs i a -> packs (MRef i) a
| pk_struct : forall m nm key args fs l, Forall2 packs fs l -> packs (MStruct m nm key args fs) (AStruct l)
| pk_enum : forall m nm g n, packs (MEnum m nm g true) (AEnum n).
