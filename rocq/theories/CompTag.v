(** * The tag that storage has for the type of an object: intermediate_types.rs 1144-1213, hasher.rs. *)

From Coq Require Import ZArith List Bool String.
From Verif Require Import Wasm SpecAbi Comp RtUid CompType.
Import ListNotations.
Open Scope Z_scope.

(** hasher.rs 6-8: [FxHasher] of the crate fxhash 0.2.1, which is not in /repo; this is its source as published, for a host
    with 64-bit words: [hash = (hash.rotate_left(5) ^ word).wrapping_mul(0x517cc1b727220a95)]. *)
Definition rotate5 (h : Z) : Z := Z.lor (Z.shiftl h 5 mod 2 ^ 64) (Z.shiftr h 59).
Definition fx_seed : Z := 5871781006564002453.
Definition fx_add (h w : Z) : Z := (Z.lxor (rotate5 h) w * fx_seed) mod 2 ^ 64.

(** fxhash [write64]: eight bytes at a time, then four, then one by one; little-endian. *)
Definition le_word (bs : list Z) : Z := fold_right (fun b a => b + 256 * a) 0 bs.
Fixpoint fx_words (bs : list Z) : list Z :=
  match bs with
  | b0 :: b1 :: b2 :: b3 :: b4 :: b5 :: b6 :: b7 :: r => le_word [b0; b1; b2; b3; b4; b5; b6; b7] :: fx_words r
  | b0 :: b1 :: b2 :: b3 :: r => le_word [b0; b1; b2; b3] :: r
  | _ => bs
  end.

(** [Hash for str]: the bytes, then [write_u8(0xff)].  [Hash for [u8]]: the length, then the bytes. *)
Definition str_words (s : string) : list Z := fx_words (ascii_bytes s) ++ [255].
Definition slice_words (bs : list Z) : list Z := Z.of_nat (List.length bs) :: fx_words bs.

(** compilation_context/module_data.rs 121-126 [Hash for ModuleId]. *)
Definition module_words (s : struct_name) : list Z := slice_words (be_bytes 32 (s_address s)) ++ str_words (s_module s).

(** The derived [Hash] of [IntermediateType] (lines 59-116): the number of the constructor, then its fields.  For structs
    [ix] gives the index in the module; [VmHandledStruct] is [None].  Enums are not modelled here. *)
Definition prim_number (p : prim) : Z :=
  match p with PBool => 0 | PU8 => 1 | PU16 => 2 | PU32 => 3 | PU64 => 4 | PU128 => 5 | PU256 => 6 | PAddress => 7 | PSigner => 8 end.
Fixpoint derived_words (ix : struct_name -> Z) (t : mtype) : list Z :=
  match t with
  | MPrim p => [prim_number p]
  | MVec t' => 9 :: derived_words ix t'
  | MUser s [] => 13 :: module_words s ++ [ix s; 1]
  | MUser s args => 14 :: module_words s ++ [ix s; Z.of_nat (List.length args)] ++ List.concat (map (derived_words ix) args) ++ [1]
  end.

(** intermediate_types.rs 1154-1213 [process_hash], without [external_struct] attributes (with one, [s] is the struct it
    names). *)
Fixpoint tag_words (ix : struct_name -> Z) (t : mtype) : list Z :=
  match t with
  | MUser s args => module_words s ++ List.concat (map (tag_words ix) args) ++ str_words (s_ident s)
  | _ => derived_words ix t
  end.

(** intermediate_types.rs 1144-1152 [get_hash]. *)
Definition type_tag (ix : struct_name -> Z) (t : mtype) : Z := fold_left fx_add (tag_words ix t) 0.
