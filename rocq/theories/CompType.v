(** * Types as the compiler knows them, and their names: translation/intermediate_types.rs. *)

From Coq Require Import ZArith List Bool String.
From Verif Require Import Wasm SpecAbi Comp RtUid.
Import ListNotations.
Open Scope Z_scope.

(** intermediate_types.rs 59-116 [IntermediateType], without references and type parameters.  Structs and enums of a module
    share one name space in Move, so one constructor stands for both; [args] are the type arguments of an instance of a
    generic one, [] for the others.  [IStruct] and the like have an index into the module instead of the name. *)
Inductive prim := PBool | PU8 | PU16 | PU32 | PU64 | PU128 | PU256 | PAddress | PSigner.
Inductive mtype := MPrim (p : prim) | MVec (t : mtype) | MUser (s : struct_name) (args : list mtype).

(** intermediate_types.rs 1136-1142 [address_to_type_name_hex]: [format!("{b:02x}")] for each byte. *)
Definition hex_digit (d : Z) : Z := if d <? 10 then 48 + d else 87 + d.
Definition address_hex (a : Z) : list Z := flat_map (fun b => [hex_digit (b / 16); hex_digit (b mod 16)]) (be_bytes 32 a).

Definition prim_name (p : prim) : string :=
  match p with
  | PBool => "bool" | PU8 => "u8" | PU16 => "u16" | PU32 => "u32" | PU64 => "u64" | PU128 => "u128" | PU256 => "u256"
  | PAddress => "address" | PSigner => "signer"
  end.

(** intermediate_types.rs 1051-1131 [get_type_name]; the bytes of the string. *)
Fixpoint type_name (t : mtype) : list Z :=
  match t with
  | MPrim p => ascii_bytes (prim_name p)
  | MVec t' => ascii_bytes "vector<" ++ type_name t' ++ ascii_bytes ">"
  | MUser s args =>
      address_hex (s_address s) ++ ascii_bytes "::" ++ ascii_bytes (s_module s) ++ ascii_bytes "::" ++ ascii_bytes (s_ident s) ++
      match args with [] => [] | _ => ascii_bytes "<" ++ join (map type_name args) ++ ascii_bytes ">" end
  end.

(** What Move allows in identifiers: letters, digits and underscores. *)
Definition ident_char (c : Z) : bool :=
  (97 <=? c) && (c <=? 122) || (65 <=? c) && (c <=? 90) || (48 <=? c) && (c <=? 57) || (c =? 95).
Definition ident (s : string) : Prop := s <> EmptyString /\ forallb ident_char (ascii_bytes s) = true.

(** A type of a Move program: its names are identifiers and its addresses have 32 bytes. *)
Fixpoint move_type (t : mtype) : Prop :=
  match t with
  | MPrim _ => True
  | MVec t' => move_type t'
  | MUser s args => 0 <= s_address s < 2 ^ 256 /\ ident (s_module s) /\ ident (s_ident s) /\ fold_right and True (map move_type args)
  end.
