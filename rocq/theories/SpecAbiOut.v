(** * Reading results by the published ABI (specification of C101). *)

From Verif Require Import SpecInt Spec Tac Comp SpecVal SpecAbi SpecSol AbiGen SpecAbiGen AbiOut.
From Coq Require Import String Ascii.

(** The Solidity type of an output: an elementary type, bytes32 (one word, read as a number), string, an array, or a tuple with components. *)
Inductive reads : jty -> aty -> Prop :=
| rd_prim : forall p, reads (JTy (prim_name p) None) (AInt (prim_ty p))
| rd_word : reads (JTy (text "bytes32") None) (AInt TU256)
| rd_string : reads (JTy (text "string") None) AString
| rd_array : forall s c t, reads (JTy s c) t -> reads (JTy (array_of s) c) (AVec t)
| rd_tuple : forall cs l, Forall2 reads cs l -> reads (JTy (text "tuple") (Some cs)) (AStruct l).

(** What a caller sees of a Move value: the number of the variant of an enum, the 32 bytes of an id; anything else as it is. *)
Fixpoint sees (t : mty) (v : val) : val :=
  match t, v with
  | MRef i, _ => sees i v
  | MVec i, VVec vs => VVec (map (sees i) vs)
  | MStruct _ _ _ _ fs, VStruct o vs => VStruct o (zip_with (fun f v => f v) (map sees fs) vs)
  | MEnum _ _ _ _, VEnum tag _ => VInt (Z.of_nat tag)
  | MId, VStruct _ [x] => x
  | MUid, VStruct _ [VStruct _ [x]] => x
  | MNamedId, VStruct _ [VStruct _ [x]] => x
  | _, _ => v
  end.
Definition sees_all (ts : list mty) (vs : list val) : list val := zip_with (fun f v => f v) (map sees ts) vs.

(** Results that are not objects: values, ids, enums without data, vectors and structs of these. *)
Inductive plain_type : mty -> Prop :=
| pl_prim : forall p, plain_type (MPrim p)
| pl_string : plain_type MString
| pl_id : plain_type MId
| pl_uid : plain_type MUid
| pl_named : plain_type MNamedId
| pl_vec : forall i, plain_type i -> plain_type (MVec i)
| pl_struct : forall m n a fs, Forall plain_type fs -> plain_type (MStruct m n false a fs)
| pl_enum : forall m n g, plain_type (MEnum m n g true).

(** The parameters for which a caller passes something: not the signer and the context. *)
Definition passed (t : mty) : bool := match bare t with MSigner | MTxContext => false | _ => true end.

(** Types of parameters and results without objects and ids. *)
Inductive idless : mty -> Prop :=
| il_prim : forall p, idless (MPrim p)
| il_string : idless MString
| il_vec : forall i, idless i -> idless (MVec i)
| il_struct : forall m n a fs, Forall idless fs -> idless (MStruct m n false a fs)
| il_enum : forall m n g, idless (MEnum m n g true).
(** The parameter or result [p] of the wrapper (by reference or by value, and its type) is the one for the Move type [t]. *)
Definition coded (t : mty) (p : bool * aty) : Prop := idless (bare t) /\ packs (bare t) (snd p) /\ fst p = match t with MRef _ => true | _ => false end.
