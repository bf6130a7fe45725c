(** * What a published ABI means (specification of C99 and C100). *)

From Verif Require Import Tac Comp AbiGen.

(** The Solidity ABI specification: the signature of a function, event or error is its name and, in parentheses and separated by
    commas, the types of its inputs; for a tuple, which is an array of components in JSON, those of the components in
    parentheses, followed by what comes after the word [tuple] in the type. *)
Fixpoint commas (l : list (list Z)) : list Z := match l with [] => [] | [x] => x | x :: l' => x ++ 44 :: commas l' end.
Definition in_parentheses (l : list (list Z)) : list Z := 40 :: commas l ++ [41].
Fixpoint canonical (j : jty) : list Z :=
  match j with
  | JTy s None => s
  | JTy s (Some cs) => in_parentheses (map canonical cs) ++ skipn 5 s
  end.
Definition published (name : list Z) (inputs : list jty) : list Z := name ++ in_parentheses (map canonical inputs).

(** A type inside another. *)
Inductive part (t : mty) : mty -> Prop :=
| part_self : part t t
| part_vec : forall i, part t i -> part t (MVec i)
| part_ref : forall i, part t i -> part t (MRef i)
| part_field : forall m n k a fs f, In f fs -> part t f -> part t (MStruct m n k a fs).

(** Different structs have different names in the ABI. *)
Definition named_apart (l : list mty) : Prop := forall r r' t t', In r l -> In r' l -> part t r -> part t' r' -> to_process t = true -> to_process t' = true ->
  gname (gof t) = gname (gof t') -> t = t'.

(** The types of values, without instances of generic enums that have no data, NamedIds and objects with NamedIds. *)
Inductive value_type : mty -> Prop :=
| vt_prim : forall p, value_type (MPrim p)
| vt_string : value_type MString
| vt_bytes : forall n, value_type (MBytes n)
| vt_uid : value_type MUid
| vt_id : value_type MId
| vt_vec : forall i, value_type i -> value_type (MVec i)
| vt_struct : forall m n a fs, Forall value_type fs -> value_type (MStruct m n false a fs)
| vt_object : forall m n a fs, value_type (MStruct m n true a (MUid :: fs))
| vt_enum : forall m n s, value_type (MEnum m n false s).

(** The types of parameters: values, objects, also those with NamedIds, the signer and the context, by value or by reference. *)
Inductive taken : mty -> Prop :=
| tk_value : forall t, value_type t -> taken t
| tk_named : forall m n a fs, taken (MStruct m n true a (MNamedId :: fs))
| tk_signer : taken MSigner
| tk_context : taken MTxContext.
Inductive param_type : mty -> Prop :=
| pt_taken : forall t, taken t -> param_type t
| pt_ref : forall t, taken t -> param_type (MRef t).

(** The last character is not an underscore (the first may be). *)
Definition no_last_underscore (f : list Z) : Prop := forall g, g <> [] -> f <> g ++ [underscore].

(** Values without structs that are only in vectors: the generator looks for structs in fields, not in vectors. *)
Inductive structless : mty -> Prop :=
| sl_prim : forall p, structless (MPrim p)
| sl_string : structless MString
| sl_bytes : forall n, structless (MBytes n)
| sl_uid : structless MUid
| sl_id : structless MId
| sl_object : forall m n a fs, structless (MStruct m n true a (MUid :: fs))
| sl_enum : forall m n, structless (MEnum m n false true)
| sl_vec : forall i, structless i -> structless (MVec i).
Inductive direct_structs : mty -> Prop :=
| ds_plain : forall t, structless t -> direct_structs t
| ds_struct : forall m n a fs, Forall direct_structs fs -> direct_structs (MStruct m n false a fs).

(** A type without the reference. *)
Definition bare (t : mty) : mty := match t with MRef i => i | _ => t end.
(** What a function may take so that it is in the ABI. *)
Definition listed_type (t : mty) : Prop := direct_structs (bare t) \/ bare t = MSigner \/ bare t = MTxContext \/ exists m n a fs, bare t = MStruct m n true a (MNamedId :: fs).

(** Types of event fields for which the compiler's names go deep enough: values without structs, ids, and structs of values without structs. *)
Inductive event_leaf : mty -> Prop :=
| el_prim : forall p, event_leaf (MPrim p)
| el_string : event_leaf MString
| el_bytes : forall n, event_leaf (MBytes n)
| el_enum : forall m n, event_leaf (MEnum m n false true)
| el_vec : forall i, event_leaf i -> event_leaf (MVec i).
Inductive event_field : mty -> Prop :=
| ef_leaf : forall t, event_leaf t -> event_field t
| ef_id : event_field MId
| ef_struct : forall m n a fs, Forall event_leaf fs -> event_field (MStruct m n false a fs)
| ef_vec : forall i, event_field i -> event_field (MVec i).

(** Names of structs as Solidity has them: a capital letter and no underscores. *)
Definition camel_name (f : list Z) : Prop := (exists c s, f = c :: s /\ 65 <= c <= 90) /\ ~ In underscore f.
