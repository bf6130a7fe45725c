(** * The published ABI and what the contract answers to (C99, C100). *)

From Verif Require Import Tac RtErr Comp AbiGen SpecAbiGen LemAbiGen.
From Coq Require Import String Ascii.
Ltac Zify.zify_post_hook ::= idtac.

(** C99, full statement: for every entry function there is an item in the published ABI, and the signature that a caller computes from that
    item is the one whose hash the contract compares the selector with.
    Proved: if the generator gives an item (with [n] levels of recursion, for any set of structs [roots] to process, in any order), the signatures are
    the same, for names that do not end in an underscore, if different structs have different names, and for parameters without instances of generic enums and NamedIds.
    Missing: those, for which it is wrong (below). *)
Theorem C99_signature_partial : forall n roots structs P f ts name js, process_structs roots [] structs P -> Forall (fun t => to_process t = true) roots ->
  named_apart (roots ++ ts) -> Forall param_type ts -> no_last_underscore f -> json_function n structs f ts = Some (Some (name, js)) ->
  function_signature f ts = Some (published name js).
Proof. exact function_published. Qed.
Print Assumptions C99_signature_partial.

(** C99.  There is an item for every function whose structs are parameters, or fields of these and so on.  Missing: vectors of structs (below). *)
Theorem C99_listed_partial : forall roots structs P f ts, process_structs roots [] structs P -> Forall (fun t => to_process t = true) roots -> incl (param_structs ts) roots ->
  named_apart (roots ++ ts) -> Forall listed_type ts -> exists n js, json_function n structs f ts = Some (Some (abi_camel f, js)).
Proof. exact function_listed. Qed.
Print Assumptions C99_listed_partial.

(** C99 is wrong for every function with a name that ends in an underscore: the ABI leaves it out, the contract does not. *)
Theorem C99_underscore_refuted : forall n structs g ts name js s, g <> [] -> json_function n structs (g ++ [underscore]) ts = Some (Some (name, js)) ->
  function_signature (g ++ [underscore]) ts = Some s -> s <> published name js.
Proof. exact underscore_unpublished. Qed.
Print Assumptions C99_underscore_refuted.
Example C99_underscore_example : json_function 5 [] (text "set_") [MPrim PU8] = Some (Some (text "set", [JTy (text "uint8") None])) /\
  function_signature (text "set_") [MPrim PU8] = Some (text "set_(uint8)") /\ published (text "set") [JTy (text "uint8") None] = text "set(uint8)".
Proof. repeat split. Qed.

(** C99 is wrong for a parameter that is an instance of a generic enum, which the ABI has as uint8 and the contract leaves out. *)
Theorem C99_enum_refuted : forall n structs f m nm, exists js, json_function (S n) structs f [MEnum m nm true true] = Some (Some (abi_camel f, js)) /\
  published (abi_camel f) js = abi_camel f ++ text "(uint8)" /\ function_signature f [MEnum m nm true true] = Some (snake_to_camel f ++ text "()").
Proof. intros n structs f m nm. exists [JTy (text "uint8") None]. repeat split. Qed.
Print Assumptions C99_enum_refuted.

(** C99 is wrong for a parameter that is a NamedId (alone or in a struct without [key]): a word in the ABI, a tuple of a word in the contract. *)
Theorem C99_named_id_refuted : forall n structs f, exists js, json_function (S n) structs f [MRef MNamedId] = Some (Some (abi_camel f, js)) /\
  published (abi_camel f) js = abi_camel f ++ text "(bytes32)" /\ function_signature f [MRef MNamedId] = Some (snake_to_camel f ++ text "((bytes32))").
Proof. intros n structs f. exists [JTy (text "bytes32") None]. repeat split. Qed.
Print Assumptions C99_named_id_refuted.

(** C99 is wrong when structs of two modules have the same name: the ABI describes both by the fields of one of them. *)
Definition point_1 : mty := MStruct 1 (text "Point") false None [MPrim PU8].
Definition point_2 : mty := MStruct 2 (text "Point") false None [MPrim PU256; MPrim PAddress].
Theorem C99_same_name_refuted : exists n roots structs P ts js, process_structs roots [] structs P /\ Forall (fun t => to_process t = true) roots /\ incl (param_structs ts) roots /\
  Forall param_type ts /\ json_function n structs (text "f") ts = Some (Some (text "f", js)) /\
  published (text "f") js = text "f((uint8),(uint8))" /\ function_signature (text "f") ts = Some (text "f((uint8),(uint256,address))").
Proof.
  exists 3%nat, [point_1; point_2], [entry_of point_1; entry_of point_2], [point_2; point_1], [point_1; point_2], [JTy (text "tuple") (Some [JTy (text "uint8") None]); JTy (text "tuple") (Some [JTy (text "uint8") None])].
  split.
  { apply (ps_new point_1 [point_2] [] [] [] [point_1] [entry_of point_2] [point_2; point_1]); [intros []| |constructor|].
    - intros c. split; [intros []|]. intros ([<-|[]]&E). discriminate E.
    - apply (ps_new point_2 [] [point_1] [] [] [point_2; point_1] [] [point_2; point_1]); [intros [E|[]]; discriminate E| |constructor|constructor].
      intros c. split; [intros []|]. intros ([<-|[<-|[]]]&E); discriminate E. }
  split; [repeat constructor|]. split; [intros x X; exact X|]. split; [repeat constructor|]. repeat split.
Qed.
Print Assumptions C99_same_name_refuted.

(** Instances of a generic struct for a type and for vectors of that type have different names in the ABI, so that [named_apart] can hold of both. *)
Theorem C99_instances : forall m n key t fs fs', gname (gof (MStruct m n key (Some [MVec t]) fs)) <> gname (gof (MStruct m n key (Some [t]) fs')).
Proof. intros m n key t fs fs'. apply instance_names. Qed.
Print Assumptions C99_instances.
Example C99_instances_example : gname (gof (MStruct 1 (text "Box") false (Some [MVec (MPrim PU8); MPrim PBool]) [])) = text "BoxUint8[]Bool".
Proof. reflexivity. Qed.

(** C99 is wrong for a vector of structs that are nowhere else: no ABI can be generated for the module. *)
Theorem C99_vector_refuted : forall n f m nm a fs, process_structs (param_structs [MVec (MStruct m nm false a fs)]) [] [] [] /\
  json_function n [] f [MVec (MStruct m nm false a fs)] = None.
Proof. intros n f m nm a fs. split; [constructor|apply vector_unlisted]. Qed.
Print Assumptions C99_vector_refuted.

(** A function with a signer, an object, a struct in a struct, and a vector of vectors of such structs. *)
Definition inner : mty := MStruct 1 (text "Inner") false None [MPrim PU8; MString].
Definition box : mty := MStruct 1 (text "Box") false (Some [MPrim PU64]) [inner; MPrim PU64; MId].
Definition coin : mty := MStruct 2 (text "Coin") true None [MUid; MPrim PU256].
Definition shown : list mty := [MRef MSigner; MRef coin; box; MVec (MVec inner); MEnum 1 (text "Side") false true; MRef MTxContext].
Definition shown_structs : list abi_struct := [entry_of box; entry_of inner].
Lemma shown_processed : process_structs [box] [] shown_structs [inner; box].
Proof.
  apply (ps_new box [] [] [inner] [entry_of inner] [inner; box] [] [inner; box]); [intros []| | |constructor].
  - intros c. split; [intros [<-|[]]; split; [left; reflexivity|reflexivity]|]. intros ([<-|[<-|[<-|[]]]]&E); try discriminate E. left. reflexivity.
  - apply (ps_new inner [] [box] [] [] [inner; box] [] [inner; box]); [intros [E|[]]; discriminate E| |constructor|constructor].
    intros c. split; [intros []|]. intros ([<-|[<-|[]]]&E); discriminate E.
Qed.
Lemma shown_apart : named_apart ([box] ++ shown).
Proof.
  apply named_apart_ok. intros t t' I I'. cbn -[same_text gname gof] in I, I'.
  repeat (destruct I as [<-|I]; [repeat (destruct I' as [<-|I']; [vm_compute; first [reflexivity|discriminate]|]); destruct I'|]). destruct I.
Qed.
Example C99_example : exists js, process_structs [box] [] shown_structs [inner; box] /\ Forall (fun t => to_process t = true) [box] /\ incl (param_structs shown) [box] /\
  named_apart ([box] ++ shown) /\ Forall param_type shown /\ no_last_underscore (text "put_all") /\ json_function 6 shown_structs (text "put_all") shown = Some (Some (text "putAll", js)) /\
  published (text "putAll") js = text "putAll(bytes32,((uint8,string),uint64,bytes32),(uint8,string)[][],uint8)" /\
  Forall listed_type [MRef MSigner; MRef coin; box; MVec (MPrim PU8); MRef MTxContext].
Proof.
  eexists. split; [exact shown_processed|]. split; [repeat constructor|]. split; [intros x X; exact X|]. split; [exact shown_apart|].
  split; [repeat (constructor; [first [apply pt_ref; repeat constructor|apply pt_taken; repeat constructor]|]); constructor|].
  split. { intros g N E. apply (f_equal (fun l => List.last l 0)) in E. rewrite List.last_last in E. discriminate E. }
  split; [reflexivity|]. split; [reflexivity|].
  constructor; [right; left; reflexivity|]. constructor; [left; constructor; constructor|]. constructor; [left; apply ds_struct; repeat constructor; apply ds_struct; repeat constructor|].
  constructor; [left; repeat constructor|]. constructor; [right; right; left; reflexivity|constructor].
Qed.

(** C100, full statement: the signature that the published ABI gives for an error is the one whose hash starts the data of a revert with that error, and that
    for an event is the one whose hash is its first topic.
    Proved for errors with a name without underscores, if different structs have different names, and for fields without instances of generic enums. *)
Theorem C100_error_partial : forall n roots structs P f ts name js, process_structs roots [] structs P -> Forall (fun t => to_process t = true) roots ->
  named_apart (roots ++ ts) -> Forall value_type ts -> camel_name f -> json_item n structs f ts = Some (name, js) ->
  error_signature f ts = Some (published name js).
Proof. exact error_published. Qed.
Print Assumptions C100_error_partial.

(** C100 is wrong for errors with underscores in their names. *)
Theorem C100_error_refuted : exists f ts js, json_item 2 [] f ts = Some (f, js) /\ published f js = text "Not_Owner(address)" /\ error_signature f ts = Some (text "NotOwner(address)").
Proof. exists (text "Not_Owner"), [MPrim PAddress], [JTy (text "address") None]. repeat split. Qed.
Print Assumptions C100_error_refuted.

(** C100.  Proved for events whose fields are structs of depth one at most. *)
Theorem C100_event_partial : forall n roots structs P f ts name js, process_structs roots [] structs P -> Forall (fun t => to_process t = true) roots ->
  named_apart (roots ++ ts) -> Forall event_field ts -> json_item n structs f ts = Some (name, js) -> event_signature f ts = Some (published name js).
Proof. exact event_published. Qed.
Print Assumptions C100_event_partial.

(** C100 is wrong for an event with a struct in a struct: the first topic is the hash of a signature in which the whole field is missing. *)
Theorem C100_event_refuted : forall f m n k a fs g, In g fs -> (exists m n k a gs, g = MStruct m n k a gs) -> event_signature f [MStruct m n k a fs] = Some (f ++ text "()").
Proof. exact event_drops. Qed.
Print Assumptions C100_event_refuted.
Example C100_example : exists js js', camel_name (text "Bad") /\ json_item 6 shown_structs (text "Bad") [box; MString] = Some (text "Bad", js) /\
  published (text "Bad") js = text "Bad(((uint8,string),uint64,bytes32),string)" /\ error_signature (text "Bad") [box; MString] = Some (text "Bad(((uint8,string),uint64,bytes32),string)") /\
  Forall event_field [MId; inner; MVec (MPrim PU8)] /\ json_item 6 shown_structs (text "Log") [MId; inner; MVec (MPrim PU8)] = Some (text "Log", js') /\
  published (text "Log") js' = text "Log(bytes32,(uint8,string),uint8[])" /\ event_signature (text "Log") [MId; inner; MVec (MPrim PU8)] = Some (text "Log(bytes32,(uint8,string),uint8[])") /\
  json_item 6 shown_structs (text "Log") [box] = Some (text "Log", [JTy (text "tuple") (Some [JTy (text "tuple") (Some [JTy (text "uint8") None; JTy (text "string") None]); JTy (text "uint64") None; JTy (text "bytes32") None])]) /\
  event_signature (text "Log") [box] = Some (text "Log()").
Proof.
  eexists. eexists. split. { split; [eexists; eexists; split; [reflexivity|vm_compute; split; discriminate]|]. intros [E|[E|[E|[]]]]; discriminate E. }
  split; [reflexivity|]. split; [reflexivity|]. split; [reflexivity|].
  split; [constructor; [apply ef_id|constructor; [apply ef_struct; repeat constructor|constructor; [apply ef_leaf; repeat constructor|constructor]]]|].
  repeat (split; [reflexivity|]). reflexivity.
Qed.
