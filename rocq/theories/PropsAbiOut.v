(** * Results in the published ABI (C101). *)

From Verif Require Import SpecInt Spec Tac RtErr Comp SpecVal SpecAbi SpecSol AbiGen SpecAbiGen LemAbiGen AbiOut SpecAbiOut LemAbiOut.
From Coq Require Import String Ascii.
Ltac Zify.zify_post_hook ::= idtac.

(** C101, full statement: what a function returns, read with the types that the published ABI gives for its outputs, is the values that the Move function returned; and
    what a caller makes with the types of its inputs is calldata that the contract decodes to these arguments.
    Proved for results: if the generator gives outputs (with [n] levels of recursion, for any set of structs [roots] to process, in any order), they have one reading [bs],
    and what the contract writes is the encoding, by these types, of the values as a caller sees them; if different structs have different names, for results by value
    or by reference that are not objects and have no objects inside.
    Missing: objects, for which it is wrong (below). *)
Theorem C101_results_partial : forall n roots structs P ts js, process_structs roots [] structs P -> Forall (fun t => to_process t = true) roots ->
  named_apart (roots ++ ts) -> Forall (fun t => plain_type (bare t)) ts -> json_outputs n structs ts = Some js ->
  exists bs, Forall2 reads js bs /\ (forall bs', Forall2 reads js bs' -> bs' = bs) /\
    forall l vs, Forall2 packs ts l -> all_fields (map has_aty l) vs -> enc_args l vs = enc_args bs (sees_all ts vs).
Proof. exact results_published. Qed.
Print Assumptions C101_results_partial.

(** C101 for arguments: what a caller makes with the types that the published ABI gives for the inputs is the calldata that the contract decodes to the arguments of the
    Move function.  Missing: objects as arguments, which are given by their ids (C93). *)
Theorem C101_arguments_partial : forall n roots structs P f ts name js, process_structs roots [] structs P -> Forall (fun t => to_process t = true) roots ->
  named_apart (roots ++ ts) -> Forall (fun t => plain_type (bare t) \/ bare t = MSigner \/ bare t = MTxContext) ts -> json_function n structs f ts = Some (Some (name, js)) ->
  exists bs, Forall2 reads js bs /\ (forall bs', Forall2 reads js bs' -> bs' = bs) /\
    forall l vs, Forall2 packs (filter passed ts) l -> all_fields (map has_aty l) vs -> enc_args bs (sees_all (filter passed ts) vs) = enc_args l vs.
Proof. exact arguments_published. Qed.
Print Assumptions C101_arguments_partial.
Example C101_arguments_example : filter passed (MRef MSigner :: [MRef MTxContext] ++ [MRef (MPrim PU64); MVec MId]) = [MRef (MPrim PU64); MVec MId] /\
  json_function 4 [] (text "put") [MRef MSigner; MRef (MPrim PU64); MVec MId; MRef MTxContext] = Some (Some (text "put", [JTy (text "uint64") None; JTy (text "bytes32[]") None])).
Proof. split; reflexivity. Qed.

(** C101.  The generator gives outputs for all functions whose structs are results, or fields of these and so on.  Missing: vectors of structs that are nowhere else
    (C99_vector_refuted). *)
Theorem C101_listed_partial : forall roots structs P ts, process_structs roots [] structs P -> Forall (fun t => to_process t = true) roots -> incl (return_structs ts) roots ->
  named_apart (roots ++ ts) -> Forall (fun t => direct_structs (bare t)) ts -> exists n js, json_outputs n structs ts = Some js.
Proof. exact results_listed. Qed.
Print Assumptions C101_listed_partial.

(** C101 is wrong for objects with fields of dynamic types: the ABI has their id as the result, the contract writes a tuple with all fields, so that a caller reads
    32, the offset of the tuple, as the id of every object. *)
Theorem C101_object_refuted : forall n structs m nm a fs t v, packs (MStruct m nm true a (MUid :: fs)) t -> dynamic t = true ->
  json_outputs (S n) structs [MStruct m nm true a (MUid :: fs)] = Some [JTy (text "bytes32") None] /\ enc_args [t] [v] = word 32 ++ enc t v.
Proof. exact object_misread. Qed.
Print Assumptions C101_object_refuted.

(** A function with a struct with a struct and an id, an enum, and a vector of structs by reference. *)
Definition pair_ : mty := MStruct 1 (text "Pair") false None [MPrim PU8; MString].
Definition card : mty := MStruct 1 (text "Card") false None [pair_; MId; MUid].
Definition given_back : list mty := [card; MEnum 1 (text "Side") true true; MRef (MVec pair_)].
Definition card_structs : list abi_struct := [entry_of card; entry_of pair_].
Definition card_values : list val := [VStruct 0 [VStruct 0 [VInt 7; VStruct 0 [VVec [VInt 65]]]; VStruct 0 [VInt (2 ^ 200)]; VStruct 0 [VStruct 0 [VInt 3]]]; VEnum 2 []; VVec [VStruct 0 [VInt 1; VStruct 0 [VVec []]]]].
Definition pair_type : aty := AStruct [AInt TU8; AString].
Definition card_types : list aty := [AStruct [pair_type; AStruct [AInt TU256]; AStruct [AStruct [AInt TU256]]]; AEnum 3; AVec pair_type].
Example C101_example : process_structs [card] [] card_structs [pair_; card] /\ Forall (fun t => to_process t = true) [card] /\ incl (return_structs given_back) [card] /\
  named_apart ([card] ++ given_back) /\ Forall (fun t => plain_type (bare t)) given_back /\ Forall2 packs given_back card_types /\ all_fields (map has_aty card_types) card_values /\
  Forall (fun t => direct_structs (bare t)) [card; MRef MString] /\
  (exists js, json_outputs 5 card_structs given_back = Some js /\ published [] js = text "(((uint8,string),bytes32,bytes32),uint8,(uint8,string)[])") /\
  sees_all given_back card_values = [VStruct 0 [VStruct 0 [VInt 7; VStruct 0 [VVec [VInt 65]]]; VInt (2 ^ 200); VInt 3]; VInt 2; VVec [VStruct 0 [VInt 1; VStruct 0 [VVec []]]]] /\
  (exists t, packs (MStruct 2 (text "Note") true None [MUid; MString]) t /\ dynamic t = true).
Proof.
  split.
  { apply (ps_new card [] [] [pair_] [entry_of pair_] [pair_; card] [] [pair_; card]); [intros []| | |constructor].
    - intros c. split; [intros [<-|[]]; split; [left; reflexivity|reflexivity]|]. intros ([<-|[<-|[<-|[]]]]&E); try discriminate E. left. reflexivity.
    - apply (ps_new pair_ [] [card] [] [] [pair_; card] [] [pair_; card]); [intros [E|[]]; discriminate E| |constructor|constructor].
      intros c. split; [intros []|]. intros ([<-|[<-|[]]]&E); discriminate E. }
  split; [repeat constructor|]. split; [intros x X; exact X|]. split.
  { apply named_apart_ok. intros t t' I I'. cbn -[same_text gname gof] in I, I'.
    repeat (destruct I as [<-|I]; [repeat (destruct I' as [<-|I']; [vm_compute; first [reflexivity|discriminate]|]); destruct I'|]). destruct I. }
  split; [repeat constructor|].
  assert (Pp : packs pair_ pair_type) by (apply pk_struct; constructor; [exact (pk_prim PU8)|constructor; [constructor|constructor]]).
  split; [constructor; [apply pk_struct; constructor; [exact Pp|repeat constructor]|constructor; [constructor|constructor; [apply pk_ref, pk_vec; exact Pp|constructor]]]|].
  assert (Ps : forall n bs, 0 <= n < 256 -> Forall (fun b => 0 <= b < 256) bs -> has_aty pair_type (VStruct 0 [VInt n; VStruct 0 [VVec (map VInt bs)]])).
  { intros n bs Hn Hb. eexists. split; [reflexivity|]. split; [exists n; split; [reflexivity|exact Hn]|]. split; [|exact I]. exists bs. split; [reflexivity|exact Hb]. }
  assert (Hw : forall n, 0 <= n < 2 ^ 256 -> has_aty (AStruct [AInt TU256]) (VStruct 0 [VInt n])).
  { intros n Hn. eexists. split; [reflexivity|]. split; [exists n; split; [reflexivity|exact Hn]|exact I]. }
  split.
  { split; [|split; [|split; [|exact I]]].
    - eexists. split; [reflexivity|]. split; [apply (Ps 7 [65]); [lia|constructor; [lia|constructor]]|]. split; [apply Hw; vm_compute; split; [discriminate|reflexivity]|].
      split; [|exact I]. eexists. split; [reflexivity|]. split; [apply Hw; vm_compute; split; [discriminate|reflexivity]|exact I].
    - exists 2%nat. split; [reflexivity|lia].
    - eexists. split; [reflexivity|]. constructor; [apply (Ps 1 []); [lia|constructor]|constructor]. }
  split; [constructor; [apply ds_struct; constructor; [apply ds_struct; repeat constructor|repeat constructor]|repeat constructor]|].
  split; [eexists; split; [reflexivity|reflexivity]|]. split; [reflexivity|].
  eexists. split; [apply pk_struct; constructor; [constructor|constructor; [constructor|constructor]]|reflexivity].
Qed.
