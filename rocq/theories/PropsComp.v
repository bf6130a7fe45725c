(** * Properties of compile-time functions: C42, C53, C57, C58. *)

From Verif Require Import Tac RtErr SpecAbi Comp SpecComp LemComp Spec.
From Coq Require Import String.

(** C42 is false: the Move functions [a_b] and [aB], and likewise [get__x] and [get_x], get the same Solidity
    name, hence (with equal parameters) the same selector. *)
Theorem C42_same_name_refuted : exists a b ps, a <> b /\ signature_string a ps = signature_string b ps.
Proof. exists (ascii_bytes "a_b"), (ascii_bytes "aB"), [ascii_bytes "uint256"]. split; [discriminate|reflexivity]. Qed.
Print Assumptions C42_same_name_refuted.

Theorem C42_same_name_lower_case_refuted : exists a b ps, a <> b /\ Forall snake_char a /\ Forall snake_char b /\
  signature_string a ps = signature_string b ps.
Proof.
  exists (ascii_bytes "get__x"), (ascii_bytes "get_x"), []. split; [discriminate|]. unfold snake_char, lower_letter, underscore.
  split; [|split; [|reflexivity]]; cbn; repeat (apply Forall_cons; [lia|]); apply Forall_nil.
Qed.
Print Assumptions C42_same_name_lower_case_refuted.

(** C42, the part that holds: the text hashed into the selector determines the name and the parameter types of a
    function with a conventional snake_case name. *)
Theorem C42_snake_case_names_partial : forall a b ps qs, snake_case a -> snake_case b -> Forall sol_type ps -> Forall sol_type qs ->
  signature_string a ps = signature_string b qs -> a = b /\ ps = qs.
Proof. exact signature_determines. Qed.
Print Assumptions C42_snake_case_names_partial.

Example C42_types : sol_type (ascii_bytes "uint256") /\ sol_type (ascii_bytes "(address,uint8[])[]").
Proof.
  assert (W : forall s, s <> [] -> forallb (fun c => (97 <=? c) && (c <=? 122) || (65 <=? c) && (c <=? 90) || (48 <=? c) && (c <=? 57)) s = true -> sol_type s).
  { intros s N F. apply sol_word; [exact N|]. rewrite Forall_forall. rewrite forallb_forall in F. intros c I. specialize (F c I). unfold alphanumeric, lower_letter. lia. }
  split; [apply W; [discriminate|reflexivity]|].
  change (ascii_bytes "(address,uint8[])[]") with (([40] ++ join [ascii_bytes "address"; ascii_bytes "uint8" ++ [91; 93]] ++ [41]) ++ [91; 93]).
  apply sol_array, sol_tuple. constructor; [apply W; [discriminate|reflexivity]|]. constructor; [|constructor].
  apply sol_array. apply W; [discriminate|reflexivity].
Qed.

Example C42_example : snake_case (ascii_bytes "transfer_from2") /\ snake_case (ascii_bytes "_burn_") /\
  signature_string (ascii_bytes "transfer_from2") [ascii_bytes "address"; ascii_bytes "uint256"] = ascii_bytes "transferFrom2(address,uint256)".
Proof.
  assert (A : ascii_bytes "transfer_from2" = [116; 114; 97; 110; 115; 102; 101; 114; 95; 102; 114; 111; 109; 50]) by reflexivity.
  assert (B : ascii_bytes "_burn_" = [95; 98; 117; 114; 110; 95]) by reflexivity.
  split; [rewrite A|split; [rewrite B|reflexivity]]; clear; unfold snake_case, snake_char, lower_letter, underscore; (split; [repeat (apply Forall_cons; [lia|]); apply Forall_nil|]);
    intros i c P A B; do 14 (destruct i as [|i]; [cbn [nth_error] in A, B; (lia || discriminate || (injection B as <-; lia))|]); discriminate.
Qed.

(** C53.  Instantiating a type with the right number of types: the test for genericity is exact; the result mentions no
    type parameter if the arguments do not; types without parameters are unchanged; instantiating twice is instantiating
    once with the instantiated arguments. *)
Theorem C53_instantiation : forall t ts us, (forall i, occurs i t -> (i < List.length ts)%nat) ->
  (type_contains_generics t = true <-> exists i, occurs i t) /\
  ((forall u i, In u ts -> ~ occurs i u) -> forall i, ~ occurs i (replace_type_parameters t ts)) /\
  ((forall i, ~ occurs i t) -> replace_type_parameters t ts = t) /\
  replace_type_parameters (replace_type_parameters t ts) us =
    replace_type_parameters t (map (fun x => replace_type_parameters x us) ts).
Proof. exact instantiation_ok. Qed.
Print Assumptions C53_instantiation.

(** C53.  The parameters of an instantiated type are exactly those of the substituted types. *)
Theorem C53_parameters_of_instance : forall t ts j, (forall i, occurs i t -> (i < List.length ts)%nat) ->
  (occurs j (replace_type_parameters t ts) <-> exists i u, occurs i t /\ nth_error ts i = Some u /\ occurs j u).
Proof. exact occurs_replace. Qed.
Print Assumptions C53_parameters_of_instance.

Example C53_example :
  let t := IVector (IGenericStructInstance 1 2 [ITypeParameter 1; IRef (ITypeParameter 0)] 0) in
  (forall i, occurs i t -> (i < List.length [IU8; IU64])%nat) /\ occurs 1 t /\
  replace_type_parameters t [IU8; IU64] = IVector (IGenericStructInstance 1 2 [IU64; IRef IU8] 0).
Proof.
  split; [|split; [|reflexivity]].
  - intros i O. inversion O as [| | |? V| |]; subst. inversion V as [| | | |? ? ? ? ? I K|]; subst. destruct I as [<-|[<-|[]]].
    + inversion K; subst. cbn. lia.
    + inversion K as [|? R| | | |]; subst. inversion R; subst. cbn. lia.
  - repeat (econstructor; try (cbn; tauto)).
Qed.

(** C57.  Decoding the ULEB128 encoding of any 64-bit number gives the number and leaves what follows; a
    truncated encoding is rejected; every number has an encoding. *)
Theorem C57_uleb128 : forall n, 0 <= n < 2 ^ 64 -> exists bs, uleb128 n bs /\
  (forall rest, decode_uleb128 0 0 (bs ++ rest) = Some (n, rest)) /\
  (forall k, (k < List.length bs)%nat -> decode_uleb128 0 0 (firstn k bs) = None).
Proof.
  intros n Hn. destruct (uleb_total n (proj1 Hn)) as (bs&U). exists bs. split; [exact U|].
  split; [intros; apply decode_uleb_ok; assumption|intros; eapply decode_uleb_short; eassumption].
Qed.
Print Assumptions C57_uleb128.

Example C57_example : uleb128 624485 [229; 142; 38] /\ decode_uleb128 0 0 [229; 142; 38; 7] = Some (624485, [7]).
Proof. split; [|reflexivity]. apply (uleb_more 624485); [lia|]. apply (uleb_more 4878); [lia|]. apply (uleb_last 38). lia. Qed.

(** C58.  Whatever errors are requested in whatever order: no request fails; repeated requests give the same address; the messages
    lie behind the reserved area and below the start of the heap, without overlap; when the contract starts, the
    address of each requested error holds the length and the ABI encoding of Error(text), and the machine is in a
    consistent, not aborted state. *)
Theorem C58_error_table : forall es, exists os d, get_errors error_data_new es = Some (os, d) /\ Forall2 (assigned d) es os /\
  (forall e o, assigned d e o -> 468 <= o /\ o + 4 + Z.of_nat (List.length (error_string (error_bytes e))) <= next_offset d) /\
  (forall e o e' o', assigned d e o -> assigned d e' o' -> e <> e' ->
     o + 4 + Z.of_nat (List.length (error_string (error_bytes e))) <= o' \/
     o' + 4 + Z.of_nat (List.length (error_string (error_bytes e'))) <= o) /\
  (forall e o limit h, assigned d e o ->
     let w := initial_world d limit h in let msg := error_string (error_bytes e) in
     load 4 (mem w) o = Z.of_nat (List.length msg) /\ bytes (List.length msg) (mem w) (o + 4) = msg) /\
  (forall limit h, 1 <= limit <= 65535 -> wok (initial_world d limit h) /\ abort_flag (initial_world d limit h) = 0).
Proof. exact error_table_ok. Qed.
Print Assumptions C58_error_table.

Example C58_example : exists d, get_errors error_data_new [Overflow; OutOfBounds; Overflow] = Some ([468; 572; 468], d) /\
  next_offset d = 676.
Proof. eexists. split; reflexivity. Qed.
