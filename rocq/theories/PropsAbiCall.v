(** * Calls made with the published ABI (C101). *)

From Verif Require Import SpecInt SpecVal Spec Tac RtAlloc RtErr RtCopy SpecAbi LemVal SpecSol RtAbi RtPack RtUnpack RtUnpack2 LemSol RtRouter SpecRouter LemRouter RtCall RtPublic SpecPublic LemPublic ExPublic RtArgs SpecAbiRef RtAbiRef LemAbiRef PropsAbiRef Comp AbiGen SpecAbiGen LemAbiGen AbiOut SpecAbiOut LemAbiOut LemAbiCall.
From Coq Require Import String Ascii.
Ltac Zify.zify_post_hook ::= idtac.

(** C101 for whole calls: the generator publishes the inputs [js] and the outputs [os] of a function with the Move parameters [Ts] and results [Rs]; the contract has it under the
    selector [s].  A caller who sends the values [vs], encoded by the published types [bs], makes the Move function run on these values, and finds in
    the return data the encoding, by the published types [cs], of the values that it returned.  Missing: objects and ids among parameters and results. *)
Theorem C101_call_partial : forall n roots structs P fname Ts Rs name js os c ep w s ps f qs vs rest,
  process_structs roots [] structs P -> Forall (fun t => to_process t = true) roots -> named_apart (roots ++ Ts ++ Rs) ->
  json_function n structs fname Ts = Some (Some (name, js)) -> json_outputs n structs Rs = Some os ->
  Forall2 coded Ts ps -> Forall2 coded Rs qs -> fold_right and True (map (fun p => wf_aty (snd p)) ps) -> fold_right and True (map (fun p => wf_aty (snd p)) qs) ->
  contract_ok c -> errtab_ok ep -> fresh_call w -> selector_ok s -> Z.of_nat (List.length qs) < 65536 -> params_fn ps qs f -> selected c s (wrap_params ep ps f qs) 4 ->
  all_fields (map has_aty (map snd ps)) vs ->
  exists bs cs, Forall2 reads js bs /\ Forall2 reads os cs /\
    let args := s ++ enc_args bs (sees_all Ts vs) ++ rest in
    (h_args (host w) = args -> gnext w + lenz args <= 2147483648 ->
     transaction c w FTrap /\ ctrap w (existsb has_string (map snd ps)) (lenz args + need_params ps vs) \/
     exists xs w1, running ep w1 /\ host w1 = host w /\ given_all (mem w1) ps vs xs (heap w1) /\
       (forall out w2 us, saves_quietly c -> returns f xs w1 out w2 -> running ep w2 -> returned_params w2 qs us out -> all_fields (map has_aty (map snd qs)) us ->
          lenz (enc_args (map snd qs) us) < 2147483648 ->
          transaction c w FTrap \/ exists w', transaction c w (FRet [0] w') /\ h_result (host w') = enc_args cs (sees_all Rs us))).
Proof. exact published_call. Qed.
Print Assumptions C101_call_partial.

(** The identity on references to (u64, vector<u32>), of PropsAbiRef.v. *)
Definition m_pair : AbiGen.mty := MStruct 1 (text "Pair") false None [MPrim PU64; MVec (MPrim PU32)].
Example C101_call_example : exists js, process_structs [m_pair] [] [entry_of m_pair] [m_pair] /\ named_apart ([m_pair] ++ [MRef m_pair] ++ [MRef m_pair]) /\
  json_function 4 [entry_of m_pair] (text "same_pair") [MRef m_pair] = Some (Some (text "samePair", js)) /\ json_outputs 4 [entry_of m_pair] [MRef m_pair] = Some js /\
  published (text "samePair") js = text "samePair((uint64,uint32[]))" /\ Forall2 coded [MRef m_pair] [by_ref t_pair] /\ sees_all [MRef m_pair] [v_pair] = [v_pair] /\
  (exists w', transaction c_idref (w_idref [5; 6; 7; 8] t_pair v_pair) (FRet [0] w') /\ h_result (host w') = enc_args [t_pair] (sees_all [MRef m_pair] [v_pair])) /\
  contract_ok c_idref /\ saves_quietly c_idref /\ fresh_call (w_idref [5; 6; 7; 8] t_pair v_pair) /\ wf_aty t_pair /\ has_aty t_pair v_pair /\
  selected c_idref [5; 6; 7; 8] (wrap_params ep0 [by_ref t_pair] (same_fn (SpecSol.mty t_pair)) [by_ref t_pair]) 4 /\
  params_fn [by_ref t_pair] [by_ref t_pair] (same_fn (SpecSol.mty t_pair)).
Proof.
  destruct C98_example as (_&E1&E2&E3&E4&E5&E6&E7&E8&_). eexists. split.
  { apply (ps_new m_pair [] [] [] [] [m_pair] [] [m_pair]); [intros []| |constructor|constructor]. intros c. split; [intros []|]. intros ([<-|[<-|[]]]&E); discriminate E. }
  split.
  { apply named_apart_ok. intros t t' I I'. cbn -[same_text gname gof] in I, I'.
    repeat (destruct I as [<-|I]; [repeat (destruct I' as [<-|I']; [vm_compute; first [reflexivity|discriminate]|]); destruct I'|]). destruct I. }
  split; [reflexivity|]. split; [reflexivity|]. split; [reflexivity|].
  split. { constructor; [|constructor]. split; [apply il_struct; repeat constructor|]. split; [|reflexivity]. apply pk_struct. constructor; [exact (pk_prim PU64)|]. constructor; [apply pk_vec; exact (pk_prim PU32)|constructor]. }
  split; [reflexivity|]. auto 10.
Qed.
