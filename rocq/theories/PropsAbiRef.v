(** * Parameters and results passed by reference: C98. *)

From Verif Require Import SpecInt SpecVal Spec Tac RtAlloc RtErr RtCopy SpecAbi LemVal SpecSol RtAbi RtPack RtUnpack RtUnpack2 LemSol RtRouter SpecRouter LemRouter RtCall RtPublic SpecPublic LemPublic ExPublic RtArgs SpecAbiRef RtAbiRef LemAbiRef.

(** C98.  Decoding a message: for a parameter passed by value the function is given the word of the value, for one passed by
    reference the address of the value, all in disjoint parts of fresh memory; nothing in use changes.  Decoding fails only for
    lack of memory or, if a string is among the parameters, near the end of a page (C31). *)
Theorem C98_decode : forall ep ps vs w a hi, running ep w -> fold_right and True (map (fun p => wf_aty (snd p)) ps) ->
  0 <= a -> hi <= gnext w -> hi <= 2147483648 -> decodes_args (mem w) hi (map snd ps) vs a ->
  (exists xs w', returns (decode_params ep ps) [a] w (rev xs) w' /\ given_all (mem w') ps vs xs (SpecVal.between (gnext w) (gnext w')) /\
     wok w' /\ maxpages w' = maxpages w /\ gnext w' = gnext w + need_params ps vs /\ host w' = host w /\ (forall x, 0 <= x < gnext w -> rd (mem w') x = rd (mem w) x)) \/
  (traps (decode_params ep ps) [a] w /\ (oom w (need_params ps vs) \/ existsb has_string (map snd ps) = true /\ crosses w (need_params ps vs))).
Proof. exact decode_params_spec. Qed.
Print Assumptions C98_decode.

(** C98.  Encoding results: a result passed by reference is encoded as the value it leads to. *)
Theorem C98_encode : forall ep ps vs xs w, running ep w -> fold_right and True (map (fun p => wf_aty (snd p)) ps) -> given_back_all w ps vs xs ->
  let e := enc_args (map snd ps) vs in lenz e < 2147483648 ->
  (exists w', returns (encode_params ep ps) xs w [lenz e; gnext w] w' /\ extends w w' /\ gnext w' = gnext w + lenz e /\ bytes_at (mem w') (gnext w) e) \/
  (traps (encode_params ep ps) xs w /\ oom w (lenz e)).
Proof. exact encode_params_spec. Qed.
Print Assumptions C98_encode.

(** C98.  A whole call of a public function whose parameters and results are passed by value or by reference (C75 for
    references): calldata and return data are the encodings of the values. *)
Theorem C98_call : forall c ep w s ts f rs vs rest, contract_ok c -> errtab_ok ep -> fresh_call w -> selector_ok s ->
  fold_right and True (map (fun p => wf_aty (snd p)) ts) -> fold_right and True (map (fun p => wf_aty (snd p)) rs) -> Z.of_nat (List.length rs) < 65536 -> params_fn ts rs f ->
  selected c s (wrap_params ep ts f rs) 4 -> all_fields (map has_aty (map snd ts)) vs ->
  h_args (host w) = s ++ enc_args (map snd ts) vs ++ rest -> let args := s ++ enc_args (map snd ts) vs ++ rest in gnext w + lenz args <= 2147483648 ->
  transaction c w FTrap /\ ctrap w (existsb has_string (map snd ts)) (lenz args + need_params ts vs) \/
  exists xs w1, running ep w1 /\ host w1 = host w /\ maxpages w1 = maxpages w /\ gnext w1 = gnext w + lenz args + need_params ts vs /\
    given_all (mem w1) ts vs xs (heap w1) /\
    (forall x, 0 <= x < gnext w -> ~ within 396 8 x -> rd (mem w1) x = rd (mem w) x) /\
    (traps f xs w1 -> transaction c w FTrap) /\
    (forall out w2 data, returns f xs w1 out w2 -> carries_error w2 data ->
       exists w', transaction c w (FRet [1] w') /\ host w' = set_result (host w2) data) /\
    (forall out w2 us, saves_quietly c -> returns f xs w1 out w2 -> running ep w2 -> returned_params w2 rs us out -> lenz (enc_args (map snd rs) us) < 2147483648 ->
       transaction c w FTrap \/ exists w', transaction c w (FRet [0] w') /\ h_result (host w') = enc_args (map snd rs) us).
Proof. exact call_params. Qed.
Print Assumptions C98_call.

(** C98.  [public fun identity(x: &T): &T { x }] returns, for every type [T] and every value, the encoding it was sent. *)
Theorem C98_identity : forall c ep w s t v rest, contract_ok c -> errtab_ok ep -> saves_quietly c -> fresh_call w -> selector_ok s -> wf_aty t ->
  selected c s (wrap_params ep [by_ref t] (same_fn (mty t)) [by_ref t]) 4 -> has_aty t v ->
  h_args (host w) = s ++ enc_args [t] [v] ++ rest -> gnext w + lenz (s ++ enc_args [t] [v] ++ rest) <= 2147483648 ->
  transaction c w FTrap \/ exists w', transaction c w (FRet [0] w') /\ h_result (host w') = enc_args [t] [v].
Proof. exact identity_call. Qed.
Print Assumptions C98_identity.

(** A function with the parameters [&u16] and [&(u64, vector<u32>)] ... *)
Definition t_pair : aty := AStruct [AInt TU64; AVec (AInt TU32)].
Definition v_pair : val := VStruct 0 [VInt 70000; VVec [VInt 5; VInt 6]].
Definition c_idref : contract :=
  mkContract [([1; 2; 3; 4], wrap_params ep0 [by_ref (AInt TU16)] (same_fn TU16) [by_ref (AInt TU16)]);
              ([5; 6; 7; 8], wrap_params ep0 [by_ref t_pair] (same_fn (mty t_pair)) [by_ref t_pair])] None None (Func 0 0 0 []).
Definition w_idref (s : list Z) (t : aty) (v : val) : world :=
  mkW zmem 1 100 1000 (65536 - 1000) 0
    (mkHost (fun _ => 0) (fun _ => 5) (fun _ => 5) (s ++ enc_args [t] [v] ++ [9]) 161 162 0 1 1 0 0 [] [] ext0).
(** ... here the identity on each: the calls return what was sent, and the hypotheses of the theorems hold. *)
Example C98_example :
  (exists w', transaction c_idref (w_idref [1; 2; 3; 4] (AInt TU16) (VInt 770)) (FRet [0] w') /\ h_result (host w') = word 770) /\
  (exists w', transaction c_idref (w_idref [5; 6; 7; 8] t_pair v_pair) (FRet [0] w') /\ h_result (host w') = enc_args [t_pair] [v_pair]) /\
  contract_ok c_idref /\ saves_quietly c_idref /\ fresh_call (w_idref [5; 6; 7; 8] t_pair v_pair) /\ wf_aty t_pair /\ has_aty t_pair v_pair /\
  selected c_idref [5; 6; 7; 8] (wrap_params ep0 [by_ref t_pair] (same_fn (mty t_pair)) [by_ref t_pair]) 4 /\
  params_fn [by_ref t_pair] [by_ref t_pair] (same_fn (mty t_pair)) /\
  (exists w', returns (decode_params ep0 [by_ref (AInt TU16); by_value (AInt TU8); by_ref t_pair]) [500]
       (wm (put 500 (enc_args [AInt TU16; AInt TU8; t_pair] [VInt 770; VInt 3; v_pair]) zmem) 1000) [1002; 3; 1000] w' /\
     (load 2 (mem w') 1000 =? 770) && (load 8 (mem w') (load 4 (mem w') 1002) =? 70000) = true).
Proof.
  split; [|split; [|split; [|split; [|split; [|split; [|split; [|split; [|split]]]]]]]].
  - destruct (runs_to_vals 5000 (router c_idref) [37] (w_idref [1; 2; 3; 4] (AInt TU16) (VInt 770)) [0]
      (fun w' => zs_eqb (h_result (host w')) (word 770))) as (w'&R&H); [vm_compute; reflexivity|].
    apply zs_eqb_eq in H. exists w'. split; [exact R|exact H].
  - destruct (runs_to_vals 5000 (router c_idref) [197] (w_idref [5; 6; 7; 8] t_pair v_pair) [0]
      (fun w' => zs_eqb (h_result (host w')) (enc_args [t_pair] [v_pair]))) as (w'&R&H); [vm_compute; reflexivity|].
    apply zs_eqb_eq in H. exists w'. split; [exact R|exact H].
  - unfold contract_ok, c_idref, selector_ok. cbn [c_funs c_receive c_fallback c_save].
    split; [|split; [|split]]; [|discriminate|discriminate|eauto].
    intros s f [E|[E|[]]]; injection E as <- <-; (split; [split; [reflexivity|repeat constructor; lia]|unfold is_wrapper, wrap_params; eauto]).
  - intros w Hw. right. exists w. split; [|reflexivity]. exists 3%nat. split; [reflexivity|discriminate].
  - split; [|split; [reflexivity|split; [|reflexivity]]].
    + unfold wok, w_idref; cbn [pages maxpages gnext gavail mem]. repeat (split; [lia|]). reflexivity.
    + vm_compute. repeat constructor; discriminate.
  - cbn. lia.
  - exists [VInt 70000; VVec [VInt 5; VInt 6]]. split; [reflexivity|]. cbn [map all_fields has_aty].
    split; [eexists; split; [reflexivity|split; [lia|reflexivity]]|]. split; [|exact Logic.I].
    exists [VInt 5; VInt 6]. split; [reflexivity|]. repeat constructor; eexists; (split; [reflexivity|split; [lia|reflexivity]]).
  - eapply (sel_public _ _ [_]); [reflexivity|]. intros s f [E|[]]. injection E as <- _. discriminate.
  - eexists _, _. reflexivity.
  - apply (runs_to_vals 5000 _ _ _ _ (fun w' => (load 2 (mem w') 1000 =? 770) && (load 8 (mem w') (load 4 (mem w') 1002) =? 70000))). vm_compute. reflexivity.
Qed.
