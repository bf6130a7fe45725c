(** * Public functions whose parameters and results are passed by value or by reference. *)

From Verif Require Import Tac RtAlloc RtErr RtInt RtInt2 RtEq RtMul RtDiv RtShift SpecInt RtSwap RtAscii RtCopy Ops SpecAbi LemAbi SpecVal LemVal SpecSol RtAbi RtPack RtPack2 RtUnpack RtUnpack2 LemSol RtStor RtDyn RtRouter SpecRouter LemRouter RtCall RtPublic SpecPublic LemPublic RtArgs LemArgs LemRevert SpecAbiRef RtAbiRef.
Ltac Zify.zify_post_hook ::= idtac.

(** Encoding results, decoding arguments. *)
Definition encode_params (ep : errtab) (ps : list param) : func := build_pack_params ep (propagate true) (propagate true) ps.
Definition decode_params (ep : errtab) (ps : list param) : func := build_unpack_params ep (propagate true) ps.
(** abi_types/public_function.rs 150-203 [wrap_public_function], as [wrap] (RtPublic.v), with references. *)
Definition wrap_params (ep : errtab) (ps : list param) (f : func) (rs : list param) : func := Func 1 1 2
 ([ LocalGet 0; Call (decode_params ep ps) ] ++ leave ++ [ Call f ] ++ leave ++
  unpack_return 1 (map word_ty rs) ++
  match rs with [] => [ Const 0; Const 0 ] | _ => [ Call (encode_params ep rs) ] end).

Lemma wf_params : forall ps, fold_right and True (map (fun p : param => wf_aty (snd p)) ps) -> fold_right and True (map wf_aty (map snd ps)).
Proof. intros ps H. rewrite map_map. exact H. Qed.

Lemma encode_params_spec : forall ep ps vs xs w, running ep w -> fold_right and True (map (fun p => wf_aty (snd p)) ps) -> given_back_all w ps vs xs ->
  let e := enc_args (map snd ps) vs in lenz e < 2147483648 ->
  (exists w', returns (encode_params ep ps) xs w [lenz e; gnext w] w' /\ extends w w' /\ gnext w' = gnext w + lenz e /\ bytes_at (mem w') (gnext w) e) \/
  (traps (encode_params ep ps) xs w /\ oom w (lenz e)).
Proof.
  intros ep ts vs xs w (Hw&He&Fl) Wf Rp e L.
  pose proof (build_pack_params_spec ep (propagate true) (propagate true) ts w vs xs (skips_propagate _) (skips_propagate _) Hw Fl Wf Rp L) as H.
  apply wpf_cases in H. destruct H as [(rs&w'&R&->&E&G&B)|[T O]]; [left|right; split; assumption].
  exists w'. split; [exact R|]. split; [exact E|]. split; [exact G|exact B].
Qed.

Lemma decode_params_spec : forall ep ts vs w a hi, running ep w -> fold_right and True (map (fun p => wf_aty (snd p)) ts) ->
  0 <= a -> hi <= gnext w -> hi <= 2147483648 -> decodes_args (mem w) hi (map snd ts) vs a ->
  (exists xs w', returns (decode_params ep ts) [a] w (rev xs) w' /\ given_all (mem w') ts vs xs (between (gnext w) (gnext w')) /\
     wok w' /\ maxpages w' = maxpages w /\ gnext w' = gnext w + need_params ts vs /\ host w' = host w /\ (forall x, 0 <= x < gnext w -> rd (mem w') x = rd (mem w) x)) \/
  (traps (decode_params ep ts) [a] w /\ (oom w (need_params ts vs) \/ existsb has_string (map snd ts) = true /\ crosses w (need_params ts vs))).
Proof.
  intros ep ts vs w a hi (Hw&He&Fl) Wf Ha H1 H2 D.
  pose proof (build_unpack_params_spec ep (propagate true) ts w vs a hi (skips_propagate _) He Hw Fl Wf Ha H1 H2 D) as H.
  apply wpf_cases in H. destruct H as [(rs&w'&R&xs&g&->&E&G&B)|[T O]]; [left|right; split; [exact T|exact O]].
  exists xs, w'. destruct E as (E1&E0&_&_&_&E2&E3). repeat (split; [assumption|]). exact E3.
Qed.

Section wrap_params.
Variables (ep : errtab) (ts : list param) (f : func) (rs : list param) (a : Z) (w : world) (xs : list Z) (w1 : world).
Hypothesis (Hd : returns (decode_params ep ts) [a] w (rev xs) w1) (Lx : List.length xs = List.length ts).
Hypothesis (Hp1 : 1 <= pages w1) (Hf1 : abort_flag w1 = 0) (Hm : params_fn ts rs f).

Lemma wrapp_start : forall Q T, wpf f xs w1 (fun res => match res with
    | FRet vs w2 => wp (leave ++ unpack_return 1 (map word_ty rs) ++ match rs with [] => [ Const 0; Const 0 ] | _ => [ Call (encode_params ep rs) ] end) (fret 2 Q T) vs [a; 0] w2
    | FTrap => T | _ => False end) -> wpf (wrap_params ep ts f rs) [a] w (resq Q T).
Proof.
  intros Q T H. apply wpf_intro; [reflexivity|]. unfold wrap_params. wc. ws1.
  eapply wp_call; [reflexivity|cbn [List.length]; lia|]. cbn [rev firstn app skipn].
  eapply returns_wpf; [exact Hd|]. rewrite <- ?app_assoc. apply leave_stays; [exact Hp1|exact Hf1|].
  destruct Hm as (nl&b&Ef). cbn [app]. eapply wp_call; [exact Ef|rewrite app_nil_r, rev_length; lia|].
  rewrite app_nil_r, <- Lx, <- (rev_length xs), firstn_all, rev_involutive, skipn_all.
  eapply wpf_conseq; [exact H|]. intros [vs w2| | |]; cbn; auto. rewrite app_nil_r. auto.
Qed.

Lemma wrapp_traps : traps f xs w1 -> traps (wrap_params ep ts f rs) [a] w.
Proof. intros T. apply wpf_traps. apply wrapp_start. exists FTrap. split; [exact T|exact Logic.I]. Qed.

Lemma wrapp_fails : forall vs w2, returns f xs w1 vs w2 -> 1 <= pages w2 -> abort_flag w2 <> 0 -> returns (wrap_params ep ts f rs) [a] w [0; 0] w2.
Proof.
  intros vs w2 R P F. apply wpf_exact. apply wrapp_start. eapply returns_wpf; [exact R|].
  apply leave_leaves; [exact P|exact F|]. reflexivity.
Qed.

Lemma wrapp_returns : forall out us w2, returns f xs w1 out w2 -> running ep w2 -> returned_params w2 rs us out ->
  fold_right and True (map (fun p => wf_aty (snd p)) rs) -> Z.of_nat (List.length rs) < 65536 -> let e := enc_args (map snd rs) us in lenz e < 2147483648 ->
  (exists p w3, returns (wrap_params ep ts f rs) [a] w [lenz e; p] w3 /\ extends w2 w3 /\ in_memory w3 p (lenz e) /\ bytes_at (mem w3) p e) \/
  traps (wrap_params ep ts f rs) [a] w /\ oom w2 (lenz e).
Proof.
  intros out us w2 R Hr Ho Wf Lr e Le. pose proof Hr as (Hw2&He&Fl). pose proof Hw2 as (P1&P2&P3&P4&P5&P6).
  assert (L0 : 0 <= lenz e) by (unfold lenz; lia).
  pose proof wrapp_start as St.
  destruct rs as [|r0 rs0].
  - destruct Ho as [-> ->]. left. exists 0, w2. split; [|split; [apply extends_refl; exact Hw2|split; [unfold in_memory; change (lenz e) with 0; lia|reflexivity]]].
    apply wpf_exact. apply St. eapply returns_wpf; [exact R|]. apply leave_stays; [lia|exact Fl|]. cbn [map unpack_return app]. ws1. ws1. apply wp_nil. reflexivity.
  - destruct Ho as (p&zs&->&Lv&Wa&Rp). pose proof (total_nonneg (map word_ty (r0 :: rs0))). unfold live in Lv.
    pose proof (given_back_all_length _ _ _ _ Rp) as Lz.
    destruct (encode_params_spec ep (r0 :: rs0) us zs w2 Hr Wf Rp Le) as [(w3&R3&Ex&G3&B3)|[T O]]; [left|right].
    + fold e in R3, G3, B3. exists (gnext w2), w3. pose proof Ex as (E1&_). pose proof E1 as (Q1&Q2&Q3&Q4&Q5&Q6).
      split; [|split; [exact Ex|split; [unfold in_memory; lia|exact B3]]].
      apply wpf_exact. apply St. eapply returns_wpf; [exact R|]. apply leave_stays; [lia|exact Fl|]. unfold unpack_return. cbn [app map]. ws1. change (word_ty r0 :: map word_ty rs0) with (map word_ty (r0 :: rs0)).
      eapply (wp_load_returns (map word_ty (r0 :: rs0)) zs 1 _ _ _ _ _ p 0); [reflexivity|exact Hw2|lia|lia|lia|replace (p + 0) with p by lia; exact Wa|].
      eapply wp_call; [reflexivity|rewrite app_nil_r, rev_length; lia|].
      rewrite app_nil_r, <- Lz, <- (rev_length zs), firstn_all, rev_involutive, skipn_all.
      eapply returns_wpf; [exact R3|]. cbn [app]. apply wp_nil. reflexivity.
    + split; [|exact O]. apply wpf_traps. apply St. eapply returns_wpf; [exact R|]. apply leave_stays; [lia|exact Fl|]. unfold unpack_return. cbn [app map]. ws1. change (word_ty r0 :: map word_ty rs0) with (map word_ty (r0 :: rs0)).
      eapply (wp_load_returns (map word_ty (r0 :: rs0)) zs 1 _ _ _ _ _ p 0); [reflexivity|exact Hw2|lia|lia|lia|replace (p + 0) with p by lia; exact Wa|].
      eapply wp_call; [reflexivity|rewrite app_nil_r, rev_length; lia|].
      rewrite app_nil_r, <- Lz, <- (rev_length zs), firstn_all, rev_involutive, skipn_all.
      exists FTrap. split; [exact T|exact Logic.I].
Qed.
End wrap_params.

Lemma given_all_mono : forall ts m vs xs (F G : mset), sub F G -> given_all m ts vs xs F -> given_all m ts vs xs G.
Proof.
  intros [|t ts] m [|v vs] [|x xs] F G S H; cbn [given_all] in *; try contradiction; [exact H|].
  destruct H as (F1&F2&V&H&D&S1&S2). exists F1, F2. repeat (split; [assumption|]). split; eapply sub_trans; eassumption.
Qed.

(** A call of a public function: its code runs once, on words that represent the decoded arguments. *)
Lemma call_params : forall c ep w s ts f rs vs rest, contract_ok c -> errtab_ok ep -> fresh_call w -> selector_ok s ->
  fold_right and True (map (fun p => wf_aty (snd p)) ts) -> fold_right and True (map (fun p => wf_aty (snd p)) rs) -> Z.of_nat (List.length rs) < 65536 -> params_fn ts rs f ->
  selected c s (wrap_params ep ts f rs) 4 -> all_fields (map has_aty (map snd ts)) vs ->
  h_args (host w) = s ++ enc_args (map snd ts) vs ++ rest -> let args := s ++ enc_args (map snd ts) vs ++ rest in gnext w + lenz args <= 2147483648 ->
  transaction c w FTrap /\ ctrap w (existsb has_string (map snd ts)) (lenz args + need_params ts vs) \/
  exists xs w1, running ep w1 /\ host w1 = host w /\ maxpages w1 = maxpages w /\ gnext w1 = gnext w + lenz args + need_params ts vs /\ given_all (mem w1) ts vs xs (heap w1) /\
    (forall x, 0 <= x < gnext w -> ~ within 396 8 x -> rd (mem w1) x = rd (mem w) x) /\
    (traps f xs w1 -> transaction c w FTrap) /\
    (forall out w2 data, returns f xs w1 out w2 -> carries_error w2 data ->
       exists w', transaction c w (FRet [1] w') /\ host w' = set_result (host w2) data) /\
    (forall out w2 us, saves_quietly c -> returns f xs w1 out w2 -> running ep w2 -> returned_params w2 rs us out -> lenz (enc_args (map snd rs) us) < 2147483648 ->
       transaction c w FTrap \/ exists w', transaction c w (FRet [0] w') /\ h_result (host w') = enc_args (map snd rs) us).
Proof.
  intros c ep w s ts f rs vs rest HC He HF Hs Wt Wr Lr Hm Sel Hv Ea args La. pose proof HF as (Hw&Fl&Hb&Hlen). pose proof Hw as (P1&P2&P3&P4&P5&P6).
  assert (A0 : 0 <= lenz args) by (unfold lenz; lia). assert (N0 : 0 <= need_params ts vs) by (apply need_params_nonneg).
  destruct (dispatch c w s (enc_args (map snd ts) vs ++ rest) HC HF Ea Hs) as [[T O]|(w0&B&D&_)].
  { left. split; [exact T|]. left. fold args in O. unfold oom in *. unfold lenz. lia. }
  pose proof (begins_running ep w w0 _ _ He Hw Fl B) as Hr0. pose proof B as (B1&B2&B3&B4&B5&B6&B7&B8&B9&B10). fold args in B6, B7.
  destruct Hs as [Ls _].
  assert (Bd : bytes_at (mem w0) (gnext w + 4) (enc_args (map snd ts) vs)).
  { assert (B7' : bytes_at (mem w0) (gnext w) args) by exact B7. unfold args in B7'. apply bytes_at_app in B7'. destruct B7' as [_ B7']. apply bytes_at_app in B7'. destruct B7' as [B7' _].
    unfold lenz in B7'. rewrite Ls in B7'. exact B7'. }
  assert (La' : 4 + lenz (enc_args (map snd ts) vs) <= lenz args) by (unfold args, lenz; rewrite !app_length, Ls; lia).
  change (Z.of_nat (List.length args)) with (lenz args) in B6.
  assert (Dc : decodes_args (mem w0) (gnext w0) (map snd ts) vs (gnext w + 4)).
  { apply enc_args_decodes; try assumption; try lia. apply wf_params; exact Wt. }
  destruct (decode_params_spec ep ts vs w0 (gnext w + 4) (gnext w0) Hr0 Wt) as [(xs&w1&R1&H1&Hw1&Mx1&G1&Hh1&O1)|[T O]]; [lia|lia|lia|exact Dc| |].
  2:{ left. split; [|eapply ctrap_later; [exact B4|exact B6|exact A0|exact O]].
      eapply D; [exact Sel| |constructor]. apply wpf_traps. apply wpf_intro; [reflexivity|]. unfold wrap_params. wc. ws1.
      eapply wp_call; [reflexivity|cbn [List.length]; lia|]. cbn [rev firstn app skipn]. exists FTrap. split; [exact T|exact Logic.I]. }
  right. exists xs, w1. pose proof Hr0 as (Hw0&_&Fl0). pose proof Hw0 as (_&_&Z3&_).
  assert (Fl1 : abort_flag w1 = 0).
  { rewrite <- Fl0. unfold abort_flag. apply load_ext. change (Z.of_nat 4) with 4. intros. apply O1. lia. }
  pose proof (given_all_length _ _ _ _ _ H1) as Lx. pose proof Hw1 as (Y1&Y2&Y3&Y4&Y5&Y6).
  assert (Hp1 : 1 <= pages w1) by lia.
  split; [split; [exact Hw1|split; [exact He|exact Fl1]]|]. split; [rewrite Hh1; exact B2|]. split; [rewrite Mx1; exact B4|]. split; [lia|].
  split; [eapply given_all_mono; [|exact H1]; intros x Hx; pose proof Hw0 as (_&_&Z3'&_); unfold heap, between in *; lia|].
  split; [intros x X1 X2; rewrite O1 by lia; apply B10; assumption|].
  pose proof (fun K => wrapp_traps ep ts f rs (gnext w + 4) w0 xs w1 R1 Lx Hp1 Fl1 Hm K) as W1.
  pose proof (fun o w2 K => wrapp_fails ep ts f rs (gnext w + 4) w0 xs w1 R1 Lx Hp1 Fl1 Hm o w2 K) as W2.
  pose proof (fun o us w2 K => wrapp_returns ep ts f rs (gnext w + 4) w0 xs w1 R1 Lx Hp1 Fl1 Hm o us w2 K) as W3.
  split; [|split].
  - intros T. eapply D; [exact Sel|apply W1; exact T|constructor].
  - intros out w2 data R (C1&C2&C3&C4&C5&C6).
    exists (with_result w2 (abort_flag w2 + 4) (load 4 (mem w2) (abort_flag w2))). split.
    + eapply D; [exact Sel|eapply W2; eassumption|]. unfold in_memory in *. assert (0 <= lenz data) by (unfold lenz; lia).
      constructor; [assumption|assumption|unfold in_memory; lia|assumption|unfold in_memory; lia].
    + rewrite C5. apply with_result_bytes. exact C6.
  - intros out w2 us Sq R Hr2 Ho Le. destruct (W3 out us w2 R Hr2 Ho Wr Lr Le) as [(p&w3&R3&Ex&I3&Be3)|[T _]].
    2:{ left. eapply D; [exact Sel|exact T|constructor]. }
    pose proof Ex as (Hw3&_&_&_&_&_&O3). pose proof Hw3 as (V1&_). destruct Hr2 as (Hw2&_&Fl2). pose proof Hw2 as (_&_&U3&_).
    assert (Fl3 : abort_flag w3 = 0).
    { rewrite <- Fl2. unfold abort_flag. apply load_ext. change (Z.of_nat 4) with 4. intros. apply O3. lia. }
    destruct (Sq (with_result w3 p (lenz (enc_args (map snd rs) us)))) as [T|(w4&R4&E4)]; [exact Hw3| |].
    + left. eapply D; [exact Sel|exact R3|]. apply ans_save_trap; [lia|exact Fl3|exact I3|exact T].
    + right. exists (flushed w4). split.
      * eapply D; [exact Sel|exact R3|]. eapply ans_ok; [lia|exact Fl3|exact I3|exact R4].
      * cbn. rewrite E4. rewrite with_result_bytes by exact Be3. reflexivity.
Qed.

(** ** [public fun identity(x: &T): &T { x }] *)

Lemma given_back_of : forall w p v x F, given (mem w) p v x F -> sub F (heap w) -> fst p = true ->
  field_of (mem w) (mty (snd p)) (vrep (mem w) (mty (snd p))) v x (heap w).
Proof.
  intros w [[|] t] v x F G S E; cbn [fst snd] in *; [|discriminate]. unfold given in G. cbn [fst snd] in G. unfold field_of in *.
  destruct (is_stack (mty t)); [destruct G as [A B]; split; [eapply sub_trans; eassumption|exact B]|eapply vrep_mono; eassumption].
Qed.

Lemma reference_range : forall w t v x, wf_aty t -> wok w -> field_of (mem w) (mty t) (vrep (mem w) (mty t)) v x (heap w) -> 0 <= x < 2 ^ 32.
Proof.
  intros w t v x Wf Hw V. pose proof Hw as (P1&P2&P3&P4&P5&P6). unfold field_of in V. destruct (is_stack (mty t)) eqn:St.
  - destruct V as [S _]. pose proof (esize_range (mty t)). destruct (sub_live x (Z.of_nat (esize (mty t))) (heap w) w S (sub_refl _) ltac:(lia)). lia.
  - pose proof (vrep_word t v x w Wf Hw V) as R. assert (Es : esize (mty t) = 4%nat) by (destruct (mty t); try discriminate; reflexivity). rewrite Es in R. exact R.
Qed.

Lemma identity_runs : forall t w v x F, wf_aty t -> wok w -> abort_flag w = 0 -> given (mem w) (by_ref t) v x F -> sub F (heap w) ->
  (exists w', returns (same_fn (mty t)) [x] w [gnext w + 4] w' /\ wok w' /\ abort_flag w' = 0 /\ returned_params w' [by_ref t] [v] [gnext w + 4]) \/
  traps (same_fn (mty t)) [x] w /\ oom w 8.
Proof.
  intros t w v x F Wf Hw Fl G S. pose proof (given_back_of w (by_ref t) v x F G S eq_refl) as V. cbn [by_ref snd] in V.
  pose proof (reference_range w t v x Wf Hw V) as Rx. pose proof (same_spec (mty t) w x Hw Rx) as H. apply wpf_cases in H.
  destruct H as [(rs&w'&R&->&Ex&L1&L2&Gn)|T]; [left|right; exact T]. exists w'. split; [exact R|]. pose proof Ex as (Hw'&_&_&_&_&_&O).
  pose proof Hw as (P1&P2&P3&P4&P5&P6). split; [exact Hw'|]. split; [rewrite (extends_flag w w' Hw Ex); exact Fl|].
  cbn [returned_params]. exists (gnext w + 4), [gnext w]. split; [reflexivity|]. change (total_size (map word_ty [by_ref t])) with 4.
  split; [unfold live; lia|]. split; [split; [exact L1|exact Logic.I]|]. split; [|exact Logic.I].
  unfold given_back. cbn [by_ref fst snd]. rewrite L2. split; [unfold heap; apply between_sub; lia|].
  assert (Ag : agree (mem w) (mem w') (heap w)) by (intros a Ha; unfold heap, between in Ha; apply O; lia).
  pose proof (field_of_ext (mty t) (vrep_ext (mty t)) _ _ _ _ _ Ag V) as V'.
  apply (given_back_of w' (by_ref t) v x (heap w)); [exact V'|unfold heap; apply between_sub; lia|reflexivity].
Qed.

Lemma identity_call : forall c ep w s t v rest, contract_ok c -> errtab_ok ep -> saves_quietly c -> fresh_call w -> selector_ok s -> wf_aty t ->
  selected c s (wrap_params ep [by_ref t] (same_fn (mty t)) [by_ref t]) 4 -> has_aty t v ->
  h_args (host w) = s ++ enc_args [t] [v] ++ rest -> gnext w + lenz (s ++ enc_args [t] [v] ++ rest) <= 2147483648 ->
  transaction c w FTrap \/ exists w', transaction c w (FRet [0] w') /\ h_result (host w') = enc_args [t] [v].
Proof.
  intros c ep w s t v rest HC He Sq HF Hs Wf Sel Hv Ea La.
  assert (Wl : fold_right and True (map (fun p : param => wf_aty (snd p)) [by_ref t])) by (split; [exact Wf|exact Logic.I]).
  assert (Hm : params_fn [by_ref t] [by_ref t] (same_fn (mty t))) by (eexists _, _; reflexivity).
  assert (Hvs : all_fields (map has_aty (map snd [by_ref t])) [v]) by (split; [exact Hv|exact Logic.I]).
  destruct (call_params c ep w s [by_ref t] (same_fn (mty t)) [by_ref t] [v] rest HC He HF Hs Wl Wl ltac:(cbn; lia) Hm Sel Hvs Ea La)
    as [[T _]|(xs&w1&(Hw1&_&Fl1)&_&_&_&G&_&Tr&_&Ok)]; [left; exact T|].
  destruct xs as [|x xs]; [contradiction G|]. destruct G as (F1&F2&G1&G2&_&S1&_). destruct xs; [|contradiction G2].
  destruct (identity_runs t w1 v x F1 Wf Hw1 Fl1 G1 S1) as [(w2&R&Hw2&Fl2&Rt)|[T _]]; [|left; apply Tr; exact T].
  apply (Ok _ w2 [v] Sq R); [split; [exact Hw2|split; [exact He|exact Fl2]]|exact Rt|].
  pose proof HF as ((_&_&P3&_)&_). cbn [map by_ref snd]. clear - La P3. unfold lenz in *. rewrite !app_length in La. lia.
Qed.
