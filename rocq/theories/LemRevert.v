(** * Results and custom errors of Move functions, seen by the entry point. *)

From Verif Require Import Tac RtAlloc RtErr RtInt RtInt2 RtEq RtMul RtDiv RtShift SpecInt RtSwap RtAscii RtCopy Ops SpecAbi LemAbi SpecVal LemVal SpecSol RtAbi RtPack RtPack2 RtUnpack RtUnpack2 LemSol RtStor RtDyn RtRouter SpecRouter LemRouter RtCall RtPublic SpecPublic LemPublic RtRevert.
Ltac Zify.zify_post_hook ::= idtac.

Lemma vrep_word : forall t v x w, wf_aty t -> wok w -> vrep (mem w) (mty t) v x (heap w) -> 0 <= x < 256 ^ Z.of_nat (esize (mty t)).
Proof.
  intros t v x w Wf Hw V. pose proof Hw as (P1&P2&P3&P4&P5&P6).
  assert (Hh : forall n, 0 < n -> esize (mty t) = 4%nat -> sub (between x (x + n)) (heap w) -> 0 <= x < 256 ^ Z.of_nat (esize (mty t))).
  { intros n Hn -> S. change (256 ^ Z.of_nat 4) with 4294967296. specialize (S x ltac:(unfold between; lia)). unfold heap, between in S. lia. }
  destruct t as [t|n| |t|fs]; cbn [mty] in *.
  - destruct (is_stack t) eqn:St.
    + apply (int_key t v x St). destruct t; try discriminate; exact V.
    + destruct t; try discriminate; cbn [wf_aty scalar] in Wf; try contradiction; destruct V as [_ S]; (eapply Hh; [|reflexivity|exact S]; lia).
  - destruct V as (tag&vs&G&_&_&S&_). eapply Hh; [|reflexivity|exact S]. pose proof (enum_size_pos (repeat [] n)). lia.
  - destruct V as (o&vs&G&_&_&S&_). eapply Hh; [|reflexivity|exact S]. cbn [List.length]. lia.
  - destruct V as (vs&cap&G&_&_&_&Hc&_&S&_). eapply (Hh (8 + cap * Z.of_nat (esize (mty t)))); [|reflexivity|rewrite Z.add_assoc; exact S]. nia.
  - destruct V as (o&vs&G&_&_&S&_). eapply Hh; [|reflexivity|exact S]. rewrite map_length. destruct Wf as [Wf _]. lia.
Qed.

Lemma represents_words : forall ts vs xs w, fold_right and True (map wf_aty ts) -> wok w -> represents w ts vs xs -> words_of (map mty ts) xs.
Proof.
  induction ts as [|t ts IH]; intros [|v vs] [|x xs] w Wf Hw R; cbn [represents map fold_right] in *; try contradiction; [constructor|].
  destruct Wf as [W1 W2], R as [R1 R2]. constructor; [eapply vrep_word; eassumption|eapply IH; eassumption].
Qed.

Lemma represents_extends : forall ts vs xs w w', extends w w' -> represents w ts vs xs -> represents w' ts vs xs.
Proof.
  induction ts as [|t ts IH]; intros [|v vs] [|x xs] w w' E R; cbn [represents] in *; try contradiction; [exact R|].
  destruct R as [R1 R2]. split; [|eapply IH; eassumption]. pose proof E as (_&_&_&G&_).
  eapply vrep_mono; [|eapply vrep_extends; [exact E|intros y Hy; exact Hy|exact R1]]. intros y Hy. unfold heap, between in *. lia.
Qed.

Lemma running_extends : forall ep w w', running ep w -> extends w w' -> running ep w'.
Proof.
  intros ep w w' ((_&_&P3&_)&He&Fl) (E1&_&_&_&_&_&O). split; [exact E1|]. split; [exact He|]. rewrite <- Fl.
  unfold abort_flag. apply load_ext. change (Z.of_nat 4) with 4. intros. apply O. lia.
Qed.

(** A function that arrives at a Ret with words for the values [us]. *)
Lemma ret_returned : forall ep np nl r b body rs args w k lbs s l' w1 ys us, List.length args = np ->
  at_point (prepare_return r b (map mty rs) ++ k) (rev ys ++ s) l' w1 lbs body [] (args ++ repeat 0 nl) w -> ~ In "result"%string lbs ->
  (r < b)%nat -> (b + List.length rs <= np + nl)%nat -> Z.of_nat (List.length rs) < 65536 ->
  running ep w1 -> fold_right and True (map wf_aty rs) -> represents w1 rs us ys ->
  (exists out w2, returns (move_function np nl r body (map mty rs)) args w out w2 /\ extends w1 w2 /\ returned w2 rs us out) \/
  (traps (move_function np nl r body (map mty rs)) args w /\ oom w1 (total_size (map mty rs))).
Proof.
  intros ep np nl r b body rs args w k lbs s l' w1 ys us La A Nl Hr Hb Lr (Hw&He&Fl) Wf R.
  assert (Tb : total_size (map mty rs) <= 8 * Z.of_nat (List.length rs)).
  { clear. induction rs as [|t rs IH]; [cbn; lia|]. cbn [map]. rewrite total_cons. cbn [List.length]. assert (Z.of_nat (esize (mty t)) <= 8) by (destruct (mty t); cbn; lia). lia. }
  pose proof (return_spec np nl r b body (map mty rs) args w k lbs s l' w1 ys La A Nl Hr) as H.
  rewrite map_length in H. specialize (H Hb Hw (represents_words _ _ _ _ Wf Hw R) ltac:(lia)).
  apply wpf_cases in H. destruct H as [(out&w2&Rt&H)|[T O]]; [left|right; split; assumption].
  exists out, w2. split; [exact Rt|]. destruct rs as [|r0 rs0]; cbn [map] in H.
  - destruct H as [-> ->]. split; [apply extends_refl; exact Hw|]. destruct us as [|u us]; [|contradiction R]. split; reflexivity.
  - destruct H as (->&E&G&V). split; [exact E|]. exists (gnext w1), ys. split; [reflexivity|]. split; [|split; [exact V|eapply represents_extends; eassumption]].
    pose proof Hw as (_&_&P3&_). pose proof (total_nonneg (mty r0 :: map mty rs0)). unfold live. cbn [map]. lia.
Qed.

Lemma raised_carries : forall w w' data, wok w -> raised w w' data -> carries_error w' data.
Proof.
  intros w w' data (_&_&P3&_) ((Q1&Q2&Q3&Q4&Q5&Q6)&_&_&Ef&Lv&Ld&B&_). unfold carries_error, in_memory, live in *. rewrite Ef.
  change (2 ^ 32) with 4294967296. assert (0 <= lenz data) by (unfold lenz; lia). repeat split; try assumption; lia.
Qed.

Lemma traps_params : forall f args w, traps f args w -> exists nl nr b, f = Func (List.length args) nl nr b.
Proof.
  intros [np nl nr b] args w (n&E&_). cbn [runf] in E. destruct (Nat.eqb_spec (List.length args) np) as [->|N]; [eauto|discriminate E].
Qed.

Lemma chain_traps : forall f args w g args' w', calls f args w g args' w' -> traps g args' w' -> traps f args w.
Proof.
  intros f args w g args' w' C. induction C as [f args w|np nl nr code args w lbs g ts rt q k s' l' args' w' h args2 w2 La A C IH]; intros T; [exact T|].
  specialize (IH T). apply wpf_traps. apply wpf_intro; [exact La|].
  apply wp_conseq with (Q := fun o => o = OTrap). 2:{ intros o ->. exact Logic.I. }
  eapply at_point_wp; [exact A|intros o ->; exact Logic.I|]. unfold call_code. cbn [app].
  destruct (traps_params _ _ _ IH) as (nl'&nr'&b'&Eg).
  eapply wp_call; [exact Eg|rewrite app_length, rev_length; lia|].
  rewrite firstn_app, rev_length, Nat.sub_diag, firstn_O, app_nil_r, firstn_all2 by (rewrite rev_length; lia). rewrite rev_involutive.
  exists FTrap. split; [exact IH|reflexivity].
Qed.

(** A function without results whose code arrives at [revert] and ends there. *)
Lemma reverting : forall ep sel fs vs np nl r b body args w k lbs s l' w1 x, List.length args = np ->
  at_point ([ Call (revert ep sel fs) ] ++ prepare_return r b [] ++ k) (x :: s) l' w1 lbs body [] (args ++ repeat 0 nl) w -> ~ In "result"%string lbs ->
  running ep w1 -> selector_ok sel -> fold_right and True (map wf_aty fs) -> vrep (mem w1) (TStruct false (map mty fs)) (VStruct 0 vs) x (heap w1) ->
  let e := enc_args fs vs in lenz e < 2147483640 ->
  (exists w2, returns (move_function np nl r body []) args w [] w2 /\ raised w1 w2 (sel ++ e)) \/
  (traps (move_function np nl r body []) args w /\ oom w1 (8 + lenz e)).
Proof.
  intros ep sel fs vs np nl r b body args w k lbs s l' w1 x La A Nl (Hw&He&Fl) (Ls&Hs) Wf V e Le.
  assert (H : wpf (move_function np nl r body []) args w (resq (fun rs w2 => rs = [] /\ raised w1 w2 (sel ++ e)) (oom w1 (8 + lenz e)))).
  2:{ apply wpf_cases in H. destruct H as [(rs&w2&R&->&H)|[T O]]; [left; exists w2; split; assumption|right; split; assumption]. }
  apply wpf_intro; [exact La|]. cbn [app]. apply wp_block.
  apply wp_conseq with (Q := fun o => match o with
    | OTrap => oom w1 (8 + lenz e) | OBr lb _ _ w2 => lb = "result"%string /\ raised w1 w2 (sel ++ e) | _ => False end).
  2:{ intros o Ho. destruct o; cbn [blk fret]; try contradiction; [|exact Ho]. destruct Ho as (->&HP). rewrite String.eqb_refl. cbn [firstn app].
      apply wp_nil. split; [reflexivity|exact HP]. }
  eapply at_point_wp; [exact A| |].
  { intros o Ho. destruct o; cbn [escapes]; try contradiction; [|exact Logic.I]. destruct Ho as (->&_). exact Nl. }
  cbn [app]. wcall revert_spec; [exact Hw|exact He|exact Fl|exact Ls|exact Hs|exact Wf|exact V|exact Le|intros O; exact O|].
  intros rs w2 [-> R]. cbn [app]. apply wp_br. split; [reflexivity|exact R].
Qed.

(** A transaction in which a call chain of the public function ends in [revert]. *)
Lemma reverted_transaction : forall c ep w s ts f rs vs rest, contract_ok c -> errtab_ok ep -> fresh_call w -> selector_ok s ->
  fold_right and True (map wf_aty ts) -> fold_right and True (map wf_aty rs) -> Z.of_nat (List.length rs) < 65536 -> move_fn ts rs f ->
  selected c s (wrap ep ts f rs) 4 -> all_fields (map has_aty ts) vs ->
  h_args (host w) = s ++ enc_args ts vs ++ rest -> gnext w + lenz (s ++ enc_args ts vs ++ rest) <= 2147483648 ->
  transaction c w FTrap \/
  exists xs w1, running ep w1 /\ host w1 = host w /\ maxpages w1 = maxpages w /\ gnext w1 = gnext w + lenz (s ++ enc_args ts vs ++ rest) + need_args ts vs /\ held (mem w1) ts vs xs (heap w1) /\
    forall np nl r b body args w2 k lbs st l' w3 x sel fs us,
      calls f xs w1 (move_function np nl r body []) args w2 -> List.length args = np ->
      at_point ([ Call (revert ep sel fs) ] ++ prepare_return r b [] ++ k) (x :: st) l' w3 lbs body [] (args ++ repeat 0 nl) w2 -> ~ In "result"%string lbs ->
      running ep w3 -> selector_ok sel -> fold_right and True (map wf_aty fs) ->
      vrep (mem w3) (TStruct false (map mty fs)) (VStruct 0 us) x (heap w3) -> lenz (enc_args fs us) < 2147483640 ->
      transaction c w FTrap \/
      exists w', transaction c w (FRet [1] w') /\ host w' = set_result (host w3) (sel ++ enc_args fs us).
Proof.
  intros c ep w s ts f rs vs rest HC He HF Hs Wt Wr Lr Hm Sel Hv Ea La.
  destruct (call_public c ep w s ts f rs vs rest HC He HF Hs Wt Wr Lr Hm Sel Hv Ea La) as [[T _]|(xs&w1&R1&H1&M1&G1&D1&_&K1&K2&_)]; [left; exact T|right].
  exists xs, w1. repeat (split; [assumption|]).
  intros np nl r b body args w2 k lbs st l' w3 x sel fs us C Ln A Nl R3 Sl Wf V Le.
  destruct (reverting ep sel fs us np nl r b body args w2 k lbs st l' w3 x Ln A Nl R3 Sl Wf V Le) as [(w4&R4&Rs)|[T _]].
  - right. pose proof R3 as (Hw3&_). pose proof Hw3 as (_&_&P3&_). pose proof Rs as (Hw4&Hh4&_&F4&_).
    destruct (chain_aborts _ _ _ _ _ _ C _ _ R4 Hw4) as (rs'&Rf); [lia|].
    destruct (K2 _ _ _ Rf (raised_carries _ _ _ Hw3 Rs)) as (w'&T&E). exists w'. split; [exact T|]. rewrite E, Hh4. reflexivity.
  - left. apply K1. eapply chain_traps; eassumption.
Qed.

(** A transaction in which the public function arrives at a Ret. *)
Lemma returned_transaction : forall c ep w s ts nl r b body rs vs rest, contract_ok c -> errtab_ok ep -> saves_quietly c -> fresh_call w -> selector_ok s ->
  fold_right and True (map wf_aty ts) -> fold_right and True (map wf_aty rs) -> Z.of_nat (List.length rs) < 65536 ->
  selected c s (wrap ep ts (move_function (List.length ts) nl r body (map mty rs)) rs) 4 ->
  (r < b)%nat -> (b + List.length rs <= List.length ts + nl)%nat -> all_fields (map has_aty ts) vs ->
  h_args (host w) = s ++ enc_args ts vs ++ rest -> gnext w + lenz (s ++ enc_args ts vs ++ rest) <= 2147483648 ->
  transaction c w FTrap \/
  exists xs w1, running ep w1 /\ host w1 = host w /\ maxpages w1 = maxpages w /\ gnext w1 = gnext w + lenz (s ++ enc_args ts vs ++ rest) + need_args ts vs /\ held (mem w1) ts vs xs (heap w1) /\
    forall k lbs st l' w2 ys us,
      at_point (prepare_return r b (map mty rs) ++ k) (rev ys ++ st) l' w2 lbs body [] (xs ++ repeat 0 nl) w1 -> ~ In "result"%string lbs ->
      running ep w2 -> represents w2 rs us ys -> lenz (enc_args rs us) < 2147483648 ->
      transaction c w FTrap \/ exists w', transaction c w (FRet [0] w') /\ h_result (host w') = enc_args rs us.
Proof.
  intros c ep w s ts nl r b body rs vs rest HC He Sq HF Hs Wt Wr Lr Sel Hr Hb Hv Ea La.
  assert (Hm : move_fn ts rs (move_function (List.length ts) nl r body (map mty rs))).
  { unfold move_fn, move_function. destruct rs; cbn [map]; eauto. }
  destruct (call_public c ep w s ts _ rs vs rest HC He HF Hs Wt Wr Lr Hm Sel Hv Ea La) as [[T _]|(xs&w1&R1&H1&M1&G1&D1&_&K1&_&K3)]; [left; exact T|right].
  exists xs, w1. repeat (split; [assumption|]).
  intros k lbs st l' w2 ys us A Nl R2 Rp Le.
  destruct (ret_returned ep (List.length ts) nl r b body rs xs w1 k lbs st l' w2 ys us) as [(out&w3&R3&E3&Ro)|[T _]]; try assumption.
  - eapply held_length; exact D1.
  - eapply K3; [exact Sq|exact R3|eapply running_extends; eassumption|exact Ro|exact Le].
  - left. apply K1. exact T.
Qed.

Lemma revert_leaves : forall ep sel fs vs x w, running ep w -> selector_ok sel ->
  fold_right and True (map wf_aty fs) -> vrep (mem w) (TStruct false (map mty fs)) (VStruct 0 vs) x (heap w) ->
  let e := enc_args fs vs in lenz e < 2147483640 ->
  (exists w', returns (revert ep sel fs) [x] w [] w' /\ raised w w' (sel ++ e)) \/
  (traps (revert ep sel fs) [x] w /\ oom w (8 + lenz e)).
Proof.
  intros ep sel fs vs x w (Hw&He&Fl) (Ls&Hs) Wf V e Le.
  pose proof (revert_spec ep sel fs vs x w Hw He Fl Ls Hs Wf V Le) as H. apply wpf_cases in H.
  destruct H as [(rs&w'&R&->&H)|H]; [left; exists w'; split; assumption|right; exact H].
Qed.
