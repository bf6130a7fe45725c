(** * Calls of public functions from calldata to return data. *)

From Verif Require Import Tac RtAlloc RtErr RtInt RtInt2 RtEq RtMul RtDiv RtShift SpecInt RtSwap RtAscii RtCopy Ops SpecAbi LemAbi SpecVal LemVal SpecSol RtAbi RtPack RtPack2 RtUnpack RtUnpack2 LemSol RtStor RtDyn RtRouter SpecRouter LemRouter RtCall RtPublic SpecPublic.
Ltac Zify.zify_post_hook ::= idtac.

Lemma leave_stays : forall r (Q : outcome -> Prop) s l w, 1 <= pages w -> abort_flag w = 0 -> wp r Q s l w -> wp (leave ++ r) Q s l w.
Proof.
  intros r Q s l w Hp Hf K. unfold leave. cbn [app]. apply wp_block. wc. ws1.
  eapply wp_basic; [reflexivity|cbn [step]; rewrite inb_256 by lia; reflexivity|]. change (load 4 (mem w) (256 + 0)) with (abort_flag w). rewrite Hf.
  ws1. ws1. apply wp_brif; intros C; [|discriminate]. cbn [brq blk]. cbn. exact K.
Qed.

Lemma leave_leaves : forall r (Q : outcome -> Prop) s l w, 1 <= pages w -> abort_flag w <> 0 -> Q (ORet [0; 0] l w) -> wp (leave ++ r) Q s l w.
Proof.
  intros r Q s l w Hp Hf K. unfold leave. cbn [app]. apply wp_block. wc. ws1.
  eapply wp_basic; [reflexivity|cbn [step]; rewrite inb_256 by lia; reflexivity|]. change (load 4 (mem w) (256 + 0)) with (abort_flag w).
  ws1. ws1. apply wp_brif; intros C; unb C; [exfalso; apply Hf, Z.eqb_eq; exact C|]. ws1. ws1. apply wp_ret. cbn. exact K.
Qed.

Lemma held_represents : forall ts vs xs w F, held (mem w) ts vs xs F -> sub F (heap w) -> represents w ts vs xs.
Proof.
  induction ts as [|t ts IH]; intros [|v vs] [|x xs] w F H S; cbn [held represents] in *; try contradiction; [exact H|].
  destruct H as (F1&F2&V&H&_&S1&S2). split; [eapply vrep_mono; [|exact V]; eapply sub_trans; eassumption|].
  eapply IH; [exact H|eapply sub_trans; eassumption].
Qed.

Section wrap.
Variables (ep : errtab) (ts : list aty) (f : func) (rs : list aty) (a : Z) (w : world) (xs : list Z) (w1 : world).
Hypothesis (Hd : returns (decode_args ep ts) [a] w (rev xs) w1) (Lx : List.length xs = List.length ts).
Hypothesis (Hp1 : 1 <= pages w1) (Hf1 : abort_flag w1 = 0) (Hm : move_fn ts rs f).

Lemma wrap_start : forall Q T, wpf f xs w1 (fun res => match res with
    | FRet vs w2 => wp (leave ++ unpack_return 1 (map mty rs) ++ match rs with [] => [ Const 0; Const 0 ] | _ => [ Call (encode_args ep rs) ] end) (fret 2 Q T) vs [a; 0] w2
    | FTrap => T | _ => False end) -> wpf (wrap ep ts f rs) [a] w (resq Q T).
Proof.
  intros Q T H. apply wpf_intro; [reflexivity|]. unfold wrap. wc. ws1.
  eapply wp_call; [reflexivity|cbn [List.length]; lia|]. cbn [rev firstn app skipn].
  eapply returns_wpf; [exact Hd|]. rewrite <- ?app_assoc. apply leave_stays; [exact Hp1|exact Hf1|].
  destruct Hm as (nl&b&Ef). cbn [app]. eapply wp_call; [exact Ef|rewrite app_nil_r, rev_length; lia|].
  rewrite app_nil_r, <- Lx, <- (rev_length xs), firstn_all, rev_involutive, skipn_all.
  eapply wpf_conseq; [exact H|]. intros [vs w2| | |]; cbn; auto. rewrite app_nil_r. auto.
Qed.

Lemma wrap_traps : traps f xs w1 -> traps (wrap ep ts f rs) [a] w.
Proof. intros T. apply wpf_traps. apply wrap_start. exists FTrap. split; [exact T|exact Logic.I]. Qed.

Lemma wrap_fails : forall vs w2, returns f xs w1 vs w2 -> 1 <= pages w2 -> abort_flag w2 <> 0 -> returns (wrap ep ts f rs) [a] w [0; 0] w2.
Proof.
  intros vs w2 R P F. apply wpf_exact. apply wrap_start. eapply returns_wpf; [exact R|].
  apply leave_leaves; [exact P|exact F|]. reflexivity.
Qed.

Lemma wrap_returns : forall out us w2, returns f xs w1 out w2 -> running ep w2 -> returned w2 rs us out ->
  fold_right and True (map wf_aty rs) -> Z.of_nat (List.length rs) < 65536 -> let e := enc_args rs us in lenz e < 2147483648 ->
  (exists p w3, returns (wrap ep ts f rs) [a] w [lenz e; p] w3 /\ extends w2 w3 /\ in_memory w3 p (lenz e) /\ bytes_at (mem w3) p e) \/
  traps (wrap ep ts f rs) [a] w /\ oom w2 (lenz e).
Proof.
  intros out us w2 R Hr Ho Wf Lr e Le. pose proof Hr as (Hw2&He&Fl). pose proof Hw2 as (P1&P2&P3&P4&P5&P6).
  assert (L0 : 0 <= lenz e) by (unfold lenz; lia).
  pose proof wrap_start as St.
  destruct rs as [|r0 rs0].
  - destruct Ho as [-> ->]. left. exists 0, w2. split; [|split; [apply extends_refl; exact Hw2|split; [unfold in_memory; change (lenz e) with 0; lia|reflexivity]]].
    apply wpf_exact. apply St. eapply returns_wpf; [exact R|]. apply leave_stays; [lia|exact Fl|]. cbn [map unpack_return app]. ws1. ws1. apply wp_nil. reflexivity.
  - destruct Ho as (p&zs&->&Lv&Wa&Rp). pose proof (total_nonneg (map mty (r0 :: rs0))). unfold live in Lv.
    pose proof (represents_length _ _ _ _ Rp) as Lz.
    destruct (encode_args_spec ep (r0 :: rs0) us zs w2 Hr Wf Rp Le) as [(w3&R3&Ex&G3&B3)|[T O]]; [left|right].
    + fold e in R3, G3, B3. exists (gnext w2), w3. pose proof Ex as (E1&_). pose proof E1 as (Q1&Q2&Q3&Q4&Q5&Q6).
      split; [|split; [exact Ex|split; [unfold in_memory; lia|exact B3]]].
      apply wpf_exact. apply St. eapply returns_wpf; [exact R|]. apply leave_stays; [lia|exact Fl|]. unfold unpack_return. cbn [app map]. ws1. change (mty r0 :: map mty rs0) with (map mty (r0 :: rs0)).
      eapply (wp_load_returns (map mty (r0 :: rs0)) zs 1 _ _ _ _ _ p 0); [reflexivity|exact Hw2|lia|lia|lia|replace (p + 0) with p by lia; exact Wa|].
      eapply wp_call; [reflexivity|rewrite app_nil_r, rev_length; lia|].
      rewrite app_nil_r, <- Lz, <- (rev_length zs), firstn_all, rev_involutive, skipn_all.
      eapply returns_wpf; [exact R3|]. cbn [app]. apply wp_nil. reflexivity.
    + split; [|exact O]. apply wpf_traps. apply St. eapply returns_wpf; [exact R|]. apply leave_stays; [lia|exact Fl|]. unfold unpack_return. cbn [app map]. ws1. change (mty r0 :: map mty rs0) with (map mty (r0 :: rs0)).
      eapply (wp_load_returns (map mty (r0 :: rs0)) zs 1 _ _ _ _ _ p 0); [reflexivity|exact Hw2|lia|lia|lia|replace (p + 0) with p by lia; exact Wa|].
      eapply wp_call; [reflexivity|rewrite app_nil_r, rev_length; lia|].
      rewrite app_nil_r, <- Lz, <- (rev_length zs), firstn_all, rev_involutive, skipn_all.
      exists FTrap. split; [exact T|exact Logic.I].
Qed.
End wrap.

Lemma held_mono : forall ts m vs xs (F G : mset), sub F G -> held m ts vs xs F -> held m ts vs xs G.
Proof.
  intros [|t ts] m [|v vs] [|x xs] F G S H; cbn [held] in *; try contradiction; [exact H|].
  destruct H as (F1&F2&V&H&D&S1&S2). exists F1, F2. repeat (split; [assumption|]). split; eapply sub_trans; eassumption.
Qed.

Lemma begins_running : forall ep w w1 n data, errtab_ok ep -> wok w -> abort_flag w = 0 -> begins w w1 n data -> running ep w1.
Proof.
  intros ep w w1 n data He (_&_&P3&_) Fl (B1&B2&B3&B4&B5&B6&B7&B8&B9&B10). split; [exact B1|]. split; [exact He|].
  rewrite <- Fl. unfold abort_flag. apply load_ext. change (Z.of_nat 4) with 4. intros. apply B10; unfold within; lia.
Qed.

Lemma ctrap_later : forall w w1 b n k, maxpages w1 = maxpages w -> gnext w1 = gnext w + k -> 0 <= k -> ctrap w1 b n -> ctrap w b (k + n).
Proof.
  intros w w1 b n k M G K [O|[B (j&C1&C2)]]; [left|right].
  - unfold oom in *. lia.
  - split; [exact B|]. exists j. lia.
Qed.

Lemma with_result_bytes : forall w p l, bytes_at (mem w) p l -> host (with_result w p (lenz l)) = set_result (host w) l.
Proof. intros w p l B. unfold with_result, lenz. cbn [host set_host]. rewrite Nat2Z.id, B. reflexivity. Qed.

(** A call of a public function: its code runs once, on words that represent the decoded arguments. *)
Lemma call_public : forall c ep w s ts f rs vs rest, contract_ok c -> errtab_ok ep -> fresh_call w -> selector_ok s ->
  fold_right and True (map wf_aty ts) -> fold_right and True (map wf_aty rs) -> Z.of_nat (List.length rs) < 65536 -> move_fn ts rs f ->
  selected c s (wrap ep ts f rs) 4 -> all_fields (map has_aty ts) vs ->
  h_args (host w) = s ++ enc_args ts vs ++ rest -> let args := s ++ enc_args ts vs ++ rest in gnext w + lenz args <= 2147483648 ->
  transaction c w FTrap /\ ctrap w (existsb has_string ts) (lenz args + need_args ts vs) \/
  exists xs w1, running ep w1 /\ host w1 = host w /\ maxpages w1 = maxpages w /\ gnext w1 = gnext w + lenz args + need_args ts vs /\ held (mem w1) ts vs xs (heap w1) /\
    (forall x, 0 <= x < gnext w -> ~ within 396 8 x -> rd (mem w1) x = rd (mem w) x) /\
    (traps f xs w1 -> transaction c w FTrap) /\
    (forall out w2 data, returns f xs w1 out w2 -> carries_error w2 data ->
       exists w', transaction c w (FRet [1] w') /\ host w' = set_result (host w2) data) /\
    (forall out w2 us, saves_quietly c -> returns f xs w1 out w2 -> running ep w2 -> returned w2 rs us out -> lenz (enc_args rs us) < 2147483648 ->
       transaction c w FTrap \/ exists w', transaction c w (FRet [0] w') /\ h_result (host w') = enc_args rs us).
Proof.
  intros c ep w s ts f rs vs rest HC He HF Hs Wt Wr Lr Hm Sel Hv Ea args La. pose proof HF as (Hw&Fl&Hb&Hlen). pose proof Hw as (P1&P2&P3&P4&P5&P6).
  assert (A0 : 0 <= lenz args) by (unfold lenz; lia). assert (N0 : 0 <= need_args ts vs) by (apply need_args_nonneg).
  destruct (dispatch c w s (enc_args ts vs ++ rest) HC HF Ea Hs) as [[T O]|(w0&B&D&_)].
  { left. split; [exact T|]. left. fold args in O. unfold oom in *. unfold lenz. lia. }
  pose proof (begins_running ep w w0 _ _ He Hw Fl B) as Hr0. pose proof B as (B1&B2&B3&B4&B5&B6&B7&B8&B9&B10). fold args in B6, B7.
  destruct Hs as [Ls _].
  assert (Bd : bytes_at (mem w0) (gnext w + 4) (enc_args ts vs)).
  { assert (B7' : bytes_at (mem w0) (gnext w) args) by exact B7. unfold args in B7'. apply bytes_at_app in B7'. destruct B7' as [_ B7']. apply bytes_at_app in B7'. destruct B7' as [B7' _].
    unfold lenz in B7'. rewrite Ls in B7'. exact B7'. }
  assert (La' : 4 + lenz (enc_args ts vs) <= lenz args) by (unfold args, lenz; rewrite !app_length, Ls; lia).
  change (Z.of_nat (List.length args)) with (lenz args) in B6.
  assert (Dc : decodes_args (mem w0) (gnext w0) ts vs (gnext w + 4)).
  { apply enc_args_decodes; try assumption; try lia. }
  destruct (decode_args_spec ep ts vs w0 (gnext w + 4) (gnext w0) Hr0 Wt) as [(xs&w1&R1&H1&Hw1&Mx1&G1&Hh1&O1)|[T O]]; [lia|lia|lia|exact Dc| |].
  2:{ left. split; [|eapply ctrap_later; [exact B4|exact B6|exact A0|exact O]].
      eapply D; [exact Sel| |constructor]. apply wpf_traps. apply wpf_intro; [reflexivity|]. unfold wrap. wc. ws1.
      eapply wp_call; [reflexivity|cbn [List.length]; lia|]. cbn [rev firstn app skipn]. exists FTrap. split; [exact T|exact Logic.I]. }
  right. exists xs, w1. pose proof Hr0 as (Hw0&_&Fl0). pose proof Hw0 as (_&_&Z3&_).
  assert (Fl1 : abort_flag w1 = 0).
  { rewrite <- Fl0. unfold abort_flag. apply load_ext. change (Z.of_nat 4) with 4. intros. apply O1. lia. }
  pose proof (held_length _ _ _ _ _ H1) as Lx. pose proof Hw1 as (Y1&Y2&Y3&Y4&Y5&Y6).
  assert (Hp1 : 1 <= pages w1) by lia.
  split; [split; [exact Hw1|split; [exact He|exact Fl1]]|]. split; [rewrite Hh1; exact B2|]. split; [rewrite Mx1; exact B4|]. split; [lia|].
  split; [eapply held_mono; [|exact H1]; intros x Hx; pose proof Hw0 as (_&_&Z3'&_); unfold heap, between in *; lia|].
  split; [intros x X1 X2; rewrite O1 by lia; apply B10; assumption|].
  pose proof (fun K => wrap_traps ep ts f rs (gnext w + 4) w0 xs w1 R1 Lx Hp1 Fl1 Hm K) as W1.
  pose proof (fun o w2 K => wrap_fails ep ts f rs (gnext w + 4) w0 xs w1 R1 Lx Hp1 Fl1 Hm o w2 K) as W2.
  pose proof (fun o us w2 K => wrap_returns ep ts f rs (gnext w + 4) w0 xs w1 R1 Lx Hp1 Fl1 Hm o us w2 K) as W3.
  split; [|split].
  - intros T. eapply D; [exact Sel|apply W1; exact T|constructor].
  - intros out w2 data R (C1&C2&C3&C4&C5&C6).
    exists (with_result w2 (abort_flag w2 + 4) (load 4 (mem w2) (abort_flag w2))). split.
    + eapply D; [exact Sel|eapply W2; eassumption|]. unfold in_memory in *. assert (0 <= lenz data) by (unfold lenz; lia).
      constructor; [assumption|assumption|unfold in_memory; lia|assumption|unfold in_memory; lia].
    + rewrite C5. apply with_result_bytes. exact C6.
  - intros out w2 us Sq R Hr2 Ho Le. destruct (W3 out us w2 R Hr2 Ho Wr Lr Le) as [(p&w3&R3&Ex&I3&Be3)|[T _]].
    2:{ left. eapply D; [exact Sel|exact T|constructor]. }
    pose proof Ex as (Hw3&_&_&_&_&_&O3). pose proof Hw3 as (V1&_). destruct Hr2 as (Hw2&_&Fl2). pose proof Hw2 as (_&_&U3&_).
    assert (Fl3 : abort_flag w3 = 0).
    { rewrite <- Fl2. unfold abort_flag. apply load_ext. change (Z.of_nat 4) with 4. intros. apply O3. lia. }
    destruct (Sq (with_result w3 p (lenz (enc_args rs us)))) as [T|(w4&R4&E4)]; [exact Hw3| |].
    + left. eapply D; [exact Sel|exact R3|]. apply ans_save_trap; [lia|exact Fl3|exact I3|exact T].
    + right. exists (flushed w4). split.
      * eapply D; [exact Sel|exact R3|]. eapply ans_ok; [lia|exact Fl3|exact I3|exact R4].
      * cbn. rewrite E4. rewrite with_result_bytes by exact Be3. reflexivity.
Qed.
