(** * ABI encoding of structs and of tuples of return values. *)

From Verif Require Import Tac RtAlloc RtErr RtEq RtDiv RtShift RtSwap RtAscii Ops SpecVal LemVal SpecAbi LemAbi RtCopy SpecSol RtAbi RtPack.
Ltac Zify.zify_post_hook ::= idtac.

Lemma heads_static : forall ps off off', Forall (fun p : part => fst p = false) ps -> heads off ps = heads off' ps.
Proof. induction ps as [|[[|] e] ps IH]; intros off off' H; inversion H; cbn [heads]; [reflexivity|discriminate|]. f_equal. apply IH. assumption. Qed.

Lemma field_parts_static : forall fs vs, existsb dynamic fs = false -> Forall (fun p : part => fst p = false) (field_parts fs vs).
Proof.
  induction fs as [|f fs IH]; intros vs H; [constructor|]. destruct vs as [|v vs]; [constructor|]. cbn [existsb] in H. apply orb_false_iff in H. destruct H as [H1 H2].
  rewrite field_parts_cons. constructor; [exact H1|apply IH; exact H2].
Qed.

Lemma pack_struct_spec : forall fs ep w v X W R F, Forall pack_ok fs -> wf_aty (AStruct fs) -> wok w -> abort_flag w = 0 ->
  vrep (mem w) (mty (AStruct fs)) v X F -> sub F (heap w) ->
  468 <= W -> W + head_size (AStruct fs) <= gnext w -> zeroed w W (head_size (AStruct fs)) ->
  disj F (between W (W + head_size (AStruct fs))) -> 0 <= R <= gnext w ->
  lenz (enc (AStruct fs) v) < 2147483648 ->
  wpf (pack_struct (encoded_size (AStruct fs)) (map (field_code ep) fs)) [X; W; R; if dynamic (AStruct fs) then 1 else 0] w
    (resq (fun vs w' => vs = [] /\ packs w w' W (hpart (AStruct fs) (gnext w - R) v) (tpart (AStruct fs) v))
          (oom w (lenz (tpart (AStruct fs) v)))).
Proof.
  intros fs ep w v X W R F IH Wf Hw Fl V S H1 H2 Z D HR Hl. pose proof Hw as (P1&P2&P3&P4&P5&P6).
  rewrite encoded_size_eq. pose proof Wf as [Wl Wf2].
  cbn [mty vrep] in V. rewrite map_length in V. destruct V as (o&vs&G&->&->&S1&S2&D1&V). pose proof (fields_has _ _ _ _ _ Wf2 V) as Hvs.
  pose proof (field_parts_heads fs vs Hvs) as HL. pose proof (sum_head_nonneg fs) as Hn.
  unfold hpart, tpart in *. rewrite enc_struct in *. rewrite tuple_len in Hl. cbn [head_size dynamic] in *.
  pose proof (lenz_nonneg (tails (field_parts fs vs))) as Tn. set (ps := field_parts fs vs) in *.
  rewrite HL in Hl. set (n := fold_right Z.add 0 (map head_size fs)) in *.
  apply wpf_intro; [reflexivity|]. wc. unfold pack_struct. cbn [app repeat List.length Nat.sub].
  (* a struct without fields has no memory *)
  assert (HX : fs = [] \/ 468 <= X).
  { destruct fs as [|f fs0]; [left; reflexivity|right].
    destruct (sub_live X 4 F w) as [A1 A2]; [eapply sub_trans; [|exact S1]; apply between_sub; cbn [List.length]; lia|exact S|lia|]. exact A1. }
  ws1. apply wp_if; intros C; destruct (existsb dynamic fs) eqn:Dy; try (exfalso; lia).
  - (* nested *)
    ws1. wcall alloc_spec; [exact Hw|lia|intros O; rewrite tuple_len, HL; eapply oom_mono; [exact O|lia]|].
    intros rs w1 [-> Al]. wc. pose proof Al as (Hw1&Em&B1&B2&B3&B4&B5). pose proof Hw1 as (R1&R2&R3&R4&R5&R6).
    set (T := gnext w) in *. pose proof (zeroed_fresh _ _ _ Hw Al) as ZT. fold T in ZT.
    ws1. ws1. ws1. ws1. ws1. ws1. ws1.
    eapply wp_writes_word; [reflexivity|exact Hw1|exact H1|lia| |].
    { apply pack_u32_spec; [exact Hw1|unfold live; lia|intros x Hx; rewrite Em; apply Z; exact Hx|lia]. }
    intros w2 (C1&C2&C3&C4&C5&C6&C7&C8&C9) C10 C10' C11. unfold lenz in C6. cbn [List.length Z.of_nat] in C6. pose proof C1 as (R1'&R2'&R3'&R4'&R5'&R6').
    apply wp_nil. wc.
    assert (O2 : forall a, F a -> rd (mem w2) a = rd (mem w) a).
    { intros a Fa. pose proof (S a Fa) as Ha. unfold heap, between in Ha. rewrite C11; [rewrite Em; reflexivity|].
      intros Ka. apply (D a Fa). unfold within in Ka. unfold between. exact Ka. }
    assert (Fl2 : abort_flag w2 = 0).
    { rewrite <- Fl. unfold abort_flag. apply load_ext. change (Z.of_nat 4) with 4. intros j Hj. rewrite C11 by (unfold within; lia). rewrite Em. reflexivity. }
    assert (Z2 : zeroed w2 T n) by (intros x Hx; rewrite C11 by (unfold within; lia); apply ZT; lia).
    assert (G2 : gnext w2 = T + n) by lia.
    match goal with |- wp _ ?Q _ _ _ => assert (Fin : forall w' v32 v64 d8, built w2 w' T n T ps -> wp [] Q [] [X; W; R; 1; v32; v64; T - R; T + n; d8] w') end.
    { intros wi v32 v64 d8 (I1&I2&I3&I4&I5&I6&I7&I8&I9&I10). apply wp_nil. wc. split; [reflexivity|].
      replace (gnext w2 - T) with (head_lens ps) in I7 by lia. unfold packs. rewrite tuple_len, lenz_word.
      split; [exact I1|]. repeat (split; [first [congruence|lia]|]). split; [|split].
      - eapply bytes_at_ext; [|exact C7]. rewrite lenz_word. intros x Hx. apply I10; unfold within; lia.
      - unfold tuple. apply bytes_at_app. split; [exact I7|]. rewrite heads_len, HL. fold T. rewrite <- G2. exact I8.
      - intros x Hx Nx. fold T in Hx. rewrite I10 by (unfold within; lia). rewrite C11 by exact Nx. rewrite Em. reflexivity. }
    assert (HX' : 468 <= X) by (destruct HX as [E|HX]; [rewrite E in Dy; discriminate Dy|exact HX]). clear HX. rename HX' into HX.
    rewrite <- (app_nil_r (pack_fields 0 _)). replace T with (T + head_lens []) at 2 by (cbn; lia).
    eapply (pack_fields_ok fs IH Wf2 ep 0 vs w2 w2 T n T [] G F).
    + apply built_nil; [exact C1|exact Z2].
    + exact C1.
    + exact Fl2.
    + lia.
    + lia.
    + lia.
    + replace (X + 4 * 0) with X by lia. eapply fields_ext; [| |exact V].
      * apply Forall2_map. apply Forall_forall. intros t _ v0 x0 G0 S0. apply field_of_ext; [apply vrep_ext|].
        intros a Ga. apply O2, S2, S0, Ga.
      * rewrite !map_length. intros y Hy. apply O2, S1. unfold between. lia.
    + exact S2.
    + lia.
    + exact HX.
    + replace (X + 4 * 0) with X by lia. exact S1.
    + eapply sub_trans; [exact S|]. unfold heap. apply between_sub; lia.
    + intros a Fa Ka. apply S in Fa. unfold heap, between in *. fold T in Fa. lia.
    + fold n. cbn. lia.
    + fold ps. cbn. lia.
    + reflexivity.
    + lia.
    + fold ps. cbn [fret]. intros O. rewrite tuple_len, HL. change (lenz (tails [])) with 0 in O. unfold oom in *. fold T. lia.
    + cbn [app]. exact Fin.
  - (* in place *)
    ws1. ws1. apply wp_nil. wc.
    assert (St : Forall (fun p : part => fst p = false) ps) by (apply field_parts_static; exact Dy).
    assert (Tl : tails ps = []) by (apply tails_static; exact St).
    match goal with |- wp _ ?Q _ _ _ => assert (Fin : forall w' v32 v64 d8, built w w' W n R ps -> wp [] Q [] [X; W; R; 0; v32; v64; 0; W + n; d8] w') end.
    { intros wi v32 v64 d8 (I1&I2&I3&I4&I5&I6&I7&I8&I9&I10). apply wp_nil. wc. split; [reflexivity|].
      rewrite Tl in *. unfold packs. unfold tuple. rewrite Tl, app_nil_r. rewrite heads_len, HL.
      split; [exact I1|]. repeat (split; [first [congruence|lia]|]). split; [|split].
      - rewrite (heads_static ps _ (gnext w - R)) by exact St. exact I7.
      - exact I8.
      - exact I10. }
    rewrite <- (app_nil_r (pack_fields 0 _)). replace W with (W + head_lens []) at 2 by (cbn; lia).
    destruct HX as [HX|HX].
    { subst fs. cbn [map pack_fields app]. destruct vs; [|contradiction V]. replace (W + head_lens []) with (W + n) by reflexivity. apply Fin. apply built_nil; [exact Hw|exact Z]. }
    eapply (pack_fields_ok fs IH Wf2 ep 0 vs w w W n R [] G F).
    + apply built_nil; [exact Hw|exact Z].
    + exact Hw.
    + exact Fl.
    + lia.
    + lia.
    + lia.
    + replace (X + 4 * 0) with X by lia. exact V.
    + exact S2.
    + lia.
    + exact HX.
    + replace (X + 4 * 0) with X by lia. exact S1.
    + exact S.
    + exact D.
    + fold n. cbn. lia.
    + fold ps. rewrite Tl. cbn. lia.
    + reflexivity.
    + lia.
    + fold ps. rewrite Tl. cbn [fret]. intros O. exact O.
    + cbn [app]. exact Fin.
Qed.

Lemma pack_structs : forall fs, Forall pack_ok fs -> pack_ok (AStruct fs).
Proof.
  intros fs IH ep pv ps x wr rf r Q s l w v X W R F _ Ss N1 N2 N3 Hw Fl Wf V S H1 H2 Z D HR Hl T K.
  cbn [pack_code]. cbn [app]. eapply wp_lget; [exact N1|]. eapply wp_lget; [exact N2|]. eapply wp_lget; [exact N3|]. ws1.
  change (is_dynamic (AStruct fs)) with (dynamic (AStruct fs)).
  wcall (pack_struct_spec fs ep w v X W R F IH Wf Hw Fl V S H1 H2 Z D HR Hl); [exact T|]. intros vs w' [-> P]. cbn [app].
  pose proof (packs_flag _ _ _ _ _ Hw P H1) as Ff. apply Ss; [apply P|congruence|]. apply K. exact P.
Qed.

Theorem pack_all : forall t, pack_ok t.
Proof.
  refine (aty_rec' _ _ _ _ _ _); [apply pack_scalar|apply pack_enums|apply pack_strings|apply pack_vectors|apply pack_structs].
Qed.

(** ** Tuples of return values *)

Lemma nth_mid : forall (l : list Z) k rest, nth_error (l ++ rest) (List.length l + k) = nth_error rest k.
Proof. induction l; intros; cbn [List.length Nat.add app nth_error]; auto. Qed.
Lemma set_mid : forall (l : list Z) k v rest, set_nth (List.length l + k) v (l ++ rest) = l ++ set_nth k v rest.
Proof. induction l as [|x l IH]; intros; cbn [List.length Nat.add app set_nth]; auto. f_equal. apply IH. Qed.

Lemma represents_has : forall w ts vs xs, fold_right and True (map wf_aty ts) -> represents w ts vs xs -> all_fields (map has_aty ts) vs.
Proof.
  induction ts as [|t ts IH]; intros [|v vs] [|x xs] Wf H; cbn [represents map all_fields fold_right] in *; try tauto.
  destruct H as [H1 H2]. destruct Wf as [W1 W2]. split; [eapply vrep_has; eauto|eapply IH; eauto].
Qed.

Lemma nth_mid0 : forall (l : list Z) x r, nth_error (l ++ x :: r) (List.length l) = Some x.
Proof. induction l; intros; cbn; auto. Qed.
Lemma set_mid0 : forall (l : list Z) x y r, set_nth (List.length l) y (l ++ x :: r) = l ++ y :: r.
Proof. induction l; intros; cbn; [reflexivity|]. f_equal. auto. Qed.
Lemma skipn_cons : forall (l : list Z) i x xs, skipn i l = x :: xs -> nth_error l i = Some x /\ skipn (S i) l = xs.
Proof.
  induction l as [|y l IH]; intros [|i] x xs E; cbn [skipn nth_error] in *; try discriminate.
  - injection E as -> ->. auto.
  - apply IH. exact E.
Qed.
Lemma nth_front : forall (l : list Z) i x rest, nth_error l i = Some x -> nth_error (l ++ rest) i = Some x.
Proof. induction l as [|y l IH]; intros [|i] x rest E; cbn [nth_error app] in *; try discriminate; auto. Qed.

Lemma pack_values_ok : forall ep pv ps, skips pv -> skips ps -> forall w0 w B n full, wok w0 -> wok w -> B = gnext w0 -> B + n = gnext w -> 0 <= n < 2147483648 ->
  (forall a, 0 <= a < B -> rd (mem w) a = rd (mem w0) a) -> abort_flag w = 0 ->
  forall ts vs xs i wi qs r (Q : outcome -> Prop) s len rf, xs = skipn i full ->
  fold_right and True (map wf_aty ts) -> represents w0 ts vs xs ->
  built w wi B n B qs ->
  head_lens qs + fold_right Z.add 0 (map head_size ts) = n ->
  lenz (tails qs) + lenz (tails (field_parts ts vs)) < 2147483648 ->
  (oom w (lenz (tails qs) + lenz (tails (field_parts ts vs))) -> Q OTrap) ->
  (forall w' rf, built w w' B n B (qs ++ field_parts ts vs) -> wp r Q s (full ++ [B; len; B + n; rf]) w') ->
  wp (pack_values ep pv ps i (List.length full) ts ++ r) Q s (full ++ [B; len; B + head_lens qs; rf]) wi.
Proof.
  intros ep pv ps Sv Ss w0 w B n full Hw0 Hw HB HBn Hn Ow Fl.
  induction ts as [|t ts IH]; intros vs xs i wi qs r Q s len rf Hxs Wf V Bi Hq Ht T K.
  - destruct vs, xs; try contradiction V. cbn [pack_values app map fold_right] in *. replace (head_lens qs) with n by lia. apply K.
    rewrite app_nil_r. exact Bi.
  - destruct vs as [|v vs]; [contradiction V|]. destruct xs as [|x xs]; [contradiction V|]. destruct V as [V1 V2].
    symmetry in Hxs. apply skipn_cons in Hxs. destruct Hxs as [Nx Hxs]. symmetry in Hxs.
    cbn [map fold_right] in Wf, Hq. destruct Wf as [Wf1 Wf2]. rewrite field_parts_cons in *.
    change ((dynamic t, enc t v) :: field_parts ts vs) with ([(dynamic t, enc t v)] ++ field_parts ts vs) in Ht, T.
    rewrite tails_app, lenz_app, tails_one in Ht, T.
    pose proof (vrep_has _ _ _ _ _ Wf1 V1) as Hv.
    pose proof Bi as (I1&I2&I3&I4&I5&I6&I7&I8&I9&I10). pose proof I1 as (J1&J2&J3&J4&J5&J6). pose proof Hw as (P1&P2&P3&P4&P5&P6). pose proof Hw0 as (P1'&P2'&P3'&P4'&P5'&P6').
    pose proof (lenz_nonneg (tails qs)) as Tn. pose proof (lenz_nonneg (tpart t v)) as Tn2. pose proof (lenz_nonneg (tails (field_parts ts vs))) as Tn3.
    pose proof (head_size_nonneg t) as Hh. pose proof (sum_head_nonneg ts) as Hh2. pose proof (head_lens_nonneg qs) as Hh3.
    assert (Oi : forall a, 0 <= a < B -> rd (mem wi) a = rd (mem w0) a).
    { intros a Ha. rewrite I10; [apply Ow; exact Ha|lia|unfold within; lia]. }
    cbn [pack_values]. rewrite <- !app_assoc. cbn [app].
    eapply wp_lget; [apply nth_mid0|].
    eapply wp_lset; [rewrite nth_mid; reflexivity|]. rewrite set_mid. cbn [set_nth].
    eapply (pack_all t ep pv ps i (List.length full + 2)%nat (List.length full + 3)%nat _ _ _ _ wi v x (B + head_lens qs) B (heap w0));
      [exact Sv|exact Ss|apply nth_front; exact Nx|rewrite nth_mid; reflexivity|rewrite nth_mid; reflexivity|exact I1| |exact Wf1| | | | | | | | | |].
    + rewrite <- Fl. unfold abort_flag. apply load_ext. change (Z.of_nat 4) with 4. intros j Hj. apply I10; [lia|unfold within; lia].
    + eapply vrep_ext; [|exact V1]. intros a Ha. unfold heap, between in Ha. apply Oi. lia.
    + unfold heap. apply between_sub; lia.
    + lia.
    + lia.
    + intros a Ha. apply I9. lia.
    + intros a Fa Ka. unfold heap, between in *. lia.
    + lia.
    + pose proof (hpart_len t 0 v Hv) as Hp. unfold hpart in Hp. unfold tpart in *. destruct (dynamic t); lia.
    + intros O. apply T. unfold oom in *. lia.
    + intros w' Pk.
      assert (Bs : built w w' B n B (qs ++ [(dynamic t, enc t v)])).
      { eapply built_step; [exact Bi|lia|lia|rewrite head_len_part by exact Hv; lia|exact Pk]. }
      assert (Hq1 : head_lens (qs ++ [(dynamic t, enc t v)]) = head_lens qs + head_size t).
      { rewrite head_lens_app. unfold head_lens at 2. cbn [map fold_right]. rewrite head_len_part by exact Hv. lia. }
      pose proof Bs as ((J1'&J2'&J3'&J4'&J5'&J6')&_).
      rewrite slot_size_eq. eapply wp_lget; [rewrite nth_mid; reflexivity|]. ws1. ws1. eapply wp_lset; [rewrite nth_mid; reflexivity|]. rewrite set_mid. cbn [set_nth].
      replace (B + head_lens qs + head_size t) with (B + head_lens (qs ++ [(dynamic t, enc t v)])) by lia.
      eapply IH; [exact Hxs|exact Wf2|exact V2|exact Bs|lia| | |].
      * rewrite tails_app, lenz_app, tails_one. lia.
      * rewrite tails_app, lenz_app, tails_one. intros O. apply T. unfold oom in *. lia.
      * intros w2 rf' Bf. rewrite <- app_assoc in Bf. apply K. exact Bf.
Qed.

Lemma represents_length : forall w ts vs xs, represents w ts vs xs -> List.length xs = List.length ts.
Proof. induction ts as [|t ts IH]; intros [|v vs] [|x xs] H; cbn [represents List.length] in *; try tauto. destruct H. f_equal. eauto. Qed.

Lemma build_pack_spec : forall ep pv ps ts w vs xs, skips pv -> skips ps -> wok w -> abort_flag w = 0 ->
  fold_right and True (map wf_aty ts) -> represents w ts vs xs ->
  lenz (tuple (field_parts ts vs)) < 2147483648 ->
  wpf (build_pack ep pv ps ts) xs w (resq (fun rs w' => let e := tuple (field_parts ts vs) in
     rs = [lenz e; gnext w] /\ extends w w' /\ gnext w' = gnext w + lenz e /\ bytes_at (mem w') (gnext w) e)
     (oom w (lenz (tuple (field_parts ts vs))))).
Proof.
  intros ep pv ps ts w vs xs Sv Ss Hw Fl Wf V Hl. pose proof (represents_length _ _ _ _ V) as Lx.
  pose proof (represents_has _ _ _ _ Wf V) as Hvs. pose proof (field_parts_heads ts vs Hvs) as HL.
  pose proof Hw as (P1&P2&P3&P4&P5&P6). set (qs := field_parts ts vs) in *. rewrite tuple_len, HL in *.
  pose proof (lenz_nonneg (tails qs)) as Tn. pose proof (sum_head_nonneg ts) as Hn. 
  assert (Hsl : fold_right Z.add 0 (map slot_size ts) = fold_right Z.add 0 (map head_size ts)).
  { clear. induction ts as [|t ts IH]; [reflexivity|]. cbn [map fold_right]. rewrite IH, slot_size_eq. reflexivity. }
  set (n := fold_right Z.add 0 (map head_size ts)) in *.
  unfold build_pack. apply wpf_intro; [exact Lx|]. rewrite Hsl. rewrite <- Lx. cbn [app].
  ws1. wcall alloc_spec; [exact Hw|lia|intros O; eapply oom_mono; [exact O|lia]|].
  intros rs w1 [-> Al]. wc. pose proof Al as (Hw1&Em&B1&B2&B3&B4&B5). pose proof Hw1 as (R1&R2&R3&R4&R5&R6).
  set (B := gnext w) in *. pose proof (zeroed_fresh _ _ _ Hw Al) as ZT. fold B in ZT.
  eapply wp_ltee; [apply nth_mid0|]. rewrite set_mid0.
  eapply wp_lset; [rewrite nth_mid; reflexivity|]. rewrite set_mid. cbn [set_nth].
  replace B with (B + head_lens []) at 2 by (cbn; lia).
  eapply (pack_values_ok ep pv ps Sv Ss w w1 B n xs Hw Hw1); try reflexivity; try assumption; try lia.
  - intros. rewrite Em. reflexivity.
  - unfold abort_flag. rewrite Em. exact Fl.
  - exact V.
  - apply built_nil; [exact Hw1|exact ZT].
  - fold qs. change (lenz (tails [])) with 0. lia.
  - fold qs. change (lenz (tails [])) with 0. cbn [fret]. intros O. unfold oom in *. fold B. lia.
  - cbn [app]. fold qs. intros w2 rf (I1&I2&I3&I4&I5&I6&I7&I8&I9&I10). pose proof I1 as (J1&J2&J3&J4&J5&J6).
    ws1. wcall alloc_spec; [exact I1|lia|intros O; unfold oom in *; fold B; lia|].
    intros rs w3 [-> Al3]. wc. pose proof Al3 as (Hw3&Em3&C1&C2&C3&C4&C5). pose proof Hw3 as (R1'&R2'&R3'&R4'&R5'&R6').
    eapply wp_lget; [apply nth_mid0|]. ws1.
    eapply wp_lset; [rewrite nth_mid; reflexivity|]. rewrite set_mid. cbn [set_nth].
    eapply wp_lget; [apply nth_mid0|].
    eapply wp_lget; [rewrite nth_mid; reflexivity|]. apply wp_nil. wc. cbv zeta.
    replace (gnext w2 - B) with (n + lenz (tails qs)) by lia. rewrite tuple_len, HL.
    split; [reflexivity|]. split; [|split; [lia|]].
    + unfold extends. split; [exact Hw3|]. repeat (split; [first [congruence|lia]|]). intros a Ha. fold B in Ha. rewrite Em3. rewrite I10; [rewrite Em; reflexivity|lia|unfold within; lia].
    + rewrite Em3. unfold tuple. apply bytes_at_app. rewrite heads_len, HL. split.
      * replace (gnext w1 - B) with (head_lens qs) in I7 by lia. rewrite <- HL. exact I7.
      * replace (B + n) with (gnext w1) by lia. exact I8.
Qed.
