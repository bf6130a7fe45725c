(** * Copying structs and enums, and every type. *)

From Verif Require Import Tac RtAlloc RtErr RtDiv RtShift RtAscii Ops SpecVal LemVal RtCopy.
Ltac Zify.zify_post_hook ::= idtac.

(** ** Copying fields *)
Lemma esize_bytes : forall t, is_stack t = true -> vbits t <= 8 * Z.of_nat (esize t).
Proof. destruct t; try discriminate; intros _; cbn [vbits esize]; lia. Qed.

Lemma copy_field_ok : forall t, (is_stack t = false -> copy_ok t) -> wf_ty t -> forall ep w v src dst off F r (Q : outcome -> Prop) s a b c ex,
  wok w -> 468 <= src -> 0 <= off -> src + off + 4 <= gnext w ->
  field_of (mem w) t (vrep (mem w) t) v (load 4 (mem w) (src + off)) F -> sub F (heap w) ->
  468 <= dst -> dst + off + 4 <= gnext w ->
  (ctrap w (has_small t) (fsize t (csize t) v) -> Q OTrap) ->
  (forall q w' a b c, extends w w' -> gnext w' = gnext w + fsize t (csize t) v -> 0 <= q < 4294967296 ->
     field_of (mem w') t (vrep (mem w') t) v q (between (gnext w) (gnext w')) ->
     wp r Q s (src :: dst :: a :: b :: c :: ex) (set_mem w' (store 4 (mem w') (dst + off) q))) ->
  wp (copy_field t (copy_ptr ep t) off ++ r) Q s (src :: dst :: a :: b :: c :: ex) w.
Proof.
  intros t IH Wf ep w v src dst off F r Q s a b c ex Hw A1 A2 A3 V S D1 D2 T K. pose proof Hw as (P1&P2&P3&P4&P5&P6).
  unfold copy_field, fsize, field_of in *. destruct (is_stack t) eqn:St.
  - destruct V as [Sx [-> Vr]]. pose proof (esize_range t) as Hsz. set (q0 := load 4 (mem w) (src + off)) in *.
    destruct (sub_live _ _ _ _ Sx S) as [L1 L2]; [lia|].
    assert (Hcont : forall x y w1, allocated w w1 (Z.of_nat (esize t)) ->
      wp ([Store (esize t) 0; LocalGet 1; LocalGet 4; Store 4 off] ++ r) Q (load (esize t) (mem w) q0 :: gnext w :: s) (src :: dst :: x :: y :: gnext w :: ex) w1).
    { intros x y w1 Al. pose proof Al as (Hw1&Em&B1&B2&B3&B4&B5). pose proof Hw1 as (Q1&Q2&Q3&Q4&Q5&Q6). cbn [app].
      apply wp_store; [lia|unfold page_size; lia|]. rewrite Z.add_0_r. rewrite Em. set (m := store _ _ _ _).
      destruct (extends_upd w w1 (Z.of_nat (esize t)) m Hw Al ltac:(lia)) as (X1&X2&X3).
      { intros z Hz. unfold m. apply rd_store_out. unfold within in Hz. lia. }
      ws1. ws1. ws1. apply K; [exact X1|cbn [gnext set_mem]; lia|lia|].
      cbn [gnext set_mem mem]. split; [apply between_sub; lia|]. unfold m. rewrite load_store_same. rewrite Z.mod_small by apply load_range.
      split; [reflexivity|exact Vr]. }
    destruct (Nat.eqb (esize t) 8) eqn:E8; cbn [app].
    + apply wp_lget with src; [reflexivity|]. apply wp_load; [lia|unfold page_size; lia|]. fold q0. apply wp_load; [lia|unfold page_size; lia|]. rewrite Z.add_0_r.
      eapply wp_lset; [reflexivity|]. cbn [set_nth]. ws1. wcall alloc_spec; [exact Hw|lia|intros; apply T; left; assumption|].
      intros vs w1 [-> Al]. wc. eapply wp_ltee; [reflexivity|]. cbn [set_nth]. eapply wp_lget; [reflexivity|]. apply Hcont. exact Al.
    + apply wp_lget with src; [reflexivity|]. apply wp_load; [lia|unfold page_size; lia|]. fold q0. apply wp_load; [lia|unfold page_size; lia|]. rewrite Z.add_0_r.
      eapply wp_lset; [reflexivity|]. cbn [set_nth]. ws1. wcall alloc_spec; [exact Hw|lia|intros; apply T; left; assumption|].
      intros vs w1 [-> Al]. wc. eapply wp_ltee; [reflexivity|]. cbn [set_nth]. eapply wp_lget; [reflexivity|]. apply Hcont. exact Al.
  - rewrite <- !app_assoc. cbn [app]. ws1. ws1. ws1. ws1. ws1. apply wp_load; [lia|unfold page_size; lia|]. rewrite Z.add_0_r.
    eapply (IH eq_refl); [exact St|exact Wf|exact Hw|exact V|exact S|exact T|].
    intros p' w' E G B V'. pose proof E as ((Q1&Q2&Q3&Q4&Q5&Q6)&_). ws1. ws1. ws1.
    apply wp_store; [lia|unfold page_size; lia|]. apply K; auto. lia.
Qed.

Lemma copy_fields_ok : forall fs, Forall (fun t => is_stack t = false -> copy_ok t) fs -> fold_right and True (map wf_ty fs) ->
  forall ep w0 w src dst off B vs F r (Q : outcome -> Prop) s a b c ex, wok w0 -> extends w0 w -> 0 <= off ->
  468 <= src -> src + off + 4 * Z.of_nat (List.length fs) <= gnext w0 ->
  fields (map (fun t => field_of (mem w0) t (vrep (mem w0) t)) fs) (mem w0) vs (src + off) F -> sub F (heap w0) ->
  gnext w0 <= dst -> dst + off + 4 * Z.of_nat (List.length fs) <= B -> B <= gnext w ->
  (ctrap w (existsb has_small fs) (zip_sum (map (fun f => fsize f (csize f)) fs) vs) -> Q OTrap) ->
  (forall w' a b c, extends w0 w' -> gnext w' = gnext w + zip_sum (map (fun f => fsize f (csize f)) fs) vs ->
     (forall x, 0 <= x < gnext w -> x < dst + off \/ dst + off + 4 * Z.of_nat (List.length fs) <= x -> rd (mem w') x = rd (mem w) x) ->
     fields (map (fun t => field_of (mem w') t (vrep (mem w') t)) fs) (mem w') vs (dst + off) (between (gnext w) (gnext w')) ->
     wp r Q s (src :: dst :: a :: b :: c :: ex) w') ->
  wp (copy_fields (map (fun t => (t, copy_ptr ep t)) fs) off ++ r) Q s (src :: dst :: a :: b :: c :: ex) w.
Proof.
  induction fs as [|t fs IHfs]; intros IH Wf ep w0 w src dst off B vs F r Q s a b c ex Hw0 E Ho S1 S2 V SF D1 D2 D3 T K.
  { cbn [map copy_fields app]. destruct vs; [|destruct V]. cbn [map fields zip_sum] in *. apply K; auto. lia. }
  destruct vs as [|v vs]; [destruct V|]. cbn [map fields] in V. destruct V as (F1&F2&V1&V2&Dj&Sf1&Sf2).
  inversion IH as [|? ? IHt IHr]; subst. cbn [map fold_right] in Wf. destruct Wf as [Wt Wr].
  cbn [map copy_fields]. rewrite <- app_assoc. cbn [List.length] in *. pose proof E as (Hw&_&_&Gw&_). pose proof Hw0 as (_&_&P3&_).
  pose proof (csize_nonneg t v) as Hcv. pose proof (esize_range t) as Hez.
  assert (Hf : 0 <= fsize t (csize t) v) by (unfold fsize; destruct (is_stack t); lia).
  assert (Hzs : 0 <= zip_sum (map (fun f => fsize f (csize f)) fs) vs) by (apply zip_sum_nonneg, Forall_forall; intros; apply csize_nonneg).
  cbn [map zip_sum existsb] in T, K.
  eapply (copy_field_ok t IHt Wt); [exact Hw|lia|lia|lia| | |lia|lia| |].
  { replace (load 4 (mem w) (src + off)) with (load 4 (mem w0) (src + off)).
    - eapply field_of_ext; [apply vrep_ext| |exact V1]. eapply agree_extends; [exact E|eapply sub_trans; eauto].
    - symmetry. eapply load_extends; [exact E|]. unfold live. lia. }
  { eapply sub_trans; [eapply sub_trans; eauto|]. unfold heap. apply between_sub; lia. }
  { intros X. apply T. eapply ctrap_extends; [apply extends_refl; exact Hw|exact X|lia|]. intros ->. reflexivity. }
  intros q w' a' b' c' E' G' Hq V'. pose proof E' as (Hw'&_).
  set (w2 := set_mem w' _). assert (O2 : forall x, x < dst + off \/ dst + off + 4 <= x -> rd (mem w2) x = rd (mem w') x).
  { intros x Hx. unfold w2. cbn [mem set_mem]. apply rd_store_out. lia. }
  assert (E2 : extends w0 w2).
  { unfold w2. apply (extends_write w0 w' _ (dst + off) 4 Hw0); [eapply extends_trans; eauto| |lia|lia].
    intros x Hx. apply O2. unfold within in Hx. lia. }
  assert (Lq : load 4 (mem w2) (dst + off) = q) by (unfold w2; cbn [mem set_mem]; rewrite load_4_store; apply w32_small; lia).
  assert (G2 : gnext w2 = gnext w + fsize t (csize t) v) by exact G'. clearbody w2.
  eapply (IHfs IHr Wr ep w0 w2 src dst (off + 4) B vs F2); [exact Hw0|exact E2|lia|lia|lia| | |lia|lia|lia| |].
  { replace (src + (off + 4)) with (src + off + 4) by lia. exact V2. }
  { eapply sub_trans; eauto. }
  { intros X. apply T. destruct X as [O|[Y [j [C1 C2]]]]; [left|right].
    - destruct E as (_&Ea&_). destruct E2 as (_&Eb&_). unfold oom in *. rewrite Eb in O. rewrite Ea. lia.
    - split; [rewrite Y; apply orb_true_r|]. exists j. lia. }
  intros w3 a3 b3 c3 E3 G3 O3 V3. apply K; [exact E3|lia| |].
  { intros x Hx Hx2. rewrite O3 by lia. rewrite O2 by lia. apply E'. exact Hx. }
  exists (between (gnext w) (gnext w2)), (between (gnext w2) (gnext w3)). split; [|split; [|split; [|split]]].
  - replace (load 4 (mem w3) (dst + off)) with q.
    + eapply field_of_ext; [apply vrep_ext| |]; [|eapply field_of_mono; [|exact V']; apply between_sub; lia].
      intros x Hx. unfold between in Hx. rewrite O3 by lia. apply O2. lia.
    + rewrite <- Lq. apply load_ext. intros j Hj. symmetry. apply O3; lia.
  - replace (dst + off + 4) with (dst + (off + 4)) by lia. exact V3.
  - apply between_disj. lia.
  - apply between_sub; lia.
  - apply between_sub; lia.
Qed.

Lemma copy_struct : forall key fs, Forall (fun t => is_stack t = false -> copy_ok t) fs -> copy_ok (TStruct key fs).
Proof.
  intros key fs IH ep w v p F r Q s l _ [Wn Wf] Hw V S T K. pose proof Hw as (P1&P2&P3&P4&P5&P6).
  cbn [vrep] in V. destruct V as (o&vs&G&->&Ho&S1&S2&Dj&V).
  cbn [copy_ptr app csize has_small] in *. set (nf := Z.of_nat (List.length fs)) in *.
  set (zs := zip_sum (map (fun f => fsize f (csize f)) fs) vs) in *.
  assert (Hzs : 0 <= zs) by (apply zip_sum_nonneg, Forall_forall; intros; apply csize_nonneg).
  set (kb := if key then 32 else 0) in *.
  eapply wp_call_spec with (Q' := fun rs w' => rs = [gnext w + kb] /\ extends w w' /\ gnext w' = gnext w + (kb + 4 * nf + zs) /\
      (if key then load_be 32 (mem w') (gnext w) = load_be 32 (mem w) (p - 32) else True) /\
      fields (map (fun t => field_of (mem w') t (vrep (mem w') t)) fs) (mem w') vs (gnext w + kb) (between (gnext w + kb + 4 * nf) (gnext w')))
    (T' := ctrap w (existsb has_small fs) (kb + 4 * nf + zs)); [reflexivity|cbn [List.length]; lia| |exact T|].
  2:{ intros rs w' (->&E&Gn&Ow&V'). wc. apply K; [exact E|exact Gn|unfold kb; destruct key; lia|]. cbn [vrep].
      exists o, vs, (between (gnext w + kb + 4 * nf) (gnext w')). split; [reflexivity|]. split; [|split; [|split; [|split]]].
      - rewrite Ho. unfold kb. destruct key; [|reflexivity]. replace (gnext w + 32 - 32) with (gnext w) by lia. symmetry. exact Ow.
      - fold nf. apply between_sub; unfold kb; destruct key; lia.
      - apply between_sub; unfold kb; destruct key; lia.
      - fold nf. apply between_disj. lia.
      - exact V'. }
  wc. apply wpf_intro; [reflexivity|]. cbn [app repeat].
  assert (Lp : 0 < nf -> 468 <= p /\ p + 4 * nf <= gnext w).
  { intros. destruct (sub_block _ _ _ _ (sub_trans _ _ _ S1 S)); destruct key; lia. }
  assert (Main : forall w1, extends w w1 -> gnext w1 = gnext w + kb ->
     (if key then load_be 32 (mem w1) (gnext w) = load_be 32 (mem w) (p - 32) else True) ->
     wp ([ Const (4 * Z.of_nat (List.length (map (fun f => (f, copy_ptr ep f)) fs))); Call alloc; LocalSet 1 ]
       ++ copy_fields (map (fun f => (f, copy_ptr ep f)) fs) 0 ++ [ LocalGet 1 ])
     (fret 1 (fun rs w' => rs = [gnext w + kb] /\ extends w w' /\ gnext w' = gnext w + (kb + 4 * nf + zs) /\
      (if key then load_be 32 (mem w') (gnext w) = load_be 32 (mem w) (p - 32) else True) /\
      fields (map (fun t => field_of (mem w') t (vrep (mem w') t)) fs) (mem w') vs (gnext w + kb) (between (gnext w + kb + 4 * nf) (gnext w')))
      (ctrap w (existsb has_small fs) (kb + 4 * nf + zs))) [] [p;0;0;0;0] w1).
  { intros w1 E1 G1 O1. pose proof E1 as (Hw1&_). rewrite map_length. fold nf. assert (0 <= kb) by (unfold kb; destruct key; lia). cbn [app].
    ws1. wcall alloc_spec; [exact Hw1|lia| |].
    { intros O. left. eapply oom_extends; [exact E1|exact O|lia]. }
    intros rs w2 [-> Al]. wc. pose proof (alloc_extends _ _ _ Hw1 Al ltac:(lia)) as E12. pose proof Al as (Hw2&Em&B1&B2&B3&B4&B5). ws1.
    rewrite G1. assert (E2 : extends w w2) by (eapply extends_trans; eauto).
    assert (Out : forall w' a b c, extends w w' -> gnext w' = gnext w2 + zs ->
      (forall x, 0 <= x < gnext w2 -> x < gnext w + kb + 0 \/ gnext w + kb + 0 + 4 * nf <= x -> rd (mem w') x = rd (mem w2) x) ->
      fields (map (fun t => field_of (mem w') t (vrep (mem w') t)) fs) (mem w') vs (gnext w + kb + 0) (between (gnext w2) (gnext w')) ->
      wp [ LocalGet 1 ]  (fret 1 (fun rs w' => rs = [gnext w + kb] /\ extends w w' /\ gnext w' = gnext w + (kb + 4 * nf + zs) /\
      (if key then load_be 32 (mem w') (gnext w) = load_be 32 (mem w) (p - 32) else True) /\
      fields (map (fun t => field_of (mem w') t (vrep (mem w') t)) fs) (mem w') vs (gnext w + kb) (between (gnext w + kb + 4 * nf) (gnext w')))
      (ctrap w (existsb has_small fs) (kb + 4 * nf + zs))) [] [p;gnext w + kb;a;b;c] w').
    { intros w' a b c E' G' O' V'. ws1. ws1. split; [reflexivity|]. split; [exact E'|]. split; [lia|]. split.
      - destruct key; [|exact I]. rewrite <- O1. apply load_be_ext. intros i Hi. unfold kb in *. change (Z.of_nat 32) with 32 in Hi. rewrite O' by lia. rewrite Em. reflexivity.
      - rewrite Z.add_0_r in V'. replace (gnext w + kb + 4 * nf) with (gnext w2) by lia. exact V'. }
    destruct (Z.eq_dec nf 0) as [N0|N0].
    { assert (fs = []) by (destruct fs; [reflexivity|cbn [List.length] in nf; lia]). subst fs. cbn [map copy_fields app].
      destruct vs; [|destruct V]. apply Out; [exact E2|unfold zs; cbn [map zip_sum]; lia|auto|exact I]. }
    specialize (Lp ltac:(lia)).
    eapply (copy_fields_ok fs IH Wf ep w w2 p (gnext w + kb) 0 (gnext w2) vs G); [exact Hw|exact E2|lia|lia|fold nf; lia| | |lia|fold nf; lia|lia| |].
    { rewrite Z.add_0_r. exact V. }
    { eapply sub_trans; eauto. }
    { intros X. eapply ctrap_extends; [exact E2|exact X|fold zs; lia|auto]. }
    intros w' a b c E' G' O' V'. apply Out; auto. }
  destruct key; unfold kb in *; [|apply Main; [apply extends_refl; exact Hw|lia|exact I]].
  destruct (sub_block _ _ _ _ (sub_trans _ _ _ S1 S)) as [La Lb]; [lia|].
  cbn [app]. ws1. wcall alloc_spec; [exact Hw|lia|intros O; left; eapply oom_mono; [exact O|lia]|].
  intros rs w1 [-> Al]. wc. pose proof Al as (Hw1&Em&B1&B2&B3&B4&B5). pose proof Hw1 as (Q1&Q2&Q3&Q4&Q5&Q6).
  ws1. ws1. ws1. ws1. ws1. rewrite Em. set (m := mcopy _ _ _ _).
  destruct (extends_upd w w1 32 m Hw Al ltac:(lia)) as (X1&X2&X3).
  { intros x Hx. unfold m. apply rd_mcopy_frame. exact Hx. }
  apply Main; [exact X1|cbn [gnext set_mem]; lia|]. cbn [mem set_mem]. apply load_be_ext. intros i Hi. unfold m. change (Z.of_nat 32) with 32 in Hi. rewrite rd_mcopy_in by lia. f_equal. lia.
Qed.

(** ** Copying an enum *)
Lemma wp_match_arms : forall arms var i r (Q : outcome -> Prop) s l w tag a,
  nth_error l var = Some (i + Z.of_nat tag) -> 0 <= i -> i + Z.of_nat (List.length arms) <= 4294967296 -> nth_error arms tag = Some a ->
  wp (a ++ [Br "join"]) (fun o => match o with
    | ONormal s' l' w' => wp (match_arms var (i + Z.of_nat tag + 1) (skipn (S tag) arms) ++ r) Q s l' w'
    | OBr lb s' l' w' => if String.eqb "case" lb then wp (match_arms var (i + Z.of_nat tag + 1) (skipn (S tag) arms) ++ r) Q s l' w' else Q o
    | o => Q o end) [] l w ->
  wp (match_arms var i arms ++ r) Q s l w.
Proof.
  induction arms as [|b arms IH]; intros var i r Q s l w [|tag] a Hl Hi Hb Ha W; try discriminate; cbn [match_arms app List.length] in *.
  - injection Ha as ->. cbn [skipn] in W. rewrite Z.add_0_r in *. apply wp_block. eapply wp_lget; [exact Hl|]. ws1. ws1.
    replace (i =? i) with true by lia. cbn [negb b2z]. apply wp_brif; intros C; [lia|]. eapply wp_conseq; [exact W|].
    intros [s' l' w'|lb' s' l' w'| | | |]; cbn [blk]; auto.
  - apply wp_block. eapply wp_lget; [exact Hl|]. ws1. ws1. replace (i + Z.of_nat (S tag) =? i) with false by lia. cbn [negb b2z].
    apply wp_brif; intros C; [|lia]. wc. eapply (IH var (i + 1) r Q s l w tag a); [rewrite Hl; f_equal; lia|lia|lia|exact Ha|].
    cbn [skipn] in W. replace (i + 1 + Z.of_nat tag + 1) with (i + Z.of_nat (S tag) + 1) by lia. exact W.
Qed.

Lemma existsb_nth : forall {A} (f : A -> bool) l n a, nth_error l n = Some a -> f a = true -> existsb f l = true.
Proof. intros. apply existsb_exists. exists a. split; [eapply nth_error_In; eauto|assumption]. Qed.

Lemma wf_variants : forall vts : list (list ty), fold_right and True (map (fun fs => Z.of_nat (List.length fs) < 65536 /\ fold_right and True (map wf_ty fs)) vts) ->
  enum_size vts <= 4 + 4 * 65536 /\ forall tag fs, nth_error vts tag = Some fs -> Z.of_nat (List.length fs) < 65536 /\ fold_right and True (map wf_ty fs).
Proof.
  unfold enum_size. induction vts as [|fs vts IH]; cbn [map fold_right].
  - intros _. split; [lia|]. intros [|n]; discriminate.
  - intros [[A B] C]. destruct (IH C) as [I1 I2]. split; [lia|]. intros [|n] gs; cbn [nth_error]; [intros X; injection X as <-; auto|apply I2].
Qed.

Lemma copy_enum : forall vts, Forall (Forall (fun t => is_stack t = false -> copy_ok t)) vts -> copy_ok (TEnum vts).
Proof.
  intros vts IH ep w v p F r Q s l _ [Wn Wf] Hw V S T K. pose proof Hw as (P1&P2&P3&P4&P5&P6).
  cbn [vrep] in V. destruct V as (tag&vs&G&->&Ht&S1&S2&Dj&V).
  destruct (wf_variants _ Wf) as [Wsz Wv]. pose proof (enum_size_pos vts) as Hsz. set (sz := enum_size vts) in *.
  destruct (nth_error (map (fun fs => map (fun t' => field_of (mem w) t' (vrep (mem w) t')) fs) vts) tag) as [Rs|] eqn:En; [|destruct V].
  destruct (nth_error_map2 _ (fun _ => []) _ _ _ En) as (fs&Ef&->&_). destruct (Wv _ _ Ef) as [Wl Wfs].
  pose proof (enum_size_ge _ _ _ Ef) as Hge. fold sz in Hge. set (nf := Z.of_nat (List.length fs)) in *.
  cbn [copy_ptr app csize has_small] in *. fold sz in T, K.
  rewrite (map_nth_error (fun fs => zip_sum (map (fun f => fsize f (csize f)) fs) vs) _ _ Ef) in T, K.
  set (zs := zip_sum (map (fun f => fsize f (csize f)) fs) vs) in *.
  assert (Hzs : 0 <= zs) by (apply zip_sum_nonneg, Forall_forall; intros; apply csize_nonneg).
  assert (Htag : (tag < List.length vts)%nat) by (apply nth_error_Some; congruence).
  destruct (sub_block _ _ _ _ (sub_trans _ _ _ S1 S)) as [La Lb]; [lia|].
  eapply wp_call_spec with (Q' := fun rs w' => rs = [gnext w] /\ extends w w' /\ gnext w' = gnext w + (sz + zs) /\
      load 4 (mem w') (gnext w) = Z.of_nat tag /\
      fields (map (fun t => field_of (mem w') t (vrep (mem w') t)) fs) (mem w') vs (gnext w + 4) (between (gnext w + sz) (gnext w')))
    (T' := ctrap w (existsb (existsb has_small) vts) (sz + zs)); [reflexivity|cbn [List.length]; lia| |exact T|].
  2:{ intros rs w' (->&E&Gn&Tg&V'). wc. apply K; [exact E|exact Gn|lia|]. cbn [vrep].
      exists tag, vs, (between (gnext w + sz) (gnext w')). split; [reflexivity|]. split; [exact Tg|]. fold sz.
      split; [apply between_sub; lia|]. split; [apply between_sub; lia|]. split; [apply between_disj; lia|].
      rewrite (map_nth_error (fun fs => map (fun t' => field_of (mem w') t' (vrep (mem w') t')) fs) _ _ Ef). exact V'. }
  wc. apply wpf_intro; [reflexivity|]. cbn [app repeat]. fold sz.
  ws1. wcall alloc_spec; [exact Hw|lia|intros O; left; eapply oom_mono; [exact O|lia]|].
  intros rs w1 [-> Al]. wc. pose proof Al as (Hw1&Em&B1&B2&B3&B4&B5). pose proof Hw1 as (Q1&Q2&Q3&Q4&Q5&Q6).
  ws1. ws1. ws1. rewrite Em, Ht. ws1. ws1. ws1. ws1. rewrite Em. set (m := store _ _ _ _).
  destruct (extends_upd w w1 sz m Hw Al ltac:(lia)) as (X1&X2&X3).
  { intros x Hx. unfold m. apply rd_store_out. unfold within in Hx. lia. }
  assert (Lt : load 4 m (gnext w) = Z.of_nat tag) by (unfold m; rewrite load_4_store; apply w32_small; lia).
  set (w2 := set_mem w1 m) in *. assert (G2 : gnext w2 = gnext w + sz) by (unfold w2; cbn [gnext set_mem]; lia).
  change m with (mem w2) in Lt. clearbody w2. clear m.
  apply wp_block. eapply (wp_match_arms _ 5 0 _ _ _ _ _ tag); [cbn [nth_error]; f_equal; lia|lia|rewrite !map_length; lia| |].
  { rewrite map_map. apply (map_nth_error (fun x => copy_fields (map (fun f => (f, copy_ptr ep f)) x) 4) _ _ Ef). }
  eapply (copy_fields_ok fs (nth_error_Forall _ _ _ _ IH Ef) Wfs ep w w2 p (gnext w) 4 (gnext w2) vs G);
    [exact Hw|exact X1|lia|lia|fold nf; lia|exact V| |lia|fold nf; lia|lia| |].
  { eapply sub_trans; eauto. }
  { cbn [blk fret]. intros X. eapply ctrap_extends; [exact X1|exact X|fold zs; lia|]. intros Y. eapply existsb_nth; eauto. }
  intros w' a b c E' G' O' V'. apply wp_br. cbn [blk String.eqb Ascii.eqb Bool.eqb firstn app]. ws1. ws1.
  split; [reflexivity|]. split; [exact E'|]. split; [fold zs in G'; lia|]. split.
  - rewrite <- Lt. apply load_ext. intros j Hj. change (Z.of_nat 4) with 4 in Hj. apply O'; lia.
  - rewrite <- G2. exact V'.
Qed.

(** Every type. *)
Theorem copy_all : forall t, copy_ok t.
Proof.
  apply (ty_rec' copy_ok).
  - intros t St ep w v p F r Q s l Ns. congruence.
  - apply copy_u128.
  - apply copy_u256.
  - apply copy_address.
  - intros t H. apply copy_vector. auto.
  - intros k fs H. apply copy_struct. eapply Forall_impl; [|exact H]. auto.
  - intros vts H. apply copy_enum. eapply Forall_impl; [|exact H]. intros fs Hf. eapply Forall_impl; [|exact Hf]. auto.
Qed.
