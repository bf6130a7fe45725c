(** * Passing references to Move functions (C82). *)

From Verif Require Import SpecInt Spec Tac RtAlloc RtErr RtInt RtDiv RtShift RtAscii Ops SpecVal LemVal RtCopy RtCopy2 RtVec RtVec2 SpecVec LemVec RtStore RtCall SpecRef RtRef LemRef RtLocal LemLocal SpecArgs RtArgs.
Ltac Zify.zify_post_hook ::= idtac.

(** ** Vectors that grow in the callee *)

(** The headers from [p] to [q] were left behind by relocations and lie in [D]. *)
Inductive trail (m : memory) (D : mset) : Z -> Z -> Prop :=
| trail_here : forall q, trail m D q q
| trail_next : forall p q, sub (between p (p + 8)) D -> load 4 m p = DEAD_BEEF -> trail m D (load 4 m (p + 4)) q -> trail m D p q.
Lemma trail_ext : forall m m' D D' p q, agree m m' D -> sub D D' -> trail m D p q -> trail m' D' p q.
Proof.
  intros m m' D D' p q A S T. induction T as [q|p q H1 H2 T IH]; [constructor|].
  assert (L1 : load 4 m' p = load 4 m p) by (apply load_ext; intros i Hi; apply A, H1; unfold between; lia).
  assert (L2 : load 4 m' (p + 4) = load 4 m (p + 4)) by (apply load_ext; intros i Hi; apply A, H1; unfold between; lia).
  apply trail_next; [intros y Y; apply S, H1; exact Y|congruence|rewrite L2; exact IH].
Qed.
Lemma trail_app : forall m D p q q', trail m D p q -> trail m D q q' -> trail m D p q'.
Proof. intros m D p q q' T. induction T; intros T'; [exact T'|]. apply trail_next; auto. Qed.
Lemma trail_chain : forall w r D p q, trail (mem w) D p q -> sub D (heap w) -> disj (cell r) D -> 0 <= q -> q + 8 <= gnext w -> q + 8 <= r \/ r + 4 <= q -> load 4 (mem w) q <> DEAD_BEEF ->
  exists k, chain w r p q k.
Proof.
  intros w r D p q T Sd Dj Q1 Q2 Q3 Q4. induction T as [q|p q H1 H2 T IH].
  - exists 0%nat. constructor; assumption.
  - destruct (IH Q1 Q2 Q3 Q4) as (k&C). exists (S k). destruct (sub_pos D w p (p + 8) H1 Sd ltac:(lia)) as (B1&B2).
    apply chain_next; [lia|lia| |exact H2|exact C]. destruct (Z.le_gt_cases (p + 8) r); [auto|]. destruct (Z.le_gt_cases (r + 4) p); [auto|]. exfalso.
    apply (Dj (Z.max p r)); [unfold cell, between; lia|]. apply H1. unfold between. lia.
Qed.

(** The reference [r2] leads, once brought up to date, to the vector behind the reference [r]. *)
Definition follows (w : world) (t : ty) (r2 r : Z) (vs : list val) (F D : mset) : Prop :=
  vec_ref w t r vs F /\ sub (cell r2) (heap w) /\ disj (cell r2) (cell r) /\ disj (cell r2) F /\ disj (cell r2) D /\ disj (cell r) D /\ disj F D /\ sub D (heap w) /\
  trail (mem w) D (load 4 (mem w) r2) (load 4 (mem w) r).

Lemma follows_push : forall ep t w r r2 x v vs F D Fx, wf_ty t -> wok w -> maxpages w <= 16384 ->
  follows w t r2 r vs F D -> owns w t v x Fx -> 0 <= x < 256 ^ Z.of_nat (esize t) -> disj (cell r) Fx -> disj F Fx -> disj (cell r2) Fx -> disj D Fx ->
  (exists w' F' D', returns (vec_push_back ep t) [r; x] w [] w' /\ follows w' t r2 r (vs ++ [v]) F' D' /\
     sub F' (union (union F Fx) (fresh w w')) /\ sub D' (union D F) /\ evolves w w' (union (cell r) F)) \/
  no_memory (vec_push_back ep t) [r; x] w (has_small (TVec t))
    (vec_bytes t (copy_cap 2 (List.length vs)) + sumz (map (csize t) vs)).
Proof.
  intros ep t w r r2 x v vs F D Fx Wf Hw Mp (V&Q1&Q2&Q3&Q4&Q5&Q6&Q7&Tr) [Vx SFx] Hx D1 D2 D3 D4. pose proof (vec_ref_inv _ _ _ _ _ V) as (cap&G&Va&S1&S2&S3&S4&S5&S6).
  set (p := load 4 (mem w) r) in *. pose proof Va as (V1&V2&V3&V4&V5). pose proof (esize_range t) as Hsz. pose proof Hw as (P1&P2&P3&P4&P5&P6).
  assert (Hcs : 0 <= cap * Z.of_nat (esize t)) by nia. destruct (sub_block _ _ _ _ (sub_trans _ _ _ S1 S6)) as [L1 L2]; [lia|].
  assert (Hc2 : 8 + copy_cap 2 (List.length vs) * Z.of_nat (esize t) < 2147483648).
  { unfold copy_cap. destruct (Nat.eqb_spec (List.length vs) 0); [lia|].
    assert (Z.of_nat (List.length vs) * Z.of_nat (esize t) <= cap * Z.of_nat (esize t)) by (apply Z.mul_le_mono_nonneg_r; lia). lia. }
  pose proof (vec_push_spec ep t w r x v vs p cap G Fx Wf Hw S4 eq_refl Va (sub_trans _ _ _ S1 S6) (sub_trans _ _ _ S2 S6) S3
    (disj_sub _ _ _ _ S5 (sub_refl _) S1) (disj_sub _ _ _ _ S5 (sub_refl _) S2) Hx Vx SFx D1
    (disj_sub _ _ _ _ D2 S1 (sub_refl _)) (disj_sub _ _ _ _ D2 S2 (sub_refl _)) Hc2) as W.
  apply wpf_cases in W as [(rs&w'&R&->&Ev&p'&cap'&G'&Lp&V'&T1&T2&T3&T4&T5&A1&A2)|[Tp [_ T]]]; [left|right; split; assumption].
  assert (Gm : gnext w <= gnext w') by apply Ev. pose proof Ev as (Hw'&_&_&_&_&_&Mem).
  assert (SS : sub (union (spine t p' cap') G') (union (union F Fx) (fresh w w'))).
  { apply union_sub; intros y Y; [apply T1 in Y|apply T2 in Y]; unfold union, fresh in *; [destruct Y as [Y|Y]|destruct Y as [[Y|Y]|Y]]; auto. }
  assert (Ev' : evolves w w' (union (cell r) F)) by (eapply evolves_sub; [exact Ev|]; intros y [Y|Y]; [left; exact Y|right; apply S1; exact Y]).
  assert (Ag2 : agree (mem w) (mem w') (cell r2)).
  { eapply evolves_agree; [exact Ev'|exact Q1|]. intros y [Y|Y] Z; [eapply Q2; eassumption|eapply Q3; eassumption]. }
  assert (AgD : agree (mem w) (mem w') D).
  { eapply evolves_agree; [exact Ev'|exact Q7|]. intros y [Y|Y] Z; [eapply Q5; eassumption|eapply Q6; eassumption]. }
  assert (E2 : load 4 (mem w') r2 = load 4 (mem w) r2) by (apply load_ext; intros i Hi; apply Ag2; unfold cell, between; lia).
  assert (Vr : vec_ref w' t r (vs ++ [v]) (union (spine t p' cap') G')).
  { eapply vec_ref_intro; [exact Lp|exact V'|apply union_l|apply union_r|exact T3| |apply union_disj; assumption|].
    + eapply sub_trans; [exact S4|]. apply between_sub; lia.
    + eapply sub_trans; [exact SS|]. apply union_sub; [apply union_sub|].
      * eapply sub_trans; [exact S6|]. apply between_sub; lia.
      * eapply sub_trans; [exact SFx|]. apply between_sub; lia.
      * apply between_sub; lia. }
  assert (Out : forall C, sub C (heap w) -> disj C F -> disj C Fx -> disj C (union (spine t p' cap') G')).
  { intros C Sc C1 C2 y Y Z. destruct (SS y Z) as [[Z1|Z1]|Z1]; [eapply C1; eassumption|eapply C2; eassumption|]. apply Sc in Y. unfold heap, fresh, between in *. lia. }
  assert (Sh : forall C, sub C (heap w) -> sub C (heap w')) by (intros C Sc; eapply sub_trans; [exact Sc|apply between_sub; lia]).
  assert (Dc : disj (cell r) D) by exact Q5.
  destruct (Z.lt_ge_cases (Z.of_nat (List.length vs)) cap) as [H|H].
  - destruct (A1 H) as [_ Ep]. exists w', (union (spine t p' cap') G'), D. split; [exact R|]. split; [|split; [exact SS|split; [apply union_l|exact Ev']]].
    split; [exact Vr|]. split; [apply Sh; exact Q1|]. split; [exact Q2|]. split; [apply Out; assumption|]. split; [exact Q4|]. split; [exact Q5|].
    split; [apply disj_sym, Out; [exact Q7|apply disj_sym; exact Q6|exact D4]|]. split; [apply Sh; exact Q7|].
    rewrite E2, Lp, Ep. eapply trail_ext; [exact AgD|apply sub_refl|exact Tr].
  - destruct (A2 ltac:(lia)) as (H1&H2&H3). set (Hd := between p (p + 8)).
    assert (Shd : sub Hd (spine t p cap)) by (intros y Y; unfold Hd, spine, between in *; lia).
    assert (Dhd : disj Hd (union (spine t p' cap') G')).
    { intros y Y [Z|Z].
      - unfold Hd, spine, between in *. lia.
      - destruct (T2 y Z) as [[Z1|Z1]|Z1]; [eapply S3; [apply Shd; exact Y|exact Z1]|eapply D2; [apply S1, Shd; exact Y|exact Z1]|]. unfold Hd, between in *. lia. }
    exists w', (union (spine t p' cap') G'), (union D Hd). split; [exact R|]. split; [|split; [exact SS|split; [apply union_sub; [apply union_l|intros y Y; right; apply S1, Shd; exact Y]|exact Ev']]].
    assert (SHd : sub Hd (heap w)) by (intros y Y; apply S6, S1, Shd; exact Y).
    split; [exact Vr|]. split; [apply Sh; exact Q1|]. split; [exact Q2|]. split; [apply Out; assumption|].
    split; [apply union_disj; [exact Q4|eapply disj_sub; [exact Q3|apply sub_refl|intros y Y; apply S1, Shd; exact Y]]|].
    split; [apply union_disj; [exact Q5|eapply disj_sub; [exact S5|apply sub_refl|intros y Y; apply S1, Shd; exact Y]]|].
    split; [apply union_disj; [apply disj_sym, Out; [exact Q7|apply disj_sym; exact Q6|exact D4]|apply disj_sym; exact Dhd]|].
    split; [apply union_sub; [apply Sh; exact Q7|apply Sh; exact SHd]|].
    rewrite E2, Lp. apply (trail_app _ _ _ p).
    + eapply trail_ext; [exact AgD|apply union_l|exact Tr].
    + apply trail_next; [apply union_r|exact H1|]. rewrite H2. constructor.
Qed.

(** At the end of the call. *)
Lemma follows_update : forall w t r2 r vs F D, wok w -> follows w t r2 r vs F D ->
  exists w', returns vec_update_mut_ref [r2] w [] w' /\ frame w w' (cell r2) /\ vec_ref w' t r2 vs F /\ vec_ref w' t r vs F /\ load 4 (mem w') r2 = load 4 (mem w') r.
Proof.
  intros w t r2 r vs F D Hw (V&Q1&Q2&Q3&Q4&Q5&Q6&Q7&Tr). pose proof (vec_ref_inv _ _ _ _ _ V) as (cap&G&Va&S1&S2&S3&S4&S5&S6).
  set (p := load 4 (mem w) r) in *. pose proof Va as (V1&V2&V3&V4&V5). pose proof (esize_range t) as Hsz. pose proof Hw as (P1&P2&P3&P4&P5&P6).
  assert (Hcs : 0 <= cap * Z.of_nat (esize t)) by nia. destruct (sub_block _ _ _ _ (sub_trans _ _ _ S1 S6)) as [L1 L2]; [lia|].
  destruct (sub_block _ _ _ _ Q1) as [R1 R2]; [lia|].
  assert (Ap : p + 8 <= r2 \/ r2 + 4 <= p).
  { destruct (Z.le_gt_cases (p + 8) r2); [auto|]. destruct (Z.le_gt_cases (r2 + 4) p); [auto|]. exfalso. apply (Q3 (Z.max p r2)); [unfold cell, between; lia|]. apply S1. unfold spine, between. lia. }
  assert (Hd : load 4 (mem w) p <> DEAD_BEEF).
  { rewrite V1. unfold DEAD_BEEF. assert (cap * 1 <= cap * Z.of_nat (esize t)) by (apply Z.mul_le_mono_nonneg_l; lia). lia. }
  destruct (trail_chain w r2 D _ _ Tr Q7 Q4 ltac:(lia) ltac:(lia) Ap Hd) as (k&C).
  pose proof (update_mut_ref_spec k w r2 _ p Hw ltac:(lia) ltac:(lia) eq_refl C) as W.
  apply wpf_cases in W as [(rs&w2&R'&->&Fr&Lq)|[]]; [|contradiction]. exists w2. split; [exact R'|].
  assert (Fr' : frame w w2 (cell r2)) by exact Fr. split; [exact Fr'|]. pose proof Fr as (_&_&Fg&_&_&_&Fm).
  assert (Hnot : forall y, ~ cell r2 y -> rd (mem w2) y = rd (mem w) y) by exact Fm.
  assert (AgF : agree (mem w) (mem w2) F) by (intros y Y; apply Hnot; intros Z; eapply Q3; eassumption).
  assert (Lr : load 4 (mem w2) r = p) by (unfold p; apply load_ext; intros i Hi; apply Hnot; intros Z; apply (Q2 (r + i)); [exact Z|unfold cell, between; lia]).
  destruct V as (V_1&V_2&V_3&V_4). unfold vec_ref, ref_to. unfold heap. rewrite Fg, Lq, Lr. fold p in V_4.
  assert (Fo : field_of (mem w2) (TVec t) (vrep (mem w2) (TVec t)) (VVec vs) p F) by (eapply field_of_agree; [exact AgF|exact V_4]).
  auto 10.
Qed.

Lemma pushes_ok : forall ep t r r2 us xs w vs F D Fx, wf_ty t -> wok w -> maxpages w <= 16384 ->
  follows w t r2 r vs F D -> words (mem w) (plain_fields (map (fun _ => t) us)) us xs Fx -> sub Fx (heap w) -> disj (cell r) Fx -> disj F Fx -> disj (cell r2) Fx -> disj D Fx ->
  (exists w' F' D', pushes ep t r xs w w' /\ wok w' /\ follows w' t r2 r (vs ++ us) F' D' /\ evolves w w' (union (cell r) (union F Fx))) \/
  (exists us1 xs1 x xs2 w1, xs = xs1 ++ x :: xs2 /\ us1 = firstn (List.length xs1) us /\ pushes ep t r xs1 w w1 /\
     no_memory (vec_push_back ep t) [r; x] w1 (has_small (TVec t)) (vec_bytes t (copy_cap 2 (List.length (vs ++ us1))) + sumz (map (csize t) (vs ++ us1)))).
Proof.
  intros ep t r r2. induction us as [|u us IH]; intros [|x xs] w vs F D Fx Wf Hw Mp Fo Ws Sx D1 D2 D3 D4; cbn [plain_fields map words] in Ws; try contradiction.
  { left. exists w, F, D. rewrite app_nil_r. split; [reflexivity|]. split; [exact Hw|]. split; [exact Fo|]. apply evolves_refl. exact Hw. }
  destruct Ws as (F1&F2&W1&W2&W3&W4&W5&W6). fold (plain_fields (map (fun _ => t) us)) in W3. unfold word in W1. cbn [fst snd] in W1, W2.
  assert (Sb : forall A, disj A Fx -> disj A F1 /\ disj A F2) by (intros A H; split; eapply disj_sub; try exact H; try apply sub_refl; assumption).
  destruct (Sb _ D1) as (D1a&D1b). destruct (Sb _ D2) as (D2a&D2b). destruct (Sb _ D3) as (D3a&D3b). destruct (Sb _ D4) as (D4a&D4b).
  destruct (follows_push ep t w r r2 x u vs F D F1 Wf Hw Mp Fo) as [(w1&F'&D'&R&Fo1&S1&S2&Ev)|N].
  - split; [exact W1|intros y Y; apply Sx, W5; exact Y].
  - exact W2.
  - exact D1a.
  - exact D2a.
  - exact D3a.
  - exact D4a.
  - pose proof Ev as (Hw1&Mx&_&Gn&_).
    assert (S2h : sub F2 (heap w)) by (intros y Y; apply Sx, W6; exact Y).
    assert (DF : disj F' F2).
    { intros y Y Z. destruct (S1 y Y) as [[Y1|Y1]|Y1]; [eapply D2b; eassumption|eapply W4; eassumption|]. apply S2h in Z. unfold heap, fresh, between in *. lia. }
    destruct (IH xs w1 (vs ++ [u]) F' D' F2 Wf Hw1) as [(w'&F3&D3'&P&Hw'&Fo'&Ev')|(us1&xs1&x1&xs2&w0&E1&E2&P&N)].
    + lia.
    + exact Fo1.
    + eapply words_agree; [|exact W3]. eapply evolves_agree; [exact Ev|exact S2h|]. intros y [Y|Y] Z; [eapply D1b; eassumption|eapply D2b; eassumption].
    + eapply evolves_heap; [exact Ev|exact S2h].
    + exact D1b.
    + exact DF.
    + exact D3b.
    + intros y Y Z. destruct (S2 y Y) as [Y1|Y1]; [eapply D4b; eassumption|eapply D2b; eassumption].
    + left. exists w', F3, D3'. split; [exists w1; split; assumption|]. split; [exact Hw'|]. rewrite <- app_assoc in Fo'. split; [exact Fo'|].
      pose proof Ev' as (E1&E2&E3&E4&E5&E6&E7). pose proof Ev as (_&_&B3&_&B5&B6&B7). unfold evolves. split; [exact E1|]. split; [congruence|]. split; [lia|]. split; [lia|]. split; [congruence|]. split; [congruence|].
      intros a Ha Na. rewrite E7, B7; [reflexivity|exact Ha|intros [Y|Y]; apply Na; [left|right; left]; exact Y|lia|]. intros [Y|[Y|Y]]; [apply Na; left; exact Y| |apply Na; right; right; apply W6; exact Y]. destruct (S1 a Y) as [[Y1|Y1]|Y1]; [apply Na; right; left; exact Y1|apply Na; right; right; apply W5; exact Y1|unfold fresh, between in Y1; lia].
    + right. exists (u :: us1), (x :: xs1), x1, xs2, w0. split; [rewrite E1; reflexivity|]. split; [cbn [firstn List.length]; f_equal; exact E2|]. split; [exists w1; split; assumption|].
      rewrite <- app_assoc in N. exact N.
  - right. exists [], [], x, xs, w. split; [reflexivity|]. split; [reflexivity|]. split; [reflexivity|]. rewrite app_nil_r. exact N.
Qed.

(** What the caller's reference leads to. *)
Lemma pushes_reach_ok : forall ep t r r2 us xs w vs F Fx, wf_ty t -> wok w -> maxpages w <= 16384 ->
  vec_ref w t r vs F -> vec_ref w t r2 vs F -> disj (cell r2) (cell r) -> load 4 (mem w) r2 = load 4 (mem w) r ->
  words (mem w) (plain_fields (map (fun _ => t) us)) us xs Fx -> sub Fx (heap w) -> disj (cell r) Fx -> disj F Fx -> disj (cell r2) Fx ->
  (exists w' w'' F', pushes ep t r xs w w' /\ returns vec_update_mut_ref [r2] w' [] w'' /\ frame w' w'' (cell r2) /\ vec_ref w'' t r2 (vs ++ us) F') \/
  (exists xs1 x xs2 w1 us1, xs = xs1 ++ x :: xs2 /\ us1 = firstn (List.length xs1) us /\ pushes ep t r xs1 w w1 /\
     no_memory (vec_push_back ep t) [r; x] w1 (has_small (TVec t)) (vec_bytes t (copy_cap 2 (List.length (vs ++ us1))) + sumz (map (csize t) (vs ++ us1)))).
Proof.
  intros ep t r r2 us xs w vs F Fx Wf Hw Mp V V2 D0 E Ws Sx D1 D2 D3.
  assert (Fo : follows w t r2 r vs F empty).
  { split; [exact V|]. pose proof V as (V_1&V_2&V_3&V_4). pose proof V2 as (W1&W2&W3&W4). split; [exact W1|]. split; [exact D0|]. split; [exact W2|].
    repeat (split; [intros y; unfold empty; tauto|]). rewrite E. constructor. }
  destruct (pushes_ok ep t r r2 us xs w vs F empty Fx Wf Hw Mp Fo Ws Sx D1 D2 D3 ltac:(intros y [])) as [(w'&F'&D'&P&Hw'&Fo'&_)|(us1&xs1&x&xs2&w1&H)].
  - left. destruct (follows_update _ _ _ _ _ _ _ Hw' Fo') as (w2&R&Fr&Vr&_). exists w', w2, F'. auto.
  - right. exists xs1, x, xs2, w1, us1. exact H.
Qed.

(** ** Passing *)

Lemma givens_ok : forall args w xs, Forall2 (arg_ok w) args xs -> Forall2 word_ok args (givens (mem w) args xs).
Proof.
  intros args w xs H. induction H as [|a x args xs H1 H IH]; cbn [givens]; constructor; [|exact IH].
  destruct a as [t|t|t]; unfold given; cbn [by_ref word_ok arg_ok] in *; [exact H1|apply load_4_range|apply load_4_range].
Qed.
Lemma givens_length : forall args m xs, List.length xs = List.length args -> List.length (givens m args xs) = List.length args.
Proof. induction args as [|a args IH]; intros m [|x xs] L; cbn [givens List.length] in *; try discriminate; auto. Qed.
Lemma givens_nth : forall args m xs i a x, nth_error args i = Some a -> nth_error xs i = Some x -> nth_error (givens m args xs) i = Some (given m a x).
Proof.
  induction args as [|a0 args IH]; intros m [|x0 xs] [|i] a x Ha Hx; cbn [nth_error givens] in *; try discriminate; [congruence|]. eapply IH; eassumption.
Qed.
Lemma holds_self : forall ys i pre rest, List.length pre = i -> holds i ys (pre ++ ys ++ rest).
Proof.
  induction ys as [|y ys IH]; intros i pre rest L; cbn [holds]; [exact Logic.I|]. split.
  - rewrite nth_error_app2, L, Nat.sub_diag by lia. reflexivity.
  - change (pre ++ (y :: ys) ++ rest) with (pre ++ [y] ++ ys ++ rest). rewrite app_assoc. apply IH. rewrite app_length. cbn. lia.
Qed.
Lemma boxed_all_nth : forall args w w' i0 ys l i a y, boxed_all w w' i0 args ys l -> nth_error args i = Some a -> nth_error ys i = Some y ->
  exists r, nth_error l (i0 + i) = Some r /\ boxed w w' a y r.
Proof.
  induction args as [|a0 args IH]; intros w w' i0 [|y0 ys] l [|i] a y H Ha Hy; cbn [nth_error boxed_all] in *; try discriminate; destruct H as (H1&H2).
  - injection Ha as <-. injection Hy as <-. rewrite Nat.add_0_r. exact H1.
  - replace (i0 + S i)%nat with (S i0 + i)%nat by lia. eapply IH; eassumption.
Qed.
Lemma extends_agree : forall w w' F, extends w w' -> sub F (heap w) -> agree (mem w) (mem w') F.
Proof. intros w w' F Ex S y Y. destruct Ex as (_&_&_&_&_&_&E). apply E. apply S in Y. unfold heap, between in Y. lia. Qed.

Lemma boxed_passed : forall w w' a x r u F, wok w -> extends w w' -> at_call w a x u F -> boxed w w' a (given (mem w) a x) r -> passed w w' a x r u F.
Proof.
  intros w w' a x r u F Hw Ex Ac (B1&B2&B3). pose proof Hw as (P1&P2&P3&P4&P5&P6). pose proof Ex as (Hw'&_&_&Gn&_). unfold passed.
  assert (Cf : sub (cell r) (fresh w w')) by (intros y Y; unfold cell, fresh, between in *; lia). split; [exact Cf|].
  assert (Ch : sub (cell r) (heap w')) by (intros y Y; apply Cf in Y; unfold fresh, heap, between in *; lia).
  assert (Dh : forall G, sub G (heap w) -> disj (cell r) G) by (intros G S y Y Z; apply Cf in Y; apply S in Z; unfold fresh, heap, between in *; lia).
  assert (Sh : forall G, sub G (heap w) -> sub G (heap w')) by (intros G S y Y; apply S in Y; unfold heap, between in *; lia).
  assert (Rf : forall t, ref_to w t x u F -> load 4 (mem w') r = load 4 (mem w) x -> ref_to w' t r u F /\ load 4 (mem w') r = load 4 (mem w') x).
  { intros t (R1&R2&R3&R4) L. split.
    - split; [exact Ch|]. split; [apply Dh; exact R3|]. split; [apply Sh; exact R3|]. rewrite L. eapply field_of_agree; [|exact R4]. apply extends_agree; assumption.
    - rewrite L. symmetry. apply load_ext. intros i Hi. apply (extends_agree w w' (cell x)); [exact Ex|exact R1|unfold cell, between; lia]. }
  destruct a as [t|t|t]; unfold given in B3; cbn [by_ref at_call target] in *; [|apply Rf; assumption|apply Rf; assumption].
  destruct Ac as (V&S). destruct (is_stack t) eqn:St.
  - destruct B3 as (B3&B4&B5). exists (union F (between (r + 4) (r + 4 + Z.of_nat (esize t)))). split.
    + split; [exact Ch|]. split; [|split].
      * intros y Y [Z|Z]; [eapply Dh; eassumption|]. unfold cell, between in *. lia.
      * intros y [Y|Y]; [apply (Sh F); assumption|]. unfold heap, between in *. lia.
      * rewrite B3. unfold field_of. rewrite St. split; [apply union_r|]. rewrite B4. apply vrep_stack in V; [exact V|exact St].
    + intros y [Y|Y]; [left; exact Y|right; unfold fresh, between in *; lia].
  - exists F. split; [|apply union_l]. split; [exact Ch|]. split; [apply Dh; exact S|]. split; [apply Sh; exact S|]. rewrite B3. unfold field_of. rewrite St.
    eapply vrep_ext; [|exact V]. apply extends_agree; assumption.
Qed.

Lemma arguments_ok : forall args xs b c s l w, wok w -> Forall2 (arg_ok w) args xs -> (b + List.length args <= c)%nat -> (c + List.length args <= List.length l)%nat ->
  exists ys l', runs (prepare_arguments b c args) (rev xs ++ s) l w (rev ys ++ s) l' w /\ same_locals (call_locals b c (List.length args)) l l' /\ List.length ys = List.length args /\
  forall v q nl, v <> q -> (List.length args <= v < List.length args + nl)%nat -> (List.length args <= q < List.length args + nl)%nat ->
    (exists w' l2, runs (box_args v q 0 args) [] (ys ++ repeat 0 nl) w [] l2 w' /\ extends w w' /\
       forall i a x u F, nth_error args i = Some a -> nth_error xs i = Some x -> at_call w a x u F ->
         exists r, nth_error l2 i = Some r /\ passed w w' a x r u F) \/
    (crashes (box_args v q 0 args) [] (ys ++ repeat 0 nl) w /\ oom w (args_memory args)).
Proof.
  intros args xs b c s l w Hw Ha L1 L2. pose proof (Forall2_len _ _ _ _ _ Ha) as Lx. exists (givens (mem w) args xs).
  assert (W : wp (prepare_arguments b c args ++ []) (fun o => exists l', o = ONormal (rev (givens (mem w) args xs) ++ s) l' w /\ same_locals (call_locals b c (List.length args)) l l') (rev xs ++ s) l w).
  { apply wp_prepare_arguments; [exact Ha|exact Hw|exact L1|exact L2|]. intros l' Sl _. apply wp_nil. eauto. }
  rewrite app_nil_r in W. destruct W as (n&_&(l'&W&Sl)). exists l'. split; [exists n; exact W|]. split; [exact Sl|]. pose proof (givens_length args (mem w) xs Lx) as Ly. split; [exact Ly|].
  intros v q nl Nvq Lv Lq. set (ys := givens (mem w) args xs) in *.
  assert (W2 : wp (box_args v q 0 args ++ []) (fun o => (o = OTrap /\ oom w (args_memory args)) \/ exists w' l2, o = ONormal [] l2 w' /\ extends w w' /\ boxed_all w w' 0 args ys l2) [] (ys ++ repeat 0 nl) w).
  { assert (Ll : List.length (ys ++ repeat 0 nl) = (List.length args + nl)%nat) by (rewrite app_length, repeat_length; lia).
    apply (wp_box_args args v q 0 ys); [apply givens_ok; exact Ha|exact Hw|exact Nvq|lia|lia|lia|lia|apply (holds_self ys 0 []); reflexivity|auto|].
    intros w' l2 Ex _ _ B. apply wp_nil. right. eauto. }
  rewrite app_nil_r in W2. destruct W2 as (n2&_&[(E&O)|(w'&l2&E&Ex&B)]); [right; split; [exists n2; exact E|exact O]|].
  left. exists w', l2. split; [exists n2; exact E|]. split; [exact Ex|]. intros i a x u F Hi Hx Ac.
  destruct (boxed_all_nth _ _ _ _ _ _ _ _ _ B Hi (givens_nth _ (mem w) _ _ _ _ Hi Hx)) as (r&N&Bx). exists r. split; [exact N|]. eapply boxed_passed; eassumption.
Qed.

(** ** Changes in place *)

Lemma runs_det : forall is s l w s1 l1 w1 s2 l2 w2, runs is s l w s1 l1 w1 -> runs is s l w s2 l2 w2 -> s1 = s2 /\ l1 = l2 /\ w1 = w2.
Proof.
  intros is s l w s1 l1 w1 s2 l2 w2 (n&H1) (k&H2).
  assert (E : exec n is s l w = exec k is s l w).
  { destruct (Nat.le_ge_cases n k) as [L|L].
    - symmetry. apply exec_mono; [rewrite H1; discriminate|exact L].
    - apply exec_mono; [rewrite H2; discriminate|exact L]. }
  rewrite H1, H2 in E. injection E as -> -> ->. auto.
Qed.
Lemma cell_of_shared : forall m v path r r', load 4 m r = load 4 m r' -> path <> [] -> (forall n, v <> VInt n) -> cell_of m v path r = cell_of m v path r'.
Proof. intros m v [|i path] r r' E N Nv; [contradiction|]. destruct v; cbn [cell_of]; rewrite ?E; try reflexivity. destruct (Nv n eq_refl). Qed.
Lemma part_not_int : forall t v i path t' v', part t v (i :: path) t' v' -> forall n, v <> VInt n.
Proof. intros t v i path t' v' P n E. subst v. inversion P. Qed.
Lemma write_number_shared : forall t p q r r' s l w s' l' w', is_number t = true -> wok w -> sub (cell r) (heap w) -> sub (cell r') (heap w) -> load 4 (mem w) r = load 4 (mem w) r' ->
  runs (write_ref t p q) (r :: s) l w s' l' w' -> runs (write_ref t p q) (r' :: s) l w s' l' w'.
Proof.
  intros t p q r r' s l w s' l' w' Nt Hw S1 S2 E (n&H). exists n. rewrite <- H. pose proof Hw as (P1&P2&P3&P4&P5&P6).
  destruct (sub_block _ _ _ _ S1) as [X1 X2]; [lia|]. destruct (sub_block _ _ _ _ S2) as [Y1 Y2]; [lia|].
  assert (Ew : exists k, write_ref t p q = Load 4 0 :: k) by (destruct t; try discriminate; eexists; reflexivity). destruct Ew as (k&Ew). rewrite Ew.
  destruct n as [|n]; [reflexivity|]. rewrite !exec_basic by reflexivity. cbn [step]. rewrite !Z.add_0_r.
  assert (I : forall a, 0 <= a -> a + 4 <= gnext w -> inb w a (Z.of_nat 4) = true).
  { intros a A1 A2. unfold inb, page_size. apply andb_true_intro. split; apply Z.leb_le; lia. }
  rewrite (I r), (I r'), E by lia. reflexivity.
Qed.

Lemma write_shared_ok : forall w t r r' v F path t' v' u x Fx p q s l, p <> q -> (p < List.length l)%nat -> (q < List.length l)%nat ->
  wok w -> ref_to w t r v F -> ref_to w t r' v F -> load 4 (mem w) r' = load 4 (mem w) r -> disj (cell r) (cell r') ->
  part t v path t' v' -> path <> [] \/ is_number t = true -> owns w t' u x Fx -> 0 <= x < 256 ^ Z.of_nat (esize t') -> disj (cell r) Fx -> disj (cell r') Fx -> disj F Fx ->
  exists w' l', runs (write_ref t' p q) (cell_of (mem w) v path r' :: x :: s) l w s l' w' /\ same_locals [p; q] l l' /\ frame w w' F /\
    ref_to w' t r (put v path u) (union F Fx) /\ ref_to w' t r' (put v path u) (union F Fx) /\ load 4 (mem w') r' = load 4 (mem w') r.
Proof.
  intros w t r r' v F path t' v' u x Fx p q s l Npq Lp Lq Hw R R' E D0 P Ip Ow Bx D1 D2 D3.
  destruct (write_ok w t r v F path t' v' u x Fx p q s l Npq Lp Lq Hw R P Ow Bx D1 D3) as (w1&l1&Ru1&Sl1&Fr1&Rt1&_).
  destruct (write_ok w t r' v F path t' v' u x Fx p q s l Npq Lp Lq Hw R' P Ow Bx D2 D3) as (w2&l2&Ru2&Sl2&Fr2&Rt2&_).
  assert (Ru : runs (write_ref t' p q) (cell_of (mem w) v path r' :: x :: s) l w s l1 w1).
  { destruct path as [|i path].
    - inversion P; subst. destruct Ip as [Ip|Ip]; [contradiction|]. cbn [cell_of] in *. eapply (write_number_shared t' p q r r'); [exact Ip|exact Hw|apply R|apply R'|congruence|exact Ru1].
    - rewrite (cell_of_shared _ _ _ r' r E); [exact Ru1|discriminate|eapply part_not_int; exact P]. }
  destruct (runs_det _ _ _ _ _ _ _ _ _ _ Ru Ru2) as (_&<-&<-).
  assert (Fr : frame w w1 F).
  { destruct Fr1 as (A1&A2&A3&A4&A5&A6&A7). destruct Fr2 as (_&_&_&_&_&_&B7). unfold frame. repeat (split; [assumption|]). intros y Ny.
    destruct (Z_lt_dec y r); [apply A7; intros [Y|Y]; [unfold cell, between in Y; lia|contradiction]|].
    destruct (Z_lt_dec y (r + 4)); [|apply A7; intros [Y|Y]; [unfold cell, between in Y; lia|contradiction]].
    apply B7. intros [Y|Y]; [|contradiction]. eapply D0; [|exact Y]. unfold cell, between. lia. }
  exists w1, l1. split; [exact Ru|]. split; [exact Sl1|]. split; [exact Fr|]. split; [exact Rt1|]. split; [exact Rt2|].
  destruct Fr as (_&_&_&_&_&_&Fm).
  assert (Ld : forall y, disj (cell y) F -> load 4 (mem w1) y = load 4 (mem w) y).
  { intros y Dy. apply load_ext. intros i Hi. apply Fm. intros Y. eapply (Dy (y + i)); [unfold cell, between; lia|exact Y]. }
  rewrite !Ld; [exact E|apply R|apply R'].
Qed.

(** ** What is lost *)

Lemma extends_flag : forall w w', wok w -> extends w w' -> abort_flag w' = abort_flag w.
Proof. intros w w' (P1&P2&P3&P4&P5&P6) Ex. unfold abort_flag. apply (extends_load w w' 4 256 Ex); lia. Qed.

Lemma assign_spec : forall t w p x, is_number t = false -> wok w -> 0 <= p < 2 ^ 32 -> 0 <= x < 2 ^ 32 ->
  wpf (assign_fn t) [p; x] w (resq (fun rs w' => rs = [] /\ extends w w') (oom w 8)).
Proof.
  intros t w p x Nt Hw Hp Hx. assert (St : is_stack t = false) by (destruct t; try discriminate; reflexivity). assert (Es : esize t = 4%nat) by (destruct t; try discriminate; reflexivity).
  assert (Bm : box_memory t = 4) by (unfold box_memory, boxes; cbn [fold_right]; rewrite St; reflexivity).
  assert (Am : args_memory [mut_ref t; AVal t] = 8) by (unfold args_memory; cbn [fold_right arg_memory]; rewrite Bm; destruct t; reflexivity).
  apply wpf_intro; [reflexivity|]. cbn [app repeat]. apply wp_block.
  apply (wp_box_args [mut_ref t; AVal t] 2 3 0 [p; x]); cbn [List.length]; try lia; [|exact Hw| | |].
  { constructor; [destruct t; exact Hp|]. constructor; [|constructor]. cbn [word_ok]. rewrite Es. exact Hx. }
  { cbn [holds nth_error]. auto. }
  { rewrite Am. intros O. exact O. }
  rewrite Am. intros w1 l1 Ex (Sl&_) G1 B. cbn [boxed_all] in B. destruct B as ((r0&N0&B0)&(r1&N1&B1)&_). cbn [List.length] in Sl. pose proof Hw as (P1&P2&P3&P4&P5&P6). pose proof Ex as (Hw1&_). pose proof Hw1 as (Q1&Q2&Q3&Q4&Q5&Q6).
  destruct B0 as (B0a&B0b&_). destruct B1 as (B1a&B1b&_). unfold move_local. rewrite St. cbn [app].
  eapply wp_lget; [exact N1|]. eapply wp_load; [lia|unfold page_size; lia|]. eapply wp_lget; [exact N0|]. rewrite Z.add_0_r.
  assert (Ew : write_ref t 4 5 = [ LocalSet 4; LocalSet 5; LocalGet 4; LocalGet 5; Store 4 0 ]) by (destruct t; try discriminate; reflexivity).
  rewrite Ew. cbn [app]. apply wp_lset'; [lia|]. apply wp_lset'; [rewrite set_nth_length; lia|].
  eapply wp_lget; [rewrite set_nth_other by discriminate; apply set_nth_same; lia|]. eapply wp_lget; [apply set_nth_same; rewrite set_nth_length; lia|].
  eapply wp_store; [lia|unfold page_size; lia|]. rewrite Z.add_0_r. change (Z.of_nat 4) with 4. cbn [prepare_return app]. apply wp_br. cbn [blk String.eqb Ascii.eqb Bool.eqb]. apply wp_nil. cbn [fret firstn app]. split; [reflexivity|].
  eapply extends_write with (p := r0) (n := 4); [exact Hw|exact Ex| |lia|lia]. intros y Ny. apply rd_store_out. unfold within in Ny. lia.
Qed.

Lemma header_alive : forall w t r vs F, wok w -> vec_ref w t r vs F -> let p := load 4 (mem w) r in
  468 <= r /\ r + 4 <= gnext w /\ 0 <= p /\ p + 8 <= gnext w /\ (p + 8 <= r \/ r + 4 <= p) /\ load 4 (mem w) p <> DEAD_BEEF /\ load 4 (mem w) p = Z.of_nat (List.length vs).
Proof.
  intros w t r vs F Hw V p. pose proof (vec_ref_inv _ _ _ _ _ V) as (cap&G&Va&S1&S2&S3&S4&S5&S6). fold p in Va, S1, S3.
  pose proof Va as (V1&V2&V3&V4&V5). pose proof (esize_range t) as Hsz. pose proof Hw as (P1&P2&P3&P4&P5&P6).
  assert (Hcs : 0 <= cap * Z.of_nat (esize t)) by nia. destruct (sub_block _ _ _ _ (sub_trans _ _ _ S1 S6)) as [L1 L2]; [lia|]. destruct (sub_block _ _ _ _ S4) as [R1 R2]; [lia|].
  repeat (split; [lia|]). split; [|split; [|exact V1]].
  - destruct (Z.le_gt_cases (p + 8) r); [auto|]. destruct (Z.le_gt_cases (r + 4) p); [auto|]. exfalso. apply (S5 (Z.max p r)); [unfold cell, between; lia|]. apply S1. unfold spine, between. lia.
  - rewrite V1. unfold DEAD_BEEF. assert (cap * 1 <= cap * Z.of_nat (esize t)) by (apply Z.mul_le_mono_nonneg_l; lia). lia.
Qed.
Lemma ref_to_extends : forall w w' t r v F, extends w w' -> ref_to w t r v F -> ref_to w' t r v F.
Proof.
  intros w w' t r v F Ex (R1&R2&R3&R4). assert (Sh : forall G, sub G (heap w) -> sub G (heap w')) by (intros G S y Y; apply S in Y; pose proof Ex as (_&_&_&Gn&_); unfold heap, between in *; lia).
  split; [apply Sh; exact R1|]. split; [exact R2|]. split; [apply Sh; exact R3|].
  assert (L : load 4 (mem w') r = load 4 (mem w) r) by (apply load_ext; intros i Hi; apply (extends_agree w w' (cell r) Ex R1); unfold cell, between; lia).
  rewrite L. eapply field_of_agree; [apply extends_agree; [exact Ex|exact R3]|exact R4].
Qed.

Lemma assigned_lost : forall t rt q b c r x v F s l w, is_number t = false -> wok w -> abort_flag w = 0 -> (b + 2 <= c)%nat -> (c + 2 <= List.length l)%nat ->
  ref_to w t r v F -> 0 <= x < 2 ^ 32 ->
  (exists w' l', runs (call_with (assign_fn t) [mut_ref t; AVal t] [] rt q b c) (x :: r :: s) l w s l' w' /\ ref_to w' t r v F) \/
  (crashes (call_with (assign_fn t) [mut_ref t; AVal t] [] rt q b c) (x :: r :: s) l w /\ oom w 8).
Proof.
  intros t rt q b c r x v F s l w Nt Hw Hf L1 L2 R Hx. assert (Es : esize t = 4%nat) by (destruct t; try discriminate; reflexivity).
  assert (W : wp (call_with (assign_fn t) [mut_ref t; AVal t] [] rt q b c) (fun o => (o = OTrap /\ oom w 8) \/ exists w' l', o = ONormal s l' w' /\ ref_to w' t r v F) (x :: r :: s) l w).
  2:{ destruct W as (n&_&[(E&O)|(w'&l'&E&K)]); [right; split; [exists n; exact E|exact O]|left; exists w', l'; split; [exists n; exact E|exact K]]. }
  unfold call_with. change (x :: r :: s) with (rev [r; x] ++ s). apply wp_prepare_arguments; [|exact Hw|exact L1|exact L2|].
  { constructor; [destruct t; exact (proj1 R)|]. constructor; [cbn [arg_ok]; rewrite Es; exact Hx|constructor]. }
  intros l' (Sl&_) Rec. cbn [givens rev app call_code]. unfold call_code. rewrite <- !app_assoc. cbn [app].
  assert (Gv : given (mem w) (mut_ref t) r = load 4 (mem w) r) by (destruct t; reflexivity). rewrite Gv.
  eapply wp_call_spec; [reflexivity|cbn [List.length]; lia|cbn [firstn rev app]; apply assign_spec; [exact Nt|exact Hw|apply load_4_range|unfold given; cbn [by_ref]; exact Hx]|intros O; left; split; [reflexivity|exact O]|].
  intros rs w1 (->&Ex). cbn [app skipn]. pose proof Ex as (Hw1&_). apply wp_propagate_ok; [exact Hw1|rewrite (extends_flag w w1 Hw Ex); exact Hf|]. cbn [unpack_return app].
  pose proof (ref_to_extends _ _ _ _ _ _ Ex R) as R1. cbn [recorded] in Rec. destruct Rec as (Rec&_).
  destruct t as [| | | | | | | |e|k fs|vts]; try discriminate; cbn [update_refs mut_ref app].
  - (* a vector *) cbn [mut_ref] in Rec. eapply wp_lget; [exact Rec|].
    assert (V : exists vs, v = VVec vs).
    { destruct R1 as (_&_&_&R4). unfold field_of in R4. cbn [is_stack] in R4. apply vrep_vec in R4 as (vs&_&_&E&_). eauto. }
    destruct V as (vs&->). destruct (header_alive w1 e r vs F Hw1 R1) as (A1&A2&A3&A4&A5&A6&_).
    eapply wp_call_spec; [reflexivity|cbn [List.length]; lia|cbn [firstn rev app]; eapply (update_mut_ref_spec 0 w1 r); [exact Hw1|exact A1|exact A2|reflexivity|constructor; assumption]|contradiction|].
    intros rs w2 (->&Fr&Lr). cbn [app skipn]. apply wp_nil. right. exists w2, l'. split; [reflexivity|].
    destruct R1 as (R1&R2&R3&R4). pose proof Fr as (_&_&Fg&_&_&_&Fm). unfold ref_to, heap. rewrite Fg, Lr. split; [exact R1|]. split; [exact R2|]. split; [exact R3|].
    eapply field_of_agree; [|exact R4]. intros y Y. apply Fm. intros Z. apply (R2 y); [exact Z|exact Y].
  - apply wp_nil. right. exists w1, l'. auto.
  - apply wp_nil. right. exists w1, l'. auto.
Qed.

(** [same_fn] returns the address of its own cell. *)
Lemma same_spec : forall t w p, wok w -> 0 <= p < 2 ^ 32 ->
  wpf (same_fn t) [p] w (resq (fun rs w' => rs = [gnext w + 4] /\ extends w w' /\ load 4 (mem w') (gnext w + 4) = gnext w /\ load 4 (mem w') (gnext w) = p /\ gnext w' = gnext w + 8) (oom w 8)).
Proof.
  intros t w p Hw Hp. apply wpf_intro; [reflexivity|]. cbn [app repeat]. apply wp_block.
  apply (wp_box_args [AVec t] 1 2 0 [p]); cbn [List.length]; try lia; [|exact Hw| | |].
  { constructor; [exact Hp|constructor]. }
  { cbn [holds nth_error]. auto. }
  { intros O. cbn [blk fret]. eapply oom_mono; [exact O|]. unfold args_memory. cbn [fold_right arg_memory]. lia. }
  change (args_memory [AVec t]) with 4. intros w1 l1 Ex (Sl&Slo) G1 B. cbn [boxed_all] in B. destruct B as ((r0&N0&B0)&_). cbn [List.length] in Sl, Slo.
  pose proof Hw as (P1&P2&P3&P4&P5&P6). pose proof Ex as (Hw1&Mx&_). pose proof Hw1 as (Q1&Q2&Q3&Q4&Q5&Q6). destruct B0 as (B0a&B0b&B0c). cbn [boxed] in B0c.
  assert (Er : r0 = gnext w) by lia. subst r0. cbn [app]. eapply wp_lget; [exact N0|]. cbn [prepare_return spill store_returns app List.length Nat.add]. change (total_size [TU32]) with 4.
  apply wp_lset'; [lia|]. ws1.
  eapply wp_call_spec; [reflexivity|cbn [List.length]; lia|cbn [firstn rev app]; apply alloc_spec; [exact Hw1|lia]|intros O; cbn [blk fret]; unfold oom in *; lia|].
  intros rs w2 (->&Al). cbn [app skipn]. pose proof (alloc_extends _ _ _ Hw1 Al ltac:(lia)) as Ex2. destruct Al as (Hw2&Em2&Mx2&Pg2&Gn2&Gc2&Ho2). pose proof Hw2 as (R1&R2&R3&R4&R5&R6).
  apply wp_lset'; [rewrite set_nth_length; lia|]. eapply wp_lget; [apply set_nth_same; rewrite set_nth_length; lia|].
  eapply wp_lget; [rewrite set_nth_other by discriminate; apply set_nth_same; lia|]. cbn [esize]. eapply wp_store; [lia|unfold page_size; lia|]. rewrite Z.add_0_r, Em2. change (Z.of_nat 4) with 4. apply wp_br.
  cbn [blk String.eqb Ascii.eqb Bool.eqb firstn app]. eapply wp_lget; [apply set_nth_same; rewrite set_nth_length; lia|]. apply wp_nil. cbn [fret firstn app mem set_mem gnext].
  replace (gnext w1) with (gnext w + 4) by lia. split; [reflexivity|].
  split; [|split; [|split; [|lia]]].
  - eapply extends_write with (p := gnext w + 4) (n := 4); [exact Hw|eapply extends_trans; [exact Ex|exact Ex2]| |lia|lia]. intros y Ny. rewrite Em2. apply rd_store_out. unfold within in Ny. lia.
  - rewrite load_4_store. apply w32_small. lia.
  - rewrite load_store_other by lia. exact B0c.
Qed.

Lemma returned_lost : forall ep t rt q b c kr kx r x u vs F Fx s l w, wf_ty t -> wok w -> abort_flag w = 0 -> maxpages w <= 16384 ->
  (b < c)%nat -> (c < List.length l)%nat -> (q < List.length l)%nat -> ~ In kr [q; b; c] -> ~ In kx [q; b; c] -> nth_error l kr = Some r -> nth_error l kx = Some x -> q <> c ->
  vec_ref w t r vs F -> load 4 (mem w) (load 4 (mem w) r + 4) = Z.of_nat (List.length vs) ->
  owns w t u x Fx -> 0 <= x < 256 ^ Z.of_nat (esize t) -> disj (cell r) Fx -> disj F Fx ->
  (exists w' l', runs (push_through ep t rt q b c kr kx) (r :: s) l w (DEAD_BEEF :: s) l' w') \/
  (crashes (push_through ep t rt q b c kr kx) (r :: s) l w /\
     (oom w 8 \/ exists w1, extends w w1 /\ gnext w1 = gnext w + 8 /\ ctrap w1 (has_small (TVec t)) (vec_bytes t (copy_cap 2 (List.length vs)) + sumz (map (csize t) vs)))).
Proof.
  intros ep t rt q b c kr kx r x u vs F Fx s l w Wf Hw Hf Mp Lbc Lc Lq Nr Nx Er Ex Nqc V Hcap Ow Bx D1 D2.
  set (T := oom w 8 \/ exists w1, extends w w1 /\ gnext w1 = gnext w + 8 /\ ctrap w1 (has_small (TVec t)) (vec_bytes t (copy_cap 2 (List.length vs)) + sumz (map (csize t) vs))).
  assert (W : wp (push_through ep t rt q b c kr kx) (fun o => (o = OTrap /\ T) \/ exists w' l', o = ONormal (DEAD_BEEF :: s) l' w') (r :: s) l w).
  2:{ destruct W as (n&_&[(E&O)|(w'&l'&E)]); [right; split; [exists n; exact E|exact O]|left; exists w', l'; exists n; exact E]. }
  unfold push_through, call_with. rewrite <- !app_assoc. change (r :: s) with (rev [r] ++ s). apply wp_prepare_arguments; [|exact Hw|cbn [List.length]; lia|cbn [List.length]; lia|].
  { constructor; [exact (proj1 V)|constructor]. }
  intros l1 (Sl&Slo) Rec. cbn [recorded] in Rec. destruct Rec as (Rec&_). cbn [givens rev app given by_ref]. unfold call_code. rewrite <- !app_assoc. cbn [app].
  eapply wp_call_spec; [reflexivity|cbn [List.length]; lia|cbn [firstn rev app]; apply same_spec; [exact Hw|apply load_4_range]|intros O; left; split; [reflexivity|left; exact O]|].
  intros rs w1 (->&X1&La&Lb&G1). cbn [app skipn]. pose proof X1 as (Hw1&Mx1&_). pose proof Hw as (P1&P2&P3&P4&P5&P6). pose proof Hw1 as (Q1&Q2&Q3&Q4&Q5&Q6).
  assert (Sq : forall k v0, (k < List.length l1)%nat -> nth_error (set_nth k v0 l1) k = Some v0) by (intros; apply set_nth_same; assumption).
  apply wp_propagate_ok; [exact Hw1|rewrite (extends_flag w w1 Hw X1); exact Hf|]. cbn [unpack_return load_returns app esize].
  apply wp_lset'; [lia|]. eapply wp_lget; [apply Sq; lia|]. eapply wp_load; [lia|unfold page_size; lia|]. rewrite Z.add_0_r, La.
  cbn [update_refs app]. eapply wp_lget; [rewrite set_nth_other by congruence; exact Rec|].
  pose proof (ref_to_extends _ _ _ _ _ _ X1 V) as V1. destruct (header_alive w1 t r vs F Hw1 V1) as (A1&A2&A3&A4&A5&A6&_). set (p := load 4 (mem w1) r) in *.
  assert (Ep : p = load 4 (mem w) r) by (apply (extends_load w w1 4 r X1); destruct (sub_block _ _ _ _ (proj1 V)); lia).
  eapply wp_call_spec; [reflexivity|cbn [List.length]; lia|cbn [firstn rev app]; eapply (update_mut_ref_spec 0 w1 r); [exact Hw1|exact A1|exact A2|reflexivity|constructor; assumption]|contradiction|].
  intros rs w2 (->&Fr&Lr). cbn [app skipn]. pose proof Fr as (Fmx&Fpg&Fg&_&_&_&Fm).
  assert (Hw2 : wok w2) by (eapply wok_frame; [exact Hw1|exact Fr|unfold within; lia]).
  assert (L2 : forall y, y + 4 <= r \/ r + 4 <= y -> load 4 (mem w2) y = load 4 (mem w1) y) by (intros y Y; apply load_ext; intros i Hi; apply Fm; unfold within; lia).
  destruct (sub_block _ _ _ _ (proj1 V)) as [Z1 Z2]; [lia|].
  (* the push, through the cell at [gnext w] *)
  set (r1 := gnext w). assert (Lr1 : load 4 (mem w2) r1 = p) by (rewrite L2 by lia; rewrite Ep; exact Lb).
  pose proof V as (VA&VB&VC&VD).
  assert (Ag : agree (mem w) (mem w2) F).
  { intros y Y. rewrite Fm; [apply (extends_agree w w1 F X1 VC); exact Y|]. intros Z. apply (VB y); [exact Z|exact Y]. }
  assert (Vn : vec_ref w2 t r1 vs F).
  { split; [intros y Y; unfold heap, cell, between, r1 in *; lia|]. split; [intros y Y Z; apply VC in Z; unfold heap, cell, between, r1 in *; lia|].
    split; [intros y Y; apply VC in Y; unfold heap, between in *; lia|]. rewrite Lr1, Ep. eapply field_of_agree; [exact Ag|exact VD]. }
  destruct Ow as (Ox&Sx). apply vec_ref_inv in Vn as (cap&G&Va&S1&S2&S3&S4&S5&S6). rewrite Lr1 in Va, S1, S3. pose proof Va as (V_1&V_2&V_3&V_4&V_5). pose proof (esize_range t) as Hsz.
  assert (Hcs : 0 <= cap * Z.of_nat (esize t)) by nia. destruct (sub_block _ _ _ _ (sub_trans _ _ _ S1 S6)) as [B1 B2]; [lia|].
  assert (Hpc : p + 8 <= gnext w).
  { destruct (sub_block p (p + 8) 0 (gnext w)) as [Y1 Y2]; [|lia|exact Y2]. intros y Y. specialize (VC y (S1 y ltac:(unfold spine, between in *; lia))). unfold heap, between in *. lia. }
  assert (Cf : Z.of_nat (List.length vs) = cap).
  { rewrite <- Hcap, <- V_2, <- Ep. symmetry. rewrite L2 by lia. apply (extends_load w w1 4 (p + 4) X1); lia. }
  assert (Hc2 : 8 + copy_cap 2 (List.length vs) * Z.of_nat (esize t) < 2147483648).
  { unfold copy_cap. destruct (Nat.eqb_spec (List.length vs) 0); [lia|].
    assert (Z.of_nat (List.length vs) * Z.of_nat (esize t) <= cap * Z.of_nat (esize t)) by (apply Z.mul_le_mono_nonneg_r; lia). pose proof Hw2 as (U1&U2&U3&U4&U5&U6). lia. }
  assert (AgX : agree (mem w) (mem w2) Fx).
  { intros y Y. rewrite Fm; [apply (extends_agree w w1 Fx X1 Sx); exact Y|]. intros Z. apply (D1 y); [exact Z|exact Y]. }
  eapply wp_lget; [rewrite set_nth_other by (intros ->; apply Nx; cbn; auto); rewrite Slo by (rewrite call_locals_in; cbn [List.length] in *; intros Z; apply Nx; cbn; lia); exact Ex|].
  eapply wp_call_spec; [reflexivity|cbn [List.length]; lia| | |].
  { cbn [firstn rev app]. eapply (vec_push_spec ep t w2 r1 x u vs p cap G Fx Wf Hw2 S4 Lr1 Va).
    - intros y Y. apply S6, S1. exact Y.
    - intros y Y. apply S6, S2. exact Y.
    - exact S3.
    - eapply disj_sub; [exact S5|apply sub_refl|exact S1].
    - eapply disj_sub; [exact S5|apply sub_refl|exact S2].
    - exact Bx.
    - eapply vrep_ext; [exact AgX|exact Ox].
    - intros y Y. apply Sx in Y. unfold heap, between in *. lia.
    - intros y Y Z. apply Sx in Z. unfold heap, cell, between, r1 in *. lia.
    - eapply disj_sub; [exact D2|exact S1|apply sub_refl].
    - eapply disj_sub; [exact D2|exact S2|apply sub_refl].
    - exact Hc2. }
  { intros (_&Ct). left. split; [reflexivity|]. right. exists w1. split; [exact X1|]. split; [exact G1|]. unfold ctrap, oom, crosses in *. rewrite Fmx, Fg in Ct. exact Ct. }
  intros rs w3 (->&Ev&p'&cap'&G'&Lp'&_&_&_&_&_&_&_&A9). destruct (A9 Cf) as (Dd&_). cbn [app skipn]. pose proof Ev as (Hw3&Mx3&_&Gn3&_&_&Em3). pose proof Hw3 as (U1&U2&U3&U4&U5&U6).
  assert (Keep : forall y, 0 <= y -> y + 4 <= gnext w -> (forall i, 0 <= i < 4 -> ~ F (y + i)) -> load 4 (mem w3) y = load 4 (mem w2) y).
  { intros y Y1 Y2 Y3. apply load_ext. intros i Hi. apply Em3; [lia|]. intros [Z|Z]; [unfold cell, between, r1 in Z; lia|]. apply (Y3 i); [lia|]. apply S1. exact Z. }
  apply wp_propagate_ok; [exact Hw3| |].
  { unfold abort_flag. rewrite Keep; [|lia|lia|intros i Hi Y; apply VC in Y; unfold heap, between in Y; lia]. rewrite L2 by lia. change (abort_flag w1 = 0). rewrite (extends_flag w w1 Hw X1). exact Hf. }
  cbn [app]. eapply wp_lget; [rewrite set_nth_other by (intros ->; apply Nr; cbn; auto); rewrite Slo by (rewrite call_locals_in; cbn [List.length] in *; intros Z; apply Nr; cbn; lia); exact Er|].
  unfold vec_length. eapply wp_load; [lia|unfold page_size; lia|]. rewrite Z.add_0_r, Keep; [|lia|lia|intros i Hi Y; apply (VB (r + i)); [unfold cell, between; lia|exact Y]].
  rewrite Lr. fold p. eapply wp_load; [lia|unfold page_size; lia|]. rewrite Z.add_0_r, Dd. ws1. apply wp_nil. right. exists w3. eexists. reflexivity.
Qed.
