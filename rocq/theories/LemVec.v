(** * Vector properties from the specifications. *)

From Verif Require Import SpecInt Spec Tac RtAlloc RtErr RtEq RtDiv RtShift RtAscii Ops SpecVal LemVal RtCopy RtCopy2 RtVec RtVec2 RtVecEq SpecVec.
Ltac Zify.zify_post_hook ::= idtac.

Lemma vec_ref_inv : forall w t r vs F, vec_ref w t r vs F -> exists cap G,
  vec_at (mem w) t vs (load 4 (mem w) r) cap G /\ sub (spine t (load 4 (mem w) r) cap) F /\ sub G F /\ disj (spine t (load 4 (mem w) r) cap) G /\
  sub (cell r) (heap w) /\ disj (cell r) F /\ sub F (heap w).
Proof.
  intros w t r vs F (A&B&C&D). unfold field_of in D. cbn [is_stack] in D. apply vrep_vec in D as (vs'&cap&G&E&V&S1&S2&S3). injection E as <-.
  exists cap, G. repeat (split; [assumption|]). assumption.
Qed.

Lemma vec_ref_intro : forall w t r vs p cap G F, load 4 (mem w) r = p -> vec_at (mem w) t vs p cap G -> sub (spine t p cap) F -> sub G F ->
  disj (spine t p cap) G -> sub (cell r) (heap w) -> disj (cell r) F -> sub F (heap w) -> vec_ref w t r vs F.
Proof.
  intros w t r vs p cap G F L V S1 S2 D S3 D2 S4. split; [exact S3|]. split; [exact D2|]. split; [exact S4|]. unfold field_of. cbn [is_stack].
  rewrite L. apply vrep_vec. exists vs, cap, G. repeat (split; [first [assumption|reflexivity]|]). assumption.
Qed.

Lemma union_sub : forall F G H, sub F H -> sub G H -> sub (union F G) H.
Proof. intros F G H A B x [X|X]; auto. Qed.
Lemma union_l : forall F G, sub F (union F G). Proof. intros F G x X; left; exact X. Qed.
Lemma union_r : forall F G, sub G (union F G). Proof. intros F G x X; right; exact X. Qed.
Lemma union_disj : forall F G H, disj H F -> disj H G -> disj H (union F G).
Proof. intros F G H A B x X [Y|Y]; eauto. Qed.

Lemma push_back_ok : forall ep t w r x v vs F Fx, wf_ty t -> wok w -> maxpages w <= 16384 ->
  vec_ref w t r vs F -> owns w t v x Fx -> 0 <= x < 256 ^ Z.of_nat (esize t) -> disj (cell r) Fx -> disj F Fx ->
  (exists w' F', returns (vec_push_back ep t) [r; x] w [] w' /\ vec_ref w' t r (vs ++ [v]) F' /\
     sub F' (union (union F Fx) (fresh w w')) /\ evolves w w' (union (cell r) F)) \/
  no_memory (vec_push_back ep t) [r; x] w (has_small (TVec t))
    (vec_bytes t (copy_cap 2 (List.length vs)) + sumz (map (csize t) vs)).
Proof.
  intros ep t w r x v vs F Fx Wf Hw Mp V [Vx SFx] Hx D1 D2. apply vec_ref_inv in V as (cap&G&V&S1&S2&S3&S4&S5&S6).
  set (p := load 4 (mem w) r) in *. pose proof V as (V1&V2&V3&V4&V5). pose proof (esize_range t) as Hsz. pose proof Hw as (P1&P2&P3&P4&P5&P6).
  assert (Hcs : 0 <= cap * Z.of_nat (esize t)) by nia. destruct (sub_block _ _ _ _ (sub_trans _ _ _ S1 S6)) as [L1 L2]; [lia|].
  assert (Hc2 : 8 + copy_cap 2 (List.length vs) * Z.of_nat (esize t) < 2147483648).
  { unfold copy_cap. destruct (Nat.eqb_spec (List.length vs) 0); [lia|].
    assert (Z.of_nat (List.length vs) * Z.of_nat (esize t) <= cap * Z.of_nat (esize t)) by (apply Z.mul_le_mono_nonneg_r; lia). lia. }
  pose proof (vec_push_spec ep t w r x v vs p cap G Fx Wf Hw S4 eq_refl V (sub_trans _ _ _ S1 S6) (sub_trans _ _ _ S2 S6) S3
    (disj_sub _ _ _ _ S5 (sub_refl _) S1) (disj_sub _ _ _ _ S5 (sub_refl _) S2) Hx Vx SFx D1
    (disj_sub _ _ _ _ D2 S1 (sub_refl _)) (disj_sub _ _ _ _ D2 S2 (sub_refl _)) Hc2) as W.
  apply wpf_cases in W as [(rs&w'&R&->&Ev&p'&cap'&G'&Lp&V'&T1&T2&T3&T4&T5&_)|[Tr [_ T]]]; [left|right; split; assumption].
  assert (Gm : gnext w <= gnext w') by apply Ev.
  exists w', (union (spine t p' cap') G'). split; [exact R|].
  assert (SS : sub (union (spine t p' cap') G') (union (union F Fx) (fresh w w'))).
  { apply union_sub; intros y Y; [apply T1 in Y|apply T2 in Y]; unfold union, fresh in *; [destruct Y as [Y|Y]|destruct Y as [[Y|Y]|Y]]; auto. }
  split; [|split; [exact SS|]].
  - eapply vec_ref_intro; [exact Lp|exact V'|apply union_l|apply union_r|exact T3| |apply union_disj; assumption|].
    + eapply sub_trans; [exact S4|]. apply between_sub; lia.
    + eapply sub_trans; [exact SS|]. apply union_sub; [apply union_sub|].
      * eapply sub_trans; [exact S6|]. apply between_sub; lia.
      * eapply sub_trans; [exact SFx|]. apply between_sub; lia.
      * apply between_sub; lia.
  - eapply evolves_sub; [exact Ev|]. intros y [Y|Y]; [left; exact Y|right; apply S1; exact Y].
Qed.

(** A second reference to the same vector, brought up to date. *)
Lemma push_back_alias : forall ep t w r r2 x v vs F Fx, wf_ty t -> wok w -> maxpages w <= 16384 ->
  vec_ref w t r vs F -> owns w t v x Fx -> 0 <= x < 256 ^ Z.of_nat (esize t) -> disj (cell r) Fx -> disj F Fx ->
  sub (cell r2) (heap w) -> disj (cell r2) F -> disj (cell r2) Fx -> disj (cell r2) (cell r) -> load 4 (mem w) r2 = load 4 (mem w) r ->
  (exists w' w'' F', returns (vec_push_back ep t) [r; x] w [] w' /\ returns vec_update_mut_ref [r2] w' [] w'' /\
     vec_ref w'' t r2 (vs ++ [v]) F' /\ load 4 (mem w'') r2 = load 4 (mem w'') r) \/
  no_memory (vec_push_back ep t) [r; x] w (has_small (TVec t))
    (vec_bytes t (copy_cap 2 (List.length vs)) + sumz (map (csize t) vs)).
Proof.
  intros ep t w r r2 x v vs F Fx Wf Hw Mp V [Vx SFx] Hx D1 D2 Q1 Q2 Q3 Q4 Q5. apply vec_ref_inv in V as (cap&G&V&S1&S2&S3&S4&S5&S6).
  set (p := load 4 (mem w) r) in *. pose proof V as (V1&V2&V3&V4&V5). pose proof (esize_range t) as Hsz. pose proof Hw as (P1&P2&P3&P4&P5&P6).
  assert (Hcs : 0 <= cap * Z.of_nat (esize t)) by nia. destruct (sub_block _ _ _ _ (sub_trans _ _ _ S1 S6)) as [L1 L2]; [lia|].
  assert (Hc2 : 8 + copy_cap 2 (List.length vs) * Z.of_nat (esize t) < 2147483648).
  { unfold copy_cap. destruct (Nat.eqb_spec (List.length vs) 0); [lia|].
    assert (Z.of_nat (List.length vs) * Z.of_nat (esize t) <= cap * Z.of_nat (esize t)) by (apply Z.mul_le_mono_nonneg_r; lia). lia. }
  pose proof (vec_push_spec ep t w r x v vs p cap G Fx Wf Hw S4 eq_refl V (sub_trans _ _ _ S1 S6) (sub_trans _ _ _ S2 S6) S3
    (disj_sub _ _ _ _ S5 (sub_refl _) S1) (disj_sub _ _ _ _ S5 (sub_refl _) S2) Hx Vx SFx D1
    (disj_sub _ _ _ _ D2 S1 (sub_refl _)) (disj_sub _ _ _ _ D2 S2 (sub_refl _)) Hc2) as W.
  apply wpf_cases in W as [(rs&w'&R&->&Ev&p'&cap'&G'&Lp&V'&T1&T2&T3&T4&T5&A1&A2)|[Tr [_ T]]]; [left|right; split; assumption].
  pose proof Ev as (Hw'&_&_&Gm&_&_&Mem). pose proof V' as (V1'&V2'&V3'&V4'&V5').
  destruct (sub_block _ _ _ _ Q1) as [R1 R2]; [lia|].
  assert (L2' : load 4 (mem w') r2 = p).
  { rewrite <- Q5. apply load_ext. intros i Hi. apply Mem; [lia|]. assert (cell r2 (r2 + i)) by (unfold cell, between; lia).
    intros [Y|Y]; [eapply Q4; eauto|]. apply S1 in Y. eapply Q2; eauto. }
  assert (Hcs' : 0 <= cap' * Z.of_nat (esize t)) by nia.
  assert (SSp : sub (spine t p' cap') (heap w')).
  { eapply sub_trans; [exact T1|]. apply union_sub; [eapply sub_trans; [exact S1|eapply sub_trans; [exact S6|]]; apply between_sub; lia|apply between_sub; lia]. }
  destruct (sub_block _ _ _ _ SSp) as [M1 M2]; [lia|].
  assert (Dr2 : disj (cell r2) (spine t p' cap')).
  { intros y Y Z0. apply T1 in Z0 as [Z0|Z0]; [apply S1 in Z0; eapply Q2; eauto|]. unfold cell, between in *. lia. }
  assert (Dr3 : disj (cell r2) (spine t p cap)) by (eapply disj_sub; [exact Q2|apply sub_refl|exact S1]).
  assert (Ap : forall z c, 0 <= c * Z.of_nat (esize t) -> disj (cell r2) (spine t z c) -> z + 8 <= r2 \/ r2 + 4 <= z).
  { intros z c Hc D. destruct (Z.le_gt_cases (z + 8) r2); [auto|]. destruct (Z.le_gt_cases (r2 + 4) z); [auto|]. exfalso.
    apply (D (Z.max z r2)); unfold cell, spine, between; lia. }
  pose proof (Ap _ _ Hcs' Dr2) as Ap'. pose proof (Ap _ _ Hcs Dr3) as Ap0.
  assert (Hd : load 4 (mem w') p' <> DEAD_BEEF).
  { rewrite V1'. unfold DEAD_BEEF. assert (cap' * 1 <= cap' * Z.of_nat (esize t)) by (apply Z.mul_le_mono_nonneg_l; lia). lia. }
  assert (C : exists k, chain w' r2 p p' k).
  { destruct (Z.lt_ge_cases (Z.of_nat (List.length vs)) cap) as [H|H].
    - destruct (A1 H) as [_ ->]. exists 0%nat. constructor; auto; lia.
    - destruct (A2 ltac:(lia)) as (H1&H2&_). exists 1%nat. apply chain_next; [lia|lia|exact Ap0|exact H1|]. rewrite H2. constructor; auto; lia. }
  destruct C as [k C]. pose proof (update_mut_ref_spec k w' r2 p p' Hw' ltac:(lia) ltac:(lia) L2' C) as W.
  apply wpf_cases in W as [(rs&w2&R'&->&Fr&Lq)|[]]; [|contradiction].
  exists w', w2, (union (spine t p' cap') G'). split; [exact R|]. split; [exact R'|]. pose proof Fr as (_&_&Fg&_&_&_&Fm).
  assert (Hnot : forall y, ~ cell r2 y -> rd (mem w2) y = rd (mem w') y).
  { intros y Hy. apply Fm. unfold within, cell, between in *. lia. }
  assert (Dr4 : disj (cell r2) G').
  { intros y Y Z0. apply T2 in Z0 as [[Z0|Z0]|Z0]; [apply S2 in Z0; eapply Q2; eauto|eapply Q3; eauto|]. unfold cell, between in *. lia. }
  split.
  - eapply vec_ref_intro; [exact Lq| |apply union_l|apply union_r|exact T3| |apply union_disj; assumption|].
    + eapply vec_at_ext; [| |exact V'].
      * intros y Hy. apply Hnot. intros Y. eapply Dr2; eauto.
      * intros y Hy. apply Hnot. intros Y. eapply Dr4; eauto.
    + unfold heap. rewrite Fg. eapply sub_trans; [exact Q1|]. apply between_sub; lia.
    + unfold heap. rewrite Fg. apply union_sub; [exact SSp|]. eapply sub_trans; [exact T2|]. apply union_sub; [apply union_sub|].
      * eapply sub_trans; [exact S2|eapply sub_trans; [exact S6|]]; apply between_sub; lia.
      * eapply sub_trans; [exact SFx|]. apply between_sub; lia.
      * apply between_sub; lia.
  - rewrite Lq, <- Lp. apply load_ext. intros i Hi. symmetry. apply Hnot. intros Y. apply (Q4 (r + i)); [exact Y|]. unfold cell, between; lia.
Qed.

Lemma pop_back_ok : forall ep t w r vs F, running ep w -> vec_ref w t r vs F ->
  (vs = [] -> exists w', returns (vec_pop_back ep t) [r] w [BADF00D] w' /\ aborted ep OutOfBounds w w') /\
  (forall vs' v, vs = vs' ++ [v] -> exists x w' F1 F2, returns (vec_pop_back ep t) [r] w [x] w' /\
     vec_ref w' t r vs' F1 /\ owns w' t v x F2 /\ 0 <= x < 256 ^ Z.of_nat (esize t) /\ disj F1 F2 /\ sub F1 F /\ sub F2 F /\ frame w w' F).
Proof.
  intros ep t w r vs F (Hw&He&Ha) V. apply vec_ref_inv in V as (cap&G&V&S1&S2&S3&S4&S5&S6).
  set (p := load 4 (mem w) r) in *. destruct (sub_block _ _ _ _ S4) as [R1 R2]; [lia|].
  pose proof V as (V1&V2&V3&V4&V5). pose proof (esize_range t) as Hsz. assert (Hcs : 0 <= cap * Z.of_nat (esize t)) by nia.
  pose proof (vec_pop_spec ep t w r vs p cap G Hw He Ha R1 R2 eq_refl V (sub_trans _ _ _ S1 S6) S3) as W.
  apply wpf_cases in W as [(rs&w'&R&[(E&->&A)|(vs'&v&x&G'&Fx&E&->&Fr&V'&Vx&Hx&D&T1&T2)])|[_ []]].
  - split; [intros _; exists w'; auto|]. intros vs' v E'. rewrite E' in E. destruct vs'; discriminate.
  - split; [intros E'; rewrite E' in E; destruct vs'; discriminate|]. intros us u E'. rewrite E' in E. apply app_inj_tail in E as [-> ->].
    exists x, w', (union (spine t p cap) G'), Fx. pose proof Fr as (_&_&Fg&_&_&_&Fm).
    assert (Fsub : sub (within p 4) F) by (eapply sub_trans; [|exact S1]; intros y Y; unfold within, spine, between in *; lia).
    split; [exact R|]. split; [|split; [|split; [exact Hx|split; [|split; [|split]]]]].
    + eapply vec_ref_intro; [|exact V'|apply union_l|apply union_r| | | |].
      * unfold p. apply load_ext. intros i Hi. apply Fm. intros Y. apply Fsub in Y. eapply S5; [|exact Y]. unfold cell, between; lia.
      * eapply disj_sub; [exact S3|apply sub_refl|exact T1].
      * unfold heap. rewrite Fg. exact S4.
      * apply union_disj; (eapply disj_sub; [exact S5|apply sub_refl|]); [exact S1|exact (sub_trans _ _ _ T1 S2)].
      * unfold heap. rewrite Fg. apply union_sub; [exact (sub_trans _ _ _ S1 S6)|exact (sub_trans _ _ _ T1 (sub_trans _ _ _ S2 S6))].
    + split; [exact Vx|]. unfold heap. rewrite Fg. exact (sub_trans _ _ _ T2 (sub_trans _ _ _ S2 S6)).
    + intros y [Y|Y] Z0; [eapply S3; [exact Y|apply T2; exact Z0]|eapply D; eauto].
    + apply union_sub; [exact S1|exact (sub_trans _ _ _ T1 S2)].
    + exact (sub_trans _ _ _ T2 S2).
    + destruct Fr as (B1&B2&B3&B4&B5&B6&B7). repeat (split; [assumption|]). intros a Na. apply B7. intros Y. apply Na, Fsub, Y.
Qed.

Lemma swap_ok : forall ep t w r vs F i j, running ep w -> vec_ref w t r vs F -> 0 <= i < 2 ^ 64 -> 0 <= j < 2 ^ 64 ->
  let n := Z.of_nat (List.length vs) in
  (i < n /\ j < n -> exists w' vs', returns (vec_swap ep t) [r; i; j] w [] w' /\ swapped (Z.to_nat i) (Z.to_nat j) vs vs' /\
     vec_ref w' t r vs' F /\ frame w w' F /\ abort_flag w' = 0) /\
  ((n <= i \/ n <= j) -> i <> j \/ n = 0 \/ 2 ^ 32 <= i -> exists w', returns (vec_swap ep t) [r; i; j] w [] w' /\ abort_flag w' = ep OutOfBounds).
Proof.
  intros ep t w r vs F i j (Hw&He&Ha) V Hi Hj n. apply vec_ref_inv in V as (cap&G&V&S1&S2&S3&S4&S5&S6). change (2 ^ 64) with 18446744073709551616 in *. change (2 ^ 32) with 4294967296.
  set (p := load 4 (mem w) r) in *. destruct (sub_block _ _ _ _ S4) as [R1 R2]; [lia|].
  pose proof (vec_swap_spec ep t w r i j vs p cap G Hw He Ha R1 R2 eq_refl Hi Hj V (sub_trans _ _ _ S1 S6) S3) as W. cbv zeta in W. fold n in W.
  apply wpf_cases in W as [(rs&w'&R&->&W)|[_ []]].
  destruct W as [(A&B&->&->)|[(A&B&C&Fr&vs'&Sw&V')|[(A&B&Hw'&Ab)|(A&B&->&C&->)]]].
  - split; [intros _|lia]. exists w, vs. split; [exact R|]. split; [unfold swapped; auto|]. split; [eapply vec_ref_intro; eauto|].
    split; [unfold frame; auto 10|exact Ha].
  - split; [intros _|lia]. exists w', vs'. split; [exact R|]. split; [exact Sw|]. pose proof Fr as (_&_&Fg&_&_&_&Fm). split.
    + eapply vec_ref_intro; [|exact V'|exact S1|exact S2|exact S3| |exact S5|].
      * unfold p. apply load_ext. intros y Hy. apply Fm. intros Y. apply S1 in Y. eapply S5; [|exact Y]. unfold cell, between; lia.
      * unfold heap. rewrite Fg. exact S4.
      * unfold heap. rewrite Fg. exact S6.
    + split.
      * destruct Fr as (B1&B2&B3&B4&B5&B6&B7). repeat (split; [assumption|]). intros a Na. apply B7. intros Y. apply Na, S1, Y.
      * unfold abort_flag in *. rewrite <- Ha. apply load_ext. intros y Hy. apply Fm. intros Y. apply S1, S6 in Y. unfold heap, between in Y. lia.
  - split; [lia|]. intros _ _. exists w'. auto.
  - split; [lia|]. intros _ X. exfalso. lia.
Qed.

Lemma borrow_ok : forall ep t w r vs F i, running ep w -> vec_ref w t r vs F -> 0 <= i < 2 ^ 64 ->
  let n := Z.of_nat (List.length vs) in
  (n <= i -> exists w', returns (vec_borrow_op ep t) [r; i] w [BADF00D] w' /\ aborted ep OutOfBounds w w') /\
  (forall v, nth_error vs (Z.to_nat i) = Some v ->
     (exists e w' F', returns (vec_borrow_op ep t) [r; i] w [e] w' /\ extends w w' /\ ref_to w' t e v F' /\ sub F' F /\ vec_ref w' t r vs F)
     \/ (is_stack t = true /\ out_of_memory (vec_borrow_op ep t) [r; i] w 4)).
Proof.
  intros ep t w r vs F i (Hw&He&Ha) V Hi n. pose proof V as V0. apply vec_ref_inv in V as (cap&G&V&S1&S2&S3&S4&S5&S6). change (2 ^ 64) with 18446744073709551616 in *.
  set (p := load 4 (mem w) r) in *. destruct (sub_block _ _ _ _ S4) as [R1 R2]; [lia|].
  pose proof V as (V1&V2&V3&V4&V5). pose proof (esize_range t) as Hsz. assert (Hcs : 0 <= cap * Z.of_nat (esize t)) by nia.
  destruct (sub_block _ _ _ _ (sub_trans _ _ _ S1 S6)) as [L1 L2]; [lia|].
  pose proof (vec_borrow_op_spec ep t w r i vs p cap G Hw He Ha R1 R2 eq_refl Hi V (sub_trans _ _ _ S1 S6)) as W.
  apply wpf_cases in W as [(rs&w'&R&[(A&->&Ab)|(A&e&->&E&Rt&C1&C2)])|[Tr (T1&T2&T3)]].
  - split; [intros _; exists w'; auto|]. intros v Ev. exfalso. assert (N : nth_error vs (Z.to_nat i) = None) by (apply nth_error_None; lia). congruence.
  - split; [lia|]. intros v Ev. left. pose proof E as (Hw'&_&_&Gm&_&_&Em).
    destruct (elems_nth _ _ _ _ _ _ _ _ V5 Ev) as (Fv&Vv&Sv). rewrite Z2Nat.id in Vv by lia.
    replace (p + 8 + Z.of_nat (esize t) * i) with (p + 8 + i * Z.of_nat (esize t)) in Vv by lia.
    set (a := p + 8 + i * Z.of_nat (esize t)) in *.
    assert (Hi1 : (i + 1) * Z.of_nat (esize t) <= cap * Z.of_nat (esize t)) by (apply Z.mul_le_mono_nonneg_r; lia).
    assert (Hi0 : 0 <= i * Z.of_nat (esize t)) by (apply Z.mul_nonneg_nonneg; lia).
    assert (Sa : sub (between a (a + Z.of_nat (esize t))) (spine t p cap)) by (apply between_sub; unfold a; lia).
    assert (Vr : vec_ref w' t r vs F).
    { assert (Ag : forall y, heap w y -> rd (mem w') y = rd (mem w) y) by (intros y Y; apply Em; unfold heap, between in Y; lia).
      eapply (vec_ref_intro w' t r vs p cap G F); auto.
      - unfold p. apply load_ext. intros y Hy. apply Em. lia.
      - eapply vec_at_ext; [| |exact V]; intros y Y; apply Ag; [apply S6, S1, Y|apply S6, S2, Y].
      - eapply sub_trans; [exact S4|]. apply between_sub; lia.
      - eapply sub_trans; [exact S6|]. apply between_sub; lia. }
    destruct (is_stack t) eqn:St.
    + specialize (C1 eq_refl). exists e, w', (between a (a + Z.of_nat (esize t))). split; [exact R|]. split; [exact E|]. unfold ref_target in Rt. rewrite St in Rt.
      split; [|split; [exact (sub_trans _ _ _ Sa S1)|exact Vr]].
      destruct C1 as [Ce Cg]. assert (468 <= gnext w) by apply Hw. unfold ref_to, field_of. rewrite St, Rt. split; [|split; [|split; [|split]]].
      * unfold cell, heap. apply between_sub; lia.
      * intros y Y Y2. apply Sa, S1, S6 in Y2. unfold cell, heap, between in *. lia.
      * eapply sub_trans; [exact Sa|eapply sub_trans; [exact S1|eapply sub_trans; [exact S6|]]]. apply between_sub; lia.
      * apply sub_refl.
      * replace (load (esize t) (mem w') a) with (load (esize t) (mem w) a); [destruct t; try discriminate; exact Vv|].
        symmetry. apply load_ext. intros y Hy. apply Em. unfold a in *. lia.
    + specialize (C2 eq_refl). subst w'. unfold ref_target in Rt. rewrite St in Rt. subst e.
      exists a, w, Fv. split; [exact R|]. split; [exact E|]. split; [|split; [exact (sub_trans _ _ _ Sv S2)|exact Vr]].
      assert (E4 : Z.of_nat (esize t) = 4) by (destruct t; try discriminate; reflexivity). unfold ref_to, field_of. rewrite St. rewrite E4 in Sa.
      split; [exact (sub_trans _ _ _ Sa (sub_trans _ _ _ S1 S6))|]. split; [eapply disj_sub; [exact S3|exact Sa|exact Sv]|].
      split; [exact (sub_trans _ _ _ Sv (sub_trans _ _ _ S2 S6))|]. replace (esize t) with 4%nat in Vv by lia. exact Vv.
  - split; [lia|]. intros v Ev. right. split; [exact T2|]. split; assumption.
Qed.

Lemma copy_fn_ok : forall ep t w v p F, is_stack t = false -> wf_ty t -> wok w -> owns w t v p F ->
  (exists p' w', returns (copy_fn ep t) [p] w [p'] w' /\ extends w w' /\ owns w' t v p' (fresh w w') /\ owns w' t v p F) \/
  no_memory (copy_fn ep t) [p] w (has_small t) (csize t v).
Proof.
  intros ep t w v p F St Wf Hw [V S].
  assert (W : wpf (copy_fn ep t) [p] w (resq (fun rs w' => exists p', rs = [p'] /\ extends w w' /\ owns w' t v p' (fresh w w') /\ owns w' t v p F)
    (ctrap w (has_small t) (csize t v)))).
  { apply wpf_intro; [reflexivity|]. cbn [app repeat]. ws1. rewrite <- (app_nil_r (copy_ptr ep t)).
    eapply copy_all; [exact St|exact Wf|exact Hw|exact V|exact S|intros T; exact T|].
    intros p' w' E G B V'. ws1. exists p'. split; [reflexivity|]. split; [exact E|]. pose proof E as (_&_&_&Gm&_). pose proof Hw as (_&_&P3&_). split; split.
    - exact V'.
    - apply between_sub; lia.
    - eapply vrep_extends; eauto.
    - eapply sub_trans; [exact S|]. apply between_sub; lia. }
  apply wpf_cases in W as [(rs&w'&R&p'&->&H)|[T C]]; [left; exists p', w'; auto|right; split; assumption].
Qed.

Lemma eq_fn_ok : forall ep t w v u p q F G, wf_ty t -> wok w -> owns w t v p F -> owns w t u q G -> full t v \/ full t u ->
  exists b, returns (eq_fn ep t) [p; q] w [b2z b] w /\ (b = true <-> erase v = erase u).
Proof.
  intros ep t w v u p q F G Wf Hw [V SV] [U SU] Fu. exists (veqb t v u). split; [|eapply veqb_spec; eauto].
  apply pure_intro. apply wpf_intro; [reflexivity|]. cbn [app repeat]. ws1. ws1. rewrite <- (app_nil_r (equality ep t)).
  eapply eq_all; eauto. ws1. auto.
Qed.
