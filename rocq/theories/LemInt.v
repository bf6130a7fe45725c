(** * Lemmas behind PropsInt.v. *)

From Verif Require Import SpecInt Spec Ops Tac RtAlloc RtErr RtInt RtInt2 RtEq RtMul RtDiv RtShift.
Ltac Zify.zify_post_hook ::= idtac.

(** The result of a call in terms of the outcome [o]. *)
Definition res_ok (ep : errtab) (t : ity) (n : Z) (w : world) (vs : list Z) (w' : world) (o : mres) : Prop :=
  match o with
  | MOk z => exists v, vs = [v] /\ repr w' t v z /\ extends w w' /\ abort_flag w' = 0 /\ fresh w n v
  | MAbort e => vs = [BADF00D] /\ exists w1, extends w w1 /\ aborted ep e w1 w'
  | MTrap => False
  end.

(** Runs [body] with its operands on the stack, as the whole function. *)
Lemma after_fret : forall ep k n t s l w o (P : mres -> Prop) (T : Prop),
  P o -> (o = MTrap -> T) -> s = [] ->
  after ep true k n t [] (fret 1 (fun vs w' => exists o, P o /\ res_ok ep t n w vs w' o) T) s l w o.
Proof.
  intros ep k n t s l w o P T Hp HT ->. destruct o; cbn [after].
  - intros. apply wp_nil. cbn [fret firstn List.length Nat.leb]. exists (MOk z). split; [exact Hp|]. exists v. auto.
  - intros. cbn [fret firstn List.length Nat.leb]. exists (MAbort e). split; [exact Hp|]. split; [reflexivity|]. eauto.
  - exact (HT eq_refl).
Qed.

Lemma arith_fn_spec : forall ep op t w x y a b, running ep w -> repr w t x a -> repr w t y b ->
  wpf (arith_fn ep op t) [x; y] w (resq (fun vs w' => exists o, code_arith op t a b o /\ res_ok ep t (cost_arith op t) w vs w' o)
    (move_arith op t a b = MTrap \/ oom w (cost_arith op t))).
Proof.
  intros ep op t w x y a b (Hw&He&H0) Ra Rb. apply wpf_intro; [reflexivity|]. cbn [app].
  ws1. ws1. rewrite <- (app_nil_r (emit_arith ep true 2 op t)).
  eapply wp_arith; [exact Hw|exact He|exact H0|exact Ra|exact Rb|cbn; lia|intros O; right; exact O|].
  intros o Ho. apply (after_fret ep 2 (cost_arith op t) t [] _ w o (code_arith op t a b)); auto.
  intros ->. left. destruct Ho as [Ho|(_&_&_&Ho)]; [auto|discriminate].
Qed.

Lemma arith_fn_small : forall ep op t w a b, is_heap t = false -> running ep w -> 0 <= a < 2 ^ width t -> 0 <= b < 2 ^ width t ->
  wpf (arith_fn ep op t) [a; b] w (resq (fun vs w' => res_ok ep t 0 w vs w' (move_arith op t a b))
    (move_arith op t a b = MTrap)).
Proof.
  intros ep op t w a b Ht (Hw&He&H0) Ra Rb.
  eapply wpf_conseq with (Q := resq (fun vs w' => exists o, o = move_arith op t a b /\ res_ok ep t 0 w vs w' o) (move_arith op t a b = MTrap)).
  2:{ intros []; cbn [resq]; auto. intros (o&->&H). exact H. }
  apply wpf_intro; [reflexivity|]. cbn [app].
  ws1. ws1. rewrite <- (app_nil_r (emit_arith ep true 2 op t)).
  apply wp_arith_simple; auto. assert (E : cost_arith op t = 0) by (unfold cost_arith; rewrite Ht; reflexivity). rewrite E.
  apply (after_fret ep 2 0 t [] _ w _ (fun o => o = move_arith op t a b)); auto.
Qed.

Lemma res_yields : forall ep t n w f args z, (exists vs w', returns f args w vs w' /\ res_ok ep t n w vs w' (MOk z)) -> yields f args w t z.
Proof. intros ep t n w f args z (vs&w'&R&v&->&H1&H2&H3&H4). exists v, w'. auto. Qed.
Lemma res_yields_fresh : forall ep t n w f args z vs w', returns f args w vs w' -> 0 < n -> res_ok ep t n w vs w' (MOk z) -> yields_fresh f args w t z.
Proof. intros ep t n w f args z vs w' R Hn (v&->&H1&H2&H3&[H4|H4]); [lia|]. exists v, w'. auto 6. Qed.
Lemma res_aborts : forall ep t n w f args e vs w', returns f args w vs w' -> res_ok ep t n w vs w' (MAbort e) -> aborts_with ep f args w e.
Proof. intros ep t n w f args e vs w' R (->&w1&H1&H2). exists w1, w'. auto. Qed.

(** Checked arithmetic on simple types. *)
Lemma small_arith : forall ep op t w a b, is_heap t = false -> running ep w -> 0 <= a < 2 ^ width t -> 0 <= b < 2 ^ width t ->
  match move_arith op t a b with
  | MOk z => yields (arith_fn ep op t) [a; b] w t z
  | MAbort e => aborts_with ep (arith_fn ep op t) [a; b] w e
  | MTrap => traps (arith_fn ep op t) [a; b] w
  end.
Proof.
  intros ep op t w a b Ht R Ha Hb. pose proof (arith_fn_small ep op t w a b Ht R Ha Hb) as H.
  apply wpf_cases in H. destruct H as [(vs&w'&E&H)|[T E]].
  - destruct (move_arith op t a b); [eapply res_yields; eauto|eapply res_aborts; eassumption|destruct H].
  - rewrite E. exact T.
Qed.

(** Arithmetic on heap types, for any outcome allowed by [code_arith]. *)
Lemma heap_arith : forall ep op t w x y a b, is_heap t = true -> running ep w -> repr w t x a -> repr w t y b ->
  (exists o, code_arith op t a b o /\
    match o with
    | MOk z => yields_fresh (arith_fn ep op t) [x; y] w t z
    | MAbort e => aborts_with ep (arith_fn ep op t) [x; y] w e
    | MTrap => traps (arith_fn ep op t) [x; y] w
    end) \/ out_of_memory (arith_fn ep op t) [x; y] w (cost_arith op t).
Proof.
  intros ep op t w x y a b Ht R Ra Rb. pose proof (arith_fn_spec ep op t w x y a b R Ra Rb) as H.
  apply wpf_cases in H. destruct H as [(vs&w'&E&o&Ho&H)|[T [E|O]]].
  - left. exists o. split; [exact Ho|]. destruct o; [eapply res_yields_fresh; [exact E| |exact H]|eapply res_aborts; eassumption|destruct H].
    unfold cost_arith. rewrite Ht. destruct op, t; cbn; lia.
  - left. exists MTrap. split; [left; auto|exact T].
  - right. split; assumption.
Qed.

Lemma shift_fn_spec : forall ep op t w x a n, running ep w -> repr w t x a -> 0 <= n < 256 ->
  wpf (shift_fn ep op t) [x; n] w (resq (fun vs w' => res_ok ep t (cost_heap t) w vs w' (move_shift op t a n))
    (is_heap t = true /\ oom w (cost_heap t))).
Proof.
  intros ep op t w x a n (Hw&He&H0) Ra Hn.
  eapply wpf_conseq with (Q := resq (fun vs w' => exists o, o = move_shift op t a n /\ res_ok ep t (cost_heap t) w vs w' o) (is_heap t = true /\ oom w (cost_heap t))).
  2:{ intros []; cbn [resq]; auto. intros (o&->&H). exact H. }
  apply wpf_intro; [reflexivity|]. cbn [app].
  ws1. ws1. rewrite <- (app_nil_r (emit_shift ep true op t)).
  eapply (wp_shift ep true 2); [exact Hw|exact He|exact H0|exact Ra|split; [exact Hn|reflexivity]|intros Ht O; split; auto|].
  apply (after_fret ep 2 (cost_heap t) t [] _ w _ (fun o => o = move_shift op t a n)); auto.
  unfold move_shift. destruct (n <? width t); discriminate.
Qed.

Lemma shift_heap : forall ep op t w x a n, is_heap t = true -> running ep w -> repr w t x a -> 0 <= n < 256 ->
  (n < width t -> yields_fresh (shift_fn ep op t) [x; n] w t (shifted op t a n) \/ out_of_memory (shift_fn ep op t) [x; n] w (heap_size t)) /\
  (width t <= n -> aborts_with ep (shift_fn ep op t) [x; n] w Overflow \/ out_of_memory (shift_fn ep op t) [x; n] w (heap_size t)).
Proof.
  intros ep op t w x a n Ht R Ra Hn. pose proof (wpf_cases _ _ _ _ _ (shift_fn_spec ep op t w x a n R Ra Hn)) as H.
  unfold move_shift, cost_heap in H. rewrite Ht in H. split; intros C; (destruct H as [(vs&w'&E&H)|[T [_ O]]]; [left|right; split; assumption]).
  - replace (n <? width t) with true in H by lia.
    eapply res_yields_fresh; [exact E| |exact H]. destruct t; cbn; lia.
  - replace (n <? width t) with false in H by lia. eapply res_aborts; eassumption.
Qed.

Lemma shift_small : forall ep op t w a n, is_heap t = false -> running ep w -> 0 <= a < 2 ^ width t -> 0 <= n < 256 ->
  (n < width t -> yields (shift_fn ep op t) [a; n] w t (shifted op t a n)) /\
  (width t <= n -> aborts_with ep (shift_fn ep op t) [a; n] w Overflow).
Proof.
  intros ep op t w a n Ht R Ha Hn.
  assert (RP : repr w t a a) by (split; [exact Ha|rewrite Ht; reflexivity]).
  pose proof (wpf_cases _ _ _ _ _ (shift_fn_spec ep op t w a a n R RP Hn)) as H.
  unfold move_shift in H. rewrite Ht in H. split; intros C; (destruct H as [(vs&w'&E&H)|[T [F _]]]; [|discriminate]).
  - replace (n <? width t) with true in H by lia. eapply res_yields; eauto.
  - replace (n <? width t) with false in H by lia. eapply res_aborts; eassumption.
Qed.

Lemma cmp_fn_spec : forall op t w x y a b, wok w -> repr w t x a -> repr w t y b ->
  returns (cmp_fn op t) [x; y] w [b2z (move_cmp op a b)] w.
Proof.
  intros op t w x y a b Hw Ra Rb.
  assert (W : wpf (cmp_fn op t) [x; y] w (resq (fun vs w' => vs = [b2z (move_cmp op a b)] /\ w' = w) False)).
  { apply wpf_intro; [reflexivity|]. cbn [app]. ws1. ws1. rewrite <- (app_nil_r (emit_cmp 2 op t)).
    eapply wp_cmp; [exact Hw|exact Ra|exact Rb|cbn; lia|]. intros l' _. apply wp_nil. cbn. auto. }
  apply wpf_returns in W. destruct W as (?&?&?&->&->). auto.
Qed.

Lemma cast_fn_spec : forall ep from to w x z, running ep w -> repr w from x z ->
  (exists vs w' o, returns (cast_fn ep from to) [x] w vs w' /\ code_cast from to z o /\ res_ok ep to (cost_cast from to) w vs w' o) \/
  (traps (cast_fn ep from to) [x] w /\ (oom w (cost_cast from to) \/ (from = U256 /\ to = U128))).
Proof.
  intros ep from to w x z (Hw&He&H0) R.
  assert (W : wpf (cast_fn ep from to) [x] w (resq (fun vs w' => exists o, code_cast from to z o /\ res_ok ep to (cost_cast from to) w vs w' o)
      (oom w (cost_cast from to) \/ (from = U256 /\ to = U128)))).
  { apply wpf_intro; [reflexivity|]. cbn [app]. ws1. rewrite <- (app_nil_r (emit_cast ep true 1 from to)).
    eapply wp_cast; [exact Hw|exact He|exact H0|exact R|cbn; lia|intros O; left; exact O|].
    intros o Ho. apply (after_fret ep 1 (cost_cast from to) to [] _ w o (code_cast from to z)); auto.
    intros ->. right. unfold code_cast, move_cast in Ho.
    destruct from, to; try (destruct (_ <? _) in Ho; discriminate); auto. }
  destruct (wpf_cases _ _ _ _ _ W) as [(vs&w'&E&o&Ho&H)|[T O]]; [left; eauto 6|right; auto].
Qed.

(** Casts to simple types never allocate, hence never trap. *)
Lemma cast_simple_spec : forall ep from to w x z, is_heap to = false -> running ep w -> repr w from x z ->
  exists vs w' o, returns (cast_fn ep from to) [x] w vs w' /\ code_cast from to z o /\ res_ok ep to 0 w vs w' o.
Proof.
  intros ep from to w x z Ht (Hw&He&H0) R.
  assert (W : wpf (cast_fn ep from to) [x] w (resq (fun vs w' => exists o, code_cast from to z o /\ res_ok ep to 0 w vs w' o) False)).
  { apply wpf_intro; [reflexivity|]. cbn [app]. ws1. rewrite <- (app_nil_r (emit_cast ep true 1 from to)).
    unfold emit_cast. rewrite Ht.
    eapply (wp_cast_simple ep true 1); [exact Hw|exact He|exact H0|exact R|exact Ht|].
    intros o Ho. apply (after_fret ep 1 0 to [] _ w o (code_cast from to z)); auto.
    intros ->. unfold code_cast, move_cast in Ho. destruct from, to; try (destruct (_ <? _) in Ho; discriminate); discriminate. }
  apply wpf_returns in W. destruct W as (vs&w'&E&o&Ho&H). eauto 6.
Qed.

(** ** The property statements *)

Lemma add_small : forall ep t w a b, is_heap t = false -> running ep w -> 0 <= a < 2 ^ width t -> 0 <= b < 2 ^ width t ->
  (a + b < 2 ^ width t -> yields (arith_fn ep MAdd t) [a; b] w t (a + b)) /\
  (2 ^ width t <= a + b -> aborts_with ep (arith_fn ep MAdd t) [a; b] w Overflow).
Proof.
  intros ep t w a b Ht R Ha Hb. pose proof (small_arith ep MAdd t w a b Ht R Ha Hb) as H. cbn [move_arith] in H.
  split; intros C; [replace (a + b <? 2 ^ width t) with true in H by lia|replace (a + b <? 2 ^ width t) with false in H by lia]; exact H.
Qed.
Lemma sub_small : forall ep t w a b, is_heap t = false -> running ep w -> 0 <= a < 2 ^ width t -> 0 <= b < 2 ^ width t ->
  (b <= a -> yields (arith_fn ep MSub t) [a; b] w t (a - b)) /\
  (a < b -> aborts_with ep (arith_fn ep MSub t) [a; b] w Overflow).
Proof.
  intros ep t w a b Ht R Ha Hb. pose proof (small_arith ep MSub t w a b Ht R Ha Hb) as H. cbn [move_arith] in H.
  split; intros C; [replace (b <=? a) with true in H by lia|replace (b <=? a) with false in H by lia]; exact H.
Qed.
Lemma mul_small : forall ep t w a b, is_heap t = false -> running ep w -> 0 <= a < 2 ^ width t -> 0 <= b < 2 ^ width t ->
  (a * b < 2 ^ width t -> yields (arith_fn ep MMul t) [a; b] w t (a * b)) /\
  (2 ^ width t <= a * b -> aborts_with ep (arith_fn ep MMul t) [a; b] w Overflow).
Proof.
  intros ep t w a b Ht R Ha Hb. pose proof (small_arith ep MMul t w a b Ht R Ha Hb) as H. cbn [move_arith] in H.
  split; intros C; [replace (a * b <? 2 ^ width t) with true in H by lia|replace (a * b <? 2 ^ width t) with false in H by lia]; exact H.
Qed.

Lemma code_arith_det : forall op t a b o, op <> MMul -> code_arith op t a b o -> o = move_arith op t a b.
Proof. intros op t a b o N [H|(H&_)]; [exact H|congruence]. Qed.

Lemma add_heap : forall ep t w x y a b, is_heap t = true -> running ep w -> repr w t x a -> repr w t y b ->
  (a + b < 2 ^ width t -> yields_fresh (arith_fn ep MAdd t) [x; y] w t (a + b) \/ out_of_memory (arith_fn ep MAdd t) [x; y] w (heap_size t)) /\
  (2 ^ width t <= a + b -> aborts_with ep (arith_fn ep MAdd t) [x; y] w Overflow \/ out_of_memory (arith_fn ep MAdd t) [x; y] w (heap_size t)).
Proof.
  intros ep t w x y a b Ht R Ra Rb. pose proof (heap_arith ep MAdd t w x y a b Ht R Ra Rb) as H.
  unfold cost_arith in H. rewrite Ht in H. destruct H as [(o&Ho&H)|H]; [|tauto].
  apply code_arith_det in Ho; [|discriminate]. cbn [move_arith] in Ho. subst o.
  split; intros C; left; [replace (a + b <? 2 ^ width t) with true in H by lia|replace (a + b <? 2 ^ width t) with false in H by lia]; exact H.
Qed.
Lemma sub_heap : forall ep t w x y a b, is_heap t = true -> running ep w -> repr w t x a -> repr w t y b ->
  (b <= a -> yields_fresh (arith_fn ep MSub t) [x; y] w t (a - b) \/ out_of_memory (arith_fn ep MSub t) [x; y] w (heap_size t)) /\
  (a < b -> aborts_with ep (arith_fn ep MSub t) [x; y] w Overflow \/ out_of_memory (arith_fn ep MSub t) [x; y] w (heap_size t)).
Proof.
  intros ep t w x y a b Ht R Ra Rb. pose proof (heap_arith ep MSub t w x y a b Ht R Ra Rb) as H.
  unfold cost_arith in H. rewrite Ht in H. destruct H as [(o&Ho&H)|H]; [|tauto].
  apply code_arith_det in Ho; [|discriminate]. cbn [move_arith] in Ho. subst o.
  split; intros C; left; [replace (b <=? a) with true in H by lia|replace (b <=? a) with false in H by lia]; exact H.
Qed.
Lemma mul_heap : forall ep t w x y a b, is_heap t = true -> running ep w -> repr w t x a -> repr w t y b ->
  (a * b < 2 ^ width t -> yields_fresh (arith_fn ep MMul t) [x; y] w t (a * b) \/ out_of_memory (arith_fn ep MMul t) [x; y] w (heap_size t)) /\
  (2 ^ width t <= a * b -> aborts_with ep (arith_fn ep MMul t) [x; y] w Overflow \/
     yields_fresh (arith_fn ep MMul t) [x; y] w t ((a * b) mod 2 ^ width t) \/ out_of_memory (arith_fn ep MMul t) [x; y] w (heap_size t)).
Proof.
  intros ep t w x y a b Ht R Ra Rb. pose proof (heap_arith ep MMul t w x y a b Ht R Ra Rb) as H.
  unfold cost_arith in H. rewrite Ht in H. destruct H as [(o&Ho&H)|H]; [|tauto].
  destruct Ho as [Ho|(_&_&G&Ho)].
  - cbn [move_arith] in Ho. subst o.
    split; intros C; left; [replace (a * b <? 2 ^ width t) with true in H by lia|replace (a * b <? 2 ^ width t) with false in H by lia]; exact H.
  - subst o. split; intros C; [lia|]. right. left. exact H.
Qed.

Lemma div_heap : forall ep t w x y a b, is_heap t = true -> running ep w -> repr w t x a -> repr w t y b ->
  (b <> 0 -> exists q r, a = q * b + r /\ 0 <= r < b /\
     (yields_fresh (arith_fn ep MDiv t) [x; y] w t q \/ out_of_memory (arith_fn ep MDiv t) [x; y] w (2 * heap_size t)) /\
     (yields_fresh (arith_fn ep MMod t) [x; y] w t r \/ out_of_memory (arith_fn ep MMod t) [x; y] w (2 * heap_size t))) /\
  (b = 0 -> traps (arith_fn ep MDiv t) [x; y] w /\ traps (arith_fn ep MMod t) [x; y] w).
Proof.
  intros ep t w x y a b Ht R Ra Rb. pose proof (heap_arith ep MDiv t w x y a b Ht R Ra Rb) as H.
  pose proof (heap_arith ep MMod t w x y a b Ht R Ra Rb) as H'.
  unfold cost_arith in H, H'. rewrite Ht in H, H'.
  assert (B : 0 <= b) by (destruct Rb; lia). split; intros C.
  - exists (a / b), (a mod b). split; [rewrite Z.mul_comm; apply Z.div_mod; exact C|]. split; [apply Z.mod_pos_bound; lia|]. split.
    + destruct H as [(o&Ho&H)|H]; [left|right; exact H]. apply code_arith_det in Ho; [|discriminate]. cbn [move_arith] in Ho. subst o.
      replace (b =? 0) with false in H by lia. exact H.
    + destruct H' as [(o&Ho&H')|H']; [left|right; exact H']. apply code_arith_det in Ho; [|discriminate]. cbn [move_arith] in Ho. subst o.
      replace (b =? 0) with false in H' by lia. exact H'.
  - subst b. split.
    + destruct H as [(o&Ho&H)|[H _]]; [|exact H]. apply code_arith_det in Ho; [|discriminate]. cbn in Ho. subst o. exact H.
    + destruct H' as [(o&Ho&H')|[H' _]]; [|exact H']. apply code_arith_det in Ho; [|discriminate]. cbn in Ho. subst o. exact H'.
Qed.

Lemma div_small : forall ep t w a b, is_heap t = false -> running ep w -> 0 <= a < 2 ^ width t -> 0 <= b < 2 ^ width t ->
  (b <> 0 -> exists q r, a = q * b + r /\ 0 <= r < b /\
     yields (arith_fn ep MDiv t) [a; b] w t q /\ yields (arith_fn ep MMod t) [a; b] w t r) /\
  (b = 0 -> traps (arith_fn ep MDiv t) [a; b] w /\ traps (arith_fn ep MMod t) [a; b] w).
Proof.
  intros ep t w a b Ht R Ha Hb. pose proof (small_arith ep MDiv t w a b Ht R Ha Hb) as H. pose proof (small_arith ep MMod t w a b Ht R Ha Hb) as H'.
  cbn [move_arith] in H, H'. split; intros C.
  - exists (a / b), (a mod b). split; [rewrite Z.mul_comm; apply Z.div_mod; exact C|]. split; [apply Z.mod_pos_bound; lia|].
    replace (b =? 0) with false in * by lia. auto.
  - subst b. auto.
Qed.

Lemma bitwise_value : forall op t a b, bitwise_op op -> exists c, move_arith op t a b = MOk c /\
  forall i, 0 <= i -> Z.testbit c i = bit_of op (Z.testbit a i) (Z.testbit b i).
Proof.
  intros op t a b [->|[->| ->]]; eexists; (split; [reflexivity|]); intros; cbn [bit_of]; [apply Z.land_spec|apply Z.lor_spec|apply Z.lxor_spec].
Qed.

Lemma bitwise_heap : forall ep op t w x y a b, bitwise_op op -> is_heap t = true -> running ep w -> repr w t x a -> repr w t y b ->
  exists c, (forall i, 0 <= i -> Z.testbit c i = bit_of op (Z.testbit a i) (Z.testbit b i)) /\
    (yields_fresh (arith_fn ep op t) [x; y] w t c \/ out_of_memory (arith_fn ep op t) [x; y] w (heap_size t)).
Proof.
  intros ep op t w x y a b Ho Ht R Ra Rb. destruct (bitwise_value op t a b Ho) as (c&E&B). exists c. split; [exact B|].
  pose proof (heap_arith ep op t w x y a b Ht R Ra Rb) as H.
  assert (EC : cost_arith op t = heap_size t) by (unfold cost_arith; rewrite Ht; destruct Ho as [->|[->| ->]]; reflexivity).
  rewrite EC in H. destruct H as [(o&Hc&H)|H]; [left|right; exact H].
  apply code_arith_det in Hc; [|destruct Ho as [->|[->| ->]]; discriminate]. rewrite E in Hc. subst o. exact H.
Qed.
Lemma bitwise_small : forall ep op t w a b, bitwise_op op -> is_heap t = false -> running ep w -> 0 <= a < 2 ^ width t -> 0 <= b < 2 ^ width t ->
  exists c, (forall i, 0 <= i -> Z.testbit c i = bit_of op (Z.testbit a i) (Z.testbit b i)) /\
    yields (arith_fn ep op t) [a; b] w t c.
Proof.
  intros ep op t w a b Ho Ht R Ra Rb. destruct (bitwise_value op t a b Ho) as (c&E&B). exists c. split; [exact B|].
  pose proof (small_arith ep op t w a b Ht R Ra Rb) as H. rewrite E in H. exact H.
Qed.

Lemma pow_width_le : forall t t', width t <= width t' -> 2 ^ width t <= 2 ^ width t'.
Proof. intros. apply Z.pow_le_mono_r; [lia|assumption]. Qed.

Lemma narrowing : forall ep from to w x z, sound_narrowing from to -> width to < width from -> running ep w -> repr w from x z ->
  (z < 2 ^ width to -> yields (cast_fn ep from to) [x] w to z) /\
  (2 ^ width to <= z -> exists e, aborts_with ep (cast_fn ep from to) [x] w e).
Proof.
  intros ep from to w x z Hs Hn R Rx.
  assert (Ht : is_heap to = false) by (destruct from, to; cbn in Hn, Hs |- *; try lia; tauto).
  destruct (cast_simple_spec ep from to w x z Ht R Rx) as (vs&w'&o&E&Ho&H).
  assert (o = move_cast from to z) by (destruct from, to; cbn in Hs; try tauto; cbn in Hn; try lia; exact Ho). subst o. unfold move_cast in H.
  split; intros C.
  - replace (z <? 2 ^ width to) with true in H by lia. eapply res_yields; eauto.
  - replace (z <? 2 ^ width to) with false in H by lia. eexists. eapply res_aborts; eassumption.
Qed.

Lemma widening : forall ep from to w x z, width from <= width to -> running ep w -> repr w from x z ->
  yields (cast_fn ep from to) [x] w to z \/ (is_heap to = true /\ out_of_memory (cast_fn ep from to) [x] w (heap_size to)).
Proof.
  intros ep from to w x z Hn R Rx.
  assert (Fit : z < 2 ^ width to) by (pose proof (pow_width_le _ _ Hn); destruct Rx; lia).
  assert (D : forall o, code_cast from to z o -> o = MOk z).
  { intros o Ho. assert (o = move_cast from to z) by (destruct from, to; cbn in Hn; try lia; exact Ho). subst o.
    unfold move_cast. replace (z <? 2 ^ width to) with true by lia. reflexivity. }
  destruct (is_heap to) eqn:Ht.
  - destruct (cast_fn_spec ep from to w x z R Rx) as [(vs&w'&o&E&Ho&H)|[T [O|[-> ->]]]].
    + left. rewrite (D o Ho) in H. eapply res_yields; eauto.
    + right. split; [reflexivity|]. split; [exact T|]. eapply oom_mono; [exact O|].
      unfold cost_cast, cost_heap. rewrite Ht. destruct from, to; try discriminate; cbn; lia.
    + cbn in Hn. lia.
  - left. destruct (cast_simple_spec ep from to w x z Ht R Rx) as (vs&w'&o&E&Ho&H). rewrite (D o Ho) in H. eapply res_yields; eauto.
Qed.

Lemma running_wm : forall m next, wok (wm m next) -> load 4 m 256 = 0 -> running ep0 (wm m next).
Proof. intros. split; [assumption|]. split; [exact ep0_ok|assumption]. Qed.

(** Truncation by the casts that check too late. *)
Lemma u64_to_small_truncates : forall ep to w z, to = U8 \/ to = U16 -> running ep w -> 0 <= z < 2 ^ 64 -> z mod 2 ^ 32 < 2 ^ width to ->
  yields (cast_fn ep U64 to) [z] w to (z mod 2 ^ 32).
Proof.
  intros ep to w z Hto R Hz Hm.
  assert (Ht : is_heap to = false) by (destruct Hto; subst; reflexivity).
  destruct (cast_simple_spec ep U64 to w z z Ht R) as (vs&w'&o&E&Ho&H); [split; [exact Hz|reflexivity]|].
  assert (o = MOk (z mod 2 ^ 32)).
  { destruct Hto; subst; cbn [code_cast] in Ho; subst o; unfold move_cast; replace (z mod 2 ^ 32 <? _) with true by lia; reflexivity. }
  subst o. eapply res_yields; eauto.
Qed.

Lemma u256_to_u128_truncates : forall ep w x z, running ep w -> repr w U256 x z ->
  yields (cast_fn ep U256 U128) [x] w U128 (z mod 2 ^ 128) \/ traps (cast_fn ep U256 U128) [x] w.
Proof.
  intros ep w x z R Rx. destruct (cast_fn_spec ep U256 U128 w x z R Rx) as [(vs&w'&o&E&[->| ->]&H)|[T _]]; [left; eapply res_yields; eauto|destruct H|right; exact T].
Qed.

Lemma mul_heap_refuted : exists ep w x y,
  running ep w /\ repr w U128 x (2 ^ 96) /\ repr w U128 y (2 ^ 32) /\
  yields_fresh (arith_fn ep MMul U128) [x; y] w U128 0.
Proof.
  set (w := wm (store 16 (store 16 zmem 480 (2 ^ 96)) 496 (2 ^ 32)) 600).
  assert (R : running ep0 w).
  { apply running_wm; [repeat (apply wm_store_ok; [|lia]); apply wm_ok; lia|vm_compute; reflexivity]. }
  assert (Rx : repr w U128 480 (2 ^ 96)).
  { split; [cbn; lia|]. split; [unfold live, w, wm; cbn; lia|vm_compute; reflexivity]. }
  assert (Ry : repr w U128 496 (2 ^ 32)).
  { split; [cbn; lia|]. split; [unfold live, w, wm; cbn; lia|vm_compute; reflexivity]. }
  exists ep0, w, 480, 496. split; [exact R|]. split; [exact Rx|]. split; [exact Ry|].
  assert (E : exists w', returns (arith_fn ep0 MMul U128) [480; 496] w [600] w') by (runs 1000%nat).
  destruct E as [w' E].
  destruct (mul_heap ep0 U128 w 480 496 _ _ eq_refl R Rx Ry) as [_ H]. destruct H as [H|[H|[H _]]]; [vm_compute; discriminate| | |].
  - destruct H as (w1&w2&E2&_). destruct (returns_unique _ _ _ _ _ _ _ E E2) as [C _]. discriminate.
  - exact H.
  - pose proof (evals_unique _ _ _ _ _ E H). discriminate.
Qed.

Lemma cast_u64_refuted : forall ep w, running ep w ->
  yields (cast_fn ep U64 U8) [2 ^ 32 + 5] w U8 5 /\ yields (cast_fn ep U64 U16) [2 ^ 32 + 5] w U16 5.
Proof.
  intros ep w R. split; [apply (u64_to_small_truncates ep U8 w (2 ^ 32 + 5))|apply (u64_to_small_truncates ep U16 w (2 ^ 32 + 5))]; auto; try lia; reflexivity.
Qed.

Lemma cast_u256_refuted : exists ep w x,
  running ep w /\ repr w U256 x (2 ^ 128 + 1) /\ yields (cast_fn ep U256 U128) [x] w U128 1.
Proof.
  set (w := wm (store 32 zmem 480 (2 ^ 128 + 1)) 600).
  assert (R : running ep0 w).
  { apply running_wm; [repeat (apply wm_store_ok; [|lia]); apply wm_ok; lia|vm_compute; reflexivity]. }
  assert (Rx : repr w U256 480 (2 ^ 128 + 1)).
  { split; [cbn; lia|]. split; [unfold live, w, wm; cbn; lia|vm_compute; reflexivity]. }
  exists ep0, w, 480. split; [exact R|]. split; [exact Rx|].
  assert (E : exists w', returns (cast_fn ep0 U256 U128) [480] w [600] w') by (runs 1000%nat).
  destruct E as [w' E]. destruct (u256_to_u128_truncates ep0 w 480 _ R Rx) as [H|H]; [exact H|].
  pose proof (evals_unique _ _ _ _ _ E H). discriminate.
Qed.
