(** * Vector operations, continued: pop_back, swap, borrow, relocation. *)

From Verif Require Import Tac RtAlloc RtErr RtInt RtDiv RtShift RtAscii Ops SpecVal LemVal RtCopy RtCopy2 RtVec.
Ltac Zify.zify_post_hook ::= idtac.

Lemma decrement_spec : forall ep w p n, wok w -> errtab_ok ep -> 468 <= p -> p + 4 <= gnext w -> load 4 (mem w) p = n ->
  wpf (decrement_vec_len ep) [p] w (resq (fun rs w' => rs = [] /\
    ((n = 0 /\ aborted ep OutOfBounds w w') \/ (n <> 0 /\ w' = set_mem w (store 4 (mem w) p (n - 1))))) False).
Proof.
  intros ep w p n Hw He L1 L2 L. pose proof Hw as (P1&P2&P3&P4&P5&P6). pose proof (load_4_range (mem w) p).
  apply wpf_intro; [reflexivity|]. wc. ws1. ws1. rewrite L. ws1. ws1.
  - werr; [exact Hw|]. split; [reflexivity|]. left. split; [lia|]. apply aborted_store; auto.
  - ws1. ws1. ws1. rewrite L. ws1. ws1. ws1. ws1. ws1. split; [reflexivity|]. right. split; [lia|reflexivity].
Qed.

Lemma aborted_nonzero : forall ep e w w', errtab_ok ep -> aborted ep e w w' -> abort_flag w' <> 0.
Proof. intros ep e w w' H [_ A]. rewrite A. specialize (H e). lia. Qed.

(** ** pop_back *)
Lemma vec_pop_spec : forall ep t w r vs p cap G, wok w -> errtab_ok ep -> abort_flag w = 0 ->
  468 <= r -> r + 4 <= gnext w -> load 4 (mem w) r = p ->
  vec_at (mem w) t vs p cap G -> sub (spine t p cap) (heap w) -> disj (spine t p cap) G ->
  wpf (vec_pop_back ep t) [r] w (resq (fun rs w' =>
     (vs = [] /\ rs = [BADF00D] /\ aborted ep OutOfBounds w w') \/
     (exists vs' v x G' Fx, vs = vs' ++ [v] /\ rs = [x] /\ frame w w' (within p 4) /\
        vec_at (mem w') t vs' p cap G' /\ vrep (mem w') t v x Fx /\ 0 <= x < 256 ^ Z.of_nat (esize t) /\
        disj G' Fx /\ sub G' G /\ sub Fx G)) False).
Proof.
  intros ep t w r vs p cap G Hw He Ha R1 R2 Lr V Ss D1.
  pose proof Hw as (P1&P2&P3&P4&P5&P6). pose proof V as (V1&V2&V3&V4&V5). pose proof (esize_range t) as Hsz.
  assert (Hcap : 0 <= cap) by lia. assert (Hcs : 0 <= cap * Z.of_nat (esize t)) by nia.
  destruct (sub_block _ _ _ _ Ss) as [L1 L2]; [lia|].
  apply wpf_intro; [reflexivity|]. unfold vec_pop_back. cbn [app repeat]. ws1. ws1. rewrite Lr. ws1. ws1. rewrite V1. ws1. ws1.
  wcall decrement_spec; [exact Hw|exact He|lia|lia|exact V1|tauto|].
  intros rs w' (->&[[N A]|[N ->]]); wc.
  - eapply (wp_propagate_err true); [eapply wok_aborted; eauto|eapply aborted_nonzero; eauto|].
    left. split; [destruct vs; [reflexivity|cbn [List.length] in N; lia]|]. split; [reflexivity|exact A].
  - destruct (exists_last (l := vs)) as (vs'&v&->); [destruct vs; [cbn [List.length] in N; lia|discriminate]|].
    rewrite app_length in *. cbn [List.length] in *. set (len := List.length vs') in *.
    set (w1 := set_mem w _).
    assert (Fr : frame w w1 (within p 4)) by (apply frame_set_mem; intros y Hy; apply rd_store_out; unfold within in Hy; lia).
    assert (Hlen : Z.of_nat len < 2147483648) by nia.
    assert (Lp : load 4 (mem w1) p = Z.of_nat len) by (unfold w1; cbn [mem set_mem]; rewrite load_4_store, w32_small; lia).
    assert (Hw1 : wok w1) by (eapply wok_frame; [exact Hw|exact Fr|unfold within; lia]).
    assert (O : forall y, y < p \/ p + 4 <= y -> rd (mem w1) y = rd (mem w) y) by (intros; apply Fr; unfold within; lia).
    pose proof Fr as (F1&F2&F3&F4&_).
    clearbody w1. pose proof Hw1 as (Q1&Q2&Q3&Q4&Q5&Q6).
    eapply (wp_propagate_ok true); [exact Hw1|unfold abort_flag in *; rewrite <- Ha; apply load_ext; intros; apply O; lia|].
    ws1. ws1. rewrite Lp. ws1. unfold vec_elem_ptr. cbn [app].
    set (sz := Z.of_nat (esize t)) in *. assert (Bn : (Z.of_nat len + 1) * sz <= cap * sz) by (apply Z.mul_le_mono_nonneg_r; lia).
    assert (B0 : 0 <= Z.of_nat len * sz) by (apply Z.mul_nonneg_nonneg; lia). rewrite Z.mul_add_distr_r, Z.mul_1_l in Bn.
    ws1. ws1. ws1. ws1. ws1. ws1. ws1. remember (Z.of_nat len * sz) as lsz eqn:Els. hide Els.
    apply wp_load; [lia|fold sz; unfold page_size; lia|]. rewrite Z.add_0_r. apply wp_nil. cbn [fret firstn].
    right. destruct (elems_split _ _ _ _ _ _ _ V5) as (Ga&Gb&X1&X2&X3&X4&X5). fold len sz in X2.
    unhide Els. rewrite (Z.mul_comm sz), <- Els in X2. cbn [elems] in X2. destruct X2 as (Fx&?&X2&_&_&X6&_).
    exists vs', v, (load (esize t) (mem w1) (p + 8 + lsz)), Ga, Fx. split; [reflexivity|]. split; [reflexivity|]. split; [exact Fr|].
    assert (Ag : forall F, sub F G -> agree (mem w) (mem w1) F).
    { intros F S y Hy. apply O. apply S in Hy. destruct (Z.lt_ge_cases y p); [lia|]. destruct (Z.le_gt_cases (p + 4) y); [lia|].
      exfalso. apply (D1 y); [unfold spine, between; lia|exact Hy]. }
    assert (SFx : sub Fx G) by (eapply sub_trans; eauto).
    split; [|split; [|split; [apply load_range|split; [|split; [exact X4|exact SFx]]]]].
    + split; [exact Lp|]. split; [rewrite <- V2; apply load_ext; intros; apply O; lia|]. split; [lia|]. split; [exact V4|].
      eapply elems_ext; [| |exact X1].
      * intros v0 x0 G0 S0. apply vrep_ext. apply Ag. eapply sub_trans; eauto.
      * intros y Hy. apply O. lia.
    + replace (load (esize t) (mem w1) (p + 8 + lsz)) with (load (esize t) (mem w) (p + 8 + lsz)).
      * eapply vrep_ext; [|exact X2]. apply Ag. exact SFx.
      * apply load_ext. intros. symmetry. apply O. lia.
    + eapply disj_sub; [exact X3|apply sub_refl|exact X6].
Qed.

(** ** borrow *)
(** Where a reference to an element leads: heap values are referenced by the address of their
    pointer, stack values through a cell holding their address. *)
Definition ref_target (m : memory) (t : ty) (e : Z) : Z := if is_stack t then load 4 m e else e.

Lemma borrow_spec : forall ep t w r i vs p cap G, wok w -> errtab_ok ep ->
  468 <= r -> r + 4 <= gnext w -> load 4 (mem w) r = p -> 0 <= i < 4294967296 ->
  vec_at (mem w) t vs p cap G -> sub (spine t p cap) (heap w) ->
  wpf (vec_borrow ep) [r; i; if is_stack t then 0 else 1; Z.of_nat (esize t)] w (resq (fun rs w' =>
     (Z.of_nat (List.length vs) <= i /\ rs = [BADF00D] /\ aborted ep OutOfBounds w w') \/
     (i < Z.of_nat (List.length vs) /\ exists e, rs = [e] /\ extends w w' /\ ref_target (mem w') t e = p + 8 + i * Z.of_nat (esize t) /\
        (is_stack t = true -> gnext w = e /\ gnext w' = e + 4) /\ (is_stack t = false -> w' = w))) (i < Z.of_nat (List.length vs) /\ is_stack t = true /\ oom w 4)).
Proof.
  intros ep t w r i vs p cap G Hw He R1 R2 Lr Hi V Ss.
  pose proof Hw as (P1&P2&P3&P4&P5&P6). pose proof V as (V1&V2&V3&V4&V5). pose proof (esize_range t) as Hsz.
  assert (Hcap : 0 <= cap) by lia. assert (Hcs : 0 <= cap * Z.of_nat (esize t)) by nia.
  destruct (sub_block _ _ _ _ Ss) as [L1 L2]; [lia|].
  apply wpf_intro; [reflexivity|]. unfold vec_borrow. cbn [app repeat]. ws1. ws1. rewrite Lr. ws1. ws1. ws1. ws1. rewrite V1. ws1. ws1. ws1.
  2:{ werr; [exact Hw|]. left. split; [lia|]. split; [reflexivity|]. apply aborted_store; auto. }
  set (sz := Z.of_nat (esize t)) in *. assert (Bn : (i + 1) * sz <= cap * sz) by (apply Z.mul_le_mono_nonneg_r; lia).
  assert (B0 : 0 <= i * sz) by (apply Z.mul_nonneg_nonneg; lia). rewrite Z.mul_add_distr_r, Z.mul_1_l in Bn.
  ws1. apply wp_if; intros C'.
  - destruct (is_stack t) eqn:St; [lia|]. unfold vec_elem_ptr_dynamic. ws1. ws1. ws1. ws1. ws1. ws1. ws1. apply wp_nil. wc. apply wp_nil. wc.
    right. split; [lia|]. eexists. split; [reflexivity|]. split; [apply extends_refl; exact Hw|]. unfold ref_target. rewrite St. split; [lia|]. split; [discriminate|reflexivity].
  - destruct (is_stack t) eqn:St; [|lia]. ws1. wcall alloc_spec; [exact Hw|lia|intros O; split; [lia|auto]|].
    intros rs w1 [-> Al]. wc. pose proof Al as (Hw1&Em&A1&A2&A3&A4&A5). pose proof Hw1 as (Q1&Q2&Q3&Q4&Q5&Q6).
    unfold vec_elem_ptr_dynamic. cbn [app].
    ws1. ws1. ws1. ws1. ws1. ws1. ws1. ws1. ws1. ws1. apply wp_nil. wc. apply wp_nil. wc. rewrite Em. set (m := store _ _ _ _).
    destruct (extends_upd w w1 4 m Hw Al ltac:(lia)) as (X1&X2&X3).
    { intros y Hy. unfold m. apply rd_store_out. unfold within in Hy. lia. }
    right. split; [lia|]. eexists. split; [reflexivity|]. split; [exact X1|]. unfold ref_target. rewrite St. cbn [mem set_mem].
    split; [unfold m; rewrite load_4_store; apply w32_small; lia|]. split; [intros _; cbn [gnext set_mem]; split; [reflexivity|lia]|discriminate].
Qed.

Lemma vec_borrow_op_spec : forall ep t w r i vs p cap G, wok w -> errtab_ok ep -> abort_flag w = 0 ->
  468 <= r -> r + 4 <= gnext w -> load 4 (mem w) r = p -> 0 <= i < 18446744073709551616 ->
  vec_at (mem w) t vs p cap G -> sub (spine t p cap) (heap w) ->
  wpf (vec_borrow_op ep t) [r; i] w (resq (fun rs w' =>
     (Z.of_nat (List.length vs) <= i /\ rs = [BADF00D] /\ aborted ep OutOfBounds w w') \/
     (i < Z.of_nat (List.length vs) /\ exists e, rs = [e] /\ extends w w' /\ ref_target (mem w') t e = p + 8 + i * Z.of_nat (esize t) /\
        (is_stack t = true -> gnext w = e /\ gnext w' = e + 4) /\ (is_stack t = false -> w' = w))) (i < Z.of_nat (List.length vs) /\ is_stack t = true /\ oom w 4)).
Proof.
  intros ep t w r i vs p cap G Hw He Ha R1 R2 Lr Hi V Ss. pose proof V as (V1&V2&V3&V4&V5). pose proof (esize_range t) as Hsz.
  assert (Hlen : Z.of_nat (List.length vs) < 2147483648) by nia.
  apply wpf_intro; [reflexivity|]. unfold vec_borrow_op. cbn [app repeat]. ws1. ws1.
  destruct (downcast_u64_to_u32_spec ep w i Hw He) as [Dok Derr]; [lia|].
  destruct (Z.lt_ge_cases i 4294967296) as [Hs|Hb].
  - eapply wp_call; [reflexivity|cbn [List.length]; lia|]. cbn [rev firstn app]. eapply returns_wpf; [apply Dok; exact Hs|]. cbn [skipn app].
    eapply (wp_propagate_ok true); [exact Hw|exact Ha|]. ws1. ws1.
    wcall (borrow_spec ep t w r i vs p cap G Hw He R1 R2 Lr ltac:(lia) V Ss); [auto|].
    intros rs w' [(A1&->&A)|(A1&e&->&E&Rt&X)]; wc.
    + eapply (wp_propagate_err true _ _ _ _ _ ltac:(eapply wok_aborted; eauto) ltac:(eapply aborted_nonzero; eauto)).
      left. auto.
    + eapply (wp_propagate_ok true [] _ _ _ _ ltac:(apply E) ltac:(eapply abort_extends; eauto)). apply wp_nil. wc. right. eauto 10.
  - destruct (Derr ltac:(lia)) as (w'&Rt&A). eapply wp_call; [reflexivity|cbn [List.length]; lia|]. cbn [rev firstn app]. eapply returns_wpf; [exact Rt|]. cbn [skipn app].
    eapply (wp_propagate_err true); [eapply wok_aborted; eauto|eapply aborted_nonzero; eauto|]. left. split; [lia|]. auto.
Qed.

(** ** swap *)
Definition swapped {A} (i j : nat) (vs vs' : list A) : Prop :=
  List.length vs' = List.length vs /\ nth_error vs' i = nth_error vs j /\ nth_error vs' j = nth_error vs i /\
  (forall k, k <> i -> k <> j -> nth_error vs' k = nth_error vs k).

Lemma swapped_sym : forall A i j (vs vs' : list A), swapped i j vs vs' -> swapped j i vs vs'.
Proof. unfold swapped. intros A i j vs vs' (H1&H2&H3&H4). auto 10. Qed.

Lemma nth_error_mid : forall A (l1 : list A) a l2, nth_error (l1 ++ a :: l2) (List.length l1) = Some a.
Proof. intros. rewrite nth_error_app2 by lia. rewrite Nat.sub_diag. reflexivity. Qed.

Lemma swapped_split : forall A (l1 : list A) a l2 b l3,
  swapped (List.length l1) (List.length l1 + S (List.length l2)) (l1 ++ a :: l2 ++ b :: l3) (l1 ++ b :: l2 ++ a :: l3).
Proof.
  intros. unfold swapped. rewrite !app_length. cbn [List.length]. rewrite !app_length. cbn [List.length]. split; [reflexivity|].
  assert (X : forall x y : A, nth_error (l1 ++ x :: l2 ++ y :: l3) (List.length l1 + S (List.length l2)) = Some y).
  { intros. rewrite nth_error_app2 by lia. replace (List.length l1 + S (List.length l2) - List.length l1)%nat with (S (List.length l2)) by lia.
    cbn [nth_error]. apply nth_error_mid. }
  split; [rewrite X; apply nth_error_mid|]. split; [rewrite X; symmetry; apply nth_error_mid|].
  intros k K1 K2. destruct (Nat.lt_ge_cases k (List.length l1)); [rewrite !nth_error_app1 by lia; reflexivity|].
  rewrite !nth_error_app2 by lia. destruct (k - List.length l1)%nat as [|k'] eqn:E; [lia|]. cbn [nth_error].
  destruct (Nat.lt_ge_cases k' (List.length l2)); [rewrite !nth_error_app1 by lia; reflexivity|].
  rewrite !nth_error_app2 by lia. destruct (k' - List.length l2)%nat as [|k''] eqn:E'; [lia|]. reflexivity.
Qed.

Lemma nth_split2 : forall A (vs : list A) i j, (i < j)%nat -> (j < List.length vs)%nat ->
  exists l1 a l2 b l3, vs = l1 ++ a :: l2 ++ b :: l3 /\ List.length l1 = i /\ (List.length l1 + S (List.length l2) = j)%nat.
Proof.
  intros A vs i j Hi Hj. destruct (nth_error vs i) as [a|] eqn:E; [|apply nth_error_None in E; lia].
  apply nth_error_split in E as (l1&l2&->&L1). rewrite app_length in Hj. cbn [List.length] in Hj.
  destruct (nth_error l2 (j - S i)) as [b|] eqn:E2; [|apply nth_error_None in E2; lia].
  apply nth_error_split in E2 as (l3&l4&->&L2). exists l1, a, l3, b, l4. split; [reflexivity|]. lia.
Qed.

Lemma elems_cons : forall (R : val -> Z -> mset -> Prop) sz m v vs a F1 F2 F, R v (load sz m a) F1 -> elems R sz m vs (a + Z.of_nat sz) F2 -> disj F1 F2 -> sub F1 F -> sub F2 F ->
  elems R sz m (v :: vs) a F.
Proof. intros. cbn [elems]. exists F1, F2. auto. Qed.

Lemma elems_swap : forall (R R' : val -> Z -> mset -> Prop) sz m m' l1 a l2 b l3 base F,
  (forall v x G, sub G F -> R v x G -> R' v x G) -> 
  let pa := base + Z.of_nat sz * Z.of_nat (List.length l1) in
  let pb := base + Z.of_nat sz * Z.of_nat (List.length l1 + S (List.length l2)) in
  load sz m' pa = load sz m pb -> load sz m' pb = load sz m pa ->
  (forall y, y < pa \/ pa + Z.of_nat sz <= y -> y < pb \/ pb + Z.of_nat sz <= y -> rd m' y = rd m y) ->
  elems R sz m (l1 ++ a :: l2 ++ b :: l3) base F -> elems R' sz m' (l1 ++ b :: l2 ++ a :: l3) base F.
Proof.
  intros R R' sz m m' l1 a l2 b l3 base F HR pa pb La Lb O H.
  destruct (elems_split _ _ _ _ _ _ _ H) as (F1&F2&E1&E2&D12&S1&S2). fold pa in E2. cbn [elems] in E2.
  destruct E2 as (Fa&Fr&Ra&Er&Dar&Sa&Sr).
  destruct (elems_split _ _ _ _ _ _ _ Er) as (Fm&F3&Em&E3&Dm3&Sm&S3). cbn [elems] in E3.
  replace (pa + Z.of_nat sz + Z.of_nat sz * Z.of_nat (List.length l2)) with pb in E3 by (unfold pa, pb; lia).
  destruct E3 as (Fb&Fl&Rb&El&Dbl&Sb&Sl).
  assert (Hpb : pb = pa + Z.of_nat sz + Z.of_nat sz * Z.of_nat (List.length l2)) by (unfold pa, pb; lia).
  assert (SaF : sub Fa F) by (eapply sub_trans; eauto).
  assert (SbF : sub Fb F) by (eapply sub_trans; [exact Sb|eapply sub_trans; [exact S3|eapply sub_trans; eauto]]).
  assert (SmF : sub Fm F) by (eapply sub_trans; [exact Sm|eapply sub_trans; eauto]).
  assert (SlF : sub Fl F) by (eapply sub_trans; [exact Sl|eapply sub_trans; [exact S3|eapply sub_trans; eauto]]).
  assert (G3 : elems R' sz m' (a :: l3) pb (union Fa Fl)).
  { apply elems_cons with Fa Fl; [apply HR; [exact SaF|rewrite Lb; exact Ra]| | |intros y; left; assumption|intros y; right; assumption].
    - eapply elems_ext; [| |exact El]; [intros v x G SG; apply HR; eapply sub_trans; eauto|intros y Hy; apply O; lia].
    - eapply disj_sub; [exact Dar|apply sub_refl|]. exact (sub_trans _ _ _ Sl S3). }
  assert (Gm : elems R' sz m' (l2 ++ a :: l3) (pa + Z.of_nat sz) (union Fm (union Fa Fl))).
  { eapply elems_app with (F := Fm) (F' := union Fa Fl); [|rewrite <- Hpb; exact G3| |intros y; left; assumption|intros y; right; assumption].
    - eapply elems_ext; [| |exact Em]; [intros v x G SG; apply HR; eapply sub_trans; eauto|intros y Hy; apply O; lia].
    - intros y Y1 [Y2|Y2]; [eapply Dar; [exact Y2|apply Sm; exact Y1]|eapply Dm3; [exact Y1|apply Sl; exact Y2]]. }
  eapply elems_app with (F := F1) (F' := F2).
  - eapply elems_ext; [| |exact E1]; [intros v x G SG; apply HR; eapply sub_trans; eauto|intros y Hy; apply O; lia].
  - fold pa. apply elems_cons with Fb (union Fm (union Fa Fl)); [apply HR; [exact SbF|rewrite La; exact Rb]|exact Gm| | |].
    + intros y Y1 [Y2|[Y2|Y2]]; [eapply Dm3; [exact Y2|apply Sb; exact Y1]|eapply Dar; [exact Y2|apply S3, Sb; exact Y1]|eapply Dbl; eauto].
    + intros y Y. apply Sr, S3, Sb. exact Y.
    + intros y [Y|[Y|Y]]; [apply Sr, Sm; exact Y|apply Sa; exact Y|apply Sr, S3, Sl; exact Y].
  - exact D12.
  - exact S1.
  - exact S2.
Qed.

Lemma vec_at_swap : forall m m' t vs p cap G i j, vec_at m t vs p cap G -> disj (spine t p cap) G -> (i < List.length vs)%nat -> (j < List.length vs)%nat -> i <> j ->
  let q k := p + 8 + Z.of_nat k * Z.of_nat (esize t) in
  load (esize t) m' (q i) = load (esize t) m (q j) -> load (esize t) m' (q j) = load (esize t) m (q i) ->
  (forall y, y < q i \/ q i + Z.of_nat (esize t) <= y -> y < q j \/ q j + Z.of_nat (esize t) <= y -> rd m' y = rd m y) ->
  exists vs', swapped i j vs vs' /\ vec_at m' t vs' p cap G.
Proof.
  intros m m' t vs p cap G i j V Dj Hi Hj Hij q Li Lj O.
  assert (W : forall i j, (i < j)%nat -> (j < List.length vs)%nat -> load (esize t) m' (q i) = load (esize t) m (q j) -> load (esize t) m' (q j) = load (esize t) m (q i) ->
     (forall y, y < q i \/ q i + Z.of_nat (esize t) <= y -> y < q j \/ q j + Z.of_nat (esize t) <= y -> rd m' y = rd m y) ->
     exists vs', swapped i j vs vs' /\ vec_at m' t vs' p cap G).
  { clear i j Hi Hj Hij Li Lj O. intros i j Hij Hj Li Lj O. destruct V as (V1&V2&V3&V4&V5). pose proof (esize_range t) as Hsz.
    destruct (nth_split2 _ _ _ _ Hij Hj) as (l1&a&l2&b&l3&->&Ei&Ej). subst i j.
    exists (l1 ++ b :: l2 ++ a :: l3). split; [apply swapped_split|].
    assert (EL : List.length (l1 ++ b :: l2 ++ a :: l3) = List.length (l1 ++ a :: l2 ++ b :: l3)) by (rewrite !app_length; cbn [List.length]; rewrite !app_length; reflexivity).
    assert (Qlo : forall k, p + 8 <= q k) by (intros; unfold q; nia).
    split; [rewrite EL, <- V1; apply load_ext; intros y Hy; apply O; [left; specialize (Qlo (List.length l1))|left; specialize (Qlo (List.length l1 + S (List.length l2))%nat)]; lia|].
    split; [rewrite <- V2; apply load_ext; intros y Hy; apply O; [left; specialize (Qlo (List.length l1))|left; specialize (Qlo (List.length l1 + S (List.length l2))%nat)]; lia|].
    split; [rewrite EL; exact V3|]. split; [exact V4|].
    assert (Qc : forall k, p + 8 + Z.of_nat (esize t) * Z.of_nat k = q k) by (intros; unfold q; lia).
    eapply elems_swap; [| | | |exact V5]; rewrite ?Qc; [|exact Li|exact Lj|exact O].
    intros v x F SF. apply vrep_ext. intros y Hy. apply SF in Hy.
    assert (Sp : ~ spine t p cap y) by (intros X; eapply Dj; eauto). unfold spine, between in Sp.
    assert (Qhi : forall k, (k < List.length (l1 ++ a :: l2 ++ b :: l3))%nat -> q k + Z.of_nat (esize t) <= p + 8 + cap * Z.of_nat (esize t)).
    { intros k Hk. assert ((Z.of_nat k + 1) * Z.of_nat (esize t) <= cap * Z.of_nat (esize t)) by (apply Z.mul_le_mono_nonneg_r; lia). unfold q. lia. }
    pose proof (Qhi (List.length l1) ltac:(lia)). pose proof (Qhi _ Hj).
    pose proof (Qlo (List.length l1)). pose proof (Qlo (List.length l1 + S (List.length l2))%nat). apply O; lia. }
  destruct (Nat.lt_ge_cases i j).
  - apply W; auto.
  - destruct (W j i ltac:(lia) Hi Lj Li) as (vs'&S&V').
    + intros y Y1 Y2. apply O; assumption.
    + exists vs'. split; [apply swapped_sym; exact S|exact V'].
Qed.

(** What [vec_swap] does with two valid or invalid indices. *)
Lemma vec_swap_spec : forall ep t w r i j vs p cap G, wok w -> errtab_ok ep -> abort_flag w = 0 ->
  468 <= r -> r + 4 <= gnext w -> load 4 (mem w) r = p -> 0 <= i < 18446744073709551616 -> 0 <= j < 18446744073709551616 ->
  vec_at (mem w) t vs p cap G -> sub (spine t p cap) (heap w) -> disj (spine t p cap) G ->
  let n := Z.of_nat (List.length vs) in
  wpf (vec_swap ep t) [r; i; j] w (resq (fun rs w' => rs = [] /\
     ((i < n /\ j < n /\ i = j /\ w' = w) \/
      (i < n /\ j < n /\ i <> j /\ frame w w' (spine t p cap) /\ exists vs', swapped (Z.to_nat i) (Z.to_nat j) vs vs' /\ vec_at (mem w') t vs' p cap G) \/
      ((n <= i \/ n <= j) /\ (i <> j \/ n = 0 \/ 4294967296 <= i) /\ wok w' /\ abort_flag w' = ep OutOfBounds) \/
      (0 < n /\ n <= i /\ i = j /\ i < 4294967296 /\ w' = w))) False).
Proof.
  intros ep t w r i j vs p cap G Hw He Ha R1 R2 Lr Hi Hj V Ss Dj n. pose proof V as (V1&V2&V3&V4&V5). pose proof (esize_range t) as Hsz.
  fold n in V1, V3. assert (Hn : 0 <= n < 2147483648) by (unfold n in *; nia).
  assert (Hcap : 0 <= cap) by lia. assert (Hcs : 0 <= cap * Z.of_nat (esize t)) by nia.
  destruct (sub_block _ _ _ _ Ss) as [L1 L2]; [lia|]. unfold heap, between in Ss.
  assert (Hep := He OutOfBounds).
  (* the two downcasts *)
  assert (DC : forall k w1, wok w1 -> 0 <= k < 18446744073709551616 -> exists k' w2, returns (downcast_u64_to_u32 ep) [k] w1 [k'] w2 /\
     0 <= k' < 4294967296 /\ ((k < 4294967296 /\ k' = k /\ w2 = w1) \/ (4294967296 <= k /\ aborted ep OutOfBounds w1 w2))).
  { intros k w1 Hw1 Hk. destruct (downcast_u64_to_u32_spec ep w1 k Hw1 He ltac:(lia)) as [A B].
    destruct (Z.lt_ge_cases k 4294967296).
    - exists k, w1. split; [auto|]. split; [lia|]. left. auto.
    - destruct (B ltac:(lia)) as (w2&X&Y). exists BADF00D, w2. split; [exact X|]. split; [unfold BADF00D; lia|]. right. auto. }
  destruct (DC i w Hw Hi) as (i'&w1&Ri&Bi&Ci). 
  assert (Hw1 : wok w1) by (destruct Ci as [(_&_&->)|(_&A)]; [exact Hw|eapply wok_aborted; eauto]).
  destruct (DC j w1 Hw1 Hj) as (j'&w2&Rj&Bj&Cj). clear DC.
  assert (Hw2 : wok w2) by (destruct Cj as [(_&_&->)|(_&A)]; [exact Hw1|eapply wok_aborted; eauto]).
  assert (Fr : frame w w2 (within 256 4)).
  { assert (F1 : frame w w1 (within 256 4)) by (destruct Ci as [(_&_&->)|(_&A)]; [unfold frame; auto 10|apply A]).
    assert (F2 : frame w1 w2 (within 256 4)) by (destruct Cj as [(_&_&->)|(_&A)]; [unfold frame; auto 10|apply A]).
    destruct F1 as (A1&A2&A3&A4&A5&A6&A7). destruct F2 as (B1&B2&B3&B4&B5&B6&B7). unfold frame. repeat (split; [congruence|]).
    intros y Hy. rewrite B7, A7 by assumption. reflexivity. }
  assert (Fl : (i < 4294967296 /\ j < 4294967296 /\ w2 = w /\ i' = i /\ j' = j) \/ ((4294967296 <= i \/ 4294967296 <= j) /\ abort_flag w2 = ep OutOfBounds)).
  { destruct Cj as [(X1&X2&->)|(X1&[_ X2])]; [|right; auto]. destruct Ci as [(Y1&Y2&->)|(Y1&[_ Y2])]; [left; auto|right; auto]. }
  clear Ci Cj.
  pose proof Fr as (F1&F2&F3&F4&F5&F6&F7). pose proof Hw2 as (Q1&Q2&Q3&Q4&Q5&Q6).
  assert (Low : forall y k, 468 <= y -> load k (mem w2) y = load k (mem w) y) by (intros; apply load_ext; intros; apply F7; unfold within; lia).
  apply wpf_intro; [reflexivity|]. cbn [app repeat].
  ws1. eapply wp_call; [reflexivity|cbn [List.length]; lia|]. cbn [rev firstn app]. eapply returns_wpf; [exact Ri|]. cbn [skipn app]. ws1.
  ws1. eapply wp_call; [reflexivity|cbn [List.length]; lia|]. cbn [rev firstn app]. eapply returns_wpf; [exact Rj|]. cbn [skipn app]. ws1.
  ws1. ws1. rewrite Low by lia. rewrite Lr. ws1. ws1. rewrite Low by lia. rewrite V1. ws1.
  apply wp_block. unfold negate. cbn [app]. ws1. ws1. ws1. ws1. apply wp_brif; intros C.
  2:{ assert (n = 0) by (destruct (n =? 0) eqn:E; cbn in C; lia). clear C. werr; [exact Hw2|]. split; [reflexivity|]. right. right. left.
      split; [lia|]. split; [lia|]. pose proof (aborted_store ep OutOfBounds w2 He) as A. split; [eapply wok_aborted; eauto|apply A]. }
  assert (0 < n) by (destruct (n =? 0) eqn:E; cbn in C; lia). clear C. wc.
  apply wp_block. ws1. ws1. ws1. ws1.
  { apply wp_nil. wc. split; [reflexivity|]. assert (i = j) by lia. subst j. destruct Fl as [(X1&X2&->&_)|(X1&X2)].
    - destruct (Z.lt_ge_cases i n); [left; auto|right; right; right; auto 10].
    - right. right. left. split; [lia|]. split; [lia|]. auto. }
  assert (Hij : i <> j) by lia. clear C.
  assert (Err : (n <= i' \/ n <= j') ->
     (let w' := set_mem w2 (store 4 (mem w2) 256 (ep OutOfBounds)) in (n <= i \/ n <= j) /\ (i <> j \/ n = 0 \/ 4294967296 <= i) /\ wok w' /\ abort_flag w' = ep OutOfBounds)).
  { intros X. pose proof (aborted_store ep OutOfBounds w2 He) as A. split; [|split; [lia|split; [eapply wok_aborted; eauto|apply A]]].
    destruct Fl as [(X1&X2&_&->&->)|(X1&_)]; lia. }
  ws1. ws1. ws1. apply wp_if; intros C; unb C.
  { werr; [exact Hw2|]. split; [reflexivity|]. right. right. left. apply Err. lia. }
  apply wp_nil. wc. ws1. ws1. ws1. apply wp_if; intros C'; unb C'.
  { werr; [exact Hw2|]. split; [reflexivity|]. right. right. left. apply Err. lia. }
  apply wp_nil. wc. clear Err. set (sz := Z.of_nat (esize t)) in *.
  assert (Bk : forall k, k < n -> 0 <= k -> 0 <= k * sz /\ k * sz + sz <= cap * sz).
  { intros k K1 K2. assert ((k + 1) * sz <= cap * sz) by (apply Z.mul_le_mono_nonneg_r; lia). split; [apply Z.mul_nonneg_nonneg; lia|lia]. }
  destruct (Bk i' ltac:(lia) ltac:(lia)) as [Bi1 Bi2]. destruct (Bk j' ltac:(lia) ltac:(lia)) as [Bj1 Bj2].
  unfold vec_elem_ptr. cbn [app]. ws1. ws1. ws1. ws1. ws1. ws1. ws1. ws1. ws1. ws1. ws1. ws1. ws1. ws1. ws1. ws1.
  remember (i' * sz) as isz eqn:Ei. remember (j' * sz) as jsz eqn:Ej. hide Ei. hide Ej.
  set (a := p + 8 + isz). set (b := p + 8 + jsz). fold sz.
  ws1. apply wp_load; [lia|fold sz; unfold page_size; lia|]. rewrite Z.add_0_r. ws1. ws1. ws1. apply wp_load; [lia|fold sz; unfold page_size; lia|]. rewrite Z.add_0_r.
  set (va := load (esize t) (mem w2) a). set (vb := load (esize t) (mem w2) b).
  apply wp_store; [lia|fold sz; unfold page_size; lia|]. fold sz. rewrite Z.add_0_r. ws1. ws1.
  apply wp_store; [lia|fold sz; unfold page_size in *; cbn [pages set_mem]; lia|]. fold sz. rewrite Z.add_0_r. apply wp_nil. wc. apply wp_nil. wc.
  change (set_mem (set_mem w2 ?x) ?y) with (set_mem w2 y). set (m2 := store sz (store sz (mem w2) a vb) b va).
  assert (O : forall y, y < a \/ a + sz <= y -> y < b \/ b + sz <= y -> rd m2 y = rd (mem w2) y).
  { intros y Y1 Y2. unfold m2. rewrite !rd_store_out by lia. reflexivity. }
  assert (Fr2 : frame w2 (set_mem w2 m2) (spine t p cap)).
  { apply frame_set_mem. intros y Hy. unfold spine, between in Hy. fold sz in Hy. apply O; unfold a, b; lia. }
  split; [reflexivity|]. destruct Fl as [(X1&X2&->&->&->)|(X1&X2)].
  - right. left. split; [lia|]. split; [lia|]. split; [exact Hij|]. split; [exact Fr2|]. cbn [mem set_mem].
    assert (Ri2 : 0 <= va < 256 ^ sz) by apply load_range. assert (Rj2 : 0 <= vb < 256 ^ sz) by apply load_range.
    unhide Ei. unhide Ej.
    assert (Nab : a + sz <= b \/ b + sz <= a).
    { destruct (Z.lt_ge_cases i j); [left|right]; unfold a, b; subst isz jsz.
      - assert ((i + 1) * sz <= j * sz) by (apply Z.mul_le_mono_nonneg_r; lia). lia.
      - assert ((j + 1) * sz <= i * sz) by (apply Z.mul_le_mono_nonneg_r; lia). lia. }
    hide Ri2. hide Rj2.
    eapply (vec_at_swap (mem w) m2 t vs p cap G (Z.to_nat i) (Z.to_nat j)); [exact V|exact Dj|unfold n in *; lia|unfold n in *; lia|lia| | |];
      rewrite !Z2Nat.id by lia; fold sz; rewrite <- Ei, <- Ej; fold a b.
    + unfold m2. rewrite load_store_other by (fold sz; lia). unfold sz. rewrite load_store_same. unhide Rj2. rewrite Z.mod_small by exact Rj2. reflexivity.
    + unfold m2. unfold sz. rewrite load_store_same. unhide Ri2. rewrite Z.mod_small by exact Ri2. reflexivity.
    + exact O.
  - right. right. left. split; [lia|]. split; [lia|]. split.
    + eapply wok_frame; [exact Hw2|exact Fr2|]. intros y Hy. apply Ss in Hy. lia.
    + unfold abort_flag in *. rewrite <- X2. apply load_ext. intros y Hy. apply O; unfold a, b; lia.
Qed.

(** ** References to relocated vectors *)
(** [chain w r p q k]: following [k] relocation marks from the vector at [p] leads to the vector at
    [q], whose header is not a mark; the headers passed are live memory apart from the reference [r]. *)
Inductive chain (w : world) (r : Z) : Z -> Z -> nat -> Prop :=
| chain_here : forall p, 0 <= p -> p + 8 <= gnext w -> p + 8 <= r \/ r + 4 <= p -> load 4 (mem w) p <> DEAD_BEEF -> chain w r p p 0
| chain_next : forall p q k, 0 <= p -> p + 8 <= gnext w -> p + 8 <= r \/ r + 4 <= p -> load 4 (mem w) p = DEAD_BEEF ->
    chain w r (load 4 (mem w) (p + 4)) q k -> chain w r p q (S k).

Lemma chain_frame : forall w w' r p q k, frame w w' (within r 4) -> chain w r p q k -> chain w' r p q k.
Proof.
  intros w w' r p q k (_&_&F3&_&_&_&F) C.
  assert (L : forall p, p + 8 <= r \/ r + 4 <= p -> load 4 (mem w') p = load 4 (mem w) p /\ load 4 (mem w') (p + 4) = load 4 (mem w) (p + 4)).
  { intros. split; apply load_ext; intros; apply F; unfold within; lia. }
  induction C as [p A B D E|p q k A B D E C IH]; destruct (L p D) as [L1 L2].
  - constructor; rewrite ?F3, ?L1; assumption.
  - apply chain_next; rewrite ?F3, ?L1, ?L2; assumption.
Qed.

Lemma update_mut_ref_spec : forall k w r p q, wok w -> 468 <= r -> r + 4 <= gnext w -> load 4 (mem w) r = p -> chain w r p q k ->
  wpf vec_update_mut_ref [r] w (resq (fun rs w' => rs = [] /\ frame w w' (within r 4) /\ load 4 (mem w') r = q) False).
Proof.
  intros k w r p q Hw R1 R2 Lr C. apply wpf_intro; [reflexivity|]. cbn [app repeat].
  eapply (wp_loop (fun k l w' => l = [r] /\ wok w' /\ frame w w' (within r 4) /\ chain w' r (load 4 (mem w') r) q k) k).
  { split; [reflexivity|]. split; [exact Hw|]. split; [unfold frame; auto 10|]. rewrite Lr. exact C. }
  clear p Lr C k. intros k l w' (->&Hw'&Fr&C). pose proof Hw' as (Q1&Q2&Q3&Q4&Q5&Q6).
  pose proof Fr as (_&_&F3&_). set (p := load 4 (mem w') r) in *.
  ws1. ws1. fold p. inversion C as [p0 A B D E X1 X2|p0 q0 k0 A B D E C' X1 X2]; subst.
  - ws1. ws1. ws1. apply wp_if; intros Y; unb Y; [lia|]. apply wp_nil. wc. apply wp_nil. wc. apply wp_nil. wc.
    split; [reflexivity|]. split; [exact Fr|]. reflexivity.
  - ws1. ws1. rewrite E. ws1. apply wp_if; intros Y; [|discriminate]. clear Y. ws1. ws1. ws1. fold p. ws1. ws1. ws1.
    exists k0. split; [lia|]. set (w2 := set_mem _ _).
    assert (F2 : frame w' w2 (within r 4)) by (apply frame_set_mem; intros y Hy; apply rd_store_out; unfold within in Hy; lia).
    split; [reflexivity|]. split; [eapply wok_frame; [exact Hw'|exact F2|unfold within; lia]|]. split.
    + destruct Fr as (A1&A2&A3&A4&A5&A6&A7). destruct F2 as (B1&B2&B3&B4&B5&B6&B7). unfold frame. repeat (split; [congruence|]).
      intros y Hy. rewrite B7, A7 by assumption. reflexivity.
    + assert (L2 : load 4 (mem w2) r = load 4 (mem w') (p + 4)).
      { unfold w2. cbn [mem set_mem]. rewrite load_4_store. apply w32_small. apply load_4_range. }
      change (chain w2 r (load 4 (mem w2) r) q k0). rewrite L2. eapply chain_frame; [exact F2|exact C'].
Qed.
