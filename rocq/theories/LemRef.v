(** * References: lemmas. *)

From Verif Require Import SpecInt Spec Tac RtAlloc RtErr RtInt RtDiv RtShift RtAscii Ops SpecVal LemVal RtCopy RtCopy2 RtVec RtVec2 SpecVec LemVec RtStore RtCall SpecRef RtRef.
Ltac Zify.zify_post_hook ::= idtac.

Lemma wp_runs : forall is s l w s' l' w', wp is (fun o => o = ONormal s' l' w') s l w -> runs is s l w s' l' w'.
Proof. intros is s l w s' l' w' (n&_&H). exists n. exact H. Qed.

Lemma borrow_field_ok : forall w t r v F path k fs o vs i ti vi s l, wok w -> ref_to w t r v F ->
  part t v path (TStruct k fs) (VStruct o vs) -> nth_error fs i = Some ti -> nth_error vs i = Some vi ->
  part t v (path ++ [i]) ti vi /\
  runs (borrow_field i) (cell_of (mem w) v path r :: s) l w (cell_of (mem w) v (path ++ [i]) r :: s) l w.
Proof.
  intros w t r v F path k fs o vs i ti vi s l Hw R P Hf Hv.
  split; [eapply part_app; [exact P|eapply part_field; [exact Hf|exact Hv|apply part_here]]|].
  rewrite (cell_of_app _ _ _ _ _ P). cbn [cell_of]. rewrite Hv. cbn [cell_of].
  destruct (ref_part _ _ _ _ _ _ _ _ R P) as (Fs&(C&D&S&R')&_). set (e := cell_of (mem w) v path r) in *.
  destruct (cell_heap w e Hw C) as (B1&B2&B3). pose proof Hw as (P1&P2&P3&P4&P5&P6).
  unfold field_of in R'. cbn [is_stack vrep] in R'. destruct R' as (o'&vs'&G&E&Ho&Sh&Sg&Dj&Hf'). injection E as <- <-.
  assert (Li : (i < List.length fs)%nat) by (apply nth_error_Some; congruence). set (x := load 4 (mem w) e) in *.
  assert (Sx : 468 <= x + 4 * Z.of_nat i /\ x + 4 * Z.of_nat i + 4 <= gnext w).
  { apply (sub_block _ _ 468 (gnext w)); [|lia]. intros y Y. apply S, Sh. unfold between in *. destruct k; lia. }
  apply wp_runs. unfold borrow_field. eapply wp_load; [lia|unfold page_size; lia|]. rewrite Z.add_0_r. fold x. pose proof (load_4_range (mem w) e) as Rx. fold x in Rx.
  ws1. ws1. apply wp_nil. reflexivity.
Qed.

Lemma wp_variant_refs : forall n p off x r (Q : outcome -> Prop) s l w, nth_error l p = Some x -> 0 <= x -> 0 <= off -> x + off + 4 * Z.of_nat n < 4294967296 ->
  wp r Q (rev (map (fun i => x + off + 4 * Z.of_nat i) (seq 0 n)) ++ s) l w -> wp (variant_refs p n off ++ r) Q s l w.
Proof.
  induction n as [|n IH]; intros p off x r Q s l w Hp H1 H2 H3 K; [exact K|]. cbn [variant_refs app].
  eapply wp_lget; [exact Hp|]. ws1. ws1. eapply (IH p (off + 4) x); [exact Hp|lia|lia|lia|].
  cbn [seq map rev] in K. rewrite <- app_assoc in K. cbn [app] in K. replace (x + off + 4 * Z.of_nat 0) with (x + off) in K by lia.
  rewrite <- seq_shift, map_map in K. erewrite map_ext; [exact K|]. intros a. cbn beta. lia.
Qed.

Lemma unpack_variant_ref_ok : forall w t r v F path vts g fs vs p s l, wok w -> ref_to w t r v F ->
  part t v path (TEnum vts) (VEnum g vs) -> nth_error vts g = Some fs -> (p < List.length l)%nat ->
  exists l', runs (unpack_variant_ref p (List.length fs)) (cell_of (mem w) v path r :: s) l w (field_refs (mem w) v path r (List.length fs) ++ s) l' w /\
    same_locals [p] l l' /\
    (forall i ti, nth_error fs i = Some ti -> exists vi, nth_error vs i = Some vi /\ part t v (path ++ [i]) ti vi).
Proof.
  intros w t r v F path vts g fs vs p s l Hw R P Hg Lp.
  destruct (ref_part _ _ _ _ _ _ _ _ R P) as (Fs&(C&D&S&R')&_). set (e := cell_of (mem w) v path r) in *.
  destruct (cell_heap w e Hw C) as (B1&B2&B3). pose proof Hw as (P1&P2&P3&P4&P5&P6).
  unfold field_of in R'. cbn [is_stack vrep] in R'. destruct R' as (g'&vs'&G&E&Hg'&Sh&Sg&Dj&Hf'). injection E as <- <-.
  rewrite (map_nth_error _ _ _ Hg) in Hf'. fold (flds (mem w) fs vs (load 4 (mem w) e + 4) G) in Hf'. pose proof (enum_size_ge _ _ _ Hg) as SZ. set (x := load 4 (mem w) e) in *.
  pose proof (flds_length _ _ _ _ _ Hf') as Lv.
  assert (Sx : 468 <= x /\ x + enum_size vts <= gnext w).
  { apply (sub_block _ _ 468 (gnext w)); [|lia]. intros y Y. apply S, Sh. exact Y. }
  exists (set_nth p x l). split; [|split].
  - apply wp_runs. unfold unpack_variant_ref. cbn [app]. eapply wp_load; [lia|unfold page_size; lia|]. rewrite Z.add_0_r. fold x. apply wp_lset'; [exact Lp|].
    rewrite <- (app_nil_r (variant_refs _ _ _)). eapply (wp_variant_refs _ p 4 x); [apply set_nth_same; exact Lp|lia|lia|lia|]. apply wp_nil. f_equal. f_equal.
    unfold field_refs. f_equal. apply map_ext_in. intros i Hi. apply in_seq in Hi. rewrite (cell_of_app _ _ _ _ _ P). fold e. cbn [cell_of]. fold x.
    destruct (nth_error vs i) eqn:N; [reflexivity|]. apply nth_error_None in N. lia.
  - split; [apply set_nth_length|]. intros k Nk. apply set_nth_other. intros ->. apply Nk. left. reflexivity.
  - intros i ti Ht. assert (Li : (i < List.length fs)%nat) by (apply nth_error_Some; congruence).
    destruct (nth_error vs i) as [vi|] eqn:N; [|apply nth_error_None in N; lia]. exists vi. split; [reflexivity|].
    eapply part_app; [exact P|]. eapply part_variant; [exact Hg|exact Ht|exact N|apply part_here].
Qed.

Lemma ref_vec_ref : forall w te e vs F, ref_to w (TVec te) e (VVec vs) F -> vec_ref w te e vs F.
Proof. intros w te e vs F H. exact H. Qed.

Lemma borrow_elem_ok : forall ep w t r v F path te vs i vi, running ep w -> ref_to w t r v F -> part t v path (TVec te) (VVec vs) -> is_stack te = false ->
  nth_error vs i = Some vi -> part t v (path ++ [i]) te vi /\
  returns (vec_borrow_op ep te) [cell_of (mem w) v path r; Z.of_nat i] w [cell_of (mem w) v (path ++ [i]) r] w.
Proof.
  intros ep w t r v F path te vs i vi (Hw&He&Ha) R P St Hv.
  split; [eapply part_app; [exact P|eapply part_elem; [exact St|exact Hv|apply part_here]]|].
  rewrite (cell_of_app _ _ _ _ _ P). cbn [cell_of]. rewrite Hv. cbn [cell_of].
  destruct (ref_part _ _ _ _ _ _ _ _ R P) as (Fs&R'&_). set (e := cell_of (mem w) v path r) in *.
  apply ref_vec_ref, vec_ref_inv in R' as (cap&G&V&S1&S2&S3&S4&S5&S6). destruct (sub_block _ _ _ _ S4) as [R1 R2]; [lia|].
  pose proof V as (V1&V2&V3&V4&V5). assert (Es : esize te = 4%nat) by (destruct te; try discriminate; reflexivity). rewrite Es in V4.
  assert (Li : (i < List.length vs)%nat) by (apply nth_error_Some; congruence).
  pose proof (vec_borrow_op_spec ep te w e (Z.of_nat i) vs _ cap G Hw He Ha R1 R2 eq_refl ltac:(lia) V (sub_trans _ _ _ S1 S6)) as W.
  apply wpf_cases in W as [(rs&w'&Rt&[(A&->&Ab)|(A&e'&->&E&Re&C1&C2)])|[Tr (T1&T2&T3)]]; [lia| |congruence].
  specialize (C2 St). subst w'. unfold ref_target in Re. rewrite St, Es in Re. subst e'.
  replace (load 4 (mem w) e + 8 + 4 * Z.of_nat i) with (load 4 (mem w) e + 8 + Z.of_nat i * Z.of_nat 4) by lia. exact Rt.
Qed.

Lemma ref_extends : forall w w' t r v F, wok w -> ref_to w t r v F -> extends w w' -> ref_to w' t r v F.
Proof.
  intros w w' t r v F Hw (C&D&S&R) E. pose proof Hw as (P1&P2&P3&P4&P5&P6). pose proof E as (_&_&_&Gm&_&_&Em).
  assert (Hp : forall G : mset, sub G (heap w) -> sub G (heap w')) by (intros G H y Y; specialize (H y Y); unfold heap, between in *; lia).
  assert (Ag : forall y, heap w y -> rd (mem w') y = rd (mem w) y) by (intros y Y; apply Em; unfold heap, between in Y; lia).
  split; [apply Hp; exact C|]. split; [exact D|]. split; [apply Hp; exact S|].
  replace (load 4 (mem w') r) with (load 4 (mem w) r); [eapply field_of_agree; [|exact R]; intros y Y; apply Ag, S; exact Y|].
  symmetry. apply load_ext. intros i Hi. apply Ag, C. unfold cell, between. lia.
Qed.

Lemma read_ok : forall ep w t r v F path t' v' s l, wf_ty t' -> wok w -> ref_to w t r v F -> part t v path t' v' ->
  (exists x w', runs (read_ref ep t') (cell_of (mem w) v path r :: s) l w (x :: s) l w' /\ extends w w' /\
     owns w' t' v' x (fresh w w') /\ 0 <= x < 256 ^ Z.of_nat (esize t') /\ ref_to w' t r v F) \/
  (crashes (read_ref ep t') (cell_of (mem w) v path r :: s) l w /\ is_stack t' = false /\ ctrap w (has_small t') (csize t' v')).
Proof.
  intros ep w t r v F path t' v' s l Wt Hw R P. destruct (ref_part _ _ _ _ _ _ _ _ R P) as (Fs&R'&_). set (e := cell_of (mem w) v path r) in *.
  assert (W : wp (read_ref ep t' ++ []) (fun o => (o = OTrap /\ is_stack t' = false /\ ctrap w (has_small t') (csize t' v')) \/ exists x w', o = ONormal (x :: s) l w' /\ extends w w' /\
    owns w' t' v' x (fresh w w') /\ 0 <= x < 256 ^ Z.of_nat (esize t') /\ ref_to w' t r v F) (e :: s) l w).
  { eapply wp_read_ref; [exact Wt|exact Hw|exact R'|intros T1 T2; left; auto|]. intros x w' E G V B. apply wp_nil. right. exists x, w'.
    split; [reflexivity|]. split; [exact E|]. split; [|split; [exact B|eapply ref_extends; eassumption]]. split; [exact V|].
    unfold fresh, heap. apply between_sub; [|lia]. destruct Hw as (_&_&Hw&_). exact Hw. }
  rewrite app_nil_r in W. destruct W as (n&_&[[T C]|(x&w'&O&K)]).
  - right. split; [exists n; exact T|]. exact C.
  - left. exists x, w'. split; [exists n; exact O|exact K].
Qed.

Lemma write_ok : forall w t r v F path t' v' u x Fx p q s l, p <> q -> (p < List.length l)%nat -> (q < List.length l)%nat ->
  wok w -> ref_to w t r v F -> part t v path t' v' -> owns w t' u x Fx -> 0 <= x < 256 ^ Z.of_nat (esize t') -> disj (cell r) Fx -> disj F Fx ->
  exists w' l', runs (write_ref t' p q) (cell_of (mem w) v path r :: x :: s) l w s l' w' /\ same_locals [p; q] l l' /\
    frame w w' (union (cell r) F) /\ ref_to w' t r (put v path u) (union F Fx) /\
    (forall path2 t2 v2, part t v path2 t2 v2 -> ~ beyond path path2 -> cell_of (mem w') (put v path u) path2 r = cell_of (mem w) v path2 r).
Proof.
  intros w t r v F path t' v' u x Fx p q s l Npq Lp Lq Hw R P Ow Bx D1 D2.
  destruct (ref_refm _ _ _ _ _ R) as (Rm&Cr&Sf). destruct (focus _ _ _ _ _ P _ _ _ Rm) as (Fs&Re&Ss&Ce&K). set (e := cell_of (mem w) v path r) in *.
  assert (Se : forall y, cell e y -> cell r y \/ F y) by (intros y Y; destruct Ce as [Ce|Ce]; [left; rewrite <- Ce; exact Y|right; apply Ce; exact Y]).
  assert (Rr : ref_to w t' e v' Fs).
  { destruct Re as (Re1&Re2). split; [|split; [exact Re1|split; [|exact Re2]]].
    - intros y Y. destruct (Se y Y) as [Z|Z]; [apply Cr; exact Z|apply Sf; exact Z].
    - intros y Y. apply Sf, Ss. exact Y. }
  assert (W : wp (write_ref t' p q ++ []) (fun o => exists m' l' F', o = ONormal s l' (set_mem w m') /\ List.length l' = List.length l /\ (forall k, k <> p -> k <> q -> nth_error l' k = nth_error l k) /\
     (forall y, ~ cell e y -> ~ Fs y -> rd m' y = rd (mem w) y) /\ refm m' t' e u F' /\ sub F' (union Fs Fx)) (e :: x :: s) l w).
  { eapply wp_write_ref; [exact Npq|exact Lp|exact Lq|exact Hw|exact Rr|exact Ow|exact Bx| | |].
    - intros y Y Z. destruct (Se y Y) as [Q|Q]; [eapply D1; eassumption|eapply D2; eassumption].
    - intros y Y Z. eapply D2; [apply Ss; exact Y|exact Z].
    - intros m' F' l' L1 L2 Ag Rm' Sb. apply wp_nil. exists m', l', F'. auto 10. }
  rewrite app_nil_r in W. destruct W as (n&_&(m'&l'&F'&O&L1&L2&Ag&Rm'&Sb)).
  exists (set_mem w m'), l'. split; [exists n; exact O|]. split; [split; [exact L1|]|].
  { intros k Nk. apply L2; intros ->; apply Nk; [left; reflexivity|right; left; reflexivity]. }
  split; [|].
  { apply frame_set_mem. intros y Ny. apply Ag.
    - intros Y. apply Ny. exact (Se y Y).
    - intros Y. apply Ny. right. apply Ss. exact Y. }
  destruct (K m' u F') as (K1&K2).
  - intros y _ N1 N2. apply Ag; assumption.
  - exact Rm'.
  - intros y Y Z. destruct (Sb y Y) as [Q|Q]; [exact Q|]. exfalso. destruct Z as [Z|Z]; [eapply D1; eassumption|eapply D2; eassumption].
  - split; [|exact K2]. destruct K1 as (K1&K3). unfold ref_to. cbn [mem set_mem].
    split; [exact Cr|]. split; [|split].
    + intros y Y [Z|Z]; [eapply (proj1 Rm); eassumption|eapply D1; eassumption].
    + intros y [Y|Y]; [apply Sf; exact Y|apply (proj2 Ow); exact Y].
    + eapply field_of_mono; [|exact K3]. intros y [Y|Y]; [left; exact Y|]. destruct (Sb y Y) as [Z|Z]; [left; apply Ss; exact Z|right; exact Z].
Qed.

(** [put] does what it says. *)
Lemma part_put_same : forall t v path t' v', part t v path t' v' -> forall u, part t (put v path u) path t' u.
Proof.
  intros t v path t' v' P. induction P; intros u; cbn [put]; [apply part_here| | |]; rewrite ?H0, ?H1.
  - eapply part_field; [exact H|eapply nth_update_same; exact H0|apply IHP].
  - eapply part_variant; [exact H|exact H0|eapply nth_update_same; exact H1|apply IHP].
  - eapply part_elem; [exact H|eapply nth_update_same; exact H0|apply IHP].
Qed.

Lemma part_put_apart : forall t v path t' v', part t v path t' v' -> forall path2 t2 v2 u, part t v path2 t2 v2 ->
  path2 <> path -> ~ beyond path path2 -> ~ beyond path2 path -> part t (put v path u) path2 t2 v2.
Proof.
  intros t v path t' v' P. induction P as [t v|k fs o vs i t v path t' v' Ht Hv P IH|vts g fs vs i t v path t' v' Hg Ht Hv P IH|t vs i v path t' v' Hs Hv P IH];
    intros path2 t2 v2 u P2 N0 N1 N2; (destruct path2 as [|j path2]; [exfalso; try (apply N0; reflexivity); apply N2; eexists _, _; reflexivity|]).
  - exfalso. apply N1. exists j, path2. reflexivity.
  - cbn [put]. rewrite Hv. inversion P2 as [|? ? ? ? j' tj vj ? ? ? Tj Vj Pj| |]; subst. destruct (Nat.eq_dec j i) as [->|Nj].
    + same_nth. eapply part_field; [eassumption|eapply nth_update_same; eassumption|]. apply IH; [assumption|congruence|eapply not_beyond_cons; exact N1|eapply not_beyond_cons; exact N2].
    + eapply part_field; [exact Tj|rewrite nth_update_other by congruence; exact Vj|exact Pj].
  - cbn [put]. rewrite Hv. inversion P2 as [| |? ? ? ? j' tj vj ? ? ? Gj Tj Vj Pj|]; subst. destruct (Nat.eq_dec j i) as [->|Nj].
    + same_nth. eapply part_variant; [eassumption|eassumption|eapply nth_update_same; eassumption|]. apply IH; [assumption|congruence|eapply not_beyond_cons; exact N1|eapply not_beyond_cons; exact N2].
    + eapply part_variant; [exact Gj|exact Tj|rewrite nth_update_other by congruence; exact Vj|exact Pj].
  - cbn [put]. rewrite Hv. inversion P2 as [| | |? ? j' vj ? ? ? Sj Vj Pj]; subst. destruct (Nat.eq_dec j i) as [->|Nj].
    + same_nth. eapply part_elem; [eassumption|eapply nth_update_same; eassumption|]. apply IH; [assumption|congruence|eapply not_beyond_cons; exact N1|eapply not_beyond_cons; exact N2].
    + eapply part_elem; [exact Sj|rewrite nth_update_other by congruence; exact Vj|exact Pj].
Qed.

Lemma put_app : forall t v p t1 v1, part t v p t1 v1 -> forall q u, put v (p ++ q) u = put v p (put v1 q u).
Proof. intros t v p t1 v1 P. induction P; intros q u; cbn [app put]; [reflexivity| | |]; rewrite ?H0, ?H1, IHP; reflexivity. Qed.

(** ** Elements that are numbers *)

Lemma elems_store : forall te m vs a G i u x, is_stack te = true -> elems (vrep m te) (esize te) m vs a G -> (i < List.length vs)%nat -> int_val te u x ->
  0 <= x < 256 ^ Z.of_nat (esize te) ->
  let m' := store (Z.of_nat (esize te)) m (a + Z.of_nat i * Z.of_nat (esize te)) x in elems (vrep m' te) (esize te) m' (update vs i u) a G.
Proof.
  intros te m vs a G i u x St. revert a G i. induction vs as [|v vs IH]; intros a G i H Li I B; [cbn in Li; lia|]. intros m'.
  cbn [elems] in H. destruct H as (F1&F2&H1&H2&D&S1&S2). pose proof (esize_range te) as Es.
  destruct i as [|i]; cbn [update elems].
  - exists F1, F2. assert (Ea : a + Z.of_nat 0 * Z.of_nat (esize te) = a) by lia. subst m'. rewrite Ea. set (m' := store (Z.of_nat (esize te)) m a x). split; [|split; [|auto]].
    + apply vrep_stack; [exact St|]. unfold m'. rewrite load_store_same, Z.mod_small by exact B. exact I.
    + assert (X : forall l b G2, a + Z.of_nat (esize te) <= b -> elems (vrep m te) (esize te) m l b G2 -> elems (vrep m' te) (esize te) m' l b G2).
      { clear - St Es. induction l as [|y l IHl]; intros b G2 Hb H; [exact H|]. cbn [elems] in *. destruct H as (A1&A2&B1&B2&B3). exists A1, A2.
        split; [|split; [apply IHl; [lia|exact B2]|exact B3]]. apply vrep_stack; [exact St|]. apply vrep_stack in B1; [|exact St].
        unfold m'. rewrite load_store_other by lia. exact B1. }
      apply X; [lia|exact H2].
  - cbn [List.length] in Li. exists F1, F2. split; [|split; [|auto]].
    + apply vrep_stack; [exact St|]. apply vrep_stack in H1; [|exact St]. unfold m'. rewrite load_store_other; [exact H1|]. right. nia.
    + specialize (IH (a + Z.of_nat (esize te)) F2 i H2 ltac:(lia) I B). cbv zeta in IH.
      replace (a + Z.of_nat (esize te) + Z.of_nat i * Z.of_nat (esize te)) with (a + Z.of_nat (S i) * Z.of_nat (esize te)) in IH by lia. exact IH.
Qed.

Lemma number_element_ok : forall ep w t r v F path te vs i vi u x p q s l, running ep w -> ref_to w t r v F -> part t v path (TVec te) (VVec vs) -> is_stack te = true ->
  nth_error vs i = Some vi -> int_val te u x -> p <> q -> (p < List.length l)%nat -> (q < List.length l)%nat ->
  (exists e w1, returns (vec_borrow_op ep te) [cell_of (mem w) v path r; Z.of_nat i] w [e] w1 /\ extends w w1 /\
     (exists n, vi = VInt n /\ runs (read_ref ep te) (e :: s) l w1 (n :: s) l w1) /\
     (exists w2 l', runs (write_ref te p q) (e :: x :: s) l w1 s l' w2 /\ same_locals [p; q] l l' /\ frame w1 w2 F /\ ref_to w2 t r (put v (path ++ [i]) u) F)) \/
  out_of_memory (vec_borrow_op ep te) [cell_of (mem w) v path r; Z.of_nat i] w 4.
Proof.
  intros ep w t r v F path te vs i vi u x p q s l (Hw&He&Ha) R P St Hv I Npq Lp Lq.
  destruct (ref_refm _ _ _ _ _ R) as (Rm&Cr&Sf).
  destruct (ref_part _ _ _ _ _ _ _ _ R P) as (Fs&R'&Ss). set (c := cell_of (mem w) v path r) in *.
  pose proof R' as R0. apply ref_vec_ref, vec_ref_inv in R' as (cap&G&V&S1&S2&S3&S4&S5&S6). destruct (sub_block _ _ _ _ S4) as [R1 R2]; [lia|].
  pose proof V as (V1&V2&V3&V4&V5). pose proof (esize_range te) as Es. assert (Li : (i < List.length vs)%nat) by (apply nth_error_Some; congruence).
  pose proof (vec_borrow_op_spec ep te w c (Z.of_nat i) vs _ cap G Hw He Ha R1 R2 eq_refl ltac:(nia) V (sub_trans _ _ _ S1 S6)) as W.
  apply wpf_cases in W as [(rs&w1&Rt&[(A&->&Ab)|(A&e&->&E&Re&C1&C2)])|[Tr (T1&T2&T3)]]; [lia| |right; split; assumption].
  left. destruct (C1 St) as (<-&G1). unfold ref_target in Re. rewrite St in Re. set (pv := load 4 (mem w) c) in *.
  set (a := pv + 8 + Z.of_nat i * Z.of_nat (esize te)) in *. exists (gnext w), w1. split; [exact Rt|]. split; [exact E|].
  pose proof Hw as (P1&P2&P3&P4&P5&P6). pose proof E as (Hw1&_&_&_&_&_&Em). pose proof Hw1 as (Q1&Q2&Q3&Q4&Q5&Q6).
  assert (Hcap : 0 <= Z.of_nat i * Z.of_nat (esize te) /\ Z.of_nat i * Z.of_nat (esize te) + Z.of_nat (esize te) <= cap * Z.of_nat (esize te)) by nia.
  destruct (sub_block _ _ _ _ (sub_trans _ _ _ S1 S6)) as [L1 L2]; [lia|].
  assert (Le : load (esize te) (mem w1) a = load (esize te) (mem w) a) by (apply load_ext; intros; apply Em; unfold a; lia).
  destruct (elems_nth _ _ _ _ _ _ _ _ V5 Hv) as (Fv&Vv&_). apply vrep_stack in Vv; [|exact St].
  replace (pv + 8 + Z.of_nat (esize te) * Z.of_nat i) with a in Vv by (unfold a; lia).
  split.
  { exists (load (esize te) (mem w) a). split; [exact (proj1 Vv)|]. apply wp_runs. unfold read_ref. rewrite St. cbn [app].
    eapply wp_load; [lia|unfold page_size; lia|]. rewrite Z.add_0_r, Re. eapply wp_load; [unfold a; lia|unfold page_size, a; lia|]. rewrite Z.add_0_r, Le. apply wp_nil. reflexivity. }
  pose proof (ref_extends _ _ _ _ _ _ Hw R E) as Rw1. destruct (ref_refm _ _ _ _ _ Rw1) as (Rm1&Cr1&Sf1).
  assert (Ec : cell_of (mem w1) v path r = c).
  { eapply cell_of_agree; [exact P|exact Rm|]. intros y Y. apply Em. assert (Hy : heap w y) by (destruct Y as [Y|Y]; [apply Cr; exact Y|apply Sf; exact Y]). unfold heap, between in Hy. lia. }
  destruct (focus _ _ _ _ _ P _ _ _ Rm1) as (Fs1&Re1&Ss1&Ce&K). rewrite Ec in Re1, Ce, K.
  destruct Re1 as (Dc1&Rc1). unfold field_of in Rc1. cbn [is_stack] in Rc1. apply vrep_vec in Rc1 as (vs1&cap1&G2&Ev&V'&T1&T2&T3). injection Ev as <-.
  assert (Lc : load 4 (mem w1) c = pv) by (apply load_ext; intros; apply Em; lia). rewrite Lc in *.
  pose proof V' as (V1'&V2'&V3'&V4'&V5'). assert (cap1 = cap) as -> by (rewrite <- V2', <- V2; apply load_ext; intros; apply Em; lia).
  assert (Bx : 0 <= x < 256 ^ Z.of_nat (esize te)).
  { destruct I as (_&I). destruct te; try discriminate; cbn [vbits esize] in *; lia. }
  set (m' := store (Z.of_nat (esize te)) (mem w1) a x).
  assert (Hout : forall y, ~ between pv (pv + 8 + cap * Z.of_nat (esize te)) y -> rd m' y = rd (mem w1) y) by (intros y Ny; unfold m'; apply rd_store_out; unfold between, a in *; lia).
  assert (Hlo : forall y, y < a -> rd m' y = rd (mem w1) y) by (intros y Ny; unfold m'; apply rd_store_out; lia).
  assert (Ew : write_ref te p q = [ Load 4 0; LocalSet p; LocalSet q; LocalGet p; LocalGet q; Store (esize te) 0 ]) by (destruct te; try discriminate; reflexivity).
  exists (set_mem w1 m'), (set_nth q x (set_nth p a l)). split; [|split; [|split]].
  - apply wp_runs. rewrite Ew. eapply wp_load; [lia|unfold page_size; lia|]. rewrite Z.add_0_r, Re. apply wp_lset'; [exact Lp|]. apply wp_lset'; [rewrite set_nth_length; exact Lq|].
    eapply wp_lget; [rewrite set_nth_other by congruence; apply set_nth_same; exact Lp|]. eapply wp_lget; [apply set_nth_same; rewrite set_nth_length; exact Lq|].
    eapply wp_store; [unfold a; lia|unfold page_size, a; lia|]. rewrite Z.add_0_r. apply wp_nil. reflexivity.
  - split; [rewrite !set_nth_length; reflexivity|]. intros k Nk. rewrite !set_nth_other; [reflexivity| |]; intros ->; apply Nk; [left|right; left]; reflexivity.
  - apply frame_set_mem. intros y Ny. apply Hout. intros Y. apply Ny, Ss1, T1. exact Y.
  - assert (Kc : refm m' (TVec te) c (VVec (update vs i u)) Fs1).
    { split; [exact Dc1|]. assert (Lc' : load 4 m' c = pv).
      { rewrite <- Lc. apply load_ext. intros j Hj. apply Hout. intros Y. apply (Dc1 (c + j)); [unfold cell, between; lia|apply T1; exact Y]. }
      rewrite Lc'. unfold field_of. cbn [is_stack]. apply vrep_vec. exists (update vs i u), cap, G2. split; [reflexivity|]. split; [|auto].
      unfold vec_at. rewrite update_length. split; [rewrite <- V1'; apply load_ext; intros; apply Hlo; unfold a; lia|].
      split; [rewrite <- V2'; apply load_ext; intros; apply Hlo; unfold a; lia|]. split; [exact V3'|]. split; [exact V4'|].
      apply elems_store; [exact St|exact V5'|exact Li|exact I|exact Bx]. }
    destruct (K m' (VVec (update vs i u)) Fs1) as (K1&_); [|exact Kc|intros y Y _; exact Y|].
    { intros y _ _ Ny. apply Hout. intros Y. apply Ny, T1. exact Y. }
    rewrite (put_app _ _ _ _ _ P). cbn [put]. rewrite Hv. destruct K1 as (K1&K2). unfold ref_to. cbn [mem set_mem]. split; [exact Cr1|]. split; [exact (proj1 Rm)|].
    split; [exact Sf1|]. eapply field_of_mono; [|exact K2]. intros y [Y|Y]; [exact Y|apply Ss1; exact Y].
Qed.
