(** * What deleting a value does to storage. *)

From Verif Require Import Tac RtAlloc RtErr RtInt RtInt2 RtEq RtMul RtDiv RtShift RtSwap RtAscii Ops SpecAbi LemAbi SpecVal LemVal RtCopy SpecStor RtStor SpecLayout RtStore LemStore.
Ltac Zify.zify_post_hook ::= idtac.

(** From [st] to [st'], the slots from [a] to before [b] and all runs in [A] have become zero; slot [b]
    possibly, no others. *)
Definition erased (st st' : Z -> Z) (a b : Z) (A : list (Z * Z)) : Prop :=
  a <= b /\ (forall x, a <= x < b -> st' x = 0) /\ (st' b = 0 \/ st' b = st b) /\
  (forall x, covers A x -> st' x = 0) /\ (forall x, ~ (a <= x <= b) -> ~ covers A x -> st' x = st x).

Lemma covers_nil : forall x, covers [] x -> False.
Proof. intros x (a&[]&_). Qed.

Lemma erased_refl : forall st a, erased st st a a [].
Proof.
  intros. split; [lia|]. split; [intros; lia|]. split; [auto|]. split; [intros x C; destruct (covers_nil x C)|]. auto.
Qed.

Lemma separate_head : forall a b A x, separate ((a, b) :: A) -> a <= x <= b -> covers A x -> False.
Proof. intros a b A x (F&_) Hx. inversion F; subst. eapply apart_covers; [eassumption|exact Hx]. Qed.

Lemma separate_cross : forall m A B x, separate (m :: A ++ B) -> covers A x -> covers B x -> False.
Proof. intros m A B x (F&_). inversion F as [|? ? _ F2]; subst. apply FOP_app in F2. apply cross_covers. apply F2. Qed.

Lemma erased_trans : forall st st1 st2 a b c A B, erased st st1 a b A -> erased st1 st2 b c B -> separate ((a, c) :: A ++ B) ->
  erased st st2 a c (A ++ B).
Proof.
  intros st st1 st2 a b c A B (E1&E2&E3&E4&E5) (D1&D2&D3&D4&D5) S.
  assert (SA : forall x, a <= x <= c -> ~ covers A x) by (intros x Hx C; eapply separate_head; [exact S|exact Hx|apply covers_app; auto]).
  assert (SB : forall x, a <= x <= c -> ~ covers B x) by (intros x Hx C; eapply separate_head; [exact S|exact Hx|apply covers_app; auto]).
  split; [lia|]. split; [|split; [|split]].
  - intros x Hx. destruct (Z_lt_le_dec x b) as [L|L]; [|apply D2; lia]. rewrite D5; [apply E2; lia|lia|apply SB; lia].
  - destruct D3 as [D3|D3]; [auto|]. rewrite D3. destruct (Z.eq_dec b c) as [->|N]; [exact E3|]. right. apply E5; [lia|apply SA; lia].
  - intros x C. apply covers_app in C. destruct C as [C|C]; [|apply D4; exact C].
    rewrite D5; [apply E4; exact C| |].
    + intros Hx. apply (SA x); [lia|exact C].
    + intros C'. eapply separate_cross; eassumption.
  - intros x Hx C. rewrite D5; [apply E5|lia|]; try lia; intros C'; apply C; apply covers_app; auto.
Qed.

Lemma erased_last : forall st st' a b A, erased st st' a b A -> separate ((a, b) :: A) -> erased st (upd st' b 0) a b A.
Proof.
  intros st st' a b A (E1&E2&E3&E4&E5) S. unfold upd. split; [lia|]. split; [|split; [|split]].
  - intros x Hx. destruct (Z.eqb_spec x b); [reflexivity|auto].
  - rewrite Z.eqb_refl. auto.
  - intros x C. destruct (Z.eqb_spec x b); [reflexivity|auto].
  - intros x Hx C. destruct (Z.eqb_spec x b); [lia|auto].
Qed.

(** The vectors in storage have the lengths of those in the value. *)
Fixpoint shape (H : list Z -> Z) (st : Z -> Z) (t : ty) (v : val) (p : position) {struct t} : Prop :=
  match t, v with
  | TVec t', VVec vs => let k := fst (room p 32) in st k mod 2 ^ 256 = Z.of_nat (List.length vs) /\
      (fix go vs p := match vs with
       | [] => True
       | v' :: vs' => shape H st t' v' p /\ go vs' (after t' p)
       end) vs (data_slot H k, 0)
  | TStruct _ fs, VStruct _ vs =>
      (fix go fs vs p := match fs, vs with
       | t' :: fs', v' :: vs' => shape H st t' v' p /\ go fs' vs' (after t' p)
       | _, _ => True
       end) fs vs p
  | _, _ => True
  end.
Fixpoint shapes (H : list Z -> Z) (st : Z -> Z) (fs : list ty) (vs : list val) (p : position) : Prop :=
  match fs, vs with
  | t :: fs', v :: vs' => shape H st t v p /\ shapes H st fs' vs' (after t p)
  | _, _ => True
  end.

Lemma shape_struct : forall H st k fs o vs p, shape H st (TStruct k fs) (VStruct o vs) p <-> shapes H st fs vs p.
Proof.
  intros. cbn [shape]. revert vs p. induction fs as [|t fs IH]; intros [|v vs] p; cbn [shapes]; try tauto. rewrite IH. tauto.
Qed.
Lemma shape_vec : forall H st t vs p, shape H st (TVec t) (VVec vs) p <->
  st (fst (room p 32)) mod 2 ^ 256 = Z.of_nat (List.length vs) /\ shapes H st (map (fun _ => t) vs) vs (data_slot H (fst (room p 32)), 0).
Proof.
  intros. cbn [shape]. generalize (data_slot H (fst (room p 32)), 0). intros p0.
  assert (forall vs p1, (fix go vs p := match vs with [] => True | v' :: vs' => shape H st t v' p /\ go vs' (after t p) end) vs p1 <->
     shapes H st (map (fun _ => t) vs) vs p1) as E.
  { clear. induction vs as [|v vs IH]; intros p; cbn [map shapes]; [tauto|]. rewrite IH. tauto. }
  rewrite E. tauto.
Qed.

Lemma held_shape : forall t H st v p, held H st t v p -> shape H st t v p.
Proof.
  intros t. refine (ty_rec' (fun t => forall H st v p, held H st t v p -> shape H st t v p) _ _ _ _ _ _ _ t); clear t;
    try (intros; exact Logic.I); try (intros t St H st v p _; destruct t; try discriminate; exact Logic.I).
  - intros t IH H st v p Hd. apply held_vec in Hd. destruct Hd as (vs&->&L&Hd). apply shape_vec. split; [exact L|].
    revert Hd. generalize (data_slot H (fst (room p 32)), 0). clear L. induction vs as [|v vs IHv]; intros p0 Hd; cbn [map shapes helds] in *; [exact Logic.I|].
    destruct Hd as (A&B). split; [apply IH; exact A|apply IHv; exact B].
  - intros k fs IH H st v p Hd. apply held_struct in Hd. destruct Hd as (vs&->&Hd). apply shape_struct.
    revert vs p Hd. induction IH as [|t fs Ht _ IHf]; intros [|v vs] p Hd; cbn [shapes helds] in *; try exact Logic.I.
    destruct Hd as (A&B). split; [apply Ht; exact A|apply IHf; exact B].
Qed.
Lemma helds_shapes : forall fs H st vs p, helds H st fs vs p -> shapes H st fs vs p.
Proof.
  induction fs as [|t fs IH]; intros H st [|v vs] p Hd; cbn [shapes helds] in *; try exact Logic.I. destruct Hd as (A&B).
  split; [apply held_shape; exact A|apply IH; exact B].
Qed.

Lemma plain_erasable : forall t, plain t = true -> erasable t = true.
Proof.
  intros t. refine (ty_rec' (fun t => plain t = true -> erasable t = true) _ _ _ _ _ _ _ t); clear t; try (intros; assumption); try discriminate.
  - intros t St Pl. destruct t; try discriminate; reflexivity.
  - intros t IH Pl. exact (IH Pl).
Qed.
Lemma plain_erasables : forall fs, Forall (fun t => plain t = true) fs -> Forall (fun t => erasable t = true) fs.
Proof. intros fs. apply Forall_impl. exact plain_erasable. Qed.

Lemma after_step : forall t p, erasable t = true -> good p -> snd (after t p) = 0 -> fst p < fst (after t p).
Proof.
  intros t p Pt Gp Z0. destruct t; try (pose proof (after_pos _ p Pt Gp); lia).
  - exfalso. cbn [after] in Z0. unfold room in Z0. destruct p as (k&o). unfold good in Gp. cbn [fst snd] in Gp. destruct (o + 32 <=? 32); cbn in Z0; lia.
  - cbn [after] in *. set (n := fold_left _ _ _) in *. assert (B : lin (room p 1) <= n).
    { unfold n. generalize (lin (room p 1)) as b. clear. intros b. revert b. induction vs as [|fs vts IH]; intros b; cbn [fold_left]; [lia|].
      eapply Z.le_trans; [|apply IH]. lia. }
    unfold at_byte in *. cbn [fst snd] in *. unfold lin, room, good in *. destruct p as (k&o). cbn [fst snd] in *.
    pose proof (Z.div_mod n 32 ltac:(lia)). destruct (o + 1 <=? 32) eqn:E; cbn [fst snd] in *; lia.
Qed.

Lemma areas_vecless : forall t, vecless t = true -> forall H v p, areas H t v p = [].
Proof.
  intros t. refine (ty_rec' (fun t => vecless t = true -> forall H v p, areas H t v p = []) _ _ _ _ _ _ _ t); clear t; try (intros; destruct v; reflexivity); try discriminate.
  - intros t St _ H v p. destruct t; try discriminate; reflexivity.
  - intros k fs IH Vl H v p. cbn [vecless] in Vl. destruct v; try reflexivity. cbn [areas]. revert l p. 
    induction IH as [|t fs Ht _ IHf]; intros [|v vs] p; try reflexivity. cbn [forallb] in Vl. apply andb_true_iff in Vl. destruct Vl as (V1&V2).
    rewrite (Ht V1), (IHf V2). reflexivity.
  - intros vts IH Vl H v p. cbn [vecless] in Vl. destruct v; try reflexivity. cbn [areas]. generalize (room p 1) as q. revert tag.
    induction IH as [|fs vts Hf _ IHv]; intros [|tag] q; cbn [map nth_error]; try reflexivity; cbn [forallb] in Vl; apply andb_true_iff in Vl; destruct Vl as (V1&V2).
    + clear IHv V2. revert l q. induction Hf as [|t fs Ht _ IHf]; intros [|v vs] q; try reflexivity. cbn [forallb] in V1. apply andb_true_iff in V1. destruct V1 as (V1&V2).
      rewrite (Ht V1), (IHf V2). reflexivity.
    + apply IHv. exact V2.
Qed.

Definition shape_ok (t : ty) : Prop := forall H st st' v p, erasable t = true -> typed t v -> good p ->
  (forall x, covers (areas H t v p) x -> st' x = st x) -> (forall x, fst p < x <= fst (after t p) -> st' x = st x) ->
  (snd p = 0 -> st' (fst p) = st (fst p)) -> shape H st t v p -> shape H st' t v p.

Lemma shapes_ok : forall fs, Forall shape_ok fs -> forall H st st' vs p, Forall (fun t => erasable t = true) fs -> typeds fs vs -> good p ->
  (forall x, covers (areas_of H fs vs p) x -> st' x = st x) -> (forall x, fst p < x <= fst (afters fs p) -> st' x = st x) ->
  (snd p = 0 -> st' (fst p) = st (fst p)) -> shapes H st fs vs p -> shapes H st' fs vs p.
Proof.
  induction 1 as [|t fs Ht _ IH]; intros H st st' vs p Pl Ty Gp A B C S; [exact Logic.I|].
  inversion Ty as [|? v ? vs' Tv Tvs]; subst. inversion Pl as [|? ? Pt Pf]; subst. cbn [shapes areas_of] in *. rewrite afters_cons in B.
  destruct (after_ok t p Gp) as (G1&B1). destruct (afters_ok fs (after t p) G1) as (G2&B2). destruct S as (S1&S2).
  apply before_fst in B1, B2. split.
  - eapply Ht; try eassumption.
    + intros x Hx. apply A. apply covers_app. auto.
    + intros x Hx. apply B. lia.
  - eapply IH; try eassumption.
    + intros x Hx. apply A. apply covers_app. auto.
    + intros x Hx. apply B. lia.
    + intros Z0. apply B. pose proof (after_step t p Pt Gp Z0). lia.
Qed.

Lemma shape_all : forall t, shape_ok t.
Proof.
  intros t. refine (ty_rec' shape_ok _ _ _ _ _ _ _ t); clear t; unfold shape_ok;
    try (intros; exact Logic.I); try (intros t St H st st' v p _ _ _ _ _ _ _; destruct t; try discriminate; exact Logic.I).
  - intros t IH H st st' v p Pl Ty Gp A B C S. cbn [erasable plain] in Pl. destruct Ty as (vs&->&Lv&Ty). apply shape_vec in S. apply shape_vec. destruct S as (S1&S2).
    cbn [after] in B. rewrite areas_vec in A. cbv zeta in A. set (d := data_slot H (fst (room p 32))) in *. split.
    + rewrite <- S1. f_equal. unfold good in Gp. destruct p as (k&o). unfold room in *. cbn [fst snd] in *.
      destruct (o + 32 <=? 32) eqn:Eo; cbn [fst snd] in *; [apply C; lia|apply B; lia].
    + destruct vs as [|v vs]; [exact Logic.I|]. set (l := v :: vs) in *.
      assert (A0 : forall x, d <= x <= fst (afters (map (fun _ => t) l) (d, 0)) -> st' x = st x).
      { intros x Hx. apply A. apply covers_cons. left. exact Hx. }
      destruct (afters_ok (map (fun _ => t) l) (d, 0)) as (G1&B1); [unfold good; cbn; lia|]. apply before_fst in B1. cbn [fst] in B1.
      eapply shapes_ok; [|apply Forall_forall; intros y Hy; apply in_map_iff in Hy; destruct Hy as (?&<-&_); exact Pl|apply typeds_map; exact Ty|unfold good; cbn; lia| | | |exact S2].
      * apply Forall_forall. intros y Hy. apply in_map_iff in Hy. destruct Hy as (?&<-&_). exact IH.
      * intros x Hx. apply A. apply covers_cons. right. exact Hx.
      * cbn [fst]. intros x Hx. apply A0. lia.
      * cbn [fst]. intros _. apply A0. lia.
  - intros k fs IH H st st' v p Pl Ty Gp A B C S. destruct k; [discriminate|]. cbn [erasable plain] in Pl. apply andb_true_iff in Pl. destruct Pl as (_&Pl).
    apply typed_struct in Ty. destruct Ty as (o&vs&->&_&Ty). apply shape_struct in S. apply shape_struct. rewrite areas_struct in A.
    eapply shapes_ok; try eassumption. apply Forall_forall. rewrite forallb_forall in Pl. intros t Ht. apply plain_erasable. apply Pl. exact Ht.
Qed.

Lemma shapes_all : forall fs H st st' vs p, Forall (fun t => erasable t = true) fs -> typeds fs vs -> good p ->
  (forall x, covers (areas_of H fs vs p) x -> st' x = st x) -> (forall x, fst p < x <= fst (afters fs p) -> st' x = st x) ->
  (snd p = 0 -> st' (fst p) = st (fst p)) -> shapes H st fs vs p -> shapes H st' fs vs p.
Proof. intros fs. apply shapes_ok. apply Forall_forall. intros t _. apply shape_all. Qed.

(** Deleting a field leaves the later ones alone. *)
Lemma erased_shapes : forall H st st' t v fs vs p, erasable t = true -> good p -> Forall (fun t => erasable t = true) fs -> typeds fs vs ->
  erased st st' (fst p) (fst (after t p)) (areas H t v p) ->
  (snd (after t p) = 0 -> st' (fst (after t p)) = st (fst (after t p))) ->
  separate ((fst p, fst (afters fs (after t p))) :: areas H t v p ++ areas_of H fs vs (after t p)) ->
  shapes H st fs vs (after t p) -> shapes H st' fs vs (after t p).
Proof.
  intros H st st' t v fs vs p Pt Gp Pf Ty (E1&E2&E3&E4&E5) Te Sp Sh. destruct (after_ok t p Gp) as (G1&B1).
  destruct (afters_ok fs (after t p) G1) as (G2&B2). apply before_fst in B1, B2.
  eapply shapes_all; [exact Pf|exact Ty|exact G1| | | |exact Sh].
  - intros x C. apply E5.
    + intros Hx. eapply separate_head; [exact Sp| |apply covers_app; right; exact C]. lia.
    + intros C'. eapply separate_cross; eassumption.
  - intros x Hx. apply E5; [lia|]. intros C. eapply separate_head; [exact Sp| |apply covers_app; left; exact C]. lia.
  - exact Te.
Qed.

Lemma areas_of_app : forall H fs1 vs1 fs2 vs2 p, List.length fs1 = List.length vs1 ->
  areas_of H (fs1 ++ fs2) (vs1 ++ vs2) p = areas_of H fs1 vs1 p ++ areas_of H fs2 vs2 (afters fs1 p).
Proof.
  induction fs1 as [|t fs1 IH]; intros [|v vs1] fs2 vs2 p L; try discriminate; [reflexivity|].
  cbn [app areas_of]. rewrite afters_cons, IH by (cbn in L; lia). apply app_assoc.
Qed.
Lemma afters_append : forall a b p, afters (a ++ b) p = afters b (afters a p).
Proof. intros. unfold afters. apply fold_left_app. Qed.
