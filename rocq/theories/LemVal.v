(** * Lemmas about the memory representation of values. *)

From Verif Require Import Tac SpecVal.
Ltac Zify.zify_post_hook ::= idtac.

(** Induction over types, through field lists. *)
Lemma ty_rec' : forall P : ty -> Prop,
  (forall t, is_stack t = true -> P t) ->
  P TU128 -> P TU256 -> P TAddress ->
  (forall t, P t -> P (TVec t)) ->
  (forall k fs, Forall P fs -> P (TStruct k fs)) ->
  (forall vts, Forall (Forall P) vts -> P (TEnum vts)) ->
  forall t, P t.
Proof.
  intros P Hs H1 H2 H3 Hv Hst He. fix IH 1. intros t.
  destruct t as [ | | | | | | | |t'|k fs|vts]; try (apply Hs; reflexivity).
  - exact H1.
  - exact H2.
  - exact H3.
  - apply Hv. apply IH.
  - apply Hst. induction fs as [|f fs IHf]; constructor; [apply IH|exact IHf].
  - apply He. induction vts as [|fs vts IHv]; constructor; [|exact IHv].
    clear IHv. induction fs as [|f fs IHf]; constructor; [apply IH|exact IHf].
Qed.

(** Footprints *)
Lemma sub_refl : forall F, sub F F.
Proof. unfold sub; auto. Qed.
Lemma sub_trans : forall F G H, sub F G -> sub G H -> sub F H.
Proof. unfold sub; auto. Qed.
Lemma disj_sub : forall F G F' G', disj F G -> sub F' F -> sub G' G -> disj F' G'.
Proof. unfold disj, sub; eauto. Qed.
Lemma disj_sym : forall F G, disj F G -> disj G F.
Proof. unfold disj; eauto. Qed.
Lemma between_sub : forall a b c d, c <= a -> b <= d -> sub (between a b) (between c d).
Proof. unfold sub, between; intros; lia. Qed.
Lemma between_disj : forall a b c d, b <= c -> disj (between a b) (between c d).
Proof. unfold disj, between; intros; lia. Qed.
Lemma sub_block : forall a b lo hi, sub (between a b) (between lo hi) -> a < b -> lo <= a /\ b <= hi.
Proof. unfold sub, between; intros. pose proof (H a ltac:(lia)). pose proof (H (b - 1) ltac:(lia)). lia. Qed.

Lemma load_sub : forall n m m' a (F : mset), (forall x, F x -> rd m' x = rd m x) ->
  sub (between a (a + Z.of_nat n)) F -> load n m' a = load n m a.
Proof. intros. apply load_ext. intros. apply H, H0. unfold between. lia. Qed.
Lemma load_be_sub : forall n m m' a (F : mset), (forall x, F x -> rd m' x = rd m x) ->
  sub (between a (a + Z.of_nat n)) F -> load_be n m' a = load_be n m a.
Proof. intros. apply load_be_ext. intros. apply H, H0. unfold between. lia. Qed.

(** Monotonicity in the footprint *)
Lemma elems_mono : forall R sz m vs a F F', sub F F' -> elems R sz m vs a F -> elems R sz m vs a F'.
Proof.
  intros R sz m [|v vs] a F F' S; cbn [elems]; auto. intros (F1&F2&A&B&C&D&E).
  exists F1, F2. repeat (split; [solve [auto|eapply sub_trans; eauto]|]). eapply sub_trans; eauto.
Qed.
Lemma fields_mono : forall Rs m vs a F F', sub F F' -> fields Rs m vs a F -> fields Rs m vs a F'.
Proof.
  intros [|R Rs] m [|v vs] a F F' S; cbn [fields]; auto. intros (F1&F2&A&B&C&D&E).
  exists F1, F2. repeat (split; [solve [auto|eapply sub_trans; eauto]|]). eapply sub_trans; eauto.
Qed.
Lemma vrep_mono : forall m t v x F F', sub F F' -> vrep m t v x F -> vrep m t v x F'.
Proof.
  intros m t v x F F' S H. destruct t; cbn [vrep] in *; auto.
  - destruct H as [A B]. split; [exact A|eapply sub_trans; eauto].
  - destruct H as [A B]. split; [exact A|eapply sub_trans; eauto].
  - destruct H as [A B]. split; [exact A|eapply sub_trans; eauto].
  - destruct H as (vs&cap&G&A&B&C&D&E&K&L&M&N). exists vs, cap, G.
    repeat (split; [solve [auto|eapply sub_trans; eauto]|]). exact N.
  - destruct H as (o&vs&G&A&B&C&D&E&K). exists o, vs, G.
    repeat (split; [solve [auto|eapply sub_trans; eauto]|]). exact K.
  - destruct H as (tag&vs'&G&A&B&C&D&E&K). exists tag, vs', G.
    repeat (split; [solve [auto|eapply sub_trans; eauto]|]). exact K.
Qed.

Lemma field_of_mono : forall m t v x F F', sub F F' -> field_of m t (vrep m t) v x F -> field_of m t (vrep m t) v x F'.
Proof.
  unfold field_of; intros m t v x F F' S. destruct (is_stack t); [|apply vrep_mono; exact S].
  intros [A B]. split; [eapply sub_trans; eauto|exact B].
Qed.

(** Dependence on the footprint only *)
Definition agree (m m' : memory) (F : mset) : Prop := forall x, F x -> rd m' x = rd m x.

Lemma agree_sub : forall m m' F G, agree m m' F -> sub G F -> agree m m' G.
Proof. unfold agree, sub; auto. Qed.

Lemma elems_ext : forall (R R' : val -> Z -> mset -> Prop) sz m m' vs a F,
  (forall v x G, sub G F -> R v x G -> R' v x G) ->
  (forall x, a <= x < a + Z.of_nat sz * Z.of_nat (List.length vs) -> rd m' x = rd m x) ->
  elems R sz m vs a F -> elems R' sz m' vs a F.
Proof.
  intros R R' sz m m' vs. induction vs as [|v vs IH]; intros a F HR Hm; cbn [elems]; auto.
  intros (F1&F2&A&B&C&D&E). cbn [List.length] in Hm. exists F1, F2. split; [|split].
  - rewrite (load_ext sz m' m a a); [apply HR; auto|]. intros. apply Hm. lia.
  - apply IH; [intros; apply HR; auto; eapply sub_trans; eauto|intros; apply Hm; lia|exact B].
  - auto.
Qed.

Lemma Forall2_imp : forall {A B} (P Q : A -> B -> Prop) l l', (forall a b, P a b -> Q a b) -> Forall2 P l l' -> Forall2 Q l l'.
Proof. induction 2; constructor; auto. Qed.

Lemma fields_ext : forall Rs Rs' m m' vs a F,
  Forall2 (fun R R' : val -> Z -> mset -> Prop => forall v x G, sub G F -> R v x G -> R' v x G) Rs Rs' ->
  (forall x, a <= x < a + 4 * Z.of_nat (List.length Rs) -> rd m' x = rd m x) ->
  fields Rs m vs a F -> fields Rs' m' vs a F.
Proof.
  induction Rs as [|R Rs IH]; intros Rs' m m' vs a F H Hm; inversion H; subst; destruct vs as [|v vs]; cbn [fields]; auto.
  intros (F1&F2&A&B&C&D&E). cbn [List.length] in Hm. exists F1, F2. split; [|split; [|auto]].
  - rewrite (load_ext 4 m' m a a); [match goal with K : forall v x G, _ |- _ => apply K; auto end|]. intros. apply Hm. lia.
  - eapply IH; [|intros; apply Hm; lia|exact B].
    eapply Forall2_imp; [|eassumption]. intros R1 R2 K v0 x G S. apply K. eapply sub_trans; eauto.
Qed.

Lemma Forall2_map : forall {A B C} (P : B -> C -> Prop) (f : A -> B) (g : A -> C) l,
  Forall (fun a => P (f a) (g a)) l -> Forall2 P (map f l) (map g l).
Proof. induction 1; cbn [map]; constructor; auto. Qed.

Definition rep_ext (t : ty) : Prop := forall m m' v x F, agree m m' F -> vrep m t v x F -> vrep m' t v x F.

Lemma field_of_ext : forall t, rep_ext t -> forall m m' v x F, agree m m' F ->
  field_of m t (vrep m t) v x F -> field_of m' t (vrep m' t) v x F.
Proof.
  unfold field_of; intros t H m m' v x F A. destruct (is_stack t); [|apply H; exact A].
  intros [B C]. split; [exact B|]. rewrite (load_sub _ m m' x F A B). exact C.
Qed.

Lemma nth_error_map2 : forall {A B} (f g : A -> B) l n R, nth_error (map f l) n = Some R ->
  exists a, nth_error l n = Some a /\ R = f a /\ nth_error (map g l) n = Some (g a).
Proof.
  induction l; intros [|n] R; cbn [map nth_error]; try discriminate; [|apply IHl].
  intros E; injection E as <-. eauto.
Qed.

Lemma nth_error_Forall : forall {A} (P : A -> Prop) l n a, Forall P l -> nth_error l n = Some a -> P a.
Proof. intros A P l n a H E. rewrite Forall_forall in H. apply H. eapply nth_error_In; eauto. Qed.

Lemma enum_size_ge : forall vts tag fs, nth_error vts tag = Some fs -> 4 + 4 * Z.of_nat (List.length fs) <= enum_size vts.
Proof.
  unfold enum_size. induction vts; intros [|tag] fs; cbn [nth_error fold_right]; try discriminate.
  - intros E; injection E as <-. lia.
  - intros E. apply IHvts in E. lia.
Qed.

Lemma vrep_ext : forall t, rep_ext t.
Proof.
  apply ty_rec'; unfold rep_ext.
  - intros t St m m' v x F A. destruct t; try discriminate; auto.
  - intros m m' v x F A. cbn [vrep]. intros [B C]. rewrite (load_sub 16 m m' x F A C). auto.
  - intros m m' v x F A. cbn [vrep]. intros [B C]. rewrite (load_sub 32 m m' x F A C). auto.
  - intros m m' v x F A. cbn [vrep]. intros [B C]. rewrite (load_be_sub 32 m m' x F A C). auto.
  - intros t IH m m' v x F A. cbn [vrep]. intros (vs&cap&G&E&B&C&D&K&S1&S2&DJ&EL).
    assert (Hc : 0 <= cap * Z.of_nat (esize t)) by nia.
    exists vs, cap, G. split; [exact E|].
    split; [rewrite <- B; apply (load_sub 4 m m' x F A); eapply sub_trans; [|exact S1]; apply between_sub; lia|].
    split; [rewrite <- C; apply (load_sub 4 m m' (x + 4) F A); eapply sub_trans; [|exact S1]; apply between_sub; lia|].
    repeat (split; [assumption|]). eapply elems_ext; [| |exact EL].
    + intros v0 x0 G0 S. apply IH. eapply agree_sub; [exact A|]. eapply sub_trans; eauto.
    + intros y Hy. apply A, S1. unfold between. nia.
  - intros k fs IH m m' v x F A. cbn [vrep]. intros (o&vs&G&E&B&S1&S2&DJ&EL).
    exists o, vs, G. split; [exact E|].
    split; [destruct k; [|exact B]; rewrite B; symmetry; apply (load_be_sub 32 m m' (x - 32) F A);
            eapply sub_trans; [|exact S1]; apply between_sub; lia|].
    repeat (split; [assumption|]). eapply fields_ext; [| |exact EL].
    + apply Forall2_map. eapply Forall_impl; [|exact IH]. intros t Ht v0 x0 G0 S. apply field_of_ext; [exact Ht|].
      eapply agree_sub; [exact A|]. eapply sub_trans; eauto.
    + rewrite map_length. intros y Hy. apply A, S1. unfold between. destruct k; lia.
  - intros vts IH m m' v x F A. cbn [vrep]. intros (tag&vs&G&E&B&S1&S2&DJ&EL).
    destruct (nth_error _ tag) as [Rs|] eqn:N in EL; [|contradiction].
    destruct (nth_error_map2 _ (fun fs => map (fun t' => field_of m' t' (vrep m' t')) fs) _ _ _ N) as (fs&N1&->&N2).
    pose proof (enum_size_ge _ _ _ N1) as SZ.
    exists tag, vs, G. split; [exact E|].
    split; [rewrite <- B; apply (load_sub 4 m m' x F A); eapply sub_trans; [|exact S1]; apply between_sub; lia|].
    repeat (split; [assumption|]). rewrite N2. eapply fields_ext; [| |exact EL].
    + apply Forall2_map. eapply Forall_impl; [|exact (nth_error_Forall _ _ _ _ IH N1)]. intros t Ht v0 x0 G0 S. apply field_of_ext; [exact Ht|].
      eapply agree_sub; [exact A|]. eapply sub_trans; eauto.
    + rewrite map_length. intros y Hy. apply A, S1. unfold between. lia.
Qed.

(** Appending and splitting element lists *)
Lemma elems_app : forall R sz m vs vs' a F F' G, elems R sz m vs a F ->
  elems R sz m vs' (a + Z.of_nat sz * Z.of_nat (List.length vs)) F' -> disj F F' -> sub F G -> sub F' G ->
  elems R sz m (vs ++ vs') a G.
Proof.
  induction vs as [|v vs IH]; intros vs' a F F' G; cbn [elems app List.length].
  - intros _ H _ _ S. replace (a + Z.of_nat sz * Z.of_nat 0) with a in H by lia. eapply elems_mono; eauto.
  - intros (F1&F2&A&B&C&D&E) H DJ SA SB. exists F1, (union F2 F'). split; [exact A|]. split.
    + eapply IH; [exact B| |eapply disj_sub; [exact DJ|exact E|apply sub_refl]| |].
      * replace (a + Z.of_nat sz + Z.of_nat sz * Z.of_nat (List.length vs)) with (a + Z.of_nat sz * Z.of_nat (S (List.length vs))) by lia. exact H.
      * unfold sub, union; auto.
      * unfold sub, union; auto.
    + split; [|split].
      * intros x X [Y|Y]; [eapply C; eauto|]. eapply DJ; eauto.
      * eapply sub_trans; eauto.
      * intros x [Y|Y]; auto.
Qed.

Lemma elems_split : forall R sz m vs vs' a F, elems R sz m (vs ++ vs') a F ->
  exists F1 F2, elems R sz m vs a F1 /\ elems R sz m vs' (a + Z.of_nat sz * Z.of_nat (List.length vs)) F2 /\
    disj F1 F2 /\ sub F1 F /\ sub F2 F.
Proof.
  induction vs as [|v vs IH]; intros vs' a F; cbn [elems app List.length].
  - intros H. exists empty, F. replace (a + Z.of_nat sz * Z.of_nat 0) with a by lia.
    split; [exact I|]. split; [exact H|]. unfold disj, sub, empty. intuition.
  - intros (F1&F2&A&B&C&D&E). destruct (IH _ _ _ B) as (G1&G2&P&Q&R1&S1&S2).
    exists (union F1 G1), G2. split; [|split; [|split; [|split]]].
    + exists F1, G1. split; [exact A|]. split; [exact P|]. split; [eapply disj_sub; [exact C|apply sub_refl|exact S1]|].
      unfold sub, union; auto.
    + replace (a + Z.of_nat sz * Z.of_nat (S (List.length vs))) with (a + Z.of_nat sz + Z.of_nat sz * Z.of_nat (List.length vs)) by lia. exact Q.
    + intros x [X|X] Y; [eapply C; eauto|eapply R1; eauto].
    + intros x [X|X]; auto.
    + intros x X; auto.
Qed.
