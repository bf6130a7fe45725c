(** * Flat data: where each scalar is. *)

From Verif Require Import Tac SpecAbi SpecVal LemVal SpecLayout LemStore.

Lemma flat_plain : forall t, flat t = true -> plain t = true.
Proof.
  intros t. refine (ty_rec' (fun t => flat t = true -> plain t = true) _ _ _ _ _ _ _ t); clear t; try reflexivity.
  - intros t S _. destruct t; try discriminate; reflexivity.
  - discriminate.
  - intros [|] fs IH F; [discriminate|]. cbn [flat plain] in *. apply andb_true_iff in F. destruct F as (F1&F2). apply andb_true_iff. split; [exact F1|].
    rewrite forallb_forall in *. rewrite Forall_forall in IH. auto.
  - discriminate.
Qed.

Definition rooms (p : position) (l : list Z) : position := fold_left room l p.
Lemma rooms_app : forall a b p, rooms p (a ++ b) = rooms (rooms p a) b.
Proof. intros. apply fold_left_app. Qed.
Lemma places_app : forall a b p, places p (a ++ b) = places p a ++ places (rooms p a) b.
Proof. induction a as [|s a IH]; intros b p; [reflexivity|]. cbn [app places]. rewrite IH. reflexivity. Qed.

Definition flat_ok (t : ty) : Prop := flat t = true -> forall H st v p,
  after t p = rooms p (map width (leaves t)) /\
  (held H st t v p <-> typed t v /\ placed st (places p (map width (leaves t))) (ints v)).

Lemma Forall2_app_iff : forall (A B : Type) (R : A -> B -> Prop) l1 l2 k1 k2, List.length l1 = List.length k1 ->
  (Forall2 R (l1 ++ l2) (k1 ++ k2) <-> Forall2 R l1 k1 /\ Forall2 R l2 k2).
Proof.
  induction l1 as [|a l1 IH]; intros l2 [|b k1] k2 E; cbn in E; try discriminate; cbn [app].
  - split; [intros H; split; [constructor|exact H]|tauto].
  - injection E as E. split.
    + intros H. inversion H; subst. apply IH in H5; [|exact E]. destruct H5. split; [constructor; assumption|assumption].
    + intros (H1&H2). inversion H1; subst. constructor; [assumption|]. apply IH; auto.
Qed.

Lemma places_length : forall l p, List.length (places p l) = List.length l.
Proof. induction l as [|s l IH]; intros p; cbn [places List.length]; auto. Qed.

Definition leaf_len (t : ty) : Prop := flat t = true -> forall v, typed t v -> List.length (ints v) = List.length (leaves t).
Lemma leaf_len_all : forall t, leaf_len t.
Proof.
  intros t. refine (ty_rec' leaf_len _ _ _ _ _ _ _ t); clear t; unfold leaf_len; try (intros _ v (n&->&_); reflexivity); try discriminate.
  - intros t S _ v Ty. destruct t; try discriminate; destruct Ty as (n&->&_); reflexivity.
  - intros [|] fs IH F v Ty; [discriminate|]. apply typed_struct in Ty. destruct Ty as (o&vs&->&_&Ty). cbn [flat] in F. apply andb_true_iff in F. destruct F as (_&F).
    cbn [ints leaves]. revert vs Ty. induction IH as [|t fs Ht _ IH]; intros vs Ty; inversion Ty; subst; [reflexivity|]. cbn [forallb] in F. apply andb_true_iff in F. destruct F as (F1&F2).
    cbn [map List.concat]. rewrite !app_length. rewrite (Ht F1) by assumption. rewrite (IH F2) by assumption. reflexivity.
Qed.

Lemma scalar_flat : forall t, (forall p, after t p = room p (width t)) -> leaves t = [t] ->
  (forall H st v p, held H st t v p <-> (let (k, o) := room p (width t) in exists n, v = VInt n /\ 0 <= n < 2 ^ vbits t /\ part (st k) (o - width t) (width t) = n)) ->
  (forall v, typed t v <-> exists n, v = VInt n /\ 0 <= n < 2 ^ vbits t) -> flat_ok t.
Proof.
  intros t A L Hd Ty _ H st v p. rewrite A, L. split; [reflexivity|]. rewrite Hd, Ty. cbn [map places]. unfold placed. destruct (room p (width t)) as [k o] eqn:E. cbn [fst snd]. split.
  - intros (n&->&B&P). split; [exists n; auto|]. cbn [ints]. constructor; [exact P|constructor].
  - intros ((n&->&B)&P). cbn [ints] in P. exists n. split; [reflexivity|]. split; [exact B|]. inversion P. assumption.
Qed.

Lemma flats_ok : forall fs, Forall flat_ok fs -> forallb flat fs = true -> forall H st vs p,
  afters fs p = rooms p (map width (List.concat (map leaves fs))) /\
  (helds H st fs vs p <-> typeds fs vs /\ placed st (places p (map width (List.concat (map leaves fs)))) (List.concat (map ints vs))).
Proof.
  intros fs F. induction F as [|t fs Ht _ IH]; intros Fl H st vs p.
  - split; [reflexivity|]. destruct vs; cbn [helds]; split.
    + intros _. split; constructor.
    + auto.
    + intros [].
    + intros (X&_). inversion X.
  - cbn [forallb] in Fl. apply andb_true_iff in Fl. destruct Fl as (F1&F2). cbn [map List.concat]. rewrite map_app, rooms_app, places_app.
    destruct (Ht F1 H st (VInt 0) p) as (A1&_). rewrite afters_cons, A1. split; [apply (IH F2 H st vs)|].
    destruct vs as [|v vs]; cbn [helds].
    + split; [intros []|]. intros (X&_). inversion X.
    + destruct (Ht F1 H st v p) as (_&A2). rewrite A2, A1. destruct (IH F2 H st vs (rooms p (map width (leaves t)))) as (_&B2). rewrite B2.
      cbn [map List.concat]. unfold placed. split.
      * intros ((T1&P1)&(T2&P2)). split; [constructor; assumption|]. apply Forall2_app; assumption.
      * intros (T&P). inversion T; subst. apply Forall2_app_iff in P; [tauto|]. rewrite places_length, map_length. symmetry. apply leaf_len_all; assumption.
Qed.

Lemma flat_all : forall t, flat_ok t.
Proof.
  intros t. refine (ty_rec' flat_ok _ _ _ _ _ _ _ t); clear t.
  - intros t S. destruct t; try discriminate; (apply scalar_flat; [reflexivity|reflexivity|intros; reflexivity|intros; reflexivity]).
  - apply scalar_flat; [reflexivity|reflexivity|intros; reflexivity|intros; reflexivity].
  - apply scalar_flat; [reflexivity|reflexivity|intros; reflexivity|intros; reflexivity].
  - apply scalar_flat; [reflexivity|reflexivity|intros; reflexivity|intros; reflexivity].
  - intros t _. discriminate.
  - intros [|] fs IH F H st v p; [discriminate|]. cbn [flat] in F. apply andb_true_iff in F. destruct F as (_&F). cbn [leaves]. change (after (TStruct false fs) p) with (afters fs p).
    split; [apply (flats_ok fs IH F H st [] p)|]. rewrite held_struct, typed_struct. split.
    + intros (vs&->&X). apply flats_ok in X; [|assumption|assumption]. destruct X as (T&P). split; [exists 0, vs; auto|exact P].
    + intros ((o&vs&->&O&T)&P). exists vs. rewrite (O eq_refl). split; [reflexivity|]. apply flats_ok; [assumption|assumption|]. auto.
  - intros vts _. discriminate.
Qed.

Lemma flats_all : forall fs, Forall flat_ok fs.
Proof. intros fs. apply Forall_forall. intros t _. apply flat_all. Qed.

(** No areas, nothing to shrink. *)
Definition no_areas (t : ty) : Prop := flat t = true -> forall H st v p, areas H t v p = [] /\ no_shrink H st t v p.
Lemma no_areas_list : forall fs, Forall no_areas fs -> forallb flat fs = true -> forall H st vs p, areas_of H fs vs p = [] /\ no_shrinks H st fs vs p.
Proof.
  intros fs F. induction F as [|t fs Ht _ IH]; intros Fl H st vs p; [split; [reflexivity|exact Logic.I]|]. cbn [forallb] in Fl. apply andb_true_iff in Fl. destruct Fl as (F1&F2).
  destruct vs as [|v vs]; cbn [areas_of no_shrinks]; [split; [reflexivity|exact Logic.I]|]. destruct (Ht F1 H st v p) as (->&B). destruct (IH F2 H st vs (after t p)) as (->&D). split; [reflexivity|]. split; assumption.
Qed.
Lemma no_areas_all : forall t, no_areas t.
Proof.
  intros t. refine (ty_rec' no_areas _ _ _ _ _ _ _ t); clear t; unfold no_areas; try discriminate; try (intros _ H st v p; split; [reflexivity|exact Logic.I]).
  - intros t S _ H st v p. destruct t; try discriminate; (split; [reflexivity|exact Logic.I]).
  - intros [|] fs IH F H st v p; [discriminate|]. cbn [flat] in F. apply andb_true_iff in F. destruct F as (_&F).
    destruct v as [n|vs|o vs|]; try (split; [reflexivity|exact Logic.I]). rewrite areas_struct.
    destruct (no_areas_list fs IH F H st vs p) as (A&B). split; [exact A|]. apply no_shrink_struct. exact B.
Qed.
Lemma no_areas_flat : forall fs, forallb flat fs = true -> forall H st vs p, areas_of H fs vs p = [] /\ no_shrinks H st fs vs p.
Proof. intros fs. apply no_areas_list. apply Forall_forall. intros t _. apply no_areas_all. Qed.

(** ** No overlap *)
Lemma places_follow : forall l p, 0 <= snd p <= 32 -> Forall (fun s => 1 <= s <= 32) l ->
  Forall (fun x => 0 <= snd (fst x) /\ snd (fst x) + snd x <= 32 /\ follows (p, 0) x) (places p l) /\ ForallOrdPairs follows (places p l).
Proof.
  induction l as [|s l IH]; intros [k o] Hp F; cbn [places].
  - split; constructor.
  - inversion F; subst. destruct (IH (room (k, o) s)) as (A&B); [|assumption|].
    { cbn [room snd] in *. destruct (Z.leb_spec (o + s) 32); cbn [snd]; lia. }
    cbn [snd] in Hp. split.
    + constructor.
      * unfold follows. cbn [room fst snd]. destruct (Z.leb_spec (o + s) 32); cbn [fst snd]; lia.
      * eapply Forall_impl; [|exact A]. intros [[k' a'] s'] (X1&X2&X3). cbn [fst snd] in *. split; [lia|]. split; [lia|]. unfold follows in *. cbn [fst snd room] in *.
        destruct (Z.leb_spec (o + s) 32); cbn [fst snd] in X3; lia.
    + constructor; [|exact B]. eapply Forall_impl; [|exact A]. intros [[k' a'] s'] (X1&X2&X3). unfold follows in *. cbn [fst snd] in *. lia.
Qed.
