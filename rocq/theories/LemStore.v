(** * What the storage encoder leaves in storage. *)

From Verif Require Import Tac SpecAbi SpecVal LemVal SpecLayout RtStore.
From Verif Require Export LemPos.
Ltac Zify.zify_post_hook ::= idtac.

(** ** The specification's inner loops *)

Definition typeds (fs : list ty) (vs : list val) : Prop := Forall2 typed fs vs.

Lemma typed_struct : forall k fs v, typed (TStruct k fs) v <-> exists o vs, v = VStruct o vs /\ (k = false -> o = 0) /\ typeds fs vs.
Proof.
  intros k fs v. cbn [typed]. assert (E : forall vs, (fix go (fs0 : list ty) (vs0 : list val) {struct fs0} : Prop :=
     match fs0, vs0 with [], [] => True | t' :: fs', v' :: vs' => typed t' v' /\ go fs' vs' | _, _ => False end) fs vs <-> typeds fs vs).
  { unfold typeds. induction fs as [|t fs IH]; intros [|u vs].
    - split; [constructor|exact (fun _ => Logic.I)].
    - split; [contradiction|intros X; inversion X].
    - split; [contradiction|intros X; inversion X].
    - rewrite IH. split; [intros (A&B); constructor; auto|intros X; inversion X; auto]. }
  split; intros (o&vs&Ev&K&X); exists o, vs; (split; [exact Ev|split; [exact K|apply E; exact X]]).
Qed.

Lemma typeds_map : forall t vs, Forall (typed t) vs -> typeds (map (fun _ => t) vs) vs.
Proof. unfold typeds. induction 1; cbn [map]; constructor; auto. Qed.

Lemma held_struct : forall H st k fs v p, held H st (TStruct k fs) v p <-> exists vs, v = VStruct 0 vs /\ helds H st fs vs p.
Proof.
  intros H st k fs v p. cbn [held].
  assert (E : forall vs p, (fix go (fs0 : list ty) (vs0 : list val) (p0 : position) {struct fs0} : Prop :=
     match fs0, vs0 with [], [] => True | t' :: fs', v' :: vs' => held H st t' v' p0 /\ go fs' vs' (after t' p0) | _, _ => False end) fs vs p <-> helds H st fs vs p).
  { induction fs as [|t fs IH]; intros [|u vs] q; cbn [helds]; try tauto. rewrite IH. tauto. }
  split; intros (vs&Ev&X); exists vs; (split; [exact Ev|apply E; exact X]).
Qed.

Lemma held_vec : forall H st t v p, held H st (TVec t) v p <->
  exists vs, v = VVec vs /\ st (fst (room p 32)) mod 2 ^ 256 = Z.of_nat (List.length vs) /\
    helds H st (map (fun _ => t) vs) vs (data_slot H (fst (room p 32)), 0).
Proof.
  intros H st t v p. cbn [held]. cbv zeta.
  assert (E : forall vs p, (fix go (vs0 : list val) (p0 : position) {struct vs0} : Prop :=
     match vs0 with [] => True | v' :: vs' => held H st t v' p0 /\ go vs' (after t p0) end) vs p <-> helds H st (map (fun _ => t) vs) vs p).
  { induction vs as [|u vs IH]; intros q; cbn [helds map]; try tauto. rewrite IH. tauto. }
  split; intros (vs&Ev&L&X); exists vs; (split; [exact Ev|split; [exact L|apply E; exact X]]).
Qed.

Lemma held_enum : forall H st vts v p, held H st (TEnum vts) v p <->
  exists tag vs fs, v = VEnum tag vs /\ nth_error vts tag = Some fs /\ helds H st (TU8 :: fs) (VInt (Z.of_nat tag) :: vs) p.
Proof.
  intros H st vts v p. cbn [held helds after width].
  assert (E : forall fs vs p, (fix go (fs0 : list ty) (vs0 : list val) (p0 : position) {struct fs0} : Prop :=
     match fs0, vs0 with [], [] => True | t' :: fs', v' :: vs' => held H st t' v' p0 /\ go fs' vs' (after t' p0) | _, _ => False end) fs vs p <-> helds H st fs vs p).
  { induction fs as [|t fs IH]; intros [|u vs] q; cbn [helds]; try tauto. rewrite IH. tauto. }
  destruct (room p 1) as (k, o). split.
  - intros (tag&vs&->&Pt&X). destruct (nth_error vts tag) as [fs|] eqn:En.
    + rewrite (map_nth_error _ _ _ En), E in X. exists tag, vs, fs. split; [reflexivity|]. split; [exact En|]. split; [|exact X]. exists (Z.of_nat tag).
      split; [reflexivity|]. split; [|exact Pt]. rewrite <- Pt. unfold part. change (2 ^ vbits TU8) with (256 ^ 1). apply Z.mod_pos_bound. reflexivity.
    + assert (N : nth_error (map (fun fs => (fix go (fs0 : list ty) (vs0 : list val) (p0 : position) {struct fs0} : Prop :=
        match fs0, vs0 with [], [] => True | t' :: fs', v' :: vs' => held H st t' v' p0 /\ go fs' vs' (after t' p0) | _, _ => False end) fs) vts) tag = None)
        by (apply nth_error_None; rewrite map_length; apply nth_error_None; exact En). rewrite N in X. destruct X.
  - intros (tag&vs&fs&->&En&(n&Ev&Rn&Pn)&X). exists tag, vs. split; [reflexivity|]. split; [congruence|]. rewrite (map_nth_error _ _ _ En), E. exact X.
Qed.

Lemma typed_enum : forall vts v, typed (TEnum vts) v <-> exists tag vs fs, v = VEnum tag vs /\ nth_error vts tag = Some fs /\ typeds fs vs.
Proof.
  intros vts v. cbn [typed]. assert (E : forall fs vs, (fix go (fs0 : list ty) (vs0 : list val) {struct fs0} : Prop :=
     match fs0, vs0 with [], [] => True | t' :: fs', v' :: vs' => typed t' v' /\ go fs' vs' | _, _ => False end) fs vs <-> typeds fs vs).
  { unfold typeds. induction fs as [|t fs IH]; intros [|u vs].
    - split; [constructor|exact (fun _ => Logic.I)].
    - split; [contradiction|intros X; inversion X].
    - split; [contradiction|intros X; inversion X].
    - rewrite IH. split; [intros (A&B); constructor; auto|intros X; inversion X; auto]. }
  split.
  - intros (tag&vs&->&X). destruct (nth_error vts tag) as [fs|] eqn:En.
    + rewrite (map_nth_error _ _ _ En), E in X. exists tag, vs, fs. auto.
    + assert (N : nth_error (map (fun fs => (fix go (fs0 : list ty) (vs0 : list val) {struct fs0} : Prop :=
        match fs0, vs0 with [], [] => True | t' :: fs', v' :: vs' => typed t' v' /\ go fs' vs' | _, _ => False end) fs) vts) tag = None)
        by (apply nth_error_None; rewrite map_length; apply nth_error_None; exact En). rewrite N in X. destruct X.
  - intros (tag&vs&fs&->&En&X). exists tag, vs. split; [reflexivity|]. rewrite (map_nth_error _ _ _ En), E. exact X.
Qed.

(** A variant with its number before it is typed like a row of fields. *)
Lemma typed_tagged : forall vts tag fs vs, storable (TEnum vts) = true -> nth_error vts tag = Some fs -> typeds fs vs -> typeds (TU8 :: fs) (VInt (Z.of_nat tag) :: vs).
Proof.
  intros vts tag fs vs St En Ty. constructor; [|exact Ty]. exists (Z.of_nat tag). split; [reflexivity|]. change (2 ^ vbits TU8) with 256.
  assert (tag < List.length vts)%nat by (apply nth_error_Some; congruence). cbn [storable] in St. apply andb_true_iff in St. destruct St as (St&_). apply andb_true_iff in St. destruct St as (St&_).
  apply Nat.leb_le in St. lia.
Qed.
Lemma storable_variant : forall vts tag fs, storable (TEnum vts) = true -> nth_error vts tag = Some fs -> Forall (fun t => storable t = true) fs.
Proof.
  intros vts tag fs St En. cbn [storable] in St. apply andb_true_iff in St. destruct St as (St&_). apply andb_true_iff in St. destruct St as (_&St).
  rewrite forallb_forall in St. specialize (St fs (nth_error_In _ _ En)). apply Forall_forall. rewrite forallb_forall in St. exact St.
Qed.

Lemma areas_enum : forall H vts tag fs vs p n, nth_error vts tag = Some fs -> areas H (TEnum vts) (VEnum tag vs) p = areas_of H (TU8 :: fs) (VInt n :: vs) p.
Proof.
  intros H vts tag fs vs p n En. cbn [areas]. rewrite (map_nth_error _ _ _ En). cbn [areas_of areas app after width]. generalize (room p 1). clear En. revert vs.
  induction fs as [|t fs IH]; intros [|u vs] q; cbn [areas_of]; try reflexivity. rewrite <- IH. reflexivity.
Qed.

Lemma no_shrink_enum : forall H st vts tag fs vs p n, nth_error vts tag = Some fs -> no_shrink H st (TEnum vts) (VEnum tag vs) p <-> no_shrinks H st (TU8 :: fs) (VInt n :: vs) p.
Proof.
  intros H st vts tag fs vs p n En. cbn [no_shrink]. rewrite (map_nth_error _ _ _ En). cbn [no_shrinks no_shrink after width]. generalize (room p 1). clear En. revert vs.
  induction fs as [|t fs IH]; intros [|u vs] q; cbn [no_shrinks]; try tauto. specialize (IH vs (after t q)). tauto.
Qed.

Lemma unused_struct : forall H k fs o vs p, unused H (TStruct k fs) (VStruct o vs) p = unused_of H fs vs p.
Proof. intros H k fs o vs p. cbn [unused]. revert vs p. induction fs as [|t fs IH]; intros [|u vs] p; cbn [unused_of]; try reflexivity. rewrite <- IH. reflexivity. Qed.
Lemma unused_vec : forall H t vs p, unused H (TVec t) (VVec vs) p = unused_of H (map (fun _ => t) vs) vs (data_slot H (fst (room p 32)), 0).
Proof.
  intros H t vs p. cbn [unused]. generalize (data_slot H (fst (room p 32)), 0). induction vs as [|u vs IH]; intros q; cbn [unused_of map]; [reflexivity|]. rewrite <- IH. reflexivity.
Qed.
Lemma unused_enum : forall H vts tag fs vs p n, nth_error vts tag = Some fs -> unused H (TEnum vts) (VEnum tag vs) p =
  (fst (afters (TU8 :: fs) p) + 1, fst (after (TEnum vts) p) - 1) :: unused_of H (TU8 :: fs) (VInt n :: vs) p.
Proof.
  intros H vts tag fs vs p n En. cbn [unused]. rewrite En, (map_nth_error _ _ _ En). cbn [app]. f_equal. cbn [unused_of unused app after width]. generalize (room p 1). clear En. revert vs.
  induction fs as [|t fs IH]; intros [|u vs] q; cbn [unused_of]; try reflexivity. rewrite <- IH. reflexivity.
Qed.

Lemma areas_struct : forall H k fs o vs p, areas H (TStruct k fs) (VStruct o vs) p = areas_of H fs vs p.
Proof. intros H k fs o vs p. cbn [areas]. revert vs p. induction fs as [|t fs IH]; intros [|u vs] p; cbn [areas_of]; try reflexivity. rewrite <- IH. reflexivity. Qed.

Lemma areas_vec : forall H t vs p, let d := data_slot H (fst (room p 32)) in areas H (TVec t) (VVec vs) p =
  match vs with [] => [] | _ => slots H (map (fun _ => t) vs) vs (d, 0) end.
Proof.
  intros H t vs p d. cbn [areas]. cbv zeta. fold d.
  assert (X : forall q, (fix go (vs0 : list val) (p0 : position) {struct vs0} : list (Z * Z) :=
       match vs0 with [] => [] | v' :: vs' => areas H t v' p0 ++ go vs' (after t p0) end) vs q = areas_of H (map (fun _ => t) vs) vs q).
  { induction vs as [|u vs IH]; intros q; cbn [areas_of map]; [reflexivity|]. rewrite <- IH. reflexivity. }
  rewrite X. destruct vs; reflexivity.
Qed.

Lemma no_shrink_struct : forall H st k fs o vs p, no_shrink H st (TStruct k fs) (VStruct o vs) p <-> no_shrinks H st fs vs p.
Proof.
  intros H st k fs o vs p. cbn [no_shrink]. revert vs p. induction fs as [|t fs IH]; intros [|u vs] p; cbn [no_shrinks]; try tauto.
  rewrite <- IH. reflexivity.
Qed.

Lemma no_shrink_vec : forall H st t vs p, no_shrink H st (TVec t) (VVec vs) p <->
  st (fst (room p 32)) mod 2 ^ 32 <= Z.of_nat (List.length vs) /\ no_shrinks H st (map (fun _ => t) vs) vs (data_slot H (fst (room p 32)), 0).
Proof.
  intros H st t vs p. cbn [no_shrink]. cbv zeta. apply and_iff_compat_l. generalize (data_slot H (fst (room p 32)), 0).
  induction vs as [|u vs IH]; intros q; cbn [no_shrinks map]; [tauto|]. rewrite <- IH. reflexivity.
Qed.

Lemma put_elems_puts : forall H t vs q, put_elems H t vs q = puts H (map (fun _ => t) vs) vs q.
Proof. intros H t. induction vs as [|v vs IH]; intros q; cbn [map puts]; [reflexivity|]. rewrite <- IH. reflexivity. Qed.

Lemma safe_struct : forall H k fs o vs q, safes H fs vs q -> safe H (TStruct k fs) (VStruct o vs) q.
Proof.
  intros H k fs o vs q. cbn [safe]. revert vs q. induction fs as [|t fs IH]; intros [|u vs] q X; cbn [safes] in X; try exact Logic.I.
  destruct X as (A&B&C). split; [exact A|split; [exact B|]]. apply IH. exact C.
Qed.

Lemma safe_elems_safes : forall H t vs q, safes H (map (fun _ => t) vs) vs q -> safe_elems H t vs q.
Proof. intros H t. induction vs as [|v vs IH]; intros q X; cbn [safe_elems map safes] in *; [exact Logic.I|]. destruct X as (A&B&C). auto. Qed.

Lemma safe_vec_intro : forall H t vs q, s_stor q (s_slot q) mod 2 ^ 32 <= Z.of_nat (List.length vs) ->
  safe_elems H t vs (mkS (data_slot H (s_slot q)) 0 (s_stor q (s_slot q) mod 2 ^ 256) (s_stor q)) -> safe H (TVec t) (VVec vs) q.
Proof.
  intros H t vs q A B. cbn [safe]. split; [exact A|]. clear A. revert B. generalize (mkS (data_slot H (s_slot q)) 0 (s_stor q (s_slot q) mod 2 ^ 256) (s_stor q)).
  induction vs as [|v vs IH]; intros e X; cbn [safe_elems] in X; [exact Logic.I|]. destruct X as (X1&X2&X3). split; [exact X1|split; [exact X2|]]. apply IH. exact X3.
Qed.

(** ** Words *)

Lemma mod_le : forall x y a b, 0 <= a <= b -> x mod 256 ^ b = y mod 256 ^ b -> x mod 256 ^ a = y mod 256 ^ a.
Proof.
  intros x y a b H E. assert (A : forall z, z mod 256 ^ a = (z mod 256 ^ b) mod 256 ^ a).
  { intros z. apply Znumtheory.Zmod_div_mod; [apply Z.pow_pos_nonneg; lia|apply Z.pow_pos_nonneg; lia|].
    exists (256 ^ (b - a)). rewrite <- Z.pow_add_r by lia. f_equal. lia. }
  rewrite (A x), (A y), E. reflexivity.
Qed.

Lemma part_of_mod : forall x a b, 0 <= a -> 0 <= b -> part x a b = (x mod 256 ^ (a + b)) / 256 ^ a.
Proof.
  intros x a b Ha Hb. unfold part. rewrite Z.pow_add_r by lia. rewrite Z.rem_mul_r by (apply Z.pow_nonzero || apply Z.pow_pos_nonneg; lia).
  pose proof (pow256_pos a Ha). rewrite Z.add_comm, Z.mul_comm. rewrite Z.div_add_l by lia.
  rewrite (Z.div_small (x mod 256 ^ a)); [lia|]. apply Z.mod_pos_bound. lia.
Qed.

Lemma part_ext : forall x y a b o, 0 <= a -> 0 <= b -> a + b <= o -> x mod 256 ^ o = y mod 256 ^ o -> part x a b = part y a b.
Proof. intros x y a b o Ha Hb Ho E. rewrite !part_of_mod by lia. f_equal. apply (mod_le x y (a + b) o); [lia|exact E]. Qed.

(** ** A value in storage depends on its slots alone *)

Definition pos_cond (st st' : Z -> Z) (p p' : position) : Prop :=
  (forall x, fst p <= x < fst p' -> st x = st' x) /\ st (fst p') mod 256 ^ snd p' = st' (fst p') mod 256 ^ snd p'.

Lemma pos_cond_l : forall st st' p q r, good q -> before p q -> before q r -> pos_cond st st' p r -> pos_cond st st' p q.
Proof.
  intros st st' p q r Gq B1 B2 (A&B). unfold good, before in *. split.
  - intros x Hx. apply A. lia.
  - destruct B2 as [B2|(B2&B3)]; [rewrite A by lia; reflexivity|]. rewrite B2. apply (mod_le _ _ (snd q) (snd r)); [lia|exact B].
Qed.
Lemma pos_cond_r : forall st st' p q r, before p q -> pos_cond st st' p r -> pos_cond st st' q r.
Proof. intros st st' p q r B1 (A&B). unfold before in *. split; [intros x Hx; apply A; lia|exact B]. Qed.

Lemma covers_app : forall l k x, covers (l ++ k) x <-> covers l x \/ covers k x.
Proof.
  intros. unfold covers. split.
  - intros (a&Ha&Hx). apply in_app_iff in Ha. destruct Ha; [left|right]; exists a; auto.
  - intros [(a&Ha&Hx)|(a&Ha&Hx)]; exists a; rewrite in_app_iff; auto.
Qed.
Lemma covers_cons : forall a l x, covers (a :: l) x <-> fst a <= x <= snd a \/ covers l x.
Proof.
  intros. unfold covers. cbn [In]. split.
  - intros (b&[->|Hb]&Hx); [left; exact Hx|right; exists b; auto].
  - intros [Hx|(b&Hb&Hx)]; [exists a; auto|exists b; auto].
Qed.

Definition ext_ok (t : ty) : Prop := forall H st st' v p, good p -> typed t v -> pos_cond st st' p (after t p) ->
  (forall x, covers (areas H t v p) x -> st x = st' x) -> held H st t v p -> held H st' t v p.

Lemma helds_ext : forall fs, Forall ext_ok fs -> forall H st st' vs p, good p -> typeds fs vs -> pos_cond st st' p (afters fs p) ->
  (forall x, covers (areas_of H fs vs p) x -> st x = st' x) -> helds H st fs vs p -> helds H st' fs vs p.
Proof.
  intros fs F. induction F as [|t fs Ht _ IH]; intros H st st' vs p Gp Ty Pc Ar Hd; destruct vs as [|v vs]; cbn [helds] in *; auto.
  destruct Hd as (Hv&Hd). inversion Ty; subst. destruct (after_ok t p Gp) as (G1&B1). destruct (afters_ok fs (after t p) G1) as (G2&B2).
  cbn [areas_of] in Ar. rewrite afters_cons in Pc. split.
  - apply (Ht H st st' v p Gp); auto.
    + apply (pos_cond_l st st' p _ (afters fs (after t p))); auto.
    + intros x Hx. apply Ar. apply covers_app. auto.
  - apply (IH H st st'); auto.
    + eapply pos_cond_r; eassumption.
    + intros x Hx. apply Ar. apply covers_app. auto.
Qed.

Lemma held_scalar : forall H st t v p, match t with TVec _ | TStruct _ _ | TEnum _ => False | _ => True end -> held H st t v p <->
  exists n, v = VInt n /\ 0 <= n < 2 ^ vbits t /\ part (st (fst (room p (width t)))) (snd (room p (width t)) - width t) (width t) = n.
Proof. intros H st t v p X. destruct t; try contradiction; cbn [held]; destruct (room p _); reflexivity. Qed.

Lemma room_part : forall p s, good p -> 0 <= s <= 32 -> s <= snd (room p s).
Proof. unfold good. intros [k o] s Hp Hs. cbn [room snd] in *. destruct (o + s <=? 32); cbn [snd]; lia. Qed.

Lemma ext_scalar : forall t, match t with TVec _ | TStruct _ _ | TEnum _ => False | _ => True end -> ext_ok t.
Proof.
  intros t X H st st' v p Gp Ty (Pc1&Pc2) Ar Hd. apply held_scalar; [exact X|]. apply held_scalar in Hd; [|exact X]. destruct Hd as (n&->&Rn&Pn).
  exists n. split; [reflexivity|]. split; [exact Rn|]. rewrite <- Pn. pose proof (width_range t). pose proof (room_part p (width t) Gp ltac:(lia)).
  assert (Ea : after t p = room p (width t)) by (destruct t; try contradiction; reflexivity). rewrite Ea in *.
  symmetry. apply (part_ext _ _ _ _ (snd (room p (width t)))); [lia|lia|lia|exact Pc2].
Qed.

Lemma held_ext : forall t, ext_ok t.
Proof.
  intros t. refine (ty_rec' ext_ok _ _ _ _ _ _ _ t); clear t; try (apply ext_scalar; exact Logic.I).
  - intros t St. apply ext_scalar. destruct t; try discriminate; exact Logic.I.
  - intros t IH H st st' v p Gp Ty (Pc1&Pc2) Ar Hd. apply held_vec. apply held_vec in Hd. destruct Hd as (vs&->&L&Hd). exists vs. split; [reflexivity|].
    rewrite areas_vec in Ar. cbn [after] in Pc1, Pc2. set (k := fst (room p 32)) in *.
    assert (E32 : snd (room p 32) = 32) by (pose proof (room_part p 32 Gp ltac:(lia)); pose proof (room_good p 32 Gp ltac:(lia)) as G; unfold good in G; lia).
    rewrite E32 in Pc2. split; [rewrite <- L; symmetry; exact Pc2|]. cbn [typed] in Ty. destruct Ty as (vs'&Ev&_&Ty). injection Ev as <-.
    destruct vs as [|v vs]; [exact Logic.I|]. remember (v :: vs) as l. assert (Ar' : forall x, covers (slots H (map (fun _ => t) l) l (data_slot H k, 0)) x -> st x = st' x) by (subst l; exact Ar).
    clear Ar Heql v vs. unfold slots in Ar'. set (d := (data_slot H k, 0) : position) in *.
    assert (Gd : good d) by (unfold good, d; cbn; lia). destruct (afters_ok (map (fun _ => t) l) d Gd) as (_&B).
    apply (helds_ext (map (fun _ => t) l)) with (st := st); auto.
    + apply Forall_map. apply Forall_forall. intros; exact IH.
    + apply typeds_map. exact Ty.
    + split; [intros x Hx; apply Ar'|f_equal; apply Ar']; apply covers_cons; left; cbn [fst snd]; unfold before in B; lia.
    + intros x Hx. apply Ar'. apply covers_cons. right. exact Hx.
  - intros k fs IH H st st' v p Gp Ty Pc Ar Hd. apply held_struct. apply held_struct in Hd. destruct Hd as (vs&->&Hd). exists vs. split; [reflexivity|].
    apply typed_struct in Ty. destruct Ty as (o&vs'&Ev&_&Ty). injection Ev as <- <-. rewrite areas_struct in Ar.
    apply (helds_ext fs IH H st st'); auto.
  - intros vts IH H st st' v p Gp Ty Pc Ar Hd. apply held_enum. apply held_enum in Hd. destruct Hd as (tag&vs&fs&->&En&Hd). exists tag, vs, fs. split; [reflexivity|]. split; [exact En|].
    apply typed_enum in Ty. destruct Ty as (tag'&vs'&fs'&Ev&En'&Ty). injection Ev as <- <-. assert (fs' = fs) by congruence. subst fs'.
    rewrite (areas_enum H vts tag fs vs p (Z.of_nat tag) En) in Ar.
    apply (helds_ext (TU8 :: fs)) with (st := st); auto.
    + constructor; [apply ext_scalar; exact Logic.I|]. exact (nth_error_Forall _ _ _ _ IH En).
    + constructor; [|exact Ty]. cbn [helds] in Hd. destruct Hd as (Hd&_). apply held_scalar in Hd; [|exact Logic.I]. destruct Hd as (n&Ev&Rn&_). exists n. split; [exact Ev|exact Rn].
    + rewrite afters_cons. cbn [after width]. pose proof (room_good p 1 Gp ltac:(lia)) as Gr. destruct (afters_ok fs (room p 1) Gr) as (Ga&Ba). pose proof (room_before p 1 Gp ltac:(lia)) as Br.
      apply (pos_cond_l st st' p (afters fs (room p 1)) (after (TEnum vts) p)); [exact Ga|eapply before_trans; eassumption| |exact Pc].
      apply variant_before; [eapply nth_error_In; exact En|exact Gp].
Qed.

(** ** Writing a value *)

Definition pos (q : sst) : position := (s_slot q, s_off q).
(** The storage as it will be once the current slot is written. *)
Definition vst (q : sst) : Z -> Z := upd (s_stor q) (s_slot q) (s_word q).

Lemma vst_at : forall q, vst q (s_slot q) = s_word q.
Proof. intros. unfold vst, upd. rewrite Z.eqb_refl. reflexivity. Qed.
Lemma vst_other : forall q x, x <> s_slot q -> vst q x = s_stor q x.
Proof. intros. unfold vst, upd. destruct (Z.eqb_spec x (s_slot q)); [contradiction|reflexivity]. Qed.

Lemma pos_acc : forall q s, pos (acc q s) = room (pos q) s.
Proof. intros. unfold pos, acc, room. destruct (s_off q + s <=? 32); reflexivity. Qed.
Lemma acc_zero : forall q, s_off q <= 32 -> acc q 0 = q.
Proof. intros [k o w st] H. unfold acc. cbn [s_off s_slot s_word s_stor] in *. rewrite Z.add_0_r. destruct (Z.leb_spec o 32); [reflexivity|lia]. Qed.

(** What moving on changes. *)
Lemma acc_frame : forall q s, good (pos q) -> 0 <= s <= 32 ->
  (forall x, x <> s_slot q -> s_stor (acc q s) x = s_stor q x) /\
  (s_slot (acc q s) <> s_slot q -> s_stor (acc q s) (s_slot q) = s_word q) /\
  (s_slot (acc q s) = s_slot q -> acc q s = mkS (s_slot q) (s_off q + s) (s_word q) (s_stor q)).
Proof.
  intros q s Gq Hs. unfold acc. destruct (s_off q + s <=? 32) eqn:E; cbn [s_stor s_slot s_off]; repeat split; auto; intros.
  - contradiction.
  - unfold upd. destruct (Z.eqb_spec x (s_slot q)); [contradiction|reflexivity].
  - unfold upd. rewrite Z.eqb_refl. reflexivity.
  - lia.
Qed.

Lemma FOP_app : forall (A : Type) (R : A -> A -> Prop) l k, ForallOrdPairs R (l ++ k) ->
  ForallOrdPairs R l /\ ForallOrdPairs R k /\ (forall x y, In x l -> In y k -> R x y).
Proof.
  induction l as [|a l IH]; intros k F; cbn [app] in F.
  - split; [constructor|]. split; [exact F|]. intros x y [].
  - inversion F as [|? ? F1 F2]; subst. destruct (IH k F2) as (A1&A2&A3). rewrite Forall_forall in F1. split; [|split; [exact A2|]].
    + constructor; [|exact A1]. apply Forall_forall. intros x Hx. apply F1. apply in_app_iff. auto.
    + intros x y [<-|Hx] Hy; [apply F1; apply in_app_iff; auto|auto].
Qed.

Lemma apart_covers : forall m l x, Forall (apart m) l -> fst m <= x <= snd m -> covers l x -> False.
Proof. intros m l x F Hx (a&Ha&Hc). rewrite Forall_forall in F. specialize (F a Ha). unfold apart in F. lia. Qed.
Lemma cross_covers : forall l k x, (forall a b, In a l -> In b k -> apart a b) -> covers l x -> covers k x -> False.
Proof. intros l k x F (a&Ha&Hc) (b&Hb&Hd). specialize (F a b Ha Hb). unfold apart in F. lia. Qed.
Lemma apart_sub : forall m m' l, Forall (apart m) l -> fst m <= fst m' -> snd m' <= snd m -> Forall (apart m') l.
Proof. intros m m' l F A B. eapply Forall_impl; [|exact F]. unfold apart. intros a. cbn. lia. Qed.

(** Unused slots lie between the first and the last slot of a value or among those of its vectors. *)
Definition unused_ok (t : ty) : Prop := forall H v p x, good p -> typed t v -> covers (unused H t v p) x -> fst p < x < fst (after t p) \/ covers (areas H t v p) x.
Lemma unuseds_in : forall fs, Forall unused_ok fs -> forall H vs p x, good p -> typeds fs vs -> covers (unused_of H fs vs p) x -> fst p < x < fst (afters fs p) \/ covers (areas_of H fs vs p) x.
Proof.
  intros fs F. induction F as [|t fs Ht _ IH]; intros H vs p x Gp Ty C; inversion Ty; subst; cbn [unused_of] in C; [destruct C as (?&[]&_)|].
  destruct (after_ok t p Gp) as (G1&B1). destruct (afters_ok fs (after t p) G1) as (G2&B2). apply before_fst in B1, B2. rewrite afters_cons. cbn [areas_of]. rewrite covers_app in *.
  destruct C as [C|C].
  - destruct (Ht H _ p x Gp ltac:(eassumption) C) as [X|X]; [left; lia|auto].
  - destruct (IH H _ (after t p) x G1 ltac:(eassumption) C) as [X|X]; [left; lia|auto].
Qed.
Lemma unused_in : forall t, unused_ok t.
Proof.
  assert (Sc : forall t, match t with TVec _ | TStruct _ _ | TEnum _ => False | _ => True end -> unused_ok t).
  { intros t X H v p x Gp Ty C. exfalso. destruct t; try contradiction; destruct v; destruct C as (?&[]&_). }
  intros t. refine (ty_rec' unused_ok _ _ _ _ _ _ _ t); clear t; try (apply Sc; exact Logic.I).
  - intros t St. apply Sc. destruct t; try discriminate; exact Logic.I.
  - intros t IH H v p x Gp Ty C. cbn [typed] in Ty. destruct Ty as (vs&->&_&Ty). rewrite unused_vec in C. right. rewrite areas_vec. set (d := (data_slot H (fst (room p 32)), 0) : position) in *.
    destruct vs as [|v vs]; [destruct C as (?&[]&_)|]. remember (v :: vs) as us. assert (Gd : good d) by (unfold good, d; cbn; lia).
    assert (X : covers (slots H (map (fun _ => t) us) us d) x); [|subst us; exact X]. unfold slots. rewrite covers_cons. cbn [fst snd].
    apply (unuseds_in (map (fun _ => t) us)) in C; [destruct C as [C|C]; [left; lia|right; exact C]|apply Forall_map, Forall_forall; intros; exact IH|exact Gd|apply typeds_map; exact Ty].
  - intros k fs IH H v p x Gp Ty C. apply typed_struct in Ty. destruct Ty as (o&vs&->&_&Ty). rewrite unused_struct in C. rewrite areas_struct. exact (unuseds_in fs IH H vs p x Gp Ty C).
  - intros vts IH H v p x Gp Ty C. apply typed_enum in Ty. destruct Ty as (tag&vs&fs&->&En&Ty). rewrite (unused_enum H vts tag fs vs p 0 En) in C. rewrite (areas_enum H vts tag fs vs p 0 En).
    destruct (afters_ok (TU8 :: fs) p Gp) as (_&B0). apply before_fst in B0. pose proof (variant_before vts fs p (nth_error_In _ _ En) Gp) as B1. apply before_fst in B1.
    change (afters fs (room p 1)) with (afters (TU8 :: fs) p) in B1. rewrite covers_cons in C. cbn [fst snd] in C. destruct C as [C|C]; [left; lia|].
    apply (unuseds_in (TU8 :: fs)) in C; [destruct C as [C|C]; [left; lia|right; exact C]|constructor; [apply Sc; exact Logic.I|exact (nth_error_Forall _ _ _ _ IH En)]|exact Gp|].
    constructor; [exists 0; split; [reflexivity|cbn; lia]|exact Ty].
Qed.

Definition put_ok (t : ty) : Prop := forall H v q, storable t = true -> typed t v -> good (pos q) ->
  let q' := put H t v (acc q (field_size t)) in pos q' = after t (pos q) /\
  let l := (s_slot q, s_slot q') :: areas H t v (pos q) in
  (ForallOrdPairs apart l ->
   (forall x, ~ covers l x -> s_stor q' x = s_stor q x) /\
   vst q' (s_slot q) mod 256 ^ s_off q = vst q (s_slot q) mod 256 ^ s_off q /\
   held H (vst q') t v (pos q) /\ (forall x, covers (unused H t v (pos q)) x -> vst q' x = 0)).

Lemma puts_ok : forall fs, Forall put_ok fs -> forall H vs q, Forall (fun t => storable t = true) fs -> typeds fs vs -> good (pos q) ->
  let q' := puts H fs vs q in pos q' = afters fs (pos q) /\
  let l := (s_slot q, s_slot q') :: areas_of H fs vs (pos q) in
  (ForallOrdPairs apart l ->
   (forall x, ~ covers l x -> s_stor q' x = s_stor q x) /\
   vst q' (s_slot q) mod 256 ^ s_off q = vst q (s_slot q) mod 256 ^ s_off q /\
   helds H (vst q') fs vs (pos q) /\ (forall x, covers (unused_of H fs vs (pos q)) x -> vst q' x = 0)).
Proof.
  intros fs F. induction F as [|t fs Ht Hfs IH]; intros H vs q Pl Ty Gq; inversion Ty as [|? v ? vs' Tv Tvs]; subst; cbn [puts].
  - split; [reflexivity|]. intros _. split; [auto|]. split; [reflexivity|]. split; [exact Logic.I|intros x (?&[]&_)].
  - inversion Pl as [|? ? Pt Pfs]; subst. rewrite afters_cons. destruct (Ht H v q Pt Tv Gq) as (E1&X1). set (qa := put H t v (acc q (field_size t))) in *.
    destruct (after_ok t (pos q) Gq) as (Ga&Ba). rewrite <- E1 in Ga, Ba. destruct (IH H vs' qa Pfs Tvs Ga) as (E2&X2).
    destruct (afters_ok fs (pos qa) Ga) as (G2&B2). rewrite <- E2 in G2, B2. set (q' := puts H fs vs' qa) in *.
    split; [rewrite E2, E1; reflexivity|]. cbn [areas_of]. rewrite <- E1. cbv zeta. intros FO. inversion FO as [|? ? FM FA]; subst.
    apply FOP_app in FA. destruct FA as (FA1&FA2&FC). apply Forall_app in FM. destruct FM as (FM1&FM2).
    clearbody q'. clearbody qa. unfold before in Ba, B2. cbn [pos fst snd] in Ba, B2.
    destruct X1 as (S1&M1&H1&U1).
    { constructor; [|exact FA1]. eapply apart_sub; [exact FM1|cbn; lia|cbn; lia]. }
    destruct X2 as (S2&M2&H2&U2).
    { constructor; [|exact FA2]. eapply apart_sub; [exact FM2|cbn; lia|cbn; lia]. }
    hide M1. hide M2.
    assert (V2 : forall x, s_slot q <= x < s_slot qa -> vst q' x = vst qa x).
    { intros x Hx. assert (D : x <> s_slot qa /\ x <> s_slot q') by (clear - Hx B2; lia). destruct D. rewrite !vst_other by assumption. apply S2. rewrite covers_cons. cbn [fst snd]. intros [Y|Y]; [clear - Y Hx; lia|].
      eapply apart_covers; [exact FM2| |exact Y]. cbn. clear - Hx B2. lia. }
    assert (V3 : forall x, covers (areas H t v (pos q)) x -> vst q' x = vst qa x).
    { intros x Hx. assert (N1 : ~ (s_slot q <= x <= s_slot q')) by (intros Y; eapply apart_covers; [exact FM1| |exact Hx]; cbn; lia).
      clear - S2 N1 Ba B2 FC Hx. assert (x <> s_slot qa /\ x <> s_slot q' /\ ~ (s_slot qa <= x <= s_slot q')) as (D1&D2&D3) by lia.
      rewrite (vst_other qa), (vst_other q') by assumption. apply S2. rewrite covers_cons. cbn [fst snd]. intros [Y|Y]; [contradiction|]. eapply cross_covers; eassumption. }
    split; [|split; [|split; [split|]]].
    + intros x Hx. rewrite covers_cons, covers_app in Hx. cbn [fst snd] in Hx. rewrite S2, S1.
      * reflexivity.
      * rewrite covers_cons. cbn [fst snd]. intros [Y|Y]; apply Hx; [left; clear - Y Ba B2; lia|auto].
      * rewrite covers_cons. cbn [fst snd]. intros [Y|Y]; apply Hx; [left; clear - Y Ba B2; lia|auto].
    + unhide M1. unhide M2. rewrite <- M1. destruct (Z.eq_dec (s_slot q) (s_slot qa)) as [Eq|Nq].
      * rewrite Eq. unfold good in Ga, Gq. cbn [pos snd] in Ga, Gq. eapply (mod_le (vst q' (s_slot qa)) (vst qa (s_slot qa)) (s_off q) (s_off qa)); [lia|exact M2].
      * clear M1 M2. rewrite V2 by lia. reflexivity.
    + eapply held_ext; [exact Gq|exact Tv| | |exact H1].
      * rewrite <- E1. split; cbn [pos fst snd]; [intros x Hx; symmetry; apply V2; exact Hx|unhide M2; symmetry; exact M2].
      * intros x Hx. symmetry. apply V3. exact Hx.
    + rewrite <- E1. exact H2.
    + intros x Hx. cbn [unused_of] in Hx. rewrite covers_app in Hx. destruct Hx as [Hx|Hx]; [|apply U2; rewrite E1; exact Hx].
      rewrite <- (U1 x Hx). apply unused_in in Hx; [|exact Gq|exact Tv]. rewrite <- E1 in Hx. cbn [pos fst] in Hx. destruct Hx as [Hx|Hx]; [apply V2; lia|apply V3; exact Hx].
Qed.

Lemma ins_mod : forall w o sz n, 0 <= sz <= o -> ins w o sz n mod 256 ^ (o - sz) = w mod 256 ^ (o - sz).
Proof.
  intros w o sz n H. unfold ins. replace (256 ^ o) with (256 ^ sz * 256 ^ (o - sz)) by (rewrite <- Z.pow_add_r by lia; f_equal; lia).
  replace (w mod 256 ^ (o - sz) + n * 256 ^ (o - sz) + w / (256 ^ sz * 256 ^ (o - sz)) * (256 ^ sz * 256 ^ (o - sz)))
    with (w mod 256 ^ (o - sz) + (n + w / (256 ^ sz * 256 ^ (o - sz)) * 256 ^ sz) * 256 ^ (o - sz)) by ring.
  rewrite Z_mod_plus_full. apply Z.mod_mod. pose proof (pow256_pos (o - sz)). lia.
Qed.
Lemma ins_part : forall w o sz n, 0 <= sz <= o -> 0 <= n < 256 ^ sz -> part (ins w o sz n) (o - sz) sz = n.
Proof.
  intros w o sz n H Hn. unfold ins, part. replace (256 ^ o) with (256 ^ sz * 256 ^ (o - sz)) by (rewrite <- Z.pow_add_r by lia; f_equal; lia).
  replace (w mod 256 ^ (o - sz) + n * 256 ^ (o - sz) + w / (256 ^ sz * 256 ^ (o - sz)) * (256 ^ sz * 256 ^ (o - sz)))
    with (w mod 256 ^ (o - sz) + (n + w / (256 ^ sz * 256 ^ (o - sz)) * 256 ^ sz) * 256 ^ (o - sz)) by ring.
  pose proof (pow256_pos (o - sz) ltac:(lia)) as Y. rewrite Z.div_add by lia. rewrite (Z.div_small (w mod 256 ^ (o - sz))) by (apply Z.mod_pos_bound; lia).
  rewrite Z.add_0_l, Z_mod_plus_full. apply Z.mod_small. exact Hn.
Qed.

Lemma vbits_width : forall t n, 0 <= n < 2 ^ vbits t -> match t with TVec _ | TStruct _ _ | TEnum _ => False | _ => True end -> 0 <= n < 256 ^ width t.
Proof.
  intros t n H X. destruct t; try contradiction; cbn [vbits width] in *; try exact H;
    change (256 ^ 1) with 256; change (2 ^ 1) with 2 in H; lia.
Qed.

Lemma put_ok_scalar : forall t, match t with TVec _ | TStruct _ _ | TEnum _ => False | _ => True end -> put_ok t.
Proof.
  intros t X H v q Pl Ty Gq. assert (exists n, v = VInt n /\ 0 <= n < 2 ^ vbits t) as (n&->&Hn) by (destruct t; try contradiction; exact Ty).
  assert (Ef : field_size t = width t) by (destruct t; try contradiction; reflexivity). rewrite Ef.
  assert (Ep : put H t (VInt n) (acc q (width t)) = put_int (acc q (width t)) (width t) n) by (destruct t; try contradiction; reflexivity). rewrite Ep.
  pose proof (width_range t) as Wr. pose proof (acc_frame q (width t) Gq Wr) as (A1&A2&A3). pose proof (pos_acc q (width t)) as Pa.
  pose proof (room_part (pos q) (width t) Gq Wr) as Rp. pose proof (room_good (pos q) (width t) Gq Wr) as Rg. rewrite <- Pa in Rp, Rg. unfold good in Rg, Gq. cbn [pos snd fst] in Rp, Rg, Gq.
  assert (Ea : after t (pos q) = pos (acc q (width t))) by (rewrite Pa; destruct t; try contradiction; reflexivity).
  cbv zeta. split; [rewrite Ea; reflexivity|]. intros _. set (q1 := acc q (width t)) in *. cbn [put_int s_slot s_stor].
  split; [|split; [|split]].
  - intros x Hx. rewrite covers_cons in Hx. cbn [fst snd] in Hx. apply A1. intros ->. apply Hx. left.
    unfold q1, acc. destruct (s_off q + width t <=? 32); cbn [s_slot]; lia.
  - destruct (Z.eq_dec (s_slot q1) (s_slot q)) as [E|N].
    + assert (Ev : vst (put_int q1 (width t) n) (s_slot q) = ins (s_word q) (s_off q + width t) (width t) n).
      { rewrite <- E. transitivity (s_word (put_int q1 (width t) n)); [apply (vst_at (put_int q1 (width t) n))|]. rewrite A3 by exact E. reflexivity. }
      rewrite Ev, vst_at. pose proof (ins_mod (s_word q) (s_off q + width t) (width t) n ltac:(lia)) as I. replace (s_off q + width t - width t) with (s_off q) in I by lia. exact I.
    + rewrite vst_other by (cbn [put_int s_slot]; congruence). cbn [put_int s_stor]. rewrite A2 by exact N. rewrite vst_at. reflexivity.
  - apply held_scalar; [destruct t; auto|]. exists n. split; [reflexivity|]. split; [exact Hn|]. rewrite <- Pa. cbn [pos fst snd].
    assert (Ev : vst (put_int q1 (width t) n) (s_slot q1) = ins (s_word q1) (s_off q1) (width t) n) by (apply (vst_at (put_int q1 (width t) n))).
    rewrite Ev. apply ins_part; [lia|]. apply vbits_width; assumption.
  - intros x C. exfalso. destruct t; try contradiction; destruct C as (?&[]&_).
Qed.

Lemma vst_cache : forall q x, s_stor (cache q) x = vst q x.
Proof. reflexivity. Qed.
Lemma vst_cache2 : forall q x, vst (cache q) x = vst q x.
Proof. intros. unfold vst, cache, upd. cbn [s_slot s_stor s_word]. destruct (x =? s_slot q); reflexivity. Qed.

Lemma wipe_at : forall n st k x, wipe n st k x = if (k <=? x) && (x <? k + Z.of_nat n) then 0 else st x.
Proof.
  induction n as [|n IH]; intros st k x; cbn [wipe].
  - destruct (k <=? x) eqn:E1, (x <? k + Z.of_nat 0) eqn:E2; try reflexivity. cbn in E2. lia.
  - rewrite IH. unfold upd. destruct (Z.eqb_spec x k) as [->|N].
    + replace (k + 1 <=? k) with false by lia. replace (k <=? k) with true by lia. replace (k <? k + Z.of_nat (S n)) with true by lia. reflexivity.
    + replace (k + 1 <=? x) with (k <=? x) by lia. replace (x <? k + 1 + Z.of_nat n) with (x <? k + Z.of_nat (S n)) by lia. reflexivity.
Qed.

(** The slots after the variant's last one become zero. *)
Lemma ending_vst : forall T q x, s_slot q <= fst T -> vst (ending T q) x = if (s_slot q <? x) && (x <=? fst T) then 0 else vst q x.
Proof.
  intros T q x Hs. unfold ending. destruct (Z.eqb_spec (s_slot q) (fst T)) as [E|N].
  - replace ((s_slot q <? x) && (x <=? fst T)) with false; [|destruct (s_slot q <? x) eqn:E1, (x <=? fst T) eqn:E2; auto; lia].
    unfold vst. cbn [s_stor s_slot s_word]. rewrite E. reflexivity.
  - unfold vst at 1. cbn [s_stor s_slot s_word]. unfold upd at 1. rewrite wipe_at. fold (vst q).
    destruct (Z.eqb_spec x (fst T)) as [->|Nx].
    + replace (s_slot q <? fst T) with true by lia. replace (fst T <=? fst T) with true by lia. reflexivity.
    + replace (s_slot q + 1 <=? x) with (s_slot q <? x) by lia. replace (x <? s_slot q + 1 + Z.of_nat (Z.to_nat (fst T - s_slot q))) with (x <=? fst T) by lia. reflexivity.
Qed.
Lemma ending_stor : forall T q x, s_slot q <= fst T -> x < s_slot q \/ fst T < x -> s_stor (ending T q) x = s_stor q x.
Proof.
  intros T q x Hs Hx. unfold ending. destruct (Z.eqb_spec (s_slot q) (fst T)) as [E|N]; cbn [s_stor]; [reflexivity|].
  rewrite wipe_at. replace ((s_slot q + 1 <=? x) && (x <? s_slot q + 1 + Z.of_nat (Z.to_nat (fst T - s_slot q)))) with false by lia.
  unfold upd. destruct (Z.eqb_spec x (s_slot q)); [lia|reflexivity].
Qed.
Lemma pos_ending : forall T q, pos (ending T q) = T.
Proof. intros [k o] q. unfold ending, pos. cbn [fst snd]. destruct (_ =? _); reflexivity. Qed.

Lemma put_tagged : forall H tag fs vs q, puts H fs vs (put_int (acc q 1) 1 (Z.of_nat tag)) = puts H (TU8 :: fs) (VInt (Z.of_nat tag) :: vs) q.
Proof. reflexivity. Qed.

Lemma put_all : forall t, put_ok t.
Proof.
  intros t. refine (ty_rec' put_ok _ _ _ _ _ _ _ t); clear t; try (apply put_ok_scalar; exact Logic.I).
  - intros t St. apply put_ok_scalar. destruct t; try discriminate; exact Logic.I.
  - intros t IH H v q Pl Ty Gq. cbn [storable] in Pl. cbn [typed] in Ty. destruct Ty as (vs&->&Lv&Ty).
    cbn [field_size]. set (q1 := acc q 32). pose proof (acc_frame q 32 Gq ltac:(lia)) as (A1&A2&A3). fold q1 in A1, A2, A3. pose proof (pos_acc q 32) as Pa. fold q1 in Pa.
    pose proof (room_part (pos q) 32 Gq ltac:(lia)) as Rp. pose proof (room_good (pos q) 32 Gq ltac:(lia)) as Rg. rewrite <- Pa in Rp, Rg. unfold good in Rg.
    pose proof (room_before (pos q) 32 Gq ltac:(lia)) as Rb. rewrite <- Pa in Rb. apply before_fst in Rb.
    cbn [pos snd fst] in Rp, Rg, Rb. rewrite put_vec, put_elems_puts. set (d := data_slot H (s_slot q1)). set (e0 := mkS d 0 _ _).
    cbv zeta. split; [cbn [after]; rewrite <- Pa; unfold pos; cbn [s_slot s_off]; f_equal; lia|].
    rewrite areas_vec. rewrite <- Pa. cbn [pos fst s_slot]. fold d. change ((d, 0)) with (pos e0).
    assert (Ge : good (pos e0)) by (unfold good; cbn; lia).
    assert (Fp : Forall (fun t => storable t = true) (map (fun _ => t) vs)) by (apply Forall_map, Forall_forall; auto).
    assert (Fi : Forall put_ok (map (fun _ => t) vs)) by (apply Forall_map, Forall_forall; auto).
    destruct (puts_ok _ Fi H vs e0 Fp (typeds_map t vs Ty) Ge) as (Ee&Xe). set (e1 := puts H (map (fun _ => t) vs) vs e0) in *.
    intros FO. set (q' := mkS _ _ _ _). set (l := match vs with [] => [] | _ :: _ => slots H (map (fun _ => t) vs) vs (pos e0) end) in *.
    inversion FO as [|? ? FM FA]; subst. 
    assert (K : (forall x, ~ covers l x -> x <> s_slot q1 -> vst q' x = s_stor q1 x) /\ (forall x, ~ covers l x -> s_stor q' x = s_stor q1 x) /\
       helds H (vst q') (map (fun _ => t) vs) vs (pos e0) /\ (forall x, covers (unused_of H (map (fun _ => t) vs) vs (pos e0)) x -> vst q' x = 0)).
    { destruct vs as [|v vs].
      { split; [|split; [|split; [exact Logic.I|intros x (?&[]&_)]]]; intros; [rewrite vst_other by assumption; reflexivity|reflexivity]. }
      remember (v :: vs) as us. assert (El : l = slots H (map (fun _ => t) us) us (pos e0)) by (unfold l; subst us; reflexivity).
      assert (Es : s_stor q' = s_stor (cache e1)) by (unfold q'; subst us; reflexivity). clearbody l. subst l. unfold slots in *.
      assert (Ek : fst (afters (map (fun _ => t) us) (pos e0)) = s_slot e1) by (rewrite <- Ee; reflexivity). rewrite Ek in *.
      cbn [pos fst] in *. destruct Xe as (S1&M1&H1&U1); [exact FA|]. cbn [s_slot e0] in S1.
      assert (B : d <= s_slot e1) by (destruct (afters_ok (map (fun _ => t) us) (pos e0) Ge) as (_&B); apply before_fst in B; rewrite <- Ee in B; exact B).
      assert (Sx : forall x, ~ covers ((d, s_slot e1) :: areas_of H (map (fun _ : val => t) us) us (pos e0)) x -> s_stor q' x = s_stor q1 x).
      { intros x Hx. rewrite Es, vst_cache. rewrite covers_cons in Hx. cbn [fst snd] in Hx. rewrite vst_other by lia.
        rewrite S1; [reflexivity|]. rewrite covers_cons. cbn [fst snd]. exact Hx. }
      assert (V : forall x, d <= x <= s_slot e1 -> vst e1 x = vst q' x).
      { intros x Hx. rewrite (vst_other q'); [rewrite Es; reflexivity|]. cbn [q' s_slot]. intros ->. inversion FM as [|? ? FM1 FM2]; subst. unfold apart in FM1. cbn [fst snd] in FM1. lia. }
      assert (V' : forall x, covers (areas_of H (map (fun _ : val => t) us) us (pos e0)) x -> vst e1 x = vst q' x).
      { intros x Hx. rewrite (vst_other q'); [rewrite Es; reflexivity|]. cbn [q' s_slot]. intros ->. inversion FM as [|? ? FM1 FM2]; subst.
        eapply apart_covers; [exact FM2| |exact Hx]. cbn. lia. }
      split; [|split; [exact Sx|split]].
      - intros x Hx Nx. rewrite vst_other by exact Nx. apply Sx. exact Hx.
      - eapply helds_ext; [apply Forall_forall; intros; apply held_ext|exact Ge|apply typeds_map; exact Ty| | |exact H1].
        + rewrite <- Ee. split; cbn [pos fst snd e0 s_slot]; [intros; apply V; lia|f_equal; apply V; lia].
        + exact V'.
      - intros x Hx. rewrite <- (U1 x Hx). symmetry. apply unuseds_in in Hx; [|apply Forall_forall; intros; apply unused_in|exact Ge|apply typeds_map; exact Ty]. rewrite Ek in Hx. cbn [pos fst e0 s_slot] in Hx.
        destruct Hx as [Hx|Hx]; [apply V; lia|apply V'; exact Hx]. }
    destruct K as (K1&K2&K3&K4). split; [|split; [|split]].
    + intros x Hx. rewrite covers_cons in Hx. cbn [fst snd q' s_slot] in Hx. rewrite K2 by tauto. apply A1. lia.
    + destruct (Z.eq_dec (s_slot q1) (s_slot q)) as [E|N].
      * assert (Ez : s_off q = 0).
        { unfold good in Gq. cbn [pos snd] in Gq. unfold q1, acc in E. destruct (s_off q + 32 <=? 32) eqn:E32; cbn [s_slot] in E; lia. }
        rewrite Ez. change (256 ^ 0) with 1. rewrite !Z.mod_1_r. reflexivity.
      * rewrite K1; [rewrite A2 by exact N; rewrite vst_at; reflexivity| |congruence].
        intros Y. eapply apart_covers; [exact FM| |exact Y]. cbn [q' fst snd s_slot]. lia.
    + apply held_vec. exists vs. split; [reflexivity|]. rewrite <- Pa. cbn [pos fst]. fold d. split; [|exact K3].
      change (s_slot q1) with (s_slot q'). rewrite (vst_at q'). cbn [q' s_word]. apply Z.mod_small. change (2 ^ 256) with (2 ^ 32 * 2 ^ 224). lia.
    + rewrite unused_vec, <- Pa. exact K4.
  - intros k fs IH H v q Pl Ty Gq. destruct k; [discriminate|]. cbn [storable] in Pl. apply andb_true_iff in Pl. destruct Pl as (_&Pl).
    apply typed_struct in Ty. destruct Ty as (o&vs&->&Eo&Ty). specialize (Eo eq_refl). subst o. cbn [field_size].
    rewrite acc_zero by (unfold good in Gq; cbn [pos snd] in Gq; lia). rewrite put_struct, areas_struct.
    assert (Fp : Forall (fun t => storable t = true) fs) by (apply Forall_forall; rewrite forallb_forall in Pl; exact Pl).
    destruct (puts_ok fs IH H vs q Fp Ty Gq) as (E1&X1). set (q1 := puts H fs vs q) in *.
    cbv zeta. split; [exact E1|]. cbn [cache s_slot]. intros FO. destruct (X1 FO) as (S1&M1&H1&U1). split; [|split; [|split]].
    + intros x Hx. rewrite vst_cache. rewrite covers_cons in Hx. cbn [fst snd] in Hx. 
      destruct (afters_ok fs (pos q) Gq) as (_&B). rewrite <- E1 in B. apply before_fst in B. cbn [pos fst] in B.
      rewrite vst_other by lia. apply S1. rewrite covers_cons. exact Hx.
    + rewrite vst_cache2. exact M1.
    + apply held_struct. exists vs. split; [reflexivity|]. eapply helds_ext; [apply Forall_forall; intros; apply held_ext|exact Gq|exact Ty| | |exact H1].
      * split; [intros; symmetry; apply vst_cache2|f_equal; symmetry; apply vst_cache2].
      * intros. symmetry. apply vst_cache2.
    + rewrite unused_struct. intros x Hx. rewrite vst_cache2. apply U1. exact Hx.
  - intros vts IH H v q Pl Ty Gq. apply typed_enum in Ty. destruct Ty as (tag&vs&fs&->&En&Ty). cbn [field_size].
    rewrite acc_zero by (unfold good in Gq; cbn [pos snd] in Gq; lia). rewrite (put_enum H vts tag fs vs q En), put_tagged.
    rewrite (areas_enum H vts tag fs vs (pos q) (Z.of_nat tag) En), (unused_enum H vts tag fs vs (pos q) (Z.of_nat tag) En). pose proof (typed_tagged vts tag fs vs Pl En Ty) as Tt.
    assert (Fp : Forall (fun t => storable t = true) (TU8 :: fs)) by (constructor; [reflexivity|eapply storable_variant; eassumption]).
    assert (Fi : Forall put_ok (TU8 :: fs)) by (constructor; [apply put_ok_scalar; exact Logic.I|exact (nth_error_Forall _ _ _ _ IH En)]).
    destruct (puts_ok _ Fi H _ q Fp Tt Gq) as (E1&X1). set (q1 := puts H (TU8 :: fs) (VInt (Z.of_nat tag) :: vs) q) in *. change (s_slot q, s_off q) with (pos q). set (T := after (TEnum vts) (pos q)).
    assert (B1 : before (pos q1) T) by (rewrite E1; apply variant_before; [eapply nth_error_In; exact En|exact Gq]). apply before_fst in B1. cbn [pos fst] in B1.
    destruct (afters_ok (TU8 :: fs) (pos q) Gq) as (_&B0). rewrite <- E1 in B0. apply before_fst in B0. cbn [pos fst] in B0.
    cbv zeta. split; [apply pos_ending|]. assert (Es : s_slot (ending T q1) = fst T) by (unfold ending; destruct (_ =? _); reflexivity). rewrite Es. clearbody T. intros FO.
    assert (FO1 : ForallOrdPairs apart ((s_slot q, s_slot q1) :: areas_of H (TU8 :: fs) (VInt (Z.of_nat tag) :: vs) (pos q))).
    { inversion FO as [|? ? FM FA]; subst. constructor; [|exact FA]. eapply apart_sub; [exact FM|cbn [fst snd]; lia|cbn [fst snd]; lia]. }
    destruct (X1 FO1) as (S1&M1&H1&U1). inversion FO as [|? ? FM FA]; subst. clearbody q1. clear X1.
    assert (V : forall x, x <= s_slot q1 \/ fst T < x -> vst (ending T q1) x = vst q1 x).
    { intros x Hx. rewrite ending_vst by lia. replace ((s_slot q1 <? x) && (x <=? fst T)) with false by (clear - Hx; lia). reflexivity. }
    split; [|split; [|split]].
    + intros x Hx. rewrite covers_cons in Hx. cbn [fst snd] in Hx. rewrite ending_stor by (clear - Hx B0 B1; lia). apply S1. rewrite covers_cons. cbn [fst snd]. clear - Hx B0 B1. intros [Y|Y]; apply Hx; [left; lia|auto].
    + rewrite V by (clear - B0; lia). exact M1.
    + apply held_enum. exists tag, vs, fs. split; [reflexivity|]. split; [exact En|].
      eapply helds_ext; [apply Forall_forall; intros; apply held_ext|exact Gq|exact Tt| | |exact H1].
      * rewrite <- E1. split; cbn [pos fst snd]; [intros x Hx; symmetry; apply V; clear - Hx; lia|rewrite V by (clear; lia); reflexivity].
      * intros x Hx. symmetry. apply V. destruct (Z_le_gt_dec x (s_slot q1)) as [L|L]; [left; exact L|right].
        destruct (Z_lt_le_dec (fst T) x) as [L2|L2]; [exact L2|exfalso]. eapply apart_covers; [exact FM| |exact Hx]. cbn. clear - L L2 B0. lia.
    + intros x Hx. rewrite covers_cons in Hx. cbn [fst snd] in Hx. rewrite <- E1 in Hx. cbn [pos fst] in Hx. rewrite ending_vst by lia. destruct Hx as [Hx|Hx].
      * replace ((s_slot q1 <? x) && (x <=? fst T)) with true by (clear - Hx; lia). reflexivity.
      * destruct ((s_slot q1 <? x) && (x <=? fst T)); [reflexivity|]. apply U1. exact Hx.
Qed.

(** If nothing of a slot is taken after a value, the slot is empty. *)
Definition fresh (q : sst) : Prop := s_off q = 0 -> s_word q = 0 /\ s_stor q (s_slot q) = 0.

Lemma puts_fresh : forall fs, Forall (fun t => forall H v q, storable t = true -> typed t v -> good (pos q) -> fresh (put H t v (acc q (field_size t)))) fs ->
  forall H vs q, Forall (fun t => storable t = true) fs -> typeds fs vs -> good (pos q) -> fs <> [] -> fresh (puts H fs vs q).
Proof.
  intros fs F. induction F as [|t fs Ht _ IH]; intros H vs q Pl Ty Gq N; [contradiction|]. inversion Ty as [|? v ? vs' Tv Tvs]; subst. inversion Pl; subst. cbn [puts].
  destruct (put_all t H v q ltac:(assumption) Tv Gq) as (E&_). destruct (after_ok t (pos q) Gq) as (Ga&_). rewrite <- E in Ga.
  destruct fs as [|t2 fs]; [inversion Tvs; subst; cbn [puts]; auto|]. apply IH; auto. discriminate.
Qed.

Lemma put_fresh : forall t H v q, storable t = true -> typed t v -> good (pos q) -> fresh (put H t v (acc q (field_size t))).
Proof.
  assert (Sc : forall t, match t with TVec _ | TStruct _ _ | TEnum _ => False | _ => True end -> forall H v q, storable t = true -> typed t v -> good (pos q) -> fresh (put H t v (acc q (field_size t)))).
  { intros t X H v q Pl Ty Gq. assert (exists n, v = VInt n) as (n&->) by (destruct t; try contradiction; destruct Ty as (n&E&_); eauto).
    assert (Ep : put H t (VInt n) (acc q (field_size t)) = put_int (acc q (field_size t)) (field_size t) n) by (destruct t; try contradiction; reflexivity). rewrite Ep.
    assert (W : 1 <= field_size t <= 32) by (destruct t; try contradiction; cbn; lia). intros Y. exfalso. cbn [put_int s_off] in Y.
    pose proof (room_part (pos q) (field_size t) Gq ltac:(lia)) as Rp. rewrite <- pos_acc in Rp. cbn [pos snd] in Rp. lia. }
  intros t. refine (ty_rec' (fun t => forall H v q, storable t = true -> typed t v -> good (pos q) -> fresh (put H t v (acc q (field_size t)))) _ _ _ _ _ _ _ t); clear t; try (apply Sc; exact Logic.I).
  - intros t St. apply Sc. destruct t; try discriminate; exact Logic.I.
  - intros t _ H v q Pl Ty Gq. cbn [typed] in Ty. destruct Ty as (vs&->&_). rewrite put_vec. intros Y. exfalso. cbn [s_off field_size] in Y.
    pose proof (room_part (pos q) 32 Gq ltac:(lia)) as Rp. rewrite <- pos_acc in Rp. cbn [pos snd] in Rp. lia.
  - intros k fs IH H v q Pl Ty Gq. destruct k; [discriminate|]. cbn [storable] in Pl. apply andb_true_iff in Pl. destruct Pl as (Ne&Pl).
    apply typed_struct in Ty. destruct Ty as (o&vs&->&_&Ty). cbn [field_size]. rewrite acc_zero by (unfold good in Gq; cbn [pos snd] in Gq; lia). rewrite put_struct.
    assert (Fr : fresh (puts H fs vs q)).
    { apply puts_fresh; auto; [apply Forall_forall; rewrite forallb_forall in Pl; exact Pl|]. intros ->. discriminate. }
    intros Y. cbn [cache s_off s_word s_stor s_slot] in *. destruct (Fr Y) as (A&B). split; [exact A|]. unfold upd. rewrite Z.eqb_refl. exact A.
  - intros vts IH H v q Pl Ty Gq. apply typed_enum in Ty. destruct Ty as (tag&vs&fs&->&En&Ty). cbn [field_size].
    rewrite acc_zero by (unfold good in Gq; cbn [pos snd] in Gq; lia). rewrite (put_enum H vts tag fs vs q En), put_tagged.
    pose proof (typed_tagged vts tag fs vs Pl En Ty) as Tt.
    assert (Fp : Forall (fun t => storable t = true) (TU8 :: fs)) by (constructor; [reflexivity|eapply storable_variant; eassumption]).
    assert (AP : Forall put_ok (TU8 :: fs)) by (apply Forall_forall; intros; apply put_all).
    destruct (puts_ok _ AP H _ q Fp Tt Gq) as (E1&_).
    assert (Fr : fresh (puts H (TU8 :: fs) (VInt (Z.of_nat tag) :: vs) q)).
    { apply puts_fresh; [|exact Fp|exact Tt|exact Gq|discriminate]. constructor; [apply Sc; exact Logic.I|exact (nth_error_Forall _ _ _ _ IH En)]. }
    set (q1 := puts H (TU8 :: fs) (VInt (Z.of_nat tag) :: vs) q) in *. change (s_slot q, s_off q) with (pos q). set (T := after (TEnum vts) (pos q)).
    assert (B1 : before (pos q1) T) by (rewrite E1; apply variant_before; [eapply nth_error_In; exact En|exact Gq]).
    destruct (afters_ok (TU8 :: fs) (pos q) Gq) as (G1&_). rewrite <- E1 in G1. unfold good in G1. cbn [pos snd] in G1.
    unfold fresh, ending. unfold before in B1. cbn [pos fst snd] in B1. destruct (Z.eqb_spec (s_slot q1) (fst T)) as [E|N]; cbn [s_off s_word s_stor s_slot]; intros Y.
    + destruct Fr as (A&B); [clear - Y E B1 G1; lia|]. split; [exact A|]. rewrite <- E. exact B.
    + split; [reflexivity|]. rewrite wipe_at. replace ((s_slot q1 + 1 <=? fst T) && (fst T <? s_slot q1 + 1 + Z.of_nat (Z.to_nat (fst T - s_slot q1)))) with true by (clear - N B1; lia). reflexivity.
Qed.

(** ** The encoder's assumptions *)

Definition clean (st : Z -> Z) (q : sst) (k : Z) (l : list (Z * Z)) : Prop :=
  (forall x, s_slot q < x <= k -> s_stor q x = st x) /\ (s_off q = 0 -> s_stor q (s_slot q) = st (s_slot q) \/ s_stor q (s_slot q) = 0) /\
  (forall x, covers l x -> s_stor q x = st x).

Definition safe_ok (t : ty) : Prop := forall H st v q, storable t = true -> typed t v -> good (pos q) ->
  let q' := put H t v (acc q (field_size t)) in let l := areas H t v (pos q) in
  separate ((s_slot q, s_slot q') :: l) -> no_shrink H st t v (pos q) -> clean st q (s_slot q') l ->
  in_range (acc q (field_size t)) /\ safe H t v (acc q (field_size t)).

Lemma separate_sub : forall a b b' l k, separate ((a, b) :: l ++ k) -> b' <= b -> separate ((a, b') :: l).
Proof.
  intros a b b' l k (F&G) B. inversion F as [|? ? F1 F2]; subst. apply FOP_app in F2. destruct F2 as (F2&_). apply Forall_app in F1. destruct F1 as (F1&_).
  inversion G as [|? ? G1 G2]; subst. apply Forall_app in G2. cbn [fst snd] in G1. split; constructor; cbn [fst snd]; try tauto; [|lia].
  eapply apart_sub; [exact F1|cbn; lia|cbn; lia].
Qed.
Lemma separate_sub2 : forall a a' b l k, separate ((a, b) :: l ++ k) -> a <= a' -> separate ((a', b) :: k).
Proof.
  intros a a' b l k (F&G) B. inversion F as [|? ? F1 F2]; subst. apply FOP_app in F2. destruct F2 as (_&F2&_). apply Forall_app in F1. destruct F1 as (_&F1).
  inversion G as [|? ? G1 G2]; subst. apply Forall_app in G2. cbn [fst snd] in G1. split; constructor; cbn [fst snd]; try tauto; [|lia].
  eapply apart_sub; [exact F1|cbn; lia|cbn; lia].
Qed.

Lemma safes_ok : forall fs, Forall safe_ok fs -> forall H st vs q, Forall (fun t => storable t = true) fs -> typeds fs vs -> good (pos q) ->
  let q' := puts H fs vs q in let l := areas_of H fs vs (pos q) in
  separate ((s_slot q, s_slot q') :: l) -> no_shrinks H st fs vs (pos q) -> clean st q (s_slot q') l -> safes H fs vs q.
Proof.
  intros fs F. induction F as [|t fs Ht Hfs IH]; intros H st vs q Pl Ty Gq; inversion Ty as [|? v ? vs' Tv Tvs]; subst; cbn [puts safes]; [auto|].
  inversion Pl as [|? ? Pt Pfs]; subst. destruct (put_all t H v q Pt Tv Gq) as (E1&X1). specialize (Ht H st v q Pt Tv Gq). cbv zeta in Ht.
  destruct (after_ok t (pos q) Gq) as (Ga&Ba). pose proof (put_fresh t H v q Pt Tv Gq) as Ap. rewrite <- E1 in Ga, Ba. unfold fresh in Ap.
  set (qa := put H t v (acc q (field_size t))) in *.
  assert (AP : Forall put_ok fs) by (apply Forall_forall; intros; apply put_all).
  destruct (puts_ok fs AP H vs' qa Pfs Tvs Ga) as (E2&_). destruct (afters_ok fs (pos qa) Ga) as (G2&B2). rewrite <- E2 in G2, B2.
  specialize (IH H st vs' qa Pfs Tvs Ga). cbv zeta in IH. set (q' := puts H fs vs' qa) in *.
  cbn [areas_of no_shrinks]. rewrite <- E1. clearbody q'. clearbody qa. cbv zeta. unfold before in Ba, B2. cbn [pos fst snd] in Ba, B2.
  intros Se (N1&N2) (C1&C2&C3). pose proof (proj1 Se) as FO. inversion FO as [|? ? FM FA]; subst. apply FOP_app in FA. destruct FA as (FA1&FA2&FC). apply Forall_app in FM. destruct FM as (FM1&FM2).
  destruct Ht as (I1&S1).
  - eapply separate_sub; [exact Se|lia].
  - exact N1.
  - split; [intros x Hx; apply C1; lia|]. split; [exact C2|]. intros x Hx. apply C3. apply covers_app. auto.
  - split; [exact I1|]. split; [exact S1|]. apply IH.
    + eapply separate_sub2; [exact Se|lia].
    + exact N2.
    + destruct X1 as (X1&_); [apply (separate_sub (s_slot q) (s_slot q') (s_slot qa)) in Se; [apply Se|lia]|].
      split; [|split].
      * intros x Hx. rewrite X1; [apply C1; lia|]. rewrite covers_cons. cbn [fst snd]. intros [Y|Y]; [lia|]. eapply apart_covers; [exact FM1| |exact Y]. cbn. lia.
      * intros Y. right. apply Ap. exact Y.
      * intros x Hx. rewrite X1; [apply C3; apply covers_app; auto|]. rewrite covers_cons. cbn [fst snd]. intros [Y|Y].
        -- eapply apart_covers; [exact FM2| |exact Hx]. cbn. lia.
        -- eapply cross_covers; eassumption.
Qed.

Lemma in_range_acc : forall H t v q, storable t = true -> typed t v -> good (pos q) -> s_slot (put H t v (acc q (field_size t))) < 2 ^ 256 -> in_range (acc q (field_size t)).
Proof.
  intros H t v q Pl Ty Gq B. unfold in_range. destruct t as [| | | | | | | |t|k fs|vts]; cbn [typed] in Ty;
    try (destruct Ty as (n&->&_); exact B); try discriminate.
  - cbn [field_size] in *. destruct k; [discriminate|]. rewrite acc_zero in * by (unfold good in Gq; cbn [pos snd] in Gq; lia).
    destruct (put_all (TStruct false fs) H v q Pl) as (E&_); [exact Ty|exact Gq|]. cbn [field_size] in E. rewrite acc_zero in E by (unfold good in Gq; cbn [pos snd] in Gq; lia).
    destruct (after_ok (TStruct false fs) (pos q) Gq) as (_&A). rewrite <- E in A. apply before_fst in A. cbn [pos fst] in A. lia.
  - cbn [field_size] in *. rewrite acc_zero in * by (unfold good in Gq; cbn [pos snd] in Gq; lia).
    destruct (put_all (TEnum vts) H v q Pl) as (E&_); [exact Ty|exact Gq|]. cbn [field_size] in E. rewrite acc_zero in E by (unfold good in Gq; cbn [pos snd] in Gq; lia).
    destruct (after_ok (TEnum vts) (pos q) Gq) as (_&A). rewrite <- E in A. apply before_fst in A. cbn [pos fst] in A. lia.
Qed.

Lemma safe_all : forall t, safe_ok t.
Proof.
  assert (Sc : forall t, match t with TVec _ | TStruct _ _ | TEnum _ => False | _ => True end -> safe_ok t).
  { intros t X H st v q Pl Ty Gq q' l (_&Se) _ _. inversion Se as [|? ? S1 _]; subst. cbn [snd] in S1. split; [eapply in_range_acc; eauto; apply S1|].
    destruct t; try contradiction; cbn [typed] in Ty; try discriminate; destruct Ty as (n&->&_); exact Logic.I. }
  intros t. refine (ty_rec' safe_ok _ _ _ _ _ _ _ t); clear t; try (apply Sc; exact Logic.I).
  - intros t St. apply Sc. destruct t; try discriminate; exact Logic.I.
  - intros t IH H st v q Pl Ty Gq. cbv zeta. intros Se. pose proof (proj2 Se) as Bd. inversion Bd as [|? ? S1 _]; subst. cbn [fst snd] in S1. intros Ns Cl. split; [eapply in_range_acc; eauto; apply S1|].
    cbn [storable] in Pl. cbn [typed] in Ty. destruct Ty as (vs&->&Lv&Ty). cbn [field_size] in *. set (q1 := acc q 32) in *.
    pose proof (acc_frame q 32 Gq ltac:(lia)) as (A1&A2&A3). fold q1 in A1, A2, A3. pose proof (pos_acc q 32) as Pa. fold q1 in Pa.
    pose proof (room_before (pos q) 32 Gq ltac:(lia)) as Rb. rewrite <- Pa in Rb. apply before_fst in Rb. cbn [pos fst] in Rb.
    assert (Es : s_slot (put H (TVec t) (VVec vs) q1) = s_slot q1) by reflexivity. rewrite Es in *.
    rewrite areas_vec in Se, Cl. apply no_shrink_vec in Ns. rewrite <- Pa in *. cbn [pos fst] in Se, Ns, Cl. destruct Ns as (N1&N2). destruct Cl as (C1&C2&C3).
    assert (Hk : s_stor q1 (s_slot q1) = st (s_slot q1) \/ s_stor q1 (s_slot q1) = 0).
    { destruct (Z.eq_dec (s_slot q1) (s_slot q)) as [E|N].
      - assert (Ez : s_off q = 0).
        { unfold good in Gq. cbn [pos snd] in Gq. unfold q1, acc in E. destruct (s_off q + 32 <=? 32) eqn:E32; cbn [s_slot] in E; lia. }
        rewrite (A3 E). cbn [s_stor s_slot]. apply C2. exact Ez.
      - left. rewrite A1 by exact N. apply C1. lia. }
    apply safe_vec_intro; [destruct Hk as [Hk|Hk]; rewrite Hk; [exact N1|rewrite Z.mod_0_l by lia; lia]|]. set (d := data_slot H (s_slot q1)) in *. set (e0 := mkS d 0 _ _).
    destruct vs as [|v vs]; [exact Logic.I|]. remember (v :: vs) as us.
    assert (Se' : separate ((s_slot q, s_slot q1) :: slots H (map (fun _ => t) us) us (pos e0))) by (subst us; exact Se).
    assert (C3' : forall x, covers (slots H (map (fun _ => t) us) us (pos e0)) x -> s_stor q x = st x) by (subst us; exact C3). clear Se C3 Hequs v vs.
    apply safe_elems_safes. assert (Fp : Forall (fun t => storable t = true) (map (fun _ => t) us)) by (apply Forall_map, Forall_forall; auto).
    assert (Ge : good (pos e0)) by (unfold good; cbn; lia).
    assert (AP : Forall put_ok (map (fun _ => t) us)) by (apply Forall_forall; intros; apply put_all).
    destruct (puts_ok _ AP H us e0 Fp (typeds_map t us Ty) Ge) as (Ee&_).
    assert (Ek : fst (afters (map (fun _ => t) us) (pos e0)) = s_slot (puts H (map (fun _ => t) us) us e0)) by (rewrite <- Ee; reflexivity).
    unfold slots in Se', C3'. rewrite Ek in Se', C3'. destruct Se' as (Se1&Se2). inversion Se1 as [|? ? FM FA]; subst. inversion Se2 as [|? ? _ Se3]; subst.
    assert (Sx : forall x, covers ((s_slot e0, s_slot (puts H (map (fun _ => t) us) us e0)) :: areas_of H (map (fun _ => t) us) us (pos e0)) x -> s_stor e0 x = st x).
    { intros x Hx. cbn [e0 s_stor]. rewrite A1; [apply C3'; exact Hx|]. intros ->. eapply apart_covers; [exact FM| |exact Hx]. cbn. lia. }
    apply (safes_ok (map (fun _ => t) us)) with (st := st).
    + apply Forall_map, Forall_forall. intros; exact IH.
    + exact Fp.
    + apply typeds_map. exact Ty.
    + exact Ge.
    + split; [exact FA|exact Se3].
    + exact N2.
    + destruct (afters_ok (map (fun _ => t) us) (pos e0) Ge) as (_&B). rewrite <- Ee in B. apply before_fst in B.
      split; [|split].
      * intros x Hx. apply Sx. rewrite covers_cons. left. cbn [fst snd]. lia.
      * intros _. left. apply Sx. rewrite covers_cons. left. cbn [fst snd]. cbn [pos fst] in B. lia.
      * intros x Hx. apply Sx. rewrite covers_cons. right. exact Hx.
  - intros k fs IH H st v q Pl Ty Gq. destruct k; [discriminate|]. cbv zeta. intros Se. pose proof (proj2 Se) as Bd. inversion Bd as [|? ? S1 _]; subst. cbn [fst snd] in S1. intros Ns Cl.
    split; [eapply in_range_acc; eauto; apply S1|]. cbn [storable] in Pl. apply andb_true_iff in Pl. destruct Pl as (_&Pl).
    apply typed_struct in Ty. destruct Ty as (o&vs&->&_&Ty). cbn [field_size] in *. rewrite acc_zero in * by (unfold good in Gq; cbn [pos snd] in Gq; lia).
    rewrite areas_struct in *. rewrite put_struct in *. apply no_shrink_struct in Ns. apply safe_struct.
    eapply safes_ok; [exact IH|apply Forall_forall; rewrite forallb_forall in Pl; exact Pl|exact Ty|exact Gq|exact Se|exact Ns|exact Cl].
  - intros vts IH H st v q Pl Ty Gq. cbv zeta. intros Se. pose proof (proj2 Se) as Bd. inversion Bd as [|? ? S1 _]; subst. cbn [fst snd] in S1. intros Ns Cl.
    split; [eapply in_range_acc; eauto; apply S1|].
    apply typed_enum in Ty. destruct Ty as (tag&vs&fs&->&En&Ty). cbn [field_size] in *. rewrite acc_zero in * by (unfold good in Gq; cbn [pos snd] in Gq; lia).
    apply (no_shrink_enum H st vts tag fs vs (pos q) (Z.of_nat tag) En) in Ns. rewrite (areas_enum H vts tag fs vs (pos q) (Z.of_nat tag) En) in *. rewrite (put_enum H vts tag fs vs q En), put_tagged in *.
    apply (safe_enum H vts tag fs vs q En). rewrite put_tagged. pose proof (typed_tagged vts tag fs vs Pl En Ty) as Tt.
    assert (Fp : Forall (fun t => storable t = true) (TU8 :: fs)) by (constructor; [reflexivity|eapply storable_variant; eassumption]).
    assert (AP : Forall put_ok (TU8 :: fs)) by (apply Forall_forall; intros; apply put_all).
    destruct (puts_ok _ AP H _ q Fp Tt Gq) as (E1&_). change (s_slot q, s_off q) with (pos q) in *. set (T := after (TEnum vts) (pos q)) in *.
    assert (Es : s_slot (ending T (puts H (TU8 :: fs) (VInt (Z.of_nat tag) :: vs) q)) = fst T) by (unfold ending; destruct (_ =? _); reflexivity). rewrite Es in *.
    assert (B1 : before (pos (puts H (TU8 :: fs) (VInt (Z.of_nat tag) :: vs) q)) T) by (rewrite E1; apply variant_before; [eapply nth_error_In; exact En|exact Gq]).
    apply before_fst in B1. change (fst (pos (puts H (TU8 :: fs) (VInt (Z.of_nat tag) :: vs) q))) with (s_slot (puts H (TU8 :: fs) (VInt (Z.of_nat tag) :: vs) q)) in B1.
    clearbody T.
    assert (Sf : safes H (TU8 :: fs) (VInt (Z.of_nat tag) :: vs) q).
    { eapply safes_ok; [constructor; [apply Sc; exact Logic.I|exact (nth_error_Forall _ _ _ _ IH En)]|exact Fp|exact Tt|exact Gq| |exact Ns|].
      - destruct Se as (F&G). inversion F as [|? ? FM FA]; subst. inversion G as [|? ? GM GA]; subst. cbn [fst snd] in GM. split; constructor; auto; [|cbn [fst snd]; lia].
        eapply apart_sub; [exact FM|cbn; lia|cbn [snd]; exact B1].
      - destruct Cl as (C1&C2&C3). split; [intros x Hx; apply C1; lia|]. auto. }
    cbn [safes] in Sf. destruct Sf as (Sf1&_&Sf2). split; [exact Sf1|]. split; [exact Sf2|]. split; [exact B1|]. destruct Se as (_&G). inversion G as [|? ? GM GA]; subst. apply GM.
Qed.

(** ** Saving an object *)

Lemma vrep_typed : forall t m v x F, storable t = true -> vrep m t v x F -> typed t v.
Proof.
  intros t. refine (ty_rec' (fun t => forall m v x F, storable t = true -> vrep m t v x F -> typed t v) _ _ _ _ _ _ _ t); clear t.
  - intros t St m v x F _ R. destruct t; try discriminate; cbn [vrep] in R; exists x; exact R.
  - intros m v x F _ (R&_). eexists. exact R.
  - intros m v x F _ (R&_). eexists. exact R.
  - intros m v x F _ (R&_). eexists. exact R.
  - intros t IH m v x F Pl R. cbn [storable] in Pl. cbn [vrep typed] in *. destruct R as (vs&cap&G&->&L1&L2&L3&L4&S1&S2&DJ&El). exists vs. split; [reflexivity|].
    split; [rewrite <- L1; exact (proj2 (load_range 4 m x))|]. clear - IH Pl El. revert El. generalize (x + 8). revert G. induction vs as [|v vs IHv]; intros G a El; [constructor|].
    cbn [elems] in El. destruct El as (F1&F2&R1&R2&_). constructor; [eapply IH; eassumption|]. eapply IHv. exact R2.
  - intros k fs IH m v x F Pl R. destruct k; [discriminate|]. cbn [storable] in Pl. apply andb_true_iff in Pl. destruct Pl as (_&Pl).
    cbn [vrep] in R. destruct R as (o&vs&G&->&Eo&_&_&_&Fl). apply typed_struct. exists o, vs. split; [reflexivity|]. split; [auto|].
    clear Eo. rewrite forallb_forall in Pl. revert vs x G Fl Pl. induction IH as [|t fs Ht _ IHf]; intros vs x G Fl Pl; destruct vs as [|v vs]; cbn [map fields] in Fl; try contradiction; constructor.
    + destruct Fl as (F1&F2&R1&_). unfold field_of in R1. destruct (is_stack t) eqn:St.
      * destruct R1 as (_&R1). destruct t; try discriminate; eexists; exact R1.
      * eapply Ht; [apply Pl; left; reflexivity|exact R1].
    + destruct Fl as (F1&F2&_&R2&_). eapply IHf; [exact R2|]. intros y Hy. apply Pl. right. exact Hy.
  - intros vts IH m v x F Pl R. cbn [vrep] in R. destruct R as (tag&vs&G&->&Ht&_&_&_&V).
    destruct (nth_error (map (fun fs => map (fun t' => field_of m t' (vrep m t')) fs) vts) tag) as [Rs|] eqn:En; [|destruct V].
    destruct (nth_error_map2 _ (fun _ => []) _ _ _ En) as (fs&Ef&->&_). clear En. apply typed_enum. exists tag, vs, fs. split; [reflexivity|]. split; [exact Ef|].
    pose proof (storable_variant vts tag fs Pl Ef) as Ps. pose proof (nth_error_Forall _ _ _ _ IH Ef) as IHf. clear - Ps IHf V. revert vs G V Ps. generalize (x + 4).
    induction IHf as [|t fs Ht _ IH]; intros y vs G Fl Pl; destruct vs as [|v vs]; cbn [map fields] in Fl; try contradiction; constructor; inversion Pl; subst.
    + destruct Fl as (F1&F2&R1&_). unfold field_of in R1. destruct (is_stack t) eqn:St.
      * destruct R1 as (_&R1). destruct t; try discriminate; eexists; exact R1.
      * eapply Ht; [assumption|exact R1].
    + destruct Fl as (F1&F2&_&R2&_). eapply IH; [exact R2|assumption].
Qed.

Lemma fields_typed : forall fs m vs a G, forallb storable fs = true -> fields (map (fun t => field_of m t (vrep m t)) fs) m vs a G -> typeds fs vs.
Proof.
  unfold typeds. induction fs as [|t fs IH]; intros m vs a G Pl Fl; destruct vs as [|v vs]; cbn [map fields] in Fl; try contradiction; constructor;
    cbn [forallb] in Pl; apply andb_true_iff in Pl; destruct Pl as (P1&P2); destruct Fl as (F1&F2&R1&R2&_).
  - unfold field_of in R1. destruct (is_stack t) eqn:St.
    + destruct R1 as (_&R1). destruct t; try discriminate; eexists; exact R1.
    + eapply vrep_typed; eassumption.
  - eapply IH; eassumption.
Qed.
