(** * Saving objects with other objects inside: storage/encoding.rs 842-915. *)

From Verif Require Import Tac RtAlloc RtErr RtInt RtInt2 RtEq RtSwap RtCopy Ops SpecAbi LemAbi SpecVal LemVal SpecStor SpecLayout RtStor RtStore LemStore RtSave SpecWrap.
Ltac Zify.zify_post_hook ::= idtac.

(** storage/encoding.rs 40-151 [add_encode_and_save_into_storage_struct_instructions] for a struct with [key]; [encs] encode
    the fields after its id.  Locals: 0 struct_ptr, 1 slot_ptr, 2 slot_offset, 3 field_owner_ptr. *)
Definition save_with (ep : errtab) (h : Z) (encs : list (Z * func)) : func := Func 2 2 0
 ([ Const 0; LocalSet 2;
    Const A_SLOT_DATA; Const 0; Const 32; MemCopy;
    Const A_SLOT_DATA; Const h; Store 8 24;
    Const 8; LocalSet 2;
    LocalGet 0; Call get_id_bytes_ptr; LocalSet 3 ] ++
  encode_fields ep encs 1 ++
  [ LocalGet 1; Const A_SLOT_DATA; Host H_storage_cache ]).

(** storage/encoding.rs 842-915: a field that is a struct, with or without [key] (inlined in the code, where the inner struct
    shares the local slot_offset).  Locals: 0 child_struct_ptr, 1 slot_ptr, 2 slot_offset, 3 owner_ptr,
    4 child_struct_id_ptr, 5 child_struct_slot_ptr. *)
Fixpoint encode_shape (ep : errtab) (s : shape) : func :=
  match s with
  | Value t => encode_type ep t true
  | Object h fs => Func 4 2 1
      [ LocalGet 0; Call get_id_bytes_ptr; LocalSet 4;
        Const 32; Call alloc; LocalSet 5;
        LocalGet 3; LocalGet 4; LocalGet 5; Call write_object_slot;
        Const 0; LocalSet 2;
        LocalGet 0; LocalGet 5; Call (save_with ep h (map (fun s' => (field_size (slot_ty s'), encode_shape ep s')) fs));
        Const 32; LocalSet 2;
        Const A_SLOT_DATA; LocalGet 4; Const 32; MemCopy;
        LocalGet 2 ]
  | Group fs => Func 4 0 1
      (encode_fields ep (map (fun s' => (field_size (slot_ty s'), encode_shape ep s')) fs) 0 ++
       [ LocalGet 1; Const A_SLOT_DATA; Host H_storage_cache; LocalGet 2 ])
  end.

(** runtime/storage.rs 837-873 [add_encode_and_save_into_storage_fn]. *)
Definition save_tree (ep : errtab) (h : Z) (fs : list shape) : func :=
  save_with ep h (map (fun s => (field_size (slot_ty s), encode_shape ep s)) fs).

(** For objects without objects inside this is [save_object]. *)
Lemma save_tree_flat : forall ep h fs, save_tree ep h (map Value fs) = save_object ep h fs.
Proof. intros. unfold save_tree, save_object, save_with. rewrite map_map. reflexivity. Qed.

Lemma encode_shape_form : forall ep s, exists nl b, encode_shape ep s = Func 4 nl 1 b.
Proof. intros ep [t|h fs|fs]; [apply encode_type_shape| |]; do 2 eexists; reflexivity. Qed.

(** ** Induction *)

Fixpoint shape_rec' (P : shape -> Prop) (Hv : forall t, P (Value t)) (Ho : forall h fs, Forall P fs -> P (Object h fs))
  (Hg : forall fs, Forall P fs -> P (Group fs)) (s : shape) : P s :=
  let all := fix all (l : list shape) : Forall P l :=
    match l with [] => Forall_nil P | s' :: l' => Forall_cons s' (shape_rec' P Hv Ho Hg s') (all l') end in
  match s with Value t => Hv t | Object h fs => Ho h fs (all fs) | Group fs => Hg fs (all fs) end.

(** ** Values of shapes *)

Fixpoint suits (s : shape) (v : val) : Prop :=
  match s with
  | Value t => typed t v
  | Object _ fs => exists o id vs, v = VObj o id vs /\ 0 <= id < 2 ^ 256 /\ Forall2 (fun P v' => P v') (map suits fs) vs
  | Group fs => exists vs, v = VStruct 0 vs /\ Forall2 (fun P v' => P v') (map suits fs) vs
  end.
Definition suit (fs : list shape) (vs : list val) : Prop := Forall2 (fun P v => P v) (map suits fs) vs.

Lemma suit_cons : forall s fs v vs, suit (s :: fs) (v :: vs) <-> suits s v /\ suit fs vs.
Proof. intros. unfold suit. cbn [map]. split; [intros X; inversion X; auto|intros (A&B); constructor; auto]. Qed.
Lemma suit_nil : forall fs vs, suit fs vs -> fs = [] -> vs = [].
Proof. intros fs vs X ->. inversion X. reflexivity. Qed.

Lemma fields_suit : forall fs, Forall (fun s => forall m v x F, sound s = true -> shape_at m s v x F -> suits s v) fs ->
  forall m vs x G, forallb sound fs = true -> fields (map (shape_at m) fs) m vs x G -> suit fs vs.
Proof.
  intros fs IH. induction IH as [|s fs Hs _ IHf]; intros m vs x G Pl Fl; destruct vs as [|v vs]; cbn [map fields] in Fl; try contradiction.
  - constructor.
  - cbn [forallb] in Pl. apply andb_true_iff in Pl. destruct Pl as (P1&P2). destruct Fl as (F1&F2&R1&R2&_). apply suit_cons. split; [eapply Hs; eassumption|eapply IHf; eassumption].
Qed.
Lemma shape_suits : forall s m v x F, sound s = true -> shape_at m s v x F -> suits s v.
Proof.
  apply (shape_rec' (fun s => forall m v x F, sound s = true -> shape_at m s v x F -> suits s v)).
  - intros t m v x F Pl R. cbn [sound shape_at suits] in *. unfold field_of in R. destruct (is_stack t) eqn:St.
    + destruct R as (_&R1). destruct t; try discriminate; eexists; exact R1.
    + eapply vrep_typed; eassumption.
  - intros h fs IH m v x F Pl R. cbn [sound shape_at suits] in *. apply andb_true_iff in Pl. destruct Pl as (_&Pl). destruct R as (o&id&vs&->&(a&b&c&G&_&_&_&Li&_&_&_&_&_&_&_&_&Fl)).
    exists o, id, vs. split; [reflexivity|]. split; [rewrite <- Li; exact (load_be_range 32 m c)|]. exact (fields_suit fs IH m vs (x + 4) G Pl Fl).
  - intros fs IH m v x F Pl R. cbn [sound shape_at suits] in *. apply andb_true_iff in Pl. destruct Pl as (_&Pl). destruct R as (vs&G&->&_&_&_&Fl).
    exists vs. split; [reflexivity|]. exact (fields_suit fs IH m vs x G Pl Fl).
Qed.

(** ** A value in memory depends on its memory alone *)

Lemma shape_ext_fields : forall fs (m m' : memory) (F : mset) vs a, Forall (fun s => forall m m' v x (F : mset), agree m m' F -> shape_at m s v x F -> shape_at m' s v x F) fs ->
  agree m m' F -> (forall x, a <= x < a + 4 * Z.of_nat (List.length fs) -> rd m' x = rd m x) ->
  fields (map (shape_at m) fs) m vs a F -> fields (map (shape_at m') fs) m' vs a F.
Proof.
  intros fs m m' F vs a IH A L Fl. eapply fields_ext; [| |exact Fl].
  - apply Forall2_map. rewrite Forall_forall in IH |- *. intros s Hs v x G S R. eapply IH; [exact Hs| |exact R]. eapply agree_sub; eassumption.
  - rewrite map_length. exact L.
Qed.
Lemma load4_sub : forall (m m' : memory) a (F : mset), agree m m' F -> sub (between a (a + 4)) F -> load 4 m' a = load 4 m a.
Proof. intros m m' a F A S. apply load_ext. intros i Hi. apply A, S. unfold between. lia. Qed.
Lemma whole_ext : forall fs (m m' : memory) o id vs x (F : mset), Forall (fun s => forall m m' v x (F : mset), agree m m' F -> shape_at m s v x F -> shape_at m' s v x F) fs ->
  agree m m' F -> tree_at m fs o id vs x F -> tree_at m' fs o id vs x F.
Proof.
  intros fs m m' o id vs x F IH A (a&b&c&G&La&Lb&Lc&Li&Lo&Sx&Sa&Sb&Sc&SG&DJ&DG&Fl). exists a, b, c, G.
  split; [rewrite <- La; apply (load4_sub m m' x F A); intros y Hy; apply Sx; unfold between in *; lia|].
  split; [rewrite <- Lb; exact (load4_sub m m' a F A Sa)|]. split; [rewrite <- Lc; exact (load4_sub m m' b F A Sb)|].
  split; [rewrite <- Li; apply load_be_ext; intros i Hi; apply A, Sc; unfold between; lia|].
  split; [rewrite <- Lo; apply load_be_ext; intros i Hi; apply A, Sx; unfold between; lia|].
  do 7 (split; [assumption|]). apply (shape_ext_fields fs m m' G vs (x + 4) IH).
  - eapply agree_sub; [exact A|exact SG].
  - intros y Hy. apply A, Sx. unfold between. lia.
  - exact Fl.
Qed.
Lemma shape_ext : forall s (m m' : memory) v x (F : mset), agree m m' F -> shape_at m s v x F -> shape_at m' s v x F.
Proof.
  apply (shape_rec' (fun s => forall (m m' : memory) v x (F : mset), agree m m' F -> shape_at m s v x F -> shape_at m' s v x F)).
  - intros t m m' v x F A R. cbn [shape_at] in *. eapply field_of_ext; [apply vrep_ext|exact A|exact R].
  - intros h fs IH m m' v x F A R. cbn [shape_at] in *. destruct R as (o&id&vs&->&W). exists o, id, vs. split; [reflexivity|]. exact (whole_ext fs m m' o id vs x F IH A W).
  - intros fs IH m m' v x F A R. cbn [shape_at] in *. destruct R as (vs&G&->&Sx&SG&DJ&Fl). exists vs, G. split; [reflexivity|]. do 3 (split; [assumption|]).
    apply (shape_ext_fields fs m m' G vs x IH); [eapply agree_sub; eassumption| |exact Fl]. intros y Hy. apply A, Sx. unfold between. lia.
Qed.
Lemma tree_ext : forall fs (m m' : memory) o id vs x (F : mset), agree m m' F -> tree_at m fs o id vs x F -> tree_at m' fs o id vs x F.
Proof. intros. eapply whole_ext; try eassumption. apply Forall_forall. intros s _. apply shape_ext. Qed.

(** ** Memory changed by saving *)

Definition wmem (p : Z) : mset := fun x => slot_mem p x \/ within 404 64 x.

Lemma wmem_slot : forall p w w', grows (slot_mem p) w w' -> grows (wmem p) w w'.
Proof. intros p w w' G. eapply grows_mono; [exact G|]. intros x _ Y. left. exact Y. Qed.
Lemma ready_wmem : forall ep w w' p p', ready ep w p -> grows (wmem p') w w' -> p' = 128 \/ 468 <= p' -> ready ep w' p.
Proof.
  intros ep w w' p p' (R1&R2&R3&R4&R5) G H. pose proof G as (G1&_&_&G4&_). pose proof R1 as (P1&P2&P3&P4&P5&P6).
  split; [exact G1|]. split; [exact R2|]. split; [|lia]. rewrite <- R3.
  eapply load_grows; [exact G|lia|lia|]. intros x Hx [[Y|Y]|Y]; unfold within in Y; lia.
Qed.
(** The two constants that are read: the word of zeros and the slot number 0 of the table of objects. *)
Definition zeros (w : world) : Prop := load_be 32 (mem w) 0 = 0 /\ load_be 32 (mem w) 96 = 0.
Lemma zeros_wmem : forall p w w', grows (wmem p) w w' -> wok w -> p = 128 \/ 468 <= p -> zeros w -> zeros w'.
Proof.
  intros p w w' G (P1&P2&P3&_) Hp (Z0&Z1). split.
  - transitivity (load_be 32 (mem w) 0); [|exact Z0]. apply (load_be_grows 32 (wmem p) w w' 0 G); [lia|lia|]. intros x Hx [[Y|Y]|Y]; unfold within in Y; lia.
  - transitivity (load_be 32 (mem w) 96); [|exact Z1]. apply (load_be_grows 32 (wmem p) w w' 96 G); [lia|lia|]. intros x Hx [[Y|Y]|Y]; unfold within in Y; lia.
Qed.
Lemma agree_wmem : forall p w w' F, grows (wmem p) w w' -> sub F (heap w) -> disj F (between p (p + 32)) -> agree (mem w) (mem w') F.
Proof.
  intros p w w' F (_&_&_&_&_&_&G) S D x Hx. pose proof (S x Hx) as B. unfold heap, between in B. apply G; [lia|].
  intros [[Y|Y]|Y]; unfold within in Y; [lia| |lia]. apply (D x Hx). unfold between. lia.
Qed.
Lemma wmem_inner : forall p e w w1 w2, grows (wmem p) w w1 -> grows (wmem e) w1 w2 -> gnext w <= e -> grows (wmem p) w w2.
Proof.
  intros p e w w1 w2 (A1&A2&A3&A4&A5&A6&A7) (B1&B2&B3&B4&B5&B6&B7) He. unfold grows.
  repeat (split; [first [assumption|congruence|lia]|]). split.
  - rewrite B6 at 1. rewrite A6 at 1. reflexivity.
  - intros x H1 H2. rewrite B7, A7; auto; [lia|]. intros [[Y|Y]|Y]; unfold within in Y; [|lia|apply H2; right; exact Y]. apply H2. left. left. exact Y.
Qed.

(** The memory that saving takes. *)
Fixpoint sums (l : list (val -> Z)) (vs : list val) : Z := match l, vs with f :: l', v :: vs' => f v + sums l' vs' | _, _ => 0 end.
Fixpoint wcost (s : shape) (v : val) {struct s} : Z :=
  match s, v with
  | Object _ fs, VStruct _ (_ :: vs) => 32 + sums (map wcost fs) vs
  | Group fs, VStruct _ vs => sums (map wcost fs) vs
  | Value _, _ => cost v
  | _, _ => 0
  end.
Definition wcosts (fs : list shape) (vs : list val) : Z := sums (map wcost fs) vs.
Lemma wcosts_nonneg' : forall fs, Forall (fun s => forall v, 0 <= wcost s v) fs -> forall vs, 0 <= wcosts fs vs.
Proof. unfold wcosts. induction 1 as [|s fs Hs _ IH]; intros [|v vs]; cbn [map sums]; try reflexivity. specialize (Hs v). specialize (IH vs). lia. Qed.
Lemma wcost_nonneg : forall s v, 0 <= wcost s v.
Proof.
  apply (shape_rec' (fun s => forall v, 0 <= wcost s v)).
  - intros t v. cbn [wcost]. apply cost_nonneg.
  - intros h fs IH v. cbn [wcost]. destruct v as [n|l|o [|u vs]|g l]; try lia. pose proof (wcosts_nonneg' fs IH vs). unfold wcosts in *. lia.
  - intros fs IH v. cbn [wcost]. destruct v as [n|l|o vs|g l]; try lia. apply (wcosts_nonneg' fs IH vs).
Qed.
Lemma wcosts_nonneg : forall fs vs, 0 <= wcosts fs vs.
Proof. intros fs. apply wcosts_nonneg', Forall_forall. intros s _. apply wcost_nonneg. Qed.

(** ** What is in storage depends on its slots alone *)

Lemma slot_ty_scalar : forall h fs p, after (slot_ty (Object h fs)) p = room p 32.
Proof. reflexivity. Qed.

Definition sext_ok (s : shape) : Prop := forall H st st' parent v p, good p -> suits s v -> pos_cond st st' p (after (slot_ty s) p) ->
  (forall x, covers (reach H s parent v p) x -> st x = st' x) -> contains H st s parent v p -> contains H st' s parent v p.
Lemma contents_ext : forall fs, Forall sext_ok fs -> forall H st st' parent vs p, good p -> suit fs vs -> pos_cond st st' p (afters (map slot_ty fs) p) ->
  (forall x, covers (reaches H fs parent vs p) x -> st x = st' x) -> contents H st fs parent vs p -> contents H st' fs parent vs p.
Proof.
  unfold contents, reaches. intros fs F. induction F as [|s fs Hs _ IH]; intros H st st' parent vs p Gp Ty Pc Ar Hd; destruct vs as [|v vs]; cbn [map along] in *; auto.
  destruct Hd as (Hv&Hd). apply suit_cons in Ty. destruct Ty as (Tv&Ty). destruct (after_ok (slot_ty s) p Gp) as (G1&B1). destruct (afters_ok (map slot_ty fs) (after (slot_ty s) p) G1) as (G2&B2).
  cbn [gather] in Ar. rewrite afters_cons in Pc. split.
  - apply (Hs H st st' parent v p Gp); auto.
    + apply (pos_cond_l st st' p _ (afters (map slot_ty fs) (after (slot_ty s) p))); auto.
    + intros x Hx. apply Ar. apply covers_app. auto.
  - apply (IH H st st'); auto.
    + eapply pos_cond_r; eassumption.
    + intros x Hx. apply Ar. apply covers_app. auto.
Qed.
Lemma contains_ext : forall s, sext_ok s.
Proof.
  apply (shape_rec' sext_ok).
  - intros t H st st' parent v p Gp Ty Pc Ar Hd. cbn [contains reach slot_ty suits] in *. eapply held_ext; eassumption.
  - intros h fs IH H st st' parent v p Gp Ty Pc Ar Hd. cbn [contains slot_ty suits] in *. destruct Hd as (o&id&vs&->&Hi&Ht&Hd). destruct Ty as (o'&id'&vs'&Ev&_&Ty).
    unfold VObj in Ev. injection Ev as <- <- <-. exists o, id, vs. split; [reflexivity|]. cbn [reach VObj] in Ar. cbv zeta in *. set (k := home H parent id) in *.
    assert (Gk : good (k, 8)) by (unfold good; cbn; lia). destruct (afters_ok (map slot_ty fs) (k, 8) Gk) as (_&Bk). apply before_fst in Bk. cbn [fst] in Bk.
    assert (Ek : forall y, k <= y <= fst (afters (map slot_ty fs) (k, 8)) -> st y = st' y) by (intros y Hy; apply Ar, covers_cons; left; cbn [fst snd]; exact Hy).
    split; [|split].
    + eapply held_ext; [exact Gp| |exact Pc| |exact Hi]; [|intros y (?&[]&_)]. apply held_scalar in Hi; [|exact Logic.I]. destruct Hi as (n&Ev&Rn&_). exists n. split; [exact Ev|exact Rn].
    + rewrite <- Ek by lia. exact Ht.
    + apply (contents_ext fs IH H st st' id vs (k, 8) Gk Ty); [|intros y Hy; apply Ar, covers_cons; right; exact Hy|exact Hd].
      split; [intros y Hy; apply Ek; cbn [fst] in Hy; lia|f_equal; apply Ek; lia].
  - intros fs IH H st st' parent v p Gp Ty Pc Ar Hd. cbn [contains slot_ty suits] in *. destruct Hd as (vs&->&Hd). destruct Ty as (vs'&Ev&Ty). injection Ev as <-.
    exists vs. split; [reflexivity|]. apply (contents_ext fs IH H st st' parent vs p Gp Ty); [exact Pc|exact Ar|exact Hd].
Qed.

(** ** Writing the fields one after the other *)

Definition written (H : list Z -> Z) (s : shape) (parent : Z) (v : val) (q q' : sst) : Prop :=
  pos q' = after (slot_ty s) (pos q) /\
  (forall x, ~ covers ((s_slot q, s_slot q') :: reach H s parent v (pos q)) x -> s_stor q' x = s_stor q x) /\
  vst q' (s_slot q) mod 256 ^ s_off q = vst q (s_slot q) mod 256 ^ s_off q /\
  contains H (vst q') s parent v (pos q) /\ fresh q'.
Definition writtens (H : list Z -> Z) (fs : list shape) (parent : Z) (vs : list val) (q q' : sst) : Prop :=
  pos q' = afters (map slot_ty fs) (pos q) /\
  (forall x, ~ covers ((s_slot q, s_slot q') :: reaches H fs parent vs (pos q)) x -> s_stor q' x = s_stor q x) /\
  vst q' (s_slot q) mod 256 ^ s_off q = vst q (s_slot q) mod 256 ^ s_off q /\
  contents H (vst q') fs parent vs (pos q) /\ (fs = [] -> q' = q) /\ (fs <> [] -> fresh q').

Lemma reaches_cons : forall H s fs parent v vs p, reaches H (s :: fs) parent (v :: vs) p = reach H s parent v p ++ reaches H fs parent vs (after (slot_ty s) p).
Proof. reflexivity. Qed.

Lemma writtens_cons : forall H s fs parent v vs q qa q', good (pos q) -> suits s v ->
  ForallOrdPairs apart ((s_slot q, s_slot q') :: reaches H (s :: fs) parent (v :: vs) (pos q)) ->
  written H s parent v q qa -> writtens H fs parent vs qa q' -> writtens H (s :: fs) parent (v :: vs) q q'.
Proof.
  intros H s fs parent v vs q qa q' Gq Tv FO (E1&S1&M1&H1&U1) (E2&S2&M2&H2&U0&U2). unfold writtens. cbn [map]. rewrite afters_cons. rewrite reaches_cons in *. rewrite <- E1 in *.
  destruct (after_ok (slot_ty s) (pos q) Gq) as (Ga&Ba). rewrite <- E1 in Ga, Ba. destruct (afters_ok (map slot_ty fs) (pos qa) Ga) as (G2&B2). rewrite <- E2 in G2, B2.
  inversion FO as [|? ? FM FA]; subst. apply FOP_app in FA. destruct FA as (FA1&FA2&FC). apply Forall_app in FM. destruct FM as (FM1&FM2).
  unfold before in Ba, B2. cbn [pos fst snd] in Ba, B2.
  assert (V2 : forall x, s_slot q <= x < s_slot qa -> vst q' x = vst qa x).
  { intros x Hx. assert (D : x <> s_slot qa /\ x <> s_slot q') by (clear - Hx B2; lia). destruct D. rewrite !vst_other by assumption. apply S2. rewrite covers_cons. cbn [fst snd]. intros [Y|Y]; [clear - Y Hx; lia|].
    eapply apart_covers; [exact FM2| |exact Y]. cbn. clear - Hx B2. lia. }
  assert (V3 : forall x, covers (reach H s parent v (pos q)) x -> vst q' x = vst qa x).
  { intros x Hx. assert (N1 : ~ (s_slot q <= x <= s_slot q')) by (intros Y; eapply apart_covers; [exact FM1| |exact Hx]; cbn; lia).
    clear - S2 N1 Ba B2 FC Hx. assert (x <> s_slot qa /\ x <> s_slot q' /\ ~ (s_slot qa <= x <= s_slot q')) as (D1&D2&D3) by lia.
    rewrite (vst_other qa), (vst_other q') by assumption. apply S2. rewrite covers_cons. cbn [fst snd]. intros [Y|Y]; [contradiction|]. eapply cross_covers; eassumption. }
  split; [exact E2|]. split; [|split; [|split]].
  - intros x Hx. rewrite covers_cons, covers_app in Hx. cbn [fst snd] in Hx. rewrite S2, S1.
    + reflexivity.
    + rewrite covers_cons. cbn [fst snd]. intros [Y|Y]; apply Hx; [left; clear - Y Ba B2; lia|auto].
    + rewrite covers_cons. cbn [fst snd]. intros [Y|Y]; apply Hx; [left; clear - Y Ba B2; lia|auto].
  - rewrite <- M1. destruct (Z.eq_dec (s_slot q) (s_slot qa)) as [Eq|Nq].
    + rewrite Eq. unfold good in Ga, Gq. cbn [pos snd] in Ga, Gq. eapply (mod_le (vst q' (s_slot qa)) (vst qa (s_slot qa)) (s_off q) (s_off qa)); [lia|exact M2].
    + clear M1 M2. rewrite V2 by lia. reflexivity.
  - unfold contents. cbn [map along]. split.
    + eapply contains_ext; [exact Gq|exact Tv| | |exact H1].
      * rewrite <- E1. split; cbn [pos fst snd]; [intros x Hx; symmetry; apply V2; exact Hx|symmetry; exact M2].
      * intros x Hx. symmetry. apply V3. exact Hx.
    + rewrite <- E1. exact H2.
  - split; [discriminate|]. intros _. destruct fs as [|s2 fs]; [rewrite U0 by reflexivity; exact U1|apply U2; discriminate].
Qed.

Lemma clean_next : forall H s fs parent v vs q qa k st, good (pos q) ->
  ForallOrdPairs apart ((s_slot q, k) :: reaches H (s :: fs) parent (v :: vs) (pos q)) -> s_slot qa <= k ->
  written H s parent v q qa -> clean st q k (reaches H (s :: fs) parent (v :: vs) (pos q)) -> clean st qa k (reaches H fs parent vs (pos qa)).
Proof.
  intros H s fs parent v vs q qa k st Gq FO Hk (E1&S1&M1&H1&U1) (C1&C2&C3). rewrite reaches_cons in *. rewrite <- E1 in *.
  destruct (after_ok (slot_ty s) (pos q) Gq) as (Ga&Ba). rewrite <- E1 in Ga, Ba. apply before_fst in Ba. cbn [pos fst] in Ba.
  inversion FO as [|? ? FM FA]; subst. apply FOP_app in FA. destruct FA as (FA1&FA2&FC). apply Forall_app in FM. destruct FM as (FM1&FM2). split; [|split].
  - intros x Hx. rewrite S1; [apply C1; lia|]. rewrite covers_cons. cbn [fst snd]. intros [Y|Y]; [lia|]. eapply apart_covers; [exact FM1| |exact Y]. cbn. lia.
  - intros Y. right. apply U1. exact Y.
  - intros x Hx. rewrite S1; [apply C3; apply covers_app; auto|]. rewrite covers_cons. cbn [fst snd]. intros [Y|Y].
    + eapply apart_covers; [exact FM2| |exact Hx]. cbn. lia.
    + eapply cross_covers; eassumption.
Qed.

Lemma in_range_shape : forall s v q, sound s = true -> suits s v -> good (pos q) -> fst (after (slot_ty s) (pos q)) < 2 ^ 256 -> in_range (acc q (field_size (slot_ty s))).
Proof.
  intros [t|h fs|fs] v q Pl Ty Gq B.
  - cbn [slot_ty suits sound] in *. destruct (put_all t (fun _ => 0) v q Pl Ty Gq) as (E&_). eapply (in_range_acc (fun _ => 0)); [exact Pl|exact Ty|exact Gq|]. rewrite <- E in B. exact B.
  - cbn [slot_ty] in *. change (after TU256 (pos q)) with (room (pos q) 32) in B. rewrite <- pos_acc in B. exact B.
  - cbn [slot_ty field_size] in *. unfold in_range. rewrite acc_zero by (unfold good in Gq; cbn [pos snd] in Gq; lia).
    destruct (after_ok (TStruct false (map slot_ty fs)) (pos q) Gq) as (_&A). apply before_fst in A. cbn [pos fst] in *. lia.
Qed.

Definition parent_at (w : world) (p ow parent : Z) : Prop :=
  load_be 32 (mem w) ow = parent /\ 468 <= ow /\ ow + 32 <= gnext w /\ (ow + 32 <= p \/ p + 32 <= ow).
Lemma parent_wmem : forall w w' p ow parent, grows (wmem p) w w' -> parent_at w p ow parent -> parent_at w' p ow parent.
Proof.
  intros w w' p ow parent G (A&B&C&D). pose proof G as (_&_&_&G4&_). split; [|lia]. rewrite <- A. apply (load_be_grows 32 (wmem p) w w' ow G); [lia|lia|].
  intros x Hx [[Y|Y]|Y]; unfold within in Y; lia.
Qed.

Definition swrites (s : shape) : Prop := forall ep w p x ow q v F parent st, sound s = true -> ready ep w p -> zeros w -> good (pos q) ->
  at_state w p (acc q (field_size (slot_ty s))) -> shape_at (mem w) s v x F -> sub F (heap w) -> disj F (between p (p + 32)) -> parent_at w p ow parent ->
  let H := keccak (host w) in let k := fst (after (slot_ty s) (pos q)) in
  separate ((s_slot q, k) :: reach H s parent v (pos q)) -> lasting H st s parent v (pos q) -> clean st q k (reach H s parent v (pos q)) ->
  wpf (encode_shape ep s) [x; p; s_off (acc q (field_size (slot_ty s))); ow] w (resq (fun r w' => exists q', r = [s_off q'] /\ grows (wmem p) w w' /\
    gnext w' <= gnext w + wcost s v /\ at_state w' p q' /\ written H s parent v q q') (nomem w (wcost s v))).

Lemma encode_shapes_wp : forall fs, Forall swrites fs -> forall ep w p x ow ex vs q G i r (Q : outcome -> Prop) s parent st,
  forallb sound fs = true -> ready ep w p -> zeros w -> good (pos q) -> at_state w p q -> 0 <= i ->
  fields (map (shape_at (mem w)) fs) (mem w) vs (x + 4 * i) G -> sub G (heap w) -> disj G (between p (p + 32)) ->
  468 <= x -> x + 4 * i + 4 * Z.of_nat (List.length fs) <= gnext w ->
  (forall y, x + 4 * i <= y < x + 4 * i + 4 * Z.of_nat (List.length fs) -> ~ within p 32 y) -> parent_at w p ow parent ->
  let H := keccak (host w) in let k := fst (afters (map slot_ty fs) (pos q)) in
  separate ((s_slot q, k) :: reaches H fs parent vs (pos q)) -> lastings H st fs parent vs (pos q) -> clean st q k (reaches H fs parent vs (pos q)) ->
  (nomem w (wcosts fs vs) -> Q OTrap) ->
  (forall w' q', grows (wmem p) w w' -> gnext w' <= gnext w + wcosts fs vs -> at_state w' p q' -> writtens H fs parent vs q q' ->
     wp r Q s (x :: p :: s_off q' :: ow :: ex) w') ->
  wp (encode_fields ep (map (fun s => (field_size (slot_ty s), encode_shape ep s)) fs) i ++ r) Q s (x :: p :: s_off q :: ow :: ex) w.
Proof.
  intros fs W. induction W as [|s fs Wt _ IH]; intros ep w p x ow ex vs q G i r Q st0 parent st So Rd Z0 Gq At Hi Fl SG DG X1 X2 X3 Pa H k Se La Cl T K.
  - cbn [map fields] in Fl. destruct vs; [|contradiction]. cbn [map encode_fields app]. apply K; [apply grows_refl, Rd|cbn; lia|exact At|].
    split; [reflexivity|]. split; [auto|]. split; [reflexivity|]. split; [exact Logic.I|]. split; [auto|]. intros N. contradiction.
  - pose proof Rd as (Hw&He&H1&Hp&Hp2). pose proof Hw as (P1&P2&P3&P4&P5&P6).
    cbn [map fields] in Fl. destruct vs as [|v vs]; [contradiction|]. destruct Fl as (F1&F2&R1&R2&D12&S1&S2).
    cbn [forallb] in So. apply andb_true_iff in So. destruct So as (So1&So2). pose proof (shape_suits s (mem w) v _ F1 So1 R1) as Tv.
    pose proof (proj1 Se) as FO. unfold k in *. clear k. cbn [map] in Se, Cl, FO. rewrite afters_cons in Se, Cl, FO. rewrite reaches_cons in Se. set (k := fst (afters (map slot_ty fs) (after (slot_ty s) (pos q)))) in *.
    destruct La as (La1&La2). destruct (after_ok (slot_ty s) (pos q) Gq) as (Ga&Ba). destruct (afters_ok (map slot_ty fs) (after (slot_ty s) (pos q)) Ga) as (_&Bk). apply before_fst in Ba, Bk. fold k in Bk. change (fst (pos q)) with (s_slot q) in Ba.
    assert (Hk : k < 2 ^ 256) by (destruct Se as (_&Se2); inversion Se2 as [|? ? Se3 _]; subst; cbn [snd] in Se3; lia).
    pose proof (in_range_shape s v q So1 Tv Gq ltac:(lia)) as I1. pose proof Gq as Ho. unfold good in Ho. cbn [pos snd] in Ho.
    cbn [List.length] in X2, X3. rewrite Nat2Z.inj_succ in X2, X3.
    cbn [map encode_fields]. rewrite <- app_assoc. cbn [app]. ws1. ws1. ws1.
    eapply wp_call_spec; [reflexivity|cbn [List.length]; lia|wc; eapply accumulate_write_spec; [exact Rd|exact At|exact Ho|apply field_size_range|exact I1]|intros []|].
    intros vs1 w1 (->&G1'&N1&At1). pose proof (wmem_slot _ _ _ G1') as G1. wc. ws1. ws1. pose proof (proj1 G1) as Hw1. pose proof Hw1 as (P1'&P2'&P3'&P4'&P5'&P6').
    apply wp_load; [lia|unfold page_size; lia|]. ws1. ws1. ws1.
    pose proof (ready_wmem ep w w1 p p Rd G1 Hp) as Rd1. pose proof (keccak_grows _ _ _ G1) as K1.
    rewrite (load_grows 4 (wmem p) w w1 (x + 4 * i) G1) by (first [lia|intros y Hy [[Y|Y]|Y]; [unfold within in Y; lia|exact (X3 y ltac:(lia) Y)|unfold within in Y; lia]]).
    assert (R1' : shape_at (mem w1) s v (load 4 (mem w) (x + 4 * i)) F1).
    { eapply shape_ext; [|exact R1]. eapply agree_wmem; [exact G1|eapply sub_trans; eassumption|eapply disj_sub; [exact DG|exact S1|apply sub_refl]]. }
    pose proof (wcosts_nonneg fs vs) as CN. pose proof (wcost_nonneg s v) as CN2. assert (Ec : wcosts (s :: fs) (v :: vs) = wcost s v + wcosts fs vs) by reflexivity. rewrite Ec in *.
    destruct (encode_shape_form ep s) as (nl&b&Ef).
    eapply wp_call_spec; [exact Ef|cbn [List.length]; lia| | |].
    { wc. eapply (Wt ep w1 p (load 4 (mem w) (x + 4 * i)) ow q v F1 parent st); [exact So1|exact Rd1|eapply zeros_wmem; [exact G1|exact Hw|exact Hp|exact Z0]|exact Gq|exact At1|exact R1'| | | | | |].
      - eapply heap_grows; [exact G1|]. eapply sub_trans; eassumption.
      - eapply disj_sub; [exact DG|exact S1|apply sub_refl].
      - eapply parent_wmem; eassumption.
      - rewrite K1. fold H. eapply separate_sub; [exact Se|exact Bk].
      - rewrite K1. exact La1.
      - rewrite K1. fold H. destruct Cl as (C1&C2&C3). split; [intros y Hy; apply C1; lia|]. split; [exact C2|]. intros y Hy. apply C3. rewrite reaches_cons. apply covers_app. auto. }
    { intros N. apply T. eapply nomem_grows; [exact G1|exact N|lia|lia]. }
    rewrite K1. fold H. intros vs2 w2 (qa&->&G2&N2&At2&Wr). wc. ws1.
    pose proof (grows_trans _ _ _ _ G1 G2) as G12. pose proof (keccak_grows _ _ _ G12) as K2. pose proof (proj1 Wr) as Ea.
    pose proof G2 as (_&_&_&N2'&_).
    eapply (IH ep w2 p x ow ex vs qa F2 (i + 1) r Q st0 parent st).
    + exact So2.
    + eapply ready_wmem; [exact Rd|exact G12|exact Hp].
    + eapply zeros_wmem; [exact G12|exact Hw|exact Hp|exact Z0].
    + rewrite Ea. exact Ga.
    + exact At2.
    + lia.
    + replace (x + 4 * (i + 1)) with (x + 4 * i + 4) by lia. apply (shape_ext_fields fs (mem w) (mem w2) F2 vs); [apply Forall_forall; intros s' _; apply shape_ext| | |exact R2].
      * eapply agree_wmem; [exact G12|eapply sub_trans; eassumption|eapply disj_sub; [exact DG|exact S2|apply sub_refl]].
      * intros y Hy. destruct G12 as (_&_&_&_&_&_&Gr). apply Gr; [lia|]. intros [[Y|Y]|Y]; [unfold within in Y; lia|exact (X3 y ltac:(lia) Y)|unfold within in Y; lia].
    + eapply heap_grows; [exact G12|]. eapply sub_trans; eassumption.
    + eapply disj_sub; [exact DG|exact S2|apply sub_refl].
    + exact X1.
    + lia.
    + intros y Hy. apply X3. lia.
    + eapply parent_wmem; eassumption.
    + rewrite K2. fold H. rewrite Ea. fold k. eapply separate_sub2; [exact Se|]. apply (f_equal fst) in Ea. change (fst (pos qa)) with (s_slot qa) in Ea. lia.
    + rewrite K2, Ea. exact La2.
    + rewrite K2. fold H. rewrite Ea. fold k. rewrite <- Ea. eapply clean_next; [exact Gq|exact FO| |exact Wr|exact Cl]. apply (f_equal fst) in Ea. change (fst (pos qa)) with (s_slot qa) in Ea. lia.
    + intros N. apply T. eapply nomem_grows; [exact G12|exact N|lia|lia].
    + rewrite K2. fold H. intros w3 q' G3 N3 At3 Wr3. apply K; [eapply grows_trans; eassumption|lia|exact At3|].
      eapply writtens_cons; [exact Gq|exact Tv| |exact Wr|exact Wr3].
      assert (Es : s_slot q' = k) by (destruct Wr3 as (E3&_); rewrite Ea in E3; apply (f_equal fst) in E3; exact E3). rewrite Es. exact FO.
Qed.

Lemma save_with_spec : forall fs, Forall swrites fs -> forall ep h w x p owner id vs F k st, forallb sound fs = true -> 0 <= h < 2 ^ 64 ->
  ready ep w p -> zeros w -> load_be 32 (mem w) p = k -> tree_at (mem w) fs owner id vs x F -> sub F (heap w) -> disj F (between p (p + 32)) ->
  let H := keccak (host w) in separate (tree_slots H fs id vs k) -> lastings H st fs id vs (k, 8) ->
  clean st (start h k (stor (host w))) (fst (afters (map slot_ty fs) (k, 8))) (reaches H fs id vs (k, 8)) ->
  wpf (save_tree ep h fs) [x; p] w (resq (fun r w' => r = [] /\ grows (wmem p) w w' /\ gnext w' <= gnext w + wcosts fs vs /\
     stor (host w') k mod 2 ^ 64 = bswap 8 h /\ contents H (stor (host w')) fs id vs (k, 8) /\
     (forall y, ~ covers (tree_slots H fs id vs k) y -> stor (host w') y = stor (host w) y)) (nomem w (wcosts fs vs))).
Proof.
  intros fs Wf ep h w x p owner id vs F k st So Hh Rd Zs Lp (a&b&c&G&La&Lb&Lc&Li&Lo&Sx&Sa&Sb&Sc&SG&DJ&DG&Fl) SF DF H Se Ns Cl.
  pose proof Rd as (Hw&He&H1&Hp&Hp2). pose proof Hw as (P1&P2&P3&P4&P5&P6). pose proof (proj1 Zs) as Z0.
  destruct (heap_block F w (x - 32) (36 + 4 * Z.of_nat (List.length fs)) SF) as (X1&X2); [|lia|].
  { intros y Hy. apply Sx. unfold between in *. lia. }
  destruct (heap_block F w a 4 SF Sa) as (A1&A2); [lia|].
  destruct (heap_block F w b 4 SF Sb) as (B1&B2); [lia|].
  destruct (heap_block F w c 32 SF Sc) as (C1&C2); [lia|].
  apply wpf_intro; [reflexivity|]. wc. unfold A_SLOT_DATA. ws1. ws1. ws1. ws1. ws1.
  ws1. set (m1 := mcopy _ _ _ _). set (w1 := set_mem w m1). assert (Pg : pages w1 = pages w) by reflexivity.
  ws1. ws1. ws1. set (w2 := set_mem w1 _).
  assert (F1 : forall y, ~ within 64 32 y -> rd (mem w2) y = rd (mem w) y).
  { intros y Hy. unfold within in Hy. cbn [w2 w1 mem set_mem]. rewrite rd_store_out by lia. unfold m1. apply rd_mcopy_frame. exact Hy. }
  assert (G2' : grows (slot_mem p) w w2).
  { apply (grows_set_mem (slot_mem p) w (mem w2) Hw); [intros y Hy; apply F1; intros Y; apply Hy; left; left; exact Y|].
    unfold slot_mem, within. lia. }
  pose proof (wmem_slot _ _ _ G2') as G2.
  assert (R2 : ready ep w2 p) by (eapply ready_wmem; [exact Rd|exact G2|lia]).
  assert (Ld : forall y, 468 <= y -> y + 4 <= gnext w -> load 4 (mem w2) y = load 4 (mem w) y).
  { intros y Y1 Y2. apply load_ext. intros i Hi. apply F1. unfold within. lia. }
  assert (RI : returns get_id_bytes_ptr [x] w2 [c] w2).
  { assert (Pg2 : pages w2 = pages w) by reflexivity. apply pure_intro. apply wpf_intro; [reflexivity|]. wc. ws1.
    ws1. rewrite Ld, La by lia. ws1. rewrite Ld, Lb by lia. ws1. rewrite Ld, Lc by lia. ws1. auto. }
  ws1. ws1. ws1. eapply wp_call; [reflexivity|cbn [List.length]; lia|]. wc. eapply returns_wpf; [exact RI|]. wc. ws1.
  set (q := start h k (stor (host w))) in *. assert (Gq : good (pos q)) by (unfold good; cbn; lia).
  assert (At : at_state w2 p q).
  { split; [|split; [|reflexivity]].
    - cbn [q start s_slot]. rewrite <- Lp. apply load_be_ext. intros i Hi. apply F1. unfold within. lia.
    - cbn [q start s_word w2 w1 mem set_mem]. rewrite (load_be_split 24 8). rewrite load_be_zero.
      + rewrite Z.mul_0_l, Z.add_0_l. change (64 + Z.of_nat 24) with 88. replace h with (bswap 8 (bswap 8 h)) at 1 by (apply bswap_bswap; change (256 ^ Z.of_nat 8) with (2 ^ 64); lia).
        apply (load_be_store_swapped 8). apply bswap_range.
      + intros y Hy. rewrite rd_store_out by lia. unfold m1. rewrite rd_mcopy_in by lia.
        pose proof (load_be_byte 32 (mem w) 0 (y - 64) ltac:(lia)) as E. rewrite Z0, Z.div_0_l, Z.mod_0_l in E by (try apply Z.pow_nonzero; lia).
        rewrite <- E. f_equal. lia. }
  eapply (encode_shapes_wp fs Wf ep w2 p x c [] vs q G 1).
  - exact So.
  - exact R2.
  - exact (zeros_wmem p w w2 G2 Hw Hp Zs).
  - exact Gq.
  - exact At.
  - lia.
  - change (x + 4 * 1) with (x + 4). apply (shape_ext_fields fs (mem w) (mem w2) G vs); [apply Forall_forall; intros s' _; apply shape_ext| | |exact Fl].
    + eapply agree_wmem; [exact G2|eapply sub_trans; [exact SG|exact SF]|eapply disj_sub; [exact DF|exact SG|apply sub_refl]].
    + intros y Hy. apply F1. unfold within. lia.
  - eapply sub_trans; [exact SG|]. exact SF.
  - eapply disj_sub; [exact DF|exact SG|apply sub_refl].
  - lia.
  - change (gnext w2) with (gnext w). lia.
  - intros y Hy Y. apply (DF y); [apply Sx; unfold between; lia|unfold within in Y; unfold between; lia].
  - instantiate (1 := id). split; [rewrite <- Li; apply load_be_ext; intros i Hi; apply F1; unfold within; lia|]. split; [lia|]. split; [exact C2|].
    destruct (Z_le_gt_dec (c + 32) p) as [Y|Y]; [left; exact Y|]. right. destruct (Z_le_gt_dec (p + 32) c) as [Y2|Y2]; [exact Y2|]. exfalso.
    apply (DF (Z.max c p)); [apply Sc; unfold between; lia|unfold between; lia].
  - exact Se.
  - exact Ns.
  - exact Cl.
  - intros N. exact N.
  - intros w3 q' G3 N3 At3 (E3&S3&M3&H3&_). pose proof G3 as (Hw3&_&_&N3'&_). pose proof Hw3 as (Q1&Q2&Q3&Q4&Q5&Q6). change (gnext w2) with (gnext w) in N3, N3'. change (keccak (host w2)) with H in *.
    ws1. ws1. apply wp_scache; [exact Hw3|unfold live; lia|unfold live; lia|]. ws1.
    destruct At3 as (A31&A32&A33). rewrite A31, A32, A33. split; [reflexivity|].
    split; [eapply grows_trans; [exact G2|eapply grows_trans; [exact G3|apply grows_stor; exact Hw3]]|]. split; [exact N3|]. cbn [host stor set_host set_stor]. fold (vst q').
    assert (Es : s_slot q' = fst (afters (map slot_ty fs) (k, 8))) by (apply (f_equal fst) in E3; exact E3).
    split; [|split; [exact H3|]].
    + cbn [s_off q start] in M3. change (2 ^ 64) with (256 ^ 8). change (s_slot q) with k in M3. rewrite M3. change k with (s_slot q). rewrite vst_at. cbn [q start s_word]. apply Z.mod_small. change (256 ^ 8) with (256 ^ Z.of_nat 8). apply bswap_range.
    + intros y Hy. unfold tree_slots in Hy. rewrite <- Es in Hy. rewrite vst_other; [apply S3; exact Hy|]. intros ->. apply Hy. apply covers_cons. left. cbn [fst snd].
      destruct (afters_ok (map slot_ty fs) (k, 8) Gq) as (_&B). apply before_fst in B. cbn [fst] in B. lia.
Qed.

Lemma swrites_value : forall t, swrites (Value t).
Proof.
  intros t ep w p x ow q v F parent st So Rd Zs Gq At R SF DF Pa H k Se La Cl. cbn [sound slot_ty shape_at reach lasting] in *. pose proof (shape_suits (Value t) (mem w) v x F So R) as Ty. cbn [suits] in Ty.
  destruct (put_all t H v q So Ty Gq) as (E1&X1). pose proof (put_fresh t H v q So Ty Gq) as Fr. set (q' := put H t v (acc q (field_size t))) in *.
  assert (Ek : k = s_slot q') by (unfold k; rewrite <- E1; reflexivity). rewrite Ek in *.
  destruct (safe_all t H st v q So Ty Gq Se La Cl) as (I1&Sf). destruct (X1 (proj1 Se)) as (Y1&Y2&Y3&_).
  assert (Ho : 0 <= s_off q <= 32) by (unfold good in Gq; cbn [pos snd] in Gq; lia).
  cbn [encode_shape]. eapply wpf_conseq; [eapply (writes_storable t So ep true w p x ow v (acc q (field_size t)) F); [exact Rd|exact (proj1 Zs)|exact At|apply acc_off; exact Ho|exact Sf|exact R|exact SF|exact DF]|].
  intros o. destruct o; cbn [resq wcost]; auto. intros (->&G&N&At2). exists q'. split; [reflexivity|]. split; [apply wmem_slot; exact G|]. split; [exact N|]. split; [exact At2|].
  split; [exact E1|]. split; [exact Y1|]. split; [exact Y2|]. split; [exact Y3|exact Fr].
Qed.

Lemma swrites_group : forall fs, Forall swrites fs -> swrites (Group fs).
Proof.
  intros fs IH ep w p x ow q v F parent st So Rd Zs Gq At R SF DF Pa H k Se La Cl. cbn [slot_ty field_size] in *. cbn [sound shape_at lasting] in *.
  apply andb_true_iff in So. destruct So as (Ne&So). assert (Hne : fs <> []) by (intros ->; discriminate).
  assert (Ho : 0 <= s_off q <= 32) by (unfold good in Gq; cbn [pos snd] in Gq; lia). rewrite acc_zero in * by lia.
  destruct R as (vs&G&->&Sx&SG&DJ&Fl). cbn [reach wcost] in *.
  change (gather (map (fun s' => (slot_ty s', reach H s' parent)) fs) vs (pos q)) with (reaches H fs parent vs (pos q)) in *.
  change (after (TStruct false (map slot_ty fs)) (pos q)) with (afters (map slot_ty fs) (pos q)) in k.
  destruct (heap_block F w x (4 * Z.of_nat (List.length fs)) SF Sx) as (X1&X2); [destruct fs; [contradiction|cbn [List.length]; lia]|].
  cbn [encode_shape]. apply wpf_intro; [reflexivity|]. wc.
  eapply (encode_shapes_wp fs IH ep w p x ow [] vs q G 0).
  - exact So.
  - exact Rd.
  - exact Zs.
  - exact Gq.
  - exact At.
  - lia.
  - replace (x + 4 * 0) with x by lia. exact Fl.
  - eapply sub_trans; eassumption.
  - eapply disj_sub; [exact DF|exact SG|apply sub_refl].
  - exact X1.
  - lia.
  - intros y Hy Y. apply (DF y); [apply Sx; unfold between; lia|unfold within in Y; unfold between; lia].
  - exact Pa.
  - exact Se.
  - exact La.
  - exact Cl.
  - intros N. exact N.
  - intros w1 q' G1 N1 At1 (E1&S1&M1&H1&_&U1). pose proof G1 as (Hw1&_&_&N1'&_). pose proof Hw1 as (P1&P2&P3&P4&P5&P6). pose proof Rd as (_&_&_&Hp&Hp2). unfold A_SLOT_DATA. fold H in S1, H1.
    ws1. ws1. apply wp_scache; [exact Hw1|unfold live; lia|unfold live; lia|]. ws1. ws1.
    destruct At1 as (A1&A2&A3). rewrite A1, A2, A3. exists (cache q'). split; [reflexivity|].
    split; [eapply grows_trans; [exact G1|apply grows_stor; exact Hw1]|]. split; [exact N1|]. split; [split; [exact A1|split; [exact A2|reflexivity]]|].
    assert (B : s_slot q <= s_slot q') by (destruct (afters_ok (map slot_ty fs) (pos q) Gq) as (_&B); rewrite <- E1 in B; apply before_fst in B; exact B).
    split; [exact E1|]. split; [|split; [|split]].
    + intros y Hy. rewrite vst_cache. cbn [cache s_slot reach] in Hy. change (gather (map (fun s' => (slot_ty s', reach H s' parent)) fs) vs (pos q)) with (reaches H fs parent vs (pos q)) in Hy.
      rewrite vst_other; [apply S1; exact Hy|]. intros ->. apply Hy, covers_cons. left. cbn [fst snd]. lia.
    + rewrite vst_cache2. exact M1.
    + cbn [contains]. exists vs. split; [reflexivity|].
      assert (Ty : suit fs vs) by (apply (fields_suit fs) with (m := mem w) (x := x) (G := G); [apply Forall_forall; intros s' _; apply shape_suits|exact So|exact Fl]).
      eapply (contents_ext fs) with (st := vst q'); [apply Forall_forall; intros; apply contains_ext|exact Gq|exact Ty| | |exact H1].
      * split; [intros; symmetry; apply vst_cache2|rewrite vst_cache2; reflexivity].
      * intros; symmetry; apply vst_cache2.
    + intros Y. cbn [cache s_off s_word s_stor s_slot] in *. destruct (U1 Hne Y) as (A&B'). split; [exact A|]. unfold upd. rewrite Z.eqb_refl. exact A.
Qed.

Lemma swrites_object : forall h fs, Forall swrites fs -> swrites (Object h fs).
Proof.
  intros h fs IH ep w p x ow q v F parent st So Rd Zs Gq At R SF DF (Pa1&Pa2&Pa3&Pa4) H k Se La Cl. cbn [slot_ty] in *. change (field_size TU256) with 32 in *. cbn [sound shape_at lasting] in *.
  apply andb_true_iff in So. destruct So as (Hh&So). apply andb_true_iff in Hh. destruct Hh as (Hh1&Hh2).
  destruct R as (owner&id&vs&->&Tr). change (tree_at (mem w) fs owner id vs x F) in Tr. cbn [reach VObj wcost] in *. change (after TU256 (pos q)) with (room (pos q) 32) in k. fold (wcosts fs vs).
  set (kc := home H parent id) in *. cbv zeta in Se, Cl. fold kc in Se, Cl.
  change (gather (map (fun s' => (slot_ty s', reach H s' id)) fs) vs (kc, 8)) with (reaches H fs id vs (kc, 8)) in *.
  change ((kc, fst (afters (map slot_ty fs) (kc, 8))) :: reaches H fs id vs (kc, 8)) with (tree_slots H fs id vs kc) in *.
  pose proof (acc_frame q 32 Gq ltac:(lia)) as (A1&A2&A3). pose proof (pos_acc q 32) as Pq. pose proof (room_part (pos q) 32 Gq ltac:(lia)) as Rp. pose proof (room_good (pos q) 32 Gq ltac:(lia)) as Rg.
  pose proof (room_before (pos q) 32 Gq ltac:(lia)) as Rb. apply before_fst in Rb. rewrite <- Pq in Rp, Rg, Rb. unfold good in Rg. assert (Ek : k = s_slot (acc q 32)) by (unfold k; rewrite <- Pq; reflexivity).
  set (q1 := acc q 32) in *. cbn [pos fst snd] in Rp, Rg, Rb. assert (O1 : s_off q1 = 32) by lia. clear Rp Rg. rewrite Ek in *.
  pose proof Rd as (Hw&He&H1&Hp&Hp2). pose proof Hw as (P1&P2&P3&P4&P5&P6). destruct At as (At1&At2&At3). pose proof (wcosts_nonneg fs vs) as Cn.
  pose proof Tr as (a&b&c&G&La1&Lb&Lc&Li&Lo&Sx&Sa&Sb&Sc&SG&DJ&DG&Fl).
  destruct (heap_block F w (x - 32) (36 + 4 * Z.of_nat (List.length fs)) SF) as (X1&X2); [|lia|].
  { intros y Hy. apply Sx. unfold between in *. lia. }
  destruct (heap_block F w a 4 SF Sa) as (Xa1&Xa2); [lia|]. destruct (heap_block F w b 4 SF Sb) as (Xb1&Xb2); [lia|]. destruct (heap_block F w c 32 SF Sc) as (Xc1&Xc2); [lia|].
  assert (Dc : c + 32 <= p \/ p + 32 <= c).
  { destruct (Z_le_gt_dec (c + 32) p) as [Y|Y]; [left; exact Y|]. right. destruct (Z_le_gt_dec (p + 32) c) as [Y2|Y2]; [exact Y2|]. exfalso. apply (DF (Z.max c p)); [apply Sc; unfold between; lia|unfold between; lia]. }
  assert (RI : returns get_id_bytes_ptr [x] w [c] w).
  { apply pure_intro. apply wpf_intro; [reflexivity|]. wc. ws1. ws1. rewrite La1. ws1. rewrite Lb. ws1. rewrite Lc. ws1. auto. }
  cbn [encode_shape]. apply wpf_intro; [reflexivity|]. wc. ws1. eapply wp_call; [reflexivity|cbn [List.length]; lia|]. wc. eapply returns_wpf; [exact RI|]. wc. ws1. ws1.
  eapply wp_call_spec; [reflexivity|cbn [List.length]; lia|wc; apply alloc_spec; [exact Hw|lia]|intros O; split; [lia|]; unfold oom in *; lia|].
  intros r1 w1 (->&Al). wc. ws1. set (e := gnext w) in *. pose proof Al as (Hw1&M1&Mx1&Pg1&Gn1&Gc1&Hh1'). fold e in Gn1. assert (Ex1 : grows (wmem p) w w1) by (split; [exact Hw1|]; rewrite Hh1', M1, set_stor_same; repeat (split; [first [assumption|reflexivity|lia]|]); auto).
  pose proof Hw1 as (Q1&Q2&Q3&Q4&Q5&Q6). pose proof (zeros_wmem p w w1 Ex1 Hw Hp Zs) as Zs1.
  destruct (write_object_slot_spec w1 ow c e Hw1 (proj2 Zs1)) as (m2&R2&V2&F2); try (unfold live; lia). rewrite M1, Hh1', Pa1, Li in V2. change (slot_of (host w) parent id) with kc in V2. set (w2 := set_mem w1 m2) in *.
  ws1. ws1. ws1. eapply wp_call; [reflexivity|cbn [List.length]; lia|]. wc. eapply returns_wpf; [exact R2|]. wc.
  assert (Fw : forall y, ~ within 404 64 y -> ~ within e 32 y -> rd (mem w2) y = rd (mem w) y) by (intros y Y1 Y2; cbn [w2 mem set_mem]; rewrite F2 by assumption; rewrite M1; reflexivity).
  assert (Ex12 : grows (wmem e) w1 w2).
  { apply grows_set_mem; [exact Hw1| |unfold wmem, slot_mem, within; lia]. intros y Hy. rewrite F2; [reflexivity|intros Y; apply Hy; right; exact Y|intros Y; apply Hy; left; right; exact Y]. }
  pose proof (wmem_inner p e w w1 w2 Ex1 Ex12 ltac:(lia)) as Ex2.
  pose proof (ready_wmem ep w w2 p p Rd Ex2 Hp) as Rd2. assert (Rde : ready ep w2 e) by (destruct Rd2 as (Y1&Y2&Y3&_&_); split; [exact Y1|]; split; [exact Y2|]; split; [exact Y3|]; cbn [w2 gnext set_mem]; lia).
  assert (Hk2 : keccak (host w2) = H) by (exact (keccak_grows _ _ _ Ex2)). assert (Hs2 : stor (host w2) = s_stor q1) by (cbn [w2 host set_mem]; rewrite Hh1'; exact At3).
  destruct Se as (FO&Rg). assert (FMA : Forall (apart (s_slot q, s_slot q1)) (tree_slots H fs id vs kc) /\ ForallOrdPairs apart (tree_slots H fs id vs kc)) by (inversion FO; split; assumption). destruct FMA as (FM&FA). pose proof (Forall_inv_tail Rg) as Rg2. destruct Cl as (C1&C2&C3).
  assert (St : forall y, covers (tree_slots H fs id vs kc) y -> s_stor q1 y = st y).
  { intros y Hy. rewrite A1; [apply C3; exact Hy|]. intros ->. eapply apart_covers; [exact FM| |exact Hy]. cbn [fst snd]. lia. }
  assert (Gk : good (kc, 8)) by (unfold good; cbn; lia). destruct (afters_ok (map slot_ty fs) (kc, 8) Gk) as (_&Bk). apply before_fst in Bk. cbn [fst] in Bk.
  ws1. ws1. ws1. ws1. eapply wp_call_spec; [reflexivity|cbn [List.length]; lia| | |].
  { wc. eapply (save_with_spec fs IH ep h w2 x e owner id vs F kc st So); [lia|exact Rde|exact (zeros_wmem p w w2 Ex2 Hw Hp Zs)|exact V2| | | | | |].
    - eapply tree_ext; [|exact Tr]. eapply agree_wmem; eassumption.
    - eapply heap_grows; eassumption.
    - intros y Hy Y. apply SF in Hy. unfold heap, between in *. lia.
    - rewrite Hk2. split; assumption.
    - rewrite Hk2. exact La.
    - rewrite Hk2, Hs2. split; [|split; [cbn; discriminate|]]; intros y Hy; cbn [start s_stor s_slot] in *; apply St; apply covers_cons; cbn [fst snd]; [left; lia|right; exact Hy]. }
  { intros N. eapply nomem_grows; [exact Ex2|exact N|cbn [w2 gnext set_mem]; lia|lia]. }
  rewrite Hk2. intros r3 w3 (->&G3&N3&T3&H3&U3). wc. pose proof (wmem_inner p e w w2 w3 Ex2 G3 ltac:(lia)) as Ex3. assert (Exe : grows (wmem e) w w3) by (eapply grows_trans; [|exact G3]; eapply grows_trans; [|exact Ex12]; eapply grows_extends, alloc_extends; [exact Hw|exact Al|lia]).
  pose proof (proj1 Ex3) as Hw3. pose proof Hw3 as (T1&T2&T3'&T4&T5&T6). pose proof Ex3 as (_&_&_&Gn3&_).
  unfold A_SLOT_DATA. ws1. ws1. ws1. ws1. ws1. ws1. set (m4 := mcopy _ _ _ _). set (w4 := set_mem w3 m4). ws1.
  assert (Li3 : load_be 32 (mem w3) c = id) by (clear - Li Ex3 Xc1 Xc2 Dc Hp Hp2; rewrite <- Li; apply (load_be_grows 32 (wmem p) w w3 c Ex3); [lia|lia|]; intros y Hy [[Y|Y]|Y]; unfold within in Y; lia).
  ws1. exists (mkS (s_slot q1) 32 id (stor (host w3))). split; [reflexivity|]. cbn [s_slot s_stor s_off s_word].
  split; [eapply grows_trans; [exact Ex3|]; apply grows_set_mem; [exact Hw3| |unfold wmem, slot_mem, within; clear - Hp Hp2 Gn3 P1 P2 P3 P4 P5; lia]; intros y Hy; apply rd_mcopy_frame; clear - Hy; unfold wmem, slot_mem, within in *; lia|].
  split; [change (gnext w4) with (gnext w3); cbn [w2 gnext set_mem] in N3; clear - N3 Gn1; lia|].
  split.
  { split; [|split; [|reflexivity]]; cbn [s_slot s_word].
    - rewrite <- At1. transitivity (load_be 32 (mem w3) p); [apply load_be_ext; intros i Hi; apply rd_mcopy_frame; clear - Hi Hp; unfold within; lia|].
      clear - Exe Hp Hp2. apply (load_be_grows 32 (wmem e) w w3 p Exe); [lia|fold e in Hp2; lia|]. intros y Hy [[Y|Y]|Y]; unfold within in Y; lia.
    - rewrite <- Li3. apply load_be_ext. intros i Hi. unfold w4, m4. cbn [mem set_mem]. rewrite rd_mcopy_in by (clear - Hi; lia). f_equal. clear. lia. }
  assert (Ne : s_slot q1 <> kc /\ ~ covers (tree_slots H fs id vs kc) (s_slot q1)).
  { assert (Nc : ~ covers (tree_slots H fs id vs kc) (s_slot q1)) by (intros Y; eapply apart_covers; [exact FM| |exact Y]; cbn [fst snd]; lia).
    split; [|exact Nc]. intros E. apply Nc. apply covers_cons. left. cbn [fst snd]. lia. }
  destruct Ne as (Ne&Nc). set (q' := mkS (s_slot q1) 32 id (stor (host w3))) in *.
  assert (Vq : forall y, y <> s_slot q1 -> vst q' y = stor (host w3) y) by (intros y Hy; apply (vst_other q'); exact Hy).
  assert (Oq : 0 <= s_off q <= 32) by (unfold good in Gq; cbn [pos snd] in Gq; lia).
  split; [transitivity (pos q1); [unfold pos; cbn [q' s_slot s_off]; rewrite O1; reflexivity|exact Pq]|].
  change (reach H (Object h fs) parent (VObj owner id vs) (pos q)) with (tree_slots H fs id vs kc). cbn [q' s_slot s_stor].
  split; [|split; [|split]].
  - intros y Hy. rewrite covers_cons in Hy. cbn [fst snd] in Hy. rewrite U3 by tauto. rewrite Hs2. apply A1. intros ->. apply Hy. left. lia.
  - destruct (Z.eq_dec (s_slot q1) (s_slot q)) as [E|N].
    + assert (s_off q = 0) as -> by (unfold q1, acc in E; destruct (s_off q + 32 <=? 32) eqn:E32; cbn [s_slot] in E; lia). rewrite !Z.mod_1_r. reflexivity.
    + rewrite Vq by congruence. rewrite U3, Hs2, A2 by (first [exact N|intros Y; eapply apart_covers; [exact FM| |exact Y]; cbn [fst snd]; lia]). rewrite vst_at. reflexivity.
  - cbn [contains]. exists owner, id, vs. split; [reflexivity|]. cbv zeta. fold kc. split; [|split].
    + apply held_scalar; [exact Logic.I|]. exists id. split; [reflexivity|]. change (2 ^ vbits TU256) with (2 ^ 256). pose proof (load_be_range 32 (mem w) c) as Ri. rewrite Li in Ri. change (256 ^ Z.of_nat 32) with (2 ^ 256) in Ri.
      split; [exact Ri|]. cbn [width]. rewrite <- Pq. cbn [pos fst snd]. rewrite O1. change (32 - 32) with 0. transitivity (part (s_word q') 0 32); [f_equal; exact (vst_at q')|]. cbn [q' s_word]. unfold part. change (256 ^ 0) with 1. rewrite Z.div_1_r. apply Z.mod_small. exact Ri.
    + rewrite Vq by congruence. exact T3.
    + assert (Ty : suit fs vs) by (apply (fields_suit fs) with (m := mem w) (x := x + 4) (G := G); [apply Forall_forall; intros s' _; apply shape_suits|exact So|exact Fl]).
      eapply (contents_ext fs) with (st := stor (host w3)); [apply Forall_forall; intros; apply contains_ext|exact Gk|exact Ty| | |exact H3].
      * split; [intros y Hy; symmetry; apply Vq; intros ->; apply Nc, covers_cons; left; clear - Hy; cbn [fst snd] in *; lia|f_equal; symmetry; apply Vq; intros E; apply Nc, covers_cons; left; clear - E Bk; cbn [fst snd] in *; lia].
      * intros y Hy. symmetry. apply Vq. intros ->. apply Nc, covers_cons. right. exact Hy.
  - intros Y. cbn in Y. discriminate.
Qed.

Lemma swrites_all : forall s, swrites s.
Proof. apply shape_rec'; [exact swrites_value|exact swrites_object|exact swrites_group]. Qed.

(** Saving an object: its fields and those of all objects inside are in storage, and nothing else changes there. *)
Lemma save_tree_spec : forall ep h fs w x p owner id vs F k, forallb sound fs = true -> 0 <= h < 2 ^ 64 ->
  ready ep w p -> zeros w -> load_be 32 (mem w) p = k -> tree_at (mem w) fs owner id vs x F -> sub F (heap w) -> disj F (between p (p + 32)) ->
  let H := keccak (host w) in separate (tree_slots H fs id vs k) -> lastings H (stor (host w)) fs id vs (k, 8) ->
  wpf (save_tree ep h fs) [x; p] w (resq (fun r w' => r = [] /\ grows (wmem p) w w' /\ gnext w' <= gnext w + wcosts fs vs /\
     stor (host w') k mod 2 ^ 64 = bswap 8 h /\ contents H (stor (host w')) fs id vs (k, 8) /\
     (forall y, ~ covers (tree_slots H fs id vs k) y -> stor (host w') y = stor (host w) y)) (nomem w (wcosts fs vs))).
Proof.
  intros. eapply (save_with_spec fs); try eassumption; [apply Forall_forall; intros; apply swrites_all|]. split; [reflexivity|]. split; [discriminate|reflexivity].
Qed.
