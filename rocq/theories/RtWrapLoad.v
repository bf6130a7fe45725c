(** * Reading objects with objects inside (storage/decoding.rs). *)

From Verif Require Import Tac RtAlloc RtErr RtInt RtInt2 RtEq RtMul RtDiv RtShift RtSwap RtAscii RtCopy RtCopy2 Ops SpecAbi LemAbi SpecVal LemVal SpecStor SpecLayout RtStor RtStore LemStore LemPos RtSave RtLoad RtLoadObj LemObj SpecWrap RtWrap.
Ltac Zify.zify_post_hook ::= idtac.

(** storage/decoding.rs 39-256 for a struct with [key] with decoders [decs] of the fields after the id, as in [load_object]. *)
Definition load_with (ep : errtab) (h : Z) (decs : list (Z * func)) : func := Func 3 6 1
 ([ Const 0; LocalSet 3;
    Const 32; Call alloc; LocalGet 2; Const 32; MemCopy;
    LocalGet 0; Const A_SLOT_DATA; Host H_storage_load;
    Const A_SLOT_DATA; Const 32; Call is_zero;
    If 0 (return_error ep StorageObjectNotFound 8 true) [];
    Const A_SLOT_DATA; Load 8 24; Const h; Bin I64 Eq;
    If 0 [ Const 8; LocalSet 3 ] (return_error ep StorageObjectTypeMismatch 8 true);
    LocalGet 1; LocalSet 6;
    Const (4 + 4 * Z.of_nat (List.length decs)); Call alloc; LocalSet 4;
    Const 4; Call alloc; LocalGet 4; Store 4 0;
    Const 4; Call alloc; LocalSet 5;
    Const 4; Call alloc; LocalSet 7;
    LocalGet 7; LocalGet 1; Store 4 0;
    LocalGet 5; LocalGet 7; Store 4 0;
    LocalGet 4; LocalGet 5; Store 4 0 ] ++
  decode_fields ep 3 6 4 5 decs 1 ++
  [ LocalGet 4 ]).

(** storage/decoding.rs 653-902, with the fields that are objects (797-852).  As for [decode_type] a function of slot_ptr,
    slot_offset and owner_ptr that returns data_ptr, slot_ptr and slot_offset; local 3 data_ptr, 4 child_struct_id_ptr,
    5 child_struct_slot_ptr.  In the code the struct inside is decoded by inlined code too, and its errors leave the
    enclosing function: the model is right only if the objects inside are found. *)
Fixpoint decode_shape (ep : errtab) (s : shape) : func :=
  match s with
  | Value t => decode_type ep t
  | Object h fs => Func 3 3 3
      [ Const 32; Call alloc; LocalSet 4;
        LocalGet 0; LocalGet 4; Host H_storage_load;
        Const 32; Call alloc; LocalSet 5;
        LocalGet 2; LocalGet 4; LocalGet 5; Call write_object_slot;
        Const 0; LocalSet 1;
        LocalGet 5; LocalGet 4; LocalGet 2; Call (load_with ep h (map (fun s' => (field_size (slot_ty s'), decode_shape ep s')) fs)); LocalSet 3;
        Const 32; LocalSet 1;
        LocalGet 3; LocalGet 0; LocalGet 1 ]
  | Group fs => Func 3 2 3
      ([ Const (4 * Z.of_nat (List.length fs)); Call alloc; LocalSet 3 ] ++
       decode_fields ep 1 2 3 4 (map (fun s' => (field_size (slot_ty s'), decode_shape ep s')) fs) 0 ++
       [ LocalGet 3; LocalGet 0; LocalGet 1 ])
  end.

(** runtime/storage.rs 889-933 [add_read_and_decode_from_storage_fn]. *)
Definition load_tree (ep : errtab) (h : Z) (fs : list shape) : func :=
  load_with ep h (map (fun s => (field_size (slot_ty s), decode_shape ep s)) fs).

(** For objects without objects inside this is [load_object]. *)
Lemma load_tree_flat : forall ep h fs, load_tree ep h (map Value fs) = load_object ep h fs.
Proof. intros. unfold load_tree, load_object, load_with. rewrite map_map, !map_length. reflexivity. Qed.

Lemma decode_shape_form : forall ep s, exists nl b, decode_shape ep s = Func 3 nl 3 b.
Proof. intros ep [t|h fs|fs]; [apply decode_type_shape| |]; do 2 eexists; reflexivity. Qed.

(** ** Memory *)

Fixpoint tmem (s : shape) (v : val) {struct s} : Z :=
  match s, v with
  | Object _ fs, VStruct _ (_ :: vs) => 112 + 4 * Z.of_nat (List.length fs) + sums (map tmem fs) vs
  | Group fs, VStruct _ vs => 4 * Z.of_nat (List.length fs) + sums (map tmem fs) vs
  | Value t, _ => memory_for t v
  | _, _ => 0
  end.
Definition tmems (fs : list shape) (vs : list val) : Z := sums (map tmem fs) vs.
Lemma tmems_nonneg' : forall fs, Forall (fun s => forall v, 0 <= tmem s v) fs -> forall vs, 0 <= tmems fs vs.
Proof. unfold tmems. induction 1 as [|s fs Hs _ IH]; intros [|v vs]; cbn [map sums]; try reflexivity. specialize (Hs v). specialize (IH vs). lia. Qed.
Lemma tmem_nonneg : forall s v, 0 <= tmem s v.
Proof.
  apply (shape_rec' (fun s => forall v, 0 <= tmem s v)).
  - intros t v. cbn [tmem]. apply memory_for_nonneg.
  - intros h fs IH v. cbn [tmem]. destruct v as [n|l|o [|u vs]|g l]; try lia. pose proof (tmems_nonneg' fs IH vs). unfold tmems in *. lia.
  - intros fs IH v. cbn [tmem]. destruct v as [n|l|o vs|g l]; try lia. pose proof (tmems_nonneg' fs IH vs). unfold tmems in *. lia.
Qed.
Lemma tmems_nonneg : forall fs vs, 0 <= tmems fs vs.
Proof. intros fs. apply tmems_nonneg', Forall_forall. intros s _. apply tmem_nonneg. Qed.
Definition tree_memory (fs : list shape) (vs : list val) : Z := 48 + 4 * Z.of_nat (List.length fs) + tmems fs vs.

Fixpoint thin (s : shape) : bool := match s with Value t => narrow t | Object _ fs => existsb thin fs | Group fs => existsb thin fs end.

(** The shapes that can be read: no enums (see C91), and type hashes that are not 0. *)
Fixpoint readable (s : shape) : bool :=
  match s with
  | Value t => plain t
  | Object h fs => (0 <? h) && (h <? 2 ^ 64) && forallb readable fs
  | Group fs => negb (Nat.eqb (List.length fs) 0) && forallb readable fs
  end.

Lemma zeros_seen : forall (M : mset) w w', seen M w w' -> wok w -> (forall x, 0 <= x < 128 -> ~ 32 <= x < 96 -> ~ M x) -> zeros w -> zeros w'.
Proof.
  intros M w w' (G&_) (P1&P2&P3&_) N (Z0&Z1). split; [transitivity (load_be 32 (mem w) 0); [|exact Z0]|transitivity (load_be 32 (mem w) 96); [|exact Z1]]; apply (load_be_grows 32 M w w' _ G); try lia; intros x Hx; apply N; lia.
Qed.
Lemma parent_seen : forall (M : mset) w w' p p' ow parent, seen M w w' -> parent_at w p ow parent -> moved w p w' p' -> (forall x, ow <= x < ow + 32 -> ~ M x) -> parent_at w' p' ow parent.
Proof.
  intros M w w' p p' ow parent (G&_) (A&B&C&D) Mv N. pose proof G as (_&_&_&G4&_). split; [|unfold moved in Mv; lia]. rewrite <- A. apply (load_be_grows 32 M w w' ow G); [lia|lia|].
  intros x Hx. apply N. lia.
Qed.
Lemma seen_wmem : forall p w w', seen (slot_mem p) w w' -> seen (wmem p) w w'.
Proof. intros p w w' S. eapply seen_mono; [exact S|]. intros x _ Y. left. exact Y. Qed.
Lemma ready_seen_wmem : forall ep p w w' p', p = 128 \/ 468 <= p -> ready ep w p' -> seen (wmem p) w w' -> ready ep w' p'.
Proof. intros ep p w w' p' Hp R S. eapply ready_seen; [exact R|exact S|]. intros x Hx [[Y|Y]|Y]; unfold within in Y; lia. Qed.

(** ** Fields *)


Definition treads (s : shape) : Prop := forall ep w p ow q v parent, readable s = true -> ready ep w p -> zeros w -> good q -> parent_at w p ow parent ->
  let sz := field_size (slot_ty s) in
  at_pos w p (room q sz) true -> (0 < sz -> loaded w (room q sz)) ->
  let H := keccak (host w) in
  contains H (stor (host w)) s parent v q -> fst (after (slot_ty s) q) < 2 ^ 256 -> fits (reach H s parent v q) -> tmem s v < 2147483648 ->
  wpf (decode_shape ep s) [p; snd (room q sz); ow] w
    (resq (fun r w' => exists a p' F, r = [snd (after (slot_ty s) q); p'; a] /\ seen (wmem p) w w' /\ gnext w' <= gnext w + tmem s v /\ at_pos w' p' (after (slot_ty s) q) true /\
       sub F (between (gnext w) (gnext w')) /\ gnext w <= a <= gnext w' /\ moved w p w' p' /\ disj F (between p' (p' + 32)) /\
       shape_at (mem w') s (adopt s parent v) a F) (ctrap w (thin s) (tmem s v))).

Definition wstruct (p a n : Z) : mset := fun x => wmem p x \/ between a (a + n) x.

Lemma readable_field : forall s q, good q -> readable s = true -> before (room q (field_size (slot_ty s))) (after (slot_ty s) q).
Proof.
  intros [t|h fs|fs] q Gq R; cbn [slot_ty readable] in *.
  - apply held_field; [exact Gq|apply plain_storable; exact R].
  - apply before_refl.
  - change (field_size (TStruct false (map slot_ty fs))) with 0. rewrite (room_zero q Gq). apply after_ok. exact Gq.
Qed.

Lemma decode_shapes_wp : forall fs, Forall treads fs -> forall ep so ow st fp L own s parent, locals_ok so ow st fp L own s -> 468 <= s -> own + 32 <= s ->
  forall w p vs q i r (Q : outcome -> Prop) stk f, ready ep w p -> zeros w -> parent_at w p own parent -> p + 32 <= s + 4 * i \/ s + 4 * i + 4 * Z.of_nat (List.length fs) <= p ->
  good q -> at_pos w p q true -> forallb readable fs = true ->
  contents (keccak (host w)) (stor (host w)) fs parent vs q ->
  fst (afters (map slot_ty fs) q) < 2 ^ 256 -> fits (reaches (keccak (host w)) fs parent vs q) ->
  tmems fs vs < 2147483648 -> 0 <= i -> s + 4 * i + 4 * Z.of_nat (List.length fs) <= gnext w ->
  (ctrap w (existsb thin fs) (tmems fs vs) -> Q OTrap) ->
  (forall w' p' G f, seen (wstruct p (s + 4 * i) (4 * Z.of_nat (List.length fs))) w w' -> gnext w' <= gnext w + tmems fs vs ->
     at_pos w' p' (afters (map slot_ty fs) q) true -> fields (map (shape_at (mem w')) fs) (mem w') (adopts fs parent vs) (s + 4 * i) G ->
     sub G (between (gnext w) (gnext w')) -> moved w p w' p' -> disj G (between p' (p' + 32)) -> wp r Q stk (L p' (snd (afters (map slot_ty fs) q)) f) w') ->
  wp (decode_fields ep so ow st fp (map (fun s => (field_size (slot_ty s), decode_shape ep s)) fs) i ++ r) Q stk (L p (snd q) f) w.
Proof.
  intros fs F ep so ow st fp L own s parent LK Hs Hos. induction F as [|sh fs Ht _ IH]; intros w p vs q i r Q stk f Rd Zs Pa Hps Gq At Pl Hd Rg Ft Mm Hi Hb T K.
  - destruct vs; [|contradiction]. cbn [map decode_fields app]. apply (K w p empty f).
    + split; [apply grows_refl, Rd|reflexivity].
    + cbn. lia.
    + exact At.
    + exact Logic.I.
    + intros x [].
    + left. reflexivity.
    + intros x [].
  - destruct vs as [|v vs]; [contradiction|]. destruct Hd as (Hv&Hd). change (contents (keccak (host w)) (stor (host w)) fs parent vs (after (slot_ty sh) q)) in Hd.
    cbn [forallb] in Pl. apply andb_true_iff in Pl. destruct Pl as (Pt&Pl).
    cbn [map] in Rg, K. rewrite afters_cons in *. rewrite reaches_cons in Ft. apply Forall_app in Ft. destruct Ft as (Ft1&Ft2). change (tmems (sh :: fs) (v :: vs)) with (tmem sh v + tmems fs vs) in *. cbn [existsb] in *.
    pose proof (tmem_nonneg sh v) as Mv. pose proof (tmems_nonneg fs vs) as Mvs. cbn [List.length] in Hb, Hps, K. rewrite Nat2Z.inj_succ in Hb, Hps, K.
    pose proof Rd as (Hw&He&H1&Hp&Hp2). pose proof Hw as (P1&P2&P3&P4&P5&P6). set (t := slot_ty sh) in *.
    pose proof (field_size_range t) as Fs. destruct (after_ok t q Gq) as (Ga&Ba). destruct (afters_ok (map slot_ty fs) _ Ga) as (_&Bb).
    assert (Ra : fst (after t q) < 2 ^ 256) by (apply before_fst in Bb; lia).
    assert (Rr : fst (room q (field_size t)) < 2 ^ 256) by (pose proof (before_fst _ _ (readable_field sh q Gq Pt)) as Y; fold t in Y; clear - Y Ra; lia).
    cbn [map decode_fields app]. destruct (LK p (snd q) f) as (N0&N1&N2&N3&N4&N5&N6&N7).
    eapply wp_lget; [exact N0|]. eapply wp_lget; [exact N1|]. ws1.
    eapply wp_call_spec; [reflexivity|cbn [List.length]; lia|wc; eapply (accumulate_read_spec ep w p q true (field_size t)); eassumption|intros []|].
    intros r1 w1 (->&S1&G1&At1&Ld1). cbn [orb] in At1, Ld1. wc. eapply wp_lset; [exact N1|]. rewrite N5. clear N0 N1 N2 N3 N4 N5 N6 N7.
    set (q1 := room q (field_size t)) in *. destruct (LK p (snd q1) f) as (N0&N1&N2&N3&N4&N5&N6&N7).
    eapply wp_lget; [exact N0|]. eapply wp_lget; [exact N1|]. eapply wp_lget; [exact N2|].
    assert (Rd1 : ready ep w1 p) by (eapply ready_seen; [exact Rd|exact S1|]; intros x Hx; unfold slot_mem, within; lia).
    assert (Zs1 : zeros w1) by (eapply zeros_seen; [exact S1|exact Hw| |exact Zs]; intros x X1 X2; unfold slot_mem, within; lia).
    assert (Pa1 : parent_at w1 p own parent) by (eapply parent_seen; [exact S1|exact Pa|left; reflexivity|]; intros x Hx; destruct Pa as (_&Y1&Y2&Y3); unfold slot_mem, within; lia).
    assert (Eh1 : host w1 = host w) by apply S1.
    destruct (decode_shape_form ep sh) as (nl&bd&Ef).
    eapply wp_call_spec; [exact Ef|cbn [List.length]; lia| | |].
    { wc. eapply (Ht ep w1 p own q v parent Pt Rd1 Zs1 Gq Pa1); fold t; fold q1; rewrite ?Eh1; try assumption; [|lia]. intros Z0. exact (Ld1 Z0 eq_refl). }
    { intros Tr. apply T. eapply ctrap_seen; [exact S1|exact Tr|lia|]. intros ->. reflexivity. }
    intros r2 w2 (a&p2&F1&->&S2&G2&At2&SF&Ba2&Mv2&DF&Fv). fold t in At2 |- *. wc. eapply wp_lset; [exact N1|]. rewrite N5. clear N0 N1 N2 N3 N4 N5 N6 N7.
    destruct (LK p (snd (after t q)) f) as (N0&N1&N2&N3&N4&N5&N6&N7). eapply wp_lset; [exact N0|]. rewrite N7. clear N0 N1 N2 N3 N4 N5 N6 N7.
    destruct (LK p2 (snd (after t q)) f) as (N0&N1&N2&N3&N4&N5&N6&N7). eapply wp_lset; [exact N4|]. rewrite N6. clear N0 N1 N2 N3 N4 N5 N6 N7.
    destruct (LK p2 (snd (after t q)) a) as (N0&N1&N2&N3&N4&N5&N6&N7). eapply wp_lget; [exact N3|]. eapply wp_lget; [exact N4|].
    pose proof (seen_trans _ _ _ _ (seen_wmem _ _ _ S1) S2) as S12. pose proof S2 as ((Hw2&_&_&B2&_)&_). pose proof Hw2 as (Q1&Q2&Q3&Q4&Q5&Q6).
    assert (Mv1 : p2 = p \/ gnext w <= p2 /\ p2 + 32 <= gnext w2) by (unfold moved in Mv2; rewrite G1 in Mv2; exact Mv2).
    apply wp_store; [lia|unfold page_size; lia|]. change (Z.of_nat 4) with 4. set (w3 := set_mem w2 _).
    assert (S3 : seen (between (s + 4 * i) (s + 4 * i + 4)) w2 w3).
    { apply seen_set_mem; [exact Hw2| |unfold between; lia]. intros x Hx. apply rd_store_out. unfold between in Hx. lia. }
    assert (Fr3 : forall x, ~ between (s + 4 * i) (s + 4 * i + 4) x -> rd (mem w3) x = rd (mem w2) x).
    { intros x Hx. cbn [w3 mem set_mem]. apply rd_store_out. unfold between in Hx. lia. }
    assert (S13 : seen (wstruct p (s + 4 * i) 4) w w3).
    { eapply seen_trans; [eapply seen_mono; [exact S12|unfold wstruct; auto]|eapply seen_mono; [exact S3|]]. unfold wstruct. auto. }
    assert (Rd3 : ready ep w3 p2).
    { eapply (ready_moved ep w w3 p); [exact Rd|eapply ready_seen; [exact Rd|exact S13|]; intros x Hx; unfold wstruct, wmem, slot_mem, within, between; lia|exact Mv1]. }
    assert (Zs3 : zeros w3) by (eapply zeros_seen; [exact S13|exact Hw| |exact Zs]; intros x X1 X2; unfold wstruct, wmem, slot_mem, within, between; lia).
    assert (Pa3 : parent_at w3 p2 own parent) by (eapply parent_seen; [exact S13|exact Pa|exact Mv1|]; intros x Hx; destruct Pa as (_&Y1&Y2&Y3); unfold wstruct, wmem, slot_mem, within, between; lia).
    assert (At3 : at_pos w3 p2 (after t q) true).
    { destruct At2 as (X1&X2). split; [rewrite <- X1|intros Eb; destruct (X2 Eb) as [X3|X3]; [left; exact X3|right; unfold loaded; change (host w3) with (host w2); rewrite <- X3]];
        apply load_be_ext; intros j Hj; apply Fr3; unfold between; lia. }
    assert (Eh3 : host w3 = host w) by apply S13. assert (Gn3 : gnext w3 = gnext w2) by reflexivity.
    assert (B0 : gnext w <= gnext w2) by lia.
    apply (IH w3 p2 vs (after t q) (i + 1)); clear IH; try eassumption; rewrite ?Eh3; try assumption; try lia.
    { intros Tr. apply T. eapply ctrap_seen; [exact S13|exact Tr|lia|]. intros ->. apply orb_true_r. }
    intros w4 p4 G f4 S4 N4' At4 Fl SG Mv4 DG. rewrite Gn3 in *.
    assert (S14 : seen (wstruct p (s + 4 * i) (4 * Z.succ (Z.of_nat (List.length fs)))) w w4).
    { eapply seen_trans'; [eapply seen_mono; [exact S13|]|exact S4|].
      - intros x _ [X|X]; [left; exact X|right; unfold between in *; lia].
      - intros x Hx [X|X]; [|right; unfold between in *; lia]. destruct Mv1 as [->|Mv1]; [left; exact X|]. left. unfold wmem, slot_mem, within in *. lia. }
    pose proof S4 as ((_&_&_&B4&_&_&Fr4)&_). rewrite Gn3 in B4, Fr4. unfold moved in Mv4. rewrite Gn3 in Mv4.
    apply (K w4 p4 (union F1 G) f4 S14); [lia|exact At4| | | |].
    + change (adopts (sh :: fs) parent (v :: vs)) with (adopt sh parent v :: adopts fs parent vs). cbn [map fields]. exists F1, G.
      assert (A4 : agree (mem w2) (mem w4) F1).
      { intros x Hx. pose proof (DF x Hx) as Nx. apply SF in Hx. unfold between in Hx. rewrite Fr4, Fr3; [reflexivity| |lia|]; unfold between in *; [lia|].
        unfold wstruct, wmem, slot_mem, within, between. lia. }
      split; [|split; [|split; [|split]]].
      * assert (Ea : load 4 (mem w4) (s + 4 * i) = a).
        { rewrite (load_ext 4 (mem w4) (mem w3) (s + 4 * i) (s + 4 * i)).
          - cbn [w3 mem set_mem]. change 4 with (Z.of_nat 4) at 2. rewrite load_store_same. apply Z.mod_small. change (256 ^ Z.of_nat 4) with (2 ^ 32). lia.
          - intros j Hj. apply Fr4; [lia|]. unfold wstruct, wmem, slot_mem, within, between. lia. }
        rewrite Ea. eapply shape_ext; [exact A4|exact Fv].
      * replace (s + 4 * i + 4) with (s + 4 * (i + 1)) by lia. exact Fl.
      * intros x X1 X2. apply SF in X1. apply SG in X2. unfold between in *. lia.
      * intros x Hx. left. exact Hx.
      * intros x Hx. right. exact Hx.
    + intros x [X|X]; [apply SF in X|apply SG in X]; unfold between in *; lia.
    + unfold moved. lia.
    + intros x [X|X] Y; [|exact (DG x X Y)]. destruct Mv4 as [E4|Mv4]; [rewrite E4 in Y; exact (DF x X Y)|apply SF in X; unfold between in *; lia].
Qed.

Lemma treads_value : forall t, treads (Value t).
Proof.
  intros t ep w p ow q v parent Pl Rd Zs Gq Pa sz At Ld H Hd Rg Ft Mm. cbn [readable slot_ty contains reach tmem thin decode_shape adopt shape_at] in *.
  eapply wpf_conseq; [apply (reads_storable t (plain_storable t Pl) ep w p ow q v true true Rd Gq); cbn [orb]; try assumption|].
  - intros Y _. exact (Ld Y).
  - eapply fetches_plain; [exact Pl|exact Hd].
  - intros o. destruct o; cbn [resq]; auto. intros (a&p'&F&->&S&G&At'&Fv&SF&Ba&Mv&DF&_). exists a, p', F. split; [reflexivity|]. split; [apply seen_wmem; exact S|].
    do 6 (split; [assumption|]). exact Fv.
Qed.

Lemma treads_group : forall fs, Forall treads fs -> treads (Group fs).
Proof.
  intros fs IH ep w p ow q v parent Pl Rd Zs Gq Pa sz At Ld H Hd Rg Ft Mm. pose proof Rd as (Hw&He&H1&Hp&Hp2). pose proof Hw as (P1&P2&P3&P4&P5&P6).
  cbn [readable slot_ty contains thin decode_shape] in *. apply andb_true_iff in Pl. destruct Pl as (_&Pl). destruct Hd as (vs&->&Hd). cbn [reach tmem adopt] in *. fold (tmems fs vs) in *.
  change (field_size (TStruct false (map slot_ty fs))) with 0 in sz. unfold sz in *. rewrite (room_zero q Gq) in *. clear sz Ld.
  change (after (TStruct false (map slot_ty fs)) q) with (afters (map slot_ty fs) q) in *. change (gather _ vs q) with (reaches H fs parent vs q) in Ft. change (along _ vs q) with (contents H (stor (host w)) fs parent vs q) in Hd.
  pose proof (tmems_nonneg fs vs) as Mn. apply wpf_intro; [reflexivity|]. wc. ws1.
  wcall alloc_spec; [exact Hw|lia|intros O; left; eapply oom_mono; [exact O|lia]|].
  intros rs w1 [-> Al]. wc. pose proof Al as (Hw1&Em&A1&A2&A3&A4&A5). ws1. set (s := gnext w) in *.
  pose proof (alloc_extends w w1 _ Hw Al ltac:(lia)) as X1. pose proof (seen_extends (wmem p) w w1 X1) as S1.
  pose proof (ready_seen_wmem ep p w w1 p Hp Rd S1) as Rd1. destruct Pa as (Pa1&Pa2&Pa3&Pa4).
  refine (decode_shapes_wp fs IH ep 1%nat 2%nat 3%nat 4%nat (fun p o f => [p; o; ow; s; f]) ow s parent _ ltac:(lia) ltac:(lia) w1 p vs q 0 _ _ _ _ Rd1 _ _ _ Gq _ Pl _ Rg _ _ _ _ _ _); rewrite ?A5; try assumption; try lia.
  - intros p' o f. repeat split.
  - unfold zeros in *. rewrite Em. exact Zs.
  - unfold parent_at. rewrite Em. repeat split; try assumption; lia.
  - unfold at_pos, loaded in *. rewrite Em, A5. exact At.
  - intros Tr. eapply ctrap_seen; [exact S1|exact Tr|lia|auto].
  - intros w2 p2 G f S2 G2 At2 Fl SG Mv DG. replace (s + 4 * 0) with s in * by lia. ws1. ws1. ws1. ws1.
    assert (S12 : seen (wmem p) w w2).
    { eapply seen_trans'; [exact S1|exact S2|]. intros x Hx [Y|Y]; [exact Y|unfold between in Y; lia]. }
    pose proof S2 as ((_&_&_&B4&_)&_). unfold moved in Mv.
    exists s, p2, (union (between s (s + 4 * Z.of_nat (List.length fs))) G). split; [reflexivity|]. split; [exact S12|]. split; [lia|].
    split; [exact At2|]. split; [|split; [lia|split; [unfold moved; lia|split]]].
    + intros x [X|X]; [|apply SG in X]; unfold between in *; lia.
    + intros x [X|X] Y; [unfold between in *; lia|exact (DG x X Y)].
    + cbn [shape_at]. exists (adopts fs parent vs), G. split; [reflexivity|]. split; [intros x Hx; left; exact Hx|]. split; [intros x Hx; right; exact Hx|]. split; [|exact Fl].
      intros x X Y. apply SG in Y. unfold between in *. lia.
Qed.

Lemma load_with_spec : forall fs, Forall treads fs -> forall ep h w p sid ow k vs, ready ep w p -> zeros w -> 468 <= sid -> sid + 32 <= gnext w -> (sid + 32 <= p \/ p + 32 <= sid) ->
  0 <= ow -> ow + 32 <= gnext w -> load_be 32 (mem w) p = k ->
  0 <= h < 2 ^ 64 -> load_error h (stor (host w) k mod 2 ^ 256) = None -> forallb readable fs = true ->
  let H := keccak (host w) in let id := load_be 32 (mem w) sid in
  contents H (stor (host w)) fs id vs (k, 8) -> Forall (fun a => snd a < 2 ^ 256) (tree_slots H fs id vs k) -> tree_memory fs vs < 2147483648 ->
  wpf (load_tree ep h fs) [p; sid; ow] w (resq (fun r w' => exists x F, r = [x] /\ seen (wmem p) w w' /\ gnext w' <= gnext w + tree_memory fs vs /\ gnext w <= x <= gnext w' /\
     tree_at (mem w') fs (load_be 32 (mem w) ow) id (adopts fs id vs) x F /\ sub F (union (between (gnext w) (gnext w')) (between sid (sid + 32))))
   (ctrap w (existsb thin fs) (tree_memory fs vs))).
Proof.
  intros fs IH ep h w p sid ow k vs Rd Zs Hs Hs2 Hsp Ho Ho2 Lp Hh E Pl H id Hd Rg Mm. pose proof Rd as (Hw&He&H1&Hp&Hp2). pose proof Hw as (P1&P2&P3&P4&P5&P6).
  unfold tree_memory in *. pose proof (tmems_nonneg fs vs) as Mn. unfold load_tree, load_with. rewrite map_length. set (n := Z.of_nat (List.length fs)) in *. assert (Hn : 0 <= n) by (unfold n; lia).
  apply wpf_intro; [reflexivity|]. wc. ws1. ws1. eapply (load_object_start ep w p ow k); try reflexivity; try assumption; [intros O; left; eapply oom_mono; [exact O|lia]|].
  intros w1 (S1&G1&Lo&Lk&L64). pose proof (proj1 (proj1 S1)) as Hw1. pose proof Hw1 as (Q1&Q2&Q3&Q4&Q5&Q6). unfold load_error in E.
  assert (Hh1 : host w1 = host w) by apply S1.
  assert (El : bswap 8 (load 8 (mem w1) (64 + 24)) = stor (host w) k mod 2 ^ 256 mod 2 ^ 64) by (rewrite bswap_load, low8, L64; reflexivity).
  destruct (stor (host w) k mod 2 ^ 256 =? 0) eqn:Z0; [discriminate|].
  destruct (Z.eqb_spec (stor (host w) k mod 2 ^ 256 mod 2 ^ 64) (bswap 8 h)) as [X|X]; [|discriminate]. clear E.
  apply wp_if; intros C; [exfalso; cbn in C; lia|]. apply wp_nil. wc. unfold A_SLOT_DATA. ws1. apply wp_load; [lia|unfold page_size; lia|]. ws1. ws1.
  assert (Eh : load 8 (mem w1) (64 + 24) = h).
  { rewrite <- (bswap_bswap 8 (load 8 (mem w1) (64 + 24))) by exact (load_range 8 _ _). rewrite El, X. apply bswap_bswap. change (256 ^ Z.of_nat 8) with (2 ^ 64). exact Hh. }
  rewrite Eh, Z.eqb_refl. clear C. apply wp_if; intros C; [|exfalso; cbn in C; lia]. clear C. ws1. ws1. apply wp_nil. wc. fold n.
  assert (Hi : 0 <= sid < 2 ^ 32) by (clear - Hs Hs2 P1 P2 P4 P5; lia).
  eapply (object_shell w1 n sid _ _ p ow Hw1 Hn); [lia|exact Hi| |].
  { intros O. left. unfold oom in *. destruct S1 as ((_&B2&_)&_). rewrite B2, G1 in O. lia. }
  rewrite G1. intros w2 X2 G2 La Lb Lc. pose proof (seen_extends (slot_mem p) _ _ X2) as S2. pose proof (seen_wmem _ _ _ (seen_trans _ _ _ _ S1 S2)) as S12. set (s := gnext w + 32) in *.
  pose proof X2 as (Hw2&_&_&_&_&Hh2&Fr2). rewrite G1 in Fr2. fold s in Fr2. rewrite Hh1 in Hh2.
  pose proof (ready_seen_wmem ep p w w2 p Hp Rd S12) as Rd2.
  assert (Ft : fst (afters (map slot_ty fs) (k, 8)) < 2 ^ 256 /\ fits (reaches H fs id vs (k, 8))) by (unfold tree_slots in Rg; split; [exact (Forall_inv Rg)|exact (Forall_inv_tail Rg)]). destruct Ft as (Ft1&Ft2).
  refine (decode_shapes_wp fs IH ep 3%nat 6%nat 4%nat 5%nat (fun p o f => [p; sid; ow; o; s; f; sid; s + 8 + 4 * n + 4; 0]) sid s id _ ltac:(lia) ltac:(lia) w2 p vs (k, 8) 1 _ _ _ _ Rd2 _ _ _ _ _ Pl _ Ft1 _ _ _ _ _ _); rewrite ?Hh2; try assumption; try lia.
  - intros p' o f. repeat split.
  - eapply zeros_wmem; [exact (proj1 S12)|exact Hw|exact Hp|exact Zs].
  - eapply parent_wmem; [exact (proj1 S12)|]. repeat split; assumption.
  - unfold good. cbn. lia.
  - split; [cbn [fst]; rewrite <- Lk; apply load_be_ext; intros; apply Fr2; lia|]. intros _. right. unfold loaded. cbn [fst]. rewrite Hh2, <- L64. apply load_be_ext. intros. apply Fr2. lia.
  - intros Tr. wc. eapply ctrap_seen; [exact S12|exact Tr|fold n; lia|auto].
  - intros w3 p3 G f S3 G3 At3 Fl SG Mv3 DG3. ws1. ws1.
    pose proof S3 as ((Hw3&B2&B3&B4&B5&B6&B7)&Hh3). pose proof S12 as ((_&C2&C3&C4&C5&C6&C7)&_).
    assert (S13 : seen (wmem p) w w3).
    { split; [|congruence]. split; [exact Hw3|]. split; [congruence|]. split; [lia|]. split; [lia|]. split; [congruence|]. split; [rewrite Hh3, Hh2; symmetry; apply set_stor_same|].
      intros x Hx Nx. rewrite B7, C7; [reflexivity|exact Hx|exact Nx|lia|]. intros [Y|Y]; [exact (Nx Y)|unfold between in Y; lia]. }
    assert (Fw : forall y, s <= y < s + 4 \/ s + 4 + 4 * n <= y < s + 16 + 4 * n -> rd (mem w3) y = rd (mem w2) y).
    { intros y Hy. apply B7; [lia|]. intros [Y|Y]; unfold wmem, slot_mem, within, between in Y; fold n in Y; lia. }
    exists s, (union (between (gnext w) (gnext w3)) (between sid (sid + 32))). split; [reflexivity|]. split; [exact S13|]. split; [lia|]. split; [lia|]. split; [|apply sub_refl].
    exists (s + 8 + 4 * n), (s + 8 + 4 * n + 4), sid, G. fold n.
    split; [rewrite <- La; apply load_ext; intros; apply Fw; lia|]. split; [rewrite <- Lb; apply load_ext; intros; apply Fw; lia|]. split; [rewrite <- Lc; apply load_ext; intros; apply Fw; lia|].
    split; [apply load_be_ext; intros i Hi0; destruct S13 as ((_&_&_&_&_&_&D7)&_); apply D7; [lia|unfold wmem, slot_mem, within; lia]|].
    split; [rewrite <- Lo; replace (s - 32) with (gnext w) by lia; apply load_be_ext; intros; rewrite B7, Fr2; [reflexivity|lia|lia|unfold wstruct, wmem, slot_mem, within, between; fold n; lia]|].
    repeat (split; [intros y Hy; first [left; unfold between in *; lia|right; exact Hy]|]).
    split; [intros y Hy; left; apply SG in Hy; unfold between in *; lia|]. split; [|split; [|exact Fl]].
    + intros y Y1 [Y2|Y2]; [apply SG in Y2|]; unfold union, between in *; lia.
    + intros y Y1 Y2. apply SG in Y1. unfold union, between in *. lia.
Qed.
