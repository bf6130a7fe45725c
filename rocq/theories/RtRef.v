(** * Structs, variants, vectors literals, references and local variables: translation/bytecodes/structs.rs, enums.rs,
    translation/intermediate_types.rs 322-790 and intermediate_types/vector.rs 76-131. *)

From Verif Require Import SpecInt Spec Tac RtAlloc RtErr RtInt RtDiv RtShift RtAscii Ops SpecVal LemVal RtCopy RtCopy2 RtVec SpecVec RtStore RtCall SpecRef.
Ltac Zify.zify_post_hook ::= idtac.

(** translation/bytecodes/structs.rs 21-54 [borrow_field], for the [i]-th field (its offset: intermediate_types/structs.rs). *)
Definition borrow_field (i : nat) : list instr := [ Load 4 0; Const (4 * Z.of_nat i); Bin I32 Add ].

(** translation/bytecodes/enums.rs 184-254 [unpack_variant_ref], for a variant with [n] fields.  [p]: the local [pointer]. *)
Fixpoint variant_refs (p : nat) (n : nat) (off : Z) : list instr :=
  match n with O => [] | S n' => [ LocalGet p; Const off; Bin I32 Add ] ++ variant_refs p n' (off + 4) end.
Definition unpack_variant_ref (p n : nat) : list instr := [ Load 4 0; LocalSet p ] ++ variant_refs p n 4.

(** translation/intermediate_types.rs 505-579 [add_read_ref_instructions]. *)
Definition read_ref (ep : errtab) (t : ty) : list instr :=
  [ Load 4 0 ] ++ (if is_stack t then [ Load (esize t) 0 ] else copy_ptr ep t).

(** translation/intermediate_types.rs 581-707 [add_write_ref_instructions].  [p], [v]: the locals [ptr] and [val], or
    [ref_ptr] and [src_ptr]. *)
Fixpoint copy_words (p v : nat) (n : nat) (off : Z) : list instr :=
  match n with
  | O => []
  | S n' => [ LocalGet p; Const off; Bin I32 Add; LocalGet v; Const off; Bin I32 Add; Load 8 0; Store 8 0 ] ++ copy_words p v n' (off + 8)
  end.
Definition write_ref (t : ty) (p v : nat) : list instr :=
  match t with
  | TBool | TU8 | TU16 | TU32 | TU64 => [ Load 4 0; LocalSet p; LocalSet v; LocalGet p; LocalGet v; Store (esize t) 0 ]
  | TU128 => [ Load 4 0; LocalSet p; LocalSet v ] ++ copy_words p v 2 0
  | TU256 | TAddress => [ Load 4 0; LocalSet p; LocalSet v ] ++ copy_words p v 4 0
  | _ => [ LocalSet p; LocalSet v; LocalGet p; LocalGet v; Store 4 0 ]
  end.

(** ** Parts of values in memory *)

Definition flds (m : memory) (ts : list ty) (vs : list val) (a : Z) (F : mset) : Prop :=
  fields (map (fun t => field_of m t (vrep m t)) ts) m vs a F.

Lemma field_of_agree : forall t m m' v x F, agree m m' F -> field_of m t (vrep m t) v x F -> field_of m' t (vrep m' t) v x F.
Proof. intros t. apply field_of_ext. apply vrep_ext. Qed.

Lemma flds_agree : forall ts m m' vs a F, agree m m' F -> (forall y, a <= y < a + 4 * Z.of_nat (List.length ts) -> rd m' y = rd m y) ->
  flds m ts vs a F -> flds m' ts vs a F.
Proof.
  intros ts m m' vs a F A B. unfold flds. apply fields_ext.
  - apply Forall2_map. apply Forall_forall. intros t _ v x G S. apply field_of_agree. eapply agree_sub; eassumption.
  - rewrite map_length. exact B.
Qed.

Lemma flds_length : forall ts m vs a F, flds m ts vs a F -> List.length vs = List.length ts.
Proof.
  induction ts as [|t ts IH]; intros m [|v vs] a F; unfold flds; cbn [map fields]; intros H; try contradiction; [reflexivity|].
  destruct H as (F1&F2&_&H&_). cbn [List.length]. f_equal. eapply IH. exact H.
Qed.

(** One field of many: what it takes to replace it. *)
Lemma flds_focus : forall ts m vs a G i t v, flds m ts vs a G -> nth_error ts i = Some t -> nth_error vs i = Some v ->
  exists F1 F2, disj F1 F2 /\ sub F1 G /\ sub F2 G /\ field_of m t (vrep m t) v (load 4 m (a + 4 * Z.of_nat i)) F2 /\
    (forall j t2 v2, j <> i -> nth_error ts j = Some t2 -> nth_error vs j = Some v2 -> field_of m t2 (vrep m t2) v2 (load 4 m (a + 4 * Z.of_nat j)) F1) /\
    (forall m' u F2', agree m m' F1 -> (forall y, a <= y < a + 4 * Z.of_nat (List.length ts) -> ~ cell (a + 4 * Z.of_nat i) y -> rd m' y = rd m y) ->
       field_of m' t (vrep m' t) u (load 4 m' (a + 4 * Z.of_nat i)) F2' -> disj F1 F2' -> flds m' ts (update vs i u) a (union F1 F2')).
Proof.
  induction ts as [|t0 ts IH]; intros m [|v0 vs] a G i t v H Ht Hv; try (destruct i; discriminate).
  unfold flds in H. cbn [map fields] in H. destruct H as (A&B&H1&H2&D&S1&S2). destruct i as [|i]; cbn [nth_error] in Ht, Hv.
  - injection Ht as ->. injection Hv as ->. exists B, A. split; [apply disj_sym; exact D|]. split; [exact S2|]. split; [exact S1|].
    replace (a + 4 * Z.of_nat 0) with a by lia. split; [exact H1|]. split.
    { intros [|j] t2 v2 Nj T2 V2; [contradiction|]. cbn [nth_error] in T2, V2. replace (a + 4 * Z.of_nat (S j)) with (a + 4 + 4 * Z.of_nat j) by lia.
      destruct (IH m vs (a + 4) B j t2 v2 H2 T2 V2) as (E1&E2&_&_&E3&E4&_). eapply field_of_mono; eassumption. }
    intros m' u F2' Ag Hd Hf Dj. unfold flds. cbn [map fields update].
    exists F2', B. split; [exact Hf|]. split; [|split; [apply disj_sym; exact Dj|split; [intros y Y; right; exact Y|intros y Y; left; exact Y]]].
    apply (flds_agree ts m m'); [exact Ag| |exact H2]. intros y Hy. apply Hd; [cbn [List.length]; lia|]. unfold cell, between. lia.
  - destruct (IH m vs (a + 4) B i t v H2 Ht Hv) as (F1&F2&Dj&S3&S4&Hf&Ot&K).
    exists (union A F1), F2. split; [intros y [Y|Y] Z; [eapply D; [exact Y|apply S4; exact Z]|eapply Dj; eassumption]|].
    split; [intros y [Y|Y]; [apply S1; exact Y|apply S2, S3; exact Y]|]. split; [intros y Y; apply S2, S4; exact Y|].
    replace (a + 4 * Z.of_nat (S i)) with (a + 4 + 4 * Z.of_nat i) by lia. split; [exact Hf|]. split.
    { intros [|j] t2 v2 Nj T2 V2; cbn [nth_error] in T2, V2.
      - injection T2 as <-. injection V2 as <-. replace (a + 4 * Z.of_nat 0) with a by lia. eapply field_of_mono; [|exact H1]. intros y Y. left. exact Y.
      - replace (a + 4 * Z.of_nat (S j)) with (a + 4 + 4 * Z.of_nat j) by lia. eapply field_of_mono; [|apply (Ot j t2 v2); [congruence|exact T2|exact V2]]. intros y Y. right. exact Y. }
    intros m' u F2' Ag Hd Hf' Dj'. unfold flds. cbn [map fields update]. exists A, (union F1 F2'). split; [|split; [|split; [|split]]].
    + replace (load 4 m' a) with (load 4 m a).
      * eapply field_of_agree; [|exact H1]. intros y Y. apply Ag. left. exact Y.
      * symmetry. apply load_ext. intros y Hy. apply Hd; [cbn [List.length]; lia|unfold cell, between; lia].
    + apply K; [intros y Y; apply Ag; right; exact Y| |exact Hf'|intros y Y Z; eapply Dj'; [right; exact Y|exact Z]].
      intros y Hy Ny. apply Hd; [cbn [List.length]; lia|exact Ny].
    + intros y Y [Z|Z]; [eapply D; [exact Y|apply S3; exact Z]|eapply Dj'; [left; exact Y|exact Z]].
    + intros y Y. left. left. exact Y.
    + intros y [Y|Y]; [left; right; exact Y|right; exact Y].
Qed.

Lemma elems_flds : forall t m vs a F, is_stack t = false -> elems (vrep m t) 4 m vs a F <-> flds m (map (fun _ => t) vs) vs a F.
Proof.
  intros t m vs. induction vs as [|v vs IH]; intros a F Ht; unfold flds; cbn [elems map fields]; [tauto|].
  assert (E : forall x G, field_of m t (vrep m t) v x G <-> vrep m t v x G) by (intros; unfold field_of; rewrite Ht; tauto).
  split; intros (F1&F2&A&B&C); exists F1, F2; (split; [apply E; exact A|split; [apply IH; assumption|exact C]]).
Qed.

(** A reference, as far as memory goes. *)
Definition refm (m : memory) (t : ty) (r : Z) (v : val) (F : mset) : Prop :=
  disj (cell r) F /\ field_of m t (vrep m t) v (load 4 m r) F.

(** The cells on the way to a part are in the memory of the whole. *)
Lemma cell_of_agree : forall t v path t' v', part t v path t' v' -> forall m m' r F, refm m t r v F ->
  (forall y, cell r y \/ F y -> rd m' y = rd m y) -> cell_of m' v path r = cell_of m v path r.
Proof.
  intros t v path t' v' P. induction P as [t v|k fs o vs i t v path t' v' Ht Hv P IH|vts g fs vs i t v path t' v' Hg Ht Hv P IH|t vs i v path t' v' Hs Hv P IH]; intros m m' r F (Dr&R) Ag; [reflexivity| | |].
  all: assert (Ex : load 4 m' r = load 4 m r) by (apply load_ext; intros y Hy; apply Ag; left; unfold cell, between; lia).
  all: cbn [cell_of]; rewrite Hv, Ex; set (x := load 4 m r) in *.
  - unfold field_of in R. cbn [is_stack vrep] in R. destruct R as (o'&vs'&G&E&Ho&Sh&Sg&Dj&Hf). injection E as <- <-. fold (flds m fs vs x G) in Hf.
    destruct (flds_focus fs m vs x G i t v Hf Ht Hv) as (F1&F2&D12&S3&S4&Hf2&_). assert (Li : (i < List.length fs)%nat) by (apply nth_error_Some; congruence).
    assert (Cc : sub (cell (x + 4 * Z.of_nat i)) (between (if k then x - 32 else x) (x + 4 * Z.of_nat (List.length fs)))) by (intros y Y; unfold cell, between in *; destruct k; lia).
    apply (IH m m' _ F2); [split; [intros y Y Z; apply (Dj y); [apply Cc; exact Y|apply S4; exact Z]|exact Hf2]|].
    intros y [Y|Y]; apply Ag; right; [apply Sh, Cc; exact Y|apply Sg, S4; exact Y].
  - unfold field_of in R. cbn [is_stack vrep] in R. destruct R as (g'&vs'&G&E&Hg'&Sh&Sg&Dj&Hf). injection E as <- <-.
    rewrite (map_nth_error _ _ _ Hg) in Hf. fold (flds m fs vs (x + 4) G) in Hf. pose proof (enum_size_ge _ _ _ Hg) as SZ.
    destruct (flds_focus fs m vs (x + 4) G i t v Hf Ht Hv) as (F1&F2&D12&S3&S4&Hf2&_). assert (Li : (i < List.length fs)%nat) by (apply nth_error_Some; congruence).
    assert (Cc : sub (cell (x + 4 + 4 * Z.of_nat i)) (between x (x + enum_size vts))) by (intros y Y; unfold cell, between in *; lia).
    apply (IH m m' _ F2); [split; [intros y Y Z; apply (Dj y); [apply Cc; exact Y|apply S4; exact Z]|exact Hf2]|].
    intros y [Y|Y]; apply Ag; right; [apply Sh, Cc; exact Y|apply Sg, S4; exact Y].
  - unfold field_of in R. cbn [is_stack vrep] in R. destruct R as (vs'&cap&G&E&Hl&Hc&Lc&Bc&Sh&Sg&Dj&Hf). injection E as <-.
    assert (Es : esize t = 4%nat) by (destruct t; try discriminate; reflexivity). rewrite Es in *. apply elems_flds in Hf; [|exact Hs].
    assert (Li : (i < List.length vs)%nat) by (apply nth_error_Some; congruence).
    destruct (flds_focus _ m vs (x + 8) G i t v Hf (map_nth_error _ _ _ Hv) Hv) as (F1&F2&D12&S3&S4&Hf2&_).
    assert (Cc : sub (cell (x + 8 + 4 * Z.of_nat i)) (between x (x + 8 + cap * Z.of_nat 4))) by (intros y Y; unfold cell, between in *; lia).
    apply (IH m m' _ F2); [split; [intros y Y Z; apply (Dj y); [apply Cc; exact Y|apply S4; exact Z]|exact Hf2]|].
    intros y [Y|Y]; apply Ag; right; [apply Sh, Cc; exact Y|apply Sg, S4; exact Y].
Qed.

(** What can be done behind a reference to a part, seen from the whole. *)
Definition focused (m : memory) (t : ty) (r : Z) (v : val) (F : mset) (path : list nat) (t' : ty) (v' : val) : Prop :=
  let e := cell_of m v path r in exists Fs,
  refm m t' e v' Fs /\ sub Fs F /\ (e = r \/ sub (cell e) F) /\
  (forall m' u Fs', (forall y, cell r y \/ F y -> ~ cell e y -> ~ Fs y -> rd m' y = rd m y) -> refm m' t' e u Fs' ->
     (forall y, Fs' y -> cell r y \/ F y -> Fs y) -> refm m' t r (put v path u) (union F Fs') /\
     (forall path2 t2 v2, part t v path2 t2 v2 -> ~ beyond path path2 -> cell_of m' (put v path u) path2 r = cell_of m v path2 r)).

Lemma update_length : forall (A : Type) (l : list A) i x, List.length (update l i x) = List.length l.
Proof. induction l as [|y l IH]; intros [|i] x; cbn [update List.length]; auto. Qed.

(** The step from a block of pointers at [a], inside the header [Hd] that comes with the rest [G], to the pointer [i]. *)
Lemma focus_step : forall m ts vs a G i t v r F Hd path t' v',
  flds m ts vs a G -> nth_error ts i = Some t -> nth_error vs i = Some v ->
  sub (between a (a + 4 * Z.of_nat (List.length ts))) Hd -> disj Hd G -> sub Hd F -> sub G F -> disj (cell r) F ->
  (forall m r F, refm m t r v F -> focused m t r v F path t' v') ->
  let c := a + 4 * Z.of_nat i in let e := cell_of m v path c in exists Fs,
  refm m t' e v' Fs /\ sub Fs F /\ sub (cell e) F /\
  (forall m' u Fs', (forall y, cell r y \/ F y -> ~ cell e y -> ~ Fs y -> rd m' y = rd m y) -> refm m' t' e u Fs' ->
     (forall y, Fs' y -> cell r y \/ F y -> Fs y) ->
     (forall y, Hd y -> ~ cell c y -> rd m' y = rd m y) /\ (forall y, cell r y -> rd m' y = rd m y) /\
     flds m' ts (update vs i (put v path u)) a (union G Fs') /\ disj Hd (union G Fs') /\ disj (cell r) (union F Fs') /\
     (forall path2 t2 v2, part t v path2 t2 v2 -> ~ beyond path path2 -> cell_of m' (put v path u) path2 c = cell_of m v path2 c) /\
     (forall j tj vj path2 t2 v2, j <> i -> nth_error ts j = Some tj -> nth_error vs j = Some vj -> part tj vj path2 t2 v2 ->
        cell_of m' vj path2 (a + 4 * Z.of_nat j) = cell_of m vj path2 (a + 4 * Z.of_nat j))).
Proof.
  intros m ts vs a G i t v r F Hd path t' v' H Ht Hv Sh Dh S1 S2 Dr IH c e.
  assert (Li : (i < List.length ts)%nat) by (apply nth_error_Some; congruence).
  assert (Cc : sub (cell c) Hd) by (intros y Y; apply Sh; unfold cell, between, c in *; lia).
  destruct (flds_focus ts m vs a G i t v H Ht Hv) as (F1&F2&D12&S3&S4&Hf&Ot&K). fold c in Hf, K.
  assert (Rc : refm m t c v F2) by (split; [intros y Y Z; eapply Dh; [apply Cc; exact Y|apply S4; exact Z]|exact Hf]).
  destruct (IH m c F2 Rc) as (Fs&Re&Sf&Ce&W). fold e in Re, Ce, W.
  assert (Ecell : forall y, cell e y -> cell c y \/ F2 y) by (intros y Y; destruct Ce as [Ee|Ce]; [left; rewrite <- Ee; exact Y|right; apply Ce; exact Y]).
  exists Fs. split; [exact Re|]. split; [intros y Y; apply S2, S4, Sf; exact Y|].
  split; [intros y Y; destruct (Ecell y Y) as [Z|Z]; [apply S1, Cc; exact Z|apply S2, S4; exact Z]|].
  intros m' u Fs' Ag Re' Df.
  assert (Hhd : forall y, Hd y -> ~ cell c y -> rd m' y = rd m y).
  { intros y Y N. apply Ag; [right; apply S1; exact Y| |].
    - intros Z. destruct (Ecell y Z) as [Q|Q]; [contradiction|eapply Dh; [exact Y|apply S4; exact Q]].
    - intros Z. eapply Dh; [exact Y|apply S4, Sf; exact Z]. }
  assert (DjH : disj Hd (union G Fs')).
  { intros y Y [Z|Z]; [eapply Dh; eassumption|]. apply (Dh y Y). apply S4, Sf. apply Df; [exact Z|right; apply S1; exact Y]. }
  assert (Rdr : forall y, cell r y -> rd m' y = rd m y).
  { intros y Y. apply Ag; [left; exact Y| |].
    - intros Z. apply (Dr y Y). destruct (Ecell y Z) as [Q|Q]; [apply S1, Cc; exact Q|apply S2, S4; exact Q].
    - intros Z. apply (Dr y Y). apply S2, S4, Sf. exact Z. }
  assert (Rn : refm m' t c (put v path u) (union F2 Fs') /\
    (forall path2 t2 v2, part t v path2 t2 v2 -> ~ beyond path path2 -> cell_of m' (put v path u) path2 c = cell_of m v path2 c)).
  { apply W.
    - intros y Y Ny1 Ny2. apply Ag; [right|exact Ny1|exact Ny2]. destruct Y as [Y|Y]; [apply S1, Cc; exact Y|apply S2, S4; exact Y].
    - exact Re'.
    - intros y Y [Z|Z]; apply Df; try exact Y; right; [apply S1, Cc; exact Z|apply S2, S4; exact Z]. }
  destruct Rn as ((_&Rn)&Rc2).
  assert (AgF1 : agree m m' F1).
  { intros y Y. apply Ag; [right; apply S2, S3; exact Y| |].
    + intros Z. destruct (Ecell y Z) as [Q|Q]; [eapply Dh; [apply Cc; exact Q|apply S3; exact Y]|eapply D12; eassumption].
    + intros Z. eapply D12; [exact Y|apply Sf; exact Z]. }
  split; [exact Hhd|]. split; [exact Rdr|]. split; [|split; [exact DjH|split; [|split; [exact Rc2|]]]].
  - assert (Kf : flds m' ts (update vs i (put v path u)) a (union F1 (union F2 Fs'))).
    { apply K; [exact AgF1| |exact Rn|].
      - intros y Y N. apply Hhd; [apply Sh; unfold between; lia|exact N].
      - intros y Y [Z|Z]; [eapply D12; eassumption|]. eapply D12; [exact Y|]. apply Sf. apply Df; [exact Z|right; apply S2, S3; exact Y]. }
    unfold flds in *. eapply fields_mono; [|exact Kf]. intros y [Y|[Y|Y]]; [left; apply S3; exact Y|left; apply S4; exact Y|right; exact Y].
  - intros y Y [Z|Z]; [eapply Dr; eassumption|]. apply (Dr y Y). apply S2, S4, Sf. apply Df; [exact Z|left; exact Y].
  - intros j tj vj path2 t2 v2 Nj Tj Vj P2. assert (Lj : (j < List.length ts)%nat) by (apply nth_error_Some; congruence).
    assert (Cj : sub (cell (a + 4 * Z.of_nat j)) Hd) by (intros y Y; apply Sh; unfold cell, between in *; lia).
    apply (cell_of_agree tj vj path2 t2 v2 P2 m m' _ F1).
    + split; [intros y Y Z; eapply Dh; [apply Cj; exact Y|apply S3; exact Z]|apply (Ot j tj vj Nj Tj Vj)].
    + intros y [Y|Y]; [apply Hhd; [apply Cj; exact Y|]|apply AgF1; exact Y]. unfold c, cell, between in *. assert (Z.of_nat i <> Z.of_nat j) by lia. lia.
Qed.

Lemma nth_update_same : forall (A : Type) (l : list A) i x y, nth_error l i = Some y -> nth_error (update l i x) i = Some x.
Proof. induction l as [|z l IH]; intros [|i] x y H; cbn [update nth_error] in *; try discriminate; eauto. Qed.
Lemma nth_update_other : forall (A : Type) (l : list A) i j x, i <> j -> nth_error (update l i x) j = nth_error l j.
Proof. induction l as [|z l IH]; intros [|i] [|j] x H; cbn [update nth_error]; try congruence; auto. Qed.
Lemma not_beyond_cons : forall i p q, ~ beyond (i :: p) (i :: q) -> ~ beyond p q.
Proof. intros i p q H (j&p'&->). apply H. exists j, p'. reflexivity. Qed.

Ltac same_nth := repeat match goal with H1 : nth_error ?l ?k = Some _, H2 : nth_error ?l ?k = Some _ |- _ => rewrite H1 in H2; injection H2 as H2; subst end.
Ltac others_tac i P2 Nb Ex Hv Ha Hb :=
  let j := fresh "j" in let Tj := fresh in let Vj := fresh in let Pj := fresh in let Nj := fresh in let Sj := fresh in
  inversion P2 as [|? ? ? ? j ? ? ? ? ? Tj Vj Pj|? ? ? ? j ? ? ? ? ? Sj Tj Vj Pj|? ? j ? ? ? ? Sj Vj Pj]; subst; [reflexivity|];
  cbn [cell_of]; rewrite Ex; destruct (Nat.eq_dec j i) as [->|Nj];
  [rewrite (nth_update_same _ _ _ _ _ Hv), Hv; eapply Ha; [|eapply not_beyond_cons; exact Nb]; same_nth; eassumption
  |rewrite (nth_update_other _ _ i j _ ltac:(congruence)), Vj; same_nth;
   eapply Hb; [exact Nj|first [eassumption|apply (map_nth_error _ _ _ Vj)]|exact Vj|exact Pj]].

Lemma focus : forall t v path t' v', part t v path t' v' -> forall m r F, refm m t r v F -> focused m t r v F path t' v'.
Proof.
  intros t v path t' v' P. induction P as [t v|k fs o vs i t v path t' v' Ht Hv P IH|vts g fs vs i t v path t' v' Hg Ht Hv P IH|t vs i v path t' v' Hs Hv P IH]; intros m r F (Dr&R).
  - exists F. cbn [cell_of put]. split; [split; assumption|]. split; [apply sub_refl|]. split; [left; reflexivity|].
    intros m' u Fs' Ag (D'&R') Df. split; [|intros [|j path2] t2 v2 _ Nb; [reflexivity|exfalso; apply Nb; exists j, path2; reflexivity]]. split; [intros y Y [Z|Z]; [eapply Dr; eassumption|eapply D'; eassumption]|].
    eapply field_of_mono; [|exact R']. intros y Y. right. exact Y.
  - unfold field_of in R. cbn [is_stack vrep] in R. destruct R as (o'&vs'&G&E&Ho&Sh&Sg&Dj&Hf). injection E as <- <-. fold (flds m fs vs (load 4 m r) G) in Hf.
    set (x := load 4 m r) in *. set (Hd := between (if k then x - 32 else x) (x + 4 * Z.of_nat (List.length fs))) in *.
    assert (Shd : sub (between x (x + 4 * Z.of_nat (List.length fs))) Hd) by (apply between_sub; destruct k; lia).
    destruct (focus_step m fs vs x G i t v r F Hd path t' v' Hf Ht Hv Shd Dj Sh Sg Dr IH) as (Fs&Re&Sf&Ce&W).
    unfold focused. cbn [cell_of put]. rewrite Hv. fold x. exists Fs. split; [exact Re|]. split; [exact Sf|]. split; [right; exact Ce|].
    intros m' u Fs' Ag Re' Df. destruct (W m' u Fs' Ag Re' Df) as (Hhd&Hr&Hfl&Dj'&Dr'&Ha&Hb).
    assert (Ex : load 4 m' r = x) by (apply load_ext; intros y Hy; apply Hr; unfold cell, between; lia).
    split; [split; [exact Dr'|]|intros path2 t2 v2 P2 Nb; others_tac i P2 Nb Ex Hv Ha Hb].
    unfold field_of. cbn [is_stack vrep]. rewrite Ex. exists o, (update vs i (put v path u)), (union G Fs'). split; [reflexivity|].
    fold Hd. split; [|split; [intros y Y; left; apply Sh; exact Y|split; [intros y [Y|Y]; [left; apply Sg; exact Y|right; exact Y]|split; [exact Dj'|exact Hfl]]]].
    destruct k; [|exact Ho]. rewrite Ho. symmetry. apply load_be_ext. intros y Hy. apply Hhd; [unfold Hd, between; lia|unfold cell, between; lia].
  - unfold field_of in R. cbn [is_stack vrep] in R. destruct R as (g'&vs'&G&E&Hg'&Sh&Sg&Dj&Hf). injection E as <- <-.
    set (x := load 4 m r) in *. destruct (nth_error _ g) as [Rs|] eqn:N in Hf; [|contradiction].
    rewrite (map_nth_error _ _ _ Hg) in N. injection N as <-. pose proof Hg as N1.
    fold (flds m fs vs (x + 4) G) in Hf. pose proof (enum_size_ge _ _ _ N1) as SZ.
    set (Hd := between x (x + enum_size vts)) in *.
    assert (Shd : sub (between (x + 4) (x + 4 + 4 * Z.of_nat (List.length fs))) Hd) by (apply between_sub; lia).
    destruct (focus_step m fs vs (x + 4) G i t v r F Hd path t' v' Hf Ht Hv Shd Dj Sh Sg Dr IH) as (Fs&Re&Sf&Ce&W).
    unfold focused. cbn [cell_of put]. rewrite Hv. fold x. exists Fs. split; [exact Re|]. split; [exact Sf|]. split; [right; exact Ce|].
    intros m' u Fs' Ag Re' Df. destruct (W m' u Fs' Ag Re' Df) as (Hhd&Hr&Hfl&Dj'&Dr'&Ha&Hb).
    assert (Ex : load 4 m' r = x) by (apply load_ext; intros y Hy; apply Hr; unfold cell, between; lia).
    split; [split; [exact Dr'|]|intros path2 t2 v2 P2 Nb; others_tac i P2 Nb Ex Hv Ha Hb].
    unfold field_of. cbn [is_stack vrep]. rewrite Ex. exists g, (update vs i (put v path u)), (union G Fs'). split; [reflexivity|].
    fold Hd. split; [rewrite <- Hg'; apply load_ext; intros y Hy; apply Hhd; [unfold Hd, between; lia|unfold cell, between; lia]|].
    split; [intros y Y; left; apply Sh; exact Y|split; [intros y [Y|Y]; [left; apply Sg; exact Y|right; exact Y]|split; [exact Dj'|]]].
    rewrite (map_nth_error (fun fs0 => map (fun t0 => field_of m' t0 (vrep m' t0)) fs0) _ _ N1). exact Hfl.
  - unfold field_of in R. cbn [is_stack vrep] in R. destruct R as (vs'&cap&G&E&Hl&Hc&Lc&Bc&Sh&Sg&Dj&Hf). injection E as <-.
    assert (Es : esize t = 4%nat) by (destruct t; try discriminate; reflexivity). rewrite Es in *.
    apply elems_flds in Hf; [|exact Hs]. set (x := load 4 m r) in *. set (Hd := between x (x + 8 + cap * Z.of_nat 4)) in *.
    set (ts := map (fun _ : val => t) vs) in *. assert (Lt : List.length ts = List.length vs) by apply map_length.
    assert (Ht : nth_error ts i = Some t) by (unfold ts; rewrite (map_nth_error _ _ _ Hv); reflexivity).
    assert (Shd : sub (between (x + 8) (x + 8 + 4 * Z.of_nat (List.length ts))) Hd) by (apply between_sub; rewrite ?Lt; lia).
    destruct (focus_step m ts vs (x + 8) G i t v r F Hd path t' v' Hf Ht Hv Shd Dj Sh Sg Dr IH) as (Fs&Re&Sf&Ce&W).
    unfold focused. cbn [cell_of put]. rewrite Hv. fold x. exists Fs. split; [exact Re|]. split; [exact Sf|]. split; [right; exact Ce|].
    intros m' u Fs' Ag Re' Df. destruct (W m' u Fs' Ag Re' Df) as (Hhd&Hr&Hfl&Dj'&Dr'&Ha&Hb).
    assert (Ex : load 4 m' r = x) by (apply load_ext; intros y Hy; apply Hr; unfold cell, between; lia).
    split; [split; [exact Dr'|]|intros path2 t2 v2 P2 Nb; others_tac i P2 Nb Ex Hv Ha Hb].
    unfold field_of. cbn [is_stack vrep]. rewrite Ex, Es. exists (update vs i (put v path u)), cap, (union G Fs'). split; [reflexivity|]. rewrite update_length.
    split; [rewrite <- Hl; apply load_ext; intros y Hy; apply Hhd; [unfold Hd, between; lia|unfold cell, between; lia]|].
    split; [rewrite <- Hc; apply load_ext; intros y Hy; apply Hhd; [unfold Hd, between; lia|unfold cell, between; lia]|].
    split; [exact Lc|]. split; [exact Bc|]. fold Hd.
    split; [intros y Y; left; apply Sh; exact Y|split; [intros y [Y|Y]; [left; apply Sg; exact Y|right; exact Y]|split; [exact Dj'|]]].
    apply elems_flds; [exact Hs|]. replace (map (fun _ => t) (update vs i (put v path u))) with ts; [exact Hfl|].
    unfold ts. clear. revert i. induction vs as [|y l IH]; intros [|i]; cbn [update map]; f_equal; auto.
Qed.

(** ** Paths *)

Lemma part_app : forall t v p t1 v1, part t v p t1 v1 -> forall q t2 v2, part t1 v1 q t2 v2 -> part t v (p ++ q) t2 v2.
Proof.
  intros t v p t1 v1 P. induction P; intros q t2 v2 P2; cbn [app]; [exact P2| | |].
  - eapply part_field; eauto.
  - eapply part_variant; eauto.
  - eapply part_elem; eauto.
Qed.

Lemma cell_of_app : forall t v p t1 v1, part t v p t1 v1 -> forall q m r, cell_of m v (p ++ q) r = cell_of m v1 q (cell_of m v p r).
Proof. intros t v p t1 v1 P. induction P; intros q m r; cbn [app cell_of]; [reflexivity| | |]; rewrite ?H0, ?H1; apply IHP. Qed.

Lemma ref_refm : forall w t r v F, ref_to w t r v F -> refm (mem w) t r v F /\ sub (cell r) (heap w) /\ sub F (heap w).
Proof. intros w t r v F (A&B&C&D). split; [split; assumption|split; assumption]. Qed.

Lemma cell_heap : forall w r, wok w -> sub (cell r) (heap w) -> 468 <= r /\ r + 4 <= gnext w /\ gnext w < 4294967296.
Proof. intros w r (P1&P2&P3&P4&P5&P6) S. destruct (sub_block r (r + 4) 468 (gnext w) S ltac:(lia)). lia. Qed.

(** The reference to a part is a reference. *)
Lemma ref_part : forall w t r v F path t' v', ref_to w t r v F -> part t v path t' v' ->
  exists Fs, ref_to w t' (cell_of (mem w) v path r) v' Fs /\ sub Fs F.
Proof.
  intros w t r v F path t' v' R P. destruct (ref_refm _ _ _ _ _ R) as (Rm&C&S).
  destruct (focus _ _ _ _ _ P _ _ _ Rm) as (Fs&(D&R')&S'&E&_). exists Fs. split; [|exact S']. split; [|split; [exact D|split; [|exact R']]].
  - destruct E as [->|E]; [exact C|intros y Y; apply S, E; exact Y].
  - intros y Y. apply S, S'. exact Y.
Qed.

(** ** Reading *)

Lemma stack_field : forall w t q v F, is_stack t = true -> field_of (mem w) t (vrep (mem w) t) v q F -> sub F (heap w) ->
  int_val t v (load (esize t) (mem w) q) /\ 468 <= q /\ q + Z.of_nat (esize t) <= gnext w.
Proof.
  intros w t q v F St R S. unfold field_of in R. rewrite St in R. destruct R as (S1&I). split; [exact I|].
  apply (sub_live _ _ _ _ S1 S). destruct t; cbn; lia.
Qed.

Lemma vrep_stack : forall m t v x F, is_stack t = true -> vrep m t v x F <-> int_val t v x.
Proof. intros m t v x F H. destruct t; try discriminate; cbn [vrep]; tauto. Qed.

Definition rsize (t : ty) (v : val) : Z := if is_stack t then 0 else csize t v.

Lemma wp_read_ref : forall ep t e v F r (Q : outcome -> Prop) s l w, wf_ty t -> wok w -> ref_to w t e v F ->
  (is_stack t = false -> ctrap w (has_small t) (csize t v) -> Q OTrap) ->
  (forall x w', extends w w' -> gnext w' = gnext w + rsize t v -> vrep (mem w') t v x (between (gnext w) (gnext w')) -> 0 <= x < 256 ^ Z.of_nat (esize t) ->
     wp r Q (x :: s) l w') ->
  wp (read_ref ep t ++ r) Q (e :: s) l w.
Proof.
  intros ep t e v F r Q s l w Wt Hw (C&D&S&R) T K. unfold read_ref. rewrite <- app_assoc. cbn [app].
  destruct (cell_heap w e Hw C) as (B1&B2&B3). pose proof Hw as (P1&P2&P3&P4&P5&P6).
  eapply wp_load; [lia|unfold page_size; lia|]. rewrite Z.add_0_r. unfold rsize in *. destruct (is_stack t) eqn:St.
  - destruct (stack_field w t _ v F St R S) as (I&L1&L2). cbn [app]. eapply wp_load; [lia|unfold page_size; lia|]. rewrite Z.add_0_r.
    apply K; [apply extends_refl; exact Hw|lia|apply vrep_stack; [exact St|exact I]|apply load_range].
  - unfold field_of in R. rewrite St in R. eapply copy_all; [exact St|exact Wt|exact Hw|exact R|exact S|apply T; reflexivity|].
    intros p' w' E G L V. apply K; auto. assert (Es : esize t = 4%nat) by (destruct t; try discriminate; reflexivity). rewrite Es.
    destruct E as ((W1&W2&W3&W4&W5&W6)&_). lia.
Qed.

(** ** Writing *)

Lemma wp_copy_words : forall n p v off r (Q : outcome -> Prop) s l w q x, nth_error l p = Some q -> nth_error l v = Some x ->
  0 <= off -> 0 <= q -> 0 <= x -> q + off + Z.of_nat (8 * n) < 4294967296 -> x + off + Z.of_nat (8 * n) < 4294967296 ->
  q + off + Z.of_nat (8 * n) <= page_size * pages w -> x + off + Z.of_nat (8 * n) <= page_size * pages w ->
  disj (within (q + off) (Z.of_nat (8 * n))) (within (x + off) (Z.of_nat (8 * n))) ->
  (forall m', (forall y, ~ within (q + off) (Z.of_nat (8 * n)) y -> rd m' y = rd (mem w) y) ->
     (forall i, 0 <= i < Z.of_nat (8 * n) -> rd m' (q + off + i) = rd (mem w) (x + off + i)) -> wp r Q s l (set_mem w m')) ->
  wp (copy_words p v n off ++ r) Q s l w.
Proof.
  induction n as [|n IH]; intros p v off r Q s l w q x Hp Hv O1 O2 O3 B1 B2 I1 I2 D K.
  - cbn [copy_words app]. replace w with (set_mem w (mem w)) by (destruct w; reflexivity). apply K; [reflexivity|]. intros. lia.
  - replace (Z.of_nat (8 * S n)) with (8 + Z.of_nat (8 * n)) in * by lia. cbn [copy_words app].
    eapply wp_lget; [exact Hp|]. ws1. ws1. eapply wp_lget; [exact Hv|]. ws1. ws1.
    eapply wp_load; [lia|lia|]. rewrite ?Z.add_0_r. eapply wp_store; [lia|lia|]. rewrite ?Z.add_0_r. change (Z.of_nat 8) with 8.
    set (m1 := store 8 (mem w) (q + off) (load 8 (mem w) (x + off))).
    assert (Hin : forall i, 0 <= i < 8 -> rd m1 (q + off + i) = rd (mem w) (x + off + i)).
    { intros i Hi. unfold m1. rewrite rd_store_in by lia. rewrite (load_byte 8 _ (x + off) i) by lia. f_equal. f_equal. f_equal. lia. }
    assert (Hout : forall y, ~ within (q + off) 8 y -> rd m1 y = rd (mem w) y).
    { intros y Hy. unfold m1, within in *. rewrite rd_store_out by lia. reflexivity. }
    eapply IH; [exact Hp|exact Hv|lia|lia|lia|lia|lia|cbn [pages set_mem]; lia|cbn [pages set_mem]; lia| |].
    { intros y Y Z. apply (D y); unfold within in *; lia. }
    cbn [mem set_mem]. intros m' U V. change (set_mem (set_mem w m1) m') with (set_mem w m'). apply K.
    + intros y Hy. rewrite U by (unfold within in *; lia). apply Hout. unfold within in *. lia.
    + intros i Hi. destruct (Z_lt_dec i 8) as [Li|Li].
      * rewrite U by (unfold within; lia). apply Hin. lia.
      * replace (q + off + i) with (q + (off + 8) + (i - 8)) by lia. rewrite V by lia.
        replace (x + (off + 8) + (i - 8)) with (x + off + i) by lia. apply Hout. intros Hy.
        apply (D (x + off + i)); unfold within in *; lia.
Qed.

Lemma wp_write_ref : forall t p v e u0 F u x Fx r (Q : outcome -> Prop) s l w, p <> v -> (p < List.length l)%nat -> (v < List.length l)%nat ->
  wok w -> ref_to w t e u0 F -> owns w t u x Fx -> 0 <= x < 256 ^ Z.of_nat (esize t) -> disj (cell e) Fx -> disj F Fx ->
  (forall m' F' l', List.length l' = List.length l -> (forall k, k <> p -> k <> v -> nth_error l' k = nth_error l k) ->
     (forall y, ~ cell e y -> ~ F y -> rd m' y = rd (mem w) y) -> refm m' t e u F' -> sub F' (union F Fx) -> wp r Q s l' (set_mem w m')) ->
  wp (write_ref t p v ++ r) Q (e :: x :: s) l w.
Proof.
  intros t p v e u0 F u x Fx r Q s l w Npv Lp Lv Hw (C&D&S&R) (V&SV) Rx DC DF K.
  destruct (cell_heap w e Hw C) as (B1&B2&B3). pose proof Hw as (P1&P2&P3&P4&P5&P6).
  assert (Locals : forall a b, let l' := set_nth v b (set_nth p a l) in List.length l' = List.length l /\ (forall k, k <> p -> k <> v -> nth_error l' k = nth_error l k) /\
    nth_error l' p = Some a /\ nth_error l' v = Some b).
  { intros a b l'. unfold l'. rewrite !set_nth_length. split; [reflexivity|]. split; [intros k K1 K2; rewrite !set_nth_other by congruence; reflexivity|].
    split; [rewrite set_nth_other by congruence; apply set_nth_same; exact Lp|apply set_nth_same; rewrite set_nth_length; exact Lv]. }
  destruct (is_stack t) eqn:St; [|destruct (match t with TU128 | TU256 | TAddress => true | _ => false end) eqn:Ti].
  - destruct (stack_field w t _ u0 F St R S) as (I&L1&L2). apply vrep_stack in V; [|exact St]. set (q := load 4 (mem w) e) in *.
    assert (Ew : write_ref t p v = [ Load 4 0; LocalSet p; LocalSet v; LocalGet p; LocalGet v; Store (esize t) 0 ]) by (destruct t; try discriminate; reflexivity).
    rewrite Ew. cbn [app]. eapply wp_load; [lia|unfold page_size; lia|]. rewrite Z.add_0_r. fold q. apply wp_lset'; [exact Lp|]. apply wp_lset'; [rewrite set_nth_length; exact Lv|].
    destruct (Locals q x) as (N1&N2&N3&N4). eapply wp_lget; [exact N3|]. eapply wp_lget; [exact N4|].
    assert (Sq : (0 < Z.of_nat (esize t))) by (destruct t; cbn; lia).
    eapply wp_store; [lia|unfold page_size; lia|]. rewrite Z.add_0_r. set (m' := store (Z.of_nat (esize t)) (mem w) q x).
    unfold field_of in R. rewrite St in R. destruct R as (S1&_).
    assert (Hout : forall y, ~ F y -> rd m' y = rd (mem w) y).
    { intros y Ny. unfold m'. apply rd_store_out. destruct (Z_lt_dec y q); [lia|]. destruct (Z_lt_dec y (q + Z.of_nat (esize t))); [|lia]. exfalso. apply Ny, S1. unfold between. lia. }
    apply (K m' F); [exact N1|exact N2|intros y _ Ny; apply Hout; exact Ny| |intros y Y; left; exact Y].
    split; [exact D|]. assert (Eq : load 4 m' e = q). { apply load_ext. intros i Hi. apply Hout. intros Fy. apply (D (e + i)); [unfold cell, between; lia|exact Fy]. }
    rewrite Eq. unfold field_of. rewrite St. split; [exact S1|]. unfold m'. rewrite load_store_same, Z.mod_small by exact Rx. exact V.
  - set (q := load 4 (mem w) e) in *. unfold field_of in R. rewrite St in R.
    set (n := match t with TU128 => 2%nat | _ => 4%nat end).
    assert (Ew : write_ref t p v = [ Load 4 0; LocalSet p; LocalSet v ] ++ copy_words p v n 0) by (destruct t; try discriminate; reflexivity).
    assert (S1 : sub (between q (q + Z.of_nat (8 * n))) F) by (destruct t; try discriminate; destruct R as (_&R); exact R).
    assert (S2 : sub (between x (x + Z.of_nat (8 * n))) Fx) by (destruct t; try discriminate; destruct V as (_&V); exact V).
    assert (Hn : 0 < Z.of_nat (8 * n)) by (unfold n; destruct t; lia).
    destruct (sub_live _ _ _ _ S1 S Hn) as (L1&L2). destruct (sub_live _ _ _ _ S2 SV Hn) as (L3&L4).
    rewrite Ew, <- app_assoc. cbn [app]. eapply wp_load; [lia|unfold page_size; lia|]. rewrite Z.add_0_r. fold q. apply wp_lset'; [exact Lp|]. apply wp_lset'; [rewrite set_nth_length; exact Lv|].
    destruct (Locals q x) as (N1&N2&N3&N4). eapply wp_copy_words; [exact N3|exact N4|lia|lia|lia|lia|lia|unfold page_size; lia|unfold page_size; lia| |].
    { intros y Y Z. apply (DF y); [apply S1|apply S2]; unfold within, between in *; lia. }
    intros m' U W. assert (Hout : forall y, ~ F y -> rd m' y = rd (mem w) y).
    { intros y Ny. apply U. intros Y. apply Ny, S1. unfold within, between in *. lia. }
    apply (K m' F); [exact N1|exact N2|intros y _ Ny; apply Hout; exact Ny| |intros y Y; left; exact Y].
    split; [exact D|]. assert (Eq : load 4 m' e = q). { apply load_ext. intros i Hi. apply Hout. intros Fy. apply (D (e + i)); [unfold cell, between; lia|exact Fy]. }
    assert (W' : forall i, 0 <= i < Z.of_nat (8 * n) -> rd m' (q + i) = rd (mem w) (x + i)) by (intros i Hi; specialize (W i Hi); rewrite !Z.add_0_r in W; exact W).
    rewrite Eq. unfold field_of. rewrite St. unfold n in *. clear - W' V S1 Ti. destruct t; try discriminate; cbn [vrep] in *; destruct V as (V&_); (split; [|exact S1]);
      (erewrite load_ext || erewrite load_be_ext); [exact V|exact W'|exact V|exact W'|exact V|exact W'].
  - assert (Ew : write_ref t p v = [ LocalSet p; LocalSet v; LocalGet p; LocalGet v; Store 4 0 ]) by (destruct t; try discriminate; reflexivity).
    rewrite Ew. cbn [app]. apply wp_lset'; [exact Lp|]. apply wp_lset'; [rewrite set_nth_length; exact Lv|].
    destruct (Locals e x) as (N1&N2&N3&N4). eapply wp_lget; [exact N3|]. eapply wp_lget; [exact N4|].
    eapply wp_store; [lia|unfold page_size; lia|]. rewrite Z.add_0_r. change (Z.of_nat 4) with 4. set (m' := store 4 (mem w) e x).
    assert (Hout : forall y, ~ cell e y -> rd m' y = rd (mem w) y).
    { intros y Ny. unfold m', cell, between in *. apply rd_store_out. lia. }
    apply (K m' Fx); [exact N1|exact N2|intros y Ny _; apply Hout; exact Ny| |intros y Y; right; exact Y].
    split; [exact DC|]. assert (Es : esize t = 4%nat) by (destruct t; try discriminate; reflexivity). rewrite Es in Rx.
    assert (Eq : load 4 m' e = x) by (unfold m'; rewrite load_4_store; apply w32_small; exact Rx).
    rewrite Eq. unfold field_of. rewrite St. eapply vrep_ext; [|exact V]. intros y Y. apply Hout. intros Z. eapply DC; eassumption.
Qed.
