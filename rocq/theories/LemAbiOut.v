(** * Results in the published ABI: proofs. *)

From Verif Require Import SpecInt Spec Tac RtErr Comp SpecVal SpecAbi SpecSol AbiGen SpecAbiGen LemAbiGen AbiOut SpecAbiOut.
From Coq Require Import String Ascii.
Ltac Zify.zify_post_hook ::= idtac.

Lemma tuple_one : forall e, tuple [(false, e)] = e.
Proof. intros e. unfold tuple, tails. cbn [heads map List.concat fst snd]. rewrite !app_nil_r. reflexivity. Qed.
Lemma zip_cons : forall (A B : Type) (f : A -> B) fs v vs, zip_with (fun f v => f v) (f :: fs) (v :: vs) = f v :: zip_with (fun f v => f v) fs vs.
Proof. reflexivity. Qed.
Lemma fields_nil : forall fs, zip_with (fun (f : val -> SpecSol.part) v => f v) fs [] = [].
Proof. intros [|]; reflexivity. Qed.

(** One word. *)
Lemma word_struct : forall v, has_aty (AStruct [AInt TU256]) v -> exists x, v = VStruct 0 [VInt x] /\ enc (AStruct [AInt TU256]) v = word x.
Proof.
  intros v (vs&->&A). cbn [map all_fields] in A. destruct vs as [|x [|y vs]]; [destruct A| |destruct A as (_&[])].
  destruct A as ((n&->&_)&_). exists n. split; [reflexivity|]. cbn [enc map zip_with dynamic]. apply tuple_one.
Qed.
Lemma word_struct2 : forall v, has_aty (AStruct [AStruct [AInt TU256]]) v -> exists x, v = VStruct 0 [VStruct 0 [VInt x]] /\ enc (AStruct [AStruct [AInt TU256]]) v = word x.
Proof.
  intros v (vs&->&A). cbn [map all_fields] in A. destruct vs as [|x [|y vs]]; [destruct A| |destruct A as (_&[])].
  destruct A as (A&_). destruct (word_struct x A) as (n&->&E). exists n. split; [reflexivity|]. change (tuple [(false, enc (AStruct [AInt TU256]) (VStruct 0 [VInt n]))] = word n). rewrite tuple_one. exact E.
Qed.

(** What the contract writes for a value and what a caller reads. *)
Definition agree (t : mty) (b : aty) : Prop := forall a, packs t a -> dynamic a = dynamic b /\ forall v, has_aty a v -> enc a v = enc b (sees t v).

Lemma fields_agree : forall fs bs, Forall2 agree fs bs -> forall l, Forall2 packs fs l -> existsb dynamic l = existsb dynamic bs /\
  forall vs, all_fields (map has_aty l) vs -> field_parts l vs = field_parts bs (sees_all fs vs).
Proof.
  intros fs bs F. induction F as [|f b fs bs A F IH]; intros l P; inversion P as [|x y ? l' Hp P']; subst; [split; [reflexivity|intros vs _; reflexivity]|].
  destruct (A _ Hp) as (D&E). destruct (IH _ P') as (Ds&Es). split; [cbn [existsb]; rewrite D, Ds; reflexivity|].
  intros [|v vs] T; [destruct T|]. cbn [map all_fields] in T. destruct T as (Tv&Tvs). unfold field_parts, sees_all in *. cbn [map zip_with]. rewrite D, (E v Tv), (Es vs Tvs). reflexivity.
Qed.

Lemma output_ok : forall structs n t j, plain_type t -> right_structs structs (fun x => part x t) -> encode_json n structs (gof t) = Some j ->
  exists b, reads j b /\ agree t b.
Proof.
  intros structs n. induction n as [|n IH]; intros t j V R E; [discriminate|].
  destruct V as [p| | | | |i V|m nm a fs F|m nm g]; cbn [gof encode_json] in E.
  - injection E as <-. exists (AInt (prim_ty p)). split; [apply rd_prim|]. intros a Pa. inversion Pa; subst. split; [reflexivity|]. intros v H. reflexivity.
  - injection E as <-. exists AString. split; [apply rd_string|]. intros a Pa. inversion Pa; subst. split; [reflexivity|]. intros v H. reflexivity.
  - injection E as <-. exists (AInt TU256). split; [apply rd_word|]. intros a Pa. inversion Pa; subst. split; [reflexivity|]. intros v H. destruct (word_struct v H) as (x&->&->). reflexivity.
  - injection E as <-. exists (AInt TU256). split; [apply rd_word|]. intros a Pa. inversion Pa; subst. split; [reflexivity|]. intros v H. destruct (word_struct2 v H) as (x&->&->). reflexivity.
  - injection E as <-. exists (AInt TU256). split; [apply rd_word|]. intros a Pa. inversion Pa; subst. split; [reflexivity|]. intros v H. destruct (word_struct2 v H) as (x&->&->). reflexivity.
  - destruct (encode_json n structs (gof i)) as [[s c]|] eqn:Ei; [|discriminate]. injection E as <-.
    destruct (IH i (JTy s c) V) as (b&Rb&Ab); [intros t x U; apply R; apply part_vec; exact U|exact Ei|]. exists (AVec b). split; [apply rd_array; exact Rb|].
    intros a Pa. inversion Pa as [| | | | |? a' Pi| | |]; subst. destruct (Ab _ Pi) as (D&En). split; [reflexivity|]. intros v (vs&->&H). cbn [enc sees]. rewrite map_length. f_equal. f_equal. rewrite map_map.
    apply map_ext_in. intros x Ix. rewrite D, En; [reflexivity|]. rewrite Forall_forall in H. apply H. exact Ix.
  - match type of E with context [find ?q ?l] => destruct (find q l) as [e|] eqn:Ef end; [|discriminate]. apply find_name in Ef. destruct Ef as (I&Ef).
    assert (Ee : e = entry_of (MStruct m nm false a fs)) by (apply R; [constructor|reflexivity|exact I|exact Ef]). subst e. cbn [entry_of snd fields_of] in E.
    destruct (all_some _) as [cs|] eqn:Ea; [|discriminate]. injection E as <-. rewrite map_map in Ea. apply all_some_ok in Ea.
    assert (G : exists bs, Forall2 reads cs bs /\ Forall2 agree fs bs).
    { assert (Rf : forall f, In f fs -> right_structs structs (fun x => part x f)) by (intros f If t x U; apply R; eapply part_field; eassumption).
      clear - IH F Ea Rf. induction Ea as [|f j fs cs Ej Ea IHe]; [exists []; split; constructor|]. inversion F; subst.
      destruct (IH f j) as (b&Rb&Ab); [assumption|apply Rf; left; reflexivity|exact Ej|]. destruct IHe as (bs&Rbs&Abs); [assumption|intros g Ig; apply Rf; right; exact Ig|].
      exists (b :: bs). split; constructor; assumption. }
    destruct G as (bs&Rbs&Abs). exists (AStruct bs). split; [apply rd_tuple; exact Rbs|]. intros u Pu. inversion Pu; subst.
    match goal with P : Forall2 packs fs ?l |- _ => destruct (fields_agree fs bs Abs l P) as (D&En) end. split; [exact D|]. intros v (vs&->&H). cbn [enc sees]. f_equal. apply En. exact H.
  - injection E as <-. exists (AInt (prim_ty PU8)). split; [exact (rd_prim PU8)|]. intros a Pa. inversion Pa; subst. split; [reflexivity|]. intros v (tag&->&_). reflexivity.
Qed.

Lemma plain_shown : forall t, plain_type t -> hidden (gof t) = false.
Proof. intros t P. destruct P; reflexivity. Qed.
Lemma gof_bare : forall t, gof t = gof (bare t).
Proof. intros t. destruct t; reflexivity. Qed.
Lemma agree_bare : forall t b, agree (bare t) b -> agree t b.
Proof. intros t b A. destruct t; try exact A. cbn [bare] in A. intros a Pa. inversion Pa; subst. exact (A _ H0). Qed.

Lemma results_read : forall n roots structs P ts js, process_structs roots [] structs P -> Forall (fun t => to_process t = true) roots ->
  named_apart (roots ++ ts) -> Forall (fun t => plain_type (bare t)) ts -> json_outputs n structs ts = Some js ->
  exists bs, Forall2 reads js bs /\ forall l vs, Forall2 packs ts l -> all_fields (map has_aty l) vs -> enc_args l vs = enc_args bs (sees_all ts vs).
Proof.
  intros n roots structs P ts js H Fr A F E. pose proof (structs_right roots structs P ts H Fr A) as R.
  assert (Fl : filter (fun g => negb (hidden g)) (map gof ts) = map gof ts).
  { clear - F. induction F as [|t ts Ft F IH]; [reflexivity|]. cbn [map filter]. rewrite gof_bare, (plain_shown _ Ft). cbn [negb]. rewrite IH. reflexivity. }
  unfold json_outputs, json_inputs in E. rewrite Fl, map_map in E. apply all_some_ok in E.
  assert (G : exists bs, Forall2 reads js bs /\ Forall2 agree ts bs).
  { assert (Rt : forall t, In t ts -> right_structs structs (fun x => part x (bare t))) by (intros t It x s Q; apply R; exists t; split; [exact It|apply part_bare; exact Q]).
    clear - E F Rt. induction E as [|t j ts js Ej E IH]; [exists []; split; constructor|]. inversion F; subst. rewrite gof_bare in Ej.
    destruct (output_ok structs n (bare t) j) as (b&Rb&Ab); [assumption|apply Rt; left; reflexivity|exact Ej|]. destruct IH as (bs&Rbs&Abs); [assumption|intros u Iu; apply Rt; right; exact Iu|].
    exists (b :: bs). split; constructor; auto. apply agree_bare. exact Ab. }
  destruct G as (bs&Rb&Ab). exists bs. split; [exact Rb|]. intros l vs Pl T. unfold enc_args. f_equal. apply (fields_agree ts bs Ab l Pl). exact T.
Qed.

(** A type in JSON has one reading. *)
Definition reads_ind' (P : jty -> aty -> Prop) (H1 : forall p, P (JTy (prim_name p) None) (AInt (prim_ty p))) (H2 : P (JTy (text "bytes32") None) (AInt TU256))
  (H3 : P (JTy (text "string") None) AString) (H4 : forall s c t, reads (JTy s c) t -> P (JTy s c) t -> P (JTy (array_of s) c) (AVec t))
  (H5 : forall cs l, Forall2 reads cs l -> Forall2 P cs l -> P (JTy (text "tuple") (Some cs)) (AStruct l)) : forall j t, reads j t -> P j t :=
  fix ind j t H := match H in reads j t return P j t with
    | rd_prim p => H1 p | rd_word => H2 | rd_string => H3 | rd_array s c t X => H4 s c t X (ind _ _ X)
    | rd_tuple cs l F => H5 cs l F ((fix go cs l (F : Forall2 reads cs l) : Forall2 P cs l := match F in Forall2 _ cs l return Forall2 P cs l with
        | Forall2_nil _ => Forall2_nil P | Forall2_cons j t X F' => Forall2_cons j t (ind _ _ X) (go _ _ F') end) cs l F)
    end.
Lemma array_last : forall s, List.last (array_of s) 0 = 93.
Proof. intros s. unfold array_of. change (text "[]") with ([91] ++ [93]). rewrite app_assoc. apply List.last_last. Qed.
Lemma not_array : forall s u, u = array_of s -> List.last u 0 <> 93 -> False.
Proof. intros s u -> N. apply N, array_last. Qed.
Lemma prim_apart : forall p q, prim_name p = prim_name q -> p = q.
Proof. intros [] [] E; try reflexivity; discriminate E. Qed.
Ltac no_array := match goal with E : ?u = array_of ?s |- _ => exfalso; apply (not_array s u E); vm_compute; discriminate | E : array_of ?s = ?u |- _ => exfalso; apply (not_array s u (eq_sym E)); vm_compute; discriminate end.
Definition jname (j : jty) : list Z := match j with JTy s _ => s end.
Definition jcomps (j : jty) : option (list jty) := match j with JTy _ c => c end.
Lemma reads_one : forall j t, reads j t -> forall t', reads j t' -> t = t'.
Proof.
  intros j t H. induction H as [p| | |s c t Hs IH|cs l F IH] using reads_ind'; intros t' H'; remember (JTy _ _) as j eqn:Ej in H';
    destruct H' as [q| | |s' c' t' Hs'|cs' l' F']; pose proof (f_equal jname Ej) as En; pose proof (f_equal jcomps Ej) as Ec; cbn [jname jcomps] in En, Ec; clear Ej; try reflexivity; try discriminate Ec; try discriminate En;
    try (apply prim_apart in En; subst; reflexivity); try (destruct p; first [discriminate En|no_array]); try (destruct q; first [discriminate En|no_array]); try no_array.
  - unfold array_of in En. apply app_inv_tail in En. subst. f_equal. apply IH. exact Hs'.
  - injection Ec as ->. f_equal. clear F. revert l' F'. induction IH as [|j t cs l X _ IHl]; intros l' F'; inversion F'; subst; [reflexivity|]. f_equal; [apply X; assumption|apply IHl; first [assumption|reflexivity|idtac]].
Qed.

Lemma results_published : forall n roots structs P ts js, process_structs roots [] structs P -> Forall (fun t => to_process t = true) roots ->
  named_apart (roots ++ ts) -> Forall (fun t => plain_type (bare t)) ts -> json_outputs n structs ts = Some js ->
  exists bs, Forall2 reads js bs /\ (forall bs', Forall2 reads js bs' -> bs' = bs) /\
    forall l vs, Forall2 packs ts l -> all_fields (map has_aty l) vs -> enc_args l vs = enc_args bs (sees_all ts vs).
Proof.
  intros n roots structs P ts js H Fr A F E. destruct (results_read n roots structs P ts js H Fr A F E) as (bs&Rb&G). exists bs. split; [exact Rb|]. split; [|exact G].
  clear - Rb. induction Rb as [|j t js bs X _ IH]; intros bs' R'; inversion R'; subst; [reflexivity|]. f_equal; [eapply reads_one; eassumption|apply IH; assumption].
Qed.

Lemma results_listed : forall roots structs P ts, process_structs roots [] structs P -> Forall (fun t => to_process t = true) roots -> incl (return_structs ts) roots ->
  named_apart (roots ++ ts) -> Forall (fun t => direct_structs (bare t)) ts -> exists n js, json_outputs n structs ts = Some js.
Proof.
  intros roots structs P ts H Fr Ir A F. pose proof (structs_right roots structs P ts H Fr A) as R. pose proof (process_complete _ _ _ _ H) as (_&Ip&_).
  assert (G : forall us, incl us ts -> exists n js, json_outputs n structs us = Some js).
  { induction us as [|t us IHu]; intros Iu; [exists O, []; reflexivity|]. destruct IHu as (n&js&Ej); [intros x X; apply Iu; right; exact X|].
    assert (It : In t ts) by (apply Iu; left; reflexivity). assert (D : direct_structs (bare t)) by (rewrite Forall_forall in F; apply F; exact It).
    assert (Rt : right_structs structs (fun x => part x (bare t))) by (intros x s Q; apply R; exists t; split; [exact It|apply part_bare; exact Q]).
    assert (E : exists n j, encode_json n structs (gof (bare t)) = Some j).
    { eapply (direct_encodes structs roots P H _ (bare t) (Nat.lt_succ_diag_r _) D Rt). intros Tp. apply Ip, Ir. unfold return_structs. apply in_concat. exists (return_struct t). split; [apply in_map; exact It|].
      assert (Er : return_struct t = return_struct (bare t)) by (destruct t; reflexivity). rewrite Er. destruct (bare t); try discriminate Tp. left. reflexivity. }
    destruct E as (n2&j&E). exists (Nat.max n n2), (j :: js). unfold json_outputs, json_inputs in *. cbn [map filter]. rewrite gof_bare, (direct_not_hidden _ D). cbn [negb].
    apply all_some_some. constructor; [eapply encode_more; [exact E|lia]|]. apply all_some_ok in Ej. eapply Forall2_imp; [|exact Ej]. cbv beta. intros x y Exy. eapply encode_more; [exact Exy|lia]. }
  apply G. intros x X. exact X.
Qed.

(** An object with a dynamic field as a result. *)
Lemma object_misread : forall n structs m nm a fs t v, packs (MStruct m nm true a (MUid :: fs)) t -> dynamic t = true ->
  json_outputs (S n) structs [MStruct m nm true a (MUid :: fs)] = Some [JTy (text "bytes32") None] /\ enc_args [t] [v] = word 32 ++ enc t v.
Proof.
  intros n structs m nm a fs t v Pt D. split; [reflexivity|]. unfold enc_args, field_parts. cbn [map zip_with]. rewrite D. unfold tuple, tails, head_lens, head_len. cbn [map fold_right heads List.concat fst snd].
  rewrite !app_nil_r. reflexivity.
Qed.

(** Arguments. *)
Lemma plain_param : forall t, plain_type t -> abi_param t = Listed (gof t).
Proof. intros t P. destruct P; reflexivity. Qed.
Lemma plain_no_ref : forall t i, plain_type t -> t <> MRef i.
Proof. intros t i P ->. inversion P. Qed.
Lemma params_passed : forall ts, Forall (fun t => plain_type (bare t) \/ bare t = MSigner \/ bare t = MTxContext) ts -> abi_params ts = Some (Some (map gof (filter passed ts))).
Proof.
  intros ts F. induction F as [|t ts [Pt|Pt] F IH]; [reflexivity| |]; cbn [abi_params filter].
  - rewrite abi_param_bare, (plain_param _ Pt), IH by (intros i; apply plain_no_ref; exact Pt). unfold passed at 2. assert (Q : match bare t with MSigner | MTxContext => false | _ => true end = true) by (destruct Pt; reflexivity).
    rewrite Q. cbn [map]. rewrite (gof_bare t). reflexivity.
  - rewrite abi_param_bare by (intros i; destruct Pt as [->| ->]; discriminate). unfold passed at 1. destruct Pt as [->| ->]; cbn [abi_param]; exact IH.
Qed.
Lemma arguments_published : forall n roots structs P f ts name js, process_structs roots [] structs P -> Forall (fun t => to_process t = true) roots ->
  named_apart (roots ++ ts) -> Forall (fun t => plain_type (bare t) \/ bare t = MSigner \/ bare t = MTxContext) ts -> json_function n structs f ts = Some (Some (name, js)) ->
  exists bs, Forall2 reads js bs /\ (forall bs', Forall2 reads js bs' -> bs' = bs) /\
    forall l vs, Forall2 packs (filter passed ts) l -> all_fields (map has_aty l) vs -> enc_args bs (sees_all (filter passed ts) vs) = enc_args l vs.
Proof.
  intros n roots structs P f ts name js H Fr A F E. unfold json_function in E. rewrite (params_passed ts F) in E. destruct (json_inputs n structs _) as [js'|] eqn:Ej; [|discriminate]. injection E as <- <-.
  destruct (results_published n roots structs P (filter passed ts) js' H Fr) as (bs&Rb&U&G).
  - intros r r' t t' Ir Ir'. apply A; [apply in_app_or in Ir|apply in_app_or in Ir']; apply in_or_app; [destruct Ir as [X|X]|destruct Ir' as [X|X]]; auto; right; apply filter_In in X; apply X.
  - apply Forall_forall. intros t It. apply filter_In in It. destruct It as (It&Pt). rewrite Forall_forall in F. destruct (F t It) as [X|[X|X]]; [exact X| |]; unfold passed in Pt; rewrite X in Pt; discriminate.
  - exact Ej.
  - exists bs. split; [exact Rb|]. split; [exact U|]. intros l vs Pl T. symmetry. apply G; assumption.
Qed.
