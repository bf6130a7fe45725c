(** * Lemmas behind PropsAbiGen.v. *)

From Verif Require Import Tac RtErr Comp AbiGen SpecAbiGen.
From Coq Require Import String Ascii.
Ltac Zify.zify_post_hook ::= idtac.

(** ** Strings *)

Lemma commas_join : forall l, commas l = join l.
Proof. induction l as [|x l IH]; [reflexivity|]. cbn [commas join]. destruct l; [reflexivity|]. rewrite IH. reflexivity. Qed.
Lemma in_parentheses_eq : forall l, in_parentheses l = [40] ++ join l ++ [41].
Proof. intros l. unfold in_parentheses. rewrite commas_join. reflexivity. Qed.
Lemma same_text_ok : forall a b, same_text a b = true -> a = b.
Proof.
  induction a as [|x a IH]; intros [|y b] E; cbn [same_text] in E; try discriminate; [reflexivity|]. apply andb_prop in E. destruct E as (E1&E2). apply Z.eqb_eq in E1. rewrite (IH b E2). congruence.
Qed.
Lemma same_text_refl : forall a, same_text a a = true.
Proof. induction a as [|x a IH]; [reflexivity|]. cbn [same_text]. rewrite Z.eqb_refl, IH. reflexivity. Qed.
Lemma find_name : forall (l : list abi_struct) n s, find (fun s => same_text (fst s) n) l = Some s -> In s l /\ fst s = n.
Proof. intros l n s E. apply find_some in E. destruct E as (I&E). split; [exact I|apply same_text_ok; exact E]. Qed.

Lemma all_some_ok : forall {A B : Type} (f : A -> option B) l r, all_some (map f l) = Some r -> Forall2 (fun x y => f x = Some y) l r.
Proof.
  intros A B f l. induction l as [|x l IH]; intros r E; cbn [map all_some] in E; [injection E as <-; constructor|].
  destruct (f x) as [y|] eqn:Ex; [|discriminate]. destruct (all_some (map f l)) as [r'|]; [|discriminate]. injection E as <-. constructor; [exact Ex|apply IH; reflexivity].
Qed.
Lemma Forall2_imp : forall {A B : Type} (Q R : A -> B -> Prop) l r, (forall x y, Q x y -> R x y) -> Forall2 Q l r -> Forall2 R l r.
Proof. intros A B Q R l r I F. induction F; constructor; auto. Qed.
Lemma all_some_some : forall {A B : Type} (f : A -> option B) l r, Forall2 (fun x y => f x = Some y) l r -> all_some (map f l) = Some r.
Proof. intros A B f l r F. induction F as [|x y l r E F IH]; [reflexivity|]. cbn [map all_some]. rewrite E, IH. reflexivity. Qed.

(** ** Names of functions *)

Lemma camel_loop_same : forall s sep, (forall g, s <> g ++ [underscore]) -> camel_loop sep s = abi_camel_loop sep s.
Proof.
  induction s as [|c s IH]; intros sep N; [reflexivity|].
  assert (N' : forall g, s <> g ++ [underscore]) by (intros g ->; apply (N (c :: g)); reflexivity).
  cbn [camel_loop abi_camel_loop]. destruct (Z.eqb_spec c underscore) as [E|E].
  - destruct s as [|d s]; [exfalso; apply (N []); rewrite E; reflexivity|]. apply IH. exact N'.
  - destruct sep; rewrite IH by exact N'; reflexivity.
Qed.
Lemma camel_same : forall f, no_last_underscore f -> snake_to_camel f = abi_camel f.
Proof.
  intros [|c s] N; [reflexivity|]. cbn [snake_to_camel abi_camel]. f_equal. apply camel_loop_same. intros g ->. apply (N (c :: g)); [discriminate|reflexivity].
Qed.
Lemma camel_loop_last : forall g sep, camel_loop sep (g ++ [underscore]) = abi_camel_loop sep (g ++ [underscore]) ++ [underscore].
Proof.
  induction g as [|c g IH]; intros sep; [reflexivity|]. cbn [app camel_loop abi_camel_loop]. destruct (c =? underscore).
  - destruct (g ++ [underscore]) as [|d s] eqn:E; [destruct g; discriminate|]. apply IH.
  - destruct sep; rewrite IH; reflexivity.
Qed.
Lemma camel_last : forall g, g <> [] -> snake_to_camel (g ++ [underscore]) = abi_camel (g ++ [underscore]) ++ [underscore].
Proof. intros [|c g] N; [contradiction|]. cbn [app snake_to_camel abi_camel]. rewrite camel_loop_last. reflexivity. Qed.

(** ** The structs of the ABI *)

Lemma part_trans : forall r t c, part t r -> part c t -> part c r.
Proof. intros r t c P. induction P; intros Q; [exact Q|apply part_vec; auto|apply part_ref; auto|eapply part_field; [eassumption|auto]]. Qed.
Lemma part_child : forall t c, In c (fields_of t) -> part c t.
Proof. intros t c I. destruct t; cbn [fields_of] in I; try contradiction. eapply part_field; [exact I|constructor]. Qed.

(** Everything in the result is a struct that is to be processed or part of one. *)
Lemma process_sound : forall ts P l P', process_structs ts P l P' -> forall e, In e l -> exists r t, In r ts /\ part t r /\ e = entry_of t.
Proof.
  intros ts P l P' H. induction H as [P|t ts P l P' I H IH|t ts P cs l1 P1 l2 P2 N C H1 IH1 H2 IH2]; intros e E.
  - destruct E.
  - destruct (IH e E) as (r&u&A&B&D). exists r, u. split; [right; exact A|auto].
  - destruct E as [<-|E]; [exists t, t; split; [left; reflexivity|split; [constructor|reflexivity]]|]. apply in_app_or in E. destruct E as [E|E].
    + destruct (IH1 e E) as (r&u&A&B&D). exists t, u. split; [left; reflexivity|]. split; [|exact D]. eapply part_trans; [|exact B]. apply part_child. apply C. exact A.
    + destruct (IH2 e E) as (r&u&A&B&D). exists r, u. split; [right; exact A|auto].
Qed.
(** ... and is a struct. *)
Lemma process_structs_only : forall ts P l P', process_structs ts P l P' -> Forall (fun t => to_process t = true) ts ->
  forall e, In e l -> exists r t, In r ts /\ part t r /\ e = entry_of t /\ to_process t = true.
Proof.
  intros ts P l P' H. induction H as [P|t ts P l P' I H IH|t ts P cs l1 P1 l2 P2 N C H1 IH1 H2 IH2]; intros F e E.
  - destruct E.
  - inversion F; subst. destruct (IH ltac:(assumption) e E) as (r&u&A&B&D). exists r, u. split; [right; exact A|auto].
  - inversion F; subst. destruct E as [<-|E]; [exists t, t; split; [left; reflexivity|split; [constructor|split; [reflexivity|assumption]]]|]. apply in_app_or in E. destruct E as [E|E].
    + destruct (IH1 ltac:(apply Forall_forall; intros c Hc; apply C; exact Hc) e E) as (r&u&A&B&D&K). exists t, u. split; [left; reflexivity|]. split; [|auto]. eapply part_trans; [|exact B]. apply part_child. apply C. exact A.
    + destruct (IH2 ltac:(assumption) e E) as (r&u&A&B&D). exists r, u. split; [right; exact A|auto].
Qed.
(** Nothing that is to be processed is missing, nor the structs in the fields. *)
Lemma process_complete : forall ts P l P', process_structs ts P l P' ->
  incl P P' /\ incl ts P' /\ (forall t, In t P' -> In t P \/ In (entry_of t) l /\ (forall c, In c (fields_of t) -> to_process c = true -> In c P')).
Proof.
  intros ts P l P' H. induction H as [P|t ts P l P' I H (A&B&D)|t ts P cs l1 P1 l2 P2 N C H1 (A1&B1&D1) H2 (A2&B2&D2)].
  - split; [apply incl_refl|]. split; [intros x []|]. auto.
  - split; [exact A|]. split; [|exact D]. intros x [<-|X]; [apply A; exact I|apply B; exact X].
  - split; [intros x X; apply A2, A1; right; exact X|]. split; [intros x [<-|X]; [apply A2, A1; left; reflexivity|apply B2; exact X]|].
    assert (W : forall u, In u P1 -> In u P \/ In (entry_of u) (entry_of t :: l1 ++ l2) /\ (forall c, In c (fields_of u) -> to_process c = true -> In c P2)).
    { intros u U. destruct (D1 u U) as [[<-|Y]|(Y&Z)]; [right; split; [left; reflexivity|]|left; exact Y|right; split; [right; apply in_or_app; left; exact Y|]].
      - intros c X1 X2. apply A2, B1, C. split; assumption.
      - intros c X1 X2. apply A2, Z; assumption. }
    intros u U. destruct (D2 u U) as [Y|(Y&Z)]; [apply W; exact Y|]. right. split; [right; apply in_or_app; right; exact Y|exact Z].
Qed.

(** ** Types in the ABI *)

Lemma all_names_some : forall l ns, Forall2 (fun x n => x = Some (Some n)) l ns -> all_names l = Some (Some ns).
Proof. intros l ns F. induction F as [|x n l ns -> F IH]; [reflexivity|]. cbn [all_names]. rewrite IH. reflexivity. Qed.

(** Every struct of the ABI that has the name of a struct in [U] is that struct. *)
Definition right_structs (structs : list abi_struct) (U : mty -> Prop) : Prop :=
  forall t s, U t -> to_process t = true -> In s structs -> fst s = gname (gof t) -> s = entry_of t.
Lemma structs_right : forall roots structs P ts, process_structs roots [] structs P -> Forall (fun t => to_process t = true) roots -> named_apart (roots ++ ts) ->
  right_structs structs (fun t => exists r, In r ts /\ part t r).
Proof.
  intros roots structs P ts H F A t s (r&Ir&Pr) T I E. destruct (process_structs_only _ _ _ _ H F s I) as (r'&t'&Ir'&Pt'&->&T'). f_equal.
  apply (A r' r t' t); try assumption; [apply in_or_app; left; exact Ir'|apply in_or_app; right; exact Ir].
Qed.

Lemma canonical_array : forall s c, (forall cs, c = Some cs -> exists u, s = text "tuple" ++ u) -> canonical (JTy (array_of s) c) = array_of (canonical (JTy s c)).
Proof.
  intros s [cs|] H; [|reflexivity]. destruct (H cs eq_refl) as (u&->). cbn [canonical]. unfold array_of. rewrite <- !app_assoc. f_equal.
Qed.
Lemma encode_ok : forall structs n t j, value_type t -> right_structs structs (fun x => part x t) -> encode_json n structs (gof t) = Some j ->
  solidity_name t = Some (Some (canonical j)) /\ (forall s cs, j = JTy s (Some cs) -> exists u, s = text "tuple" ++ u).
Proof.
  intros structs n. induction n as [|n IH]; intros t j V R E; [discriminate|].
  destruct V as [p| |m| | |i V|m nm a fs F|m nm a fs|m nm s]; cbn [gof encode_json] in E.
  1-5: (injection E as <-; split; [reflexivity|intros; discriminate]).
  - destruct (encode_json n structs (gof i)) as [[s c]|] eqn:Ei; [|discriminate]. injection E as <-.
    destruct (IH i (JTy s c) V) as (S1&S2); [intros t x U; apply R; apply part_vec; exact U|exact Ei|].
    assert (S3 : forall cs, c = Some cs -> exists u, s = text "tuple" ++ u) by (intros cs ->; eapply S2; reflexivity).
    split; [|intros s' cs Es; injection Es as <- ->; destruct (S3 cs eq_refl) as (u&->); exists (u ++ text "[]"); unfold array_of; rewrite app_assoc; reflexivity].
    cbn [solidity_name]. rewrite S1, canonical_array by exact S3. reflexivity.
  - match type of E with context [find ?q ?l] => destruct (find q l) as [e|] eqn:Ef end; [|discriminate]. apply find_name in Ef. destruct Ef as (I&Ef).
    assert (Ee : e = entry_of (MStruct m nm false a fs)) by (apply R; [constructor|reflexivity|exact I|exact Ef]). subst e. cbn [entry_of snd fields_of] in E.
    destruct (all_some _) as [cs|] eqn:Ea; [|discriminate]. injection E as <-. rewrite map_map in Ea. apply all_some_ok in Ea. split; [|intros s cs' Es; injection Es as <- _; exists []; reflexivity].
    cbn [solidity_name canonical]. assert (Q : all_names (map solidity_name fs) = Some (Some (map canonical cs))).
    { apply all_names_some. assert (Rf : forall f, In f fs -> right_structs structs (fun x => part x f)) by (intros f If t x U; apply R; eapply part_field; eassumption).
      clear - IH F Ea Rf. induction Ea as [|f j fs cs Ej Ea IHe]; [constructor|]. inversion F; subst. cbn [map]. constructor; [apply (IH f j); [assumption|apply Rf; left; reflexivity|exact Ej]|].
      apply IHe; [assumption|]. intros g Ig. apply Rf. right. exact Ig. }
    rewrite Q. cbn [tuple_name]. rewrite in_parentheses_eq. change (skipn 5 (text "tuple")) with (@nil Z). rewrite app_nil_r. reflexivity.
  - injection E as <-. split; [reflexivity|intros; discriminate].
  - destruct s; cbn [encode_json] in E; [|discriminate]. injection E as <-. split; [reflexivity|intros; discriminate].
Qed.

(** Without a struct, [gof] is never hidden, and encode fails on a hidden type. *)
Lemma value_shown : forall t, value_type t -> gof t = GNone \/ hidden (gof t) = false.
Proof. intros t V. destruct V; cbn [gof hidden]; auto. destruct s; auto. Qed.
Lemma value_unnamed : forall t, value_type t -> gof t = GNone -> solidity_name t = Some None.
Proof. intros t V E. destruct V; cbn [gof] in E; try discriminate. destruct s; [discriminate|reflexivity]. Qed.

Lemma inputs_cons : forall n structs g gs js, json_inputs n structs (g :: gs) = Some js ->
  (g = GNone /\ json_inputs n structs gs = Some js) \/ exists j js', js = j :: js' /\ encode_json n structs g = Some j /\ json_inputs n structs gs = Some js'.
Proof.
  intros n structs g gs js E. unfold json_inputs in *. cbn [filter] in E. destruct g; cbn [hidden negb map all_some] in E; try (left; split; [reflexivity|exact E]);
  (right; destruct (encode_json n structs _) as [j|]; [|discriminate]; destruct (all_some _) as [js'|]; [|discriminate]; injection E as <-; exists j, js'; repeat split).
Qed.

(** One parameter. *)
Lemma solidity_bare : forall t, solidity_name t = solidity_name (bare t).
Proof. intros []; reflexivity. Qed.
Lemma part_bare : forall x t, part x (bare t) -> part x t.
Proof. intros x [] H; cbn [bare] in H; try exact H. apply part_ref. exact H. Qed.
Lemma param_bare : forall t, param_type t -> taken (bare t).
Proof. intros t [u H|u H]; [|exact H]. inversion H as [u' V| | |]; subst; try (constructor; fail). destruct V; cbn [bare]; constructor; constructor; assumption. Qed.
Lemma abi_param_bare : forall t, (forall i, bare t <> MRef i) -> abi_param t = abi_param (bare t).
Proof. intros [] N; cbn [bare] in *; try reflexivity. destruct t; try reflexivity. exfalso. eapply N. reflexivity. Qed.
Lemma taken_no_ref : forall t i, taken t -> t <> MRef i.
Proof. intros t i H ->. inversion H as [u V| | |]; subst. inversion V. Qed.

Lemma params_ok : forall structs n ts gs js, Forall param_type ts -> right_structs structs (fun t => exists r, In r ts /\ part t r) ->
  abi_params ts = Some (Some gs) -> json_inputs n structs gs = Some js -> names_of solidity_name ts = Some (map canonical js).
Proof.
  intros structs n ts. induction ts as [|t ts IH]; intros gs js F R A J; cbn [abi_params names_of] in *.
  - injection A as <-. injection J as <-. reflexivity.
  - inversion F as [|? ? Ft Fts]; subst.
    assert (R' : right_structs structs (fun t => exists r, In r ts /\ part t r)) by (intros x s (r&I&Q); apply R; exists r; split; [right; exact I|exact Q]).
    assert (Rt : right_structs structs (fun x => part x (bare t))) by (intros x s Q; apply R; exists t; split; [left; reflexivity|apply part_bare; exact Q]).
    pose proof (param_bare t Ft) as Tk. rewrite solidity_bare. rewrite abi_param_bare in A by (intros i; apply taken_no_ref; exact Tk).
    assert (S : (abi_param (bare t) = Hidden /\ solidity_name (bare t) = Some None) \/ abi_param (bare t) = Failed \/ (value_type (bare t) /\ abi_param (bare t) = Listed (gof (bare t)))).
    { destruct Tk as [u V|m nm a fs| |]; [|left; split; reflexivity|left; split; reflexivity|left; split; reflexivity]. destruct V; cbn [abi_param]; try (right; right; split; [constructor; assumption|reflexivity]).
      destruct s; [right; right; split; [constructor|reflexivity]|right; left; reflexivity]. }
    destruct S as [(S1&S2)|[S1|(V&S1)]]; rewrite S1 in A; [|discriminate|].
    + rewrite S2, (IH gs js Fts R' A J). reflexivity.
    + destruct (abi_params ts) as [[gs'|]|] eqn:Ea; try discriminate. injection A as <-. apply inputs_cons in J. destruct J as [(Eg&J)|(j&js'&->&Ej&J)].
      * rewrite (value_unnamed _ V Eg), (IH gs' js Fts R' eq_refl J). reflexivity.
      * destruct (encode_ok structs n (bare t) j V Rt Ej) as (S2&_). rewrite S2, (IH gs' js' Fts R' eq_refl J). reflexivity.
Qed.

Lemma function_published : forall n roots structs P f ts name js, process_structs roots [] structs P -> Forall (fun t => to_process t = true) roots ->
  named_apart (roots ++ ts) -> Forall param_type ts -> no_last_underscore f -> json_function n structs f ts = Some (Some (name, js)) ->
  function_signature f ts = Some (published name js).
Proof.
  intros n roots structs P f ts name js H Fr A F N J. unfold json_function in J. destruct (abi_params ts) as [[gs|]|] eqn:Ea; try discriminate.
  destruct (json_inputs n structs gs) as [js'|] eqn:Ej; [|discriminate]. cbn [option_map] in J. injection J as <- <-.
  unfold function_signature. rewrite (params_ok structs n ts gs js' F (structs_right roots structs P ts H Fr A) Ea Ej). cbn [option_map]. unfold signature_string, published.
  rewrite camel_same by exact N. rewrite in_parentheses_eq. reflexivity.
Qed.

(** Functions whose name ends in an underscore. *)
Lemma underscore_unpublished : forall n structs g ts name js s, g <> [] -> json_function n structs (g ++ [underscore]) ts = Some (Some (name, js)) ->
  function_signature (g ++ [underscore]) ts = Some s -> s <> published name js.
Proof.
  intros n structs g ts name js s N J S. unfold json_function in J. destruct (abi_params ts) as [[gs|]|]; try discriminate. destruct (json_inputs n structs gs) as [js'|]; [|discriminate].
  cbn [option_map] in J. injection J as <- <-. unfold function_signature in S. destruct (names_of solidity_name ts) as [ns|]; [|discriminate]. cbn [option_map] in S. injection S as <-.
  unfold signature_string, published. rewrite camel_last by exact N. rewrite <- app_assoc. intros E. apply app_inv_head in E. discriminate E.
Qed.

(** ** Errors and events *)

Lemma first_upper_camel : forall f, camel_name f -> first_upper (snake_to_camel f) = f.
Proof.
  intros f ((c&s&->&Hc)&N). cbn [snake_to_camel first_upper]. unfold to_lower. rewrite (proj2 (andb_true_iff _ _)) by (split; apply Z.leb_le; lia).
  unfold to_upper. rewrite (proj2 (andb_true_iff _ _)) by (split; apply Z.leb_le; lia). f_equal; [lia|].
  assert (M : ~ In underscore s) by (intros X; apply N; right; exact X). clear - M. induction s as [|d s IH]; [reflexivity|]. cbn [camel_loop].
  destruct (Z.eqb_spec d underscore) as [->|_]; [exfalso; apply M; left; reflexivity|]. f_equal. apply IH. intros X. apply M. right. exact X.
Qed.
Lemma fields_ok : forall structs n ts js, Forall value_type ts -> right_structs structs (fun t => exists r, In r ts /\ part t r) ->
  json_inputs n structs (map gof ts) = Some js -> names_of solidity_name ts = Some (map canonical js).
Proof.
  intros structs n ts. induction ts as [|t ts IH]; intros js F R J; cbn [map names_of] in *; [injection J as <-; reflexivity|].
  inversion F as [|? ? V Fts]; subst.
  assert (R' : right_structs structs (fun t => exists r, In r ts /\ part t r)) by (intros x s (r&I&Q); apply R; exists r; split; [right; exact I|exact Q]).
  assert (Rt : right_structs structs (fun x => part x t)) by (intros x s Q; apply R; exists t; split; [left; reflexivity|exact Q]).
  apply inputs_cons in J. destruct J as [(Eg&J)|(j&js'&->&Ej&J)].
  - rewrite (value_unnamed _ V Eg), (IH js Fts R' J). reflexivity.
  - destruct (encode_ok structs n t j V Rt Ej) as (S2&_). rewrite S2, (IH js' Fts R' J). reflexivity.
Qed.
Lemma error_published : forall n roots structs P f ts name js, process_structs roots [] structs P -> Forall (fun t => to_process t = true) roots ->
  named_apart (roots ++ ts) -> Forall value_type ts -> camel_name f -> json_item n structs f ts = Some (name, js) ->
  error_signature f ts = Some (published name js).
Proof.
  intros n roots structs P f ts name js H Fr A F N J. unfold json_item in J. destruct (json_inputs n structs (map gof ts)) as [js'|] eqn:Ej; [|discriminate]. injection J as <- <-.
  unfold error_signature. rewrite (fields_ok structs n ts js' F (structs_right roots structs P ts H Fr A) Ej). cbn [option_map]. rewrite first_upper_camel by exact N.
  unfold published. rewrite in_parentheses_eq. reflexivity.
Qed.

Lemma leaf_names : forall t, event_leaf t -> exists n, sol_name t = Some n /\ event_name t = Some (Some n) /\ solidity_name t = Some (Some n).
Proof.
  intros t H. induction H as [p| |m|m nm|i H (n&A&B&C)]; try (eexists; repeat split; reflexivity).
  exists (array_of n). cbn [sol_name event_name solidity_name]. rewrite A, B, C. repeat split.
Qed.
Lemma leaf_value : forall t, event_leaf t -> value_type t.
Proof. intros t H. induction H; constructor; assumption. Qed.
Lemma event_value : forall t, event_field t -> value_type t.
Proof.
  intros t H. induction H as [t H| |m n a fs H|i H IH]; [apply leaf_value; exact H|constructor| |constructor; exact IH].
  constructor. eapply Forall_impl; [|exact H]. exact leaf_value.
Qed.
Lemma event_names : forall t, event_field t -> event_name t = solidity_name t.
Proof.
  intros t H. induction H as [t H| |m n a fs H|i H IH]; [destruct (leaf_names t H) as (n&_&B&C); congruence|reflexivity| |cbn [event_name solidity_name]; rewrite IH; reflexivity].
  cbn [event_name solidity_name]. f_equal. f_equal. apply map_ext_in. intros f If. rewrite Forall_forall in H. destruct (leaf_names f (H f If)) as (k&A&_&C). congruence.
Qed.
Lemma event_published : forall n roots structs P f ts name js, process_structs roots [] structs P -> Forall (fun t => to_process t = true) roots ->
  named_apart (roots ++ ts) -> Forall event_field ts -> json_item n structs f ts = Some (name, js) -> event_signature f ts = Some (published name js).
Proof.
  intros n roots structs P f ts name js H Fr A F J. unfold json_item in J. destruct (json_inputs n structs (map gof ts)) as [js'|] eqn:Ej; [|discriminate]. injection J as <- <-.
  assert (Fv : Forall value_type ts) by (eapply Forall_impl; [|exact F]; exact event_value).
  assert (E : names_of event_name ts = names_of solidity_name ts).
  { clear - F. induction F as [|t ts Ht F IH]; [reflexivity|]. cbn [names_of]. rewrite (event_names t Ht), IH. reflexivity. }
  unfold event_signature. rewrite E, (fields_ok structs n ts js' Fv (structs_right roots structs P ts H Fr A) Ej). cbn [option_map]. unfold published. rewrite in_parentheses_eq. reflexivity.
Qed.

(** A struct in a struct has no part in the signature of an event. *)
Lemma event_drops : forall f m n k a fs g, In g fs -> (exists m n k a gs, g = MStruct m n k a gs) -> event_signature f [MStruct m n k a fs] = Some (f ++ [40; 41]).
Proof.
  intros f m n k a fs g I (m'&n'&k'&a'&gs&->). unfold event_signature. cbn [names_of event_name].
  assert (E : all_names (map (fun f => Some (sol_name f)) fs) = Some None).
  { induction fs as [|h fs IH]; [destruct I|]. cbn [map all_names]. destruct I as [->|I]; [reflexivity|]. rewrite IH by exact I. destruct (sol_name h); reflexivity. }
  rewrite E. reflexivity.
Qed.

(** ** Functions are in the ABI *)

Lemma encode_more : forall structs n g j, encode_json n structs g = Some j -> forall n', (n <= n')%nat -> encode_json n' structs g = Some j.
Proof.
  intros structs n. induction n as [|n IH]; intros g j E n' L; [discriminate|]. destruct n' as [|n']; [lia|]. assert (L' : (n <= n')%nat) by lia.
  destruct g; cbn [encode_json] in *; try exact E.
  - destruct (encode_json n structs g) as [x|] eqn:Eg; [|discriminate]. rewrite (IH g x Eg n' L'). exact E.
  - destruct key; [exact E|]. match type of E with context [find ?q ?l] => destruct (find q l) as [s|] end; [|exact E]. destruct (all_some (map (encode_json n structs) (snd s))) as [cs|] eqn:Ea; [|discriminate].
    rewrite (all_some_some (encode_json n' structs) (snd s) cs); [exact E|]. apply all_some_ok in Ea. eapply Forall2_imp; [|exact Ea]. cbv beta. intros x y Exy. eapply IH; eassumption.
Qed.
Lemma structless_encodes : forall structs t, structless t -> exists n j, encode_json n structs (gof t) = Some j.
Proof.
  intros structs t H. induction H as [p| |m| | |m n a fs|m n|i H (n&[s c]&E)]; try (exists 1%nat; eexists; reflexivity).
  exists (S n). eexists. cbn [gof encode_json]. rewrite E. reflexivity.
Qed.
Lemma entry_found : forall structs t, to_process t = true -> right_structs structs (fun x => part x t) -> In (entry_of t) structs ->
  find (fun s => same_text (fst s) (gname (gof t))) structs = Some (entry_of t).
Proof.
  intros structs t T R I. match goal with |- context [find ?q ?l] => destruct (find q l) as [s|] eqn:E end.
  - apply find_name in E. destruct E as (Is&Es). f_equal. apply (R t); [constructor|exact T|exact Is|exact Es].
  - exfalso. eapply find_none in E; [|exact I]. cbn [entry_of fst] in E. rewrite same_text_refl in E. discriminate.
Qed.
Fixpoint mty_size (t : mty) : nat := match t with MVec i | MRef i => S (mty_size i) | MStruct _ _ _ _ fs => S (list_sum (map mty_size fs)) | _ => 1 end.
Lemma size_field : forall f fs, In f fs -> (mty_size f <= list_sum (map mty_size fs))%nat.
Proof. intros f fs I. induction fs as [|g fs IH]; [destruct I|]. cbn [map list_sum fold_right]. destruct I as [->|I]; [lia|]. specialize (IH I). unfold list_sum in IH. lia. Qed.
Lemma direct_encodes : forall structs roots P, process_structs roots [] structs P -> forall k t, (mty_size t < k)%nat -> direct_structs t -> right_structs structs (fun x => part x t) ->
  (to_process t = true -> In t P) -> exists n j, encode_json n structs (gof t) = Some j.
Proof.
  intros structs roots P H k. pose proof (process_complete _ _ _ _ H) as (_&_&C). induction k as [|k IH]; intros t L D R I; [lia|]. destruct D as [t D|m nm a fs D]; [apply structless_encodes; exact D|].
  destruct (C _ (I eq_refl)) as [[]|(Ie&Ic)]. cbn [fields_of] in Ic.
  assert (A : exists n cs, all_some (map (encode_json n structs) (map gof fs)) = Some cs).
  { assert (G : forall f, In f fs -> exists n j, encode_json n structs (gof f) = Some j).
    { intros f If. apply IH; [pose proof (size_field f fs If) as X; cbn [mty_size] in L; lia|rewrite Forall_forall in D; apply D; exact If|intros x s Q; apply R; eapply part_field; eassumption|apply Ic; exact If]. }
    clear - G. induction fs as [|f fs IHf]; [exists O, []; reflexivity|]. destruct (G f (or_introl eq_refl)) as (n1&j&E1). destruct IHf as (n2&cs&E2); [intros g Ig; apply G; right; exact Ig|].
    exists (Nat.max n1 n2), (j :: cs). apply all_some_some. cbn [map]. constructor; [eapply encode_more; [exact E1|lia]|]. apply all_some_ok in E2. eapply Forall2_imp; [|exact E2]. cbv beta. intros x y Exy. eapply encode_more; [exact Exy|lia]. }
  destruct A as (n&cs&E). exists (S n), (JTy (text "tuple") (Some cs)). pose proof (entry_found structs (MStruct m nm false a fs) eq_refl R Ie) as Fd. cbn [gof] in Fd |- *. cbn [encode_json]. rewrite Fd. cbn [entry_of snd fields_of]. rewrite E. reflexivity.
Qed.
Lemma direct_param : forall t, direct_structs t -> abi_param t = Listed (gof t).
Proof. intros t D. destruct D as [t D|]; [destruct D; reflexivity|reflexivity]. Qed.
Lemma direct_no_ref : forall t i, direct_structs t -> t <> MRef i.
Proof. intros t i D ->. inversion D as [u S|]; subst. inversion S. Qed.
Lemma direct_not_hidden : forall t, direct_structs t -> hidden (gof t) = false.
Proof. intros t D. destruct D as [t D|]; [destruct D; reflexivity|reflexivity]. Qed.
Lemma in_param_structs : forall ts t, In t ts -> to_process (bare t) = true -> direct_structs (bare t) -> (exists m n fs a, bare t = MStruct m n true a (MUid :: fs)) \/ In (bare t) (param_structs ts).
Proof.
  intros ts t I T D. inversion D as [u S Eu|m n a fs F Eu]; subst.
  - left. destruct S; cbn [to_process] in T; try discriminate. eauto.
  - right. unfold param_structs. apply in_concat. exists (param_struct t). split; [apply in_map; exact I|]. unfold param_struct. fold (bare t). rewrite <- Eu. left. reflexivity.
Qed.
Lemma function_listed : forall roots structs P f ts, process_structs roots [] structs P -> Forall (fun t => to_process t = true) roots -> incl (param_structs ts) roots ->
  named_apart (roots ++ ts) -> Forall listed_type ts -> exists n js, json_function n structs f ts = Some (Some (abi_camel f, js)).
Proof.
  intros roots structs P f ts H Fr Ir A F. pose proof (structs_right roots structs P ts H Fr A) as R. pose proof (process_complete _ _ _ _ H) as (_&Ip&_).
  assert (G : forall us, incl us ts -> exists gs n js, abi_params us = Some (Some gs) /\ json_inputs n structs gs = Some js).
  { induction us as [|t us IHu]; intros Iu; [exists [], O, []; split; reflexivity|]. destruct IHu as (gs&n&js&Ea&Ej); [intros x X; apply Iu; right; exact X|].
    assert (It : In t ts) by (apply Iu; left; reflexivity). assert (Lt : listed_type t) by (rewrite Forall_forall in F; apply F; exact It). cbn [abi_params].
    destruct Lt as [D|Lt].
    - rewrite abi_param_bare, (direct_param _ D), Ea by (intros i; apply direct_no_ref; exact D).
      assert (Rt : right_structs structs (fun x => part x (bare t))) by (intros x s Q; apply R; exists t; split; [exact It|apply part_bare; exact Q]).
      assert (E : exists n j, encode_json n structs (gof (bare t)) = Some j).
      { destruct (to_process (bare t)) eqn:Tp; [|eapply (direct_encodes structs roots P H _ (bare t) (Nat.lt_succ_diag_r _) D Rt); intros X; congruence].
        destruct (in_param_structs ts t It Tp D) as [(m&nm&fs&a&->)|X]; [exists 1%nat; eexists; reflexivity|].
        eapply (direct_encodes structs roots P H _ (bare t) (Nat.lt_succ_diag_r _) D Rt). intros _. apply Ip, Ir, X. }
      destruct E as (n2&j&E). exists (gof (bare t) :: gs), (Nat.max n n2), (j :: js). split; [reflexivity|]. unfold json_inputs in *. cbn [filter]. rewrite (direct_not_hidden _ D). cbn [negb].
      apply all_some_some. constructor; [eapply encode_more; [exact E|lia]|]. apply all_some_ok in Ej. eapply Forall2_imp; [|exact Ej]. cbv beta. intros x y Exy. eapply encode_more; [exact Exy|lia].
    - exists gs, n, js. split; [|exact Ej]. rewrite <- Ea. rewrite abi_param_bare by (intros i; destruct Lt as [->|[->|(m&nm&a&fs&->)]]; discriminate). destruct Lt as [->|[->|(m&nm&a&fs&->)]]; reflexivity. }
  destruct (G ts (incl_refl ts)) as (gs&n&js&Ea&Ej). exists n, js. unfold json_function. rewrite Ea, Ej. reflexivity.
Qed.

(** Vectors of structs that are nowhere else. *)
Lemma vector_unlisted : forall n f m nm a fs, json_function n [] f [MVec (MStruct m nm false a fs)] = None.
Proof. intros [|[|n]] f m nm a fs; reflexivity. Qed.

(** ** For examples *)

Fixpoint parts (t : mty) : list mty := t :: match t with MVec i | MRef i => parts i | MStruct _ _ _ _ fs => List.concat (map parts fs) | _ => [] end.
Lemma part_parts : forall x t, part x t -> In x (parts t).
Proof.
  intros x t H. induction H as [|i H IH|i H IH|m n k a fs f I H IH]; [destruct x; left; reflexivity|right; exact IH|right; exact IH|]. right. apply in_concat. exists (parts f). split; [apply in_map; exact I|exact IH].
Qed.
Lemma named_apart_ok : forall l, (forall t t', In t (filter to_process (List.concat (map parts l))) -> In t' (filter to_process (List.concat (map parts l))) -> same_text (gname (gof t)) (gname (gof t')) = true -> t = t') -> named_apart l.
Proof.
  intros l H r r' t t' Ir Ir' Pt Pt' T T' E. apply H; [| |rewrite E; apply same_text_refl]; apply filter_In; (split; [|assumption]); apply in_concat; [exists (parts r)|exists (parts r')]; (split; [apply in_map; assumption|apply part_parts; assumption]).
Qed.

(** The name of an instance for vectors is longer than that for their elements. *)
Lemma camel_loop_longer : forall s sep, List.length (abi_camel_loop sep (s ++ text "[]")) = S (S (List.length (abi_camel_loop sep s))).
Proof. induction s as [|c s IH]; intros sep; [destruct sep; reflexivity|]. cbn [app abi_camel_loop]. destruct (c =? underscore); [apply IH|]. destruct sep; cbn [List.length]; rewrite IH; reflexivity. Qed.
Lemma camel_longer : forall c s, List.length (abi_camel ((c :: s) ++ text "[]")) = S (S (List.length (abi_camel (c :: s)))).
Proof. intros c s. cbn [app abi_camel List.length]. rewrite camel_loop_longer. reflexivity. Qed.
Lemma first_upper_length : forall s, List.length (first_upper s) = List.length s.
Proof. intros [|c s]; reflexivity. Qed.
Lemma instance_names : forall m n k m' k' g, gname (GStruct m n (Some [GArray g]) k) <> gname (GStruct m' n (Some [g]) k').
Proof.
  intros m n k m' k' g E. apply (f_equal (@List.length Z)) in E. cbn [gname map join_with] in E. rewrite !first_upper_length in E. unfold array_of in E. rewrite !app_assoc in E.
  destruct ((n ++ [underscore]) ++ gname g) as [|c s] eqn:Es; [destruct n; discriminate Es|]. rewrite camel_longer in E. lia.
Qed.
