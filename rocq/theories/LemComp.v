(** * Proofs about the compile-time functions. *)

From Verif Require Import Tac RtErr SpecAbi LemAbi Comp SpecComp.

(** ** Names *)

Definition uncamel (c : Z) : list Z := if (65 <=? c) && (c <=? 90) then [underscore; c + 32] else [c].

Lemma uncamel_low : forall c, snake_char c -> uncamel c = [c].
Proof.
  intros c H. unfold uncamel. destruct ((65 <=? c) && (c <=? 90)) eqn:E; [|reflexivity].
  apply andb_true_iff in E. unfold snake_char, lower_letter, underscore in H. lia.
Qed.

Lemma camel_loop_inv : forall n s, (List.length s <= n)%nat -> Forall snake_char s ->
  (forall i c, nth_error s i = Some underscore -> nth_error s (S i) = Some c -> lower_letter c) ->
  flat_map uncamel (camel_loop false s) = s.
Proof.
  induction n; intros s L F A; destruct s as [|c s]; try reflexivity; cbn [List.length] in L; [lia|].
  inversion F as [|? ? Fc Fs]; subst. cbn [camel_loop].
  destruct (c =? underscore) eqn:E.
  - apply Z.eqb_eq in E. subst c. destruct s as [|d s]; [reflexivity|].
    assert (Ld : lower_letter d) by (apply (A 0%nat); reflexivity).
    cbn [camel_loop]. replace (d =? underscore) with false by (symmetry; apply Z.eqb_neq; unfold lower_letter, underscore in *; lia).
    cbn [flat_map]. inversion Fs; subst. rewrite IHn; [|cbn [List.length] in L; lia|assumption|].
    + unfold to_upper, uncamel. unfold lower_letter in Ld.
      replace ((97 <=? d) && (d <=? 122)) with true by (symmetry; apply andb_true_iff; lia).
      replace ((65 <=? d - 32) && (d - 32 <=? 90)) with true by (symmetry; apply andb_true_iff; lia).
      replace (d - 32 + 32) with d by lia. reflexivity.
    + intros i c. apply (A (S (S i))).
  - cbn [flat_map]. rewrite uncamel_low by assumption. cbn [app]. f_equal. apply IHn; [lia|assumption|].
    intros i d. apply (A (S i)).
Qed.

Lemma camel_injective : forall a b, snake_case a -> snake_case b -> snake_to_camel a = snake_to_camel b -> a = b.
Proof.
  assert (G : forall a, snake_case a -> flat_map uncamel (snake_to_camel a) = a).
  { intros [|c s] [F A]; [reflexivity|]. inversion F as [|? ? Fc Fs]; subst. cbn [snake_to_camel flat_map].
    assert (E : to_lower c = c).
    { unfold to_lower. destruct ((65 <=? c) && (c <=? 90)) eqn:E; [|reflexivity].
      apply andb_true_iff in E. unfold snake_char, lower_letter, underscore in Fc. lia. }
    rewrite E, uncamel_low by assumption. cbn [app]. f_equal. apply (camel_loop_inv (List.length s)); [lia|assumption|].
    intros i d. apply (A (S i)). lia. }
  intros a b Ha Hb E. rewrite <- (G a Ha), <- (G b Hb), E. reflexivity.
Qed.

(** Identifiers contain no parenthesis, and neither do camel-cased ones. *)
Lemma camel_loop_chars : forall s sep x, In x (camel_loop sep s) -> exists c, In c s /\ (x = c \/ x = to_upper c \/ x = underscore).
Proof.
  induction s as [|c s IH]; intros sep x H; [destruct H|]. cbn [camel_loop] in H.
  destruct (c =? underscore).
  - destruct s as [|d s].
    + destruct H as [<-|[]]. exists c. split; [now left|auto].
    + destruct (IH _ _ H) as (y&I&E). exists y. split; [now right|exact E].
  - destruct sep; destruct H as [<-|H].
    + exists c. split; [now left|auto].
    + destruct (IH _ _ H) as (y&I&E). exists y. split; [now right|exact E].
    + exists c. split; [now left|auto].
    + destruct (IH _ _ H) as (y&I&E). exists y. split; [now right|exact E].
Qed.

Lemma camel_no_paren : forall s, ~ In 40 s -> ~ In 8 s -> ~ In 72 s -> ~ In 40 (snake_to_camel s).
Proof.
  intros [|c s] A B C; [auto|]. cbn [snake_to_camel]. intros [E|E].
  - unfold to_lower in E. destruct ((65 <=? c) && (c <=? 90)) eqn:G; [apply andb_true_iff in G; lia|].
    apply A. left. exact E.
  - destruct (camel_loop_chars _ _ _ E) as (d&I&[<-|[G|G]]).
    + apply A. now right.
    + unfold to_upper in G. destruct ((97 <=? d) && (d <=? 122)) eqn:K.
      * apply andb_true_iff in K. lia.
      * subst d. apply A. now right.
    + discriminate.
Qed.

Lemma split_paren : forall a b x y, ~ In 40 a -> ~ In 40 b -> a ++ [40] ++ x = b ++ [40] ++ y -> a = b.
Proof.
  induction a as [|c a IH]; intros [|d b] x y A B E; cbn [app] in E; try reflexivity.
  - injection E as <- _. exfalso. apply B. now left.
  - injection E as -> _. exfalso. apply A. now left.
  - injection E as <- E. f_equal. apply (IH b x y); [intro; apply A; now right|intro; apply B; now right|exact E].
Qed.

Lemma snake_no_paren : forall s, snake_case s -> ~ In 40 s.
Proof.
  intros s [F _] I. rewrite Forall_forall in F. specialize (F _ I). unfold snake_char, lower_letter, underscore in F. lia.
Qed.

Lemma snake_camel_no_paren : forall s, snake_case s -> ~ In 40 (snake_to_camel s).
Proof.
  intros s [F A]. rewrite Forall_forall in F. unfold snake_char, lower_letter, underscore in F.
  destruct s as [|c s]; [intros []|]. cbn [snake_to_camel]. intros [E|E].
  - specialize (F c (or_introl eq_refl)). unfold to_lower in E. destruct ((65 <=? c) && (c <=? 90)) eqn:G; [apply andb_true_iff in G|]; lia.
  - destruct (camel_loop_chars _ _ _ E) as (d&I&[<-|[G|G]]); [|..]; [specialize (F _ (or_intror I)); lia| |discriminate].
    specialize (F _ (or_intror I)). unfold to_upper in G. destruct ((97 <=? d) && (d <=? 122)) eqn:K; [apply andb_true_iff in K|]; lia.
Qed.

Lemma signature_injective : forall a b ps qs, snake_case a -> snake_case b ->
  signature_string a ps = signature_string b qs -> a = b.
Proof.
  unfold signature_string. intros a b ps qs Ha Hb E. apply camel_injective; try assumption.
  eapply split_paren; [| |exact E]; apply snake_camel_no_paren; assumption.
Qed.

(** Parenthesis depth; [None] at a closing parenthesis or a comma at depth 0. *)
Fixpoint depth (d : nat) (s : list Z) : option nat :=
  match s with
  | [] => Some d
  | c :: s => if c =? 40 then depth (S d) s
              else if c =? 41 then match d with O => None | S d => depth d s end
              else if c =? 44 then match d with O => None | S _ => depth d s end
              else depth d s
  end.

Lemma depth_app : forall s t d, depth d (s ++ t) = match depth d s with Some d' => depth d' t | None => None end.
Proof.
  induction s as [|c s IH]; intros t d; [reflexivity|]. cbn [app depth].
  destruct (c =? 40); [apply IH|]. destruct (c =? 41); [destruct d; [reflexivity|apply IH]|].
  destruct (c =? 44); [destruct d; [reflexivity|apply IH]|apply IH].
Qed.

Lemma sol_type_ind' : forall P : list Z -> Prop,
  (forall s, s <> [] -> Forall alphanumeric s -> P s) -> (forall s, sol_type s -> P s -> P (s ++ [91; 93])) ->
  (forall ts, Forall sol_type ts -> Forall P ts -> P ([40] ++ join ts ++ [41])) -> forall s, sol_type s -> P s.
Proof.
  intros P H1 H2 H3. fix IH 2. intros s [w N A|w W|ts F]; [apply H1; assumption|apply H2; [exact W|apply IH; exact W]|].
  apply H3; [exact F|]. induction F as [|t ts T F IF]; constructor; [apply IH; exact T|exact IF].
Qed.

Lemma depth_join : forall ts d, Forall (fun t => forall d, depth d t = Some d) ts -> depth (S d) (join ts) = Some (S d).
Proof.
  intros ts d F. induction F as [|t ts T F IH]; [reflexivity|]. destruct ts as [|u ts]; [apply T|].
  change (join (t :: u :: ts)) with (t ++ [44] ++ join (u :: ts)). rewrite depth_app, T. cbn [app depth Z.eqb Pos.eqb]. exact IH.
Qed.

Lemma sol_depth : forall s, sol_type s -> s <> [] /\ forall d, depth d s = Some d.
Proof.
  apply sol_type_ind'.
  - intros s N A. split; [exact N|]. clear N. induction A as [|c s C A IH]; intros d; [reflexivity|]. cbn [depth].
    unfold alphanumeric, lower_letter in C. replace (c =? 40) with false by lia. replace (c =? 41) with false by lia.
    replace (c =? 44) with false by lia. apply IH.
  - intros s S (N&D). split; [destruct s; discriminate|]. intros d. rewrite depth_app, D. reflexivity.
  - intros ts F G. split; [discriminate|]. intros d. cbn [app depth]. change (40 =? 40) with true. cbv iota.
    rewrite depth_app, depth_join by (eapply Forall_impl; [|exact G]; cbn; tauto). reflexivity.
Qed.

(** Two balanced names followed by a separator or the end are equal if the texts are. *)
Lemma depth_split : forall p q d x y, depth d p = Some d -> depth d q = Some d -> d = O ->
  (x = [] \/ exists x', x = 44 :: x') -> (y = [] \/ exists y', y = 44 :: y') -> p ++ x = q ++ y -> p = q.
Proof.
  assert (G : forall p q d x y, depth d p = Some O -> depth d q = Some O ->
    (x = [] \/ exists x', x = 44 :: x') -> (y = [] \/ exists y', y = 44 :: y') -> p ++ x = q ++ y -> p = q).
  { induction p as [|c p IH]; intros [|e q] d x y Dp Dq X Y E; [reflexivity| | |].
    - cbn [depth] in Dp. injection Dp as ->. cbn [app] in E. destruct X as [->|(x'&->)]; [discriminate|].
      assert (e = 44) by congruence. subst e. cbn in Dq. discriminate.
    - cbn [depth] in Dq. injection Dq as ->. cbn [app] in E. destruct Y as [->|(y'&->)]; [discriminate|].
      assert (c = 44) by congruence. subst c. cbn in Dp. discriminate.
    - cbn [app] in E. assert (c = e) by congruence. subst e. assert (E' : p ++ x = q ++ y) by congruence. f_equal.
      cbn [depth] in Dp, Dq. revert Dp Dq.
      destruct (c =? 40); [|destruct (c =? 41); [|destruct (c =? 44)]]; try destruct d; intros Dp Dq; try discriminate;
        exact (IH q _ x y Dp Dq X Y E'). }
  intros p q d x y Dp Dq ->. eapply G; eassumption.
Qed.

Lemma join_injective : forall ps qs, Forall sol_type ps -> Forall sol_type qs -> join ps = join qs -> ps = qs.
Proof.
  assert (J : forall t ts, join (t :: ts) = t ++ match ts with [] => [] | _ => 44 :: join ts end).
  { intros t [|u ts]; [cbn; rewrite app_nil_r; reflexivity|reflexivity]. }
  assert (N : forall t ts, sol_type t -> join (t :: ts) <> []).
  { intros t ts T E. rewrite J in E. apply app_eq_nil in E. destruct (sol_depth t T). tauto. }
  induction ps as [|p ps IH]; intros [|q qs] P Q E; [reflexivity| | |].
  - inversion Q; subst. symmetry in E. apply N in E; [contradiction|assumption].
  - inversion P; subst. apply N in E; [contradiction|assumption].
  - inversion P as [|? ? P1 P2]; subst. inversion Q as [|? ? Q1 Q2]; subst. rewrite !J in E.
    assert (p = q).
    { eapply (depth_split p q O); [apply sol_depth; exact P1|apply sol_depth; exact Q1|reflexivity| | |exact E].
      - destruct ps; [left; reflexivity|right; eexists; reflexivity].
      - destruct qs; [left; reflexivity|right; eexists; reflexivity]. }
    subst q. f_equal. apply app_inv_head in E. destruct ps as [|p1 ps], qs as [|q1 qs]; [reflexivity|discriminate|discriminate|].
    injection E as E. apply IH; assumption.
Qed.

Lemma signature_determines : forall a b ps qs, snake_case a -> snake_case b -> Forall sol_type ps -> Forall sol_type qs ->
  signature_string a ps = signature_string b qs -> a = b /\ ps = qs.
Proof.
  intros a b ps qs A B P Q E. assert (a = b) by (eapply signature_injective; eassumption). subst b. split; [reflexivity|].
  unfold signature_string in E. apply app_inv_head in E. injection E as E. apply app_inj_tail in E.
  apply join_injective; tauto.
Qed.

(** ** ULEB128 *)

Lemma lor_add : forall v x s, 0 <= s -> 0 <= v < 2 ^ s -> Z.lor v (x * 2 ^ s) = v + x * 2 ^ s.
Proof.
  intros. assert (E : Z.land v (x * 2 ^ s) = 0); [|rewrite Z.add_nocarry_lxor, Z.lxor_lor by exact E; reflexivity].
  apply Z.bits_inj'. intros k Hk. rewrite Z.land_spec, Z.bits_0.
  destruct (Z.lt_ge_cases k s).
  - rewrite Z.mul_pow2_bits_low by lia. apply andb_false_r.
  - replace (Z.testbit v k) with false; [reflexivity|]. symmetry.
    destruct (Z.eq_dec v 0) as [->|]; [apply Z.bits_0|]. apply Z.bits_above_log2; [lia|].
    apply Z.log2_lt_pow2; [lia|]. apply Z.lt_le_trans with (2 ^ s); [lia|]. apply Z.pow_le_mono_r; lia.
Qed.

Lemma land_127 : forall b, Z.land b 127 = b mod 128.
Proof. intros. change 127 with (Z.ones 7). rewrite Z.land_ones by lia. reflexivity. Qed.

Lemma land_128 : forall b, 0 <= b < 256 -> Z.land b 128 = if b <? 128 then 0 else 128.
Proof.
  intros. apply Z.bits_inj'. intros k Hk. rewrite Z.land_spec.
  assert (E128 : forall j, 0 <= j -> Z.testbit 128 j = (j =? 7)).
  { intros. change 128 with (2 ^ 7). rewrite Z.pow2_bits_eqb by lia. apply Z.eqb_sym. }
  rewrite E128 by lia. destruct (Z.eq_dec k 7) as [->|N].
  - rewrite andb_true_r. rewrite Z.testbit_odd, Z.shiftr_div_pow2 by lia. change (2 ^ 7) with 128.
    destruct (b <? 128) eqn:E.
    + replace (b / 128) with 0; [reflexivity|]. symmetry. apply Z.div_small. lia.
    + replace (b / 128) with 1; [reflexivity|]. apply (Z.div_unique _ _ _ (b - 128)); lia.
  - replace (k =? 7) with false by (symmetry; lia). rewrite andb_false_r. destruct (b <? 128); [symmetry; apply Z.bits_0|].
    rewrite E128 by lia. symmetry. lia.
Qed.

Lemma uleb_nonneg : forall n bs, uleb128 n bs -> 0 <= n.
Proof. intros n bs H. destruct H; lia. Qed.

Lemma decode_uleb_gen : forall n bs, uleb128 n bs -> forall v s rest, 0 <= s -> 0 <= v < 2 ^ s -> n * 2 ^ s < 2 ^ 64 ->
  decode_uleb128 v s (bs ++ rest) = Some (v + n * 2 ^ s, rest).
Proof.
  assert (SM : forall v x s, 0 <= s -> 0 <= v < 2 ^ s -> 0 <= x -> x * 2 ^ s < 2 ^ 64 ->
    Z.lor v (Z.shiftl x s mod 2 ^ 64) = v + x * 2 ^ s).
  { intros. rewrite Z.shiftl_mul_pow2 by lia. rewrite Z.mod_small; [apply lor_add; lia|].
    split; [apply Z.mul_nonneg_nonneg; lia|lia]. }
  induction 1 as [n Hn|n bs Hn U IH]; intros v s rest Hs Hv Hb; cbn [app decode_uleb128].
  - rewrite land_127, (Z.mod_small n 128) by lia. rewrite (land_128 n) by lia. replace (n <? 128) with true by lia. cbn [Z.eqb].
    rewrite SM by lia. reflexivity.
  - pose proof (Z.mod_pos_bound n 128 ltac:(lia)). pose proof (Z.div_mod n 128 ltac:(lia)) as D.
    rewrite land_127. replace ((128 + n mod 128) mod 128) with (n mod 128)
      by (rewrite Z.add_mod, Z.mod_same, Z.add_0_l, !Z.mod_mod by lia; reflexivity).
    rewrite (land_128 (128 + n mod 128)) by lia. replace (128 + n mod 128 <? 128) with false by lia. change (128 =? 0) with false. cbn iota.
    assert (P : 0 < 2 ^ s) by (apply Z.pow_pos_nonneg; lia).
    assert (E7 : 2 ^ (s + 7) = 128 * 2 ^ s) by (rewrite Z.pow_add_r by lia; change (2 ^ 7) with 128; lia).
    assert (n / 128 * 2 ^ (s + 7) <= n * 2 ^ s).
    { rewrite E7. replace (n / 128 * (128 * 2 ^ s)) with (128 * (n / 128) * 2 ^ s) by ring. apply Z.mul_le_mono_nonneg_r; lia. }
    assert (n mod 128 * 2 ^ s <= n * 2 ^ s) by (apply Z.mul_le_mono_nonneg_r; [lia|]; apply Z.mod_le; lia).
    assert (n mod 128 * 2 ^ s <= 127 * 2 ^ s) by (apply Z.mul_le_mono_nonneg_r; lia).
    assert (0 <= n mod 128 * 2 ^ s) by (apply Z.mul_nonneg_nonneg; lia).
    rewrite SM by lia. rewrite IH; [|lia|rewrite E7; lia|lia]. f_equal. f_equal. rewrite E7.
    rewrite D at 3. ring.
Qed.

Lemma decode_uleb_ok : forall n bs rest, 0 <= n < 2 ^ 64 -> uleb128 n bs -> decode_uleb128 0 0 (bs ++ rest) = Some (n, rest).
Proof. intros n bs rest Hn U. rewrite (decode_uleb_gen n bs U); [f_equal; f_equal; lia|lia|lia|lia]. Qed.

Lemma uleb_total : forall n, 0 <= n -> exists bs, uleb128 n bs.
Proof.
  intros n Hn. pose proof (Zlt_0_ind (fun n => exists bs, uleb128 n bs)) as I. apply I; [|exact Hn]. clear n Hn I.
  intros n IH Hn. destruct (Z.lt_ge_cases n 128).
  - exists [n]. constructor. lia.
  - destruct (IH (n / 128)) as (bs&U); [split; [apply Z.div_pos; lia|apply Z.div_lt; lia]|]. exists ((128 + n mod 128) :: bs). constructor; assumption.
Qed.

Lemma decode_uleb_short : forall n bs, uleb128 n bs -> forall k v s, (k < List.length bs)%nat -> decode_uleb128 v s (firstn k bs) = None.
Proof.
  induction 1 as [n Hn|n bs Hn U IH]; intros k v s Hk; cbn [List.length] in Hk.
  - replace k with 0%nat by lia. reflexivity.
  - destruct k; [reflexivity|]. cbn [firstn decode_uleb128].
    pose proof (Z.mod_pos_bound n 128 ltac:(lia)).
    rewrite (land_128 (128 + n mod 128)) by lia. replace (128 + n mod 128 <? 128) with false by lia. change (128 =? 0) with false. cbn iota.
    apply IH. lia.
Qed.

(** ** Instantiation *)

Definition ity_ind' (P : ity -> Prop)
  (Hbase : forall t, match t with IVector _ | IRef _ | IMutRef _ | IGenericStructInstance _ _ _ _ | IGenericEnumInstance _ _ _ => True | _ => P t end)
  (Hvec : forall t, P t -> P (IVector t)) (Href : forall t, P t -> P (IRef t)) (Hmut : forall t, P t -> P (IMutRef t))
  (Hstruct : forall m i ts vm, Forall P ts -> P (IGenericStructInstance m i ts vm))
  (Henum : forall m i ts, Forall P ts -> P (IGenericEnumInstance m i ts)) : forall t, P t :=
  fix F (t : ity) : P t :=
    let fix all (l : list ity) : Forall P l :=
      match l with [] => Forall_nil P | x :: l' => Forall_cons x (F x) (all l') end in
    match t with
    | IVector t' => Hvec t' (F t')
    | IRef t' => Href t' (F t')
    | IMutRef t' => Hmut t' (F t')
    | IGenericStructInstance m i ts vm => Hstruct m i ts vm (all ts)
    | IGenericEnumInstance m i ts => Henum m i ts (all ts)
    | t0 => Hbase t0
    end.

Lemma contains_generics_iff : forall t, type_contains_generics t = true <-> exists i, occurs i t.
Proof.
  assert (L : forall ts, Forall (fun t => type_contains_generics t = true <-> exists i, occurs i t) ts ->
    (existsb type_contains_generics ts = true <-> exists t i, In t ts /\ occurs i t)).
  { intros ts F. rewrite Forall_forall in F. rewrite existsb_exists. split.
    - intros (t&I&G). apply (F t I) in G. destruct G as (i&O). eauto.
    - intros (t&i&I&O). exists t. split; [exact I|]. apply (F t I). eauto. }
  refine (ity_ind' _ _ _ _ _ _ _); [intros t|intros t IHt|intros t IHt|intros t IHt|intros m k0 ts vm H|intros m k0 ts H]; cbn [type_contains_generics].
  - destruct t; cbn [type_contains_generics]; try exact I; try (split; [discriminate|intros (j&O); inversion O]).
    split; [eauto using occurs|reflexivity].
  - rewrite IHt. split; intros (i&O); exists i; [constructor; exact O|inversion O; assumption].
  - rewrite IHt. split; intros (i&O); exists i; [constructor; exact O|inversion O; assumption].
  - rewrite IHt. split; intros (i&O); exists i; [constructor; exact O|inversion O; assumption].
  - rewrite (L ts H). split; [intros (t&j&I&O); exists j; econstructor; eauto|intros (j&O); inversion O; eauto].
  - rewrite (L ts H). split; [intros (t&j&I&O); exists j; econstructor; eauto|intros (j&O); inversion O; eauto].
Qed.

(** The parameters of an instantiated type are those of the types substituted for the occurring ones. *)
Lemma occurs_replace : forall t ts j, (forall i, occurs i t -> (i < List.length ts)%nat) ->
  (occurs j (replace_type_parameters t ts) <-> exists i u, occurs i t /\ nth_error ts i = Some u /\ occurs j u).
Proof.
  assert (L : forall tys ts j,
    Forall (fun t => forall ts j, (forall i, occurs i t -> (i < List.length ts)%nat) ->
       (occurs j (replace_type_parameters t ts) <-> exists i u, occurs i t /\ nth_error ts i = Some u /\ occurs j u)) tys ->
    (forall t i, In t tys -> occurs i t -> (i < List.length ts)%nat) ->
    ((exists x, In x (map (fun x => replace_type_parameters x ts) tys) /\ occurs j x) <->
     (exists t i u, In t tys /\ occurs i t /\ nth_error ts i = Some u /\ occurs j u))).
  { intros tys ts j F B. rewrite Forall_forall in F. split.
    - intros (x&I&O). apply in_map_iff in I. destruct I as (t&<-&I). apply (F t I) in O; [|eauto].
      destruct O as (i&u&A&C&D). exists t, i, u. auto.
    - intros (t&i&u&I&A&C&D). exists (replace_type_parameters t ts). split; [apply in_map_iff; eauto|].
      apply (F t I); [eauto|]. eauto. }
  refine (ity_ind' _ _ _ _ _ _ _); [intros t|intros t IHt|intros t IHt|intros t IHt|intros m k0 ts vm H|intros m k0 ts H]; cbn [replace_type_parameters].
  - destruct t; try exact I; try (intros ts j B; split; [intros O; inversion O|intros (k&u&O&_); inversion O]; fail).
    intros ts j B. cbn [replace_type_parameters]. specialize (B i (occ_param i)).
    destruct (nth_error ts i) as [u|] eqn:E; [|apply nth_error_None in E; lia].
    rewrite (nth_error_nth ts i _ E). split.
    + intros O. exists i, u. split; [constructor|auto].
    + intros (k&u'&O&A&D). inversion O; subst. congruence.
  - intros ts j B. assert (B' : forall i, occurs i t -> (i < List.length ts)%nat) by (intros; apply B; constructor; assumption).
    specialize (IHt ts j B'). split.
    + intros O. inversion O; subst. apply IHt in H0. destruct H0 as (i&u&A&C). exists i, u. split; [constructor|]; assumption.
    + intros (i&u&A&C). inversion A; subst. constructor. apply IHt. eauto.
  - intros ts j B. assert (B' : forall i, occurs i t -> (i < List.length ts)%nat) by (intros; apply B; constructor; assumption).
    specialize (IHt ts j B'). split.
    + intros O. inversion O; subst. apply IHt in H0. destruct H0 as (i&u&A&C). exists i, u. split; [constructor|]; assumption.
    + intros (i&u&A&C). inversion A; subst. constructor. apply IHt. eauto.
  - intros ts j B. assert (B' : forall i, occurs i t -> (i < List.length ts)%nat) by (intros; apply B; constructor; assumption).
    specialize (IHt ts j B'). split.
    + intros O. inversion O; subst. apply IHt in H0. destruct H0 as (i&u&A&C). exists i, u. split; [constructor|]; assumption.
    + intros (i&u&A&C). inversion A; subst. constructor. apply IHt. eauto.
  - intros us j B. specialize (L ts us j H). destruct L as [L1 L2]; [intros t k I O; apply B; econstructor; eauto|]. split.
    + intros O. inversion O; subst. destruct L1 as (x&k&u&I&A&C); [eauto|]. exists k, u. split; [econstructor; eauto|exact C].
    + intros (k&u&A&C). inversion A; subst. destruct L2 as (x&I&O); [eauto 6|]. econstructor; eauto.
  - intros us j B. specialize (L ts us j H). destruct L as [L1 L2]; [intros t k I O; apply B; econstructor; eauto|]. split.
    + intros O. inversion O; subst. destruct L1 as (x&k&u&I&A&C); [eauto|]. exists k, u. split; [econstructor; eauto|exact C].
    + intros (k&u&A&C). inversion A; subst. destruct L2 as (x&I&O); [eauto 6|]. econstructor; eauto.
Qed.

Lemma replace_closed : forall t ts, (forall i, ~ occurs i t) -> replace_type_parameters t ts = t.
Proof.
  assert (L : forall tys ts, Forall (fun t => forall ts, (forall i, ~ occurs i t) -> replace_type_parameters t ts = t) tys ->
    (forall t i, In t tys -> ~ occurs i t) -> map (fun x => replace_type_parameters x ts) tys = tys).
  { intros tys ts F B. rewrite <- (map_id tys) at 2. apply map_ext_in. intros t I. rewrite Forall_forall in F. apply F; [exact I|eauto]. }
  refine (ity_ind' _ _ _ _ _ _ _); [intros t|intros t IHt|intros t IHt|intros t IHt|intros m k0 ts vm H|intros m k0 ts H]; cbn [replace_type_parameters].
  - destruct t; try exact I; try reflexivity. intros ts B. exfalso. exact (B i (occ_param i)).
  - intros ts B. f_equal. apply IHt. intros i O. apply (B i). constructor. exact O.
  - intros ts B. f_equal. apply IHt. intros i O. apply (B i). constructor. exact O.
  - intros ts B. f_equal. apply IHt. intros i O. apply (B i). constructor. exact O.
  - intros us B. f_equal. apply L; [exact H|]. intros t k I O. apply (B k). econstructor; eauto.
  - intros us B. f_equal. apply L; [exact H|]. intros t k I O. apply (B k). econstructor; eauto.
Qed.

Lemma replace_compose : forall t ts us, (forall i, occurs i t -> (i < List.length ts)%nat) ->
  replace_type_parameters (replace_type_parameters t ts) us =
  replace_type_parameters t (map (fun x => replace_type_parameters x us) ts).
Proof.
  assert (L : forall tys ts us, Forall (fun t => forall ts us, (forall i, occurs i t -> (i < List.length ts)%nat) ->
      replace_type_parameters (replace_type_parameters t ts) us =
      replace_type_parameters t (map (fun x => replace_type_parameters x us) ts)) tys ->
    (forall t i, In t tys -> occurs i t -> (i < List.length ts)%nat) ->
    map (fun x => replace_type_parameters x us) (map (fun x => replace_type_parameters x ts) tys) =
    map (fun x => replace_type_parameters x (map (fun x => replace_type_parameters x us) ts)) tys).
  { intros tys ts us F B. rewrite map_map. apply map_ext_in. intros t I. rewrite Forall_forall in F. apply F; [exact I|eauto]. }
  refine (ity_ind' _ _ _ _ _ _ _); [intros t|intros t IHt|intros t IHt|intros t IHt|intros m k0 ts vm H|intros m k0 ts H]; cbn [replace_type_parameters].
  - destruct t; try exact I; try reflexivity. intros ts us B. cbn [replace_type_parameters].
    specialize (B i (occ_param i)).
    destruct (nth_error ts i) as [u|] eqn:E; [|apply nth_error_None in E; lia].
    rewrite (nth_error_nth ts i _ E). symmetry. apply nth_error_nth. rewrite nth_error_map, E. reflexivity.
  - intros ts us B. f_equal. apply IHt. intros i O. apply B. constructor. exact O.
  - intros ts us B. f_equal. apply IHt. intros i O. apply B. constructor. exact O.
  - intros ts us B. f_equal. apply IHt. intros i O. apply B. constructor. exact O.
  - intros vs us B. f_equal. apply L; [exact H|]. intros t k I O. apply B. econstructor; eauto.
  - intros vs us B. f_equal. apply L; [exact H|]. intros t k I O. apply B. econstructor; eauto.
Qed.

Lemma instantiation_ok : forall t ts us, (forall i, occurs i t -> (i < List.length ts)%nat) ->
  (type_contains_generics t = true <-> exists i, occurs i t) /\
  ((forall u i, In u ts -> ~ occurs i u) -> forall i, ~ occurs i (replace_type_parameters t ts)) /\
  ((forall i, ~ occurs i t) -> replace_type_parameters t ts = t) /\
  replace_type_parameters (replace_type_parameters t ts) us =
    replace_type_parameters t (map (fun x => replace_type_parameters x us) ts).
Proof.
  intros t ts us B. split; [apply contains_generics_iff|]. split; [|split; [apply replace_closed|apply replace_compose; exact B]].
  intros C i O. apply occurs_replace in O; [|exact B]. destruct O as (k&u&_&E&O). apply nth_error_In in E. exact (C u i E O).
Qed.

(** ** Error table *)

Lemma err_eqb_eq : forall a b, err_eqb a b = true <-> a = b.
Proof. intros a b. split; [destruct a, b; (reflexivity || discriminate)|intros ->; destruct b; reflexivity]. Qed.

Definition blob (e : rt_error) : list Z := abi_encode_error_message e.
Definition blob_len (e : rt_error) : Z := Z.of_nat (List.length (blob e)).

(** The encoding is the length of the payload followed by the payload the ABI prescribes. *)
Lemma blob_spec : forall e, blob e = u32_le (Z.of_nat (List.length (error_string (error_bytes e)))) ++ error_string (error_bytes e).
Proof. intros []; vm_compute; reflexivity. Qed.

Lemma blob_len_bound : forall e, 76 < blob_len e <= 255.
Proof. intros []; vm_compute; split; (reflexivity || discriminate). Qed.

Lemma blob_bytes : forall e, Forall (fun b => 0 <= b < 256) (blob e).
Proof.
  intros e. apply Forall_forall. intros b I.
  assert (G : forallb (fun b => (0 <=? b) && (b <? 256)) (blob e) = true) by (destruct e; vm_compute; reflexivity).
  rewrite forallb_forall in G. specialize (G b I). apply andb_true_iff in G. lia.
Qed.

Lemma get_error_eq : forall d e, get_error d e =
  match find_error e (errors d) with
  | Some o => Some (o, d)
  | None => Some (next_offset d, mkED (next_offset d + blob_len e) ((e, next_offset d) :: errors d) (segments d ++ [(next_offset d, blob e)]))
  end.
Proof.
  intros. unfold get_error. destruct (find_error e (errors d)); [reflexivity|].
  fold (blob e). fold (blob_len e). pose proof (blob_len_bound e). replace (255 <? blob_len e) with false by lia. reflexivity.
Qed.

(** The invariant of the table: entries are laid out one after the other, newest first. *)
Fixpoint stacked (l : list (rt_error * Z)) (top : Z) : Prop :=
  match l with
  | [] => top = 468
  | (e, o) :: l' => top = o + blob_len e /\ stacked l' o /\ find_error e l' = None
  end.

Definition ed_ok (d : error_data) : Prop :=
  stacked (errors d) (next_offset d) /\ segments d = rev (map (fun p => (snd p, blob (fst p))) (errors d)).

Lemma find_error_cons : forall e e' o l, find_error e ((e', o) :: l) = if err_eqb e e' then Some o else find_error e l.
Proof. intros. unfold find_error. cbn [find fst]. destruct (err_eqb e e'); reflexivity. Qed.

Lemma get_error_ok : forall d e, ed_ok d -> exists o d', get_error d e = Some (o, d') /\ ed_ok d' /\ assigned d' e o /\
  (forall e' o', assigned d e' o' -> assigned d' e' o').
Proof.
  intros d e [S G]. rewrite get_error_eq. destruct (find_error e (errors d)) as [o|] eqn:E.
  - exists o, d. repeat split; auto.
  - eexists _, _. split; [reflexivity|]. unfold ed_ok, assigned; cbn [errors next_offset segments stacked].
    split; [split; [auto|cbn [map rev]; rewrite G; reflexivity]|].
    rewrite find_error_cons. replace (err_eqb e e) with true by (symmetry; apply err_eqb_eq; reflexivity). split; [reflexivity|].
    intros e' o' A. rewrite find_error_cons. destruct (err_eqb e' e) eqn:K; [|exact A]. apply err_eqb_eq in K. congruence.
Qed.

Lemma get_errors_ok : forall es d, ed_ok d -> exists os d', get_errors d es = Some (os, d') /\ ed_ok d' /\
  Forall2 (assigned d') es os /\ (forall e o, assigned d e o -> assigned d' e o).
Proof.
  induction es as [|e es IH]; intros d D; cbn [get_errors].
  - exists [], d. repeat split; auto; apply D.
  - destruct (get_error_ok d e D) as (o&d1&E1&D1&A1&K1). rewrite E1. destruct (IH d1 D1) as (os&d2&E2&D2&A2&K2). rewrite E2.
    exists (o :: os), d2. split; [reflexivity|]. split; [exact D2|]. split; [constructor; auto|auto].
Qed.

Lemma ed_new_ok : ed_ok error_data_new.
Proof. split; reflexivity. Qed.

Lemma stacked_range : forall l top e o, stacked l top -> find_error e l = Some o -> 468 <= o /\ o + blob_len e <= top.
Proof.
  induction l as [|[e' o'] l IH]; intros top e o S F; [discriminate|]. cbn [stacked] in S. destruct S as (->&S&N).
  rewrite find_error_cons in F. pose proof (blob_len_bound e').
  assert (468 <= o').
  { clear - S. revert o' S. induction l as [|[e2 o2] l IH]; intros o' S; cbn [stacked] in S; [lia|].
    destruct S as (->&S&_). specialize (IH _ S). pose proof (blob_len_bound e2). lia. }
  destruct (err_eqb e e') eqn:K.
  - injection F as <-. apply err_eqb_eq in K. subst. lia.
  - destruct (IH _ _ _ S F). lia.
Qed.

Lemma stacked_disjoint : forall l top e o e' o', stacked l top -> find_error e l = Some o -> find_error e' l = Some o' -> e <> e' ->
  o + blob_len e <= o' \/ o' + blob_len e' <= o.
Proof.
  induction l as [|[e2 o2] l IH]; intros top e o e' o' S F F' N; [discriminate|]. cbn [stacked] in S. destruct S as (->&S&N2).
  rewrite find_error_cons in F, F'. destruct (err_eqb e e2) eqn:K; destruct (err_eqb e' e2) eqn:K'.
  - apply err_eqb_eq in K, K'. congruence.
  - injection F as <-. right. apply (stacked_range _ _ _ _ S) in F'. lia.
  - injection F' as <-. left. apply (stacked_range _ _ _ _ S) in F. lia.
  - eapply IH; eauto.
Qed.

(** There are only twelve errors. *)
Definition all_errors : list rt_error :=
  [FrozenObjectsCannotBeShared; SharedObjectsCannotBeFrozen; FrozenObjectsCannotBeTransferred; SharedObjectsCannotBeTransferred;
   StorageObjectNotFound; FrozenObjectsCannotBeDeleted; StorageObjectTypeMismatch; Overflow; OutOfBounds; MemoryAccessOutOfBounds;
   EnumSizeTooLarge; VectorNotEmpty].

Lemma stacked_top : forall l top, stacked l top -> 468 <= top <= 468 + 255 * Z.of_nat (List.length l) /\ NoDup (map fst l).
Proof.
  induction l as [|[e o] l IH]; intros top S; cbn [stacked] in S.
  - split; [cbn; lia|constructor].
  - destruct S as (->&S&N). destruct (IH _ S) as [A B]. pose proof (blob_len_bound e).
    split; [cbn [List.length]; lia|]. cbn [map fst]. constructor; [|exact B].
    intros I. apply in_map_iff in I. destruct I as ([e' o']&E&I). cbn [fst] in E. subst e'.
    unfold find_error in N. destruct (find _ l) eqn:F; [discriminate|].
    apply (find_none _ _ F) in I. cbn [fst] in I. assert (err_eqb e e = true) by (apply err_eqb_eq; reflexivity). congruence.
Qed.

Lemma stacked_bound : forall l top, stacked l top -> 468 <= top <= 3528.
Proof.
  intros l top S. destruct (stacked_top _ _ S) as [A B].
  assert (L : (List.length (map fst l) <= List.length all_errors)%nat).
  { apply NoDup_incl_length; [exact B|]. intros e _. destruct e; cbn; tauto. }
  rewrite map_length in L. cbn [all_errors List.length] in L. lia.
Qed.

Lemma instantiate_app : forall a b, instantiate (a ++ b) = fold_left (fun m s => write_bytes m (fst s) (snd s)) b (instantiate a).
Proof. intros. unfold instantiate. apply fold_left_app. Qed.

Lemma rd_write_out : forall m a bs x, ~ (a <= x < a + Z.of_nat (List.length bs)) -> rd (write_bytes m a bs) x = rd m x.
Proof.
  intros. unfold rd, write_bytes. destruct ((a <=? x) && (x <? a + Z.of_nat (List.length bs))) eqn:E; [|reflexivity].
  apply andb_true_iff in E. lia.
Qed.

Lemma bytes_write : forall m a bs, Forall (fun b => 0 <= b < 256) bs -> bytes (List.length bs) (write_bytes m a bs) a = bs.
Proof.
  intros m a bs F. apply nth_ext with (d := 0) (d' := 0); [apply bytes_length|]. rewrite bytes_length. intros i Hi.
  rewrite bytes_nth by exact Hi. unfold rd, write_bytes.
  replace ((a <=? a + Z.of_nat i) && (a + Z.of_nat i <? a + Z.of_nat (List.length bs))) with true by (symmetry; apply andb_true_iff; lia).
  replace (Z.to_nat (a + Z.of_nat i - a)) with i by lia. rewrite Forall_forall in F. apply Z.mod_small. apply F. apply nth_In. exact Hi.
Qed.

(** Segments of the table after the fixed ones. *)
Lemma table_memory : forall l top m, stacked l top ->
  let M := fold_left (fun m s => write_bytes m (fst s) (snd s)) (rev (map (fun p => (snd p, blob (fst p))) l)) m in
  (forall e o, find_error e l = Some o -> bytes (List.length (blob e)) M o = blob e) /\
  (forall x, ~ (468 <= x < top) -> rd M x = rd m x).
Proof.
  induction l as [|[e o] l IH]; intros top m S.
  - split; [discriminate|reflexivity].
  - cbn [stacked] in S. destruct S as (->&S&N). destruct (IH _ m S) as [A B]. cbn [map rev fst snd] in *.
    rewrite fold_left_app. cbn [fold_left fst snd].
    set (M := fold_left _ _ m) in *. pose proof (stacked_bound _ _ S) as R. split.
    + intros e' o' F. rewrite find_error_cons in F. destruct (err_eqb e' e) eqn:K.
      * injection F as <-. apply err_eqb_eq in K. subst. apply bytes_write, blob_bytes.
      * transitivity (bytes (List.length (blob e')) M o'); [|apply A; exact F].
        apply bytes_ext. intros i Hi. apply rd_write_out. destruct (stacked_range _ _ _ _ S F). unfold blob_len in *. lia.
    + intros x Hx. rewrite rd_write_out; [|unfold blob_len in Hx; lia]. apply B. pose proof (blob_len_bound e). lia.
Qed.

Lemma u32_le_load : forall m a v, 0 <= v < 2 ^ 32 -> bytes 4 m a = u32_le v -> load 4 m a = v.
Proof.
  intros m a v Hv E. unfold u32_le in E. cbn [bytes] in E. injection E as E0 E1 E2 E3.
  cbn [load]. rewrite E0, E1, E2, E3.
  pose proof (Z.div_mod v 256 ltac:(lia)). pose proof (Z.div_mod (v / 256) 256 ltac:(lia)). pose proof (Z.div_mod (v / 65536) 256 ltac:(lia)).
  assert (v / 256 / 256 = v / 65536) by (rewrite Z.div_div by lia; reflexivity).
  assert (v / 65536 / 256 = v / 16777216) by (rewrite Z.div_div by lia; reflexivity).
  assert ((v / 16777216) mod 256 = v / 16777216); [|lia].
  apply Z.mod_small. split; [apply Z.div_pos; lia|apply Z.div_lt_upper_bound; lia].
Qed.

Lemma payload_in_memory : forall d e o limit h, ed_ok d -> assigned d e o ->
  let w := initial_world d limit h in let msg := error_string (error_bytes e) in
  load 4 (mem w) o = Z.of_nat (List.length msg) /\ bytes (List.length msg) (mem w) (o + 4) = msg.
Proof.
  intros d e o limit h [S G] A. cbn zeta. unfold initial_world; cbn [mem]. rewrite instantiate_app, G.
  destruct (table_memory (errors d) (next_offset d) (instantiate fixed_segments) S) as [B _].
  specialize (B e o A). rewrite blob_spec in B. rewrite app_length in B.
  set (M := fold_left _ _ _) in *. set (msg := error_string (error_bytes e)) in *.
  replace (List.length (u32_le (Z.of_nat (List.length msg)))) with 4%nat in B by reflexivity.
  rewrite bytes_app in B. apply app_eq_app in B.
  assert (E : bytes 4 M o = u32_le (Z.of_nat (List.length msg)) /\ bytes (List.length msg) M (o + 4) = msg).
  { destruct B as (l&[[B1 B2]|[B1 B2]]).
    - assert (l = []) as -> by (apply length_zero_iff_nil; apply (f_equal (@List.length Z)) in B1; rewrite app_length, bytes_length in B1; cbn [u32_le List.length] in B1; lia).
      rewrite app_nil_r in B1. cbn [app] in B2. split; [exact B1|symmetry; exact B2].
    - assert (l = []) as -> by (apply length_zero_iff_nil; apply (f_equal (@List.length Z)) in B1; rewrite app_length, bytes_length in B1; cbn [u32_le List.length] in B1; lia).
      rewrite app_nil_r in B1. cbn [app] in B2. split; [symmetry; exact B1|exact B2]. }
  split; [|apply E]. apply u32_le_load; [|apply E].
  pose proof (blob_len_bound e) as K. unfold blob_len in K. rewrite blob_spec, app_length in K. cbn [u32_le List.length] in K. fold msg in K. lia.
Qed.

Lemma error_table_ok : forall es, exists os d, get_errors error_data_new es = Some (os, d) /\ Forall2 (assigned d) es os /\
  (forall e o, assigned d e o -> 468 <= o /\ o + 4 + Z.of_nat (List.length (error_string (error_bytes e))) <= next_offset d) /\
  (forall e o e' o', assigned d e o -> assigned d e' o' -> e <> e' ->
     o + 4 + Z.of_nat (List.length (error_string (error_bytes e))) <= o' \/
     o' + 4 + Z.of_nat (List.length (error_string (error_bytes e'))) <= o) /\
  (forall e o limit h, assigned d e o ->
     let w := initial_world d limit h in let msg := error_string (error_bytes e) in
     load 4 (mem w) o = Z.of_nat (List.length msg) /\ bytes (List.length msg) (mem w) (o + 4) = msg) /\
  (forall limit h, 1 <= limit <= 65535 -> wok (initial_world d limit h) /\ abort_flag (initial_world d limit h) = 0).
Proof.
  intros es. destruct (get_errors_ok es _ ed_new_ok) as (os&d&E&D&A&_). exists os, d. split; [exact E|]. split; [exact A|].
  assert (BL : forall e, blob_len e = 4 + Z.of_nat (List.length (error_string (error_bytes e)))).
  { intros e. unfold blob_len. rewrite blob_spec, app_length. cbn [u32_le List.length]. lia. }
  pose proof D as [S G]. repeat split.
  - apply (stacked_range _ _ _ _ S H).
  - destruct (stacked_range _ _ _ _ S H). rewrite BL in *. lia.
  - intros e o e' o' H H' N. destruct (stacked_disjoint _ _ _ _ _ _ S H H' N); rewrite BL in *; lia.
  - apply (payload_in_memory d e o limit h D H).
  - apply (payload_in_memory d e o limit h D H).
  - unfold initial_world; cbn [pages maxpages]; lia.
  - unfold initial_world; cbn [pages maxpages]; lia.
  - unfold initial_world; cbn [pages maxpages]; lia.
  - unfold initial_world; cbn [gnext gavail]; pose proof (stacked_bound _ _ S); lia.
  - unfold initial_world; cbn [gnext gavail]; pose proof (stacked_bound _ _ S); lia.
  - unfold initial_world; cbn [gnext gavail]; pose proof (stacked_bound _ _ S); lia.
  - unfold initial_world; cbn [pages gnext gavail]. lia.
  - unfold initial_world; cbn [mem gnext]. intros a Ha. rewrite instantiate_app, G.
    destruct (table_memory (errors d) (next_offset d) (instantiate fixed_segments) S) as [_ B].
    rewrite B by lia. pose proof (stacked_bound _ _ S). unfold instantiate, fixed_segments. cbn [fold_left fst snd].
    rewrite !rd_write_out by (cbn; lia). reflexivity.
  - unfold abort_flag, initial_world; cbn [mem]. rewrite instantiate_app, G.
    destruct (table_memory (errors d) (next_offset d) (instantiate fixed_segments) S) as [_ B].
    transitivity (load 4 (instantiate fixed_segments) 256); [|vm_compute; reflexivity].
    apply load_ext. intros i Hi. apply B. lia.
Qed.
