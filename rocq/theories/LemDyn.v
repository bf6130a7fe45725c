(** * Names of dynamic fields: which of them have the same preimage. *)

From Verif Require Import Tac RtAlloc SpecAbi LemAbi SpecVal LemVal SpecSol RtPack LemStor SpecDyn RtDyn.
Ltac Zify.zify_post_hook ::= idtac.

Fixpoint names_of (fs : list ty) (l : list val) : Prop :=
  match fs, l with [], [] => True | f :: fs', v :: l' => name_of f v /\ names_of fs' l' | _, _ => False end.
Lemma name_struct : forall k fs v, name_of (TStruct k fs) v <-> exists l, v = VStruct 0 l /\ names_of fs l.
Proof.
  intros k fs v. cbn [name_of]. assert (E : forall l, (fix go fs l := match fs, l with [], [] => True | f :: fs', v' :: l' => name_of f v' /\ go fs' l' | _, _ => False end) fs l <-> names_of fs l).
  { induction fs as [|f fs IH]; intros [|v' l]; cbn [names_of]; try tauto; rewrite IH; tauto. }
  split; intros (l&->&H); exists l; (split; [reflexivity|]); apply E; exact H.
Qed.

Lemma le_bytes_inj : forall n a b, 0 <= a < 256 ^ Z.of_nat n -> 0 <= b < 256 ^ Z.of_nat n -> le_bytes n a = le_bytes n b -> a = b.
Proof.
  induction n as [|n IH]; intros a b Ha Hb E; [cbn in Ha, Hb; lia|]. rewrite pow256_S in Ha, Hb. cbn [le_bytes] in E. injection E as E1 E2.
  apply IH in E2; [|split; [apply Z.div_pos; lia|apply Z.div_lt_upper_bound; lia]..].
  rewrite (Z.div_mod a 256), (Z.div_mod b 256) by lia. congruence.
Qed.
Lemma be_bytes_inj' : forall a b, 0 <= a < 2 ^ 256 -> 0 <= b < 2 ^ 256 -> be_bytes 32 a = be_bytes 32 b -> a = b.
Proof. intros a b Ha Hb E. apply word_inj; assumption. Qed.

Lemma int_name : forall t v, match t with TVec _ | TStruct _ _ | TEnum _ => False | _ => True end -> name_of t v -> exists n, v = VInt n /\ 0 <= n < 2 ^ vbits t /\
  key_bytes t v = (match t with TAddress => be_bytes 32 n | _ => le_bytes (int_size t) n end) /\ 2 ^ vbits t <= 256 ^ Z.of_nat (int_size t).
Proof.
  intros t v H N. assert (X : exists n, int_val t v n) by (destruct t; try contradiction; exact N). destruct X as (n&->&B). exists n. split; [reflexivity|]. split; [exact B|].
  destruct t; try contradiction; (split; [reflexivity|]); vm_compute; discriminate.
Qed.

Definition fixed_ok (t : ty) : Prop := fixed_size t = true ->
  (exists n, (1 <= n)%nat /\ forall v, name_of t v -> List.length (key_bytes t v) = n) /\
  forall v v', name_of t v -> name_of t v' -> key_bytes t v = key_bytes t v' -> v = v'.

Lemma scalar_inj : forall t, match t with TVec _ | TStruct _ _ | TEnum _ => False | _ => True end ->
  forall v v', name_of t v -> name_of t v' -> key_bytes t v = key_bytes t v' -> v = v'.
Proof.
  intros t H v v' N N' E. destruct (int_name t v H N) as (n&->&B&K&S). destruct (int_name t v' H N') as (n'&->&B'&K'&_). rewrite K, K' in E. f_equal.
  destruct t; try contradiction; try (apply le_bytes_inj in E; [exact E|lia..]).
  assert (2 ^ vbits TAddress <= 2 ^ 256) by (vm_compute; discriminate). apply be_bytes_inj' in E; [exact E|lia..].
Qed.
Lemma scalar_fixed : forall t, match t with TVec _ | TStruct _ _ | TEnum _ => False | _ => True end -> fixed_ok t.
Proof.
  intros t H _. split; [|apply scalar_inj; exact H].
  exists (match t with TAddress => 32 | _ => int_size t end)%nat. split; [destruct t; cbn; lia|]. intros v N. destruct (int_name t v H N) as (n&->&B&K&_). rewrite K.
  destruct t; try contradiction; try apply le_bytes_length. apply be_bytes_length.
Qed.

Lemma fixed_fields : forall fs, Forall fixed_ok fs -> forallb fixed_size fs = true ->
  (exists n, (List.length fs <= n)%nat /\ forall l, names_of fs l -> List.length (fields_bytes fs l) = n) /\
  forall l l', names_of fs l -> names_of fs l' -> fields_bytes fs l = fields_bytes fs l' -> l = l'.
Proof.
  induction 1 as [|f fs Hf _ IH]; cbn [forallb].
  - intros _. split; [exists 0%nat; split; [cbn; lia|intros [|]; cbn; tauto]|]. intros [|] [|]; cbn; tauto.
  - intros F. apply andb_prop in F. destruct F as (F1&F2). destruct (Hf F1) as ((n&N1&N2)&I1). destruct (IH F2) as ((m&M1&M2)&I2). split.
    + exists (n + m)%nat. split; [cbn [List.length]; lia|]. intros [|v l]; cbn [names_of fields_bytes]; [tauto|]. intros (A&B). rewrite app_length, N2, M2 by assumption. reflexivity.
    + intros [|v l] [|v' l']; cbn [names_of fields_bytes]; try tauto. intros (A&B) (A'&B') E. apply app_inj_length in E; [|rewrite !N2 by assumption; reflexivity].
      destruct E as (E1&E2). f_equal; auto.
Qed.

Lemma fixed_all : forall t, fixed_ok t.
Proof.
  apply ty_rec'.
  - intros t H. apply scalar_fixed. destruct t; try discriminate; exact Logic.I.
  - apply scalar_fixed. exact Logic.I.
  - apply scalar_fixed. exact Logic.I.
  - apply scalar_fixed. exact Logic.I.
  - intros t _ F. discriminate.
  - intros k fs H F. cbn [fixed_size] in F. apply andb_prop in F. destruct F as (F0&F). destruct (fixed_fields fs H F) as ((n&N1&N2)&I). split.
    + exists n. split; [destruct fs; [discriminate|cbn [List.length] in N1; lia]|]. intros v N. destruct (proj1 (name_struct _ _ _) N) as (l&->&Nl). rewrite key_struct_bytes. auto.
    + intros v v' N N' E. destruct (proj1 (name_struct _ _ _) N) as (l&->&Nl). destruct (proj1 (name_struct _ _ _) N') as (l'&->&Nl'). rewrite !key_struct_bytes in E. f_equal. auto.
  - intros vts _ F. discriminate.
Qed.

Lemma vec_inj : forall t, fixed_size t = true -> forall l l', Forall (name_of t) l -> Forall (name_of t) l' ->
  List.concat (map (key_bytes t) l) = List.concat (map (key_bytes t) l') -> l = l'.
Proof.
  intros t F. destruct (fixed_all t F) as ((n&N1&N2)&I). induction l as [|v l IH]; intros [|v' l'] H H'; cbn [map List.concat]; auto.
  - intros E. inversion H'; subst. apply (f_equal (@List.length Z)) in E. rewrite app_length, N2 in E by assumption. cbn in E. lia.
  - intros E. inversion H; subst. apply (f_equal (@List.length Z)) in E. rewrite app_length, N2 in E by assumption. cbn in E. lia.
  - intros E. inversion H; inversion H'; subst. apply app_inj_length in E; [|rewrite !N2 by assumption; reflexivity]. destruct E as (E1&E2). f_equal; auto.
Qed.

Definition one_ok (t : ty) : Prop := one_vector t = true -> forall v v', name_of t v -> name_of t v' -> key_bytes t v = key_bytes t v' -> v = v'.

Lemma app_inj_tail_length : forall (a a' b b' : list Z), List.length b = List.length b' -> a ++ b = a' ++ b' -> a = a' /\ b = b'.
Proof.
  intros a a' b b' L E. apply app_inj_length; [|exact E]. apply (f_equal (@List.length Z)) in E. rewrite !app_length in E. lia.
Qed.

Lemma one_fields : forall fs, Forall one_ok fs -> forallb one_vector fs = true -> (List.length (filter (fun f => negb (fixed_size f)) fs) <= 1)%nat ->
  forall l l', names_of fs l -> names_of fs l' -> fields_bytes fs l = fields_bytes fs l' -> l = l'.
Proof.
  induction 1 as [|f fs Hf _ IH]; cbn [forallb filter]; intros F C [|v l] [|v' l']; cbn [names_of fields_bytes]; try tauto.
  intros (A&B) (A'&B') E. apply andb_prop in F. destruct F as (F1&F2). destruct (fixed_size f) eqn:Fx; cbn [negb List.length] in C.
  - destruct (fixed_all f Fx) as ((n&N1&N2)&I). apply app_inj_length in E; [|rewrite !N2 by assumption; reflexivity]. destruct E as (E1&E2). f_equal; auto.
  - assert (R : forallb fixed_size fs = true).
    { rewrite forallb_forall. intros g G. destruct (fixed_size g) eqn:Fg; [reflexivity|exfalso].
      assert (In g (filter (fun f => negb (fixed_size f)) fs)) by (apply filter_In; rewrite Fg; auto). destruct (filter _ fs); [contradiction|cbn [List.length] in C; lia]. }
    destruct (fixed_fields fs (proj2 (Forall_forall _ _) (fun g _ => fixed_all g)) R) as ((n&N1&N2)&I).
    apply app_inj_tail_length in E; [|rewrite !N2 by assumption; reflexivity]. destruct E as (E1&E2). f_equal; auto.
Qed.

Lemma one_all : forall t, one_ok t.
Proof.
  apply ty_rec'.
  - intros t H _. apply scalar_inj. destruct t; try discriminate; exact Logic.I.
  - intros _. apply scalar_inj. exact Logic.I.
  - intros _. apply scalar_inj. exact Logic.I.
  - intros _. apply scalar_inj. exact Logic.I.
  - intros t _ F v v' (l&->&N) (l'&->&N') E. f_equal. eapply vec_inj; eassumption.
  - intros k fs H F v v' N N' E. cbn [one_vector] in F. apply andb_prop in F. destruct F as (F1&F2). apply Nat.leb_le in F2.
    destruct (proj1 (name_struct _ _ _) N) as (l&->&Nl). destruct (proj1 (name_struct _ _ _) N') as (l'&->&Nl'). rewrite !key_struct_bytes in E. f_equal. eapply one_fields; eassumption.
  - intros vts _ F. discriminate.
Qed.

Lemma preimage_inj : forall t name p p' v v', one_vector t = true -> name_of t v -> name_of t v' -> 0 <= p < 2 ^ 256 -> 0 <= p' < 2 ^ 256 ->
  preimage p t v name = preimage p' t v' name -> p = p' /\ v = v'.
Proof.
  intros t name p p' v v' O N N' Hp Hp' E. unfold preimage in E. apply app_inj_length in E; [|rewrite !be_bytes_length; reflexivity]. destruct E as (E1&E2). split.
  - apply be_bytes_inj'; assumption.
  - apply app_inv_tail in E2. eapply one_all; eassumption.
Qed.
