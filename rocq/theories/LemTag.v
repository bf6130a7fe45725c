(** * When two types have the same tag (proofs). *)

From Coq Require Import String.
From Verif Require Import Tac RtAlloc RtErr RtSwap RtCopy SpecAbi LemAbi SpecVal SpecStor SpecLayout RtStor LemStore RtSave RtLoad RtLoadObj LemPlace LemObj SpecDyn RtChild RtCall SpecMove SpecCache RtCache RtPeep LemPeep RtRouter Comp RtUid CompType CompTag SpecTag LemTypeName RtTypeName.
Ltac Zify.zify_post_hook ::= idtac.

Definition word64 (x : Z) : Prop := 0 <= x < 2 ^ 64.

Lemma bound_bits : forall x, (word64 x <-> 0 <= x /\ forall i, 64 <= i -> Z.testbit x i = false).
Proof.
  intros x. split.
  - intros (H1&H2). split; [exact H1|]. intros i Hi. destruct (Z.eq_dec x 0) as [->|]; [apply Z.bits_0|]. apply Z.bits_above_log2; [exact H1|].
    apply Z.lt_le_trans with 64; [apply Z.log2_lt_pow2; lia|exact Hi].
  - intros (H1&H2). split; [exact H1|]. destruct (Z.lt_ge_cases x (2 ^ 64)) as [|G]; [assumption|]. exfalso.
    assert (L : 64 <= Z.log2 x) by (apply Z.log2_le_pow2; lia). pose proof (H2 _ L) as B. rewrite Z.bit_log2 in B by lia. discriminate.
Qed.
Lemma lxor_word : forall x y, word64 x -> word64 y -> word64 (Z.lxor x y).
Proof.
  intros x y Hx Hy. apply bound_bits in Hx. apply bound_bits in Hy. apply bound_bits. destruct Hx as (X0&X), Hy as (Y0&Y). split; [apply Z.lxor_nonneg; tauto|].
  intros i Hi. rewrite Z.lxor_spec, X, Y by exact Hi. reflexivity.
Qed.

Lemma rotate_bits : forall h i, word64 h -> 0 <= i -> Z.testbit (rotate5 h) i = if i <? 5 then Z.testbit h (i + 59) else if i <? 64 then Z.testbit h (i - 5) else false.
Proof.
  intros h i Hh Hi. unfold rotate5. rewrite Z.lor_spec, Z.shiftr_spec by exact Hi. apply bound_bits in Hh. destruct Hh as (_&B).
  destruct (Z.ltb_spec i 5); [rewrite Z.mod_pow2_bits_low, Z.shiftl_spec_low by lia; reflexivity|].
  rewrite (B (i + 59)) by lia. rewrite orb_false_r. destruct (Z.ltb_spec i 64).
  - rewrite Z.mod_pow2_bits_low by lia. apply Z.shiftl_spec. lia.
  - apply Z.mod_pow2_bits_high. lia.
Qed.
Lemma rotate_word : forall h, word64 h -> word64 (rotate5 h).
Proof.
  intros h Hh. apply bound_bits. split.
  - unfold rotate5. apply Z.lor_nonneg. split; [apply Z.mod_pos_bound; lia|apply Z.shiftr_nonneg; apply Hh].
  - intros i Hi. rewrite rotate_bits by (assumption || lia). rewrite (proj2 (Z.ltb_ge i 5)), (proj2 (Z.ltb_ge i 64)) by lia. reflexivity.
Qed.
Lemma rotate_inj : forall h k, word64 h -> word64 k -> rotate5 h = rotate5 k -> h = k.
Proof.
  intros h k Hh Hk E. apply Z.bits_inj'. intros i Hi. destruct (Z.lt_ge_cases i 64) as [L|G].
  - destruct (Z.lt_ge_cases i 59).
    + pose proof (rotate_bits h (i + 5) Hh ltac:(lia)) as R1. pose proof (rotate_bits k (i + 5) Hk ltac:(lia)) as R2. rewrite E in R1. rewrite R1 in R2.
      rewrite (proj2 (Z.ltb_ge (i + 5) 5)), (proj2 (Z.ltb_lt (i + 5) 64)) in R2 by lia. replace (i + 5 - 5) with i in R2 by lia. exact R2.
    + pose proof (rotate_bits h (i - 59) Hh ltac:(lia)) as R1. pose proof (rotate_bits k (i - 59) Hk ltac:(lia)) as R2. rewrite E in R1. rewrite R1 in R2.
      rewrite (proj2 (Z.ltb_lt (i - 59) 5)) in R2 by lia. replace (i - 59 + 59) with i in R2 by lia. exact R2.
  - apply bound_bits in Hh. apply bound_bits in Hk. rewrite (proj2 Hh), (proj2 Hk) by exact G. reflexivity.
Qed.

Lemma fx_add_word : forall h w, word64 (fx_add h w).
Proof. intros. apply Z.mod_pos_bound. lia. Qed.
Definition seed_inverse : Z := 2323857671730065597.
Lemma times_inj : forall x y, word64 x -> word64 y -> (x * fx_seed) mod 2 ^ 64 = (y * fx_seed) mod 2 ^ 64 -> x = y.
Proof.
  assert (K : forall x, word64 x -> ((x * fx_seed) mod 2 ^ 64 * seed_inverse) mod 2 ^ 64 = x).
  { intros x Hx. rewrite Zmult_mod_idemp_l, <- Z.mul_assoc. rewrite <- Zmult_mod_idemp_r. replace ((fx_seed * seed_inverse) mod 2 ^ 64) with 1 by (vm_compute; reflexivity).
    rewrite Z.mul_1_r. apply Z.mod_small. exact Hx. }
  intros x y Hx Hy E. rewrite <- (K x Hx), <- (K y Hy), E. reflexivity.
Qed.
Lemma fx_add_inj_h : forall h k w, word64 h -> word64 k -> word64 w -> fx_add h w = fx_add k w -> h = k.
Proof.
  intros h k w Hh Hk Hw E. unfold fx_add in E. apply times_inj in E; [|apply lxor_word; [apply rotate_word|]; assumption..].
  apply rotate_inj; [assumption..|]. apply (f_equal (fun z => Z.lxor z w)) in E. rewrite !Z.lxor_assoc, Z.lxor_nilpotent, !Z.lxor_0_r in E. exact E.
Qed.
Lemma fx_add_inj_w : forall h v w, word64 h -> word64 v -> word64 w -> fx_add h v = fx_add h w -> v = w.
Proof.
  intros h v w Hh Hv Hw E. unfold fx_add in E. apply times_inj in E; [|apply lxor_word; [apply rotate_word|]; assumption..].
  apply (f_equal (fun z => Z.lxor (rotate5 h) z)) in E. rewrite <- !Z.lxor_assoc, Z.lxor_nilpotent, !Z.lxor_0_l in E. exact E.
Qed.

Lemma fold_word : forall l h, word64 h -> word64 (fold_left fx_add l h).
Proof. induction l; intros; cbn [fold_left]; [assumption|]. apply IHl. apply fx_add_word. Qed.
Lemma fold_inj : forall l h k, Forall word64 l -> word64 h -> word64 k -> fold_left fx_add l h = fold_left fx_add l k -> h = k.
Proof.
  induction l as [|w l IH]; intros h k Hl Hh Hk E; cbn [fold_left] in E; [exact E|]. inversion Hl; subst.
  apply IH in E; [|assumption|apply fx_add_word..]. eapply fx_add_inj_h; eassumption.
Qed.
Lemma fold_differ : forall l k, differ_in_one l k -> forall h, Forall word64 l -> Forall word64 k -> word64 h -> fold_left fx_add l h <> fold_left fx_add k h.
Proof.
  intros l k D. induction D as [x y l N|x l k D IH]; intros h Hl Hk Hh; inversion Hl; subst; inversion Hk; subst; cbn [fold_left].
  - intros E. apply fold_inj in E; [|assumption|apply fx_add_word..]. apply fx_add_inj_w in E; [contradiction|assumption..].
  - apply IH; [assumption|assumption|apply fx_add_word].
Qed.

Lemma differ_app_l : forall {A} (p l k : list A), differ_in_one l k -> differ_in_one (p ++ l) (p ++ k).
Proof. intros A p l k D. induction p; [exact D|]. cbn [app]. constructor. exact IHp. Qed.
Lemma differ_app_r : forall {A} (l k s : list A), differ_in_one l k -> differ_in_one (l ++ s) (k ++ s).
Proof. intros A l k s D. induction D; cbn [app]; constructor; assumption. Qed.

(** Eight bytes make a word; different bytes make different words. *)
Lemma le_word_range : forall bs, byte_list bs -> 0 <= le_word bs < 256 ^ Z.of_nat (List.length bs).
Proof.
  intros bs H. induction H as [|b bs Hb H IH]; [cbn; lia|]. cbn [le_word fold_right List.length]. fold (le_word bs). rewrite Nat2Z.inj_succ, Z.pow_succ_r by lia. lia.
Qed.
Lemma le_word_differ : forall l k, differ_in_one l k -> byte_list l -> byte_list k -> le_word l <> le_word k.
Proof.
  intros l k D. induction D as [x y l N|x l k D IH]; intros Hl Hk; inversion Hl; subst; inversion Hk; subst; cbn [le_word fold_right]; [lia|].
  specialize (IH ltac:(assumption) ltac:(assumption)). fold (le_word l) (le_word k). lia.
Qed.

Lemma list8_ind : forall (P : list Z -> Prop), (forall l, (List.length l < 4)%nat -> P l) ->
  (forall p r, List.length p = 4%nat -> (List.length r < 4)%nat -> P (p ++ r)) ->
  (forall p r, List.length p = 8%nat -> P r -> P (p ++ r)) -> forall l, P l.
Proof.
  intros P Hs Hm Hb. fix IH 1. intros l.
  destruct l as [|b0 [|b1 [|b2 [|b3 [|b4 [|b5 [|b6 [|b7 r]]]]]]]]; try (apply Hs; cbn; lia).
  - exact (Hm [b0; b1; b2; b3] [] eq_refl ltac:(cbn; lia)).
  - exact (Hm [b0; b1; b2; b3] [b4] eq_refl ltac:(cbn; lia)).
  - exact (Hm [b0; b1; b2; b3] [b4; b5] eq_refl ltac:(cbn; lia)).
  - exact (Hm [b0; b1; b2; b3] [b4; b5; b6] eq_refl ltac:(cbn; lia)).
  - exact (Hb [b0; b1; b2; b3; b4; b5; b6; b7] r eq_refl (IH r)).
Qed.
Lemma fx_words_small : forall l, (List.length l < 4)%nat -> fx_words l = l.
Proof. intros [|b0 [|b1 [|b2 [|b3 l]]]] H; try reflexivity. cbn [List.length] in H. lia. Qed.
Lemma fx_words_mid : forall p r, List.length p = 4%nat -> (List.length r < 4)%nat -> fx_words (p ++ r) = le_word p :: r.
Proof.
  intros [|b0 [|b1 [|b2 [|b3 [|b4 p]]]]] r Hp Hr; try discriminate. destruct r as [|c0 [|c1 [|c2 [|c3 r]]]]; try reflexivity. cbn [List.length] in Hr. lia.
Qed.
Lemma fx_words_big : forall p r, List.length p = 8%nat -> fx_words (p ++ r) = le_word p :: fx_words r.
Proof. intros [|b0 [|b1 [|b2 [|b3 [|b4 [|b5 [|b6 [|b7 [|b8 p]]]]]]]]] r Hp; try discriminate. reflexivity. Qed.

Lemma bytes_words : forall l, byte_list l -> Forall word64 l.
Proof. intros l H. eapply Forall_impl; [|exact H]. cbv beta. unfold word64. intros; lia. Qed.
Lemma fx_words_range : forall bs, byte_list bs -> Forall word64 (fx_words bs).
Proof.
  induction bs as [bs L|p r Lp Lr|p r Lp IH] using list8_ind; intros H.
  - rewrite fx_words_small by exact L. apply bytes_words. exact H.
  - rewrite fx_words_mid by assumption. apply Forall_app in H. destruct H as (H1&H2). constructor; [|apply bytes_words; exact H2].
    apply le_word_range in H1. rewrite Lp in H1. change (256 ^ Z.of_nat 4) with (2 ^ 32) in H1. unfold word64. lia.
  - rewrite fx_words_big by exact Lp. apply Forall_app in H. destruct H as (H1&H2). constructor; [|apply IH; exact H2].
    apply le_word_range in H1. rewrite Lp in H1. exact H1.
Qed.

Lemma app_same : forall {A} (p q r s : list A), List.length p = List.length q -> p ++ r = q ++ s -> p = q /\ r = s.
Proof.
  intros A p. induction p as [|x p IH]; intros [|y q] r s L E; cbn [List.length] in L; try discriminate; cbn [app] in E; [auto|].
  injection L as L. injection E as -> E. destruct (IH q r s L E) as (->&->). auto.
Qed.
Lemma differ_split : forall {A} (p q r s : list A), List.length p = List.length q -> differ_in_one (p ++ r) (q ++ s) ->
  differ_in_one p q /\ r = s \/ p = q /\ differ_in_one r s.
Proof.
  intros A p. induction p as [|x p IH]; intros [|y q] r s L D; cbn [List.length] in L; try discriminate; cbn [app] in D; [auto|].
  injection L as L. inversion D as [a b t N E1 E2|a t t' D' E1 E2]; subst.
  - left. match goal with X : _ ++ _ = _ ++ _ |- _ => apply app_same in X; [|congruence]; destruct X as (->&->) end. split; [constructor; exact N|reflexivity].
  - destruct (IH q r s L D') as [(D1&->)|(->&D1)]; [left; split; [constructor; exact D1|reflexivity]|right; auto].
Qed.
Lemma differ_length : forall {A} (l k : list A), differ_in_one l k -> List.length l = List.length k.
Proof. intros A l k D. induction D; cbn [List.length]; congruence. Qed.
Lemma take_drop : forall {A} n (l : list A), (n <= List.length l)%nat -> exists p r, l = p ++ r /\ List.length p = n.
Proof. intros A n l H. exists (firstn n l), (skipn n l). split; [symmetry; apply firstn_skipn|]. rewrite firstn_length. lia. Qed.

Lemma fx_words_differ : forall l k, differ_in_one l k -> byte_list l -> byte_list k -> differ_in_one (fx_words l) (fx_words k).
Proof.
  induction l as [l L|p r Lp Lr|p r Lp IH] using list8_ind; intros k D Hl Hk; pose proof (differ_length _ _ D) as Len.
  - rewrite !fx_words_small by lia. exact D.
  - rewrite app_length in Len. destruct (take_drop 4 k ltac:(lia)) as (q&s&->&Lq). rewrite app_length in Len. apply Forall_app in Hl, Hk.
    rewrite !fx_words_mid by lia. destruct (differ_split p q r s) as [(D1&->)|(->&D1)]; [lia|exact D| |].
    + constructor. apply le_word_differ; tauto.
    + constructor. exact D1.
  - rewrite app_length in Len. destruct (take_drop 8 k ltac:(lia)) as (q&s&->&Lq). apply Forall_app in Hl, Hk.
    rewrite !fx_words_big by lia. destruct (differ_split p q r s) as [(D1&->)|(->&D1)]; [lia|exact D| |].
    + constructor. apply le_word_differ; tauto.
    + constructor. apply IH; tauto.
Qed.

Lemma str_words_range : forall s, Forall word64 (str_words s).
Proof. intros s. apply Forall_app. split; [apply fx_words_range; apply ascii_byte_list|]. constructor; [unfold word64; lia|constructor]. Qed.
Lemma module_words_range : forall s, Forall word64 (module_words s).
Proof.
  intros s. apply Forall_app. split; [|apply str_words_range]. constructor; [|apply fx_words_range; apply be_bytes_range'].
  rewrite be_bytes_length. unfold word64. lia.
Qed.
Lemma tag_words_struct : forall ix s, tag_words ix (MUser s []) = module_words s ++ str_words (s_ident s).
Proof. reflexivity. Qed.

Lemma one_letter_tags : forall ix s t, one_letter_apart s t -> type_tag ix (MUser s []) <> type_tag ix (MUser t []).
Proof.
  intros ix s t D. unfold type_tag. rewrite !tag_words_struct.
  apply fold_differ; [|apply Forall_app; split; [apply module_words_range|apply str_words_range]..|unfold word64; lia].
  unfold module_words, str_words, slice_words. rewrite !be_bytes_length.
  assert (S : forall a b : string, differ_in_one (ascii_bytes a) (ascii_bytes b) -> differ_in_one (fx_words (ascii_bytes a)) (fx_words (ascii_bytes b))).
  { intros a b X. apply fx_words_differ; [exact X|apply ascii_byte_list..]. }
  destruct D as [(D&->&->)|[(->&D&->)|(->&->&D)]].
  - apply differ_app_r. apply differ_app_r. constructor. apply fx_words_differ; [exact D|apply be_bytes_range'..].
  - apply differ_app_r. apply differ_app_l. apply differ_app_r. apply S. exact D.
  - apply differ_app_l. apply differ_app_r. apply S. exact D.
Qed.

(** The capability to administer a bank, and a struct in a module of another account. *)
Open Scope string_scope.
Definition bank_admin : struct_name := StructName 1 "bank" "AdminCap".
Definition forged : struct_name := StructName 2 "shop" "JxliufgfOcVhzhMF".
Lemma forged_tag : forall ix, type_tag ix (MUser bank_admin []) = type_tag ix (MUser forged []).
Proof. intros ix. vm_compute. reflexivity. Qed.

Lemma forged_accepted : exists t1 t2, move_type t1 /\ move_type t2 /\ t1 <> t2 /\
  forall ix ep h st a, a_hash a = type_tag ix t1 -> up_to_date h st a -> a_owner a <> 0 -> legible (keccak h) (a_types a) (a_vals a) (a_slot h a) ->
  Forall (fun s => snd s < 2 ^ 256) (a_slots h a) -> object_memory (a_types a) (a_vals a) < 2 ^ 31 ->
  forall w p u c, wok w -> errtab_ok ep -> statics w -> abort_flag w = 0 -> keccak (host w) = keccak h -> stor (host w) = st ->
    468 <= p -> p + 32 <= gnext w -> load_be 32 (mem w) p = a_owner a -> uid_at w u c -> load_be 32 (mem w) c = a_id a ->
    wpf (native_peep ep (type_tag ix t2) (a_types a)) [p; u] w (resq (fun r w' => exists q F, r = [q] /\ abort_flag w' = 0 /\
       object_at (mem w') (a_types a) (a_owner a) (a_id a) (a_vals a) (load 4 (mem w') q) F)
     (ctrap w (existsb narrow (a_types a)) (36 + object_memory (a_types a) (a_vals a)))).
Proof.
  exists (MUser forged []), (MUser bank_admin []). split; [cbn; repeat split; try lia; discriminate|]. split; [cbn; repeat split; try lia; discriminate|]. split; [discriminate|].
  intros ix ep h st a Ht U N Pl Sl Mm w p u c Hw He St Ab Ek Es H1 H2 Lp Uc Lc. rewrite forged_tag, <- Ht.
  assert (Hh : 0 < a_hash a < 2 ^ 64) by (rewrite Ht; replace (type_tag ix (MUser forged [])) with 512759610428522919 by (vm_compute; reflexivity); lia).
  eapply wpf_conseq; [exact (peep_seen ep h st a U N Hh Pl Sl Mm w p u c Hw He St Ab Ek Es H1 H2 Lp Uc Lc)|].
  intros o. destruct o; cbn [resq]; auto. intros (q&F&->&_&A&_&_&_&Ob&_). exists q, F. auto.
Qed.

(** The index of a struct in its module is part of the tag of a generic object over a vector of it. *)
Lemma index_in_tag : exists t ix1 ix2, move_type t /\ type_tag ix1 t <> type_tag ix2 t.
Proof.
  exists (MUser (StructName 1 "shop" "Shelf") [MVec (MUser (StructName 1 "shop" "Item") [])]), (fun _ => 0), (fun _ => 1).
  split; [cbn; repeat split; try lia; discriminate|]. vm_compute. discriminate.
Qed.
