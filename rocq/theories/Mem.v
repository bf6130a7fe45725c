(** * Facts about the linear memory operations of [Wasm]. *)

From Coq Require Import ZArith List Lia Bool ZifyBool ZifyNat.
From Verif Require Import Wasm.
Import ListNotations.
Open Scope Z_scope.

Lemma rd_range : forall m a, 0 <= rd m a < 256.
Proof. intros; unfold rd; apply Z.mod_pos_bound; lia. Qed.

Lemma pow256_pos : forall n, 0 <= n -> 0 < 256 ^ n.
Proof. intros; apply Z.pow_pos_nonneg; lia. Qed.

Lemma pow256_S : forall n : nat, 256 ^ Z.of_nat (S n) = 256 * 256 ^ Z.of_nat n.
Proof. intros. rewrite Nat2Z.inj_succ, Z.pow_succ_r; lia. Qed.

Lemma load_range : forall n m a, 0 <= load n m a < 256 ^ Z.of_nat n.
Proof.
  induction n; intros; cbn [load].
  - simpl; lia.
  - rewrite pow256_S. specialize (IHn m (a + 1)). pose proof (rd_range m a). nia.
Qed.

Lemma load_ext : forall n m m' a a',
  (forall i, 0 <= i < Z.of_nat n -> rd m (a + i) = rd m' (a' + i)) ->
  load n m a = load n m' a'.
Proof.
  induction n; intros; cbn [load]; auto.
  rewrite (IHn m m' (a + 1) (a' + 1)).
  - specialize (H 0). rewrite !Z.add_0_r in H. rewrite H by lia. reflexivity.
  - intros. replace (a + 1 + i) with (a + (1 + i)) by lia.
    replace (a' + 1 + i) with (a' + (1 + i)) by lia. apply H. lia.
Qed.

Lemma load_split : forall n k m a,
  load (n + k) m a = load n m a + 256 ^ Z.of_nat n * load k m (a + Z.of_nat n).
Proof.
  induction n; intros; cbn [load Nat.add].
  - rewrite Z.add_0_r. simpl (256 ^ Z.of_nat 0). lia.
  - rewrite IHn, pow256_S.
    replace (a + 1 + Z.of_nat n) with (a + Z.of_nat (S n)) by lia. lia.
Qed.

Lemma load_byte : forall n m a i, 0 <= i < Z.of_nat n ->
  rd m (a + i) = (load n m a / 256 ^ i) mod 256.
Proof.
  intros. pose proof (load_split (Z.to_nat i) (n - Z.to_nat i) m a) as E.
  replace (Z.to_nat i + (n - Z.to_nat i))%nat with n in E by lia.
  rewrite Z2Nat.id in E by lia. rewrite E.
  pose proof (load_range (Z.to_nat i) m a). rewrite Z2Nat.id in H0 by lia.
  replace (load (Z.to_nat i) m a + 256 ^ i * load (n - Z.to_nat i) m (a + i))
    with (load (n - Z.to_nat i) m (a + i) * 256 ^ i + load (Z.to_nat i) m a) by lia.
  rewrite Z.div_add_l by (pose proof (pow256_pos i); lia).
  rewrite (Z.div_small (load (Z.to_nat i) m a)) by lia.
  rewrite Z.add_0_r.
  destruct (n - Z.to_nat i)%nat as [|k] eqn:K; [lia|]. cbn [load].
  rewrite (Z.mul_comm 256), Z.mod_add by lia.
  unfold rd. rewrite Z.mod_mod by lia. reflexivity.
Qed.

Lemma load_inj : forall n m m' a a',
  load n m a = load n m' a' ->
  forall i, 0 <= i < Z.of_nat n -> rd m (a + i) = rd m' (a' + i).
Proof. intros. rewrite (load_byte n m a i), (load_byte n m' a' i), H; auto. Qed.

Lemma load_1 : forall m a, load 1 m a = rd m a.
Proof. intros; cbn [load]; lia. Qed.

(** ** Stores *)

Lemma rd_store_out : forall n m a v x,
  x < a \/ a + n <= x -> rd (store n m a v) x = rd m x.
Proof.
  intros; unfold rd, store.
  destruct ((a <=? x) && (x <? a + n)) eqn:E; auto.
  apply andb_prop in E as [? ?]. lia.
Qed.

Lemma rd_store_in : forall n m a v x,
  a <= x < a + n -> rd (store n m a v) x = (v / 256 ^ (x - a)) mod 256.
Proof.
  intros; unfold rd, store.
  destruct ((a <=? x) && (x <? a + n)) eqn:E.
  - rewrite Z.mod_mod; lia.
  - apply andb_false_iff in E as [?|?]; lia.
Qed.

Lemma load_of_digits : forall n m a v,
  (forall i, 0 <= i < Z.of_nat n -> rd m (a + i) = (v / 256 ^ i) mod 256) ->
  load n m a = v mod 256 ^ Z.of_nat n.
Proof.
  induction n; intros; cbn [load].
  - rewrite Z.mod_1_r; reflexivity.
  - rewrite (IHn m (a + 1) (v / 256)).
    + rewrite pow256_S. rewrite Z.rem_mul_r by (try lia; apply Z.pow_nonzero; lia).
      specialize (H 0). rewrite Z.add_0_r, Z.pow_0_r, Z.div_1_r in H.
      rewrite H by lia. reflexivity.
    + intros. replace (a + 1 + i) with (a + (1 + i)) by lia.
      rewrite H by lia. rewrite Z.pow_add_r, Z.pow_1_r by lia.
      rewrite Z.div_div by (try lia; apply pow256_pos; lia). reflexivity.
Qed.

Lemma load_store_same : forall n m a v,
  load n (store (Z.of_nat n) m a v) a = v mod 256 ^ Z.of_nat n.
Proof.
  intros. apply load_of_digits. intros. rewrite rd_store_in by lia.
  replace (a + i - a) with i by lia. reflexivity.
Qed.

Lemma load_store_other : forall n k m a b v,
  b + k <= a \/ a + Z.of_nat n <= b -> load n (store k m b v) a = load n m a.
Proof. intros. apply load_ext. intros. apply rd_store_out. lia. Qed.

(** ** Fill and copy *)

Lemma rd_mcopy_in : forall m dst src n x,
  dst <= x < dst + n -> rd (mcopy m dst src n) x = rd m (src + (x - dst)).
Proof.
  intros; unfold rd, mcopy.
  destruct ((dst <=? x) && (x <? dst + n)) eqn:E; auto.
  apply andb_false_iff in E as [?|?]; lia.
Qed.

Lemma rd_mcopy_out : forall m dst src n x,
  x < dst \/ dst + n <= x -> rd (mcopy m dst src n) x = rd m x.
Proof.
  intros; unfold rd, mcopy.
  destruct ((dst <=? x) && (x <? dst + n)) eqn:E; auto.
  apply andb_prop in E as [? ?]. lia.
Qed.

Lemma load_mcopy_other : forall k m dst src n a,
  dst + n <= a \/ a + Z.of_nat k <= dst -> load k (mcopy m dst src n) a = load k m a.
Proof. intros. apply load_ext. intros. apply rd_mcopy_out. lia. Qed.

Lemma load_mcopy_in : forall k m dst src n a,
  dst <= a -> a + Z.of_nat k <= dst + n ->
  load k (mcopy m dst src n) a = load k m (src + (a - dst)).
Proof.
  intros. apply load_ext. intros. rewrite rd_mcopy_in by lia. f_equal. lia.
Qed.

Lemma rd_mfill_in : forall m dst v n x,
  dst <= x < dst + n -> rd (mfill m dst v n) x = v mod 256.
Proof.
  intros; unfold rd, mfill.
  destruct ((dst <=? x) && (x <? dst + n)) eqn:E.
  - rewrite Z.mod_mod; lia.
  - apply andb_false_iff in E as [?|?]; lia.
Qed.

Lemma rd_mfill_out : forall m dst v n x,
  x < dst \/ dst + n <= x -> rd (mfill m dst v n) x = rd m x.
Proof.
  intros; unfold rd, mfill.
  destruct ((dst <=? x) && (x <? dst + n)) eqn:E; auto.
  apply andb_prop in E as [? ?]. lia.
Qed.

Lemma load_mfill_other : forall k m dst v n a,
  dst + n <= a \/ a + Z.of_nat k <= dst -> load k (mfill m dst v n) a = load k m a.
Proof. intros. apply load_ext. intros. apply rd_mfill_out. lia. Qed.

(** ** Big-endian access *)

Lemma load_be_range : forall n m a, 0 <= load_be n m a < 256 ^ Z.of_nat n.
Proof.
  induction n; intros; cbn [load_be].
  - simpl; lia.
  - rewrite pow256_S. specialize (IHn m (a + 1)). pose proof (rd_range m a). nia.
Qed.

Lemma load_be_ext : forall n m m' a a',
  (forall i, 0 <= i < Z.of_nat n -> rd m (a + i) = rd m' (a' + i)) ->
  load_be n m a = load_be n m' a'.
Proof.
  induction n; intros; cbn [load_be]; auto.
  rewrite (IHn m m' (a + 1) (a' + 1)).
  - specialize (H 0). rewrite !Z.add_0_r in H. rewrite H by lia. reflexivity.
  - intros. replace (a + 1 + i) with (a + (1 + i)) by lia.
    replace (a' + 1 + i) with (a' + (1 + i)) by lia. apply H. lia.
Qed.

Lemma load_be_snoc : forall n m a,
  load_be (S n) m a = 256 * load_be n m a + rd m (a + Z.of_nat n).
Proof.
  induction n; intros.
  - cbn [load_be]. change (Z.of_nat 0) with 0. rewrite !Z.add_0_r, Z.pow_0_r. lia.
  - change (load_be (S (S n)) m a)
      with (rd m a * 256 ^ Z.of_nat (S n) + load_be (S n) m (a + 1)).
    rewrite IHn. cbn [load_be]. rewrite pow256_S.
    replace (a + 1 + Z.of_nat n) with (a + Z.of_nat (S n)) by lia. ring.
Qed.

Lemma load_be_split : forall n k m a,
  load_be (n + k) m a = load_be n m a * 256 ^ Z.of_nat k + load_be k m (a + Z.of_nat n).
Proof.
  induction n; intros; cbn [load_be Nat.add].
  - rewrite Z.add_0_r. lia.
  - rewrite IHn. replace (a + 1 + Z.of_nat n) with (a + Z.of_nat (S n)) by lia.
    rewrite Nat2Z.inj_add, Z.pow_add_r by lia. ring.
Qed.

(** Reading [n] bytes big-endian is reading their reversal little-endian. *)
Lemma load_be_load_rev : forall n m m' a a',
  (forall i, 0 <= i < Z.of_nat n -> rd m (a + i) = rd m' (a' + (Z.of_nat n - 1 - i))) ->
  load_be n m a = load n m' a'.
Proof.
  induction n; intros; [reflexivity|].
  rewrite load_be_snoc. cbn [load].
  rewrite (IHn m m' a (a' + 1)).
  - rewrite (H (Z.of_nat n)) by lia.
    replace (a' + (Z.of_nat (S n) - 1 - Z.of_nat n)) with a' by lia. lia.
  - intros. rewrite H by lia. f_equal. lia.
Qed.

Lemma rd_store_be_out : forall n m a v x,
  x < a \/ a + n <= x -> rd (store_be n m a v) x = rd m x.
Proof.
  intros; unfold rd, store_be.
  destruct ((a <=? x) && (x <? a + n)) eqn:E; auto.
  apply andb_prop in E as [? ?]. lia.
Qed.

Lemma rd_store_be_in : forall n m a v x,
  a <= x < a + n -> rd (store_be n m a v) x = (v / 256 ^ (n - 1 - (x - a))) mod 256.
Proof.
  intros; unfold rd, store_be.
  destruct ((a <=? x) && (x <? a + n)) eqn:E.
  - rewrite Z.mod_mod; lia.
  - apply andb_false_iff in E as [?|?]; lia.
Qed.

Lemma load_be_of_digits : forall n m a v,
  (forall i, 0 <= i < Z.of_nat n -> rd m (a + i) = (v / 256 ^ (Z.of_nat n - 1 - i)) mod 256) ->
  load_be n m a = v mod 256 ^ Z.of_nat n.
Proof.
  induction n; intros.
  - cbn [load_be]. rewrite Z.mod_1_r; reflexivity.
  - rewrite load_be_snoc. rewrite (IHn m a (v / 256)).
    + rewrite pow256_S. rewrite Z.rem_mul_r by (try lia; apply Z.pow_nonzero; lia).
      rewrite (H (Z.of_nat n)) by lia.
      replace (Z.of_nat (S n) - 1 - Z.of_nat n) with 0 by lia.
      rewrite Z.pow_0_r, Z.div_1_r. lia.
    + intros. rewrite H by lia.
      replace (Z.of_nat (S n) - 1 - i) with (1 + (Z.of_nat n - 1 - i)) by lia.
      rewrite Z.pow_add_r, Z.pow_1_r by lia.
      rewrite Z.div_div by (try lia; apply pow256_pos; lia). reflexivity.
Qed.

Lemma load_be_store_be_same : forall n m a v,
  load_be n (store_be (Z.of_nat n) m a v) a = v mod 256 ^ Z.of_nat n.
Proof.
  intros. apply load_be_of_digits. intros. rewrite rd_store_be_in by lia.
  replace (a + i - a) with i by lia. reflexivity.
Qed.

Lemma load_be_byte : forall n m a i, 0 <= i < Z.of_nat n ->
  rd m (a + i) = (load_be n m a / 256 ^ (Z.of_nat n - 1 - i)) mod 256.
Proof.
  intros.
  pose (m' := fun x => rd m (a + (Z.of_nat n - 1 - x))).
  assert (E : load_be n m a = load n m' 0).
  { apply load_be_load_rev. intros. unfold m', rd. rewrite Z.mod_mod by lia.
    f_equal. f_equal. lia. }
  rewrite E. rewrite <- (load_byte n m' 0 (Z.of_nat n - 1 - i)) by lia.
  unfold m', rd. rewrite Z.mod_mod by lia. do 2 f_equal. lia.
Qed.

Lemma load_be_inj : forall n m m' a a',
  load_be n m a = load_be n m' a' ->
  forall i, 0 <= i < Z.of_nat n -> rd m (a + i) = rd m' (a' + i).
Proof. intros. rewrite (load_be_byte n m a i), (load_be_byte n m' a' i), H; auto. Qed.

(** ** Byte lists *)

Lemma bytes_length : forall n m a, length (bytes n m a) = n.
Proof. induction n; intros; cbn [bytes length]; auto. Qed.

Lemma bytes_ext : forall n m m' a a',
  (forall i, 0 <= i < Z.of_nat n -> rd m (a + i) = rd m' (a' + i)) ->
  bytes n m a = bytes n m' a'.
Proof.
  induction n; intros; cbn [bytes]; auto.
  f_equal.
  - specialize (H 0). rewrite !Z.add_0_r in H. apply H. lia.
  - apply IHn. intros. replace (a + 1 + i) with (a + (1 + i)) by lia.
    replace (a' + 1 + i) with (a' + (1 + i)) by lia. apply H. lia.
Qed.

Lemma bytes_nth : forall n m a i, (i < n)%nat -> nth i (bytes n m a) 0 = rd m (a + Z.of_nat i).
Proof.
  induction n; intros; [lia|]. cbn [bytes]. destruct i; cbn [nth].
  - rewrite Z.add_0_r; reflexivity.
  - rewrite IHn by lia. f_equal. lia.
Qed.

Lemma bytes_inj : forall n m m' a a', bytes n m a = bytes n m' a' ->
  forall i, 0 <= i < Z.of_nat n -> rd m (a + i) = rd m' (a' + i).
Proof.
  intros. pose proof (bytes_nth n m a (Z.to_nat i)) as E.
  rewrite H, bytes_nth in E by lia. rewrite Z2Nat.id in E by lia. symmetry. apply E. lia.
Qed.

Lemma bytes_app : forall n k m a, bytes (n + k) m a = bytes n m a ++ bytes k m (a + Z.of_nat n).
Proof.
  induction n; intros; cbn [bytes Nat.add app].
  - rewrite Z.add_0_r; reflexivity.
  - rewrite IHn. replace (a + 1 + Z.of_nat n) with (a + Z.of_nat (S n)) by lia. reflexivity.
Qed.

Lemma load_bytes_eq : forall n m m' a a', bytes n m a = bytes n m' a' <-> load n m a = load n m' a'.
Proof.
  split; intros.
  - apply load_ext. intros. eapply bytes_inj; eauto.
  - apply bytes_ext. intros. eapply load_inj; eauto.
Qed.

Lemma bytes_range : forall n m a b, In b (bytes n m a) -> 0 <= b < 256.
Proof.
  induction n; cbn [bytes In]; intros; [tauto|].
  destruct H as [<-|]; eauto using rd_range.
Qed.
