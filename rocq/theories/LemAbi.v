(** * Lemmas about byte strings in memory. *)

From Verif Require Import Tac RtAlloc RtErr RtEq RtShift RtSwap SpecAbi.
Ltac Zify.zify_post_hook ::= idtac.

Lemma be_bytes_length : forall n v, List.length (be_bytes n v) = n.
Proof. induction n; intros; cbn [be_bytes List.length]; auto. Qed.

Lemma be_bytes_load_be : forall n m a, be_bytes n (load_be n m a) = bytes n m a.
Proof.
  intros. apply nth_ext with (d := 0) (d' := 0); [rewrite be_bytes_length, bytes_length; reflexivity|].
  rewrite be_bytes_length. intros i Hi. rewrite bytes_nth by exact Hi.
  rewrite (load_be_byte n) by lia.
  assert (G : forall k v j, (j < k)%nat -> nth j (be_bytes k v) 0 = (v / 256 ^ (Z.of_nat k - 1 - Z.of_nat j)) mod 256).
  { induction k; intros v j Hj; [lia|]. destruct j; cbn [be_bytes nth].
    - do 2 f_equal. f_equal. lia.
    - rewrite IHk by lia. do 2 f_equal. f_equal. lia. }
  apply G. exact Hi.
Qed.

Lemma bytes_be : forall n m a v, load_be n m a = v -> bytes n m a = be_bytes n v.
Proof. intros; subst; symmetry; apply be_bytes_load_be. Qed.

Lemma load_be_zero : forall n m p, (forall x, p <= x < p + Z.of_nat n -> rd m x = 0) -> load_be n m p = 0.
Proof.
  intros n m p Hz. rewrite (load_be_of_digits _ m p 0).
  - apply Z.mod_0_l. pose proof (pow256_pos (Z.of_nat n)). lia.
  - intros i Hi. rewrite Z.div_0_l by (pose proof (pow256_pos (Z.of_nat n - 1 - i)); lia). apply Hz. lia.
Qed.

Lemma bytes_zero : forall n m p, (forall x, p <= x < p + Z.of_nat n -> rd m x = 0) -> bytes n m p = repeat 0 n.
Proof.
  induction n; intros m p Hz; cbn [bytes repeat]; [reflexivity|].
  rewrite Hz by lia. rewrite IHn; [reflexivity|]. intros. apply Hz. lia.
Qed.

(** A zero-extended big-endian word whose low [k] bytes hold [v]. *)
Lemma load_be_high_zero : forall n k m a, (forall x, a <= x < a + Z.of_nat n -> rd m x = 0) ->
  load_be (n + k) m a = load_be k m (a + Z.of_nat n).
Proof. intros. rewrite load_be_split, load_be_zero by assumption. lia. Qed.

Lemma load_be_low : forall n k m a, load_be (n + k) m a < 256 ^ Z.of_nat k ->
  load_be k m (a + Z.of_nat n) = load_be (n + k) m a.
Proof.
  intros n k m a H. rewrite load_be_split in *. pose proof (load_be_range n m a). pose proof (load_be_range k m (a + Z.of_nat n)).
  pose proof (pow256_pos (Z.of_nat k) ltac:(lia)). assert (load_be n m a = 0) by nia. lia.
Qed.

(** Storing a byte-swapped number writes it big-endian. *)
Lemma load_be_store_swapped : forall n m a v, 0 <= v < 256 ^ Z.of_nat n ->
  load_be n (store (Z.of_nat n) m a (bswap n v)) a = v.
Proof.
  intros. rewrite <- bswap_load, load_store_same, bswap_mod. apply bswap_bswap. assumption.
Qed.

Lemma pad32_spec : forall n, exists q, (n + pad32 n = 32 * q)%nat /\ (pad32 n < 32)%nat /\ q = ((n + 31) / 32)%nat.
Proof.
  intros n. exists ((n + 31) / 32)%nat. unfold pad32.
  pose proof (Nat.div_mod (n + 31) 32 ltac:(lia)). pose proof (Nat.mod_upper_bound (n + 31) 32 ltac:(lia)).
  set (q := ((n + 31) / 32)%nat) in *. clearbody q. lia.
Qed.
