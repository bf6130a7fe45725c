(** * Endianness conversion (runtime/swap.rs). *)

From Verif Require Import Tac RtAlloc RtErr RtInt RtInt2 RtEq RtMul RtDiv RtShift.
Ltac Zify.zify_post_hook ::= idtac.

(** runtime/swap.rs 20-73.  Local 0: input_param. *)
Definition swap_i32_bytes : func := Func 1 0 1
 [ LocalGet 0; Const 24; Bin I32 ShrU; Const 255; Bin I32 And;
   LocalGet 0; Const 8; Bin I32 ShrU; Const 65280; Bin I32 And; Bin I32 Or;
   LocalGet 0; Const 8; Bin I32 Shl; Const 16711680; Bin I32 And; Bin I32 Or;
   LocalGet 0; Const 24; Bin I32 Shl; Const 4278190080; Bin I32 And; Bin I32 Or ].

(** runtime/swap.rs 85-123.  Locals: 0 input_param, 1 upper. *)
Definition swap_i64_bytes : func := Func 1 1 1
 [ LocalGet 0; Const 32; Bin I64 ShrU; Un Wrap64; Call swap_i32_bytes; LocalSet 1;
   LocalGet 0; Un Wrap64; Call swap_i32_bytes;
   Un ExtendU; Const 32; Bin I64 Shl;
   LocalGet 1; Un ExtendU; Bin I64 Or ].

(** runtime/swap.rs 131-181: the loads and the stores of [swap_bytes_function::<N>],
    from word [i] on, [n] words.  Locals: 0 origin_ptr, 1 dest_ptr. *)
Fixpoint swap_loads (i n : nat) : list instr :=
  match n with
  | O => []
  | S n' => [ LocalGet 1; LocalGet 0; Load 8 (8 * Z.of_nat i); Call swap_i64_bytes ] ++ swap_loads (S i) n'
  end.
Fixpoint swap_stores (i n : nat) : list instr :=
  match n with
  | O => []
  | S n' => Store 8 (8 * Z.of_nat i) :: swap_stores (S i) n'
  end.
Definition swap_bytes (N : nat) : func := Func 2 0 0 (swap_loads 0 N ++ swap_stores 0 N).
(** runtime.rs: [SwapI128Bytes] = [swap_bytes_function::<2>], [SwapI256Bytes] = [::<4>]. *)
Definition swap_i128_bytes := swap_bytes 2.
Definition swap_i256_bytes := swap_bytes 4.

(** ** Byte reversal of numbers *)

(** The number whose [n] bytes are those of [v] in reverse. *)
Fixpoint bswap (n : nat) (v : Z) : Z :=
  match n with
  | O => 0
  | S n' => (v mod 256) * 256 ^ Z.of_nat n' + bswap n' (v / 256)
  end.

Lemma bswap_range : forall n v, 0 <= bswap n v < 256 ^ Z.of_nat n.
Proof.
  induction n; intros; cbn [bswap]; [cbn; lia|]. rewrite pow256_S.
  pose proof (Z.mod_pos_bound v 256 ltac:(lia)). specialize (IHn (v / 256)).
  pose proof (pow256_pos (Z.of_nat n) ltac:(lia)). nia.
Qed.

Lemma mod_lo : forall c a b, 0 <= a < c -> (a + c * b) mod c = a.
Proof. intros. rewrite (Z.mul_comm c), Z.mod_add by lia. apply Z.mod_small. lia. Qed.
Lemma div_lo : forall c a b, 0 <= a < c -> (a + c * b) / c = b.
Proof. intros. rewrite (Z.mul_comm c), Z.div_add by lia. rewrite Z.div_small by lia. lia. Qed.

Lemma bswap_load : forall n m a, bswap n (load n m a) = load_be n m a.
Proof.
  induction n; intros; cbn [bswap load load_be]; auto.
  pose proof (rd_range m a).
  rewrite mod_lo, div_lo by lia.
  rewrite IHn. reflexivity.
Qed.

Lemma bswap_snoc : forall n v, bswap (S n) v = 256 * bswap n v + (v / 256 ^ Z.of_nat n) mod 256.
Proof.
  induction n; intros.
  - cbn [bswap]. change (256 ^ Z.of_nat 0) with 1. rewrite Z.div_1_r. lia.
  - change (bswap (S (S n)) v) with ((v mod 256) * 256 ^ Z.of_nat (S n) + bswap (S n) (v / 256)).
    rewrite IHn, pow256_S. cbn [bswap]. rewrite Z.div_div by (pose proof (pow256_pos (Z.of_nat n)); lia).
    ring.
Qed.

Lemma bswap_mod : forall n v, bswap n (v mod 256 ^ Z.of_nat n) = bswap n v.
Proof.
  induction n; intros; [reflexivity|]. cbn [bswap]. rewrite pow256_S.
  pose proof (pow256_pos (Z.of_nat n) ltac:(lia)).
  rewrite Z.rem_mul_r by lia.
  rewrite mod_lo, div_lo by (apply Z.mod_pos_bound; lia).
  rewrite IHn. reflexivity.
Qed.

(** Reversal is its own inverse. *)
Lemma bswap_bswap : forall n v, 0 <= v < 256 ^ Z.of_nat n -> bswap n (bswap n v) = v.
Proof.
  intros n v Hv.
  pose (m := store (Z.of_nat n) (fun _ => 0) 0 v).
  assert (E : load n m 0 = v).
  { unfold m. rewrite load_store_same. apply Z.mod_small. exact Hv. }
  pose (m' := fun x => rd m (Z.of_nat n - 1 - x)).
  assert (E1 : load_be n m 0 = load n m' 0).
  { apply load_be_load_rev. intros. unfold m', rd. rewrite Z.mod_mod by lia. do 2 f_equal. lia. }
  assert (E2 : load_be n m' 0 = load n m 0).
  { apply load_be_load_rev. intros. unfold m', rd. rewrite Z.mod_mod by lia. do 2 f_equal; lia. }
  rewrite <- E at 1. rewrite bswap_load, E1, bswap_load, E2. exact E.
Qed.

(** ** The emitted functions *)

Lemma land_ones_shift : forall x k j, 0 <= k -> 0 <= j ->
  Z.land x ((2 ^ j - 1) * 2 ^ k) = ((x / 2 ^ k) mod 2 ^ j) * 2 ^ k.
Proof.
  intros. apply Z.bits_inj'. intros n Hn. rewrite Z.land_spec.
  replace (2 ^ j - 1) with (Z.ones j) by (rewrite Z.ones_equiv; lia).
  destruct (Z.lt_ge_cases n k).
  - rewrite !Z.mul_pow2_bits_low by lia. apply andb_false_r.
  - rewrite !Z.mul_pow2_bits by lia.
    destruct (Z.lt_ge_cases (n - k) j).
    + rewrite Z.ones_spec_low by lia. rewrite Z.mod_pow2_bits_low by lia.
      rewrite Z.div_pow2_bits by lia. rewrite andb_true_r. f_equal. lia.
    + rewrite Z.ones_spec_high by lia. rewrite Z.mod_pow2_bits_high by lia. apply andb_false_r.
Qed.

Lemma bswap4 : forall v, bswap 4 v =
  16777216 * (v mod 256) + 65536 * ((v / 256) mod 256) + 256 * ((v / 65536) mod 256) + (v / 16777216) mod 256.
Proof.
  intros. cbn [bswap]. rewrite !Z.div_div by lia.
  change (256 ^ Z.of_nat 3) with 16777216. change (256 ^ Z.of_nat 2) with 65536.
  change (256 ^ Z.of_nat 1) with 256. change (256 ^ Z.of_nat 0) with 1.
  change (256 * 256) with 65536. change (65536 * 256) with 16777216. ring.
Qed.

Lemma swap_i32_value : forall v, 0 <= v < 4294967296 ->
  Z.lor (Z.lor (Z.lor (Z.land (v / 2 ^ 24) 255) (Z.land (v / 2 ^ 8) 65280))
    (Z.land (w32 (v * 2 ^ 8)) 16711680)) (Z.land (w32 (v * 2 ^ 24)) 4278190080) = bswap 4 v.
Proof.
  intros v Hv. rewrite bswap4.
  change 255 with ((2 ^ 8 - 1) * 2 ^ 0). change 65280 with ((2 ^ 8 - 1) * 2 ^ 8).
  change 16711680 with ((2 ^ 8 - 1) * 2 ^ 16). change 4278190080 with ((2 ^ 8 - 1) * 2 ^ 24).
  rewrite !land_ones_shift by lia. unfold w32.
  assert (A : forall k x, 0 <= k <= 3 -> (x mod 4294967296) / 256 ^ k mod 256 = (x / 256 ^ k) mod 256).
  { intros k x Hk. change 4294967296 with (256 ^ 4).
    replace (256 ^ 4) with (256 ^ k * 256 ^ (4 - k)) by (rewrite <- Z.pow_add_r; [f_equal; lia|lia|lia]).
    pose proof (pow256_pos k ltac:(lia)). pose proof (pow256_pos (4 - k) ltac:(lia)).
    rewrite Z.rem_mul_r by lia.
    rewrite div_lo by (apply Z.mod_pos_bound; lia).
    replace (256 ^ (4 - k)) with (256 * 256 ^ (3 - k)).
    2:{ replace (4 - k) with (Z.succ (3 - k)) by lia. rewrite Z.pow_succ_r; lia. }
    pose proof (pow256_pos (3 - k) ltac:(lia)).
    rewrite Z.rem_mul_r by lia. apply mod_lo. apply Z.mod_pos_bound; lia. }
  change (2 ^ 8) with 256. change (2 ^ 0) with 1. rewrite Z.div_1_r, Z.mul_1_r.
  change (2 ^ 16) with (256 ^ 2). change (2 ^ 24) with (256 ^ 3).
  rewrite (A 2 (v * 256)), (A 3 (v * 256 ^ 3)) by lia.
  rewrite (Z.div_mul v) by lia.
  replace (v * 256 / 256 ^ 2) with (v / 256).
  2:{ change (256 ^ 2) with (256 * 256). rewrite Z.div_mul_cancel_r; lia. }
  replace (v / 256 / 256) with (v / 65536) by (rewrite Z.div_div by lia; reflexivity).
  change (256 ^ 3) with 16777216. change (256 ^ 2) with 65536.
  pose proof (Z.mod_pos_bound v 256 ltac:(lia)) as B0.
  pose proof (Z.mod_pos_bound (v / 256) 256 ltac:(lia)) as B1.
  pose proof (Z.mod_pos_bound (v / 65536) 256 ltac:(lia)) as B2.
  pose proof (Z.mod_pos_bound (v / 16777216) 256 ltac:(lia)) as B3.
  set (b0 := v mod 256) in *. set (b1 := (v / 256) mod 256) in *.
  set (b2 := (v / 65536) mod 256) in *. set (b3 := (v / 16777216) mod 256) in *.
  clearbody b0 b1 b2 b3. clear A.
  rewrite (Z.lor_comm b3). change 256 with (2 ^ 8) at 1. rewrite lor_disjoint by lia.
  rewrite (Z.lor_comm _ (b1 * _)). change 65536 with (2 ^ 16) at 1. rewrite lor_disjoint by lia.
  rewrite (Z.lor_comm _ (b0 * _)). change 16777216 with (2 ^ 24) at 1. rewrite lor_disjoint by lia.
  lia.
Qed.

Lemma swap_i32_spec : forall w v, 0 <= v < 4294967296 -> returns swap_i32_bytes [v] w [bswap 4 v] w.
Proof.
  intros w v Hv. apply pure_intro. apply wpf_intro; [reflexivity|].
  unfold swap_i32_bytes. wc.
  rewrite <- swap_i32_value by exact Hv.
  do 5 (first [apply wp_const | eapply wp_lget; [reflexivity|] | eapply wp_bin; [reflexivity|]]).
  do 6 (first [apply wp_const | eapply wp_lget; [reflexivity|] | eapply wp_bin; [reflexivity|]]).
  do 6 (first [apply wp_const | eapply wp_lget; [reflexivity|] | eapply wp_bin; [reflexivity|]]).
  do 6 (first [apply wp_const | eapply wp_lget; [reflexivity|] | eapply wp_bin; [reflexivity|]]).
  apply wp_nil. cbn. auto.
Qed.

Lemma bswap_add : forall n k v, bswap (n + k) v = bswap n v * 256 ^ Z.of_nat k + bswap k (v / 256 ^ Z.of_nat n).
Proof.
  induction n; intros; cbn [bswap Nat.add].
  - change (256 ^ Z.of_nat 0) with 1. rewrite Z.div_1_r. lia.
  - rewrite IHn, pow256_S. pose proof (pow256_pos (Z.of_nat n) ltac:(lia)).
    rewrite Z.div_div by lia. rewrite Nat2Z.inj_add, Z.pow_add_r by lia. ring.
Qed.

Lemma swap_i64_spec : forall w v, 0 <= v < 18446744073709551616 -> returns swap_i64_bytes [v] w [bswap 8 v] w.
Proof.
  intros w v Hv. apply pure_intro. apply wpf_intro; [reflexivity|]. wc.
  ws1. ws1. eapply wp_bin; [reflexivity|]. cbn [bits]. change (32 mod 64) with 32.
  assert (Hu : 0 <= v / 2 ^ 32 < 4294967296).
  { split; [apply Z.div_pos; lia|]. apply Z.div_lt_upper_bound; lia. }
  apply wp_un. cbn [unop]. rewrite w32_small by exact Hu.
  wpure swap_i32_spec; [exact Hu|]. ws1. ws1. apply wp_un. cbn [unop].
  wpure swap_i32_spec; [apply w32_range|].
  apply wp_un. cbn [unop]. ws1. eapply wp_bin; [reflexivity|]. ws1. apply wp_un. cbn [unop].
  eapply wp_bin; [reflexivity|]. apply wp_nil. cbn [fret resq firstn].
  split; [|reflexivity]. f_equal.
  pose proof (bswap_range 4 (w32 v)) as R1. pose proof (bswap_range 4 (v / 2 ^ 32)) as R2.
  change (256 ^ Z.of_nat 4) with (2 ^ 32) in R1, R2.
  cbn [wrapt bits]. unfold w64. rewrite Z.mod_small.
  2:{ change (32 mod 64) with 32. change (2 ^ 32) with 4294967296 in *. lia. }
  change (32 mod 64) with 32. rewrite lor_disjoint by lia.
  change (bswap 8 v) with (bswap (4 + 4) v). rewrite bswap_add.
  change (256 ^ Z.of_nat 4) with (2 ^ 32). do 2 f_equal. unfold w32.
  rewrite <- (bswap_mod 4 v). reflexivity.
Qed.

Lemma returns_intro : forall f args w vs w0,
  wpf f args w (resq (fun r w' => r = vs /\ w' = w0) False) -> returns f args w vs w0.
Proof. intros. apply wpf_returns in H. destruct H as (?&?&?&->&->). auto. Qed.

(** Storing a list of 64-bit words. *)
Fixpoint store_words (m : memory) (a : Z) (vs : list Z) : memory :=
  match vs with
  | [] => m
  | v :: t => store_words (store 8 m a v) (a + 8) t
  end.

Lemma rd_store_words_out : forall vs m a x, x < a \/ a + 8 * Z.of_nat (List.length vs) <= x ->
  rd (store_words m a vs) x = rd m x.
Proof.
  induction vs; intros m b x H; cbn [store_words]; auto. cbn [List.length] in H.
  rewrite IHvs by lia. apply rd_store_out. lia.
Qed.

Lemma rd_store_words_in : forall vs m a k i, (k < List.length vs)%nat -> 0 <= i < 8 ->
  rd (store_words m a vs) (a + 8 * Z.of_nat k + i) = (nth k vs 0 / 256 ^ i) mod 256.
Proof.
  induction vs; intros m b k i Hk Hi; cbn [List.length] in Hk; [lia|]. cbn [store_words].
  destruct k; cbn [nth].
  - rewrite rd_store_words_out by lia. rewrite rd_store_in by lia. do 2 f_equal. f_equal. lia.
  - rewrite <- (IHvs (store 8 m b a) (b + 8) k i) by lia. f_equal. lia.
Qed.

Definition pairs (dst : Z) (vs : list Z) : list Z := flat_map (fun v => [v; dst]) vs.

Lemma wp_swap_loads : forall n i r Q s src dst w, wok w -> live w src (8 * Z.of_nat (i + n)) ->
  wp r Q (pairs dst (rev (map (fun j => bswap 8 (load 8 (mem w) (src + 8 * Z.of_nat j))) (seq i n))) ++ s) [src; dst] w ->
  wp (swap_loads i n ++ r) Q s [src; dst] w.
Proof.
  induction n; intros i r Q s src dst w Hw L H; cbn [swap_loads app]; [exact H|].
  pose proof Hw as (P1&P2&P3&P4&P5&P6). unfold live in L.
  ws1. ws1. ws1. wpure swap_i64_spec; [apply load_8_range|].
  apply IHn; [exact Hw|unfold live; lia|].
  cbn [seq map rev] in H. unfold pairs in *. rewrite flat_map_app in H. cbn [flat_map app] in H.
  rewrite <- app_assoc in H. exact H.
Qed.

Lemma wp_swap_stores : forall vs i r Q s l dst w, 0 <= dst ->
  dst + 8 * Z.of_nat (i + List.length vs) <= page_size * pages w ->
  wp r Q s l (set_mem w (store_words (mem w) (dst + 8 * Z.of_nat i) vs)) ->
  wp (swap_stores i (List.length vs) ++ r) Q (pairs dst vs ++ s) l w.
Proof.
  induction vs; intros i r Q s l dst w Hd L H; cbn [List.length swap_stores app pairs flat_map] in *.
  - destruct w; exact H.
  - ws1. apply IHvs; [exact Hd|cbn [pages set_mem]; lia|]. cbn [mem set_mem store_words] in *.
    replace (dst + 8 * Z.of_nat (S i)) with (dst + 8 * Z.of_nat i + 8) by lia. exact H.
Qed.

(** The whole conversion, for any two (possibly overlapping) regions. *)
Lemma swap_bytes_spec : forall N w src dst, wok w ->
  live w src (8 * Z.of_nat N) -> live w dst (8 * Z.of_nat N) ->
  exists m', returns (swap_bytes N) [src; dst] w [] (set_mem w m') /\
    (forall x, ~ within dst (8 * Z.of_nat N) x -> rd m' x = rd (mem w) x) /\
    (forall j, 0 <= j < 8 * Z.of_nat N -> rd m' (dst + j) = rd (mem w) (src + (8 * Z.of_nat N - 1 - j))).
Proof.
  intros N w src dst Hw Ls Ld.
  set (vs := rev (map (fun j => bswap 8 (load 8 (mem w) (src + 8 * Z.of_nat j))) (seq 0 N))).
  assert (Lv : List.length vs = N) by (unfold vs; rewrite rev_length, map_length, seq_length; reflexivity).
  exists (store_words (mem w) dst vs). repeat split.
  - apply returns_intro. apply wpf_intro; [reflexivity|]. wc.
    apply wp_swap_loads; [exact Hw|exact Ls|]. fold vs.
    rewrite <- (app_nil_r (swap_stores 0 N)). rewrite <- Lv.
    pose proof Hw as (P1&P2&P3&P4&P5&P6). unfold live in Ld.
    apply wp_swap_stores; [lia|unfold page_size; rewrite Lv; lia|]. change (8 * Z.of_nat 0) with 0. rewrite Z.add_0_r.
    apply wp_nil. cbn [fret firstn]. auto.
  - intros x Hx. unfold within in Hx. apply rd_store_words_out. rewrite Lv. lia.
  - intros j Hj. pose proof (Z.div_mod j 8 ltac:(lia)) as E. pose proof (Z.mod_pos_bound j 8 ltac:(lia)) as B.
    set (k := j / 8) in *. set (i := j mod 8) in *. clearbody k i.
    replace (dst + j) with (dst + 8 * Z.of_nat (Z.to_nat k) + i) by lia.
    rewrite rd_store_words_in by lia. unfold vs.
    rewrite rev_nth by (rewrite map_length, seq_length; lia). rewrite map_length, seq_length.
    set (f := fun j0 : nat => bswap 8 (load 8 (mem w) (src + 8 * Z.of_nat j0))).
    rewrite (nth_indep _ 0 (f 0%nat)) by (rewrite map_length, seq_length; lia).
    rewrite map_nth, seq_nth by lia. unfold f. rewrite bswap_load.
    pose proof (load_be_byte 8 (mem w) (src + 8 * Z.of_nat (0 + (N - S (Z.to_nat k)))) (7 - i) ltac:(lia)) as LB.
    replace (Z.of_nat 8 - 1 - (7 - i)) with i in LB by lia. rewrite <- LB. f_equal. lia.
Qed.

(** The result as a number: little-endian becomes big-endian and vice versa. *)
Lemma swap_bytes_values : forall N w src dst, wok w ->
  live w src (8 * Z.of_nat N) -> live w dst (8 * Z.of_nat N) ->
  exists m', returns (swap_bytes N) [src; dst] w [] (set_mem w m') /\
    (forall x, ~ within dst (8 * Z.of_nat N) x -> rd m' x = rd (mem w) x) /\
    load_be (8 * N) m' dst = load (8 * N) (mem w) src /\
    load (8 * N) m' dst = load_be (8 * N) (mem w) src.
Proof.
  intros N w src dst Hw Ls Ld. destruct (swap_bytes_spec N w src dst Hw Ls Ld) as (m'&R&O&I).
  exists m'. split; [exact R|]. split; [exact O|]. split.
  - apply load_be_load_rev. intros. rewrite I by lia. f_equal. lia.
  - symmetry. apply load_be_load_rev. intros. rewrite I by lia. f_equal. lia.
Qed.
