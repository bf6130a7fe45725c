(** * Heap division (runtime/integers/div.rs). *)

From Verif Require Import Tac RtAlloc RtErr RtInt RtInt2 RtEq RtMul.
Ltac Zify.zify_post_hook ::= idtac.

(** runtime/integers/div.rs 251-338.
    Locals: 0 a_ptr, 1 n, 2 i, 3 addr, 4 word, 5 carry, 6 next. *)
Definition shift_1bit_left : func := Func 2 5 0
 [ Const 0; LocalSet 5; Const 0; LocalSet 2;
   Loop "loop" 0
     [ LocalGet 2; Const 3; Bin I32 Shl; LocalGet 0; Bin I32 Add; LocalTee 3;
       Load 8 0; LocalSet 4;
       LocalGet 4; Const 63; Bin I64 ShrU; Const 1; Bin I64 And; LocalSet 6;
       LocalGet 4; Const 1; Bin I64 Shl; LocalGet 5; Bin I64 Or; LocalSet 4;
       LocalGet 3; LocalGet 4; Store 8 0;
       LocalGet 6; LocalSet 5;
       LocalGet 2; Const 1; Bin I32 Add; LocalSet 2;
       LocalGet 2; Const 3; Bin I32 Shl; LocalGet 1; Bin I32 LtU; BrIf "loop" ] ].

(** runtime/integers/div.rs 354-409.  Locals: 0 ptr, 1 i, 2 n, 3 byte_idx, 4 bit_offset. *)
Definition get_bit : func := Func 3 2 1
 [ LocalGet 1; Const 3; Bin I32 ShrU; LocalSet 3;
   LocalGet 1; Const 7; Bin I32 And; LocalSet 4;
   LocalGet 0; LocalGet 3; Bin I32 Add; Load 1 0;
   LocalGet 4; Bin I32 ShrU; Const 1; Bin I32 And; Un ExtendU ].

(** runtime/integers/div.rs 422-496.
    Locals: 0 ptr, 1 i, 2 n, 3 byte_idx, 4 bit_offset, 5 addr, 6 byte_val, 7 mask. *)
Definition set_bit : func := Func 3 5 0
 [ LocalGet 1; Const 3; Bin I32 ShrU; LocalSet 3;
   LocalGet 1; Const 7; Bin I32 And; LocalSet 4;
   LocalGet 0; LocalGet 3; Bin I32 Add; LocalTee 5;
   Load 1 0; LocalSet 6;
   Const 1; LocalGet 4; Bin I32 Shl; LocalSet 7;
   LocalGet 5; LocalGet 6; LocalGet 7; Bin I32 Or; Store 1 0 ].

(** runtime/integers/div.rs 43-236.
    Locals: 0 dividend_ptr, 1 divisor_ptr, 2 n, 3 quotient_or_reminder, 4 remainder_ptr,
    5 quotient_ptr, 6 i, 7 n_bytes. *)
Definition heap_integers_div_mod (ep : errtab) : func := Func 4 4 1
 [ LocalGet 2; Const 8; Bin I32 DivU; LocalSet 7;
   LocalGet 1; LocalGet 7; Call is_zero;
   If 0 [ Const 0; Const 0; Bin I32 DivU; Drop ] [];
   LocalGet 7; Call alloc; LocalSet 4;
   LocalGet 7; Call alloc; LocalSet 5;
   LocalGet 2; Const 1; Bin I32 Sub; LocalSet 6;
   Loop "loop" 0
     ([ LocalGet 4; LocalGet 7; Call shift_1bit_left;
       LocalGet 4; LocalGet 4; Load 1 0;
       LocalGet 0; LocalGet 6; LocalGet 2; Call get_bit; Bin I64 Or; Store 1 0;
       Block "block" 0
         ([ LocalGet 4; LocalGet 1; LocalGet 7; Call less_than; BrIf "block";
           LocalGet 4; LocalGet 1; LocalGet 4; LocalGet 7; Call (heap_integers_sub ep) ] ++ propagate true ++
         [ Drop; LocalGet 5; LocalGet 6; LocalGet 2; Call set_bit ]);
       LocalGet 6; Const 1; Bin I32 Sub; LocalTee 6; Const 0; Bin I32 GeS; BrIf "loop" ]);
   LocalGet 3; If 1 [ LocalGet 5 ] [ LocalGet 4 ] ].

(** ** Bits *)

Lemma div2_63 : forall x, 0 <= x < M64 -> 0 <= x / 9223372036854775808 <= 1.
Proof.
  intros. unfold M64 in *. split; [apply Z.div_pos; lia|].
  apply Z.lt_succ_r. apply Z.div_lt_upper_bound; lia.
Qed.

Lemma lor_even_bit : forall x c, 0 <= c <= 1 -> Z.lor (2 * x) c = 2 * x + c.
Proof.
  intros x c Hc. assert (c = 0 \/ c = 1) as [-> | ->] by lia.
  - rewrite Z.lor_0_r. lia.
  - rewrite Z.add_nocarry_lxor.
    + rewrite Z.lxor_lor; [reflexivity|]. apply Z.bits_inj'. intros n Hn. rewrite Z.land_spec, Z.bits_0.
      destruct (Z.eq_dec n 0) as [->|]; [rewrite Z.testbit_even_0; reflexivity|].
      replace (Z.testbit 1 n) with false; [apply andb_false_r|]. symmetry. apply (Z.bits_above_log2 1 n); cbn; lia.
    + apply Z.bits_inj'. intros n Hn. rewrite Z.land_spec, Z.bits_0.
      destruct (Z.eq_dec n 0) as [->|]; [rewrite Z.testbit_even_0; reflexivity|].
      replace (Z.testbit 1 n) with false; [apply andb_false_r|]. symmetry. apply (Z.bits_above_log2 1 n); cbn; lia.
Qed.

Lemma land_1 : forall x, Z.land x 1 = x mod 2.
Proof. intros. exact (Z.land_ones x 1 ltac:(lia)). Qed.
Lemma land_7 : forall x, Z.land x 7 = x mod 8.
Proof. intros. exact (Z.land_ones x 3 ltac:(lia)). Qed.

(** One word of the shift by one bit. *)
Lemma shift1_step : forall x c, 0 <= x < M64 -> 0 <= c <= 1 ->
  let n := Z.land (x / 9223372036854775808) 1 in
  let y := Z.lor (w64 (x * 2)) c in
  y + M64 * n = 2 * x + c /\ 0 <= n <= 1 /\ 0 <= y < M64.
Proof.
  intros x c Hx Hc n y. pose proof (div2_63 x Hx).
  assert (En : n = x / 9223372036854775808).
  { unfold n. rewrite land_1. apply Z.mod_small. lia. }
  pose proof (Z.div_mod x 9223372036854775808 ltac:(lia)) as D.
  pose proof (Z.mod_pos_bound x 9223372036854775808 ltac:(lia)) as R.
  rewrite <- En in *.
  assert (Ew : w64 (x * 2) = 2 * (x mod 9223372036854775808)).
  { unfold w64. rewrite D at 1. replace ((9223372036854775808 * n + x mod 9223372036854775808) * 2)
      with (2 * (x mod 9223372036854775808) + n * 18446744073709551616) by lia.
    rewrite Z.mod_add by lia. apply Z.mod_small. lia. }
  unfold y. rewrite Ew, lor_even_bit by lia. unfold M64 in *. lia.
Qed.

Lemma pow2_64 : forall j : nat, 256 ^ (8 * Z.of_nat j) = 2 ^ (64 * Z.of_nat j).
Proof. intros. change 256 with (2 ^ 8). rewrite <- Z.pow_mul_r by lia. f_equal. lia. Qed.

Lemma load8_range : forall j m p, 0 <= load (8 * j) m p < 256 ^ (8 * Z.of_nat j).
Proof. intros. pose proof (load_range (8 * j) m p) as H. rewrite Nat2Z.inj_mul in H. exact H. Qed.

Lemma shl_3 : forall x, 0 <= x -> 8 * x < 4294967296 -> wrapt I32 (x * 2 ^ (3 mod bits I32)) = 8 * x.
Proof. intros. cbn [wrapt bits]. change (2 ^ (3 mod 32)) with 8. rewrite w32_small; lia. Qed.

Lemma shift1_spec : forall N w p, (1 <= N)%nat -> wok w -> live w p (Z.of_nat (8 * N)) ->
  wpf shift_1bit_left [p; Z.of_nat (8 * N)] w (resq (fun vs w' => vs = [] /\
    frame w w' (within p (Z.of_nat (8 * N))) /\
    load (8 * N) (mem w') p = (2 * load (8 * N) (mem w) p) mod 256 ^ Z.of_nat (8 * N)) False).
Proof.
  intros N w p HN Hw Lp. apply wpf_intro; [reflexivity|]; wc.
  pose proof Hw as (P1&P2&P3&P4&P5&P6). unfold live in Lp.
  set (sz := Z.of_nat (8 * N)) in *. assert (Hsz : sz = 8 * Z.of_nat N) by (unfold sz; lia). clearbody sz.
  assert (Hb : sz + p <= 65536 * pages w) by lia. assert (Hb2 : 65536 * pages w < 4294967296) by lia.
  clear P4 P5 P6.
  ws1. ws1. ws1. ws1.
  eapply (wp_loop (fun k l w' => exists j d3 d4 d6 c m, (j < N)%nat /\ k = (N - j)%nat /\
     l = [p; sz; Z.of_nat j; d3; d4; c; d6] /\ w' = set_mem w m /\ 0 <= c <= 1 /\
     (forall x, ~ within p (8 * Z.of_nat j) x -> rd m x = rd (mem w) x) /\
     hidden (load (8 * j) m p + 256 ^ (8 * Z.of_nat j) * c = 2 * load (8 * j) (mem w) p))) with (k := N).
  - exists 0%nat, 0, 0, 0, 0, (mem w). split; [lia|]. split; [lia|]. split; [reflexivity|].
    split; [destruct w; reflexivity|]. split; [lia|]. split; [auto|]. constructor. change (8 * 0)%nat with 0%nat; cbn [load]; lia.
  - intros k l w' (j&d3&d4&d6&c&m&Hj&->&->&->&Hc&Hm&HS).
    assert (Hx : load 8 m (8 * Z.of_nat j + p) = load 8 (mem w) (p + 8 * Z.of_nat j)).
    { rewrite Z.add_comm. apply load_ext. intros. apply Hm. unfold within. lia. }
    pose proof (load_8_range (mem w) (p + 8 * Z.of_nat j)) as Rx.
    pose proof (load_chunk 8 j (mem w) p) as Ca. change (Z.of_nat 8) with 8 in Ca. hide Ca.
    set (x := load 8 (mem w) (p + 8 * Z.of_nat j)) in *. clearbody x.
    ws1. ws1. eapply wp_bin; [reflexivity|]. rewrite shl_3 by lia.
    ws1. ws1. ws1. ws1. rewrite Hx. ws1. ws1. ws1. ws1.
    change (2 ^ (63 mod bits I64)) with 9223372036854775808. ws1. ws1. ws1. ws1. ws1.
    eapply wp_bin; [reflexivity|]. cbn [wrapt]. change (2 ^ (1 mod bits I64)) with 2. ws1. ws1. ws1.
    destruct (shift1_step x c Rx Hc) as (M1&M2&M3).
    set (n := Z.land (x / 9223372036854775808) 1) in *. set (y := Z.lor (w64 (x * 2)) c) in *. clearbody n y.
    ws1. ws1. ws1. ws1. ws1. ws1. ws1. ws1. ws1. ws1. ws1.
    eapply wp_bin; [reflexivity|]. rewrite shl_3 by lia. ws1. ws1.
    set (m' := store 8 m (8 * Z.of_nat j + p) y).
    assert (Hm' : forall z, ~ within p (8 * Z.of_nat (S j)) z -> rd m' z = rd (mem w) z).
    { intros z Hz. unfold m'. unfold within in Hz. rewrite rd_store_out by lia. apply Hm. unfold within. lia. }
    assert (HS' : load (8 * S j) m' p + 256 ^ (8 * Z.of_nat (S j)) * n = 2 * load (8 * S j) (mem w) p).
    { unhide HS. unhide Ca. rewrite Ca. pose proof (load_chunk 8 j m' p) as Cm. change (Z.of_nat 8) with 8 in Cm.
      rewrite Cm. unfold m'. replace (8 * Z.of_nat j + p) with (p + 8 * Z.of_nat j) by lia.
      rewrite load_8_store, w64_small by exact M3. rewrite load_store_other by lia.
      rewrite pow_chunk. change 18446744073709551616 with M64. clear - HS M1.
      revert HS. generalize (load (8 * j) m p), (256 ^ (8 * Z.of_nat j)), (load (8 * j) (mem w) p). intros.
      replace (z + z0 * y + z0 * M64 * n) with (z + z0 * (y + M64 * n)) by ring. rewrite M1.
      replace (2 * (z1 + z0 * x)) with (2 * z1 + 2 * z0 * x) by ring. rewrite <- HS. ring. }
    apply wp_brif; intros C; unb C; wc.
    + exists (N - S j)%nat. split; [lia|]. exists (S j), (8 * Z.of_nat j + p), y, n, n, m'.
      split; [lia|]. split; [lia|]. split; [replace (Z.of_nat j + 1) with (Z.of_nat (S j)) by lia; reflexivity|].
      split; [reflexivity|]. split; [exact M2|]. split; [exact Hm'|]. constructor. exact HS'.
    + assert (N = S j) by lia. subst N. ws. split; [reflexivity|]. split.
      * change (frame w (set_mem w m') (within p sz)). apply frame_set_mem. rewrite Hsz. exact Hm'.
      * rewrite <- HS'. rewrite Hsz, (Z.mul_comm _ n), Z.mod_add by (pose proof (pow256_pos (8 * Z.of_nat (S j))); lia).
        symmetry. apply Z.mod_small. apply load8_range.
Qed.

Lemma bit_spec : forall x k, 0 <= k -> (x / 2 ^ k) mod 2 = Z.b2z (Z.testbit x k).
Proof. intros. symmetry. apply Z.testbit_spec'. assumption. Qed.

Lemma byte_bit : forall L q r, 0 <= q -> 0 <= r < 8 ->
  ((L / 256 ^ q) mod 256 / 2 ^ r) mod 2 = (L / 2 ^ (8 * q + r)) mod 2.
Proof.
  intros. rewrite !bit_spec by lia. f_equal. change 256 with (2 ^ 8).
  rewrite Z.mod_pow2_bits_low by lia. rewrite <- Z.pow_mul_r by lia.
  rewrite Z.div_pow2_bits by lia. f_equal. lia.
Qed.

Lemma shr_3 : forall x, x / 2 ^ (3 mod bits I32) = x / 8.
Proof. reflexivity. Qed.

Lemma div8 : forall i nb, 0 <= i < 8 * nb -> i = 8 * (i / 8) + i mod 8 /\ 0 <= i mod 8 < 8 /\ 0 <= i / 8 < nb.
Proof.
  intros. pose proof (Z.div_mod i 8 ltac:(lia)). pose proof (Z.mod_pos_bound i 8 ltac:(lia)). lia.
Qed.

Lemma get_bit_spec : forall nb w p i n, wok w -> live w p (Z.of_nat nb) -> 0 <= i < 8 * Z.of_nat nb -> i < 4294967296 ->
  returns get_bit [p; i; n] w [(load nb (mem w) p / 2 ^ i) mod 2] w.
Proof.
  intros nb w p i n Hw Lp Hi Hi2. apply pure_intro. apply wpf_intro; [reflexivity|]; wc.
  pose proof Hw as (P1&P2&P3&P4&P5&P6). unfold live in Lp.
  destruct (div8 i (Z.of_nat nb) Hi) as (D1&D2&D3). clear P6.
  ws1. ws1. ws1. rewrite shr_3. ws1. ws1. ws1. ws1. rewrite land_7. ws1.
  set (q := i / 8) in *. set (r := i mod 8) in *. clearbody q r.
  ws1. ws1. ws1. ws1. rewrite load_1. rewrite (load_byte nb) by lia.
  ws1. ws1. cbn [bits]. rewrite (Z.mod_small r 32) by lia. ws1. ws1. rewrite land_1. rewrite byte_bit by lia. rewrite <- D1.
  ws. auto.
Qed.

Lemma lor_bit : forall b r, 0 <= r -> Z.testbit b r = false -> Z.lor b (2 ^ r) = b + 2 ^ r.
Proof.
  intros b r Hr Hb.
  assert (E : Z.land b (2 ^ r) = 0).
  { apply Z.bits_inj'. intros n Hn. rewrite Z.land_spec, Z.bits_0, Z.pow2_bits_eqb by lia.
    destruct (Z.eqb_spec r n); [subst; rewrite Hb; reflexivity|apply andb_false_r]. }
  rewrite Z.add_nocarry_lxor by exact E. symmetry. apply Z.lxor_lor. exact E.
Qed.

Lemma load_store_byte : forall nb m p q v, 0 <= q < Z.of_nat nb ->
  load nb (store 1 m (p + q) v) p = load nb m p + 256 ^ q * (v mod 256 - rd m (p + q)).
Proof.
  intros nb m p q v Hq.
  replace nb with (Z.to_nat q + (1 + (nb - Z.to_nat q - 1)))%nat by lia.
  rewrite !load_split, Z2Nat.id by lia. rewrite !load_1.
  rewrite (load_store_other (Z.to_nat q)) by lia. rewrite rd_store_in by lia.
  rewrite (load_store_other (nb - Z.to_nat q - 1)) by lia.
  replace (p + q - (p + q)) with 0 by lia. rewrite Z.pow_0_r, Z.div_1_r. ring.
Qed.

Lemma byte_small_bit : forall L q r, 0 <= q -> 0 <= r < 8 -> (L / 2 ^ (8 * q + r)) mod 2 = 0 ->
  let b := (L / 256 ^ q) mod 256 in
  Z.lor b (2 ^ r) mod 256 - b = 2 ^ r /\ 256 ^ q * 2 ^ r = 2 ^ (8 * q + r).
Proof.
  intros L q r Hq Hr H b. split.
  - assert (Hb : Z.testbit b r = false).
    { rewrite <- byte_bit in H by lia. fold b in H. rewrite bit_spec in H by lia.
      destruct (Z.testbit b r); [discriminate|reflexivity]. }
    rewrite lor_bit by (auto; lia). rewrite Z.mod_small; [lia|].
    pose proof (Z.mod_pos_bound (L / 256 ^ q) 256 ltac:(lia)) as Rb. fold b in Rb.
    assert (0 < 2 ^ r) by (apply Z.pow_pos_nonneg; lia). split; [lia|].
    rewrite <- lor_bit by (auto; lia).
    apply Z.log2_lt_cancel. change (Z.log2 256) with 8.
    rewrite Z.log2_lor by lia. rewrite Z.log2_pow2 by lia. apply Z.max_lub_lt; [|lia].
    destruct (Z.eq_dec b 0) as [->|]; [cbn; lia|]. apply Z.log2_lt_pow2; lia.
  - change 256 with (2 ^ 8). rewrite <- Z.pow_mul_r by lia. rewrite <- Z.pow_add_r by lia. reflexivity.
Qed.

Lemma set_bit_spec : forall nb w p i n, wok w -> live w p (Z.of_nat nb) -> 0 <= i < 8 * Z.of_nat nb -> i < 4294967296 ->
  (load nb (mem w) p / 2 ^ i) mod 2 = 0 ->
  wpf set_bit [p; i; n] w (resq (fun vs w' => vs = [] /\
    frame w w' (within p (Z.of_nat nb)) /\ load nb (mem w') p = load nb (mem w) p + 2 ^ i) False).
Proof.
  intros nb w p i n Hw Lp Hi Hi2 H0. apply wpf_intro; [reflexivity|]; wc.
  pose proof Hw as (P1&P2&P3&P4&P5&P6). unfold live in Lp.
  destruct (div8 i (Z.of_nat nb) Hi) as (D1&D2&D3). clear P6.
  ws1. ws1. ws1. rewrite shr_3. ws1. ws1. ws1. ws1. rewrite land_7. ws1.
  set (q := i / 8) in *. set (r := i mod 8) in *. clearbody q r. hide H0.
  ws1. ws1. ws1. ws1. ws1. rewrite load_1. ws1. ws1. ws1.
  eapply wp_bin; [reflexivity|]. cbn [wrapt bits]. rewrite (Z.mod_small r 32) by lia.
  assert (R2 : 0 < 2 ^ r <= 128).
  { split; [apply Z.pow_pos_nonneg; lia|]. change 128 with (2 ^ 7). apply Z.pow_le_mono_r; lia. }
  rewrite w32_small by lia. rewrite Z.mul_1_l. ws1. ws1. ws1. ws1. ws1. ws1. ws1.
  split; [reflexivity|]. split.
  - apply frame_set_mem. unfold within. intros. apply rd_store_out. lia.
  - rewrite load_store_byte by lia. rewrite (load_byte nb (mem w) p q) by lia.
    unhide H0. rewrite D1 in H0. destruct (byte_small_bit (load nb (mem w) p) q r ltac:(lia) ltac:(lia) H0) as [E1 E2].
    rewrite E1, E2, <- D1. reflexivity.
Qed.

Lemma frame_set : forall w w' W, frame w w' W ->
  w' = set_mem w (mem w') /\ (forall a, ~ W a -> rd (mem w') a = rd (mem w) a).
Proof.
  intros [m1 p1 x1 g1 a1 c1 h1] [m2 p2 x2 g2 a2 c2 h2] W (F1&F2&F3&F4&F5&F6&F7); cbn in *. subst. split; auto.
Qed.

(** ** One step of long division *)
Lemma div_step : forall A D k, 0 <= A -> 0 < D -> 0 <= k ->
  let hi := A / 2 ^ (k + 1) in let b := (A / 2 ^ k) mod 2 in let hi' := A / 2 ^ k in
  let R2 := 2 * (hi mod D) + b in
  hi' = 2 * hi + b /\ 0 <= b <= 1 /\ 0 <= hi mod D <= hi /\
  (R2 < D -> hi' mod D = R2 /\ hi' / D * 2 ^ k = hi / D * 2 ^ (k + 1)) /\
  (D <= R2 -> hi' mod D = R2 - D /\ hi' / D * 2 ^ k = hi / D * 2 ^ (k + 1) + 2 ^ k).
Proof.
  intros A D k HA HD Hk hi b hi' R2.
  assert (P : 0 < 2 ^ k) by (apply Z.pow_pos_nonneg; lia).
  assert (P2 : 2 ^ (k + 1) = 2 ^ k * 2) by (rewrite Z.pow_add_r by lia; reflexivity).
  assert (Hb : 0 <= b <= 1) by (unfold b; pose proof (Z.mod_pos_bound (A / 2 ^ k) 2 ltac:(lia)); lia).
  assert (E : hi' = 2 * hi + b).
  { unfold hi', hi, b. rewrite P2, <- Z.div_div by lia. apply Z.div_mod. lia. }
  assert (Hhi : 0 <= hi) by (unfold hi; apply Z.div_pos; lia).
  pose proof (Z.mod_pos_bound hi D HD) as Rb. pose proof (Z.div_mod hi D ltac:(lia)) as Dm.
  pose proof (Z.mod_le hi D Hhi HD).
  split; [exact E|]. split; [exact Hb|]. split; [lia|]. clearbody hi' b hi.
  set (q := hi / D) in *. set (r := hi mod D) in *. clearbody q r. split; intros.
  - assert (Hq : hi' / D = 2 * q) by (symmetry; apply Z.div_unique with R2; [lia|unfold R2; lia]).
    split; [symmetry; apply Z.mod_unique with (2 * q); [lia|unfold R2; lia]|]. rewrite Hq, P2. ring.
  - assert (Hq : hi' / D = 2 * q + 1) by (symmetry; apply Z.div_unique with (R2 - D); [unfold R2 in *; lia|unfold R2; lia]).
    split; [symmetry; apply Z.mod_unique with (2 * q + 1); [unfold R2 in *; lia|unfold R2; lia]|]. rewrite Hq, P2. ring.
Qed.

Lemma q_bit_clear : forall q k, 0 <= k -> (q * 2 ^ (k + 1) / 2 ^ k) mod 2 = 0.
Proof.
  intros. rewrite Z.pow_add_r by lia. replace (q * (2 ^ k * 2 ^ 1)) with (q * 2 * 2 ^ k) by ring.
  rewrite Z.div_mul by (pose proof (Z.pow_pos_nonneg 2 k); lia). apply Z.mod_mul. lia.
Qed.

Lemma wp_call_pure : forall f np nl nr b r (Q : outcome -> Prop) s l w vs,
  f = Func np nl nr b -> (np <= List.length s)%nat ->
  returns f (rev (firstn np s)) w vs w ->
  wp r Q (vs ++ skipn np s) l w -> wp (Call f :: r) Q s l w.
Proof.
  intros. eapply wp_call; [eassumption|assumption|].
  eapply returns_wpf; [eassumption|]. assumption.
Qed.

Ltac wpure spec := eapply wp_call_pure; [reflexivity|cbn [List.length]; lia|wc; eapply spec|]; wc.

Lemma oom_2 : forall w w1 n, allocated w w1 n -> oom w1 n -> oom w (2 * n).
Proof. unfold allocated, oom. intros w w1 n (_&_&E&_&G&_). rewrite E, G. lia. Qed.

Lemma oom_mono : forall w n k, oom w n -> n <= k -> oom w k.
Proof. unfold oom; intros; lia. Qed.

Lemma div_mod_spec : forall N ep w a d qr, (1 <= N)%nat -> wok w -> errtab_ok ep -> abort_flag w = 0 ->
  live w a (Z.of_nat (8 * N)) -> live w d (Z.of_nat (8 * N)) -> 64 * Z.of_nat N < 2147483648 ->
  let A := load (8 * N) (mem w) a in let D := load (8 * N) (mem w) d in
  wpf (heap_integers_div_mod ep) [a; d; 64 * Z.of_nat N; qr] w (resq (fun vs w' =>
    D <> 0 /\ extends w w' /\ abort_flag w' = 0 /\
    exists r, vs = [r] /\ gnext w <= r /\ r + Z.of_nat (8 * N) <= gnext w' /\
      gnext w' = gnext w + 2 * Z.of_nat (8 * N) /\
      load (8 * N) (mem w') r = if qr =? 0 then A mod D else A / D)
    (D = 0 \/ oom w (2 * Z.of_nat (8 * N)))).
Proof.
  intros N ep w a d qr HN Hw He Hf La Ld Hs A D. apply wpf_intro; [reflexivity|]; wc.
  pose proof Hw as (P1&P2&P3&P4&P5&P6). pose proof La as La0. pose proof Ld as Ld0. unfold live in La, Ld.
  ws1. ws1. eapply wp_bin; [cbn [binop]; reflexivity|].
  replace (64 * Z.of_nat N / 8) with (Z.of_nat (8 * N)).
  2:{ apply Z.div_unique with 0; lia. }
  assert (E84 : Z.of_nat (8 * N) = Z.of_nat (4 * (2 * N))) by lia.
  ws1. ws1. ws1.
  eapply wp_call_pure; [reflexivity|cbn [List.length]; lia|wc; rewrite E84; eapply is_zero_spec; [exact Hw|rewrite <- E84; exact Ld0]|]; wc.
  replace (4 * (2 * N))%nat with (8 * N)%nat by lia. fold D.
  ws1.
  { ws1. ws1. eapply wp_bin_trap; [reflexivity|]. wc. left. lia. }
  assert (HD : 0 < D) by (pose proof (load_range (8 * N) (mem w) d); fold D in H; lia).
  pose proof (load8_range N (mem w) a) as HA. fold A in HA.
  pose proof (fun w p => shift1_spec N w p HN) as SH. pose proof (fun w a b => less_than_spec N w a b HN) as LT.
  pose proof (heap_sub_spec N ep) as SB. pose proof (get_bit_spec (8 * N)) as GB. pose proof (set_bit_spec (8 * N)) as ST.
  set (sz := Z.of_nat (8 * N)) in *. assert (Hsz : sz = 8 * Z.of_nat N) by (unfold sz; lia).
  assert (E256 : 256 ^ sz = 2 ^ (64 * Z.of_nat N)) by (rewrite Hsz; apply pow2_64). clearbody sz. hide E256.
  ws1. wc. ws1. wcall alloc_spec; [exact Hw|lia|intros O; right; eapply oom_mono; [exact O|lia]|].
  intros vs w1 [-> Al1]. wc. ws1. ws1.
  pose proof Al1 as (Hw1&Em1&A1&A2&A3&A4&A5).
  wcall alloc_spec; [exact Hw1|lia|intros O; right; eapply oom_2; eassumption|].
  intros vs w2 [-> Al2]. wc. ws1.
  destruct Al2 as (Hw2&Em2&B1&B2&B3&B4&B5). rewrite Em1 in Em2. rewrite A3 in *.
  set (R := gnext w) in *. set (Qp := R + sz) in *.
  assert (HQp : Qp = R + sz) by reflexivity. clearbody Qp.
  pose proof Hw2 as (Q1&Q2&Q3&Q4&Q5&Q6).
  (* a memory that differs from the initial one in the two results only *)
  set (upd_ok := fun m => forall x, ~ within R (2 * sz) x -> rd m x = rd (mem w) x).
  assert (EX : forall m, upd_ok m -> extends w (set_mem w2 m) /\ wok (set_mem w2 m) /\ abort_flag (set_mem w2 m) = 0).
  { intros m Hm. assert (K : wok (set_mem w2 m)).
    { eapply wok_frame; [exact Hw2| |]. apply frame_set_mem with (W := within R (2 * sz)).
      - intros. rewrite Em2. apply Hm. auto.
      - unfold within. lia. }
    split; [|split; [exact K|]].
    - split; [exact K|]. cbn [maxpages pages gnext gcd host mem set_mem].
      repeat (split; [first [congruence|lia]|]). intros. apply Hm. unfold within, R. lia.
    - rewrite <- Hf. unfold abort_flag. apply load_ext. intros. apply Hm. unfold within. lia. }
  assert (LR : forall m, live (set_mem w2 m) R sz) by (intros; unfold live; cbn; lia).
  assert (LQ : forall m, live (set_mem w2 m) Qp sz) by (intros; unfold live; cbn; lia).
  assert (La2 : forall m, live (set_mem w2 m) a sz) by (intros; unfold live; cbn; lia).
  assert (Ld2 : forall m, live (set_mem w2 m) d sz) by (intros; unfold live; cbn; lia).
  assert (VA : forall m, upd_ok m -> load (8 * N) m a = A).
  { intros m Hm. apply load_ext. intros. apply Hm. unfold within. lia. }
  assert (VD : forall m, upd_ok m -> load (8 * N) m d = D).
  { intros m Hm. apply load_ext. intros. apply Hm. unfold within. lia. }
  clear A1 A2 A4 A5 B1 B2 B4 B5 Em1 Al1 Hw1 P6 Q6 P4 P5.
  ws1. ws1. ws1. ws1.
  eapply (wp_loop (fun k l w' => exists m, l = [a; d; 64 * Z.of_nat N; qr; R; Qp; Z.of_nat k - 1; sz] /\
     w' = set_mem w2 m /\ upd_ok m /\ (1 <= k)%nat /\ Z.of_nat k <= 64 * Z.of_nat N /\
     hidden (load (8 * N) m R = (A / 2 ^ Z.of_nat k) mod D) /\
     hidden (load (8 * N) m Qp = (A / 2 ^ Z.of_nat k) / D * 2 ^ Z.of_nat k))) with (k := (64 * N)%nat).
  - exists (mem w). replace (Z.of_nat (64 * N)) with (64 * Z.of_nat N) by lia.
    split; [reflexivity|]. split; [rewrite <- Em2; destruct w2; reflexivity|].
    split; [unfold upd_ok; auto|]. split; [lia|]. split; [lia|].
    assert (HA0 : A / 2 ^ (64 * Z.of_nat N) = 0) by (apply Z.div_small; rewrite <- pow2_64; exact HA).
    assert (Z0 : forall q, R <= q -> load (8 * N) (mem w) q = 0).
    { intros q Hq. rewrite (load_of_digits _ (mem w) q 0).
      - apply Z.mod_0_l. pose proof (pow256_pos (Z.of_nat (8 * N))). lia.
      - intros. rewrite Z.div_0_l by (pose proof (pow256_pos i); lia). apply Hw. fold R. lia. }
    rewrite HA0, Z.mod_0_l, Z.div_0_l by lia. split; constructor; [apply Z0; lia|].
    rewrite Z0 by lia. lia.
  - intros k l w' (m&->&->&Um&Hk1&Hk2&HR&HQ).
    set (i := Z.of_nat k - 1) in *. assert (Hi : 0 <= i < 64 * Z.of_nat N) by lia.
    assert (Ek : Z.of_nat k = i + 1) by lia. rewrite Ek in HR, HQ. clearbody i.
    destruct (div_step A D i ltac:(lia) HD ltac:(lia)) as (S1&S2&S3&S4&S5).
    set (b := (A / 2 ^ i) mod 2) in *. hide S1. hide S4. hide S5.
    destruct (EX m Um) as (_&Hwm&_).
    ws1. ws1.
    (* R := 2R *)
    wcall SH; [exact Hwm|apply LR|tauto|].
    intros vs w3 (->&F3&V3). wc. destruct (frame_set _ _ _ F3) as [E3 F3']. cbn [mem set_mem] in F3', V3.
    set (m3 := mem w3) in *. rewrite E3. clear E3 F3. change (set_mem (set_mem w2 m) m3) with (set_mem w2 m3).
    assert (U3 : upd_ok m3).
    { intros x Hx. rewrite F3' by (clear - Hx; unfold within in *; lia). apply Um. exact Hx. }
    assert (VQ3 : load (8 * N) m3 Qp = load (8 * N) m Qp).
    { apply load_ext. intros. apply F3'. clear - H HQp. unfold within. lia. }
    clearbody m3. destruct (EX m3 U3) as (_&Hw3&_).
    (* R := R + bit i *)
    ws1. ws1.
    ws1. rewrite load_1. ws1. ws1. ws1.
    wpure GB; [exact Hw3|apply La2|clear - Hi Hsz; slia|clear - Hi Hs; slia|]. cbn [mem set_mem]. rewrite (VA m3 U3). fold b.
    ws1. ws1.
    assert (V4 : load (8 * N) m3 R = 2 * ((A / 2 ^ (i + 1)) mod D)).
    { unhide HR. rewrite V3, HR. apply Z.mod_small. unhide E256. rewrite E256.
      assert (LA : A / 2 ^ (i + 1) < 2 ^ (64 * Z.of_nat N - (i + 1))).
      { apply Z.div_lt_upper_bound; [apply Z.pow_pos_nonneg; slia|]. rewrite <- Z.pow_add_r by slia.
        replace (i + 1 + (64 * Z.of_nat N - (i + 1))) with (64 * Z.of_nat N) by slia. rewrite <- pow2_64. apply HA. }
      assert (LB : 2 ^ (64 * Z.of_nat N - (i + 1)) * 2 <= 2 ^ (64 * Z.of_nat N)).
      { change 2 with (2 ^ 1) at 2. rewrite <- Z.pow_add_r by slia. apply Z.pow_le_mono_r; slia. }
      assert (LC : (A / 2 ^ (i + 1)) mod D <= A / 2 ^ (i + 1)).
      { apply Z.mod_le; [apply Z.div_pos; [apply HA|apply Z.pow_pos_nonneg; slia]|slia]. }
      pose proof (Z.mod_pos_bound (A / 2 ^ (i + 1)) D ltac:(slia)) as LD.
      clear - LA LB LC LD. lia. }
    set (R2 := 2 * ((A / 2 ^ (i + 1)) mod D) + b) in *.
    set (m4 := store 1 m3 R (Z.lor (rd m3 R) b)).
    assert (U4 : upd_ok m4).
    { intros x Hx. unfold m4. rewrite rd_store_out by (clear - Hx Hsz HN; unfold within in Hx; slia). apply U3. exact Hx. }
    assert (V5 : load (8 * N) m4 R = R2).
    { unfold m4. pose proof (load_store_byte (8 * N) m3 R 0 (Z.lor (rd m3 R) b)) as L.
      rewrite Z.add_0_r in L. rewrite L by slia. rewrite Z.pow_0_r, V4.
      assert (Er : exists h, rd m3 R = 2 * h).
      { pose proof (load_byte (8 * N) m3 R 0) as K. rewrite Z.add_0_r in K. rewrite K by slia. rewrite V4, Z.pow_0_r, Z.div_1_r.
        exists (((A / 2 ^ (i + 1)) mod D) mod 128). exact (Z.mul_mod_distr_l ((A / 2 ^ (i + 1)) mod D) 128 2 ltac:(discriminate) ltac:(discriminate)). }
      destruct Er as [h Er]. pose proof (rd_range m3 R) as Hr. rewrite Er in Hr. rewrite Er, lor_even_bit by exact S2.
      rewrite (Z.mod_small (2 * h + b)) by (clear - Hr S2; lia). unfold R2. ring. }
    assert (VQ4 : load (8 * N) m4 Qp = load (8 * N) m Qp).
    { rewrite <- VQ3. unfold m4. apply load_store_other. slia. }
    clearbody m4. destruct (EX m4 U4) as (_&Hw4&Hf4). cbn [mem set_mem].
    change (set_mem (set_mem w2 m3) m4) with (set_mem w2 m4).
    (* compare with D *)
    assert (POST : forall m5, upd_ok m5 -> load (8 * N) m5 R = (A / 2 ^ i) mod D ->
              load (8 * N) m5 Qp = (A / 2 ^ i) / D * 2 ^ i ->
              wp [LocalGet 6; Const 1; Bin I32 Sub; LocalTee 6; Const 0; Bin I32 GeS; BrIf "loop"]
               (loopk "loop" 0 [] [LocalGet 3; If 1 [LocalGet 5] [LocalGet 4]]
                 (fret 1 (fun vs w' => D <> 0 /\ extends w w' /\ abort_flag w' = 0 /\
                    exists r, vs = [r] /\ R <= r /\ r + sz <= gnext w' /\ gnext w' = R + 2 * sz /\
                    load (8 * N) (mem w') r = (if qr =? 0 then A mod D else A / D))
                   (D = 0 \/ oom w (2 * sz)))
                 (fun l' w' => exists k', (k' < k)%nat /\ exists m, l' = [a; d; 64 * Z.of_nat N; qr; R; Qp; Z.of_nat k' - 1; sz] /\
     w' = set_mem w2 m /\ upd_ok m /\ (1 <= k')%nat /\ Z.of_nat k' <= 64 * Z.of_nat N /\
     hidden (load (8 * N) m R = (A / 2 ^ Z.of_nat k') mod D) /\
     hidden (load (8 * N) m Qp = (A / 2 ^ Z.of_nat k') / D * 2 ^ Z.of_nat k')))
               [] [a; d; 64 * Z.of_nat N; qr; R; Qp; i; sz] (set_mem w2 m5)).
    { intros m5 U5 VR VQ. hide VR. hide VQ. destruct (EX m5 U5) as (X5&_&Y5).
      ws1. ws1. eapply wp_bin; [reflexivity|]. cbn [wrapt]. ws1. ws1. eapply wp_bin; [reflexivity|].
      destruct (Z.eq_dec i 0) as [->|Hi0].
      - apply wp_brif; intros C1; [vm_compute in C1; congruence|]. wc.
        unhide VR. unhide VQ. rewrite Z.pow_0_r, Z.div_1_r in VR, VQ. rewrite Z.mul_1_r in VQ.
        assert (G2 : gnext (set_mem w2 m5) = R + 2 * sz) by (cbn [gnext set_mem]; slia).
        clear C1. ws1. ws1. ws1; (destruct (Z.eqb_spec qr 0) as [Q0|Q0]; [|]); try (exfalso; slia).
        + ws.
          split; [slia|]. split; [exact X5|]. split; [exact Y5|]. exists Qp. cbn [mem set_mem].
          split; [reflexivity|]. split; [slia|]. split; [slia|]. split; [exact G2|exact VQ].
        + ws.
          split; [slia|]. split; [exact X5|]. split; [exact Y5|]. exists R. cbn [mem set_mem].
          split; [reflexivity|]. split; [slia|]. split; [slia|]. split; [exact G2|exact VR].
      - rewrite w32_small by slia. rewrite !sgn32_pos by slia.
        apply wp_brif; intros C1; unb C1; [|slia]. wc. exists (k - 1)%nat. split; [slia|].
        exists m5. replace (Z.of_nat (k - 1)) with i by slia. unhide VR. unhide VQ.
        repeat (split; [first [reflexivity|assumption|slia]|]). split; constructor; assumption. }
    ws1. ws1. ws1. ws1. wpure LT; [exact Hw4|apply LR|apply Ld2|clear - Hs Hsz; slia|]. cbn [mem set_mem]. rewrite V5, (VD m4 U4).
    ws1.
    + apply POST; [exact U4| |].
      * unhide S4. rewrite V5. symmetry. apply S4. slia.
      * unhide S4. unhide HQ. rewrite VQ4, HQ. symmetry. apply S4. slia.
    + (* subtract *)
      ws1. ws1. ws1. ws1.
      wcall SB; [exact Hw4|exact He|apply LR|apply Ld2|apply LR|slia|left; reflexivity|right; right; clear - Ld; slia|tauto|].
      cbn [mem set_mem]. intros vs w5 (w5'&F5&[(G1&->&->&V6)|(G1&_)]); [|rewrite V5, (VD m4 U4) in G1; clear - G1 C0; slia].
      wc. rewrite V5, (VD m4 U4) in V6.
      destruct (frame_set _ _ _ F5) as [E5 F5']. cbn [mem set_mem] in F5'. set (m5 := mem w5') in *. rewrite E5. clear E5 F5.
      change (set_mem (set_mem w2 m4) m5) with (set_mem w2 m5).
      assert (U5 : upd_ok m5).
      { intros x Hx. rewrite F5' by (clear - Hx; unfold within in *; slia). apply U4. exact Hx. }
      assert (VQ5 : load (8 * N) m5 Qp = load (8 * N) m Qp).
      { rewrite <- VQ4. apply load_ext. intros. apply F5'. clear - H HQp. unfold within. slia. }
      clearbody m5. destruct (EX m5 U5) as (_&Hw5&Hf5).
      apply wp_propagate_ok; [exact Hw5|exact Hf5|].
      ws1. ws1. ws1. ws1. unhide HQ.
      wcall ST; [exact Hw5|apply LQ|clear - Hi Hsz; slia|clear - Hi Hs; slia|cbn [mem set_mem]; rewrite VQ5, HQ; apply q_bit_clear; slia|tauto|].
      cbn [mem set_mem]. intros vs w6 (->&F6&V7). wc.
      destruct (frame_set _ _ _ F6) as [E6 F6']. cbn [mem set_mem] in F6'. set (m6 := mem w6) in *. rewrite E6. clear E6 F6.
      change (set_mem (set_mem w2 m5) m6) with (set_mem w2 m6).
      ws1. apply POST.
      * intros x Hx. rewrite F6' by (clear - Hx HQp; unfold within in *; slia). apply U5. exact Hx.
      * unhide S5. destruct (S5 ltac:(slia)) as [-> _]. rewrite <- V6. apply load_ext. intros. apply F6'. clear - H HQp Hsz. unfold within. slia.
      * unhide S5. destruct (S5 ltac:(slia)) as [_ ->]. rewrite V7, VQ5, HQ. reflexivity.
Qed.
