(** * Heap shifts (runtime/integers/bitwise.rs). *)

From Verif Require Import Tac RtAlloc RtErr RtInt RtInt2 RtEq RtMul RtDiv.
Ltac Zify.zify_post_hook ::= idtac.

(** runtime/integers/bitwise.rs 35-116, the prologue shared by both shifts.
    Locals: 0 n_ptr, 1 shift_amount, 2 type_heap_size, 3 pointer, 4 word_shift,
    5 bit_shift, 6 total_words, 7 i, 8 j. *)
Definition shift_prologue (ep : errtab) : list instr :=
  [ LocalGet 1; LocalGet 2; Const 8; Bin I32 Mul; Const 1; Bin I32 Sub; Call (check_overflow_u8_u16 ep) ]
  ++ propagate true ++
  [ Drop; LocalGet 2; Call alloc; LocalSet 3;
    LocalGet 1; Const 64; Bin I32 DivU; LocalSet 4;
    LocalGet 1; Const 64; Bin I32 RemU; LocalSet 5 ].

(** runtime/integers/bitwise.rs 22-272. *)
Definition shift_left_body : list instr :=
  [ LocalGet 7; LocalGet 4; Bin I32 Add; LocalSet 8;
    Block "b1" 0
      [ LocalGet 8; LocalGet 6; Bin I32 GeU; BrIf "b1";
        LocalGet 3; LocalGet 8; Const 8; Bin I32 Mul; Bin I32 Add;
        LocalGet 3; LocalGet 8; Const 8; Bin I32 Mul; Bin I32 Add; Load 8 0;
        LocalGet 0; LocalGet 7; Const 8; Bin I32 Mul; Bin I32 Add; Load 8 0;
        LocalGet 5; Un ExtendU; Bin I64 Shl;
        Bin I64 Or; Store 8 0 ];
    Block "b2" 0
      [ LocalGet 5; Un Eqz; LocalGet 8; Const 1; Bin I32 Add; LocalGet 6; Bin I32 GeU; Bin I32 Or; BrIf "b2";
        LocalGet 3; LocalGet 8; Const 1; Bin I32 Add; Const 8; Bin I32 Mul; Bin I32 Add;
        LocalGet 3; LocalGet 8; Const 1; Bin I32 Add; Const 8; Bin I32 Mul; Bin I32 Add; Load 8 0;
        LocalGet 0; LocalGet 7; Const 8; Bin I32 Mul; Bin I32 Add; Load 8 0;
        Const 64; LocalGet 5; Bin I32 Sub; Un ExtendU; Bin I64 ShrU;
        Bin I64 Or; Store 8 0 ];
    LocalGet 7; Const 0; Bin I32 GtU;
    If 0 [ LocalGet 7; Const 1; Bin I32 Sub; LocalSet 7; Br "loop" ] [] ].

Definition heap_int_shift_left (ep : errtab) : func := Func 3 6 1
 (shift_prologue ep ++
  [ LocalGet 2; Const 8; Bin I32 DivU; LocalTee 6; Const 1; Bin I32 Sub; LocalSet 7;
    Loop "loop" 0 shift_left_body;
    LocalGet 3 ]).

(** runtime/integers/bitwise.rs 283-531. *)
Definition shift_right_body : list instr :=
  [ LocalGet 7; LocalGet 4; Bin I32 Add; LocalSet 8;
    Block "b1" 0
      [ LocalGet 8; LocalGet 6; Bin I32 GeU; BrIf "b1";
        LocalGet 3; LocalGet 7; Const 8; Bin I32 Mul; Bin I32 Add;
        LocalGet 3; LocalGet 7; Const 8; Bin I32 Mul; Bin I32 Add; Load 8 0;
        LocalGet 0; LocalGet 8; Const 8; Bin I32 Mul; Bin I32 Add; Load 8 0;
        LocalGet 5; Un ExtendU; Bin I64 ShrU;
        Bin I64 Or; Store 8 0 ];
    Block "b2" 0
      [ LocalGet 5; Un Eqz; LocalGet 8; Const 1; Bin I32 Add; LocalGet 6; Bin I32 GeU; Bin I32 Or; BrIf "b2";
        LocalGet 3; LocalGet 7; Const 8; Bin I32 Mul; Bin I32 Add;
        LocalGet 3; LocalGet 7; Const 8; Bin I32 Mul; Bin I32 Add; Load 8 0;
        LocalGet 0; LocalGet 8; Const 1; Bin I32 Add; Const 8; Bin I32 Mul; Bin I32 Add; Load 8 0;
        Const 64; LocalGet 5; Bin I32 Sub; Un ExtendU; Bin I64 Shl;
        Bin I64 Or; Store 8 0 ];
    LocalGet 7; LocalGet 6; Const 1; Bin I32 Sub; Bin I32 LtU;
    If 0 [ LocalGet 7; Const 1; Bin I32 Add; LocalSet 7; Br "loop" ] [] ].

Definition heap_int_shift_right (ep : errtab) : func := Func 3 6 1
 (shift_prologue ep ++
  [ LocalGet 2; Const 8; Bin I32 DivU; LocalSet 6; Const 0; LocalSet 7;
    Loop "loop" 0 shift_right_body;
    LocalGet 3 ]).

(** ** Words and bits *)

Lemma lor_disjoint : forall a b k, 0 <= k -> 0 <= a < 2 ^ k -> Z.lor (b * 2 ^ k) a = b * 2 ^ k + a.
Proof.
  intros a b k Hk Ha.
  assert (E : Z.land (b * 2 ^ k) a = 0).
  { apply Z.bits_inj'. intros n Hn. rewrite Z.land_spec, Z.bits_0.
    destruct (Z_lt_le_dec n k).
    - rewrite Z.mul_pow2_bits_low by lia. reflexivity.
    - replace (Z.testbit a n) with false; [apply andb_false_r|]. symmetry.
      destruct (Z.eq_dec a 0) as [->|]; [apply Z.bits_0|].
      apply Z.bits_above_log2; [lia|]. apply Z.log2_lt_pow2; [lia|].
      apply Z.lt_le_trans with (2 ^ k); [lia|]. apply Z.pow_le_mono_r; lia. }
  rewrite Z.add_nocarry_lxor by exact E. symmetry. apply Z.lxor_lor. exact E.
Qed.

Lemma load_word : forall N m p j, 0 <= j < Z.of_nat N ->
  load 8 m (p + 8 * j) = (load (8 * N) m p / 2 ^ (64 * j)) mod M64.
Proof.
  intros N m p j Hj.
  replace (8 * N)%nat with (8 * Z.to_nat j + (8 + 8 * (N - Z.to_nat j - 1)))%nat by lia.
  rewrite load_split, (load_split 8).
  replace (Z.of_nat (8 * Z.to_nat j)) with (8 * Z.of_nat (Z.to_nat j)) by lia.
  rewrite pow2_64, Z2Nat.id by lia.
  pose proof (load8_range (Z.to_nat j) m p) as R. rewrite pow2_64, Z2Nat.id in R by lia.
  pose proof (load_range 8 m (p + 8 * j)) as R8. change (256 ^ Z.of_nat 8) with M64 in *.
  rewrite (Z.mul_comm (2 ^ _)), Z.div_add by lia. rewrite (Z.div_small (load (8 * Z.to_nat j) m p)) by lia.
  rewrite Z.add_0_l. rewrite (Z.mul_comm M64), Z.mod_add by (unfold M64; lia). symmetry. apply Z.mod_small. lia.
Qed.

Lemma load_store_word : forall N m p j v, 0 <= j < Z.of_nat N -> 0 <= v < M64 ->
  load (8 * N) (store 8 m (p + 8 * j) v) p =
  load (8 * N) m p + 2 ^ (64 * j) * (v - load 8 m (p + 8 * j)).
Proof.
  intros N m p j v Hj Hv.
  replace (8 * N)%nat with (8 * Z.to_nat j + (8 + 8 * (N - Z.to_nat j - 1)))%nat by lia.
  rewrite !load_split.
  replace (Z.of_nat (8 * Z.to_nat j)) with (8 * Z.of_nat (Z.to_nat j)) by lia.
  rewrite pow2_64, Z2Nat.id by lia.
  rewrite (load_store_other (8 * Z.to_nat j)) by lia.
  rewrite (load_store_other (8 * (N - Z.to_nat j - 1))) by lia.
  rewrite load_8_store, w64_small by exact Hv. ring.
Qed.

Lemma pow64 : 2 ^ 64 = M64. Proof. reflexivity. Qed.

Lemma mod_pow_mul : forall h x e, 0 <= x -> 0 <= e -> (h * 2 ^ x) mod 2 ^ (x + e) = (h mod 2 ^ e) * 2 ^ x.
Proof.
  intros. rewrite Z.pow_add_r, (Z.mul_comm (2 ^ x)) by lia.
  apply Z.mul_mod_distr_r; apply Z.pow_nonzero; lia.
Qed.

Lemma mod_pow_mul0 : forall h x e, 0 <= e <= x -> (h * 2 ^ x) mod 2 ^ e = 0.
Proof.
  intros. replace x with ((x - e) + e) by lia. rewrite Z.pow_add_r by lia.
  rewrite Z.mul_assoc. apply Z.mod_mul. apply Z.pow_nonzero; lia.
Qed.

(** One word of the left shift.  [H] is the part of the operand above word [j - ws]. *)
Lemma shl_step : forall N j W H bs, 0 <= bs < 64 -> 0 <= j -> 0 <= W < M64 -> 0 <= H -> 0 <= N ->
  let V := (H * 2 ^ (64 * (j + 1) + bs)) mod 2 ^ (64 * N) in
  let V' := ((M64 * H + W) * 2 ^ (64 * j + bs)) mod 2 ^ (64 * N) in
  (N <= j -> V' = V) /\
  (j < N -> (V / 2 ^ (64 * j)) mod M64 = 0) /\
  (j + 1 = N \/ bs = 0 -> j < N -> V' = V + 2 ^ (64 * j) * w64 (W * 2 ^ bs)) /\
  (j + 1 < N -> 0 < bs ->
    let y := (V / 2 ^ (64 * (j + 1))) mod M64 in
    let z := Z.lor y (W / 2 ^ (64 - bs)) in
    0 <= z < M64 /\
    V' = V + 2 ^ (64 * j) * w64 (W * 2 ^ bs) + 2 ^ (64 * (j + 1)) * (z - y)).
Proof.
  intros N j W H bs Hb Hj HW HH HN V V'.
  assert (P64 : 2 ^ (64 * (j + 1)) = 2 ^ (64 * j) * M64).
  { replace (64 * (j + 1)) with (64 * j + 64) by lia. rewrite Z.pow_add_r by lia. reflexivity. }
  assert (Pj : 0 < 2 ^ (64 * j)) by (apply Z.pow_pos_nonneg; lia).
  assert (Pb : 0 < 2 ^ bs) by (apply Z.pow_pos_nonneg; lia).
  assert (E1 : N <= j -> V = 0 /\ V' = 0).
  { intros. split; apply mod_pow_mul0; slia. }
  assert (E2 : j < N -> V = 2 ^ (64 * j) * (M64 * (2 ^ bs * (H mod 2 ^ (64 * N - 64 * (j + 1) - bs))))
                        /\ V' = 2 ^ (64 * j) * (2 ^ bs * (M64 * (H mod 2 ^ (64 * N - 64 * (j + 1) - bs)) + W)) /\ j + 1 < N
                     \/ j + 1 = N /\ V = 0 /\ V' = 2 ^ (64 * j) * w64 (W * 2 ^ bs)).
  { intros L. destruct (Z.eq_dec (j + 1) N) as [E|E].
    - right. split; [exact E|]. split; [apply mod_pow_mul0; slia|]. unfold V'. rewrite <- E.
      replace (64 * (j + 1)) with (64 * j + 64) by slia. rewrite Z.pow_add_r by slia.
      rewrite Z.mul_assoc, (Z.mul_comm (_ * _) (2 ^ bs)), Z.mul_assoc, mod_pow_mul by slia. rewrite Z.mul_comm. f_equal.
      unfold w64. rewrite pow64. change 18446744073709551616 with M64.
      replace (2 ^ bs * (M64 * H + W)) with (W * 2 ^ bs + (2 ^ bs * H) * M64) by ring. apply Z.mod_add. unfold M64; slia.
    - left. assert (H0 : j + 1 < N) by slia. split; [|split; [|slia]].
      + unfold V. replace (64 * N) with (64 * (j + 1) + bs + (64 * N - 64 * (j + 1) - bs)) at 1 by slia.
        rewrite mod_pow_mul by slia. rewrite Z.pow_add_r, P64 by slia. ring.
      + unfold V'. replace (64 * N) with (64 * j + bs + (64 + (64 * N - 64 * (j + 1) - bs))) at 1 by slia.
        rewrite mod_pow_mul by slia. rewrite (Z.pow_add_r 2 (64 * j)) by slia. rewrite (Z.pow_add_r 2 64) by slia. rewrite pow64.
        set (e := 2 ^ (64 * N - 64 * (j + 1) - bs)). assert (H1 : 0 < e) by (apply Z.pow_pos_nonneg; slia).
        assert (Em : (M64 * H + W) mod (M64 * e) = M64 * (H mod e) + W).
        { pose proof (Z.div_mod H e ltac:(clear - H1; lia)) as D. pose proof (Z.mod_pos_bound H e ltac:(clear - H1; lia)) as H2.
          symmetry. apply Z.mod_unique with (H / e).
          - left. split; [clear - HW H2; unfold M64 in *; lia|].
            assert (T : M64 * (H mod e) <= M64 * (e - 1)) by (apply Z.mul_le_mono_nonneg_l; clear - H2; unfold M64; lia). clear - T HW. lia.
          - rewrite D at 1. ring. }
        rewrite Em. ring. }
  set (h := H mod 2 ^ (64 * N - 64 * (j + 1) - bs)) in *.
  assert (Hh : 0 <= h).
  { destruct (Z_lt_le_dec (64 * N - 64 * (j + 1) - bs) 0).
    - unfold h. rewrite (Z.pow_neg_r 2) by slia. rewrite Zmod_0_r. slia.
    - unfold h. apply Z.mod_pos_bound. apply Z.pow_pos_nonneg; slia. }
  clearbody V V' h.
  split; [intros L; destruct (E1 L); congruence|].
  split.
  { intros L. destruct (E2 L) as [(->&_)|(_&->&_)]; [|reflexivity].
    rewrite Z.mul_comm, Z.div_mul by (clear - Pj; lia). rewrite Z.mul_comm. apply Z.mod_mul. unfold M64; slia. }
  split.
  { intros Hc L. destruct (E2 L) as [(->&->&L2)|(_&->&->)]; [|ring].
    assert (bs = 0) as -> by slia. rewrite Z.pow_0_r, !Z.mul_1_r. unfold w64. change 18446744073709551616 with M64.
    rewrite Z.mod_small by exact HW. ring. }
  intros L Hbs. cbv zeta. assert (L1 : j < N) by (clear - L; lia); destruct (E2 L1) as [(->&->&_)|L2]; [|exfalso; clear - L L2; lia]. clear E1 E2.
  rewrite P64. replace (2 ^ (64 * j) * (M64 * (2 ^ bs * h))) with (2 ^ bs * h * (2 ^ (64 * j) * M64)) by ring.
  rewrite Z.div_mul by (clear - Pj; unfold M64; lia).
  assert (EM : M64 = 2 ^ (64 - bs) * 2 ^ bs).
  { rewrite <- Z.pow_add_r by slia. replace (64 - bs + bs) with 64 by slia. reflexivity. }
  assert (Pe : 0 < 2 ^ (64 - bs)) by (apply Z.pow_pos_nonneg; slia).
  assert (Ey : (2 ^ bs * h) mod M64 = (h mod 2 ^ (64 - bs)) * 2 ^ bs).
  { rewrite EM, (Z.mul_comm (2 ^ bs) h). apply Z.mul_mod_distr_r; clear - Pb Pe; lia. }
  rewrite Ey.
  assert (Hz : 0 <= W / 2 ^ (64 - bs) < 2 ^ bs).
  { split; [apply Z.div_pos; [apply HW|exact Pe]|]. apply Z.div_lt_upper_bound; [exact Pe|]. rewrite <- EM. apply HW. }
  rewrite lor_disjoint by (try exact Hz; clear - Hb; lia).
  split.
  - pose proof (Z.mod_pos_bound h (2 ^ (64 - bs)) Pe) as Rm.
    split; [|rewrite EM].
    + assert (0 <= h mod 2 ^ (64 - bs) * 2 ^ bs) as T by (apply Z.mul_nonneg_nonneg; clear - Rm Pb; lia). clear - T Hz. lia.
    + assert (h mod 2 ^ (64 - bs) * 2 ^ bs <= (2 ^ (64 - bs) - 1) * 2 ^ bs) as T by (apply Z.mul_le_mono_nonneg_r; clear - Rm Pb; lia). clear - T Hz. lia.
  - assert (Ew : W * 2 ^ bs = M64 * (W / 2 ^ (64 - bs)) + w64 (W * 2 ^ bs)).
    { unfold w64. change 18446744073709551616 with M64.
      replace (W / 2 ^ (64 - bs)) with ((W * 2 ^ bs) / M64); [apply Z.div_mod; unfold M64; slia|].
      rewrite EM. apply Z.div_mul_cancel_r; clear - Pb Pe; lia. }
    replace (2 ^ (64 * j) * (2 ^ bs * (M64 * h + W))) with (2 ^ bs * h * (2 ^ (64 * j) * M64) + 2 ^ (64 * j) * (W * 2 ^ bs)) by ring.
    rewrite Ew at 1. ring.
Qed.

(** One word of the right shift; [X] is the operand without its low [j] words. *)
Lemma shr_step : forall X bs, 0 <= bs < 64 -> 0 <= X ->
  let lo := (X mod M64) / 2 ^ bs in
  let hi := w64 ((X / M64) mod M64 * 2 ^ (64 - bs)) in
  0 <= lo < M64 /\ 0 <= Z.lor lo hi < M64 /\
  (bs = 0 \/ X < M64 -> (X / 2 ^ bs) mod M64 = lo) /\
  (0 < bs -> (X / 2 ^ bs) mod M64 = Z.lor lo hi).
Proof.
  intros X bs Hb HX lo hi.
  assert (Pb : 0 < 2 ^ bs) by (apply Z.pow_pos_nonneg; lia).
  assert (Pe : 0 < 2 ^ (64 - bs)) by (apply Z.pow_pos_nonneg; lia).
  assert (EM : M64 = 2 ^ bs * 2 ^ (64 - bs)).
  { rewrite <- Z.pow_add_r by lia. replace (bs + (64 - bs)) with 64 by lia. reflexivity. }
  assert (HM : 0 < M64) by (unfold M64; lia).
  pose proof (Z.mod_pos_bound X M64 HM) as R0. pose proof (Z.div_mod X M64 ltac:(lia)) as D0.
  assert (Hlo : 0 <= lo < 2 ^ (64 - bs)).
  { unfold lo. split; [apply Z.div_pos; lia|]. apply Z.div_lt_upper_bound; [lia|]. rewrite <- EM. lia. }
  assert (2 ^ (64 - bs) <= M64).
  { rewrite <- (Z.mul_1_l (2 ^ (64 - bs))), EM. apply Z.mul_le_mono_nonneg_r; lia. }
  set (u := X / M64) in *.
  assert (Ehi : hi = (u mod 2 ^ bs) * 2 ^ (64 - bs)).
  { unfold hi, w64. change 18446744073709551616 with M64. rewrite EM at 2. rewrite Z.mul_mod_distr_r by lia. f_equal.
    rewrite EM. rewrite Z.rem_mul_r by lia. rewrite Z.mul_comm, Z.mod_add by lia. apply Z.mod_mod. lia. }
  assert (El : Z.lor lo hi = hi + lo).
  { rewrite Z.lor_comm, Ehi. apply lor_disjoint; lia. }
  pose proof (Z.mod_pos_bound u (2 ^ bs) Pb) as Ru.
  assert (hi <= (2 ^ bs - 1) * 2 ^ (64 - bs)) by (rewrite Ehi; apply Z.mul_le_mono_nonneg_r; lia).
  assert (0 <= hi) by (rewrite Ehi; apply Z.mul_nonneg_nonneg; lia).
  assert (Ex : X / 2 ^ bs = u * 2 ^ (64 - bs) + lo).
  { unfold lo. rewrite D0 at 1. rewrite EM at 1.
    replace (2 ^ bs * 2 ^ (64 - bs) * u + X mod M64) with (X mod M64 + (u * 2 ^ (64 - bs)) * 2 ^ bs) by ring.
    rewrite Z.div_add by lia. lia. }
  split; [lia|]. split; [rewrite El; lia|]. split.
  - intros [E|E].
    + subst bs. unfold lo. rewrite Z.pow_0_r, !Z.div_1_r. reflexivity.
    + rewrite Ex. unfold u. rewrite Z.div_small by lia. rewrite Z.mul_0_l, Z.add_0_l. apply Z.mod_small. lia.
  - intros. rewrite El, Ex, Ehi. pose proof (Z.div_mod u (2 ^ bs) ltac:(lia)) as Du.
    symmetry. apply Z.mod_unique with (u / 2 ^ bs).
    + left. rewrite <- Ehi. lia.
    + rewrite Du at 1. rewrite EM at 1. ring.
Qed.

Lemma wp_shift_prologue : forall ep r (Q : outcome -> Prop) a s N w,
  wok w -> errtab_ok ep -> abort_flag w = 0 -> (1 <= N)%nat -> 64 * Z.of_nat N < 2147483648 -> 0 <= s < 4294967296 ->
  (forall w' l, 64 * Z.of_nat N <= s -> aborted ep Overflow w w' -> Q (ORet [BADF00D] l w')) ->
  (s < 64 * Z.of_nat N -> oom w (8 * Z.of_nat N) -> Q OTrap) ->
  (forall w', s < 64 * Z.of_nat N -> allocated w w' (8 * Z.of_nat N) ->
     wp r Q [] [a; s; 8 * Z.of_nat N; gnext w; s / 64; s mod 64; 0; 0; 0] w') ->
  wp (shift_prologue ep ++ r) Q [] [a; s; 8 * Z.of_nat N; 0; 0; 0; 0; 0; 0] w.
Proof.
  intros ep r Q a s N w Hw He Hf HN Hs Hsh HA HO HR. unfold shift_prologue. rewrite <- !app_assoc.
  cbn [app]. ws1. ws1. ws1. ws1. ws1. ws1.
  eapply wp_call_checked; [reflexivity|cbn [List.length]; lia|exact Hw|exact He|exact Hf|wc; apply check_overflow_spec; assumption|lia| |].
  - intros C. wc. ws1. ws1. wcall alloc_spec; [exact Hw|lia|intros; apply HO; [lia|assumption]|].
    intros vs w' [-> Al]. wc. ws1. ws1. ws1. eapply wp_bin; [reflexivity|]. ws1. ws1. ws1. eapply wp_bin; [reflexivity|].
    ws1. apply HR; [lia|exact Al].
  - intros w' C A. apply HA; [lia|exact A].
Qed.

(** The part of memory a shift may write. *)
Lemma extends_upd : forall w w1 n m, wok w -> allocated w w1 n -> 0 <= n ->
  (forall x, ~ within (gnext w) n x -> rd m x = rd (mem w) x) ->
  extends w (set_mem w1 m) /\ wok (set_mem w1 m) /\ (abort_flag w = 0 -> abort_flag (set_mem w1 m) = 0).
Proof.
  intros w w1 n m Hw (Hw1&Em&A1&A2&A3&A4&A5) Hn U. pose proof Hw as (P1&P2&P3&P4&P5&P6).
  pose proof Hw1 as (Q1&Q2&Q3&Q4&Q5&Q6).
  assert (W : wok (set_mem w1 m)).
  { unfold wok; cbn [pages maxpages gnext gavail mem set_mem]. repeat (split; [assumption|]).
    intros x Hx. rewrite U; [apply P6; lia|unfold within; lia]. }
  split; [|split; [exact W|]].
  - unfold extends; cbn [pages maxpages gnext gavail mem set_mem gcd host].
    split; [exact W|]. repeat (split; [first [assumption|lia]|]).
    intros x Hx. apply U. unfold within. lia.
  - unfold abort_flag; cbn [mem set_mem]. intros <-. apply load_ext. intros i Hi. apply U. unfold within. lia.
Qed.

Lemma load_zero : forall n m p, (forall x, p <= x < p + Z.of_nat n -> rd m x = 0) -> load n m p = 0.
Proof.
  intros n m p Hz. rewrite (load_of_digits _ m p 0).
  - apply Z.mod_0_l. pose proof (pow256_pos (Z.of_nat n)). lia.
  - intros. rewrite Z.div_0_l by (pose proof (pow256_pos i); lia). apply Hz. lia.
Qed.

Lemma shift_left_spec : forall N ep w a s, (1 <= N)%nat -> wok w -> errtab_ok ep -> abort_flag w = 0 ->
  live w a (Z.of_nat (8 * N)) -> 64 * Z.of_nat N < 2147483648 -> 0 <= s < 4294967296 ->
  let A := load (8 * N) (mem w) a in
  wpf (heap_int_shift_left ep) [a; s; Z.of_nat (8 * N)] w (resq (fun vs w' =>
    (s < 64 * Z.of_nat N /\ vs = [gnext w] /\ extends w w' /\ abort_flag w' = 0 /\
      gnext w' = gnext w + Z.of_nat (8 * N) /\
      load (8 * N) (mem w') (gnext w) = (A * 2 ^ s) mod 2 ^ (64 * Z.of_nat N))
    \/ (64 * Z.of_nat N <= s /\ vs = [BADF00D] /\ aborted ep Overflow w w'))
    (s < 64 * Z.of_nat N /\ oom w (Z.of_nat (8 * N)))).
Proof.
  intros N ep w a s HN Hw He Hf La Hs Hsh A. apply wpf_intro; [reflexivity|]; wc.
  rewrite Nat2Z.inj_mul in *. change (Z.of_nat 8) with 8 in *.
  apply wp_shift_prologue; try assumption.
  { intros w' l C Ab. wc. right. auto. }
  { intros C O. wc. auto. }
  intros w1 Hlt Al. pose proof Al as (Hw1&Em1&A1&A2&A3&A4&A5).
  pose proof Hw as (P1&P2&P3&P4&P5&P6). pose proof Hw1 as (Q1&Q2&Q3&Q4&Q5&Q6). unfold live in La.
  set (p := gnext w) in *.
  pose proof (Z.div_mod s 64 ltac:(lia)) as Ds. pose proof (Z.mod_pos_bound s 64 ltac:(lia)) as Rs.
  assert (Rws : 0 <= s / 64 < Z.of_nat N).
  { split; [apply Z.div_pos; lia|apply Z.div_lt_upper_bound; lia]. }
  set (ws_ := s / 64) in *. set (bs := s mod 64) in *. clearbody ws_ bs.
  set (upd_ok := fun m => forall x, ~ within p (8 * Z.of_nat N) x -> rd m x = rd (mem w) x).
  assert (EX : forall m, upd_ok m -> extends w (set_mem w1 m) /\ abort_flag (set_mem w1 m) = 0).
  { intros m U. destruct (extends_upd w w1 _ m Hw Al ltac:(lia) U) as (E1&E2&E3). auto. }
  assert (VA : forall m k, upd_ok m -> 0 <= k < Z.of_nat N -> load 8 m (a + 8 * k) = (A / 2 ^ (64 * k)) mod M64).
  { intros m k U Hk. unfold A. rewrite <- load_word by lia. apply load_ext. intros i Hi. apply U. unfold within. lia. }
  assert (UP : forall m k v, upd_ok m -> 0 <= k < Z.of_nat N -> upd_ok (store 8 m (p + 8 * k) v)).
  { intros m k v U Hk x Hx. rewrite rd_store_out by (unfold within in Hx; lia). apply U. exact Hx. }
  assert (HA : 0 <= A) by apply load_range.
  assert (HAN : A / 2 ^ (64 * Z.of_nat N) = 0).
  { apply Z.div_small. unfold A. rewrite <- pow2_64. apply load8_range. }
  clearbody A. clear Al. hide HAN.
  ws1. ws1. eapply wp_bin; [cbn [binop]; reflexivity|].
  replace (8 * Z.of_nat N / 8) with (Z.of_nat N) by (rewrite Z.mul_comm, Z.div_mul by lia; reflexivity).
  ws1. ws1. ws1. ws1.
  eapply (wp_loop (fun k l' w' => exists m j0, l' = [a; s; 8 * Z.of_nat N; p; ws_; bs; Z.of_nat N; Z.of_nat k - 1; j0] /\
     w' = set_mem w1 m /\ upd_ok m /\ (1 <= k <= N)%nat /\
     hidden (load (8 * N) m p = (A / 2 ^ (64 * Z.of_nat k) * 2 ^ (64 * Z.of_nat k + s)) mod 2 ^ (64 * Z.of_nat N)))) with (k := N).
  { exists (mem w1), 0. split; [reflexivity|]. split; [destruct w1; reflexivity|].
    split; [intros x Hx; rewrite Em1; reflexivity|]. split; [lia|]. constructor.
    unhide HAN. rewrite HAN, Z.mul_0_l, Z.mod_0_l by (apply Z.pow_nonzero; lia).
    rewrite Em1. apply load_zero. intros x Hx. apply P6. apply Hx. }
  intros k l w' (m&j0&->&->&U&Hk&HV).
  set (i := Z.of_nat k - 1) in *. assert (Hi : 0 <= i < Z.of_nat N) by (clear - i Hk; slia).
  assert (Ek : Z.of_nat k = i + 1) by (unfold i; slia). rewrite Ek in HV. clear P6 Q6 UP.
  set (j := i + ws_) in *. assert (Hj : 0 <= j < 2 * Z.of_nat N) by (unfold j; slia).
  replace (64 * (i + 1) + s) with (64 * (j + 1) + bs) in HV by (unfold j; slia).
  set (W := (A / 2 ^ (64 * i)) mod M64). set (H := A / 2 ^ (64 * (i + 1))) in *.
  assert (HW : 0 <= W < M64) by (apply Z.mod_pos_bound; unfold M64; slia).
  assert (HH : 0 <= H) by (apply Z.div_pos; [exact HA|apply Z.pow_pos_nonneg; slia]).
  assert (EH : A / 2 ^ (64 * i) = M64 * H + W).
  { unfold H, W. replace (64 * (i + 1)) with (64 * i + 64) by slia. rewrite Z.pow_add_r by slia. rewrite pow64.
    rewrite <- Z.div_div by (try apply Z.pow_nonzero; unfold M64; slia). apply Z.div_mod. unfold M64; slia. }
  pose proof (shl_step (Z.of_nat N) j W H bs Rs ltac:(slia) HW HH ltac:(slia)) as ST.
  cbv zeta in ST. rewrite <- EH in ST.
  assert (VW : forall m, upd_ok m -> load 8 m (a + i * 8) = W).
  { intros m' U'. rewrite Z.mul_comm. apply VA; assumption. }
  assert (ES : 64 * j + bs = 64 * i + s) by (unfold j; slia).
  set (V := (H * 2 ^ (64 * (j + 1) + bs)) mod 2 ^ (64 * Z.of_nat N)) in *.
  set (V' := (A / 2 ^ (64 * i) * 2 ^ (64 * j + bs)) mod 2 ^ (64 * Z.of_nat N)) in *.
  set (T := 2 ^ (64 * j) * w64 (W * 2 ^ bs)) in *. set (Z2 := Z.lor _ _) in ST.
  destruct ST as (S1&S2&S3&S4).
  assert (FIN : V' = (A / 2 ^ (64 * i) * 2 ^ (64 * i + s)) mod 2 ^ (64 * Z.of_nat N)).
  { unfold V'. rewrite ES. reflexivity. }
  unhide HV. assert (WJ : forall q, 0 <= q < Z.of_nat N -> load 8 m (p + q * 8) = (V / 2 ^ (64 * q)) mod M64).
  { intros q Hq. rewrite <- HV, (Z.mul_comm q 8). apply load_word. exact Hq. }
  clearbody V V' W H j i. clear VA EH HA HAN.
  assert (MC : forall m q v, upd_ok m -> 0 <= q < Z.of_nat N -> 0 <= v < M64 ->
     upd_ok (store 8 m (p + q * 8) v) /\
     load (8 * N) (store 8 m (p + q * 8) v) p = load (8 * N) m p + 2 ^ (64 * q) * (v - load 8 m (p + q * 8))).
  { intros m' q v U' Hq Hv. rewrite (Z.mul_comm q 8). split; [|apply load_store_word; assumption].
    intros x Hx. rewrite rd_store_out by (clear - Hx Hq; unfold within in Hx; slia). apply U'. exact Hx. }
  assert (POST : forall m', upd_ok m' -> load (8 * N) m' p = V' ->
     wp [ LocalGet 7; Const 0; Bin I32 GtU; If 0 [ LocalGet 7; Const 1; Bin I32 Sub; LocalSet 7; Br "loop" ] [] ]
       (loopk "loop" 0 [] [LocalGet 3] (fret 1
         (fun vs w' =>
          s < 64 * Z.of_nat N /\ vs = [p] /\ extends w w' /\ abort_flag w' = 0 /\ gnext w' = p + 8 * Z.of_nat N /\
          load (8 * N) (mem w') p = (A * 2 ^ s) mod 2 ^ (64 * Z.of_nat N) \/
          64 * Z.of_nat N <= s /\ vs = [BADF00D] /\ aborted ep Overflow w w')
          (s < 64 * Z.of_nat N /\ oom w (8 * Z.of_nat N)))
       (fun l' w' => exists k', (k' < k)%nat /\ exists m j0, l' = [a; s; 8 * Z.of_nat N; p; ws_; bs; Z.of_nat N; Z.of_nat k' - 1; j0] /\
     w' = set_mem w1 m /\ upd_ok m /\ (1 <= k' <= N)%nat /\
     hidden (load (8 * N) m p = (A / 2 ^ (64 * Z.of_nat k') * 2 ^ (64 * Z.of_nat k' + s)) mod 2 ^ (64 * Z.of_nat N))))
     [] [a; s; 8 * Z.of_nat N; p; ws_; bs; Z.of_nat N; i; j] (set_mem w1 m')).
  { intros m' U' E. rewrite FIN in E. clear S1 S2 S3 S4 FIN. hide E. ws1. ws1. ws1. ws1.
    - ws1. ws1. ws1. ws1. ws1. exists (k - 1)%nat. split; [slia|]. exists m', j.
      replace (Z.of_nat (k - 1)) with i by slia. split; [reflexivity|]. split; [reflexivity|].
      split; [exact U'|]. split; [slia|]. exact E.
    - assert (i = 0) as -> by slia. ws. left. split; [slia|]. split; [reflexivity|].
      destruct (EX m' U'). split; [assumption|]. split; [assumption|]. split; [slia|].
      unhide E. rewrite E. change (64 * 0) with 0. rewrite Z.pow_0_r, Z.div_1_r, Z.add_0_l. reflexivity. }
  hide S1; hide S2; hide S3; hide S4; hide FIN; hide HV.
  unfold shift_left_body. ws1. ws1. ws1. ws1. replace (i + ws_) with j by slia.
  lazymatch goal with |- wp (Block _ _ _ :: ?r) ?Q ?s ?l _ =>
    assert (B2 : forall m1, upd_ok m1 -> (j < Z.of_nat N -> load (8 * N) m1 p = V + T /\
              (j + 1 < Z.of_nat N -> load 8 m1 (p + (j + 1) * 8) = (V / 2 ^ (64 * (j + 1))) mod M64)) ->
              (Z.of_nat N <= j -> load (8 * N) m1 p = V) -> wp r Q s l (set_mem w1 m1)) end.
  { intros m1 U1 K1 K2. ws1. ws1. apply wp_un. cbn [unop]. ws1. ws1. ws1. ws1. ws1. ws1. rewrite b2z_or. ws1.
    - apply POST; [exact U1|]. unhide S1. unhide S3.
      destruct (Z_lt_le_dec j (Z.of_nat N)) as [L|L].
      + rewrite S3; [apply K1; exact L|slia|exact L].
      + rewrite S1 by exact L. apply K2. exact L.
    - assert (L : j + 1 < Z.of_nat N) by slia. assert (Lb : 0 < bs) by slia. assert (L1 : j < Z.of_nat N) by slia.
      assert (L2 : 0 <= j + 1 < Z.of_nat N) by slia.
      destruct (K1 L1) as [K3 K4]. specialize (K4 L). clear K1 K2. hide K3. hide K4.
      unhide S4. destruct (S4 L Lb) as [S5 S6]. fold Z2 in S6. hide S6. 
      ws1. ws1. ws1. ws1. ws1. ws1. ws1.
      ws1. ws1. ws1. ws1. ws1. ws1. ws1. ws1. unhide K4. rewrite K4.
      ws1. ws1. ws1. ws1. ws1. ws1. rewrite (VW m1 U1). ws1. ws1. ws1. ws1. eapply wp_bin; [reflexivity|]. cbn [bits].
      rewrite (Z.mod_small (64 - bs) 64) by slia. ws1. fold Z2. ws1.
      destruct (MC m1 (j + 1) Z2 U1 L2 S5) as [M1 M2].
      ws1. change (set_mem (set_mem w1 m1) ?x) with (set_mem w1 x). apply POST; [exact M1|]. unhide S6. unhide K3. rewrite M2, K3, K4. symmetry. exact S6. }
  ws1. ws1. ws1. ws1. ws1.
  { apply B2; [exact U|intros; slia|intros _; unhide HV; exact HV]. }
  assert (L1 : j < Z.of_nat N) by slia. assert (L2 : 0 <= j < Z.of_nat N) by slia.
  ws1. ws1. ws1. ws1. ws1. ws1. ws1. ws1. ws1. ws1. ws1.
  rewrite WJ by exact L2. unhide S2. rewrite S2 by exact L1.
  ws1. ws1. ws1. ws1. ws1. ws1. rewrite (VW m U). ws1. ws1. eapply wp_bin; [reflexivity|]. cbn [bits wrapt].
  rewrite (Z.mod_small bs 64) by slia.
  pose proof (w64_range (W * 2 ^ bs)) as RT. change 18446744073709551616 with M64 in RT.
  set (t := w64 (W * 2 ^ bs)) in *. clearbody t. ws1. rewrite Z.lor_0_l.
  destruct (MC m j t U L2 RT) as [M1 M2].
  ws1. ws1. change (set_mem (set_mem w1 m) ?x) with (set_mem w1 x). apply B2; [exact M1| |intros; slia].
  intros _. split.
  - unhide HV. rewrite M2, HV, WJ, S2 by assumption. unfold T. ring.
  - intros L. rewrite load_store_other by slia. apply WJ. slia.
Qed.

Lemma mod_next_word : forall B i, 0 <= i -> 0 <= B ->
  B mod 2 ^ (64 * (i + 1)) = B mod 2 ^ (64 * i) + 2 ^ (64 * i) * ((B / 2 ^ (64 * i)) mod M64).
Proof.
  intros B i Hi HB. replace (64 * (i + 1)) with (64 * i + 64) by lia. rewrite Z.pow_add_r, pow64 by lia.
  apply Z.rem_mul_r; [apply Z.pow_nonzero; lia|unfold M64; lia].
Qed.

Lemma shift_right_spec : forall N ep w a s, (1 <= N)%nat -> wok w -> errtab_ok ep -> abort_flag w = 0 ->
  live w a (Z.of_nat (8 * N)) -> 64 * Z.of_nat N < 2147483648 -> 0 <= s < 4294967296 ->
  let A := load (8 * N) (mem w) a in
  wpf (heap_int_shift_right ep) [a; s; Z.of_nat (8 * N)] w (resq (fun vs w' =>
    (s < 64 * Z.of_nat N /\ vs = [gnext w] /\ extends w w' /\ abort_flag w' = 0 /\
      gnext w' = gnext w + Z.of_nat (8 * N) /\
      load (8 * N) (mem w') (gnext w) = A / 2 ^ s)
    \/ (64 * Z.of_nat N <= s /\ vs = [BADF00D] /\ aborted ep Overflow w w'))
    (s < 64 * Z.of_nat N /\ oom w (Z.of_nat (8 * N)))).
Proof.
  intros N ep w a s HN Hw He Hf La Hs Hsh A. apply wpf_intro; [reflexivity|]; wc.
  rewrite Nat2Z.inj_mul in *. change (Z.of_nat 8) with 8 in *.
  apply wp_shift_prologue; try assumption.
  { intros w' l C Ab. wc. right. auto. }
  { intros C O. wc. auto. }
  intros w1 Hlt Al. pose proof Al as (Hw1&Em1&A1&A2&A3&A4&A5).
  pose proof Hw as (P1&P2&P3&P4&P5&P6). pose proof Hw1 as (Q1&Q2&Q3&Q4&Q5&Q6). unfold live in La.
  set (p := gnext w) in *.
  pose proof (Z.div_mod s 64 ltac:(lia)) as Ds. pose proof (Z.mod_pos_bound s 64 ltac:(lia)) as Rs.
  assert (Rws : 0 <= s / 64 < Z.of_nat N).
  { split; [apply Z.div_pos; lia|apply Z.div_lt_upper_bound; lia]. }
  set (ws_ := s / 64) in *. set (bs := s mod 64) in *. clearbody ws_ bs.
  set (upd_ok := fun m => forall x, ~ within p (8 * Z.of_nat N) x -> rd m x = rd (mem w) x).
  assert (EX : forall m, upd_ok m -> extends w (set_mem w1 m) /\ abort_flag (set_mem w1 m) = 0).
  { intros m U. destruct (extends_upd w w1 _ m Hw Al ltac:(lia) U) as (E1&E2&E3). auto. }
  assert (VA : forall m k, upd_ok m -> 0 <= k < Z.of_nat N -> load 8 m (a + k * 8) = (A / 2 ^ (64 * k)) mod M64).
  { intros m k U Hk. unfold A. rewrite (Z.mul_comm k 8), <- load_word by lia. apply load_ext. intros i Hi. apply U. unfold within. lia. }
  assert (HA : 0 <= A < 2 ^ (64 * Z.of_nat N)) by (unfold A; rewrite <- pow2_64; apply load8_range).
  clearbody A. clear Al.
  ws1. ws1. eapply wp_bin; [cbn [binop]; reflexivity|].
  replace (8 * Z.of_nat N / 8) with (Z.of_nat N) by (rewrite Z.mul_comm, Z.div_mul by lia; reflexivity).
  ws1. ws1. ws1.
  eapply (wp_loop (fun k l' w' => exists m i j0, l' = [a; s; 8 * Z.of_nat N; p; ws_; bs; Z.of_nat N; i; j0] /\
     w' = set_mem w1 m /\ upd_ok m /\ 0 <= i < Z.of_nat N /\ Z.of_nat k = Z.of_nat N - i /\
     hidden (load (8 * N) m p = (A / 2 ^ s) mod 2 ^ (64 * i)))) with (k := N).
  { exists (mem w1), 0, 0. split; [reflexivity|]. split; [destruct w1; reflexivity|].
    split; [intros x Hx; rewrite Em1; reflexivity|]. split; [slia|]. split; [slia|]. constructor.
    change (64 * 0) with 0. rewrite Z.pow_0_r, Z.mod_1_r.
    rewrite Em1. apply load_zero. intros x Hx. apply P6. apply Hx. }
  intros k l w' (m&i&j0&->&->&U&Hi&Hk&HV). clear P6 Q6.
  set (j := i + ws_) in *. assert (Ej : j = i + ws_) by reflexivity.
  assert (Hj : 0 <= j < 2 * Z.of_nat N) by (unfold j; slia). clearbody j.
  set (X := A / 2 ^ (64 * j)).
  assert (HX : 0 <= X) by (apply Z.div_pos; [apply HA|apply Z.pow_pos_nonneg; slia]).
  assert (X0 : Z.of_nat N <= j -> X = 0).
  { intros. apply Z.div_small. split; [apply HA|]. eapply Z.lt_le_trans; [apply HA|]. apply Z.pow_le_mono_r; slia. }
  assert (X1 : Z.of_nat N <= j + 1 -> X < M64).
  { intros. apply Z.div_lt_upper_bound; [apply Z.pow_pos_nonneg; slia|]. rewrite <- pow64, <- Z.pow_add_r by slia.
    eapply Z.lt_le_trans; [apply HA|]. apply Z.pow_le_mono_r; slia. }
  assert (EX2 : A / 2 ^ (64 * (j + 1)) = X / M64).
  { unfold X. replace (64 * (j + 1)) with (64 * j + 64) by slia. rewrite Z.pow_add_r, pow64 by slia.
    symmetry. apply Z.div_div; [apply Z.pow_nonzero; slia|reflexivity]. }
  assert (NW : (A / 2 ^ s) mod 2 ^ (64 * (i + 1)) = (A / 2 ^ s) mod 2 ^ (64 * i) + 2 ^ (64 * i) * ((X / 2 ^ bs) mod M64)).
  { rewrite mod_next_word; [|slia|apply Z.div_pos; [apply HA|apply Z.pow_pos_nonneg; slia]]. do 3 f_equal.
    unfold X. rewrite !Z.div_div by (first [apply Z.pow_nonzero; slia|apply Z.pow_pos_nonneg; slia]).
    rewrite <- !Z.pow_add_r by slia. do 2 f_equal. slia. }
  destruct (shr_step X bs Rs HX) as (S0&S1&S2&S3).
  assert (VJ : forall m, upd_ok m -> j < Z.of_nat N -> load 8 m (a + j * 8) = X mod M64).
  { intros m' U' L. apply VA; [exact U'|slia]. }
  assert (VJ1 : forall m, upd_ok m -> j + 1 < Z.of_nat N -> load 8 m (a + (j + 1) * 8) = (X / M64) mod M64).
  { intros m' U' L. rewrite <- EX2. apply VA; [exact U'|slia]. }
  assert (LAST : i + 1 = Z.of_nat N -> (A / 2 ^ s) mod 2 ^ (64 * (i + 1)) = A / 2 ^ s).
  { intros ->. apply Z.mod_small. split; [apply Z.div_pos; [apply HA|apply Z.pow_pos_nonneg; slia]|].
    eapply Z.le_lt_trans; [|apply HA]. apply Z.div_le_upper_bound; [apply Z.pow_pos_nonneg; slia|].
    rewrite <- (Z.mul_1_l A) at 1. apply Z.mul_le_mono_nonneg_r; [apply HA|].
    pose proof (Z.pow_pos_nonneg 2 s ltac:(lia) ltac:(slia)) as Ps. clear - Ps. lia. }
  assert (WI : load 8 m (p + i * 8) = 0).
  { unhide HV. rewrite Z.mul_comm, (load_word N) by slia. rewrite HV, Z.div_small; [reflexivity|].
    apply Z.mod_pos_bound. apply Z.pow_pos_nonneg; slia. }
  set (XW := (X / 2 ^ bs) mod M64) in *. set (lo := X mod M64 / 2 ^ bs) in *.
  set (hi := w64 ((X / M64) mod M64 * 2 ^ (64 - bs))) in *.
  assert (Ehi : hi = w64 ((X / M64) mod M64 * 2 ^ (64 - bs))) by reflexivity. clearbody XW hi.
  assert (Elo : lo = X mod M64 / 2 ^ bs) by reflexivity. clearbody lo X. clear VA.
  set (B := A / 2 ^ s) in *. clearbody B.
  assert (MC : forall m v, upd_ok m -> 0 <= v < M64 ->
     upd_ok (store 8 m (p + i * 8) v) /\
     load (8 * N) (store 8 m (p + i * 8) v) p = load (8 * N) m p + 2 ^ (64 * i) * (v - load 8 m (p + i * 8))).
  { intros m' v U' Hv. rewrite (Z.mul_comm i 8). split; [|apply load_store_word; assumption].
    intros x Hx. rewrite rd_store_out by (clear - Hx Hi; unfold within in Hx; lia). apply U'. exact Hx. }
  hide S2; hide S3; hide NW; hide Ehi; hide Elo; hide LAST; hide EX2; hide HA. hide X0; hide X1.
  unfold shift_right_body. ws1. ws1. ws1. ws1. replace (i + ws_) with j by slia.
  lazymatch goal with |- wp (Block _ _ _ :: Block _ _ _ :: ?r) ?Q ?s ?l _ =>
    assert (POST : forall m', upd_ok m' -> load (8 * N) m' p = B mod 2 ^ (64 * (i + 1)) -> wp r Q s l (set_mem w1 m')) end.
  { intros m' U' E. hide E. ws1. ws1. ws1. ws1. ws1. ws1.
    - ws1. ws1. ws1. ws1. ws1. exists (k - 1)%nat. split; [slia|]. exists m', (i + 1), j.
      split; [reflexivity|]. split; [reflexivity|].
      split; [exact U'|]. split; [slia|]. split; [slia|]. exact E.
    - ws. left. split; [slia|]. split; [reflexivity|].
      destruct (EX m' U'). split; [assumption|]. split; [assumption|]. split; [slia|].
      unhide E. rewrite E. unhide LAST. apply LAST. slia. }
  lazymatch goal with |- wp (Block _ _ _ :: ?r) ?Q ?s ?l _ =>
    assert (B2 : forall m1, upd_ok m1 -> load 8 m1 (p + i * 8) = lo ->
              load (8 * N) m1 p = load (8 * N) m p + 2 ^ (64 * i) * lo -> wp r Q s l (set_mem w1 m1)) end.
  { intros m1 U1 K1 K2. ws1. ws1. apply wp_un. cbn [unop]. ws1. ws1. ws1. ws1. ws1. ws1. rewrite b2z_or. ws1.
    - apply POST; [exact U1|]. unhide S2. unhide NW. rewrite NW. unhide HV. rewrite K2, HV. do 2 f_equal.
      symmetry. apply S2. unhide X1. destruct (Z.eq_dec bs 0); [left; assumption|right; apply X1; slia].
    - assert (L : j + 1 < Z.of_nat N) by slia. assert (Lb : 0 < bs) by slia. hide K2.
      ws1. ws1. ws1. ws1. ws1. ws1.
      ws1. ws1. ws1. ws1. ws1. ws1. rewrite K1.
      ws1. ws1. ws1. ws1. ws1. ws1. ws1. ws1. rewrite (VJ1 m1 U1 L).
      ws1. ws1. ws1. eapply wp_bin; [reflexivity|]. cbn [bits wrapt].
      rewrite (Z.mod_small (64 - bs) 64) by slia. unhide Ehi. rewrite <- Ehi. hide Ehi. ws1.
      destruct (MC m1 _ U1 S1) as [M1 M2].
      ws1. ws1. change (set_mem (set_mem w1 m1) ?x) with (set_mem w1 x).
      apply POST; [exact M1|]. unhide K2. unhide NW. unhide S3. unhide HV. rewrite M2, K2, K1, HV, NW, (S3 Lb). ring. }
  ws1. ws1. ws1. ws1. ws1.
  { apply B2; [exact U| |]; unhide X0; unhide Elo; rewrite (X0 ltac:(slia)) in Elo; cbn in Elo; rewrite Elo; [exact WI|ring]. }
  assert (L1 : j < Z.of_nat N) by slia.
  ws1. ws1. ws1. ws1. ws1. ws1. ws1. ws1. ws1. ws1. ws1.
  rewrite WI.
  ws1. ws1. ws1. ws1. ws1. ws1. rewrite (VJ m U L1). ws1. ws1. eapply wp_bin; [reflexivity|]. cbn [bits wrapt].
  rewrite (Z.mod_small bs 64) by slia. unhide Elo. rewrite <- Elo. hide Elo.
  ws1. rewrite Z.lor_0_l.
  destruct (MC m lo U S0) as [M1 M2].
  ws1. ws1. change (set_mem (set_mem w1 m) ?x) with (set_mem w1 x). apply B2; [exact M1| |].
  - rewrite load_8_store. apply w64_small. exact S0.
  - rewrite M2, WI. ring.
Qed.
