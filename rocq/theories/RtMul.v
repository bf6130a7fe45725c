(** * Heap multiplication (runtime/integers/mul.rs). *)

From Verif Require Import Tac RtAlloc RtErr RtInt RtInt2 RtEq.
Ltac Zify.zify_post_hook ::= idtac.

(** runtime/integers/mul.rs 61-307.
    Locals: 0 a_ptr, 1 b_ptr, 2 type_heap_size, 3 pointer, 4 a, 5 b, 6 a_offset, 7 b_offset,
    8 carry_mul, 9 carry_sum, 10 partial_mul_res, 11 partial_sum_res, 12 encoded_error_ptr. *)
Definition mul_digit : list instr :=
  [ LocalGet 0; LocalGet 6; Bin I32 Add; Load 4 0; Un ExtendU; LocalTee 4; LocalGet 5;
    Bin I64 Mul; LocalGet 8; Bin I64 Add; LocalTee 10;
    Const 32; Bin I64 ShrU; LocalSet 8; LocalGet 10; Const 4294967295; Bin I64 And;
    LocalGet 6; LocalGet 7; Bin I32 Add; LocalGet 3; Bin I32 Add; Load 4 0; Un ExtendU;
    Bin I64 Add; LocalGet 9; Bin I64 Add; LocalSet 11;
    LocalGet 6; LocalGet 7; Bin I32 Add; LocalGet 3; Bin I32 Add;
    LocalGet 11; Const 4294967295; Bin I64 And; Un Wrap64; Store 4 0;
    LocalGet 11; Const 32; Bin I64 ShrU; LocalSet 9;
    Const 4; LocalGet 6; Bin I32 Add; LocalSet 6; Br "loop" ].

Definition mul_inner (ep : errtab) : list instr :=
  [ LocalGet 6; LocalGet 7; Bin I32 Add; LocalGet 2; Bin I32 Eq;
    If 0
      [ LocalGet 8; Const 0; Bin I64 Ne;
        If 0 (return_error ep Overflow 12 true) [ Br "inner" ] ]
      [] ] ++ mul_digit.

Definition mul_outer (ep : errtab) : list instr :=
  [ LocalGet 7; LocalGet 2; Bin I32 Eq; BrIf "outer_block";
    Const 0; LocalSet 6; Const 0; LocalSet 11; Const 0; LocalSet 10; Const 0; LocalSet 9;
    Const 0; LocalSet 8;
    LocalGet 1; LocalGet 7; Bin I32 Add; Load 4 0; Un ExtendU; LocalSet 5;
    Block "inner" 0 [ Loop "loop" 0 (mul_inner ep) ];
    Const 4; LocalGet 7; Bin I32 Add; LocalSet 7; Br "outer_loop" ].

Definition heap_integers_mul (ep : errtab) : func := Func 3 10 1
 [ LocalGet 2; Call alloc; LocalSet 3;
   Block "outer_block" 0 [ Loop "outer_loop" 0 (mul_outer ep) ];
   LocalGet 3 ].

Lemma land_32 : forall x, Z.land x 4294967295 = x mod 4294967296.
Proof. intros. exact (Z.land_ones x 32 ltac:(lia)). Qed.
Lemma shr_32 : forall x, x / 2 ^ (32 mod 64) = x / 4294967296.
Proof. reflexivity. Qed.

Definition B32 : Z := 4294967296.

Lemma mul_step : forall x y cm cs r, 0 <= x < B32 -> 0 <= y < B32 -> 0 <= cm < B32 -> 0 <= cs <= 1 -> 0 <= r < B32 ->
  let pm := x * y + cm in
  let s := r + pm mod B32 + cs in
  0 <= pm < 18446744073709551616 /\ 0 <= s < 18446744073709551616 /\
  0 <= pm / B32 < B32 /\ 0 <= s / B32 <= 1 /\
  s mod B32 + B32 * (s / B32 + pm / B32) = r + x * y + cm + cs /\ B32 * (pm / B32) <= x * y + cm.
Proof.
  intros x y cm cs r Hx Hy Hcm Hcs Hr pm s. assert (0 <= pm < B32 * B32) by (unfold pm, B32 in *; nia).
  assert (0 <= pm / B32 < B32) by (split; [apply Z.div_pos|apply Z.div_lt_upper_bound]; unfold B32 in *; lia).
  pose proof (Z.mod_pos_bound pm B32 ltac:(unfold B32; lia)).
  assert (0 <= s < 2 * B32) by (unfold s; unfold B32 in *; lia).
  assert (0 <= s / B32 < 2) by (split; [apply Z.div_pos|apply Z.div_lt_upper_bound]; unfold B32 in *; lia).
  pose proof (Z.div_mod pm B32 ltac:(unfold B32; lia)). pose proof (Z.div_mod s B32 ltac:(unfold B32; lia)).
  change (18446744073709551616) with (B32 * B32).
  assert (E1 : s mod B32 + B32 * (s / B32 + pm / B32) = r + x * y + cm + cs) by (unfold s, pm, B32 in *; lia).
  assert (E2 : B32 * (pm / B32) <= x * y + cm) by (unfold pm, B32 in *; lia).
  assert (2 * B32 < B32 * B32) by (unfold B32; lia). clearbody pm s.
  repeat (split; [lia|]). exact E2.
Qed.

Lemma wp_mul_digit : forall (Q : outcome -> Prop) a b sz p x1 y oi oj cm cs d3 d4 e0 w x r,
  0 <= a -> 0 <= p -> 0 <= oi -> 0 <= oj -> a + oi + 4 <= 65536 * pages w -> p + oi + oj + 4 <= 65536 * pages w ->
  pages w <= 65535 -> 0 <= y < B32 -> 0 <= cm < B32 -> 0 <= cs <= 1 ->
  x = load 4 (mem w) (a + oi) -> r = load 4 (mem w) (p + (oi + oj)) ->
  let pm := x * y + cm in
  let s := r + pm mod B32 + cs in
  Q (OBr "loop" [] [a; b; sz; p; x; y; oi + 4; oj; pm / B32; s / B32; pm; s; e0]
      (set_mem w (store 4 (mem w) (p + (oi + oj)) (s mod B32)))) ->
  wp mul_digit Q [] [a; b; sz; p; x1; y; oi; oj; cm; cs; d3; d4; e0] w.
Proof.
  intros Q a b sz p x1 y oi oj cm cs d3 d4 e0 w x r Ha Hp Hi Hj B1 B2 Hpg Hy Hcm Hcs Hx Hr pm s HQ.
  assert (Rx : 0 <= x < B32) by (rewrite Hx; apply load_4_range).
  assert (Rr : 0 <= r < B32) by (rewrite Hr; apply load_4_range).
  destruct (mul_step x y cm cs r Rx Hy Hcm Hcs Rr) as (M1&M2&M3&M4&_&_). fold pm in M1, M2, M3, M4. fold s in M2, M4.
  assert (Rxy : 0 <= x * y < 18446744073709551616) by (clear - Rx Hy; unfold B32 in *; nia).
  assert (Em : x * y + cm = pm) by reflexivity. assert (Es : r + pm mod B32 + cs = s) by reflexivity.
  assert (Rm : 0 <= pm mod B32 < B32) by (apply Z.mod_pos_bound; reflexivity).
  clearbody pm s. hide M3. hide M4. unfold B32 in Hy, Hcm, Rx, Rr, Rm. unfold mul_digit.
  ws1. ws1. ws1. ws1. rewrite <- Hx. ws1. ws1. ws1. ws1. ws1.
  eapply wp_bin; [reflexivity|]. cbn [wrapt]. rewrite Em, w64_small by exact M1. hide Em. hide Rxy.
  ws1. ws1. ws1. change (2 ^ (32 mod bits I64)) with B32. ws1. ws1. ws1. ws1. rewrite land_32. change 4294967296 with B32.
  ws1. ws1. ws1. ws1. ws1.
  replace (oi + oj + p) with (p + (oi + oj)) by lia. ws1. rewrite <- Hr. ws1.
  eapply wp_bin; [reflexivity|]. cbn [wrapt]. rewrite w64_small by (unfold B32 in *; lia).
  ws1. eapply wp_bin; [reflexivity|]. cbn [wrapt]. replace (pm mod B32 + r + cs) with s by lia. rewrite w64_small by exact M2.
  hide Es.
  ws1. ws1. ws1. ws1. ws1. ws1. replace (oi + oj + p) with (p + (oi + oj)) by lia.
  ws1. ws1. ws1. rewrite land_32. change 4294967296 with B32.
  apply wp_un. cbn [unop]. rewrite w32_small by (apply Z.mod_pos_bound; reflexivity).
  ws1. ws1. ws1. ws1. change (2 ^ (32 mod bits I64)) with B32. ws1. ws1. ws1.
  ws1. ws1. ws1. replace (4 + oi) with (oi + 4) by lia. exact HQ.
Qed.

Lemma p256_4 : forall j, 256 ^ (4 * Z.of_nat (S j)) = 256 ^ (4 * Z.of_nat j) * 4294967296.
Proof.
  intros. replace (4 * Z.of_nat (S j)) with (4 * Z.of_nat j + 4) by lia.
  rewrite Z.pow_add_r by lia. reflexivity.
Qed.

Lemma p256_add : forall i j, 256 ^ (4 * (Z.of_nat i + Z.of_nat j)) = 256 ^ (4 * Z.of_nat i) * 256 ^ (4 * Z.of_nat j).
Proof. intros. rewrite <- Z.pow_add_r by lia. f_equal. lia. Qed.

Lemma mul_row_over : forall X Y al bl ah bh y cm, 0 < X -> 0 < Y -> 0 <= al < X -> 0 <= bl < Y -> 0 <= ah -> 0 <= bh ->
  0 <= y -> 1 <= cm -> X * cm <= al * y ->
  X * Y <= (al + X * ah) * (bl + Y * y + Y * 4294967296 * bh).
Proof.
  intros. assert (X <= al * y) by nia.
  apply Z.le_trans with (al * y * Y); [nia|].
  apply Z.le_trans with (al * (Y * y)); [lia|].
  apply Z.mul_le_mono_nonneg; nia.
Qed.

Lemma load4_range : forall j m p, 0 <= load (4 * j) m p < 256 ^ (4 * Z.of_nat j).
Proof. intros. pose proof (load_range (4 * j) m p) as H. rewrite Nat2Z.inj_mul in H. exact H. Qed.

Lemma load_le_split : forall i N m p, (i <= N)%nat ->
  exists h, 0 <= h /\ load (4 * N) m p = load (4 * i) m p + 256 ^ (4 * Z.of_nat i) * h.
Proof.
  intros. exists (load (4 * N - 4 * i) m (p + Z.of_nat (4 * i))). split; [apply load_range|].
  replace (4 * N)%nat with (4 * i + (4 * N - 4 * i))%nat at 1 by lia.
  rewrite load_split. f_equal. f_equal. f_equal. lia.
Qed.

Lemma heap_mul_spec : forall N ep w a b, wok w -> errtab_ok ep ->
  live w a (Z.of_nat (4 * N)) -> live w b (Z.of_nat (4 * N)) -> Z.of_nat (4 * N) < 2147483648 ->
  wpf (heap_integers_mul ep) [a; b; Z.of_nat (4 * N)] w (resq (fun vs w' =>
    let pr := load (4 * N) (mem w) a * load (4 * N) (mem w) b in
    let p := gnext w in
    exists w1, extends w w1 /\ gnext w1 = p + Z.of_nat (4 * N) /\
      ((vs = [p] /\ w' = w1 /\ load (4 * N) (mem w1) p = pr mod 256 ^ Z.of_nat (4 * N)) \/
       (256 ^ Z.of_nat (4 * N) <= pr /\ vs = [BADF00D] /\ aborted ep Overflow w1 w')))
   (oom w (Z.of_nat (4 * N)))).
Proof.
  intros N ep w a b Hw He La Lb Hs. apply wpf_intro; [reflexivity|]; wc.
  ws1. wcall alloc_spec; [exact Hw|lia|auto|]. intros vs w1 [-> Ha]. wc.
  destruct Ha as (Hw1&Em&E2&E3&E4&E5&E6).
  pose proof Hw as (P1&P2&P3&P4&P5&P6). pose proof Hw1 as (Q1&Q2&Q3&Q4&Q5&Q6). unfold live in *.
  set (p := gnext w) in *. set (sz := Z.of_nat (4 * N)) in *.
  assert (Hsz : sz = 4 * Z.of_nat N) by (unfold sz; lia).
  (* the state in which the result area holds memory m *)
  assert (EX : forall m, (forall x, ~ within p sz x -> rd m x = rd (mem w) x) ->
             extends w (set_mem w1 m) /\ wok (set_mem w1 m)).
  { intros m Hm. assert (K : wok (set_mem w1 m)).
    { eapply wok_frame; [exact Hw1| |]. apply frame_set_mem with (W := within p sz).
      - intros. rewrite Em. apply Hm. auto.
      - unfold within. lia. }
    split; [|exact K]. split; [exact K|]. cbn [maxpages pages gnext gcd host mem set_mem].
    repeat (split; [first [congruence|lia]|]). intros. apply Hm. unfold within. lia. }
  set (A := load (4 * N) (mem w) a). set (Bv := load (4 * N) (mem w) b).
  ws1. ws1.
  eapply (wp_loop (fun k l w' => exists j x0 y0 o0 c1 c2 c3 c4 m, (j <= N)%nat /\ k = (N - j)%nat /\
     l = [a; b; sz; p; x0; y0; o0; 4 * Z.of_nat j; c1; c2; c3; c4; 0] /\ w' = set_mem w1 m /\
     (forall x, ~ within p sz x -> rd m x = rd (mem w) x) /\
     load (4 * N) m p = (A * load (4 * j) (mem w) b) mod 256 ^ sz)) with (k := N).
  - exists 0%nat, 0, 0, 0, 0, 0, 0, 0, (mem w). split; [lia|]. split; [lia|]. split; [reflexivity|]. split.
    + rewrite <- Em. destruct w1; reflexivity.
    + split; [auto|]. change (4 * 0)%nat with 0%nat. cbn [load]. rewrite Z.mul_0_r, Z.mod_0_l by (pose proof (pow256_pos sz); lia).
      rewrite (load_of_digits _ (mem w) p 0). apply Z.mod_0_l. pose proof (pow256_pos (Z.of_nat (4*N))); lia.
      intros. rewrite Z.div_0_l by (pose proof (pow256_pos i); lia). apply P6. lia.
  - intros k l w' (j&x0&y0&o0&c1&c2&c3&c4&m0&Hj&->&->&->&Hm0&HR).
    destruct (EX m0 Hm0) as [EX0 _]. hide HR.
    unfold mul_outer. ws1. ws1. ws1. ws1.
    + assert (j = N) by lia. subst j. ws. exists (set_mem w1 m0). split; [exact EX0|].
      split; [cbn [gnext set_mem]; lia|]. left. split; [reflexivity|]. split; [reflexivity|]. unhide HR. exact HR.
    + assert (Hjn : (j < N)%nat) by lia.
      do 10 ws1.
      assert (Hy : load 4 m0 (b + 4 * Z.of_nat j) = load 4 (mem w) (b + 4 * Z.of_nat j)).
      { apply load_ext. intros. apply Hm0. unfold within. lia. }
      ws1. ws1. ws1. ws1. rewrite Hy. ws1. cbn [unop]. ws1. ws1.
      pose proof (load_chunk4 j (mem w) b) as Cb.
      pose proof (load_4_range (mem w) (b + 4 * Z.of_nat j)) as Ry.
      set (y := load 4 (mem w) (b + 4 * Z.of_nat j)) in *.
      destruct (load_le_split (S j) N (mem w) b ltac:(lia)) as (bh&Hbh&Eb). fold Bv in Eb. hide Eb. hide Cb. hide Hy. clearbody y.
      (* inner loop *)
      eapply (wp_loop (fun k l w' => exists i x0 cm cs c3 c4 m, (i + j <= N)%nat /\ k = (N - j - i)%nat /\
         l = [a; b; sz; p; x0; y; 4 * Z.of_nat i; 4 * Z.of_nat j; cm; cs; c3; c4; 0] /\ w' = set_mem w1 m /\
         0 <= cm < B32 /\ 0 <= cs <= 1 /\
         (forall x, ~ within p (4 * (Z.of_nat i + Z.of_nat j)) x -> rd m x = rd m0 x) /\
         load (4 * (i + j)) m p + 256 ^ (4 * (Z.of_nat i + Z.of_nat j)) * (cm + cs) =
           load (4 * (i + j)) m0 p + 256 ^ (4 * Z.of_nat j) * (load (4 * i) (mem w) a * y) /\
         256 ^ (4 * Z.of_nat i) * cm <= load (4 * i) (mem w) a * y))
        with (k := (N - j)%nat).
      * exists 0%nat, x0, 0, 0, 0, 0, m0. split; [lia|]. split; [lia|].
        split; [reflexivity|]. split; [reflexivity|]. split; [unfold B32; lia|]. split; [lia|]. split; [auto|].
        split; cbn [load Nat.mul Nat.add]; lia.
      * intros k l w' (i&x1&cm&cs&d3&d4&m&Hi&->&->&->&Hcm&Hcs&Hm&HS&HC).
        assert (Hmw : forall x, ~ within p sz x -> rd m x = rd (mem w) x).
        { intros. rewrite Hm; [apply Hm0; auto|]. clear - H Hi Hsz. unfold within in *. lia. }
        hide HS. hide HC. destruct (EX m Hmw) as [EXm EKm].
        assert (Pi := pow256_pos (4 * Z.of_nat i) ltac:(clear; lia)).
        assert (Pj := pow256_pos (4 * Z.of_nat j) ltac:(clear; lia)).
        pose proof (p256_add i j) as Pij. hide Pij. hide Pi. hide Pj.
        unfold mul_inner; cbn [app].
        ws1. ws1. ws1. ws1. ws1. ws1.
        -- (* end of the row *)
           assert (i = N - j)%nat by (clear - C0 Hsz Hjn; lia). subst i.
           unhide HS. unhide HC. unhide Pij. unhide HR. unhide Eb. unhide Cb. unhide Pi. unhide Pj.
           replace (N - j + j)%nat with N in HS by (clear - Hjn; lia).
           replace (4 * (Z.of_nat (N - j) + Z.of_nat j)) with sz in HS, Pij by (clear - Hjn Hsz; lia).
           destruct (load_le_split (N - j) N (mem w) a ltac:(clear; lia)) as (ah&Hah&Ea). fold A in Ea.
           ws1. ws1. ws1. ws1.
           ++ (* carry: overflow *)
              werr; [exact EKm|]. exists (set_mem w1 m). split; [exact EXm|].
              split; [exact E4|]. right. split; [|split; [reflexivity|apply aborted_store; auto]].
              fold A Bv. rewrite Pij, Ea, Eb, Cb, p256_4.
              eapply mul_row_over; [exact Pi|exact Pj|apply load4_range|apply load4_range|exact Hah|exact Hbh|apply Ry| |exact HC].
              clear - Hcm C1. lia.
           ++ assert (cm = 0) by (clear - C1; lia). subst cm. clear HC Eb.
              hide HS. hide Pij. hide HR. hide Cb. hide Ea.
              ws.
              exists (N - S j)%nat. split; [clear - Hjn; lia|].
              exists (S j), x1, y, (4 * Z.of_nat (N - j)), 0, cs, d3, d4, m.
              split; [clear - Hjn; lia|]. split; [reflexivity|].
              split; [replace (4 + 4 * Z.of_nat j) with (4 * Z.of_nat (S j)) by (clear; lia); reflexivity|]. split; [reflexivity|].
              split; [exact Hmw|].
              unhide HS. unhide Pij. unhide HR. unhide Cb. unhide Ea.
              pose proof (load_range (4 * N) m p) as Rr. fold sz in Rr.
              assert (PP : 256 ^ sz <> 0) by (rewrite Pij; clear - Pi Pj; nia).
              set (P := 256 ^ sz) in *.
              assert (E : load (4 * N) m p = (load (4 * N) m p + P * (0 + cs)) mod P).
              { rewrite (Z.mul_comm P), Z.mod_add by exact PP. symmetry. apply Z.mod_small. exact Rr. }
              rewrite E, HS, HR, Zplus_mod_idemp_l. rewrite Cb.
              replace (A * load (4 * j) (mem w) b + 256 ^ (4 * Z.of_nat j) * (load (4 * (N - j)) (mem w) a * y))
                with (A * (load (4 * j) (mem w) b + 256 ^ (4 * Z.of_nat j) * y) + (- (ah * y)) * P).
              2:{ rewrite Pij. rewrite Ea. ring. }
              apply Z.mod_add. exact PP.
        -- (* one more digit *)
           assert (Hij : (i + j < N)%nat) by (clear - C0 Hi Hsz; lia).
           unhide HS. unhide HC. unhide Pij. unhide Pi. unhide Pj. clear HR Eb Cb.
           assert (Hx : load 4 m (a + 4 * Z.of_nat i) = load 4 (mem w) (a + 4 * Z.of_nat i)).
           { apply load_ext. intros. apply Hmw. unfold within. clear - La H Hij Hsz. lia. }
           assert (Hr : load 4 m (4 * Z.of_nat i + 4 * Z.of_nat j + p) = load 4 m0 (p + 4 * Z.of_nat (i + j))).
           { replace (4 * Z.of_nat i + 4 * Z.of_nat j + p) with (p + 4 * Z.of_nat (i + j)) by (clear; lia).
             apply load_ext. intros. apply Hm. unfold within. clear - H. lia. }
           pose proof (load_chunk4 i (mem w) a) as Ca.
           pose proof (load_chunk4 (i + j) m0 p) as Cr.
           pose proof (load_4_range (mem w) (a + 4 * Z.of_nat i)) as Rx.
           pose proof (load_4_range m0 (p + 4 * Z.of_nat (i + j))) as Rr.
           set (x := load 4 (mem w) (a + 4 * Z.of_nat i)) in *.
           set (r := load 4 m0 (p + 4 * Z.of_nat (i + j))) in *.
           destruct (mul_step x y cm cs r Rx Ry Hcm Hcs Rr) as (M1&M2&M3&M4&M5&M6).
           ws1. wc.
           eapply wp_mul_digit with (x := x) (r := r);
             [apply La|clear - P3; lia|clear; lia|clear; lia
             |cbn [pages set_mem]; clear - La Hs Q1 Q5 E4 Q4 Hij Hsz; lia
             |cbn [pages set_mem]; clear - La Hs Q1 Q5 E4 Q4 Hij Hsz; lia
             |cbn [pages set_mem]; clear - Q1 Q2; lia
             |exact Ry|exact Hcm|exact Hcs|symmetry; exact Hx
             |cbn [mem set_mem]; rewrite <- Hr; f_equal; clear; lia
             |].
           cbn [mem set_mem]. wc.
           set (pm := x * y + cm) in *. set (s := r + pm mod B32 + cs) in *.
           clear Rx Rr M1 M2.
           exists (N - j - S i)%nat. split; [clear - Hij; lia|].
           exists (S i), x, (pm / B32), (s / B32), pm, s, (store 4 m (p + (4 * Z.of_nat i + 4 * Z.of_nat j)) (s mod B32)).
           split; [clear - Hij; lia|]. split; [reflexivity|].
           split; [replace (4 * Z.of_nat (S i)) with (4 * Z.of_nat i + 4) by (clear; lia); reflexivity|].
           split; [reflexivity|]. split; [exact M3|]. split; [exact M4|].
           split.
           { intros z Hz. clear - Hz Hm. unfold within in *. rewrite rd_store_out by lia. apply Hm. lia. }
           replace (4 * Z.of_nat i + 4 * Z.of_nat j) with (4 * Z.of_nat (i + j)) by (clear; lia).
           replace (S i + j)%nat with (S (i + j)) by (clear; lia).
           split.
           ++ rewrite load_chunk4, Cr, Ca. rewrite load_4_store, w32_small by (apply Z.mod_pos_bound; reflexivity).
              rewrite load_store_other by (clear; lia).
              replace (4 * (Z.of_nat (S i) + Z.of_nat j)) with (4 * Z.of_nat (S (i + j))) by (clear; lia).
              rewrite p256_4. replace (4 * Z.of_nat (i + j)) with (4 * (Z.of_nat i + Z.of_nat j)) by (clear; lia).
              change 4294967296 with B32. unfold B32 in *.
              rewrite Pij in *.
              set (X := 256 ^ (4 * Z.of_nat i)) in *. set (Y := 256 ^ (4 * Z.of_nat j)) in *.
              clear - HS M5. revert HS M5.
              generalize (load (4 * (i + j)) m p), (load (4 * (i + j)) m0 p), (load (4 * i) (mem w) a), (s / 4294967296), (pm / 4294967296), (s mod 4294967296).
              clearbody x r X Y. intros u v t s' p' sm HS M5.
              transitivity (u + X * Y * (sm + 4294967296 * (s' + p'))); [ring|]. rewrite M5.
              transitivity (u + X * Y * (cm + cs) + X * Y * (r + x * y)); [ring|]. rewrite HS. ring.
           ++ rewrite p256_4, Ca. fold x. clear - HC M6 Pi. unfold B32 in *. assert (Epm : pm = x * y + cm) by reflexivity. clearbody pm x.
              rewrite Epm in M6 at 2. revert HC M6 Pi. generalize (256 ^ (4 * Z.of_nat i)), (load (4 * i) (mem w) a), (pm / 4294967296). intros P L q HC M6 Pi.
              apply Z.le_trans with (P * (x * y + cm)); [|lia].
              rewrite <- Z.mul_assoc. apply Z.mul_le_mono_nonneg_l; lia.
Qed.
