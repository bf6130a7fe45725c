(** * The revert payload of [abort] (abi_types/error_encoding.rs, translation.rs). *)

From Verif Require Import Tac RtAlloc RtErr RtInt RtInt2 RtEq RtMul RtDiv RtShift Ops RtSwap RtAscii SpecAbi LemAbi.
Ltac Zify.zify_post_hook ::= idtac.

(** abi_types/error_encoding.rs 168-265 [build_abi_error_structure].
    Locals: 2 error_len, 3 ptr, 4 total_len, 5 padded_error_len. *)
Definition build_abi_error_structure : list instr :=
  [ LocalGet 2; Const 31; Bin I32 Add; Const 4294967264; Bin I32 And; LocalSet 5;
    Const 68; LocalGet 5; Bin I32 Add; LocalSet 4;
    Const 4; LocalGet 4; Bin I32 Add; Call alloc; LocalTee 3; LocalGet 4; Store 4 0;
    LocalGet 3; Const 8; Store 1 4;
    LocalGet 3; Const 195; Store 1 5;
    LocalGet 3; Const 121; Store 1 6;
    LocalGet 3; Const 160; Store 1 7;
    LocalGet 3; Const 32; Store 1 39;
    LocalGet 3; LocalGet 2; Call swap_i32_bytes; Store 4 68 ].

(** abi_types/error_encoding.rs 291-340 [build_abort_error_message]; the code is on the stack.
    Locals: 1 error_ptr. *)
Definition build_abort_error_message : list instr :=
  [ Call u64_to_ascii_base_10; LocalTee 1; Load 1 0; LocalSet 2;
    LocalGet 1; Const 1; Bin I32 Add; LocalSet 1 ]
  ++ build_abi_error_structure ++
  [ LocalGet 3; Const 72; Bin I32 Add; LocalGet 1; LocalGet 2; MemCopy ].

(** The 8-byte chunks of a constant, little-endian, the last one zero padded. *)
Fixpoint le_value (bs : list Z) : Z := match bs with [] => 0 | b :: t => b + 256 * le_value t end.
(** abi_types/error_encoding.rs 382-403: the chunk stores from [offset] on; [n] bounds the
    number of chunks. *)
Fixpoint chunk_stores (n : nat) (offset : Z) (bs : list Z) : list instr :=
  match n, bs with
  | S n', _ :: _ =>
      [ LocalGet 3; Const (72 + offset); Bin I32 Add; Const (le_value (firstn 8 bs)); Store 8 0 ]
      ++ chunk_stores n' (offset + 8) (skipn 8 bs)
  | _, _ => []
  end.
(** abi_types/error_encoding.rs 355-406 [build_abort_error_message_from_constant] for a constant
    whose payload is [bs] (the length byte has been checked at compile time: [bs] has fewer than
    256 bytes). *)
Definition build_abort_error_message_from_constant (bs : list Z) : list instr :=
  [ Const (Z.of_nat (List.length bs)); LocalSet 2 ] ++ build_abi_error_structure
  ++ chunk_stores (List.length bs) 0 bs.

(** translation.rs 2642-2656: the end of [Bytecode::Abort]. *)
Definition raise_abort : list instr := [ Const 256; LocalGet 3; Store 4 0; Const 1; Return ].

(** [abort code] and [abort] with a clever error [bs] whose code is [c] (translation.rs 2606-2657),
    as the body of a function. *)
Definition abort_fn : func := Func 1 5 1 ([ LocalGet 0 ] ++ build_abort_error_message ++ raise_abort).
Definition abort_const_fn (c : Z) (bs : list Z) : func := Func 1 5 1
  ([ LocalGet 0; Const c; Bin I64 Eq; If 0 [] [ Unreachable ] ]
   ++ build_abort_error_message_from_constant bs ++ raise_abort).

Lemma round32 : forall n : nat, Z.of_nat n < 2147483648 ->
  Z.land (Z.of_nat n + 31) 4294967264 = Z.of_nat (n + pad32 n).
Proof.
  intros n Hn. change 4294967264 with ((2 ^ 27 - 1) * 2 ^ 5). rewrite land_ones_shift by lia.
  destruct (pad32_spec n) as (q&E&B&Q). rewrite E.
  assert (D : (Z.of_nat n + 31) / 2 ^ 5 = Z.of_nat q).
  { subst q. rewrite Nat2Z.inj_div. f_equal. lia. }
  rewrite D. change (2 ^ 27) with 134217728. change (2 ^ 5) with 32. rewrite Z.mod_small by lia. lia.
Qed.

Lemma rd_store_byte : forall m a v, rd (store 1 m a v) a = v mod 256.
Proof. intros. rewrite rd_store_in by lia. rewrite Z.sub_diag, Z.pow_0_r, Z.div_1_r. reflexivity. Qed.

(** Everything the structure guarantees about a block at [p] for a message of [n] bytes. *)
Definition error_header (m : memory) (p : Z) (n : nat) : Prop :=
  load 4 m p = 68 + Z.of_nat (n + pad32 n) /\ bytes 4 m (p + 4) = [8; 195; 121; 160] /\
  load_be 32 m (p + 8) = 32 /\ load_be 32 m (p + 40) = Z.of_nat n.

Lemma wp_error_structure : forall r (Q : outcome -> Prop) s a b n c d e w, wok w -> Z.of_nat n < 65536 ->
  (oom w (72 + Z.of_nat (n + pad32 n)) -> Q OTrap) ->
  (forall w', extends w w' -> gnext w' = gnext w + 72 + Z.of_nat (n + pad32 n) ->
     error_header (mem w') (gnext w) n -> (forall x, gnext w + 72 <= x -> rd (mem w') x = 0) ->
     wp r Q s [a; b; Z.of_nat n; gnext w; 68 + Z.of_nat (n + pad32 n); Z.of_nat (n + pad32 n)] w') ->
  wp (build_abi_error_structure ++ r) Q s [a; b; Z.of_nat n; c; d; e] w.
Proof.
  intros r Q s a b n c d e w Hw Hn HO HK. unfold build_abi_error_structure. cbn [app].
  pose proof Hw as (P1&P2&P3&P4&P5&P6). pose proof (pad32_spec n) as (q&Eq&Bq&_).
  ws1. ws1. ws1. ws1. eapply wp_bin; [cbn [binop]; reflexivity|]. rewrite round32 by lia.
  set (np := (n + pad32 n)%nat) in *. assert (Hnp : Z.of_nat np < 65568) by lia.
  assert (Hnp2 : (n <= np)%nat) by lia.
  assert (Enp : (n + pad32 n)%nat = np) by reflexivity. clearbody np.
  ws1. ws1. ws1. ws1. ws1. ws1. ws1. ws1.
  wcall alloc_spec; [exact Hw|lia|intros O; apply HO; eapply oom_mono; [exact O|lia]|].
  intros vs w1 [-> Al]. wc. pose proof Al as (Hw1&Em&A1&A2&A3&A4&A5). pose proof Hw1 as (Q1&Q2&Q3&Q4&Q5&Q6).
  set (p := gnext w) in *.
  ws1. ws1. ws1. ws1. ws1. ws1. ws1. ws1. ws1. ws1. ws1. ws1. ws1. ws1. ws1. ws1. ws1. ws1. ws1. ws1.
  wpure swap_i32_spec; [lia|]. ws1.
  match goal with |- wp ?r0 ?q0 ?s0 ?l0 (set_mem _ ?m) => set (m9 := m); change (wp r0 q0 s0 l0 (set_mem w1 m9)) end.
  assert (U : forall x, ~ within p (72 + Z.of_nat np) x -> rd m9 x = rd (mem w1) x).
  { intros x Hx. unfold within in Hx. unfold m9. rewrite !rd_store_out by (cbn [Z.of_nat Pos.of_succ_nat Pos.succ]; lia). reflexivity. }
  assert (Z9 : forall x, p <= x -> rd (mem w1) x = 0) by (intros; rewrite Em; apply P6; lia).
  assert (Z72 : forall x, p + 72 <= x -> rd m9 x = 0).
  { intros x Hx. unfold m9. rewrite !rd_store_out by (cbn [Z.of_nat Pos.of_succ_nat Pos.succ]; lia). apply Z9. lia. }
  replace (w32 (68 + Z.of_nat np)) with (68 + Z.of_nat np) in * by (rewrite w32_small; lia).
  apply HK; cbn [gnext set_mem mem].
  - eapply extends_write; [exact Hw|eapply alloc_extends; [exact Hw|exact Al|lia]|exact U|unfold p; lia|lia].
  - lia.
  - unfold error_header. rewrite Enp. split; [|split; [|split]].
    + unfold m9. rewrite !load_store_other by (cbn [Z.of_nat Pos.of_succ_nat Pos.succ]; lia).
      rewrite load_4_store. apply w32_small. lia.
    + cbn [bytes]. replace (p + 4 + 1 + 1 + 1) with (p + 7) by lia. replace (p + 4 + 1 + 1) with (p + 6) by lia.
      replace (p + 4 + 1) with (p + 5) by lia. unfold m9.
      repeat (rewrite (rd_store_out _ _ (p + 68)) by lia). repeat (rewrite (rd_store_out _ _ (p + 39)) by lia).
      rewrite (rd_store_byte _ (p + 7)). repeat (rewrite (rd_store_out _ _ (p + 7)) by lia).
      rewrite (rd_store_byte _ (p + 6)). repeat (rewrite (rd_store_out _ _ (p + 6)) by lia).
      rewrite (rd_store_byte _ (p + 5)). repeat (rewrite (rd_store_out _ _ (p + 5)) by lia).
      rewrite (rd_store_byte _ (p + 4)). reflexivity.
    + change 32%nat with (31 + 1)%nat. rewrite load_be_high_zero.
      * cbn [load_be]. replace (p + 8 + Z.of_nat 31) with (p + 39) by lia. unfold m9.
        rewrite rd_store_out by (cbn [Z.of_nat Pos.of_succ_nat Pos.succ]; lia).
        rewrite rd_store_in by (cbn [Z.of_nat Pos.of_succ_nat Pos.succ]; lia). rewrite Z.sub_diag. reflexivity.
      * intros x Hx. unfold m9. rewrite !rd_store_out by (cbn [Z.of_nat Pos.of_succ_nat Pos.succ] in *; lia). apply Z9. lia.
    + change 32%nat with (28 + 4)%nat. rewrite load_be_high_zero.
      * replace (p + 40 + Z.of_nat 28) with (p + 68) by lia. unfold m9. apply (load_be_store_swapped 4).
        change (256 ^ Z.of_nat 4) with 4294967296. lia.
      * intros x Hx. unfold m9. rewrite !rd_store_out by (cbn [Z.of_nat Pos.of_succ_nat Pos.succ] in *; lia). apply Z9. lia.
  - exact Z72.
Qed.

(** Writing the message turns the header into the complete encoding. *)
Lemma error_payload : forall m p msg, error_header m p (List.length msg) ->
  bytes (List.length msg) m (p + 72) = msg ->
  (forall x, p + 72 + Z.of_nat (List.length msg) <= x < p + 72 + Z.of_nat (List.length msg + pad32 (List.length msg)) -> rd m x = 0) ->
  load 4 m p = Z.of_nat (List.length (error_string msg)) /\
  bytes (List.length (error_string msg)) m (p + 4) = error_string msg.
Proof.
  intros m p msg (H1&H2&H3&H4) Hm Hz. set (n := List.length msg) in *.
  assert (EL : List.length (error_string msg) = (4 + (32 + (32 + (n + pad32 n))))%nat).
  { unfold error_string, enc_bytes, padded, word. rewrite !app_length, !be_bytes_length, repeat_length. reflexivity. }
  rewrite EL. split; [rewrite H1; lia|].
  rewrite !bytes_app. unfold error_string, enc_bytes, padded, word. fold n.
  rewrite H2. f_equal.
  replace (p + 4 + Z.of_nat 4) with (p + 8) by lia. rewrite (bytes_be 32 m (p + 8) 32 H3). f_equal.
  replace (p + 8 + Z.of_nat 32) with (p + 40) by lia. rewrite (bytes_be 32 m (p + 40) _ H4). f_equal.
  replace (p + 40 + Z.of_nat 32) with (p + 72) by lia. rewrite Hm. f_equal.
  apply bytes_zero. intros x Hx. apply Hz. lia.
Qed.

Lemma digits_decimal_aux : forall k n acc, 0 <= n ->
  fold_left (fun a b => 10 * a + (b - 48)) (digits k n) acc = acc * 10 ^ Z.of_nat k + n mod 10 ^ Z.of_nat k.
Proof.
  induction k; intros n acc Hn; cbn [digits fold_left].
  - change (10 ^ Z.of_nat 0) with 1. rewrite Z.mod_1_r. lia.
  - rewrite IHk by exact Hn. rewrite Nat2Z.inj_succ, Z.pow_succ_r by lia.
    pose proof (pow10_pos (Z.of_nat k) ltac:(lia)).
    rewrite (Z.mul_comm 10 (10 ^ Z.of_nat k)), Z.rem_mul_r by lia. ring.
Qed.

Lemma digits_is_decimal : forall L n, (1 <= L)%nat -> 0 <= n < 10 ^ Z.of_nat L ->
  (L = 1%nat \/ 10 ^ (Z.of_nat L - 1) <= n) -> is_decimal n (digits L n).
Proof.
  intros L n HL Hn HM. unfold is_decimal. split; [|split; [|split]].
  - clear. induction L; cbn [digits]; constructor; auto.
    pose proof (Z.mod_pos_bound (n / 10 ^ Z.of_nat L) 10 ltac:(lia)). lia.
  - unfold decimal. rewrite digits_decimal_aux by lia. rewrite Z.mod_small by lia. lia.
  - destruct L; [lia|]. discriminate.
  - destruct L; [lia|]. cbn [digits hd]. intros H0. destruct HM as [HM|HM].
    + injection HM as ->. cbn [digits]. rewrite H0. reflexivity.
    + exfalso. replace (Z.of_nat (S L) - 1) with (Z.of_nat L) in HM by lia.
      pose proof (pow10_pos (Z.of_nat L) ltac:(lia)).
      assert (1 <= n / 10 ^ Z.of_nat L) by (apply Z.div_le_lower_bound; lia).
      assert (n / 10 ^ Z.of_nat L < 10).
      { apply Z.div_lt_upper_bound; [lia|]. rewrite Nat2Z.inj_succ, Z.pow_succ_r in Hn by lia. lia. }
      rewrite Z.mod_small in H0 by lia. lia.
Qed.

(** [abort code]: the function returns 1 and leaves the encoded message behind the abort pointer. *)
Lemma abort_fn_spec : forall w code, wok w -> 0 <= code < 18446744073709551616 ->
  wpf abort_fn [code] w (resq (fun vs w' => vs = [1] /\ exists L,
     is_decimal code (digits L code) /\ (1 <= L <= 20)%nat /\
     wok w' /\ gnext w <= gnext w' /\ host w' = host w /\ live w' (abort_flag w') (72 + Z.of_nat (L + pad32 L)) /\ gnext w <= abort_flag w' /\
     (forall a, 0 <= a < gnext w -> ~ within 256 4 a -> rd (mem w') a = rd (mem w) a) /\
     load 4 (mem w') (abort_flag w') = Z.of_nat (List.length (error_string (digits L code))) /\
     bytes (List.length (error_string (digits L code))) (mem w') (abort_flag w' + 4) = error_string (digits L code))
    (oom w 125)).
Proof.
  intros w code Hw Hc. apply wpf_intro; [reflexivity|]. wc. ws1.
  wcall u64_to_ascii_spec; [exact Hw|exact Hc|intros O; eapply oom_mono; [exact O|lia]|].
  intros vs w1 (L&->&X1&HL&G1&D1&D2&E1&B1). wc. hide D1. hide D2.
  pose proof X1 as (Hw1&_&_&Gx&_&Hh&_). pose proof Hw1 as (P1&P2&P3&P4&P5&P6). pose proof Hw as (_&_&W3&_).
  ws1. ws1. rewrite load_1, E1. ws1. ws1. ws1. ws1. ws1.
  apply (wp_error_structure _ _ [] _ _ L); [exact Hw1|lia| |].
  { intros O. cbn [fret resq]. pose proof (pad32_spec L) as (q&Eq&Bq&_). eapply oom_extends; [exact X1|exact O|lia]. }
  intros w2 X2 G2 H2 Z2. pose proof (pad32_spec L) as (q&Eq&Bq&_).
  pose proof X2 as (Hw2&_&_&_&_&Hh2&M2). pose proof Hw2 as (Q1&Q2&Q3&Q4&Q5&Q6).
  set (p := gnext w1) in *.
  ws1. ws1. ws1. ws1. ws1. ws1.
  match goal with |- wp _ _ _ _ (set_mem _ ?m) => set (m3 := m) end.
  unfold raise_abort. cbn [app]. ws1. ws1. ws1. ws1. ws1.
  match goal with |- _ /\ exists _, _ => idtac end.
  change (set_mem (set_mem w2 m3)) with (set_mem w2). set (m4 := store 4 m3 256 p).
  assert (U3 : forall x, ~ within (p + 72) (Z.of_nat L) x -> rd m3 x = rd (mem w2) x).
  { intros x Hx. unfold within in Hx. apply rd_mcopy_out. lia. }
  assert (U4 : forall x, ~ within 256 4 x -> rd m4 x = rd m3 x).
  { intros x Hx. unfold within in Hx. apply rd_store_out. cbn [Z.of_nat Pos.of_succ_nat Pos.succ]. lia. }
  assert (AF : load 4 m4 256 = p).
  { unfold m4. rewrite load_4_store. apply w32_small. lia. }
  split; [reflexivity|]. exists L. unhide D1. unhide D2.
  split; [apply digits_is_decimal; [lia|lia|exact D2]|]. split; [exact HL|].
  unfold abort_flag; cbn [mem set_mem gnext host]. rewrite AF.
  split; [|split; [|split; [|split; [|split; [|split]]]]].
  - apply (wok_frame w2 _ (fun x => within (p + 72) (Z.of_nat L) x \/ within 256 4 x) Hw2).
    + apply frame_set_mem. intros x Hx. rewrite U4, U3 by tauto. reflexivity.
    + unfold within. intros x Hx. lia.
  - lia.
  - rewrite Hh2. exact Hh.
  - unfold live. cbn [gnext set_mem]. lia.
  - lia.
  - intros x Hx Hx2. rewrite U4, U3 by (try exact Hx2; unfold within; lia). rewrite M2 by lia. apply X1. exact Hx.
  - assert (EL : List.length (digits L code) = L) by apply digits_length.
    apply error_payload; rewrite EL.
    + destruct H2 as (K1&K2&K3&K4). unfold error_header.
      assert (V : forall x, p <= x < p + 72 -> rd m4 x = rd (mem w2) x).
      { intros x Hx. rewrite U4, U3 by (unfold within; lia). reflexivity. }
      split; [rewrite <- K1; apply load_ext; intros; apply V; lia|].
      split; [rewrite <- K2; apply bytes_ext; intros; apply V; lia|].
      split; [rewrite <- K3; apply load_be_ext; intros; apply V; lia|rewrite <- K4; apply load_be_ext; intros; apply V; lia].
    + rewrite <- B1. apply bytes_ext. intros i Hi. rewrite U4 by (unfold within; lia).
      unfold m3. rewrite rd_mcopy_in by lia. replace (gnext w + 1 + (p + 72 + i - (p + 72))) with (gnext w + 1 + i) by lia.
      apply M2. lia.
    + intros x Hx. rewrite U4, U3 by (unfold within; lia). apply Z2. lia.
Qed.

Lemma le_value_nonneg : forall bs, Forall (fun b => 0 <= b < 256) bs -> 0 <= le_value bs.
Proof. induction 1; cbn [le_value]; lia. Qed.

Lemma le_value_byte : forall bs i, Forall (fun b => 0 <= b < 256) bs -> 0 <= i ->
  (le_value bs / 256 ^ i) mod 256 = nth (Z.to_nat i) bs 0.
Proof.
  intros bs i H Hi. revert i Hi. induction H; intros i Hi; cbn [le_value].
  - rewrite Z.div_0_l by (pose proof (pow256_pos i); lia). destruct (Z.to_nat i); reflexivity.
  - destruct (Z.eq_dec i 0) as [->|].
    + rewrite Z.pow_0_r, Z.div_1_r. apply mod_lo. assumption.
    + replace (Z.to_nat i) with (S (Z.to_nat (i - 1))) by lia. cbn [nth]. rewrite <- IHForall by lia.
      replace i with (Z.succ (i - 1)) at 1 by lia. rewrite Z.pow_succ_r by lia.
      rewrite <- Z.div_div by (pose proof (pow256_pos (i - 1)); lia). rewrite div_lo by assumption. reflexivity.
Qed.

Lemma wp_chunk_stores : forall n bs off r (Q : outcome -> Prop) s a b c p d e w k,
  (List.length bs <= 8 * n)%nat -> Forall (fun x => 0 <= x < 256) bs -> 0 <= off -> 0 <= p ->
  (List.length bs <= 8 * k)%nat -> p + 72 + off + 8 * Z.of_nat k <= page_size * pages w ->
  p + 72 + off + 8 * Z.of_nat k < 4294967296 ->
  (forall x, p + 72 + off <= x -> rd (mem w) x = 0) ->
  (forall m', (forall x, x < p + 72 + off -> rd m' x = rd (mem w) x) ->
     (forall i, 0 <= i -> rd m' (p + 72 + off + i) = nth (Z.to_nat i) bs 0) ->
     wp r Q s [a; b; c; p; d; e] (set_mem w m')) ->
  wp (chunk_stores n off bs ++ r) Q s [a; b; c; p; d; e] w.
Proof.
  induction n; intros bs off r Q s a b c p d e w k Hn HF Ho Hp Hk Hb1 Hb2 Hz K.
  - destruct bs; [|cbn [List.length] in Hn; lia]. cbn [chunk_stores app].
    replace w with (set_mem w (mem w)) by (destruct w; reflexivity). apply K; [reflexivity|].
    intros i Hi. rewrite Hz by lia. destruct (Z.to_nat i); reflexivity.
  - destruct bs as [|b0 bt].
    { cbn [chunk_stores app]. replace w with (set_mem w (mem w)) by (destruct w; reflexivity). apply K; [reflexivity|].
      intros i Hi. rewrite Hz by lia. destruct (Z.to_nat i); reflexivity. }
    set (bs := b0 :: bt) in *. change (chunk_stores (S n) off bs) with
      ([ LocalGet 3; Const (72 + off); Bin I32 Add; Const (le_value (firstn 8 bs)); Store 8 0 ]
      ++ chunk_stores n (off + 8) (skipn 8 bs)). cbn [app].
    assert (Hk1 : (1 <= k)%nat) by (unfold bs in Hk; cbn [List.length] in Hk; lia). clearbody bs. clear b0 bt.
    ws1. ws1. eapply wp_bin; [cbn [binop wrapt]; reflexivity|]. rewrite w32_small by lia. ws1.
    replace (p + (72 + off)) with (p + 72 + off) by lia. ws1.
    set (m1 := store 8 (mem w) (p + 72 + off) (le_value (firstn 8 bs))).
    assert (V1 : forall i, 0 <= i < 8 -> rd m1 (p + 72 + off + i) = nth (Z.to_nat i) bs 0).
    { intros i Hi. unfold m1. rewrite rd_store_in by lia. replace (p + 72 + off + i - (p + 72 + off)) with i by lia.
      rewrite le_value_byte by (try lia; apply Forall_forall; intros x Hx; rewrite Forall_forall in HF; apply HF; rewrite <- (firstn_skipn 8 bs); apply in_or_app; left; exact Hx).
      rewrite <- (firstn_skipn 8 bs) at 2. destruct (Nat.lt_ge_cases (Z.to_nat i) (List.length (firstn 8 bs))) as [C|C].
      - rewrite app_nth1 by exact C. reflexivity.
      - rewrite nth_overflow by exact C. rewrite app_nth2 by exact C. rewrite firstn_length in *.
        rewrite nth_overflow; [reflexivity|]. rewrite skipn_length. lia. }
    eapply (IHn (skipn 8 bs) (off + 8) r Q s a b c p d e (set_mem w m1) (k - 1)%nat); cbn [pages set_mem mem].
    + rewrite skipn_length. lia.
    + apply Forall_forall. intros x Hx. rewrite Forall_forall in HF. apply HF. rewrite <- (firstn_skipn 8 bs). apply in_or_app. right. exact Hx.
    + lia.
    + exact Hp.
    + rewrite skipn_length. lia.
    + lia.
    + lia.
    + intros x Hx. unfold m1. rewrite rd_store_out by lia. apply Hz. lia.
    + intros m' K1 K2. change (set_mem (set_mem w m1) m') with (set_mem w m'). apply K.
      * intros x Hx. rewrite K1 by lia. unfold m1. apply rd_store_out. lia.
      * intros i Hi. destruct (Z.lt_ge_cases i 8).
        -- rewrite K1 by lia. apply V1. lia.
        -- replace (p + 72 + off + i) with (p + 72 + (off + 8) + (i - 8)) by lia. rewrite K2 by lia.
           rewrite <- (firstn_skipn 8 bs) at 2. destruct (Nat.le_gt_cases (List.length bs) 8).
           ++ rewrite (nth_overflow (skipn 8 bs)) by (rewrite skipn_length; lia).
              rewrite nth_overflow; [reflexivity|]. rewrite app_length, firstn_length, skipn_length. lia.
           ++ rewrite app_nth2 by (rewrite firstn_length; lia). f_equal. rewrite firstn_length. lia.
Qed.

(** A clever error: same payload with the constant's text; a different code on the stack traps. *)
Lemma abort_const_spec : forall w c bs code, wok w -> Forall (fun b => 0 <= b < 256) bs -> (List.length bs < 256)%nat ->
  wpf (abort_const_fn c bs) [code] w (resq (fun vs w' => vs = [1] /\ code = c /\
     wok w' /\ gnext w <= gnext w' /\ host w' = host w /\
     live w' (abort_flag w') (4 + Z.of_nat (List.length (error_string bs))) /\ gnext w <= abort_flag w' /\
     (forall a, 0 <= a < gnext w -> ~ within 256 4 a -> rd (mem w') a = rd (mem w) a) /\
     load 4 (mem w') (abort_flag w') = Z.of_nat (List.length (error_string bs)) /\
     bytes (List.length (error_string bs)) (mem w') (abort_flag w' + 4) = error_string bs)
    (code <> c \/ oom w (72 + Z.of_nat (List.length bs) + 32))).
Proof.
  intros w c bs code Hw HF HL. apply wpf_intro; [reflexivity|]. wc. ws1. ws1.
  eapply wp_bin; [cbn [binop]; reflexivity|]. apply wp_if; intros C.
  2:{ ws1. left. destruct (code =? c) eqn:E; cbn in C; lia. }
  assert (code = c) by (destruct (code =? c) eqn:E; cbn in C; lia). subst code. clear C.
  apply wp_nil. wc. unfold build_abort_error_message_from_constant. rewrite <- !app_assoc. cbn [app]. ws1. ws1.
  set (n := List.length bs) in *. pose proof (pad32_spec n) as (q&Eq&Bq&_).
  apply (wp_error_structure _ _ [] _ _ n); [exact Hw|lia| |].
  { intros O. cbn [fret resq]. right. eapply oom_mono; [exact O|lia]. }
  intros w2 X2 G2 H2 Z2. pose proof Hw as (W1&W2&W3&_).
  pose proof X2 as (Hw2&_&_&_&_&Hh2&M2). pose proof Hw2 as (Q1&Q2&Q3&Q4&Q5&Q6).
  set (p := gnext w) in *.
  apply (wp_chunk_stores n bs 0 _ _ _ _ _ _ p _ _ w2 (4 * q)); rewrite ?Z.add_0_r; try lia; auto.
  { unfold page_size. lia. }
  intros m3 U3 V3. unfold raise_abort. ws1. ws1. ws1. ws1. ws1.
  change (set_mem (set_mem w2 m3)) with (set_mem w2). set (m4 := store 4 m3 256 p).
  assert (U4 : forall x, ~ within 256 4 x -> rd m4 x = rd m3 x).
  { intros x Hx. unfold within in Hx. apply rd_store_out. lia. }
  assert (AF : load 4 m4 256 = p) by (unfold m4; rewrite load_4_store; apply w32_small; lia).
  assert (EL : Z.of_nat (List.length (error_string bs)) = 68 + Z.of_nat (n + pad32 n)).
  { unfold error_string, enc_bytes, padded, word. rewrite !app_length, !be_bytes_length, repeat_length. fold n. cbn [List.length]. lia. }
  split; [reflexivity|]. split; [reflexivity|]. unfold abort_flag; cbn [mem set_mem gnext host]. rewrite AF.
  split; [|split; [|split; [|split; [|split; [|split]]]]].
  - apply (wok_frame w2 _ (fun x => within (p + 72) (Z.of_nat (n + pad32 n)) x \/ within 256 4 x) Hw2).
    + apply frame_set_mem. intros x Hx. unfold within in Hx. rewrite U4 by (unfold within; lia).
      destruct (Z.lt_ge_cases x (p + 72)); [apply U3; lia|]. rewrite Z2 by lia.
      replace x with (p + 72 + (x - (p + 72))) by lia. rewrite V3 by lia. apply nth_overflow. fold n. lia.
    + unfold within. intros x Hx. lia.
  - lia.
  - exact Hh2.
  - unfold live. cbn [gnext set_mem]. lia.
  - lia.
  - intros x Hx Hx2. rewrite U4, U3 by (try exact Hx2; lia). apply M2. exact Hx.
  - apply error_payload; fold n.
    + destruct H2 as (K1&K2&K3&K4). unfold error_header.
      assert (V : forall x, p <= x < p + 72 -> rd m4 x = rd (mem w2) x).
      { intros x Hx. rewrite U4, U3 by (unfold within; lia). reflexivity. }
      split; [rewrite <- K1; apply load_ext; intros; apply V; lia|].
      split; [rewrite <- K2; apply bytes_ext; intros; apply V; lia|].
      split; [rewrite <- K3; apply load_be_ext; intros; apply V; lia|rewrite <- K4; apply load_be_ext; intros; apply V; lia].
    + apply nth_ext with (d := 0) (d' := 0); [rewrite bytes_length; reflexivity|].
      rewrite bytes_length. intros i Hi. rewrite bytes_nth by exact Hi. rewrite U4 by (unfold within; lia).
      rewrite V3 by lia. f_equal. lia.
    + intros x Hx. rewrite U4 by (unfold within; lia).
      replace x with (p + 72 + (x - (p + 72))) by lia. rewrite V3 by lia. apply nth_overflow. fold n. lia.
Qed.
