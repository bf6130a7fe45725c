(** * Decimal rendering of abort codes and the revert payload
    (runtime/integers/ascii.rs, abi_types/error_encoding.rs, translation.rs). *)

From Verif Require Import Tac RtAlloc RtErr RtInt RtInt2 RtEq RtMul RtDiv RtShift Ops RtSwap.
Ltac Zify.zify_post_hook ::= idtac.

(** runtime/integers/ascii.rs 32-186.
    Locals: 0 n, 1 len, 2 ptr, 3 scale, 4 write_ptr. *)
Definition u64_to_ascii_base_10 : func := Func 1 4 1
 [ LocalGet 0; Un Eqz;
   If 0
     [ Const 1; Call alloc; LocalTee 2; Const 1; Store 1 0;
       Const 1; Call alloc; Const 48; Store 1 0 ]
     [ Const 10000000000000000000; LocalSet 3; Const 20; LocalSet 1;
       Const 1; Call alloc; LocalSet 2;
       Block "block" 0
         [ Loop "loop" 0
             [ LocalGet 3; LocalGet 0; Bin I64 LeU; BrIf "block";
               LocalGet 3; Const 10; Bin I64 DivU; LocalSet 3;
               LocalGet 1; Const 1; Bin I32 Sub; LocalSet 1; Br "loop" ] ];
       Block "block2" 0
         [ Loop "loop2" 0
             [ Const 1; Call alloc; LocalTee 4;
               LocalGet 0; LocalGet 3; Bin I64 DivU; Const 48; Bin I64 Add; Un Wrap64; Store 1 0;
               LocalGet 0; LocalGet 3; Bin I64 RemU; LocalSet 0;
               LocalGet 3; Const 1; Bin I64 Eq; BrIf "block2";
               LocalGet 3; Const 10; Bin I64 DivU; LocalSet 3; Br "loop2" ] ];
       LocalGet 2; LocalGet 1; Store 1 0 ];
   LocalGet 2 ].

(** ** Frontier bookkeeping *)

(** Writing to memory allocated since [w0]. *)
Lemma extends_write : forall w0 w m p n, wok w0 -> extends w0 w ->
  (forall x, ~ within p n x -> rd m x = rd (mem w) x) -> gnext w0 <= p -> p + n <= gnext w ->
  extends w0 (set_mem w m).
Proof.
  intros w0 w m p n H0 (A1&A2&A3&A4&A5&A6&A7) U P N.
  assert (wok (set_mem w m)).
  { eapply wok_frame; [exact A1|apply frame_set_mem; exact U|]. unfold within. intros; lia. }
  unfold extends. cbn [pages maxpages gnext gavail mem set_mem gcd host].
  split; [assumption|]. repeat (split; [assumption|]).
  intros a Ha. rewrite U; [apply A7; exact Ha|unfold within; lia].
Qed.

Lemma oom_extends : forall w w1 n k, extends w w1 -> oom w1 n -> gnext w1 + n <= gnext w + k -> oom w k.
Proof. unfold extends, oom. intros w w1 n k (_&E&_) O H. rewrite E in O. lia. Qed.

(** ** Decimal digits *)

(** The [k] low decimal digits of [n] in ASCII, most significant first. *)
Fixpoint digits (k : nat) (n : Z) : list Z :=
  match k with
  | O => []
  | S k' => (48 + (n / 10 ^ Z.of_nat k') mod 10) :: digits k' n
  end.

Lemma digits_length : forall k n, List.length (digits k n) = k.
Proof. induction k; intros; cbn [digits List.length]; auto. Qed.

Lemma pow10_pos : forall k, 0 <= k -> 0 < 10 ^ k.
Proof. intros; apply Z.pow_pos_nonneg; lia. Qed.

Lemma bytes_snoc : forall n m a, bytes (S n) m a = bytes n m a ++ [rd m (a + Z.of_nat n)].
Proof. exact bytes_S. Qed.

(** The digits produced so far, followed by the next one. *)
Definition digits_hi (L k : nat) (n : Z) : list Z := firstn (L - k) (digits L n).

Lemma digits_nth : forall L n i, (i < L)%nat -> nth i (digits L n) 0 = 48 + (n / 10 ^ Z.of_nat (L - 1 - i)) mod 10.
Proof.
  induction L; intros n i Hi; [lia|]. destruct i; cbn [digits nth].
  - do 3 f_equal. f_equal. lia.
  - rewrite IHL by lia. do 3 f_equal. f_equal. lia.
Qed.

Lemma firstn_snoc : forall (l : list Z) k, (k < List.length l)%nat -> firstn (S k) l = firstn k l ++ [nth k l 0].
Proof.
  induction l; intros k Hk; cbn [List.length] in Hk; [lia|]. destruct k; [reflexivity|].
  change (firstn (S (S k)) (a :: l)) with (a :: firstn (S k) l). rewrite IHl by lia. reflexivity.
Qed.

Lemma u64_to_ascii_spec : forall w n, wok w -> 0 <= n < 18446744073709551616 ->
  wpf u64_to_ascii_base_10 [n] w (resq (fun vs w' => exists L, vs = [gnext w] /\ extends w w' /\
     (1 <= L <= 20)%nat /\ gnext w' = gnext w + 1 + Z.of_nat L /\
     n < 10 ^ Z.of_nat L /\ (L = 1%nat \/ 10 ^ (Z.of_nat L - 1) <= n) /\
     rd (mem w') (gnext w) = Z.of_nat L /\ bytes L (mem w') (gnext w + 1) = digits L n)
    (oom w 21)).
Proof.
  intros w n Hw Hn. pose proof Hw as (P1&P2&P3&P4&P5&P6).
  apply wpf_intro; [reflexivity|]. wc. ws1. ws1. apply wp_if; intros C.
  - (* zero *)
    assert (n = 0) by (destruct (n =? 0) eqn:E; cbn in C; lia). subst n. clear C.
    ws1. wcall alloc_spec; [exact Hw|lia|intros O; eapply oom_mono; [exact O|lia]|].
    intros vs w1 [-> Al]. wc. pose proof Al as (Hw1&Em1&A1&A2&A3&A4&A5). pose proof Hw1 as (Q1&Q2&Q3&Q4&Q5&Q6).
    ws1. ws1. ws1.
    set (m1 := store (Z.of_nat 1) (mem w1) (gnext w) 1).
    assert (U1 : forall x, ~ within (gnext w) 1 x -> rd m1 x = rd (mem w1) x).
    { intros x Hx. unfold within in Hx. apply rd_store_out. lia. }
    pose proof (alloc_extends w w1 1 Hw Al ltac:(lia)) as X1.
    pose proof (extends_write w w1 m1 (gnext w) 1 Hw X1 U1 ltac:(lia) ltac:(lia)) as X2.
    pose proof X2 as (Hw2&_).
    ws1. wcall alloc_spec; [exact Hw2|lia|intros O; eapply (oom_extends w); [exact X2|exact O|cbn [gnext set_mem]; lia]|].
    intros vs w3 [-> Al3]. wc. cbn [gnext set_mem] in *. pose proof Al3 as (Hw3&Em3&B1&B2&B3&B4&B5).
    cbn [gnext set_mem mem pages maxpages] in *. pose proof Hw3 as (R1&R2&R3&R4&R5&R6).
    ws1. ws1. ws1. ws1. ws1. exists 1%nat.
    set (m3 := store (Z.of_nat 1) (mem w3) (gnext w1) 48).
    assert (U3 : forall x, ~ within (gnext w1) 1 x -> rd m3 x = rd (mem w3) x).
    { intros x Hx. unfold within in Hx. apply rd_store_out. lia. }
    pose proof (extends_trans _ _ _ X2 (alloc_extends _ _ _ Hw2 Al3 ltac:(lia))) as X3.
    pose proof (extends_write w w3 m3 (gnext w1) 1 Hw X3 U3 ltac:(lia) ltac:(lia)) as X4.
    split; [reflexivity|]. split; [exact X4|]. split; [lia|]. cbn [gnext set_mem mem]. split; [lia|].
    split; [cbn; lia|]. split; [auto|]. split.
    + rewrite U3 by (unfold within; lia). rewrite Em3. unfold m1. rewrite rd_store_in by lia.
      rewrite Z.sub_diag. reflexivity.
    + cbn [bytes digits]. f_equal. rewrite <- A3. unfold m3. rewrite rd_store_in by lia.
      rewrite Z.sub_diag. reflexivity.
  - (* positive *)
    assert (n <> 0) by (destruct (n =? 0) eqn:E; cbn in C; lia). clear C.
    ws1. ws1. ws1. ws1. ws1.
    wcall alloc_spec; [exact Hw|lia|intros O; eapply oom_mono; [exact O|lia]|].
    intros vs w1 [-> Al]. wc. pose proof Al as (Hw1&Em1&A1&A2&A3&A4&A5).
    pose proof (alloc_extends w w1 1 Hw Al ltac:(lia)) as X1.
    ws1. ws1.
    (* number of digits *)
    apply wp_loop with (k := 20%nat) (I := fun k l w' => w' = w1 /\ (1 <= k <= 20)%nat /\
      l = [n; Z.of_nat k; gnext w; 10 ^ (Z.of_nat k - 1); 0] /\ n < 10 ^ Z.of_nat k).
    { split; [reflexivity|]. split; [lia|]. split; [reflexivity|]. change (10 ^ Z.of_nat 20) with 100000000000000000000. lia. }
    intros k l w' (->&Hk&->&Hlt).
    assert (Sc : 0 < 10 ^ (Z.of_nat k - 1) <= 10000000000000000000).
    { split; [apply pow10_pos; lia|]. change 10000000000000000000 with (10 ^ 19). apply Z.pow_le_mono_r; lia. }
    ws1. ws1. eapply wp_bin; [cbn [binop]; reflexivity|]. ws1.
    2:{ (* continue *)
      assert (Hgt : n < 10 ^ (Z.of_nat k - 1)) by lia. clear C.
      assert (k <> 1%nat) by (intros ->; cbn in Hgt; lia).
      assert (E10 : 10 ^ (Z.of_nat k - 1) / 10 = 10 ^ (Z.of_nat (k - 1) - 1)).
      { replace (Z.of_nat k - 1) with (Z.succ (Z.of_nat (k - 1) - 1)) by lia. rewrite Z.pow_succ_r by lia.
        rewrite Z.mul_comm, Z.div_mul; lia. }
      ws1. ws1. eapply wp_bin; [cbn [binop]; reflexivity|]. change (10 =? 0) with false. rewrite E10.
      ws1. ws1. ws1. eapply wp_bin; [cbn [binop wrapt]; reflexivity|]. rewrite w32_small by lia.
      ws1. ws1. exists (k - 1)%nat. split; [lia|]. split; [reflexivity|]. split; [lia|]. split.
      - do 3 f_equal. lia.
      - replace (Z.of_nat (k - 1)) with (Z.of_nat k - 1) by lia. exact Hgt. }
    (* digits *)
    assert (Hge : 10 ^ (Z.of_nat k - 1) <= n) by lia. clear C. rename k into L.
    ws1.
    apply wp_loop with (k := (L - 1)%nat) (I := fun k l w' => (k < L)%nat /\ extends w w' /\
      gnext w' = gnext w + 1 + Z.of_nat (L - 1 - k) /\
      (exists wp0, l = [n mod 10 ^ Z.of_nat (S k); Z.of_nat L; gnext w; 10 ^ Z.of_nat k; wp0]) /\
      bytes (L - 1 - k) (mem w') (gnext w + 1) = firstn (L - 1 - k) (digits L n)).
    { split; [lia|]. split; [exact X1|]. split; [lia|]. split.
      - exists 0. do 2 f_equal; [rewrite Z.mod_small by (replace (Z.of_nat (S (L - 1))) with (Z.of_nat L) by lia; lia); reflexivity|].
        do 3 f_equal. lia.
      - rewrite Nat.sub_diag. reflexivity. }
    clear Sc. intros k l w' (Hk2&X&G&(wp0&->)&B).
    set (j := (L - 1 - k)%nat) in *. assert (Hj : L = S (j + k)) by (clear - Hk2; lia). clearbody j.
    pose proof X as (Hw'&Mx&_&Gx&_). pose proof Hw' as (Q1&Q2&Q3&Q4&Q5&Q6).
    assert (Pk : 0 < 10 ^ Z.of_nat k <= 10000000000000000000).
    { split; [apply pow10_pos; lia|]. change 10000000000000000000 with (10 ^ 19). apply Z.pow_le_mono_r; lia. }
    assert (EM : n mod 10 ^ Z.of_nat (S k) = n mod 10 ^ Z.of_nat k + 10 ^ Z.of_nat k * ((n / 10 ^ Z.of_nat k) mod 10)).
    { rewrite Nat2Z.inj_succ, Z.pow_succ_r by lia. rewrite (Z.mul_comm 10). apply Z.rem_mul_r; lia. }
    pose proof (Z.mod_pos_bound n (10 ^ Z.of_nat k) ltac:(lia)) as Lo.
    pose proof (Z.mod_pos_bound (n / 10 ^ Z.of_nat k) 10 ltac:(lia)) as Dg.
    set (d := (n / 10 ^ Z.of_nat k) mod 10) in *.
    assert (ED : n mod 10 ^ Z.of_nat (S k) / 10 ^ Z.of_nat k = d) by (rewrite EM; apply div_lo; exact Lo).
    assert (ER : (n mod 10 ^ Z.of_nat (S k)) mod 10 ^ Z.of_nat k = n mod 10 ^ Z.of_nat k) by (rewrite EM; apply mod_lo; exact Lo).
    clear EM Lo. assert (Dd : d = (n / 10 ^ Z.of_nat k) mod 10) by reflexivity. clearbody d. hide Dd.
    set (sc := 10 ^ Z.of_nat k) in *. assert (Hsc : sc = 10 ^ Z.of_nat k) by reflexivity. clearbody sc. hide Hsc.
    set (nk := n mod 10 ^ Z.of_nat (S k)) in *. clearbody nk. hide Hge. hide Hlt. hide ED. hide ER.
    ws1. wcall alloc_spec; [exact Hw'|lia|intros O; eapply (oom_extends w); [exact X|exact O|lia]|].
    intros vs w2 [-> Al2]. wc. pose proof Al2 as (Hw2&Em2&B1&B2&B3&B4&B5). pose proof Hw2 as (R1&R2&R3&R4&R5&R6).
    ws1. ws1. ws1. eapply wp_bin; [cbn [binop]; replace (sc =? 0) with false by lia; reflexivity|].
    unhide ED. rewrite ED. hide ED. ws1. eapply wp_bin; [cbn [binop wrapt]; reflexivity|]. rewrite w64_small by lia.
    apply wp_un. cbn [unop]. rewrite w32_small by lia.
    apply wp_store; [lia|unfold page_size; cbn [Z.of_nat Pos.of_succ_nat]; lia|]. rewrite Z.add_0_r.
    set (m2 := store (Z.of_nat 1) (mem w2) (gnext w') (d + 48)).
    assert (U2 : forall x, ~ within (gnext w') 1 x -> rd m2 x = rd (mem w') x).
    { intros x Hx. unfold within in Hx. rewrite <- Em2. apply rd_store_out. lia. }
    pose proof (extends_trans _ _ _ X (alloc_extends _ _ _ Hw' Al2 ltac:(lia))) as X2.
    assert (X3 : extends w (set_mem w2 m2)).
    { apply (extends_write w w2 m2 (gnext w') 1 Hw X2); [intros; rewrite U2 by assumption; rewrite Em2; reflexivity|lia|lia]. }
    assert (BY : bytes (S j) m2 (gnext w + 1) = firstn (S j) (digits L n)).
    { rewrite bytes_S. rewrite firstn_snoc by (rewrite digits_length; lia). f_equal.
      - rewrite <- B. apply bytes_ext. intros i Hi. apply U2. unfold within. lia.
      - rewrite digits_nth by lia. replace (L - 1 - j)%nat with k by (clear - Hj; lia). unhide Dd. unhide Hsc. rewrite <- Hsc, <- Dd. f_equal.
        rewrite <- G. unfold m2. rewrite rd_store_in by lia. rewrite Z.sub_diag, Z.pow_0_r, Z.div_1_r.
        rewrite Z.mod_small by lia. lia. }
    ws1. ws1. eapply wp_bin; [cbn [binop]; replace (sc =? 0) with false by lia; reflexivity|]. unhide ER. rewrite ER. hide ER.
    ws1. ws1. ws1. eapply wp_bin; [cbn [binop]; reflexivity|]. ws1.
    + (* last digit *)
      assert (k = 0%nat).
      { unhide Hsc. rewrite Hsc in C. destruct k; [reflexivity|]. exfalso. rewrite Nat2Z.inj_succ, Z.pow_succ_r in C by lia.
        assert (0 < 10 ^ Z.of_nat k) by (apply pow10_pos; lia). lia. }
      subst k. replace (S j) with L in BY by (clear - Hj; lia). rewrite (firstn_all2 (n := L)) in BY by (rewrite digits_length; lia).
      cbn [gnext set_mem mem] in *.
      ws1. ws1. ws1. ws1. ws1. ws1.
      set (m4 := store (Z.of_nat 1) m2 (gnext w) (Z.of_nat L)).
      assert (U4 : forall x, ~ within (gnext w) 1 x -> rd m4 x = rd m2 x).
      { intros x Hx. unfold within in Hx. apply rd_store_out. lia. }
      exists L. split; [reflexivity|]. split.
      { exact (extends_write w _ m4 (gnext w) 1 Hw X3 U4 ltac:(lia) ltac:(cbn [gnext set_mem]; lia)). }
      split; [lia|]. cbn [gnext set_mem mem]. split; [lia|]. unhide Hlt. unhide Hge. split; [exact Hlt|]. split; [right; exact Hge|]. split.
      * unfold m4. rewrite rd_store_in by lia. rewrite Z.sub_diag, Z.pow_0_r, Z.div_1_r. apply Z.mod_small. lia.
      * rewrite <- BY. apply bytes_ext. intros i Hi. apply U4. unfold within. lia.
    + (* next digit *)
      assert (k <> 0%nat) by (intros ->; unhide Hsc; rewrite Hsc in C; cbn in C; lia).
      assert (E10 : sc / 10 = 10 ^ Z.of_nat (k - 1)).
      { unhide Hsc. rewrite Hsc. replace (Z.of_nat k) with (Z.succ (Z.of_nat (k - 1))) by lia. rewrite Z.pow_succ_r by lia.
        rewrite Z.mul_comm, Z.div_mul; lia. }
      ws1. ws1. eapply wp_bin; [cbn [binop]; reflexivity|]. change (10 =? 0) with false. rewrite E10.
      ws1. ws1. exists (k - 1)%nat. clear Dg Pk E10. split; [slia|]. split; [slia|]. split; [exact X3|].
      cbn [gnext set_mem mem]. split; [slia|]. split.
      * exists (gnext w'). replace (Z.pos (Pos.of_succ_nat (k - 1))) with (Z.of_nat k) by slia. unhide Hsc. rewrite <- Hsc. reflexivity.
      * replace (L - 1 - (k - 1))%nat with (S j) by (clear - Hj H0; lia). exact BY.
Qed.
