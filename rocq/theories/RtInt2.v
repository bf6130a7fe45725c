(** * Specifications of the looping integer functions (RtInt.v). *)

From Verif Require Import Tac RtAlloc RtErr RtInt.

Lemma load_chunk : forall c j m p,
  load (c * S j) m p = load (c * j) m p + 256 ^ (Z.of_nat c * Z.of_nat j) * load c m (p + Z.of_nat c * Z.of_nat j).
Proof.
  intros. replace (c * S j)%nat with (c * j + c)%nat by lia. rewrite load_split, Nat2Z.inj_mul. reflexivity.
Qed.

Lemma load_ge_chunk : forall c j N m p, (j < N)%nat -> load c m (p + Z.of_nat c * Z.of_nat j) <> 0 ->
  256 ^ (Z.of_nat c * Z.of_nat j) <= load (c * N) m p.
Proof.
  intros. replace (c * N)%nat with (c * j + (c + c * (N - j - 1)))%nat by nia.
  rewrite load_split, load_split, Nat2Z.inj_mul.
  pose proof (load_range (c * j) m p). pose proof (load_range c m (p + Z.of_nat c * Z.of_nat j)).
  pose proof (load_range (c * (N - j - 1)) m (p + Z.of_nat c * Z.of_nat j + Z.of_nat c)).
  pose proof (pow256_pos (Z.of_nat c * Z.of_nat j)). pose proof (pow256_pos (Z.of_nat c)). nia.
Qed.

Definition chunk_ok (c : nat) : Prop := c = 4%nat \/ c = 8%nat.

Lemma downcast_heap_spec : forall c N ep w p, chunk_ok c -> (2 <= N)%nat ->
  wok w -> errtab_ok ep -> live w p (Z.of_nat (c * N)) ->
  checked ep (downcast_heap c ep) [p; Z.of_nat (c * N)] w
    (load (c * N) (mem w) p < 256 ^ Z.of_nat c) (load (c * N) (mem w) p) OutOfBounds.
Proof.
  intros c N ep w p Hc HN Hw He Hl.
  apply checked_intro; [lia|]. apply wpf_intro; [reflexivity|]; wc.
  pose proof Hw as (P1&P2&P3&P4&P5&P6). unfold live in Hl.
  assert (Hcr : 1 <= Z.of_nat c <= 8) by (destruct Hc; subst; lia).
  assert (Hcn : Z.of_nat c * 2 <= Z.of_nat (c * N)) by nia.
  ws1. ws1. ws1. ws1. ws1.
  eapply (wp_loop (fun k l w' => exists j, (1 <= j < N)%nat /\ k = (N - j)%nat /\
     l = [p; Z.of_nat (c * N); Z.of_nat c * Z.of_nat j; 0] /\ w' = w /\
     load (c * j) (mem w) p = load c (mem w) p)) with (k := (N - 1)%nat).
  - exists 1%nat. repeat (split; [try lia; try reflexivity|]).
    + rewrite Z.mul_1_r. reflexivity.
    + rewrite Nat.mul_1_r. reflexivity.
  - intros k l w' (j&Hj&->&->&->&Hz).
    pose proof (load_chunk c j (mem w) p) as Lc.
    pose proof (load_range c (mem w) p) as R.
    assert (Hjj : Z.of_nat c * Z.of_nat j + Z.of_nat c <= Z.of_nat (c * N)) by nia.
    ws1. ws1. ws1. ws1. ws1. ws1.
    + (* the chunk is zero *)
      rewrite (proj1 (Z.eqb_eq _ _) C), Z.mul_0_r, Z.add_0_r in Lc.
      ws1. ws1. ws1. ws1. ws1. ws1.
      * assert (N = S j) by nia. subst N. ws. left. rewrite Lc, Hz. repeat split. lia.
      * ws. exists (N - S j)%nat. split; [lia|]. exists (S j). repeat (split; [try lia; try reflexivity|]).
        -- assert (S j <> N) by (intro; subst; lia). lia.
        -- f_equal. f_equal. f_equal. lia.
        -- congruence.
    + werr; auto. right.
      split; [|split; [reflexivity|apply aborted_store; auto]].
      pose proof (load_ge_chunk c j N (mem w) p ltac:(lia) ltac:(lia)).
      pose proof (Z.pow_le_mono_r 256 (Z.of_nat c) (Z.of_nat c * Z.of_nat j)). nia.
Qed.

(** ** Less-than *)
Lemma load_top : forall j N m p, (j <= N)%nat ->
  load (8 * N) m p = load (8 * j) m p + 256 ^ (8 * Z.of_nat j) * load (8 * (N - j)) m (p + 8 * Z.of_nat j).
Proof.
  intros. replace (8 * N)%nat with (8 * j + 8 * (N - j))%nat by lia. rewrite load_split.
  replace (Z.of_nat (8 * j)) with (8 * Z.of_nat j) by lia.
  replace (8 * j + 8 * (N - j) - 8 * j)%nat with (8 * (N - j))%nat by lia. reflexivity.
Qed.

Lemma less_than_spec : forall N w a b, (1 <= N)%nat -> wok w ->
  live w a (Z.of_nat (8 * N)) -> live w b (Z.of_nat (8 * N)) -> Z.of_nat (8 * N) < 2147483648 ->
  returns less_than [a; b; Z.of_nat (8 * N)] w
    [b2z (load (8 * N) (mem w) a <? load (8 * N) (mem w) b)] w.
Proof.
  intros N w a b HN Hw La Lb Hs.
  assert (wpf less_than [a; b; Z.of_nat (8 * N)] w (resq (fun vs w' =>
    vs = [b2z (load (8 * N) (mem w) a <? load (8 * N) (mem w) b)] /\ w' = w) False)) as W.
  2:{ apply wpf_returns in W. destruct W as (?&?&?&->&->). auto. }
  apply wpf_intro; [reflexivity|]; wc.
  pose proof Hw as (P1&P2&P3&P4&P5&P6). unfold live in La, Lb.
  ws1. ws1. ws1. ws1. ws1.
  (* j chunks are left to compare; the chunks above agree *)
  eapply (wp_loop (fun k l w' => exists j a0 b0 r0, (j <= N)%nat /\ k = j /\
     l = [a; b; Z.of_nat (8 * N); a0; b0; r0; w32 (8 * (Z.of_nat j - 1))] /\ w' = w /\
     load (8 * (N - j)) (mem w) (a + 8 * Z.of_nat j) = load (8 * (N - j)) (mem w) (b + 8 * Z.of_nat j)))
     with (k := N).
  - exists N, 0, 0, 0. rewrite Nat.sub_diag. repeat (split; [try lia; try reflexivity|]); try reflexivity.
    do 6 f_equal. rewrite w32_small by lia. f_equal. lia.
  - intros k l w' (j&a0&b0&r0&Hj&->&->&->&Hz).
    pose proof (load_top j N (mem w) a Hj) as Ta. pose proof (load_top j N (mem w) b Hj) as Tb.
    destruct j as [|j].
    + ws1. ws1. eapply wp_bin; [reflexivity|]. ws1; [|vm_compute in C; discriminate].
      ws. split; [|reflexivity].
      change (8 * 0)%nat with 0%nat in Ta, Tb. change (Z.of_nat 0) with 0 in Ta, Tb, Hz.
      cbn [load] in Ta, Tb. rewrite Z.mul_0_r, Z.pow_0_r in Ta, Tb.
      rewrite Ta, Tb. rewrite Z.mul_0_r in Hz. rewrite Hz. rewrite Z.ltb_irrefl. reflexivity.
    + rewrite w32_small by lia.
      pose proof (load_chunk 8 j (mem w) a) as Ca. pose proof (load_chunk 8 j (mem w) b) as Cb.
      replace (8 * (Z.of_nat (S j) - 1)) with (8 * Z.of_nat j) by lia.
      change (Z.of_nat 8) with 8 in Ca, Cb.
      set (x := load 8 (mem w) (a + 8 * Z.of_nat j)) in *.
      set (y := load 8 (mem w) (b + 8 * Z.of_nat j)) in *.
      pose proof (load_range (8 * j) (mem w) a) as Ra. pose proof (load_range (8 * j) (mem w) b) as Rb.
      replace (Z.of_nat (8 * j)) with (8 * Z.of_nat j) in Ra, Rb by lia.
      pose proof (pow256_pos (8 * Z.of_nat j) ltac:(lia)) as Pp.
      set (P := 256 ^ (8 * Z.of_nat j)) in *.
      ws1. ws1. eapply wp_bin; [reflexivity|]. rewrite !sgn32_pos by lia. ws1; [lia|].
      ws1. wc. ws1. ws1. ws1. ws1. ws1. fold x. ws1. ws1. ws1. ws1. fold y. ws1.
      ws1. ws1. ws1.
      * (* x < y *)
        ws. split; [|reflexivity]. rewrite C0. rewrite Ta, Tb, Hz, Ca, Cb.
        replace (_ <? _) with true by nia. reflexivity.
      * ws1. ws1. ws1. ws1.
        -- ws. exists j. split; [lia|]. exists j, x, y, 0. repeat (split; [try lia; try reflexivity|]).
           ++ rewrite C0. leq.
           ++ replace (8 * (N - j))%nat with (8 + 8 * (N - S j))%nat by lia. rewrite !load_split.
              fold x y. replace (a + 8 * Z.of_nat j + Z.of_nat 8) with (a + 8 * Z.of_nat (S j)) by lia.
              replace (b + 8 * Z.of_nat j + Z.of_nat 8) with (b + 8 * Z.of_nat (S j)) by lia.
              rewrite Hz. f_equal. lia.
        -- ws. split; [|reflexivity]. rewrite Ta, Tb, Hz, Ca, Cb.
           replace (_ <? _) with false by nia. reflexivity.
Qed.

(** ** Heap addition and subtraction *)

Definition M64 : Z := 18446744073709551616.

Lemma pow_chunk : forall j, 256 ^ (8 * Z.of_nat (S j)) = 256 ^ (8 * Z.of_nat j) * 18446744073709551616.
Proof.
  intros. replace (8 * Z.of_nat (S j)) with (8 * Z.of_nat j + 8) by lia.
  rewrite Z.pow_add_r by lia. reflexivity.
Qed.

(** One step of multi-word addition. *)
Lemma add_step : forall x y c, 0 <= x < M64 -> 0 <= y < M64 -> 0 <= c <= 1 ->
  let s := w64 (w64 (x + y) + c) in
  let c' := Z.land (Z.lor (Z.land (b2z (negb (x =? 0))) (b2z (negb (y =? 0)))) (b2z (negb (c =? 0))))
                   (Z.lor (b2z (s <=? x)) (b2z (s <=? y))) in
  s + M64 * c' = x + y + c /\ 0 <= s < M64 /\ 0 <= c' <= 1.
Proof.
  intros. subst s c'. rewrite !b2z_and, !b2z_or, b2z_and.
  set (s := w64 (w64 (x + y) + c)).
  assert (s = x + y + c \/ s = x + y + c - M64) as E.
  { unfold s, w64. rewrite Zplus_mod_idemp_l. unfold M64 in *.
    pose proof (Z.mod_pos_bound (x + y + c) 18446744073709551616).
    pose proof (Z.div_mod (x + y + c) 18446744073709551616).
    assert (0 <= (x + y + c) / 18446744073709551616 < 2) by (split; [apply Z.div_pos|apply Z.div_lt_upper_bound]; lia).
    nia. }
  pose proof (w64_range (w64 (x + y) + c)) as R. fold s in R. clearbody s. unfold M64 in *.
  destruct (x =? 0) eqn:?, (y =? 0) eqn:?, (c =? 0) eqn:?, (s <=? x) eqn:?, (s <=? y) eqn:?; cbn [negb andb orb b2z]; lia.
Qed.

Lemma heap_add_spec0 : forall N ep w a b p, wok w -> errtab_ok ep ->
  live w a (Z.of_nat (8 * N)) -> live w b (Z.of_nat (8 * N)) -> live w p (Z.of_nat (8 * N)) ->
  same_or_apart p a (Z.of_nat (8 * N)) -> same_or_apart p b (Z.of_nat (8 * N)) ->
  wpf (heap_integers_add ep) [a; b; p; Z.of_nat (8 * N)] w (resq (fun vs w' =>
    let s := load (8 * N) (mem w) a + load (8 * N) (mem w) b in
    exists w1, frame w w1 (within p (Z.of_nat (8 * N))) /\
      ((s < 256 ^ Z.of_nat (8 * N) /\ vs = [p] /\ w' = w1 /\ load (8 * N) (mem w1) p = s) \/
       (256 ^ Z.of_nat (8 * N) <= s /\ vs = [BADF00D] /\ aborted ep Overflow w1 w'))) False).
Proof.
  intros N ep w a b p Hw He La Lb Lp Aa Ab.
  apply wpf_intro; [reflexivity|]; wc.
  pose proof Hw as (P1&P2&P3&P4&P5&P6). unfold live, same_or_apart in *.
  ws1. ws1. ws1. ws1. ws1.
  eapply (wp_loop (fun k l w' => exists j c s0 x0 y0 m, (j <= N)%nat /\ k = (N - j)%nat /\ 0 <= c <= 1 /\
     l = [a; b; p; Z.of_nat (8 * N); 8 * Z.of_nat j; c; s0; x0; y0; 0] /\ w' = set_mem w m /\
     (forall x, ~ within p (8 * Z.of_nat j) x -> rd m x = rd (mem w) x) /\
     load (8 * j) m p + 256 ^ (8 * Z.of_nat j) * c = load (8 * j) (mem w) a + load (8 * j) (mem w) b))
     with (k := N).
  - exists 0%nat, 0, 0, 0, 0, (mem w). repeat (split; [first [lia|reflexivity|auto]|]).
    + destruct w; reflexivity.
    + split; auto.
  - intros k l w' (j&c&s0&x0&y0&m&Hj&->&Hc&->&->&Hm&Hs).
    ws1. ws1. ws1. ws1.
    + (* done *)
      assert (j = N) by lia. subst j.
      replace (8 * Z.of_nat N) with (Z.of_nat (8 * N)) in * by lia.
      pose proof (load_range (8 * N) m p).
      assert (F : frame w (set_mem w m) (within p (Z.of_nat (8 * N)))) by (apply frame_set_mem; auto).
      ws1. ws1. ws1. ws1.
      * werr. { eapply wok_frame; [exact Hw|exact F|]. unfold within; lia. }
        exists (set_mem w m). split; [exact F|]. right. split; [nia|]. split; [reflexivity|].
        apply aborted_store; auto.
      * ws. exists (set_mem w m). split; [exact F|]. left.
        assert (c = 0) by lia. subst c. repeat (split; [first [reflexivity|lia]|]). cbn [mem set_mem]. lia.
    + assert (j < N)%nat by lia.
      assert (Hx : load 8 m (a + 8 * Z.of_nat j) = load 8 (mem w) (a + 8 * Z.of_nat j)).
      { apply load_ext. intros. apply Hm. unfold within. lia. }
      assert (Hy : load 8 m (b + 8 * Z.of_nat j) = load 8 (mem w) (b + 8 * Z.of_nat j)).
      { apply load_ext. intros. apply Hm. unfold within. lia. }
      pose proof (load_chunk 8 j (mem w) a) as Ca. pose proof (load_chunk 8 j (mem w) b) as Cb.
      change (Z.of_nat 8) with 8 in Ca, Cb.
      pose proof (load_8_range (mem w) (a + 8 * Z.of_nat j)) as Rx.
      pose proof (load_8_range (mem w) (b + 8 * Z.of_nat j)) as Ry.
      ws1. ws1. ws1. ws1. 
      rewrite Hx. ws1. ws1. ws1. ws1. ws1. rewrite Hy. ws1.
      set (x := load 8 (mem w) (a + 8 * Z.of_nat j)) in *.
      set (y := load 8 (mem w) (b + 8 * Z.of_nat j)) in *.
      pose proof (add_step x y c Rx Ry Hc) as AS. cbv zeta in AS.
      eapply wp_bin; [reflexivity|]. cbn [wrapt].
      ws1. ws1. cbn [unop]. eapply wp_bin; [reflexivity|]. cbn [wrapt].
      set (s := w64 (w64 (x + y) + c)) in *. clearbody s.
      ws1. ws1. ws1. ws1. ws1. ws1.
      do 25 ws1.
      match type of AS with s + M64 * ?e = _ /\ _ => set (c' := e) in * end.
      clearbody c'. ws.
      destruct AS as (AS1&AS2&AS3).
      exists (N - S j)%nat. split; [lia|].
      exists (S j), c', s, x, y, (store 8 m (p + 8 * Z.of_nat j) s).
      split; [lia|]. split; [reflexivity|]. split; [exact AS3|]. split; [leq|].
      split; [reflexivity|]. split.
      { intros z Hz. unfold within in *. rewrite rd_store_out by lia. apply Hm. lia. }
      rewrite load_chunk. change (Z.of_nat 8) with 8. rewrite load_8_store, w64_small by exact AS2.
      rewrite load_store_other by lia. rewrite Ca, Cb, pow_chunk. unfold M64 in AS1. fold x y.
      set (P := 256 ^ (8 * Z.of_nat j)) in *. clearbody P. clearbody x y. nia.
Qed.

Lemma heap_add_spec : forall N ep w a b p, wok w -> errtab_ok ep ->
  live w a (Z.of_nat (8 * N)) -> live w b (Z.of_nat (8 * N)) -> live w p (Z.of_nat (8 * N)) -> 468 <= p ->
  same_or_apart p a (Z.of_nat (8 * N)) -> same_or_apart p b (Z.of_nat (8 * N)) ->
  wpf (heap_integers_add ep) [a; b; p; Z.of_nat (8 * N)] w (resq (fun vs w' =>
    let s := load (8 * N) (mem w) a + load (8 * N) (mem w) b in
    exists w1, frame w w1 (within p (Z.of_nat (8 * N))) /\
      ((s < 256 ^ Z.of_nat (8 * N) /\ vs = [p] /\ w' = w1 /\ load (8 * N) (mem w1) p = s) \/
       (256 ^ Z.of_nat (8 * N) <= s /\ vs = [BADF00D] /\ aborted ep Overflow w1 w'))) False).
Proof. intros. apply heap_add_spec0; assumption. Qed.

(** One step of multi-word subtraction. *)
Lemma sub_step : forall x y c, 0 <= x < M64 -> 0 <= y < M64 -> 0 <= c <= 1 ->
  let s := w64 (w64 (x - c) - y) in
  let t := w64 (y + c) in
  let c' := Z.lor (b2z (x <? t)) (b2z (t <? y)) in
  s - M64 * c' = x - y - c /\ 0 <= s < M64 /\ 0 <= c' <= 1.
Proof.
  intros. subst c'. rewrite b2z_or.
  assert (s = x - y - c \/ s = x - y - c + M64) as E.
  { unfold s, w64. rewrite Zminus_mod_idemp_l. replace (x - c - y) with (x - y - c) by lia. unfold M64 in *.
    pose proof (Z.mod_pos_bound (x - y - c) 18446744073709551616).
    pose proof (Z.div_mod (x - y - c) 18446744073709551616).
    assert (-1 <= (x - y - c) / 18446744073709551616 < 1) by (split; [apply Z.div_le_lower_bound|apply Z.div_lt_upper_bound]; lia).
    nia. }
  assert (t = y + c \/ (y = M64 - 1 /\ c = 1 /\ t = 0)) as Et.
  { unfold t, M64 in *. destruct (w64_add_case y c ltac:(lia) ltac:(lia)) as [[? ->]|[? ->]]; lia. }
  pose proof (w64_range (w64 (x - c) - y)) as R. fold s in R. clearbody s t. unfold M64 in *.
  destruct (x <? t) eqn:?, (t <? y) eqn:?; cbn [orb b2z]; lia.
Qed.

Lemma heap_sub_spec : forall N ep w a b p, wok w -> errtab_ok ep ->
  live w a (Z.of_nat (8 * N)) -> live w b (Z.of_nat (8 * N)) -> live w p (Z.of_nat (8 * N)) -> 468 <= p ->
  same_or_apart p a (Z.of_nat (8 * N)) -> same_or_apart p b (Z.of_nat (8 * N)) ->
  wpf (heap_integers_sub ep) [a; b; p; Z.of_nat (8 * N)] w (resq (fun vs w' =>
    let s := load (8 * N) (mem w) a - load (8 * N) (mem w) b in
    exists w1, frame w w1 (within p (Z.of_nat (8 * N))) /\
      ((0 <= s /\ vs = [p] /\ w' = w1 /\ load (8 * N) (mem w1) p = s) \/
       (s < 0 /\ vs = [BADF00D] /\ aborted ep Overflow w1 w'))) False).
Proof.
  intros N ep w a b p Hw He La Lb Lp Hp Aa Ab.
  apply wpf_intro; [reflexivity|]; wc.
  pose proof Hw as (P1&P2&P3&P4&P5&P6). unfold live, same_or_apart in *.
  ws1. ws1. ws1. ws1. ws1.
  eapply (wp_loop (fun k l w' => exists j c t0 s0 x0 y0 m, (j <= N)%nat /\ k = (N - j)%nat /\ 0 <= c <= 1 /\
     l = [a; b; p; Z.of_nat (8 * N); 8 * Z.of_nat j; c; t0; s0; x0; y0; 0] /\ w' = set_mem w m /\
     (forall x, ~ within p (8 * Z.of_nat j) x -> rd m x = rd (mem w) x) /\
     load (8 * j) m p - 256 ^ (8 * Z.of_nat j) * c = load (8 * j) (mem w) a - load (8 * j) (mem w) b))
     with (k := N).
  - exists 0%nat, 0, 0, 0, 0, 0, (mem w). repeat (split; [first [lia|reflexivity|auto]|]).
    + destruct w; reflexivity.
    + split; auto.
  - intros k l w' (j&c&t0&s0&x0&y0&m&Hj&->&Hc&->&->&Hm&Hs).
    ws1. ws1. ws1. ws1.
    + (* done *)
      assert (j = N) by lia. subst j.
      replace (8 * Z.of_nat N) with (Z.of_nat (8 * N)) in * by lia.
      pose proof (load_range (8 * N) m p).
      assert (F : frame w (set_mem w m) (within p (Z.of_nat (8 * N)))) by (apply frame_set_mem; auto).
      ws1. ws1. ws1. ws1.
      * werr. { eapply wok_frame; [exact Hw|exact F|]. unfold within; lia. }
        exists (set_mem w m). split; [exact F|]. right. split; [nia|]. split; [reflexivity|].
        apply aborted_store; auto.
      * ws. exists (set_mem w m). split; [exact F|]. left.
        assert (c = 0) by lia. subst c. repeat (split; [first [reflexivity|lia]|]). cbn [mem set_mem]. lia.
    + assert (j < N)%nat by lia.
      assert (Hx : load 8 m (a + 8 * Z.of_nat j) = load 8 (mem w) (a + 8 * Z.of_nat j)).
      { apply load_ext. intros. apply Hm. unfold within. lia. }
      assert (Hy : load 8 m (b + 8 * Z.of_nat j) = load 8 (mem w) (b + 8 * Z.of_nat j)).
      { apply load_ext. intros. apply Hm. unfold within. lia. }
      pose proof (load_chunk 8 j (mem w) a) as Ca. pose proof (load_chunk 8 j (mem w) b) as Cb.
      change (Z.of_nat 8) with 8 in Ca, Cb.
      pose proof (load_8_range (mem w) (a + 8 * Z.of_nat j)) as Rx.
      pose proof (load_8_range (mem w) (b + 8 * Z.of_nat j)) as Ry.
      ws1. ws1. ws1. ws1. rewrite Hx. ws1. ws1. ws1. ws1. ws1. rewrite Hy. ws1.
      set (x := load 8 (mem w) (a + 8 * Z.of_nat j)) in *.
      set (y := load 8 (mem w) (b + 8 * Z.of_nat j)) in *.
      pose proof (sub_step x y c Rx Ry Hc) as AS. cbv zeta in AS.
      ws1. ws1. eapply wp_bin; [reflexivity|]. cbn [wrapt].
      ws1. eapply wp_bin; [reflexivity|]. cbn [wrapt].
      set (s := w64 (w64 (x - c) - y)) in *. clearbody s.
      ws1. ws1. ws1. ws1. ws1. ws1. ws1. ws1. ws1.
      eapply wp_bin; [reflexivity|]. cbn [wrapt].
      set (t := w64 (y + c)) in *. clearbody t.
      do 10 ws1. match type of AS with s - M64 * ?e = _ /\ _ => set (c' := e) in * end.
      clearbody c'. ws.
      destruct AS as (AS1&AS2&AS3).
      exists (N - S j)%nat. split; [lia|].
      exists (S j), c', t, s, x, y, (store 8 m (p + 8 * Z.of_nat j) s).
      split; [lia|]. split; [reflexivity|]. split; [exact AS3|]. split; [leq|].
      split; [reflexivity|]. split.
      { intros z Hz. unfold within in *. rewrite rd_store_out by lia. apply Hm. lia. }
      rewrite load_chunk. change (Z.of_nat 8) with 8. rewrite load_8_store, w64_small by exact AS2.
      rewrite load_store_other by lia. rewrite Ca, Cb, pow_chunk. unfold M64 in AS1. fold x y.
      set (P := 256 ^ (8 * Z.of_nat j)) in *. clearbody P. clearbody x y. nia.
Qed.
