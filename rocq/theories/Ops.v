(** * Integer instructions as the compiler emits them
    (translation/intermediate_types/simple_integers.rs, heap_integers.rs, translation.rs). *)

From Verif Require Import SpecInt Tac RtAlloc RtErr RtInt RtInt2 RtEq RtMul RtDiv RtShift.
Ltac Zify.zify_post_hook ::= idtac.

(** wasm_builder_extensions.rs 300-321 [call_runtime_function] for a fallible function; [rt] tells
    whether the enclosing Move function returns a value. *)
Definition call_rt (rt : bool) (f : func) : list instr := Call f :: propagate rt.

(** The value type of the simple types. *)
Definition vty (t : ity) : vt := match t with U64 => I64 | _ => I32 end.
(** [MAX_VALUE] of IU8 and IU16. *)
Definition max_small (t : ity) : Z := match t with U8 => 255 | _ => 65535 end.

(** heap_integers.rs 13-66 [compare_heap_integers_bitwise]; [k] is the first fresh local:
    k num_1, k+1 num_2, k+2 pointer. *)
Fixpoint heap_bitwise_words (op : bop) (k : nat) (i n : nat) : list instr :=
  match n with
  | O => []
  | S n' =>
    [ LocalGet (k + 2); LocalGet k; Load 8 (8 * Z.of_nat i); LocalGet (k + 1); Load 8 (8 * Z.of_nat i);
      Bin I64 op; Store 8 (8 * Z.of_nat i) ] ++ heap_bitwise_words op k (S i) n'
  end.
Definition emit_heap_bitwise (op : bop) (k : nat) (t : ity) : list instr :=
  [ LocalSet (k + 1); LocalSet k; Const (heap_size t); Call alloc; LocalSet (k + 2) ]
  ++ heap_bitwise_words op k 0 (hw t) ++ [ LocalGet (k + 2) ].

Definition word_op (op : aop) : bop :=
  match op with MBitOr => Or | MBitAnd => And | MXor => Xor | MDiv => DivU | MMod => RemU | MAdd => Wasm.Add | MSub => Wasm.Sub | MMul => Wasm.Mul end.

(** translation.rs 2008-2227, 2457-2493, 2544-2605, 2658-2688; simple_integers.rs (add 38-61,
    sub 66-82, div 87-89, remainder 94-96, mul 103-126 and their copies for the other types);
    heap_integers.rs 277-440, 641-801.  Both operands are on the stack. *)
Definition emit_arith (ep : errtab) (rt : bool) (k : nat) (op : aop) (t : ity) : list instr :=
  match op, t with
  | MAdd, (U8 | U16) => [ Bin I32 Wasm.Add; Const (max_small t) ] ++ call_rt rt (check_overflow_u8_u16 ep)
  | MAdd, U32 => call_rt rt (add_u32 ep)
  | MAdd, U64 => call_rt rt (add_u64 ep)
  | MAdd, (U128 | U256) =>
      [ Const (heap_size t); Call alloc; Const (heap_size t) ] ++ call_rt rt (heap_integers_add ep)
  | MSub, (U8 | U16 | U32) => call_rt rt (sub_u32 ep)
  | MSub, U64 => call_rt rt (sub_u64 ep)
  | MSub, (U128 | U256) =>
      [ Const (heap_size t); Call alloc; Const (heap_size t) ] ++ call_rt rt (heap_integers_sub ep)
  | MMul, (U8 | U16) => [ Bin I32 Wasm.Mul; Const (max_small t) ] ++ call_rt rt (check_overflow_u8_u16 ep)
  | MMul, U32 => call_rt rt (mul_u32 ep)
  | MMul, U64 => call_rt rt (mul_u64 ep)
  | MMul, (U128 | U256) => [ Const (heap_size t) ] ++ call_rt rt (heap_integers_mul ep)
  | MDiv, (U128 | U256) => [ Const (width t); Const 1 ] ++ call_rt rt (heap_integers_div_mod ep)
  | MMod, (U128 | U256) => [ Const (width t); Const 0 ] ++ call_rt rt (heap_integers_div_mod ep)
  | (MBitOr | MBitAnd | MXor), (U128 | U256) => emit_heap_bitwise (word_op op) k t
  | _, _ => [ Bin (vty t) (word_op op) ]
  end.

(** wasm_builder_extensions.rs 162-170. *)
Definition negate : list instr := [ Const 1; Bin I32 Ne ].
Definition swap_top (a b : nat) : list instr := [ LocalSet a; LocalSet b; LocalGet a; LocalGet b ].

Definition simple_cop (op : cop) : bop :=
  match op with MLt => LtU | MLe => LeU | MGt => GtU | MGe => GeU | MEq | MNeq => Wasm.Eq end.

(** translation.rs 2228-2456 (Lt, Le, Gt, Ge), 2494-2526 (Eq, Neq),
    intermediate_types.rs 790-806 and 935-945. *)
Definition emit_cmp (k : nat) (op : cop) (t : ity) : list instr :=
  if is_heap t then
    match op with
    | MLt => [ Const (heap_size t); Call less_than ]
    | MLe => swap_top k (k + 1) ++ [ Const (heap_size t); Call less_than ] ++ negate
    | MGt => swap_top k (k + 1) ++ [ Const (heap_size t); Call less_than ]
    | MGe => [ Const (heap_size t); Call less_than ] ++ negate
    | MEq => [ Const (heap_size t); Call a_equals_b ]
    | MNeq => [ Const (heap_size t); Call a_equals_b ] ++ negate
    end
  else [ Bin (vty t) (simple_cop op) ] ++ (match op with MNeq => negate | _ => [] end).

(** translation.rs 2689-2794; simple_integers.rs 187-237, 413-463, 613-661, 798-847;
    heap_integers.rs 303-345, 666-708. *)
Definition emit_shift (ep : errtab) (rt : bool) (op : sop) (t : ity) : list instr :=
  if is_heap t then
    [ Const (heap_size t) ] ++ call_rt rt (match op with MShl => heap_int_shift_left ep | MShr => heap_int_shift_right ep end)
  else
    [ Const (width t - 1) ] ++ call_rt rt (check_overflow_u8_u16 ep)
    ++ (match t with U64 => [ Un ExtendU ] | _ => [] end)
    ++ [ Bin (vty t) (match op with MShl => Shl | MShr => ShrU end) ]
    ++ (match op, t with MShl, U8 => [ Const 255; Bin I32 And ] | MShl, U16 => [ Const 65535; Bin I32 And ] | _, _ => [] end).

(** Casts to the simple types: simple_integers.rs 128-185, 352-411, 558-611, 754-796. *)
Definition emit_cast_simple (ep : errtab) (rt : bool) (from to : ity) : list instr :=
  match to, from with
  | U8, (U8 | U16 | U32) => [ Const 255 ] ++ call_rt rt (check_overflow_u8_u16 ep)
  | U8, U64 => [ Un Wrap64; Const 255 ] ++ call_rt rt (check_overflow_u8_u16 ep)
  | U8, (U128 | U256) => [ Const (heap_size from) ] ++ call_rt rt (downcast_u128_u256_to_u32 ep)
                         ++ [ Const 255 ] ++ call_rt rt (check_overflow_u8_u16 ep)
  | U16, (U8 | U16) => []
  | U16, U32 => [ Const 65535 ] ++ call_rt rt (check_overflow_u8_u16 ep)
  | U16, U64 => [ Un Wrap64; Const 65535 ] ++ call_rt rt (check_overflow_u8_u16 ep)
  | U16, (U128 | U256) => [ Const (heap_size from) ] ++ call_rt rt (downcast_u128_u256_to_u32 ep)
                         ++ [ Const 65535 ] ++ call_rt rt (check_overflow_u8_u16 ep)
  | U32, (U8 | U16 | U32) => []
  | U32, U64 => call_rt rt (downcast_u64_to_u32 ep)
  | U32, (U128 | U256) => [ Const (heap_size from) ] ++ call_rt rt (downcast_u128_u256_to_u32 ep)
  | U64, (U8 | U16 | U32) => [ Un ExtendU ]
  | U64, (U128 | U256) => [ Const (heap_size from) ] ++ call_rt rt (downcast_u128_u256_to_u64 ep)
  | _, _ => []
  end.

(** heap_integers.rs 221-240 and 611-630: copy the two low words. *)
Definition copy_two_words (dst src : nat) : list instr :=
  [ LocalGet dst; LocalGet src; Load 8 0; Store 8 0; LocalGet dst; LocalGet src; Load 8 8; Store 8 8 ].

(** Casts to u128 and u256: heap_integers.rs 158-275, 550-639.  Fresh locals: k value or
    original_pointer, k+1 pointer, k+2 and k+3 the error pointers. *)
Definition emit_cast_heap (ep : errtab) (rt : bool) (k : nat) (from to : ity) : list instr :=
  match from, to with
  | (U8 | U16 | U32), _ =>
      [ LocalSet k; Const (heap_size to); Call alloc; LocalTee (k + 1); LocalGet k; Store 4 0; LocalGet (k + 1) ]
  | U64, _ =>
      [ LocalSet k; Const (heap_size to); Call alloc; LocalTee (k + 1); LocalGet k; Store 8 0; LocalGet (k + 1) ]
  | U256, U128 =>
      [ LocalSet k; Const 16; Call alloc; LocalSet (k + 1) ] ++ copy_two_words (k + 1) k ++
      [ Block "b0" 0 ([ LocalGet (k + 1); Load 8 16; Un Eqz; BrIf "b0" ] ++ return_error ep Overflow (k + 2) rt);
        Block "b1" 0 ([ LocalGet (k + 1); Load 8 24; Un Eqz; BrIf "b1" ] ++ return_error ep Overflow (k + 3) rt);
        LocalGet (k + 1) ]
  | U128, U256 =>
      [ LocalSet k; Const 32; Call alloc; LocalSet (k + 1) ] ++ copy_two_words (k + 1) k ++ [ LocalGet (k + 1) ]
  | _, _ => []
  end.

(** translation.rs 1944-2007. *)
Definition emit_cast (ep : errtab) (rt : bool) (k : nat) (from to : ity) : list instr :=
  if is_heap to then emit_cast_heap ep rt k from to else emit_cast_simple ep rt from to.

(** ** What Move prescribes *)

Inductive mres := MOk (z : Z) | MAbort (e : rt_error) | MTrap.

Definition move_arith (op : aop) (t : ity) (a b : Z) : mres :=
  match op with
  | MAdd => if a + b <? 2 ^ width t then MOk (a + b) else MAbort Overflow
  | MSub => if b <=? a then MOk (a - b) else MAbort Overflow
  | MMul => if a * b <? 2 ^ width t then MOk (a * b) else MAbort Overflow
  | MDiv => if b =? 0 then MTrap else MOk (a / b)
  | MMod => if b =? 0 then MTrap else MOk (a mod b)
  | MBitOr => MOk (Z.lor a b)
  | MBitAnd => MOk (Z.land a b)
  | MXor => MOk (Z.lxor a b)
  end.

Definition move_shift (op : sop) (t : ity) (a s : Z) : mres :=
  if s <? width t then MOk (match op with MShl => (a * 2 ^ s) mod 2 ^ width t | MShr => a / 2 ^ s end)
  else MAbort Overflow.

(** What the emitted code does: as Move says, except that an overflowing product of
    u128 or u256 may also be returned modulo 2^width. *)
Definition code_arith (op : aop) (t : ity) (a b : Z) (o : mres) : Prop :=
  o = move_arith op t a b \/
  (op = MMul /\ is_heap t = true /\ 2 ^ width t <= a * b /\ o = MOk ((a * b) mod 2 ^ width t)).

(** ** Locals *)

(** [l'] is [l] except for the compiler temporaries, numbered [k] and up. *)
Definition same_below (k : nat) (l l' : list Z) : Prop :=
  List.length l' = List.length l /\ forall i, (i < k)%nat -> nth_error l' i = nth_error l i.

Lemma same_below_refl : forall k l, same_below k l l.
Proof. split; auto. Qed.
Lemma same_below_trans : forall k a b c, same_below k a b -> same_below k b c -> same_below k a c.
Proof. intros k a b c [A1 A2] [B1 B2]. split; [congruence|]. intros. rewrite B2, A2; auto. Qed.

Lemma set_nth_length : forall i v l, List.length (set_nth i v l) = List.length l.
Proof. induction i; destruct l; cbn; auto. Qed.
Lemma set_nth_same : forall i v l, (i < List.length l)%nat -> nth_error (set_nth i v l) i = Some v.
Proof. induction i; destruct l; cbn; intros; try lia; auto. apply IHi. lia. Qed.
Lemma set_nth_other : forall i j v l, i <> j -> nth_error (set_nth i v l) j = nth_error l j.
Proof. induction i; destruct l, j; cbn; intros; auto; try lia. Qed.
Lemma same_below_set : forall k i v l, (k <= i)%nat -> same_below k l (set_nth i v l).
Proof.
  split; [apply set_nth_length|]. intros. apply set_nth_other. lia.
Qed.
Lemma nth_error_some : forall i (l : list Z), (i < List.length l)%nat -> exists u, nth_error l i = Some u.
Proof. intros i l H. destruct (nth_error l i) eqn:E; eauto. apply nth_error_None in E. lia. Qed.

Lemma wp_lset' : forall k r (Q : outcome -> Prop) v s l w, (k < List.length l)%nat ->
  wp r Q s (set_nth k v l) w -> wp (LocalSet k :: r) Q (v :: s) l w.
Proof. intros. destruct (nth_error_some k l H) as [u E]. eapply wp_lset; eauto. Qed.
Lemma wp_ltee' : forall k r (Q : outcome -> Prop) v s l w, (k < List.length l)%nat ->
  wp r Q (v :: s) (set_nth k v l) w -> wp (LocalTee k :: r) Q (v :: s) l w.
Proof. intros. destruct (nth_error_some k l H) as [u E]. eapply wp_ltee; eauto. Qed.

(** ** Representation *)

Lemma repr_extends : forall w w' t v z, repr w t v z -> extends w w' -> repr w' t v z.
Proof.
  intros w w' t v z [R H] E. split; [exact R|]. destruct (is_heap t) eqn:Ht; [|exact H].
  destruct H as [L V]. split; [eapply live_extends; eassumption|].
  rewrite <- V. eapply load_extends; [exact E|]. destruct t; try discriminate; exact L.
Qed.

Lemma heap_size_hw : forall t, is_heap t = true -> heap_size t = Z.of_nat (8 * hw t).
Proof. destruct t; try discriminate; reflexivity. Qed.
Lemma width_hw : forall t, is_heap t = true -> width t = 64 * Z.of_nat (hw t).
Proof. destruct t; try discriminate; reflexivity. Qed.
Lemma pow_hw : forall t, is_heap t = true -> 256 ^ Z.of_nat (8 * hw t) = 2 ^ width t.
Proof. destruct t; try discriminate; reflexivity. Qed.

Lemma extends_frame : forall w w1 w2 n, wok w -> allocated w w1 n -> 0 <= n ->
  frame w1 w2 (within (gnext w) n) ->
  extends w w2 /\ wok w2 /\ (abort_flag w = 0 -> abort_flag w2 = 0) /\ gnext w2 = gnext w + n.
Proof.
  intros w w1 w2 n Hw Al Hn F. destruct (frame_set _ _ _ F) as [E U].
  pose proof Al as (B1&B2&B3&B4&B5&B6).
  destruct (extends_upd w w1 n (mem w2) Hw Al Hn) as (X1&X2&X3).
  { intros x Hx. rewrite U by exact Hx. rewrite B2. reflexivity. }
  rewrite <- E in *. repeat split; auto; try (apply X1). destruct F as (F1&F2&F3&_). congruence.
Qed.

(** ** Execution rules *)

(** Allocating instructions return a new object. *)
Definition fresh (w : world) (n v : Z) : Prop := n = 0 \/ gnext w <= v.
Local Hint Extern 1 (fresh _ _ _) => (unfold fresh; cbn [gnext set_mem]; first [left; reflexivity | left; lia | right; lia]) : core.

(** What follows an instruction with result [o], started in [w]: it may have allocated up to [n]
    bytes and used the temporaries from [k] on. *)
Definition after (ep : errtab) (rt : bool) (k : nat) (n : Z) (t : ity) (r : list instr)
  (Q : outcome -> Prop) (s l : list Z) (w : world) (o : mres) : Prop :=
  match o with
  | MOk z => forall v w' l', extends w w' -> abort_flag w' = 0 -> gnext w' <= gnext w + n ->
      repr w' t v z -> same_below k l l' -> fresh w n v -> wp r Q (v :: s) l' w'
  | MAbort e => forall w1 w' l', extends w w1 -> aborted ep e w1 w' ->
      Q (ORet (if rt then [BADF00D] else []) l' w')
  | MTrap => Q OTrap
  end.

Lemma wp_call_rt : forall f np nl nr b (rt : bool) r (Q : outcome -> Prop) s l w P (T : Prop),
  f = Func np nl nr b -> (np <= List.length s)%nat ->
  wpf f (rev (firstn np s)) w (resq P T) -> (T -> Q OTrap) ->
  (forall vs w', P vs w' ->
     (exists v, vs = [v] /\ wok w' /\ abort_flag w' = 0 /\ wp r Q (v :: skipn np s) l w') \/
     (wok w' /\ abort_flag w' <> 0 /\ Q (ORet (if rt then [BADF00D] else []) l w'))) ->
  wp (call_rt rt f ++ r) Q s l w.
Proof.
  intros f np nl nr b rt r Q s l w P T Hf Hn Hc HT HP. unfold call_rt. cbn [app].
  eapply wp_call_spec; [exact Hf|exact Hn|exact Hc|exact HT|].
  intros vs w' H. destruct (HP vs w' H) as [(v&->&H1&H2&H3)|(H1&H2&H3)].
  - apply wp_propagate_ok; auto.
  - apply wp_propagate_err; auto.
Qed.

Lemma extends_wok : forall w w', extends w w' -> wok w'.
Proof. intros w w' (H&_). exact H. Qed.

(** Simple operations that check one condition. *)
Lemma wp_checked_after : forall ep f np nl nr b rt k n t r Q s l w (ok : Prop) v e o,
  f = Func np nl nr b -> (np <= List.length s)%nat ->
  wok w -> errtab_ok ep -> abort_flag w = 0 -> n = 0 ->
  checked ep f (rev (firstn np s)) w ok v e -> ok \/ ~ ok ->
  (ok -> o = MOk v /\ repr w t v v) -> (~ ok -> o = MAbort e) ->
  after ep rt k n t r Q (skipn np s) l w o ->
  wp (call_rt rt f ++ r) Q s l w.
Proof.
  intros ep f np nl nr b rt k n t r Q s l w ok v e o Hf Hn Hw He H0 Hnn Hc Hd K1 K2 A.
  unfold call_rt. cbn [app]. eapply wp_call_checked; [exact Hf|exact Hn|exact Hw|exact He|exact H0|exact Hc|exact Hd| |].
  - intros Ok. destruct (K1 Ok) as [-> R]. apply A; auto; [apply extends_refl; exact Hw|lia|apply same_below_refl].
  - intros w' N Ab. rewrite (K2 N) in A. eapply A; [apply extends_refl; exact Hw|exact Ab].
Qed.

Lemma after_pure : forall ep rt k n t r Q s l w v, wok w -> abort_flag w = 0 -> n = 0 ->
  repr w t v v -> after ep rt k n t r Q s l w (MOk v) -> wp r Q (v :: s) l w.
Proof.
  intros ep rt k n t r Q s l w v Hw H0 Hn R A. apply A; auto; [apply extends_refl; exact Hw|lia|apply same_below_refl].
Qed.

Lemma repr_simple : forall w t v z, is_heap t = false -> (repr w t v z <-> v = z /\ 0 <= z < 2 ^ width t).
Proof. intros w t v z H. unfold repr. rewrite H. tauto. Qed.

Definition cost_arith (op : aop) (t : ity) : Z :=
  if is_heap t then match op with MDiv | MMod => 2 * heap_size t | _ => heap_size t end else 0.

Lemma lor_lt : forall a b n, 0 <= n -> 0 <= a < 2 ^ n -> 0 <= b < 2 ^ n -> 0 <= Z.lor a b < 2 ^ n.
Proof.
  intros a b n Hn [A0 A1] [B0 B1]. split; [apply Z.lor_nonneg; auto|].
  destruct (Z.eq_dec (Z.lor a b) 0) as [E|E]; [rewrite E; apply Z.pow_pos_nonneg; lia|].
  assert (0 <= Z.lor a b) by (apply Z.lor_nonneg; auto). apply Z.log2_lt_pow2; [lia|].
  rewrite Z.log2_lor by auto. apply Z.max_lub_lt.
  - destruct (Z.eq_dec a 0); [subst; cbn; destruct (Z.eq_dec n 0); [subst; cbn in *; assert (b = 0) by lia; subst; cbn in E; lia|lia]|].
    apply Z.log2_lt_pow2; lia.
  - destruct (Z.eq_dec b 0); [subst; cbn; destruct (Z.eq_dec n 0); [subst; cbn in *; assert (a = 0) by lia; subst; cbn in E; lia|lia]|].
    apply Z.log2_lt_pow2; lia.
Qed.
Lemma land_lt : forall a b n, 0 <= a < 2 ^ n -> 0 <= b -> 0 <= Z.land a b < 2 ^ n.
Proof.
  intros a b n [A0 A1] B0. split; [apply Z.land_nonneg; auto|].
  apply Z.le_lt_trans with a; [|exact A1].
  assert (E : a = Z.land a b + Z.ldiff a b).
  { rewrite Z.add_nocarry_lxor.
    - apply Z.bits_inj'. intros i Hi. rewrite Z.lxor_spec, Z.land_spec, Z.ldiff_spec.
      destruct (Z.testbit a i), (Z.testbit b i); reflexivity.
    - apply Z.bits_inj'. intros i Hi. rewrite Z.land_spec, Z.land_spec, Z.ldiff_spec, Z.bits_0.
      destruct (Z.testbit a i), (Z.testbit b i); reflexivity. }
  assert (0 <= Z.ldiff a b) by (apply Z.ldiff_nonneg; left; lia). lia.
Qed.
Lemma lxor_lt : forall a b n, 0 <= n -> 0 <= a < 2 ^ n -> 0 <= b < 2 ^ n -> 0 <= Z.lxor a b < 2 ^ n.
Proof.
  intros a b n Hn HA HB. pose proof (lor_lt a b n Hn HA HB) as [L0 L1].
  split; [apply Z.lxor_nonneg; lia|]. apply Z.le_lt_trans with (Z.lor a b); [|exact L1].
  assert (E : Z.lor a b = Z.lxor a b + Z.land a b).
  { rewrite Z.add_nocarry_lxor.
    - apply Z.bits_inj'. intros i Hi. rewrite !Z.lxor_spec, Z.land_spec, Z.lor_spec.
      destruct (Z.testbit a i), (Z.testbit b i); reflexivity.
    - apply Z.bits_inj'. intros i Hi. rewrite !Z.land_spec, Z.lxor_spec, Z.bits_0.
      destruct (Z.testbit a i), (Z.testbit b i); reflexivity. }
  assert (0 <= Z.land a b) by (apply Z.land_nonneg; lia). lia.
Qed.

Lemma wp_arith_simple : forall ep rt k op t r Q s l w a b,
  is_heap t = false -> wok w -> errtab_ok ep -> abort_flag w = 0 ->
  0 <= a < 2 ^ width t -> 0 <= b < 2 ^ width t ->
  after ep rt k (cost_arith op t) t r Q s l w (move_arith op t a b) ->
  wp (emit_arith ep rt k op t ++ r) Q (b :: a :: s) l w.
Proof.
  intros ep rt k op t r Q s l w a b Ht Hw He H0 Ha Hb A.
  assert (Hc : cost_arith op t = 0) by (unfold cost_arith; rewrite Ht; reflexivity). rewrite Hc in A.
  destruct op.
  - (* add *)
    destruct t; try discriminate; cbn [emit_arith width app max_small move_arith] in *.
    + ws1. ws1. eapply wp_checked_after with (s := [_; _] ++ s) (n := 0); [reflexivity|cbn; lia|exact Hw|exact He|exact H0|lia|apply check_overflow_spec; auto|lia| | |exact A].
      * intros Ok. split; [|split; [cbn; lia|reflexivity]]. replace (a + b <? 2 ^ 8) with true by lia. reflexivity.
      * intros N. replace (a + b <? 2 ^ 8) with false by lia. reflexivity.
    + ws1. ws1. eapply wp_checked_after with (s := [_; _] ++ s) (n := 0); [reflexivity|cbn; lia|exact Hw|exact He|exact H0|lia|apply check_overflow_spec; auto|lia| | |exact A].
      * intros Ok. split; [|split; [cbn; lia|reflexivity]]. replace (a + b <? 2 ^ 16) with true by lia. reflexivity.
      * intros N. replace (a + b <? 2 ^ 16) with false by lia. reflexivity.
    + eapply wp_checked_after with (s := [_; _] ++ s) (n := 0); [reflexivity|cbn; lia|exact Hw|exact He|exact H0|lia|apply add_u32_spec; auto|lia| | |exact A].
      * intros Ok. split; [|split; [cbn; lia|reflexivity]]. replace (a + b <? 2 ^ 32) with true by lia. reflexivity.
      * intros N. replace (a + b <? 2 ^ 32) with false by lia. reflexivity.
    + eapply wp_checked_after with (s := [_; _] ++ s) (n := 0); [reflexivity|cbn; lia|exact Hw|exact He|exact H0|lia|apply add_u64_spec; auto|lia| | |exact A].
      * intros Ok. split; [|split; [cbn; lia|reflexivity]]. replace (a + b <? 2 ^ 64) with true by lia. reflexivity.
      * intros N. replace (a + b <? 2 ^ 64) with false by lia. reflexivity.
  - (* sub *)
    assert (W : width t <= 64 /\ 0 <= width t) by (destruct t; cbn in *; try discriminate; lia).
    assert (W2 : 2 ^ width t <= 2 ^ 64) by (apply Z.pow_le_mono_r; lia).
    destruct t; try discriminate; cbn [emit_arith width app max_small move_arith] in *.
    1-3: eapply wp_checked_after with (s := [_; _] ++ s) (n := 0); [reflexivity|cbn; lia|exact Hw|exact He|exact H0|lia|apply sub_u32_spec; auto; cbn in *; lia|lia| | |exact A].
    7: eapply wp_checked_after with (s := [_; _] ++ s) (n := 0); [reflexivity|cbn; lia|exact Hw|exact He|exact H0|lia|apply sub_u64_spec; auto; cbn in *; lia|lia| | |exact A].
    all: intros N; [replace (b <=? a) with true by lia; split; [reflexivity|]; split; [cbn [width]; lia|reflexivity] || idtac].
    all: replace (b <=? a) with false by lia; reflexivity.
  - (* mul *)
    destruct t; try discriminate; cbn [emit_arith width app max_small move_arith] in *.
    + assert (0 <= a * b <= 255 * 255) by (cbn in *; nia). ws1. ws1.
      eapply wp_checked_after with (s := [_; _] ++ s) (n := 0); [reflexivity|cbn; lia|exact Hw|exact He|exact H0|lia|apply check_overflow_spec; auto|lia| | |exact A].
      * intros Ok. split; [|split; [cbn; lia|reflexivity]]. replace (a * b <? 2 ^ 8) with true by lia. reflexivity.
      * intros N. replace (a * b <? 2 ^ 8) with false by lia. reflexivity.
    + assert (0 <= a * b <= 65535 * 65535) by (cbn in *; nia). ws1. ws1.
      eapply wp_checked_after with (s := [_; _] ++ s) (n := 0); [reflexivity|cbn; lia|exact Hw|exact He|exact H0|lia|apply check_overflow_spec; auto|lia| | |exact A].
      * intros Ok. split; [|split; [cbn; lia|reflexivity]]. replace (a * b <? 2 ^ 16) with true by lia. reflexivity.
      * intros N. replace (a * b <? 2 ^ 16) with false by lia. reflexivity.
    + eapply wp_checked_after with (s := [_; _] ++ s) (n := 0); [reflexivity|cbn; lia|exact Hw|exact He|exact H0|lia|apply mul_u32_spec; auto|lia| | |exact A].
      * intros Ok. split; [|split; [cbn in *; nia|reflexivity]]. replace (a * b <? 2 ^ 32) with true by lia. reflexivity.
      * intros N. replace (a * b <? 2 ^ 32) with false by lia. reflexivity.
    + eapply wp_checked_after with (s := [_; _] ++ s) (n := 0); [reflexivity|cbn; lia|exact Hw|exact He|exact H0|lia|apply mul_u64_spec; auto|lia| | |exact A].
      * intros Ok. split; [|split; [cbn in *; nia|reflexivity]]. replace (a * b <? 2 ^ 64) with true by lia. reflexivity.
      * intros N. replace (a * b <? 2 ^ 64) with false by lia. reflexivity.
  - (* div *)
    assert (EM : emit_arith ep rt k MDiv t = [Bin (vty t) DivU]) by (destruct t; try discriminate; reflexivity).
    rewrite EM. cbn [app]. cbn [move_arith] in A. destruct (b =? 0) eqn:E.
    + eapply wp_bin_trap; [cbn [binop]; rewrite E; reflexivity|exact A].
    + eapply wp_bin; [cbn [binop]; rewrite E; reflexivity|]. eapply after_pure; [exact Hw|exact H0| | |exact A]; [lia|].
      split; [|rewrite Ht; reflexivity]. split; [apply Z.div_pos; lia|].
      apply Z.le_lt_trans with a; [|lia]. apply Z.div_le_upper_bound; [lia|nia].
  - (* mod *)
    assert (EM : emit_arith ep rt k MMod t = [Bin (vty t) RemU]) by (destruct t; try discriminate; reflexivity).
    rewrite EM. cbn [app]. cbn [move_arith] in A. destruct (b =? 0) eqn:E.
    + eapply wp_bin_trap; [cbn [binop]; rewrite E; reflexivity|exact A].
    + eapply wp_bin; [cbn [binop]; rewrite E; reflexivity|]. eapply after_pure; [exact Hw|exact H0| | |exact A]; [lia|].
      split; [|rewrite Ht; reflexivity]. pose proof (Z.mod_pos_bound a b ltac:(lia)). lia.
  - assert (EM : emit_arith ep rt k MBitOr t = [Bin (vty t) Or]) by (destruct t; try discriminate; reflexivity).
    rewrite EM. eapply wp_bin; [reflexivity|]. eapply after_pure; [exact Hw|exact H0| | |exact A]; [lia|].
    split; [|rewrite Ht; reflexivity]. apply lor_lt; auto; destruct t; cbn; lia.
  - assert (EM : emit_arith ep rt k MBitAnd t = [Bin (vty t) And]) by (destruct t; try discriminate; reflexivity).
    rewrite EM. eapply wp_bin; [reflexivity|]. eapply after_pure; [exact Hw|exact H0| | |exact A]; [lia|].
    split; [|rewrite Ht; reflexivity]. apply land_lt; auto; lia.
  - assert (EM : emit_arith ep rt k MXor t = [Bin (vty t) Xor]) by (destruct t; try discriminate; reflexivity).
    rewrite EM. eapply wp_bin; [reflexivity|]. eapply after_pure; [exact Hw|exact H0| | |exact A]; [lia|].
    split; [|rewrite Ht; reflexivity]. apply lxor_lt; auto; destruct t; cbn; lia.
Qed.

(** ** Bitwise operations on words *)

Definition bitf (op : bop) : Z -> Z -> Z :=
  match op with Or => Z.lor | And => Z.land | _ => Z.lxor end.
Definition is_bitop (op : bop) : Prop := op = Or \/ op = And \/ op = Xor.

Lemma bitf_range : forall op x y n, is_bitop op -> 0 <= n -> 0 <= x < 2 ^ n -> 0 <= y < 2 ^ n ->
  0 <= bitf op x y < 2 ^ n.
Proof.
  intros op x y n [->|[->| ->]] Hn Hx Hy; cbn [bitf]; [apply lor_lt|apply land_lt|apply lxor_lt]; auto; lia.
Qed.

Lemma high_bits : forall x n i, 0 <= x < 2 ^ n -> n <= i -> Z.testbit x i = false.
Proof.
  intros x n i Hx Hi. destruct (Z.eq_dec x 0) as [->|H0]; [apply Z.bits_0|].
  apply Z.bits_above_log2; [lia|]. apply Z.lt_le_trans with n; [|exact Hi]. apply Z.log2_lt_pow2; lia.
Qed.

Lemma bitf_split : forall op k x y h g, is_bitop op -> 0 <= k -> 0 <= x < 2 ^ k -> 0 <= y < 2 ^ k ->
  bitf op (x + 2 ^ k * h) (y + 2 ^ k * g) = bitf op x y + 2 ^ k * bitf op h g.
Proof.
  intros op k x y h g Ho Hk Hx Hy.
  assert (L : forall u v, 0 <= u < 2 ^ k -> u + 2 ^ k * v = Z.lor (v * 2 ^ k) u).
  { intros. rewrite lor_disjoint by auto. lia. }
  rewrite (L x h), (L y g), (L (bitf op x y)) by (auto; apply bitf_range; auto).
  apply Z.bits_inj'. intros i Hi.
  assert (B : forall u v, Z.testbit (bitf op u v) i =
    match op with Or => Z.testbit u i || Z.testbit v i | And => Z.testbit u i && Z.testbit v i | _ => xorb (Z.testbit u i) (Z.testbit v i) end).
  { intros. destruct Ho as [->|[->| ->]]; cbn [bitf]; [apply Z.lor_spec|apply Z.land_spec|apply Z.lxor_spec]. }
  assert (B' : forall u v, Z.testbit (bitf op u v) (i - k) =
    match op with Or => Z.testbit u (i - k) || Z.testbit v (i - k) | And => Z.testbit u (i - k) && Z.testbit v (i - k) | _ => xorb (Z.testbit u (i - k)) (Z.testbit v (i - k)) end).
  { intros. destruct Ho as [->|[->| ->]]; cbn [bitf]; [apply Z.lor_spec|apply Z.land_spec|apply Z.lxor_spec]. }
  rewrite Z.lor_spec, !B, !Z.lor_spec, !Z.mul_pow2_bits, B' by exact Hk.
  destruct (Z_lt_le_dec i k) as [C|C].
  - rewrite !(Z.testbit_neg_r _ (i - k)) by lia. destruct Ho as [->|[->| ->]]; cbn; reflexivity.
  - rewrite (high_bits x k i), (high_bits y k i) by auto.
    destruct Ho as [->|[->| ->]]; cbn; rewrite ?orb_false_r, ?andb_false_r, ?xorb_false_r; reflexivity.
Qed.

(** The word-by-word loop, unrolled by the compiler. *)
Lemma wp_bitwise_words : forall op k n i r (Q : outcome -> Prop) s l w w1 m p a b t,
  is_bitop op -> wok w -> allocated w w1 t -> t = Z.of_nat (8 * (i + n)) ->
  live w a t -> live w b t -> p = gnext w -> t < 2147483648 ->
  nth_error l k = Some a -> nth_error l (k + 1) = Some b -> nth_error l (k + 2) = Some p ->
  (forall x, ~ within p t x -> rd m x = rd (mem w) x) ->
  load (8 * i) m p = bitf op (load (8 * i) (mem w) a) (load (8 * i) (mem w) b) ->
  (forall m', (forall x, ~ within p t x -> rd m' x = rd (mem w) x) ->
     load (8 * (i + n)) m' p = bitf op (load (8 * (i + n)) (mem w) a) (load (8 * (i + n)) (mem w) b) ->
     wp r Q s l (set_mem w1 m')) ->
  wp (heap_bitwise_words op k i n ++ r) Q s l (set_mem w1 m).
Proof.
  intros op k. induction n; intros i r Q s l w w1 m p a b t Ho Hw Al Ht La Lb Hp Hs Ka Kb Kp U V K.
  - replace (i + 0)%nat with i in * by lia. apply K; auto.
  - cbn [heap_bitwise_words app].
    pose proof Al as (Hw1&Em&A1&A2&A3&A4&A5). pose proof Hw as (P1&P2&P3&P4&P5&P6). pose proof Hw1 as (Q1&Q2&Q3&Q4&Q5&Q6).
    unfold live in La, Lb.
    eapply wp_lget; [exact Kp|]. eapply wp_lget; [exact Ka|].
    eapply wp_load; [lia|cbn [pages set_mem]; unfold page_size; lia|]. eapply wp_lget; [exact Kb|]. eapply wp_load; [lia|cbn [pages set_mem]; unfold page_size; lia|].
    eapply wp_bin with (c := bitf op (load 8 m (a + 8 * Z.of_nat i)) (load 8 m (b + 8 * Z.of_nat i))).
    { destruct Ho as [->|[->| ->]]; reflexivity. }
    eapply wp_store; [lia|cbn [pages set_mem]; unfold page_size; lia|].
    change (set_mem (set_mem w1 m) ?x) with (set_mem w1 x). cbn [mem set_mem].
    set (m2 := store (Z.of_nat 8) m (p + 8 * Z.of_nat i) (bitf op (load 8 m (a + 8 * Z.of_nat i)) (load 8 m (b + 8 * Z.of_nat i)))).
    assert (U2 : forall x, ~ within p t x -> rd m2 x = rd (mem w) x).
    { intros x Hx. unfold m2. rewrite rd_store_out by (unfold within in Hx; lia). apply U. exact Hx. }
    eapply (IHn (S i)) with (w := w) (p := p) (a := a) (b := b) (t := t); auto.
    + rewrite Ht. lia.
    + replace (8 * S i)%nat with (8 * i + 8)%nat by lia. rewrite !(load_split (8 * i) 8).
      rewrite Nat2Z.inj_mul. change (Z.of_nat 8) with 8.
      assert (E1 : load (8 * i) m2 p = load (8 * i) m p) by (unfold m2; apply load_store_other; lia).
      assert (E2 : load 8 m2 (p + 8 * Z.of_nat i) = bitf op (load 8 m (a + 8 * Z.of_nat i)) (load 8 m (b + 8 * Z.of_nat i))).
      { unfold m2. rewrite (load_store_same 8). apply Z.mod_small. pose proof (load_range 8 m (a + 8 * Z.of_nat i)). pose proof (load_range 8 m (b + 8 * Z.of_nat i)).
        change (256 ^ Z.of_nat 8) with (2 ^ 64) in *. apply bitf_range; auto. lia. }
      rewrite E1, E2, V.
      assert (E3 : forall q, 0 <= q -> q + t <= p -> load 8 m (q + 8 * Z.of_nat i) = load 8 (mem w) (q + 8 * Z.of_nat i)).
      { intros q Hq1 Hq2. apply load_ext. intros. apply U. unfold within. lia. }
      rewrite !E3 by lia.
      assert (E4 : 256 ^ (8 * Z.of_nat i) = 2 ^ (64 * Z.of_nat i)).
      { change 256 with (2 ^ 8). rewrite <- Z.pow_mul_r by lia. f_equal. lia. }
      rewrite E4. symmetry. pose proof (load_range (8 * i) (mem w) a) as R1. pose proof (load_range (8 * i) (mem w) b) as R2.
      rewrite Nat2Z.inj_mul in R1, R2. change (Z.of_nat 8) with 8 in *. rewrite E4 in R1, R2.
      apply bitf_split; auto; lia.
    + intros m' U' V'. apply K; [exact U'|]. replace (i + S n)%nat with (S i + n)%nat by lia. exact V'.
Qed.

Lemma abort_extends : forall w w', extends w w' -> wok w -> abort_flag w = 0 -> abort_flag w' = 0.
Proof.
  intros w w' (_&_&_&_&_&_&E) (_&_&P&_) H. unfold abort_flag in *. rewrite <- H. apply load_ext. intros. apply E. change (Z.of_nat 4) with 4 in *. lia.
Qed.

Lemma alloc_extends : forall w w1 n, wok w -> allocated w w1 n -> 0 <= n -> extends w w1.
Proof.
  intros w w1 n Hw (H1&H2&H3&H4&H5&H6&H7) Hn. unfold extends. repeat (split; [first [assumption|lia]|]). intros. rewrite H2. reflexivity.
Qed.

Lemma live_extends' : forall w w' p n, live w p n -> extends w w' -> live w' p n.
Proof. intros. eapply live_extends; eassumption. Qed.

Lemma repr_heap : forall w t v z, is_heap t = true -> repr w t v z ->
  live w v (Z.of_nat (8 * hw t)) /\ load (8 * hw t) (mem w) v = z /\ 0 <= z < 256 ^ Z.of_nat (8 * hw t).
Proof.
  intros w t v z Ht [R H]. rewrite Ht in H. rewrite heap_size_hw in H by exact Ht. rewrite pow_hw by exact Ht. tauto.
Qed.
Lemma repr_heap_intro : forall w t v, is_heap t = true -> live w v (Z.of_nat (8 * hw t)) -> forall z,
  load (8 * hw t) (mem w) v = z -> repr w t v z.
Proof.
  intros w t v Ht L z E. split; [|rewrite Ht, heap_size_hw by exact Ht; auto].
  rewrite <- pow_hw by exact Ht. rewrite <- E. apply load_range.
Qed.

Lemma wp_heap_bitwise : forall ep rt op k t r (Q : outcome -> Prop) s l w va vb a b,
  is_bitop op -> is_heap t = true -> wok w -> abort_flag w = 0 ->
  repr w t va a -> repr w t vb b -> (k + 3 <= List.length l)%nat ->
  (oom w (heap_size t) -> Q OTrap) ->
  after ep rt k (heap_size t) t r Q s l w (MOk (bitf op a b)) ->
  wp (emit_heap_bitwise op k t ++ r) Q (vb :: va :: s) l w.
Proof.
  intros ep rt op k t r Q s l w va vb a b Ho Ht Hw H0 Ra Rb Hk HO A.
  destruct (repr_heap _ _ _ _ Ht Ra) as (La&Va&Ba). destruct (repr_heap _ _ _ _ Ht Rb) as (Lb&Vb&Bb).
  pose proof Hw as (P1&P2&P3&P4&P5&P6).
  assert (Hh : heap_size t = Z.of_nat (8 * hw t)) by (apply heap_size_hw; exact Ht).
  assert (Hhs : 16 <= heap_size t <= 32) by (destruct t; cbn; lia).
  unfold emit_heap_bitwise. rewrite <- app_assoc. cbn [app].
  apply wp_lset'; [lia|]. apply wp_lset'; [rewrite set_nth_length; lia|]. ws1.
  wcall alloc_spec; [exact Hw|lia|exact HO|]. intros vs w1 [-> Al]. wc.
  apply wp_lset'; [rewrite !set_nth_length; lia|].
  set (l' := set_nth (k + 2) _ _).
  rewrite <- app_assoc. pose proof Al as (Hw1&Em&A1&A2&A3&A4&A5).
  assert (EW : w1 = set_mem w1 (mem w)) by (rewrite <- Em; destruct w1; reflexivity).
  rewrite EW.
  eapply (wp_bitwise_words op k (hw t) 0) with (w := w) (p := gnext w) (a := va) (b := vb) (t := heap_size t); auto; try (rewrite Hh; assumption).
  - lia.
  - unfold l'. rewrite !set_nth_other by lia. apply set_nth_same. rewrite set_nth_length. lia.
  - unfold l'. rewrite !set_nth_other by lia. apply set_nth_same. lia.
  - unfold l'. apply set_nth_same. rewrite !set_nth_length. lia.
  - destruct Ho as [->|[->| ->]]; reflexivity.
  - cbn [Nat.add]. rewrite Va, Vb. intros m' U V.
    destruct (extends_upd w w1 (heap_size t) m' Hw Al ltac:(lia) U) as (X1&X2&X3).
    cbn [app]. eapply wp_lget; [unfold l'; apply set_nth_same; rewrite !set_nth_length; lia|].
    apply A; auto.
    + cbn [gnext set_mem]. lia.
    + apply repr_heap_intro; auto. unfold live; cbn [gnext set_mem]. lia.
    + unfold l'. eapply same_below_trans; [|apply same_below_set; lia]. eapply same_below_trans; apply same_below_set; lia.
Qed.

Lemma wp_arith_heap : forall ep rt k op t r (Q : outcome -> Prop) s l w va vb a b,
  is_heap t = true -> wok w -> errtab_ok ep -> abort_flag w = 0 ->
  repr w t va a -> repr w t vb b -> (k + 3 <= List.length l)%nat ->
  (oom w (cost_arith op t) -> Q OTrap) ->
  (forall o, code_arith op t a b o -> after ep rt k (cost_arith op t) t r Q s l w o) ->
  wp (emit_arith ep rt k op t ++ r) Q (vb :: va :: s) l w.
Proof.
  intros ep rt k op t r Q s l w va vb a b Ht Hw He H0 Ra Rb Hk HO A.
  destruct (repr_heap _ _ _ _ Ht Ra) as (La&Va&Ba). destruct (repr_heap _ _ _ _ Ht Rb) as (Lb&Vb&Bb).
  pose proof Hw as (P1&P2&P3&P4&P5&P6).
  assert (Hc : cost_arith op t = match op with MDiv | MMod => 2 * heap_size t | _ => heap_size t end)
    by (unfold cost_arith; rewrite Ht; reflexivity).
  assert (Hh : heap_size t = Z.of_nat (8 * hw t)) by (apply heap_size_hw; exact Ht).
  assert (Hhs : 16 <= heap_size t <= 32) by (destruct t; cbn; lia).
  pose proof (pow_hw t Ht) as HP.
  assert (EX : forall w1, allocated w w1 (heap_size t) -> extends w w1) by (intros; eapply alloc_extends; [exact Hw|eassumption|lia]).
  destruct op.
  - (* add *)
    assert (EM : emit_arith ep rt k MAdd t = [ Const (heap_size t); Call alloc; Const (heap_size t) ] ++ call_rt rt (heap_integers_add ep))
      by (destruct t; try discriminate; reflexivity).
    rewrite EM, <- app_assoc. cbn [app]. rewrite Hc in *. ws1. wcall alloc_spec; [exact Hw|lia|exact HO|]. intros vs w1 [-> Al]. wc. ws1.
    pose proof Al as (Hw1&Em&A1&A2&A3&A4&A5).
    assert (F1 : abort_flag w1 = 0) by (unfold abort_flag; rewrite Em; exact H0).
    assert (D := heap_add_spec (hw t) ep w1 va vb (gnext w) Hw1 He). rewrite Em, Va, Vb, <- Hh in D.
    eapply wp_call_rt with (s := [_; _; _; _] ++ s); [reflexivity|cbn; lia|apply D; unfold live, same_or_apart in *; lia|intros []|].
    + intros vs w' (w2&F&[(G1&->&->&G2)|(G1&->&G2)]);
        destruct (extends_frame w w1 w2 (heap_size t) Hw Al ltac:(lia) F) as (X1&X2&X3&X4).
      * left. eexists; split; [reflexivity|]. split; [exact X2|]. split; [auto|].
        apply (A (MOk (a + b))); auto; [|lia| |apply same_below_refl].
        -- left. unfold move_arith. rewrite <- HP, <- Hh. replace (a + b <? _) with true by lia. reflexivity.
        -- apply repr_heap_intro; auto. unfold live. lia.
      * right. split; [eapply wok_aborted; eassumption|]. split; [eapply aborted_flag; eassumption|].
        eapply (A (MAbort Overflow)); [|exact X1|exact G2].
        left. unfold move_arith. rewrite <- HP, <- Hh. replace (a + b <? _) with false by lia. reflexivity.
  - (* sub *)
    assert (EM : emit_arith ep rt k MSub t = [ Const (heap_size t); Call alloc; Const (heap_size t) ] ++ call_rt rt (heap_integers_sub ep))
      by (destruct t; try discriminate; reflexivity).
    rewrite EM, <- app_assoc. cbn [app]. rewrite Hc in *. ws1. wcall alloc_spec; [exact Hw|lia|exact HO|]. intros vs w1 [-> Al]. wc. ws1.
    pose proof Al as (Hw1&Em&A1&A2&A3&A4&A5).
    assert (D := heap_sub_spec (hw t) ep w1 va vb (gnext w) Hw1 He). rewrite Em, Va, Vb, <- Hh in D.
    eapply wp_call_rt with (s := [_; _; _; _] ++ s); [reflexivity|cbn; lia|apply D; unfold live, same_or_apart in *; lia|intros []|].
    + intros vs w' (w2&F&[(G1&->&->&G2)|(G1&->&G2)]);
        destruct (extends_frame w w1 w2 (heap_size t) Hw Al ltac:(lia) F) as (X1&X2&X3&X4).
      * left. eexists; split; [reflexivity|]. split; [exact X2|]. split; [auto|].
        apply (A (MOk (a - b))); auto; [|lia| |apply same_below_refl].
        -- left. unfold move_arith. replace (b <=? a) with true by lia. reflexivity.
        -- apply repr_heap_intro; auto. unfold live. lia.
      * right. split; [eapply wok_aborted; eassumption|]. split; [eapply aborted_flag; eassumption|].
        eapply (A (MAbort Overflow)); [|exact X1|exact G2].
        left. unfold move_arith. replace (b <=? a) with false by lia. reflexivity.
  - (* mul *)
    assert (EM : emit_arith ep rt k MMul t = [ Const (heap_size t) ] ++ call_rt rt (heap_integers_mul ep))
      by (destruct t; try discriminate; reflexivity).
    rewrite EM, <- app_assoc. cbn [app]. rewrite Hc in *. ws1.
    replace (8 * hw t)%nat with (4 * (2 * hw t))%nat in * by lia.
    eapply wp_call_rt with (s := [_; _; _] ++ s); [reflexivity|cbn; lia| | |].
    { wc. rewrite Hh. apply heap_mul_spec; auto. lia. }
    { rewrite <- Hh. exact HO. }
    cbv zeta. rewrite Va, Vb. intros vs w' (w1&X1&X4&[(->&->&V)|(G1&->&G2)]).
    + left. eexists; split; [reflexivity|]. split; [eapply extends_wok; exact X1|].
      pose proof (abort_extends _ _ X1 Hw H0) as F1. split; [exact F1|].
      apply (A (MOk ((a * b) mod 256 ^ Z.of_nat (4 * (2 * hw t))))); auto; [|lia| |apply same_below_refl].
      * unfold code_arith, move_arith. rewrite <- HP. destruct (a * b <? 256 ^ Z.of_nat (4 * (2 * hw t))) eqn:C.
        -- left. rewrite Z.mod_small by nia. reflexivity.
        -- right. repeat split; auto. lia.
      * apply repr_heap_intro; auto; replace (8 * hw t)%nat with (4 * (2 * hw t))%nat by lia; [unfold live; lia|exact V].
    + right. assert (wok w1) by (eapply extends_wok; exact X1).
      split; [eapply wok_aborted; eassumption|]. split; [eapply aborted_flag; eassumption|].
      eapply (A (MAbort Overflow)); [|exact X1|exact G2].
      left. unfold move_arith. rewrite <- HP. replace (a * b <? _) with false by lia. reflexivity.
  - (* div *)
    assert (EM : emit_arith ep rt k MDiv t = [ Const (width t); Const 1 ] ++ call_rt rt (heap_integers_div_mod ep))
      by (destruct t; try discriminate; reflexivity).
    rewrite EM, <- app_assoc. cbn [app]. rewrite Hc in *. ws1. ws1.
    pose proof (div_mod_spec (hw t) ep w va vb 1 ltac:(destruct t; cbn; lia) Hw He H0 La Lb ltac:(destruct t; cbn; lia)) as D.
    cbv zeta in D. rewrite Va, Vb, <- (width_hw t Ht) in D.
    eapply wp_call_rt with (s := [_; _; _; _] ++ s); [reflexivity|cbn; lia|exact D| |].
    { intros [E|O]; [|apply HO; rewrite Hh; exact O]. apply (A MTrap). left. unfold move_arith. replace (b =? 0) with true by lia. reflexivity. }
    intros vs w' (D1&X1&F1&q&->&D2&D3&D4&D5). left. eexists; split; [reflexivity|]. split; [eapply extends_wok; exact X1|]. split; [exact F1|].
    apply (A (MOk (a / b))); auto; [|lia| |apply same_below_refl].
    + left. unfold move_arith. replace (b =? 0) with false by lia. reflexivity.
    + apply repr_heap_intro; auto. unfold live. lia.
  - (* mod *)
    assert (EM : emit_arith ep rt k MMod t = [ Const (width t); Const 0 ] ++ call_rt rt (heap_integers_div_mod ep))
      by (destruct t; try discriminate; reflexivity).
    rewrite EM, <- app_assoc. cbn [app]. rewrite Hc in *. ws1. ws1.
    pose proof (div_mod_spec (hw t) ep w va vb 0 ltac:(destruct t; cbn; lia) Hw He H0 La Lb ltac:(destruct t; cbn; lia)) as D.
    cbv zeta in D. rewrite Va, Vb, <- (width_hw t Ht) in D.
    eapply wp_call_rt with (s := [_; _; _; _] ++ s); [reflexivity|cbn; lia|exact D| |].
    { intros [E|O]; [|apply HO; rewrite Hh; exact O]. apply (A MTrap). left. unfold move_arith. replace (b =? 0) with true by lia. reflexivity. }
    intros vs w' (D1&X1&F1&q&->&D2&D3&D4&D5). left. eexists; split; [reflexivity|]. split; [eapply extends_wok; exact X1|]. split; [exact F1|].
    apply (A (MOk (a mod b))); auto; [|lia| |apply same_below_refl].
    + left. unfold move_arith. replace (b =? 0) with false by lia. reflexivity.
    + apply repr_heap_intro; auto. unfold live. lia.
  - rewrite Hc in *. assert (EM : emit_arith ep rt k MBitOr t = emit_heap_bitwise Or k t) by (destruct t; try discriminate; reflexivity).
    rewrite EM. eapply wp_heap_bitwise; try eassumption; [left; reflexivity|]. apply A. left. reflexivity.
  - rewrite Hc in *. assert (EM : emit_arith ep rt k MBitAnd t = emit_heap_bitwise And k t) by (destruct t; try discriminate; reflexivity).
    rewrite EM. eapply wp_heap_bitwise; try eassumption; [right; left; reflexivity|]. apply A. left. reflexivity.
  - rewrite Hc in *. assert (EM : emit_arith ep rt k MXor t = emit_heap_bitwise Xor k t) by (destruct t; try discriminate; reflexivity).
    rewrite EM. eapply wp_heap_bitwise; try eassumption; [right; right; reflexivity|]. apply A. left. reflexivity.
Qed.

(** One rule for all types. *)
Lemma wp_arith : forall ep rt k op t r (Q : outcome -> Prop) s l w va vb a b,
  wok w -> errtab_ok ep -> abort_flag w = 0 ->
  repr w t va a -> repr w t vb b -> (k + 3 <= List.length l)%nat ->
  (oom w (cost_arith op t) -> Q OTrap) ->
  (forall o, code_arith op t a b o -> after ep rt k (cost_arith op t) t r Q s l w o) ->
  wp (emit_arith ep rt k op t ++ r) Q (vb :: va :: s) l w.
Proof.
  intros ep rt k op t r Q s l w va vb a b Hw He H0 Ra Rb Hk HO A. destruct (is_heap t) eqn:Ht.
  - eapply wp_arith_heap; eassumption.
  - apply repr_simple in Ra; [|exact Ht]. apply repr_simple in Rb; [|exact Ht]. destruct Ra as [-> Ra], Rb as [-> Rb].
    apply wp_arith_simple; auto. apply A. left. reflexivity.
Qed.

(** ** Comparisons *)

Lemma wp_negate : forall c r (Q : outcome -> Prop) s l w,
  wp r Q (b2z (negb c) :: s) l w -> wp (negate ++ r) Q (b2z c :: s) l w.
Proof. intros. unfold negate. cbn [app]. ws1. eapply wp_bin; [reflexivity|]. destruct c; exact H. Qed.

Lemma wp_swap_top : forall i j r (Q : outcome -> Prop) s l w x y, i <> j ->
  (i < List.length l)%nat -> (j < List.length l)%nat ->
  wp r Q (y :: x :: s) (set_nth j y (set_nth i x l)) w -> wp (swap_top i j ++ r) Q (x :: y :: s) l w.
Proof.
  intros. unfold swap_top. cbn [app]. apply wp_lset'; [lia|]. apply wp_lset'; [rewrite set_nth_length; lia|].
  eapply wp_lget; [rewrite set_nth_other by lia; apply set_nth_same; lia|].
  eapply wp_lget; [apply set_nth_same; rewrite set_nth_length; lia|]. exact H2.
Qed.

(** A comparison leaves the boolean on the stack and changes nothing but temporaries. *)
Lemma wp_cmp : forall k op t r (Q : outcome -> Prop) s l w va vb a b,
  wok w -> repr w t va a -> repr w t vb b -> (k + 2 <= List.length l)%nat ->
  (forall l', same_below k l l' -> wp r Q (b2z (move_cmp op a b) :: s) l' w) ->
  wp (emit_cmp k op t ++ r) Q (vb :: va :: s) l w.
Proof.
  intros k op t r Q s l w va vb a b Hw Ra Rb Hk K. unfold emit_cmp. destruct (is_heap t) eqn:Ht.
  - destruct (repr_heap _ _ _ _ Ht Ra) as (La&Va&Ba). destruct (repr_heap _ _ _ _ Ht Rb) as (Lb&Vb&Bb).
    assert (Hh : heap_size t = Z.of_nat (8 * hw t)) by (apply heap_size_hw; exact Ht).
    assert (HN : (1 <= hw t)%nat) by (destruct t; cbn; lia). assert (HS : Z.of_nat (8 * hw t) < 2147483648) by (destruct t; cbn; lia).
    pose proof (same_below_refl k l) as SR.
    assert (SB : forall x y, same_below k l (set_nth (k + 1) x (set_nth k y l))).
    { intros. eapply same_below_trans; apply same_below_set; lia. }
    rewrite Hh.
    destruct op.
    + cbn [app]. ws1. wpure less_than_spec; auto. rewrite Va, Vb. apply K; auto.
    + rewrite <- !app_assoc. apply wp_swap_top; [lia|lia|lia|]. cbn [app]. ws1. wpure less_than_spec; auto. rewrite Va, Vb.
      apply wp_negate. cbn [move_cmp] in K. rewrite <- Z.leb_antisym. apply K; auto.
    + rewrite <- !app_assoc. apply wp_swap_top; [lia|lia|lia|]. cbn [app]. ws1. wpure less_than_spec; auto. rewrite Va, Vb. apply K; auto.
    + rewrite <- !app_assoc. cbn [app]. ws1. wpure less_than_spec; auto. rewrite Va, Vb.
      apply wp_negate. cbn [move_cmp] in K. rewrite <- Z.leb_antisym. apply K; auto.
    + cbn [app]. ws1. wpure a_equals_b_spec; auto. rewrite Va, Vb. apply K; auto.
    + rewrite <- !app_assoc. cbn [app]. ws1. wpure a_equals_b_spec; auto. rewrite Va, Vb. apply wp_negate. apply K; auto.
  - apply repr_simple in Ra; [|exact Ht]. apply repr_simple in Rb; [|exact Ht]. destruct Ra as [-> Ra], Rb as [-> Rb].
    pose proof (K l (same_below_refl k l)) as K'. rewrite <- app_assoc. cbn [app].
    destruct op; cbn [simple_cop]; (eapply wp_bin; [reflexivity|]); try exact K'. apply wp_negate. exact K'.
Qed.

(** ** Shifts *)

Lemma mod_mod_mul : forall x p q, 0 < p -> 0 < q -> (x mod (p * q)) mod p = x mod p.
Proof.
  intros. rewrite Z.rem_mul_r by lia. rewrite (Z.mul_comm p), Z.mod_add by lia. apply Z.mod_mod. lia.
Qed.

Definition cost_heap (t : ity) : Z := if is_heap t then heap_size t else 0.

Lemma wp_shift : forall ep rt k op t r (Q : outcome -> Prop) s l w va a sh,
  wok w -> errtab_ok ep -> abort_flag w = 0 -> repr w t va a -> repr w U8 sh sh ->
  (is_heap t = true -> oom w (cost_heap t) -> Q OTrap) ->
  after ep rt k (cost_heap t) t r Q s l w (move_shift op t a sh) ->
  wp (emit_shift ep rt op t ++ r) Q (sh :: va :: s) l w.
Proof.
  intros ep rt k op t r Q s l w va a sh Hw He H0 Ra Rs HO A.
  apply repr_simple in Rs; [|reflexivity]. destruct Rs as [_ Hs]. cbn [width] in Hs. change (2 ^ 8) with 256 in Hs.
  unfold emit_shift, cost_heap in *. destruct (is_heap t) eqn:Ht.
  - destruct (repr_heap _ _ _ _ Ht Ra) as (La&Va&Ba).
    assert (Hh : heap_size t = Z.of_nat (8 * hw t)) by (apply heap_size_hw; exact Ht).
    assert (Hwd : width t = 64 * Z.of_nat (hw t)) by (apply width_hw; exact Ht).
    pose proof Hw as (P1&P2&P3&P4&P5&P6).
    rewrite <- app_assoc. cbn [app]. ws1.
    assert (D : wpf (match op with MShl => heap_int_shift_left ep | MShr => heap_int_shift_right ep end) [va; sh; heap_size t] w
      (resq (fun vs w' =>
        (sh < width t /\ vs = [gnext w] /\ extends w w' /\ abort_flag w' = 0 /\ gnext w' = gnext w + heap_size t /\
          load (8 * hw t) (mem w') (gnext w) = match op with MShl => (a * 2 ^ sh) mod 2 ^ width t | MShr => a / 2 ^ sh end)
        \/ (width t <= sh /\ vs = [BADF00D] /\ aborted ep Overflow w w')) (sh < width t /\ oom w (heap_size t)))).
    { rewrite Hh, Hwd, <- Va. destruct op; [apply shift_left_spec|apply shift_right_spec]; auto; destruct t; cbn [hw]; lia. }
    unfold move_shift in A.
    assert (CT : forall vs w', (sh < width t /\ vs = [gnext w] /\ extends w w' /\ abort_flag w' = 0 /\ gnext w' = gnext w + heap_size t /\
          load (8 * hw t) (mem w') (gnext w) = match op with MShl => (a * 2 ^ sh) mod 2 ^ width t | MShr => a / 2 ^ sh end)
        \/ (width t <= sh /\ vs = [BADF00D] /\ aborted ep Overflow w w') ->
     (exists v, vs = [v] /\ wok w' /\ abort_flag w' = 0 /\ wp r Q (v :: s) l w') \/
     (wok w' /\ abort_flag w' <> 0 /\ Q (ORet (if rt then [BADF00D] else []) l w'))).
    { intros vs w' [(S1&->&X&F&G&V)|(S1&->&Ab)].
      - replace (sh <? width t) with true in A by lia. left. eexists; split; [reflexivity|]. split; [eapply extends_wok; exact X|]. split; [exact F|].
        apply A; auto; [lia| |apply same_below_refl]. apply repr_heap_intro; auto. unfold live. lia.
      - replace (sh <? width t) with false in A by lia. right. split; [eapply wok_aborted; eassumption|]. split; [eapply aborted_flag; eassumption|].
        eapply A; [apply extends_refl; exact Hw|exact Ab]. }
    destruct op; (eapply wp_call_rt with (s := [_; _; _] ++ s); [reflexivity|cbn; lia|exact D|intros [_ O]; apply HO; [reflexivity|exact O]|exact CT]).
  - apply repr_simple in Ra; [|exact Ht]. destruct Ra as [-> Ra].
    assert (W : 8 <= width t <= 64) by (destruct t; cbn in *; try discriminate; lia).
    rewrite <- !app_assoc. cbn [app]. ws1. unfold call_rt. cbn [app].
    eapply wp_call_checked with (s := [_; _; _] ++ s); [reflexivity|cbn; lia|exact Hw|exact He|exact H0|apply check_overflow_spec; auto|lia| |].
    + wc. intros Ok. unfold move_shift in A. replace (sh <? width t) with true in A by lia.
      assert (P : 0 < 2 ^ sh) by (apply Z.pow_pos_nonneg; lia).
      assert (R : wp r Q (match op with MShl => (a * 2 ^ sh) mod 2 ^ width t | MShr => a / 2 ^ sh end :: s) l w).
      { eapply after_pure; [exact Hw|exact H0| | |exact A]; [lia|]. split; [|rewrite Ht; reflexivity].
        destruct op; [apply Z.mod_pos_bound; apply Z.pow_pos_nonneg; lia|].
        split; [apply Z.div_pos; lia|]. apply Z.le_lt_trans with a; [|lia]. apply Z.div_le_upper_bound; nia. }
      assert (M : sh mod bits (vty t) = sh) by (apply Z.mod_small; destruct t; cbn in *; try discriminate; lia).
      destruct t; try discriminate; destruct op; cbn [vty app] in *;
        try (apply wp_un; cbn [unop]); (eapply wp_bin; [cbn [binop]; rewrite M; reflexivity|]); try exact R.
      * ws1. eapply wp_bin; [reflexivity|]. cbn [wrapt w32].
        replace (Z.land (w32 (a * 2 ^ sh)) 255) with ((a * 2 ^ sh) mod 2 ^ width U8); [exact R|].
        change 255 with (Z.ones 8). rewrite Z.land_ones by lia. cbn [width]. unfold w32.
        change 4294967296 with (2 ^ 32). symmetry. apply (mod_mod_mul (a * 2 ^ sh) (2 ^ 8) (2 ^ 24)); lia.
      * ws1. eapply wp_bin; [reflexivity|]. cbn [wrapt w32].
        replace (Z.land (w32 (a * 2 ^ sh)) 65535) with ((a * 2 ^ sh) mod 2 ^ width U16); [exact R|].
        change 65535 with (Z.ones 16). rewrite Z.land_ones by lia. cbn [width]. unfold w32.
        change 4294967296 with (2 ^ 32). symmetry. apply (mod_mod_mul (a * 2 ^ sh) (2 ^ 16) (2 ^ 16)); lia.
    + wc. intros w' N Ab. unfold move_shift in A. replace (sh <? width t) with false in A by lia.
      eapply A; [apply extends_refl; exact Hw|exact Ab].
Qed.

(** ** Casts *)

Definition cast_error (from to : ity) (z : Z) : rt_error :=
  match to with
  | U8 | U16 => if is_heap from && (2 ^ 32 <=? z) then OutOfBounds else Overflow
  | _ => OutOfBounds
  end.

(** What Move prescribes; any abort will do. *)
Definition move_cast (from to : ity) (z : Z) : mres :=
  if z <? 2 ^ width to then MOk z else MAbort (cast_error from to z).

(** What the emitted code does: as Move says, except that u64 is first reduced modulo 2^32 when cast
    to u8 or u16, and that u256 is always reduced modulo 2^128 when cast to u128 (or, next to
    the end of memory, the misplaced check traps). *)
Definition code_cast (from to : ity) (z : Z) (o : mres) : Prop :=
  match from, to with
  | U64, (U8 | U16) => o = move_cast from to (z mod 2 ^ 32)
  | U256, U128 => o = MOk (z mod 2 ^ 128) \/ o = MTrap
  | _, _ => o = move_cast from to z
  end.

Definition cost_cast (from to : ity) : Z :=
  match from, to with U128, U128 | U256, U256 => 0 | _, _ => cost_heap to end.

Lemma wp_load_trap : forall n off r (Q : outcome -> Prop) a s l w,
  page_size * pages w < a + off + Z.of_nat n -> Q OTrap -> wp (Load n off :: r) Q (a :: s) l w.
Proof.
  intros. apply wp_basic_stop; [reflexivity|]. cbn [step].
  replace (inb w (a + off) (Z.of_nat n)) with false; [exact H0|]. symmetry. unfold inb. lia.
Qed.

Lemma wp_checked_after_small : forall ep rt k n t r (Q : outcome -> Prop) s l w z max,
  wok w -> errtab_ok ep -> abort_flag w = 0 -> n = 0 -> is_heap t = false -> max = 2 ^ width t - 1 -> 0 <= z ->
  after ep rt k n t r Q s l w (if z <? 2 ^ width t then MOk z else MAbort Overflow) ->
  wp (Const max :: call_rt rt (check_overflow_u8_u16 ep) ++ r) Q (z :: s) l w.
Proof.
  intros ep rt k n t r Q s l w z max Hw He H0 Hn Ht Hm Hz A. ws1.
  eapply wp_checked_after with (s := [_; _] ++ s) (n := n); [reflexivity|cbn; lia|exact Hw|exact He|exact H0|exact Hn|apply check_overflow_spec; auto|lia| | |exact A].
  - intros Ok. split; [|split; [lia|rewrite Ht; reflexivity]]. replace (z <? 2 ^ width t) with true by lia. reflexivity.
  - intros N. replace (z <? 2 ^ width t) with false by lia. reflexivity.
Qed.

Lemma wp_downcast : forall c ep (rt : bool) r (Q : outcome -> Prop) s l w t v z, chunk_ok c ->
  wok w -> errtab_ok ep -> abort_flag w = 0 -> is_heap t = true -> repr w t v z ->
  (z < 256 ^ Z.of_nat c -> wp r Q (z :: s) l w) ->
  (forall w', 256 ^ Z.of_nat c <= z -> aborted ep OutOfBounds w w' -> Q (ORet (if rt then [BADF00D] else []) l w')) ->
  wp (Const (heap_size t) :: call_rt rt (downcast_heap c ep) ++ r) Q (v :: s) l w.
Proof.
  intros c ep rt r Q s l w t v z Hc Hw He H0 Ht R K1 K2. ws1. unfold call_rt. cbn [app].
  destruct (repr_heap _ _ _ _ Ht R) as (L&V&B).
  assert (C : checked ep (downcast_heap c ep) [v; heap_size t] w (z < 256 ^ Z.of_nat c) z OutOfBounds).
  { rewrite heap_size_hw by exact Ht. rewrite <- V.
    assert (exists N, (8 * hw t = c * N)%nat /\ (2 <= N)%nat) as (N&E&HN).
    { destruct Hc; subst c; [exists (2 * hw t)%nat|exists (hw t)]; destruct t; cbn; lia. }
    rewrite E in *. apply downcast_heap_spec; auto. }
  eapply wp_call_checked with (s := [_; _] ++ s); [reflexivity|cbn; lia|exact Hw|exact He|exact H0|exact C|lia| |].
  - wc. exact K1.
  - intros w' N. apply K2. lia.
Qed.

Lemma wp_cast_simple : forall ep rt k from to r (Q : outcome -> Prop) s l w v z,
  wok w -> errtab_ok ep -> abort_flag w = 0 -> repr w from v z -> is_heap to = false ->
  (forall o, code_cast from to z o -> after ep rt k 0 to r Q s l w o) ->
  wp (emit_cast_simple ep rt from to ++ r) Q (v :: s) l w.
Proof.
  intros ep rt k from to r Q s l w v z Hw He H0 R Ht A.
  pose proof (extends_refl w Hw) as XR. pose proof (same_below_refl k l) as SR.
  assert (KS : 0 <= z < 2 ^ width to -> after ep rt k 0 to r Q s l w (MOk z) -> wp r Q (z :: s) l w).
  { intros Hz Az. eapply after_pure; [exact Hw|exact H0| | |exact Az]; [lia|]. split; [exact Hz|rewrite Ht; reflexivity]. }
  assert (N : 0 <= z) by (destruct R; lia).
  destruct (is_heap from) eqn:Hf.
  - assert (CC : code_cast from to z (move_cast from to z)) by (destruct from, to; try discriminate; reflexivity).
    specialize (A _ CC). unfold move_cast, cast_error in A. rewrite Hf in A.
    assert (SM : forall mx, mx = 2 ^ width to - 1 -> width to <= 16 -> wp (Const (heap_size from) :: call_rt rt (downcast_heap 4 ep) ++
        Const mx :: call_rt rt (check_overflow_u8_u16 ep) ++ r) Q (v :: s) l w).
    { intros mx Hmx Hwd. assert (2 ^ width to <= 2 ^ 16) by (apply Z.pow_le_mono_r; lia).
      eapply wp_downcast; [left; reflexivity|exact Hw|exact He|exact H0|exact Hf|exact R| |]; change (256 ^ Z.of_nat 4) with (2 ^ 32).
      - intros Hz. eapply wp_checked_after_small; [exact Hw|exact He|exact H0| |exact Ht|exact Hmx|exact N|]; [|cbn [andb] in A; replace (2 ^ 32 <=? z) with false in A by lia; destruct to; try (cbn [width] in Hwd; lia); exact A]; lia.
      - intros w' Hz Ab. replace (z <? 2 ^ width to) with false in A by lia. replace (2 ^ 32 <=? z) with true in A by lia.
        destruct to; try discriminate; (eapply A; [exact XR|exact Ab]). }
    destruct to; try discriminate.
    + assert (EM : emit_cast_simple ep rt from U8 = Const (heap_size from) :: call_rt rt (downcast_heap 4 ep) ++ Const 255 :: call_rt rt (check_overflow_u8_u16 ep))
        by (destruct from; try discriminate; reflexivity).
      rewrite EM. cbn [app]. rewrite <- app_assoc. cbn [app]. apply SM; cbn [width]; lia.
    + assert (EM : emit_cast_simple ep rt from U16 = Const (heap_size from) :: call_rt rt (downcast_heap 4 ep) ++ Const 65535 :: call_rt rt (check_overflow_u8_u16 ep))
        by (destruct from; try discriminate; reflexivity).
      rewrite EM. cbn [app]. rewrite <- app_assoc. cbn [app]. apply SM; cbn [width]; lia.
    + assert (EM : emit_cast_simple ep rt from U32 = Const (heap_size from) :: call_rt rt (downcast_heap 4 ep))
        by (destruct from; try discriminate; reflexivity).
      rewrite EM. cbn [app]. cbn [width] in *.
      eapply wp_downcast; [left; reflexivity|exact Hw|exact He|exact H0|exact Hf|exact R| |]; change (256 ^ Z.of_nat 4) with (2 ^ 32).
      * intros Hz. apply KS; [lia|]. replace (z <? 2 ^ 32) with true in A by lia. exact A.
      * intros w' Hz Ab. replace (z <? 2 ^ 32) with false in A by lia. eapply A; [exact XR|exact Ab].
    + assert (EM : emit_cast_simple ep rt from U64 = Const (heap_size from) :: call_rt rt (downcast_heap 8 ep))
        by (destruct from; try discriminate; reflexivity).
      rewrite EM. cbn [app]. cbn [width] in *.
      eapply wp_downcast; [right; reflexivity|exact Hw|exact He|exact H0|exact Hf|exact R| |]; change (256 ^ Z.of_nat 8) with (2 ^ 64).
      * intros Hz. apply KS; [lia|]. replace (z <? 2 ^ 64) with true in A by lia. exact A.
      * intros w' Hz Ab. replace (z <? 2 ^ 64) with false in A by lia. eapply A; [exact XR|exact Ab].
  - apply repr_simple in R; [|exact Hf]. destruct R as [-> R].
    assert (SM : forall u mx, mx = 2 ^ width to - 1 -> 0 <= u -> after ep rt k 0 to r Q s l w (if u <? 2 ^ width to then MOk u else MAbort Overflow) ->
       wp (Const mx :: call_rt rt (check_overflow_u8_u16 ep) ++ r) Q (u :: s) l w).
    { intros u mx Hmx Hu Au. eapply wp_checked_after_small; [exact Hw|exact He|exact H0| |exact Ht|exact Hmx|exact Hu|exact Au]. lia. }
    assert (ID : width from <= width to -> code_cast from to z (move_cast from to z) -> wp r Q (z :: s) l w).
    { intros Hwd CC. assert (2 ^ width from <= 2 ^ width to) by (apply Z.pow_le_mono_r; lia). specialize (A _ CC). unfold move_cast in A.
      replace (z <? 2 ^ width to) with true in A by lia. apply KS; [lia|exact A]. }
    destruct from, to; try discriminate; cbn [emit_cast_simple app];
      try (apply ID; [cbn; lia|reflexivity]);
      try (apply SM; [reflexivity|exact N|]; apply A; reflexivity).
    + (* u8 to u64 *) apply wp_un. apply ID; [cbn; lia|reflexivity].
    + apply wp_un. apply ID; [cbn; lia|reflexivity].
    + apply wp_un. apply ID; [cbn; lia|reflexivity].
    + (* u64 to u8 *) apply wp_un. cbn [unop]. apply SM; [reflexivity|apply Z.mod_pos_bound; lia|]. apply A. reflexivity.
    + apply wp_un. cbn [unop]. apply SM; [reflexivity|apply Z.mod_pos_bound; lia|]. apply A. reflexivity.
    + (* u64 to u32 *)
      specialize (A (move_cast U64 U32 z) eq_refl). unfold move_cast in A. cbn [width] in *.
      eapply wp_checked_after with (s := [_] ++ s) (n := 0); [reflexivity|cbn; lia|exact Hw|exact He|exact H0|lia|apply downcast_u64_to_u32_spec; auto; lia|lia| | |exact A].
      * intros Ok. split; [|split; [cbn; lia|reflexivity]]. replace (z <? 2 ^ 32) with true by lia. reflexivity.
      * intros N'. replace (z <? 2 ^ 32) with false by lia. reflexivity.
Qed.

(** A fresh block is zero, so storing [c] low bytes makes it hold the stored number. *)
Lemma load_low_store : forall (c : nat) n m p z, (c <= n)%nat -> 0 <= z < 256 ^ Z.of_nat c ->
  (forall x, p <= x -> rd m x = 0) ->
  load n (store (Z.of_nat c) m p z) p = z.
Proof.
  intros c n m p z Hc Hz U. replace n with (c + (n - c))%nat by lia. rewrite load_split, load_store_same, Z.mod_small by exact Hz.
  rewrite load_zero; [lia|]. intros x Hx. rewrite rd_store_out by lia. apply U. lia.
Qed.

Lemma wp_copy_two : forall dst src r (Q : outcome -> Prop) s l w p a,
  nth_error l dst = Some p -> nth_error l src = Some a ->
  0 <= p -> 0 <= a -> p + 16 <= page_size * pages w -> a + 16 <= page_size * pages w -> a + 16 <= p \/ p + 16 <= a ->
  (forall m', (forall x, ~ within p 16 x -> rd m' x = rd (mem w) x) -> load 16 m' p = load 16 (mem w) a ->
     wp r Q s l (set_mem w m')) ->
  wp (copy_two_words dst src ++ r) Q s l w.
Proof.
  intros dst src r Q s l w p a Kp Ka Hp Ha Ip Ia Ov K. unfold copy_two_words. cbn [app].
  eapply wp_lget; [exact Kp|]. eapply wp_lget; [exact Ka|]. eapply wp_load; [lia|lia|]. eapply wp_store; [lia|lia|].
  eapply wp_lget; [exact Kp|]. eapply wp_lget; [exact Ka|]. eapply wp_load; [lia|cbn [pages set_mem]; lia|]. eapply wp_store; [lia|cbn [pages set_mem]; lia|].
  change (set_mem (set_mem w ?x) ?y) with (set_mem w y). cbn [mem set_mem]. rewrite !Z.add_0_r. apply K.
  - intros x Hx. unfold within in Hx. rewrite !rd_store_out by lia. reflexivity.
  - change 16%nat with (8 + 8)%nat. rewrite !load_split. change (Z.of_nat 8) with 8.
    rewrite (load_store_other 8 8 _ p) by lia. change (store 8) with (store (Z.of_nat 8)).
    rewrite (load_store_same 8 _ (p + 8)), (load_store_same 8 _ p).
    rewrite (load_store_other 8 (Z.of_nat 8) _ (a + 8)) by lia.
    rewrite !Z.mod_small by apply load_range. reflexivity.
Qed.

Lemma wp_cast_heap : forall ep rt k from to r (Q : outcome -> Prop) s l w v z,
  wok w -> errtab_ok ep -> abort_flag w = 0 -> repr w from v z -> is_heap to = true -> (k + 4 <= List.length l)%nat ->
  (oom w (cost_cast from to) -> Q OTrap) ->
  (forall o, code_cast from to z o -> after ep rt k (cost_cast from to) to r Q s l w o) ->
  wp (emit_cast_heap ep rt k from to ++ r) Q (v :: s) l w.
Proof.
  intros ep rt k from to r Q s l w v z Hw He H0 R Ht Hk HO A.
  pose proof Hw as (P1&P2&P3&P4&P5&P6).
  assert (Hh : heap_size to = Z.of_nat (8 * hw to)) by (apply heap_size_hw; exact Ht).
  assert (Hhs : 16 <= heap_size to <= 32) by (destruct to; cbn; lia).
  assert (N : 0 <= z) by (destruct R; lia).
  set (l1 := set_nth k v l).
  assert (KL : (k + 4 <= List.length l1)%nat) by (unfold l1; rewrite set_nth_length; exact Hk).
  assert (KK : nth_error l1 k = Some v) by (apply set_nth_same; lia).
  (* from a simple type, stored in c bytes *)
  assert (SIMPLE : forall c : nat, (c <= 8)%nat -> z < 256 ^ Z.of_nat c -> cost_cast from to = heap_size to -> v = z ->
    code_cast from to z (MOk z) ->
    wp ([ LocalSet k; Const (heap_size to); Call alloc; LocalTee (k + 1); LocalGet k; Store c 0; LocalGet (k + 1) ] ++ r) Q (v :: s) l w).
  { intros c Hc Hz Hcost -> CC. specialize (A _ CC). rewrite Hcost in *. cbn [app].
    apply wp_lset'; [lia|]. fold l1. ws1. wcall alloc_spec; [exact Hw|lia|exact HO|]. intros vs w1 [-> Al]. wc.
    pose proof Al as (Hw1&Em&A1&A2&A3&A4&A5). pose proof Hw1 as (Q1&Q2&Q3&Q4&Q5&Q6).
    apply wp_ltee'; [lia|]. eapply wp_lget; [rewrite set_nth_other by lia; exact KK|].
    eapply wp_store; [lia|unfold page_size; lia|]. eapply wp_lget; [apply set_nth_same; lia|]. rewrite Z.add_0_r, Em.
    destruct (extends_upd w w1 (heap_size to) (store (Z.of_nat c) (mem w) (gnext w) z) Hw Al ltac:(lia)) as (X1&X2&X3).
    { intros x Hx. apply rd_store_out. unfold within in Hx. lia. }
    apply A; auto.
    - cbn [gnext set_mem]. lia.
    - apply repr_heap_intro; [exact Ht|unfold live; cbn [gnext set_mem]; lia|]. cbn [mem set_mem]. apply load_low_store; [destruct to; cbn; lia|lia|exact P6].
    - unfold l1. eapply same_below_trans; apply same_below_set; lia. }
  assert (OKC : forall t, t = from -> width t <= 64 -> code_cast from to z (MOk z)).
  { intros t -> Hwd. destruct R as [R _]. assert (2 ^ width from <= 2 ^ 64) by (apply Z.pow_le_mono_r; [lia|exact Hwd]).
    assert (2 ^ 64 <= 2 ^ width to) by (apply Z.pow_le_mono_r; [lia|destruct to; try discriminate; cbn; lia]).
    assert (E : move_cast from to z = MOk z) by (unfold move_cast; replace (z <? 2 ^ width to) with true by lia; reflexivity).
    destruct from, to; try discriminate; try (cbn in Hwd; lia); cbn [code_cast]; symmetry; exact E. }
  destruct (is_heap from) eqn:Hf.
  2:{ pose proof R as R0. apply repr_simple in R0; [|exact Hf]. destruct R0 as [Ev Hz].
      assert (CS : cost_cast from to = heap_size to) by (unfold cost_cast, cost_heap; rewrite Ht; destruct from, to; try discriminate; reflexivity).
      assert (EM : emit_cast_heap ep rt k from to =
        [ LocalSet k; Const (heap_size to); Call alloc; LocalTee (k + 1); LocalGet k; Store (match from with U64 => 8 | _ => 4 end) 0; LocalGet (k + 1) ])
        by (destruct from; try discriminate; reflexivity).
      rewrite EM. apply SIMPLE; auto; [destruct from; lia| |apply (OKC from); auto; destruct from; try discriminate; cbn; lia].
      destruct from; try discriminate; cbn [width] in Hz; change (256 ^ Z.of_nat 4) with (2 ^ 32); change (256 ^ Z.of_nat 8) with (2 ^ 64); lia. }
  destruct (repr_heap _ _ _ _ Hf R) as (L&V&B). unfold live in L.
  destruct from, to; try discriminate; cbn [emit_cast_heap].
  - (* u128 to u128 *)
    apply (A (MOk z)); auto; [|apply extends_refl; exact Hw|cbn; lia|apply same_below_refl].
    cbn [code_cast]. unfold move_cast. cbn [width]. destruct R as [R _]. cbn [width] in R. replace (z <? 2 ^ 128) with true by lia. reflexivity.
  - (* u128 to u256 *)
    rewrite <- !app_assoc. cbn [app].
    apply wp_lset'; [lia|]. fold l1. ws1. wcall alloc_spec; [exact Hw|lia|exact HO|]. intros vs w1 [-> Al]. wc.
    pose proof Al as (Hw1&Em&A1&A2&A3&A4&A5). pose proof Hw1 as (Q1&Q2&Q3&Q4&Q5&Q6).
    apply wp_lset'; [lia|]. cbn [hw] in *. change (Z.of_nat (8 * 2)) with 16 in *.
    eapply wp_copy_two with (p := gnext w) (a := v); try (unfold page_size; lia).
    { apply set_nth_same; lia. } { rewrite set_nth_other by lia; exact KK. }
    intros m' U V'. rewrite Em in *. cbn [app]. eapply wp_lget; [apply set_nth_same; lia|].
    destruct (extends_upd w w1 32 m' Hw Al ltac:(lia)) as (X1&X2&X3).
    { intros x Hx. apply U. unfold within in *. lia. }
    apply (A (MOk z)); auto.
    + cbn [code_cast]. unfold move_cast. cbn [width]. destruct R as [R _]. cbn [width] in R.
      assert (2 ^ 128 < 2 ^ 256) by reflexivity. replace (z <? 2 ^ 256) with true by lia. reflexivity.
    + change (cost_cast U128 U256) with 32. cbn [gnext set_mem]. lia.
    + apply repr_heap_intro; [reflexivity|unfold live; cbn [gnext set_mem hw]; lia|]. cbn [mem set_mem hw].
      change (8 * 4)%nat with (16 + 16)%nat. rewrite load_split, V'. change (8 * 2)%nat with 16%nat in V. rewrite V.
      rewrite load_zero; [lia|]. intros x Hx. rewrite U by (unfold within; lia). apply P6. lia.
    + unfold l1. eapply same_below_trans; apply same_below_set; lia.
  - (* u256 to u128: the checks read behind the new block *)
    rewrite <- !app_assoc. cbn [app].
    apply wp_lset'; [lia|]. fold l1. ws1. wcall alloc_spec; [exact Hw|lia|exact HO|]. intros vs w1 [-> Al]. wc.
    pose proof Al as (Hw1&Em&A1&A2&A3&A4&A5). pose proof Hw1 as (Q1&Q2&Q3&Q4&Q5&Q6).
    apply wp_lset'; [lia|]. cbn [hw] in *. change (Z.of_nat (8 * 4)) with 32 in *.
    eapply wp_copy_two with (p := gnext w) (a := v); try (unfold page_size; lia).
    { apply set_nth_same; lia. } { rewrite set_nth_other by lia; exact KK. }
    intros m' U V'. rewrite Em in *. cbn [app].
    assert (HT : Q OTrap) by (apply (A MTrap); right; reflexivity).
    assert (ZE : forall c, 16 <= c -> load 8 m' (gnext w + c) = 0).
    { intros c Hc. apply load_zero. intros x Hx. rewrite U by (unfold within; lia). apply P6. lia. }
    destruct (Z_lt_le_dec (page_size * pages w1) (gnext w + 24)) as [I1|I1].
    { apply wp_block. eapply wp_lget; [apply set_nth_same; lia|]. apply wp_load_trap; [cbn [pages set_mem]; lia|]. exact HT. }
    apply wp_block. eapply wp_lget; [apply set_nth_same; lia|]. eapply wp_load; [lia|cbn [pages set_mem]; lia|]. cbn [mem set_mem]. rewrite ZE by lia.
    apply wp_un. cbn [unop Z.eqb b2z]. apply wp_brif; [intros _|intros C; discriminate]. wc.
    destruct (Z_lt_le_dec (page_size * pages w1) (gnext w + 32)) as [I2|I2].
    { apply wp_block. eapply wp_lget; [apply set_nth_same; lia|]. apply wp_load_trap; [cbn [pages set_mem]; lia|]. exact HT. }
    apply wp_block. eapply wp_lget; [apply set_nth_same; lia|]. eapply wp_load; [lia|cbn [pages set_mem]; lia|]. cbn [mem set_mem]. rewrite ZE by lia.
    apply wp_un. cbn [unop Z.eqb b2z]. apply wp_brif; [intros _|intros C; discriminate]. wc.
    eapply wp_lget; [apply set_nth_same; lia|].
    destruct (extends_upd w w1 16 m' Hw Al ltac:(lia)) as (X1&X2&X3).
    { intros x Hx. apply U. unfold within in *. lia. }
    apply (A (MOk (z mod 2 ^ 128))); auto.
    + left. reflexivity.
    + change (cost_cast U256 U128) with 16. cbn [gnext set_mem]. lia.
    + apply repr_heap_intro; [reflexivity|unfold live; cbn [gnext set_mem hw]; lia|]. cbn [mem set_mem hw].
      change (8 * 2)%nat with 16%nat. rewrite V'. change (8 * 4)%nat with (16 + 16)%nat in V. rewrite load_split in V.
      change (256 ^ Z.of_nat 16) with (2 ^ 128) in V. rewrite <- V, Z.mul_comm, Z.mod_add by lia. symmetry. apply Z.mod_small. apply (load_range 16).
    + unfold l1. eapply same_below_trans; apply same_below_set; lia.
  - (* u256 to u256 *)
    apply (A (MOk z)); auto; [|apply extends_refl; exact Hw|cbn; lia|apply same_below_refl].
    cbn [code_cast]. unfold move_cast. cbn [width]. destruct R as [R _]. cbn [width] in R. replace (z <? 2 ^ 256) with true by lia. reflexivity.
Qed.

Lemma wp_cast : forall ep rt k from to r (Q : outcome -> Prop) s l w v z,
  wok w -> errtab_ok ep -> abort_flag w = 0 -> repr w from v z -> (k + 4 <= List.length l)%nat ->
  (oom w (cost_cast from to) -> Q OTrap) ->
  (forall o, code_cast from to z o -> after ep rt k (cost_cast from to) to r Q s l w o) ->
  wp (emit_cast ep rt k from to ++ r) Q (v :: s) l w.
Proof.
  intros ep rt k from to r Q s l w v z Hw He H0 R Hk HO A. unfold emit_cast. destruct (is_heap to) eqn:Ht.
  - eapply wp_cast_heap; eassumption.
  - eapply wp_cast_simple; try eassumption. intros o Ho. specialize (A o Ho).
    assert (E : cost_cast from to = 0) by (unfold cost_cast, cost_heap; rewrite Ht; destruct from, to; try discriminate; reflexivity).
    rewrite E in A. exact A.
Qed.

(** ** The emitted sequences as functions

    The operands are the arguments; this is the code between the operand loads and the [Ret] of
    [fun f(a: T, b: T): T { a op b }]. *)
Definition arith_fn (ep : errtab) (op : aop) (t : ity) : func :=
  Func 2 4 1 ([ LocalGet 0; LocalGet 1 ] ++ emit_arith ep true 2 op t).
Definition cmp_fn (op : cop) (t : ity) : func :=
  Func 2 4 1 ([ LocalGet 0; LocalGet 1 ] ++ emit_cmp 2 op t).
Definition shift_fn (ep : errtab) (op : sop) (t : ity) : func :=
  Func 2 4 1 ([ LocalGet 0; LocalGet 1 ] ++ emit_shift ep true op t).
Definition cast_fn (ep : errtab) (from to : ity) : func :=
  Func 1 4 1 ([ LocalGet 0 ] ++ emit_cast ep true 1 from to).
