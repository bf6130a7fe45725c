(** * Symbolic execution tactics and the machine invariant. *)

From Coq Require Export ZArith List String Bool Lia ZifyBool ZifyNat.
From Verif Require Export Wasm Mem Logic.
Export ListNotations.
Open Scope Z_scope.

Lemma w32_small : forall x, 0 <= x < 4294967296 -> w32 x = x.
Proof. intros; unfold w32; apply Z.mod_small; lia. Qed.
Lemma w64_small : forall x, 0 <= x < 18446744073709551616 -> w64 x = x.
Proof. intros; unfold w64; apply Z.mod_small; lia. Qed.
Lemma w32_range : forall x, 0 <= w32 x < 4294967296.
Proof. intros; unfold w32; apply Z.mod_pos_bound; lia. Qed.
Lemma w64_range : forall x, 0 <= w64 x < 18446744073709551616.
Proof. intros; unfold w64; apply Z.mod_pos_bound; lia. Qed.

(** Wrapped sums and differences, when at most one wrap can have happened. *)
Lemma w32_sub_neg : forall x, -4294967296 <= x < 0 -> w32 x = x + 4294967296.
Proof. intros; unfold w32. rewrite <- (Z.mod_add x 1) by lia. rewrite Z.mod_small; lia. Qed.
Lemma w32_add_over : forall x, 4294967296 <= x < 2 * 4294967296 -> w32 x = x - 4294967296.
Proof. intros; unfold w32. rewrite <- (Z.mod_add x (-1)) by lia. rewrite Z.mod_small; lia. Qed.
Lemma w64_sub_neg : forall x, -18446744073709551616 <= x < 0 -> w64 x = x + 18446744073709551616.
Proof. intros; unfold w64. rewrite <- (Z.mod_add x 1) by lia. rewrite Z.mod_small; lia. Qed.
Lemma w64_add_over : forall x,
  18446744073709551616 <= x < 2 * 18446744073709551616 -> w64 x = x - 18446744073709551616.
Proof. intros; unfold w64. rewrite <- (Z.mod_add x (-1)) by lia. rewrite Z.mod_small; lia. Qed.

Lemma sgn32_pos : forall x, x < 2147483648 -> sgn I32 x = x.
Proof. intros; unfold sgn. destruct (x <? 2147483648) eqn:E; lia. Qed.
Lemma sgn32_neg : forall x, 2147483648 <= x -> sgn I32 x = x - 4294967296.
Proof. intros; unfold sgn. destruct (x <? 2147483648) eqn:E; lia. Qed.

Lemma b2z_true : forall b, b2z b <> 0 -> b = true.
Proof. destruct b; cbn; auto; lia. Qed.
Lemma b2z_false : forall b, b2z b = 0 -> b = false.
Proof. destruct b; cbn; auto; lia. Qed.
Lemma b2z_eqz : forall b, b2z (b2z b =? 0) = b2z (negb b).
Proof. destruct b; reflexivity. Qed.
Lemma b2z_range : forall b, 0 <= b2z b <= 1.
Proof. destruct b; cbn; lia. Qed.

Lemma load_4_range : forall m a, 0 <= load 4 m a < 4294967296.
Proof. intros. exact (load_range 4 m a). Qed.
Lemma load_8_range : forall m a, 0 <= load 8 m a < 18446744073709551616.
Proof. intros. exact (load_range 8 m a). Qed.
Lemma load_4_store : forall m a v, load 4 (store 4 m a v) a = w32 v.
Proof. intros. exact (load_store_same 4 m a v). Qed.
Lemma load_8_store : forall m a v, load 8 (store 8 m a v) a = w64 v.
Proof. intros. exact (load_store_same 8 m a v). Qed.

(** [lia] on the linear part of the context first: hypotheses about powers,
    remainders and memory contents only slow it down. *)
Ltac lin_clear :=
  repeat match goal with
  | H := context [Z.pow _ _] |- _ => clearbody H
  | H := context [Z.modulo _ _] |- _ => clearbody H
  | H := context [Z.div _ _] |- _ => clearbody H
  | H := context [rd _ _] |- _ => clearbody H
  | H := context [load _ _ _] |- _ => clearbody H
  end;
  repeat match goal with
  | H : context [Z.pow _ _] |- _ => clear H
  | H : context [Z.modulo _ _] |- _ => clear H
  | H : context [Z.div _ _] |- _ => clear H
  | H : context [load _ _ _] |- _ => clear H
  | H : context [rd _ _] |- _ => clear H
  end.
Ltac slia := first [solve [lin_clear; lia] | lia].

(** Simplify wrapped arithmetic whose operand is provably in range. *)
Ltac wn :=
  repeat match goal with
  | |- context [w32 ?e] => rewrite (w32_small e) by slia
  | |- context [w64 ?e] => rewrite (w64_small e) by slia
  end.
Ltac wn_in H :=
  repeat match type of H with
  | context [w32 ?e] => rewrite (w32_small e) in H by lia
  | context [w64 ?e] => rewrite (w64_small e) in H by lia
  end.

(** Equality of lists of integers. *)
Ltac leq := repeat (first [reflexivity | lia | f_equal]).

Ltac unb H :=
  rewrite ?b2z_eqz in H;
  first [apply b2z_true in H | apply b2z_false in H | idtac].

Ltac wc :=
  cbn [nth_error set_nth app firstn skipn rev repeat List.length
       mem pages maxpages gnext gavail gcd host set_mem set_glob get_glob set_pages set_host
       unop bits Z.of_nat Pos.of_succ_nat Pos.succ
       blk ifk loopk fret resq andthen String.eqb Ascii.eqb Bool.eqb].

Ltac side := try (unfold page_size in *; cbn [Z.of_nat Pos.of_succ_nat Pos.succ pages mem set_mem set_glob set_pages set_host]; slia).

(** One instruction.  [Loop] and [Call] are left to the user. *)
Ltac ws1 :=
  lazymatch goal with
  | |- wp [] _ _ _ _ => apply wp_nil; wc
  | |- wp (Const _ :: _) _ _ _ _ => apply wp_const
  | |- wp (Bin _ DivU :: _) _ _ _ _ => fail "division"
  | |- wp (Bin _ RemU :: _) _ _ _ _ => fail "division"
  | |- wp (Bin _ _ :: _) _ _ _ _ => eapply wp_bin; [cbn [binop wrapt]; reflexivity|wn]
  | |- wp (Un _ :: _) _ _ _ _ => apply wp_un; cbn [unop]; wn
  | |- wp (LocalGet _ :: _) _ _ _ _ => eapply wp_lget; [reflexivity|]
  | |- wp (LocalSet _ :: _) _ _ _ _ => eapply wp_lset; [reflexivity|]; cbn [set_nth]
  | |- wp (LocalTee _ :: _) _ _ _ _ => eapply wp_ltee; [reflexivity|]; cbn [set_nth]
  | |- wp (GlobalGet _ :: _) _ _ _ _ => apply wp_gget; wc
  | |- wp (GlobalSet _ :: _) _ _ _ _ => apply wp_gset; wc
  | |- wp (Load _ _ :: _) _ _ _ _ => apply wp_load; [side|side|wc; rewrite ?Z.add_0_r]
  | |- wp (Store _ _ :: _) _ _ _ _ => apply wp_store; [side|side|wc; rewrite ?Z.add_0_r]
  | |- wp (MemCopy :: _) _ _ _ _ => apply wp_mcopy; [side|side|side|side|wc]
  | |- wp (MemFill :: _) _ _ _ _ => apply wp_mfill; [side|side|wc]
  | |- wp (Drop :: _) _ _ _ _ => apply wp_drop
  | |- wp (Unreachable :: _) _ _ _ _ => apply wp_unreachable; wc
  | |- wp (Block _ _ _ :: _) _ _ _ _ => apply wp_block
  | |- wp (If _ _ _ :: _) _ _ _ _ => apply wp_if; let C := fresh "C" in intros C; unb C
  | |- wp (Br _ :: _) _ _ _ _ => apply wp_br; wc
  | |- wp (BrIf _ :: _) _ _ _ _ => apply wp_brif; let C := fresh "C" in intros C; unb C; wc
  | |- wp (Return :: _) _ _ _ _ => apply wp_ret; wc
  end.
Ltac ws := repeat ws1.

(** ** Machine invariant

    The allocator's view of memory: everything between [gnext] and the end of
    the committed pages is free, and free memory still holds the zeros WASM
    memory starts with.  65535 is the largest page limit Stylus can be
    configured with (a u16), 468 the size of the compiler-reserved area
    (data.rs 64-69). *)
Definition wok (w : world) : Prop :=
  1 <= pages w <= maxpages w /\ maxpages w <= 65535 /\
  468 <= gnext w /\ 0 <= gavail w <= 65536 /\
  gnext w + gavail w = 65536 * pages w /\
  (forall a, gnext w <= a -> rd (mem w) a = 0).

(** [n] bytes at [p] are live heap or reserved memory. *)
Definition live (w : world) (p n : Z) : Prop := 0 <= p /\ 0 <= n /\ p + n <= gnext w.

(** Allocating execution: nothing but the heap frontier and fresh memory changed. *)
Definition extends (w w' : world) : Prop :=
  wok w' /\ maxpages w' = maxpages w /\ pages w <= pages w' /\ gnext w <= gnext w' /\
  gcd w' = gcd w /\ host w' = host w /\
  (forall a, 0 <= a < gnext w -> rd (mem w') a = rd (mem w) a).

Lemma live_inb : forall w p n, wok w -> live w p n -> 0 <= p /\ p + n <= page_size * pages w.
Proof. unfold wok, live, page_size; intros; lia. Qed.

Lemma extends_refl : forall w, wok w -> extends w w.
Proof. unfold extends; intros; repeat (split; [first [assumption|reflexivity|lia]|]); auto. Qed.

Lemma extends_trans : forall a b c, extends a b -> extends b c -> extends a c.
Proof.
  unfold extends; intros a b c (A1&A2&A3&A4&A5&A6&A7) (B1&B2&B3&B4&B5&B6&B7).
  assert (C7 : forall x, 0 <= x < gnext a -> rd (mem c) x = rd (mem a) x).
  { intros. rewrite B7 by lia. apply A7; lia. }
  split; [exact B1|]. repeat (split; [first [congruence|lia]|]). exact C7.
Qed.

Lemma live_extends : forall w w' p n, live w p n -> extends w w' -> live w' p n.
Proof. unfold live, extends; intros; intuition lia. Qed.

Lemma load_extends : forall w w' n p, extends w w' -> live w p (Z.of_nat n) ->
  load n (mem w') p = load n (mem w) p.
Proof.
  unfold extends, live; intros. apply load_ext. intros. apply H. lia.
Qed.

Lemma bytes_extends : forall w w' n p, extends w w' -> live w p (Z.of_nat n) ->
  bytes n (mem w') p = bytes n (mem w) p.
Proof.
  unfold extends, live; intros. apply bytes_ext. intros. apply H. lia.
Qed.

(** Only bytes satisfying [W] changed; allocator, globals and host are untouched. *)
Definition frame (w w' : world) (W : Z -> Prop) : Prop :=
  maxpages w' = maxpages w /\ pages w' = pages w /\ gnext w' = gnext w /\ gavail w' = gavail w /\
  gcd w' = gcd w /\ host w' = host w /\
  (forall a, ~ W a -> rd (mem w') a = rd (mem w) a).

(** [p, p+n). *)
Definition within (p n : Z) (a : Z) : Prop := p <= a < p + n.

(** Two [n]-byte objects are the same one or do not overlap. *)
Definition same_or_apart (p q n : Z) : Prop := p = q \/ p + n <= q \/ q + n <= p.

Lemma frame_set_mem : forall w m (W : Z -> Prop),
  (forall a, ~ W a -> rd m a = rd (mem w) a) -> frame w (set_mem w m) W.
Proof. unfold frame; intros; cbn; auto 10. Qed.

Lemma wok_frame : forall w w' W, wok w -> frame w w' W ->
  (forall a, W a -> a < gnext w) -> wok w'.
Proof.
  unfold wok, frame; intros w w' W (A1&A2&A3&A4&A5&A6) (F1&F2&F3&F4&F5&F6&F7) H.
  rewrite F1, F2, F3, F4. repeat (split; [lia|]).
  intros. rewrite F7; [apply A6; lia|]. intros K. apply H in K. lia.
Qed.

(** ** Using a specification at a call *)
Lemma wp_call_spec : forall f np nl nr b r (Q : outcome -> Prop) s l w Q' (T' : Prop),
  f = Func np nl nr b -> (np <= List.length s)%nat ->
  wpf f (rev (firstn np s)) w (resq Q' T') ->
  (T' -> Q OTrap) ->
  (forall vs w', Q' vs w' -> wp r Q (vs ++ skipn np s) l w') ->
  wp (Call f :: r) Q s l w.
Proof.
  intros. eapply wp_call; [eassumption|assumption|].
  eapply wpf_conseq; [eassumption|].
  intros [vs w'| | |]; cbn [resq]; auto.
Qed.

Ltac wcall spec :=
  eapply wp_call_spec; [reflexivity | cbn [List.length]; lia | wc; eapply spec | | ]; wc.

(** A zero-extending wrapper used throughout: the abort flag of data.rs
    (DATA_ABORT_MESSAGE_PTR_OFFSET = 256) is clear / set to [p]. *)
Definition abort_flag (w : world) : Z := load 4 (mem w) 256.

(** Keeping a hypothesis out of [lia]'s sight. *)
Inductive hidden (P : Prop) : Prop := Hidden (_ : P).
Ltac hide H := apply Hidden in H.
Ltac unhide H := destruct H as [H].
