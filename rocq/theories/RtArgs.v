(** * Passing arguments to Move functions (C82): translation/functions.rs 232-305 [prepare_function_arguments],
    translation.rs 3325-3370 [box_args] and what calls do with references to vectors (translation.rs 870-895, 1107-1125). *)

From Verif Require Import SpecInt Spec Tac RtAlloc RtErr RtInt RtDiv RtShift RtAscii Ops SpecVal LemVal RtCopy RtCopy2 RtVec RtVec2 SpecVec RtStore RtCall SpecRef RtRef LemRef RtLocal LemLocal SpecArgs.
Ltac Zify.zify_post_hook ::= idtac.

(** functions.rs 268-297: one argument.  [b]: the local it is spilled to; [c]: the local [mut_ref_vec_local]. *)
Definition spill_arg (b c : nat) (a : arg) : list instr :=
  match a with
  | AVal _ => [ LocalSet b ]
  | ARef _ => [ Load 4 0; LocalSet b ]
  | AVec _ => [ LocalSet c; LocalGet c; Load 4 0; LocalSet b ]
  end.
(** functions.rs 266-297: the last argument first.  The locals are new ones; here [b], [b + 1], ... and [c], [c + 1], ... for
    the arguments in order. *)
Fixpoint spill_args (b c : nat) (args : list arg) : list instr :=
  match args with [] => [] | a :: args' => spill_args (S b) (S c) args' ++ spill_arg b c a end.
(** functions.rs 299-302. *)
Fixpoint push_args (b : nat) (args : list arg) : list instr :=
  match args with [] => [] | _ :: args' => LocalGet b :: push_args (S b) args' end.
(** functions.rs 238-305 [prepare_function_arguments]. *)
Definition prepare_arguments (b c : nat) (args : list arg) : list instr :=
  if existsb by_ref args then spill_args b c args ++ push_args b args else [].

(** translation.rs 870-895 and 1107-1125: after the call, for every recorded reference (the last argument first).
    runtime.rs 769: [VecUpdateMutRef] does not fail, so no error check follows. *)
Fixpoint update_refs (c : nat) (args : list arg) : list instr :=
  match args with
  | [] => []
  | a :: args' => update_refs (S c) args' ++ match a with AVec _ => [ LocalGet c; Call vec_update_mut_ref ] | _ => [] end
  end.

(** translation.rs 795-895 (CallGeneric) and 981-1125 (Call), for a function that is not native: the arguments are on the
    stack, the first one deepest. *)
Definition call_with (f : func) (args : list arg) (ts : list ty) (rt : bool) (q b c : nat) : list instr :=
  prepare_arguments b c args ++ call_code f ts rt q ++ update_refs c args.

(** intermediate_types.rs 755-786 [box_local_instructions], for references. *)
Definition box_ref (k q : nat) : list instr := [ LocalSet q; Const 4; Call alloc; LocalTee k; LocalGet q; Store 4 0 ].
(** translation.rs 3332-3370 [box_args]: at the start of a function.  [v], [q]: the locals of [box_local]; the code makes new
    ones for every parameter and uses them right after setting them.  A u64 goes to a new local that replaces the parameter
    (locals have a wasm type), here to the same local. *)
Fixpoint box_args (v q i : nat) (args : list arg) : list instr :=
  match args with
  | [] => []
  | a :: args' => LocalGet i :: (match a with AVal t => box_local t i v q | _ => box_ref i q end) ++ box_args v q (S i) args'
  end.

(** translation.rs 1821-1862 (VecLen). *)
Definition vec_length : list instr := [ Load 4 0; Load 4 0; Un ExtendU ].

(** ** Functions used to state what is lost *)

Definition mut_ref (t : ty) : arg := match t with TVec e => AVec e | _ => ARef t end.
(** [fun assign(p: &mut T, x: T) { *p = x }]: MoveLoc 1, MoveLoc 0 (of a reference: intermediate_types.rs 361-364), WriteRef, Ret. *)
Definition assign_fn (t : ty) : func :=
  move_function 2 6 6 (box_args 2 3 0 [mut_ref t; AVal t] ++ move_local t 1 ++ [ LocalGet 0 ] ++ write_ref t 4 5 ++ prepare_return 6 7 []) [].
(** [fun same(p: &mut vector<T>): &mut vector<T> { p }]: MoveLoc 0, Ret.  A reference is returned in 4 bytes, as a u32 is
    (intermediate_types.rs 120-143). *)
Definition same_fn (t : ty) : func := move_function 1 4 3 (box_args 1 2 0 [AVec t] ++ [ LocalGet 0 ] ++ prepare_return 3 4 [TU32]) [TU32].
(** [let p = same(r); push_back(p, x); length(r)], with [r] on the stack and in the local [kr], and [x] in the local [kx]. *)
Definition push_through (ep : errtab) (t : ty) (rt : bool) (q b c kr kx : nat) : list instr :=
  call_with (same_fn t) [AVec t] [TU32] rt q b c ++ [ LocalGet kx; Call (vec_push_back ep t) ] ++ propagate rt ++ [ LocalGet kr ] ++ vec_length.

(** [fun extend(v: &mut vector<T>, x1: T, ..., xn: T) { push_back(v, x1); ...; push_back(v, xn) }]: CopyLoc 0, MoveLoc i,
    VecPushBack (translation.rs 1730-1777), Ret.  [i]: the local of the first of the [n] values. *)
Fixpoint push_code (ep : errtab) (t : ty) (i n : nat) : list instr :=
  match n with O => [] | S n' => [ LocalGet 0 ] ++ move_local t i ++ [ Call (vec_push_back ep t) ] ++ propagate false ++ push_code ep t (S i) n' end.
Definition extend_args (t : ty) (n : nat) : list arg := AVec t :: repeat (AVal t) n.
Definition extend_fn (ep : errtab) (t : ty) (n : nat) : func :=
  move_function (S n) 3 (S (S (S n))) (box_args (S n) (S (S n)) 0 (extend_args t n) ++ push_code ep t 1 n ++ prepare_return (S (S (S n))) 0 []) [].

(** ** Passing the arguments *)

Definition given (m : memory) (a : arg) (x : Z) : Z := if by_ref a then load 4 m x else x.
Fixpoint givens (m : memory) (args : list arg) (xs : list Z) : list Z :=
  match args, xs with a :: args', x :: xs' => given m a x :: givens m args' xs' | _, _ => [] end.
Fixpoint spilled (m : memory) (b c : nat) (args : list arg) (xs l : list Z) : Prop :=
  match args, xs with
  | [], [] => True
  | a :: args', x :: xs' => nth_error l b = Some (given m a x) /\ match a with AVec _ => nth_error l c = Some x | _ => True end /\
      spilled m (S b) (S c) args' xs' l
  | _, _ => False
  end.
Lemma spilled_ext : forall args m b c xs l l', (forall k, (b <= k < b + List.length args \/ c <= k < c + List.length args)%nat -> nth_error l' k = nth_error l k) ->
  spilled m b c args xs l -> spilled m b c args xs l'.
Proof.
  induction args as [|a args IH]; intros m b c [|x xs] l l' E H; cbn [spilled List.length] in *; auto. destruct H as (H1&H2&H3).
  split; [rewrite E by lia; exact H1|]. split; [destruct a; [exact Logic.I|exact Logic.I|rewrite E by lia; exact H2]|]. eapply IH; [|exact H3]. intros k Hk. apply E. lia.
Qed.

Definition call_locals (b c n : nat) : list nat := seq b n ++ seq c n.
Lemma call_locals_in : forall b c n k, In k (call_locals b c n) <-> (b <= k < b + n \/ c <= k < c + n)%nat.
Proof. intros. unfold call_locals. rewrite in_app_iff, !in_seq. tauto. Qed.

Lemma wp_spill_args : forall args b c xs r (Q : outcome -> Prop) s l w, Forall2 (arg_ok w) args xs -> wok w -> (b + List.length args <= c)%nat -> (c + List.length args <= List.length l)%nat ->
  (forall l', same_locals (call_locals b c (List.length args)) l l' -> spilled (mem w) b c args xs l' -> wp r Q s l' w) ->
  wp (spill_args b c args ++ r) Q (rev xs ++ s) l w.
Proof.
  induction args as [|a args IH]; intros b c xs r Q s l w H Hw L1 L2 K; inversion H as [|a' x args' xs' Hx Hxs]; subst.
  { cbn [spill_args rev app]. apply K; [apply same_locals_refl|exact Logic.I]. }
  cbn [spill_args rev List.length] in *. rewrite <- !app_assoc. cbn [app].
  apply (IH (S b) (S c) xs'); [exact Hxs|exact Hw|lia|lia|]. intros l' (S1&S2) Sp. pose proof Hw as (P1&P2&P3&P4&P5&P6).
  assert (Nb : ~ In b (seq c (S (List.length args)))) by (rewrite in_seq; lia).
  assert (Fin : forall l'', List.length l'' = List.length l' -> nth_error l'' b = Some (given (mem w) a x) -> match a with AVec _ => nth_error l'' c = Some x | _ => True end ->
     (forall k, k <> b -> k <> c -> nth_error l'' k = nth_error l' k) -> wp r Q s l'' w).
  { intros l'' E1 E2 E3 E4. apply K.
    - split; [lia|]. intros k Nk. rewrite call_locals_in in Nk. rewrite E4 by lia. apply S2. rewrite call_locals_in. lia.
    - cbn [spilled]. split; [exact E2|]. split; [exact E3|]. eapply spilled_ext; [|exact Sp]. intros k Hk. apply E4; lia. }
  assert (G : forall y, 0 <= load 4 (mem w) y < 2 ^ 32) by (intros; apply load_4_range).
  destruct a as [t|t|t]; cbn [spill_arg app arg_ok given by_ref] in *.
  - apply wp_lset'; [lia|]. apply Fin; [apply set_nth_length|apply set_nth_same; lia|exact Logic.I|]. intros k N1 N2. apply set_nth_other; congruence.
  - destruct (sub_block _ _ _ _ Hx) as [Y1 Y2]; [lia|]. eapply wp_load; [lia|unfold page_size; lia|]. rewrite Z.add_0_r. apply wp_lset'; [lia|].
    apply Fin; [apply set_nth_length|apply set_nth_same; lia|exact Logic.I|]. intros k N1 N2. apply set_nth_other; congruence.
  - destruct (sub_block _ _ _ _ Hx) as [Y1 Y2]; [lia|]. apply wp_lset'; [lia|]. eapply wp_lget; [apply set_nth_same; lia|].
    eapply wp_load; [lia|unfold page_size; lia|]. rewrite Z.add_0_r. apply wp_lset'; [rewrite set_nth_length; lia|].
    apply Fin; [rewrite !set_nth_length; reflexivity|apply set_nth_same; rewrite set_nth_length; lia| |].
    + rewrite set_nth_other by lia. apply set_nth_same. lia.
    + intros k N1 N2. rewrite !set_nth_other by congruence. reflexivity.
Qed.
Lemma wp_push_args : forall args m b c xs r (Q : outcome -> Prop) s l w, spilled m b c args xs l -> wp r Q (rev (givens m args xs) ++ s) l w -> wp (push_args b args ++ r) Q s l w.
Proof.
  induction args as [|a args IH]; intros m b c [|x xs] r Q s l w H K; cbn [spilled] in H; try contradiction; [exact K|]. destruct H as (H1&H2&H3).
  cbn [push_args app]. eapply wp_lget; [exact H1|]. eapply IH; [exact H3|]. cbn [givens rev] in K. rewrite <- app_assoc in K. exact K.
Qed.
Lemma givens_values : forall args m xs, existsb by_ref args = false -> List.length xs = List.length args -> givens m args xs = xs.
Proof.
  induction args as [|a args IH]; intros m [|x xs] E L; cbn [existsb givens List.length] in *; try discriminate; [reflexivity|]. apply orb_false_iff in E as (E1&E2).
  rewrite IH by (auto; lia). unfold given. rewrite E1. reflexivity.
Qed.
Lemma Forall2_len : forall (A B : Type) (R : A -> B -> Prop) l l', Forall2 R l l' -> List.length l' = List.length l.
Proof. intros A B R l l' H. induction H; cbn; congruence. Qed.
(** The recorded references. *)
Fixpoint recorded (c : nat) (args : list arg) (xs l : list Z) : Prop :=
  match args, xs with a :: args', x :: xs' => match a with AVec _ => nth_error l c = Some x | _ => True end /\ recorded (S c) args' xs' l | _, _ => True end.
Lemma spilled_recorded : forall args m b c xs l, spilled m b c args xs l -> recorded c args xs l.
Proof. induction args as [|a args IH]; intros m b c [|x xs] l H; cbn [spilled recorded] in *; auto. destruct H as (_&H2&H3). split; [exact H2|]. eapply IH. exact H3. Qed.
Lemma recorded_values : forall args c xs l, existsb by_ref args = false -> recorded c args xs l.
Proof. induction args as [|a args IH]; intros c [|x xs] l E; cbn [existsb recorded] in *; auto. apply orb_false_iff in E as (E1&E2). split; [destruct a; [exact Logic.I| |]; discriminate|]. apply IH. exact E2. Qed.

Lemma wp_prepare_arguments : forall args b c xs r (Q : outcome -> Prop) s l w, Forall2 (arg_ok w) args xs -> wok w -> (b + List.length args <= c)%nat -> (c + List.length args <= List.length l)%nat ->
  (forall l', same_locals (call_locals b c (List.length args)) l l' -> recorded c args xs l' -> wp r Q (rev (givens (mem w) args xs) ++ s) l' w) ->
  wp (prepare_arguments b c args ++ r) Q (rev xs ++ s) l w.
Proof.
  intros args b c xs r Q s l w H Hw L1 L2 K. unfold prepare_arguments. destruct (existsb by_ref args) eqn:E.
  - rewrite <- app_assoc. apply wp_spill_args; [exact H|exact Hw|exact L1|exact L2|]. intros l' Sl Sp. eapply wp_push_args; [exact Sp|]. apply K; [exact Sl|eapply spilled_recorded; exact Sp].
  - cbn [app]. rewrite <- (givens_values args (mem w) xs E (Forall2_len _ _ _ _ _ H)) at 1. apply K; [apply same_locals_refl|apply recorded_values; exact E].
Qed.

(** ** At the start of the callee *)

Lemma wp_box_local : forall t k v q x r (Q : outcome -> Prop) s l w, k <> v -> k <> q -> v <> q -> (k < List.length l)%nat -> (v < List.length l)%nat -> (q < List.length l)%nat ->
  wok w -> 0 <= x < 256 ^ Z.of_nat (esize t) -> (oom w (box_memory t) -> Q OTrap) ->
  (forall w' l', extends w w' -> same_locals [k; v; q] l l' -> nth_error l' k = Some (gnext w) -> gnext w' = gnext w + box_memory t ->
     (if is_stack t then load 4 (mem w') (gnext w) = gnext w + 4 /\ load (esize t) (mem w') (gnext w + 4) = x else load 4 (mem w') (gnext w) = x) -> wp r Q s l' w') ->
  wp (box_local t k v q ++ r) Q (x :: s) l w.
Proof.
  intros t k v q x r Q s l w Nkv Nkq Nvq Lk Lv Lq Hw Bx T K. pose proof Hw as (P1&P2&P3&P4&P5&P6). pose proof (esize_range t) as Es.
  assert (Bm : box_memory t = 4 + (if is_stack t then Z.of_nat (esize t) else 0)) by (unfold box_memory, boxes; cbn [fold_right]; lia).
  unfold box_local. destruct (is_stack t) eqn:St; cbn [app].
  - apply wp_lset'; [exact Lv|]. ws1.
    eapply wp_call_spec; [reflexivity|cbn [List.length]; lia|cbn [firstn rev app]; apply alloc_spec; [exact Hw|lia]|intros O; apply T; eapply oom_mono; [exact O|lia]|].
    intros rs w1 (->&Al). cbn [app skipn]. pose proof (alloc_extends _ _ _ Hw Al ltac:(lia)) as Ex1. destruct Al as (Hw1&Em1&Mx1&Pg1&Gn1&Gc1&Ho1). pose proof Hw1 as (Q1&Q2&Q3&Q4&Q5&Q6).
    apply wp_ltee'; [rewrite set_nth_length; exact Lk|]. ws1.
    eapply wp_call_spec; [reflexivity|cbn [List.length]; lia|cbn [firstn rev app]; apply alloc_spec; [exact Hw1|lia]|intros O; apply T; unfold oom in *; lia|].
    intros rs w2 (->&Al). cbn [app skipn]. pose proof (alloc_extends _ _ _ Hw1 Al ltac:(lia)) as Ex2. destruct Al as (Hw2&Em2&Mx2&Pg2&Gn2&Gc2&Ho2). pose proof Hw2 as (R1&R2&R3&R4&R5&R6).
    apply wp_ltee'; [rewrite !set_nth_length; exact Lq|]. eapply wp_store; [lia|unfold page_size; lia|]. rewrite Z.add_0_r, Em2, Em1. change (Z.of_nat 4) with 4.
    eapply wp_lget; [apply set_nth_same; rewrite !set_nth_length; exact Lq|]. eapply wp_lget; [rewrite !set_nth_other by congruence; apply set_nth_same; exact Lv|].
    set (m1 := store 4 (mem w) (gnext w) (gnext w1)). eapply wp_store; [lia|cbn [pages set_mem]; unfold page_size; lia|]. rewrite Z.add_0_r. cbn [mem set_mem].
    set (m2 := store (Z.of_nat (esize t)) m1 (gnext w1) x). change (set_mem (set_mem w2 m1) m2) with (set_mem w2 m2).
    assert (Out : forall y, y < gnext w \/ gnext w2 <= y -> rd m2 y = rd (mem w) y) by (intros y Y; unfold m2, m1; rewrite !rd_store_out by lia; reflexivity).
    apply K.
    + split; [|cbn [maxpages pages gnext gcd host mem set_mem]; repeat (split; [first [lia|congruence]|]); intros y Y; apply Out; lia].
      unfold wok. cbn [maxpages pages gnext gavail mem set_mem]. repeat (split; [lia|]). intros y Y. rewrite Out by lia. apply P6. lia.
    + apply same_locals_set; [cbn; tauto|]. apply same_locals_set; [cbn; tauto|]. apply same_locals_set; [cbn; tauto|]. apply same_locals_refl.
    + rewrite set_nth_other by congruence. apply set_nth_same. rewrite set_nth_length. exact Lk.
    + cbn [gnext set_mem]. lia.
    + cbn [mem set_mem]. split.
      * unfold m2. rewrite load_store_other by lia. unfold m1. change 4 with (Z.of_nat 4) at 1. rewrite load_store_same, Z.mod_small; lia.
      * replace (gnext w + 4) with (gnext w1) by lia. unfold m2. rewrite load_store_same, Z.mod_small by exact Bx. reflexivity.
  - assert (Es4 : esize t = 4%nat) by (destruct t; try discriminate; reflexivity). rewrite Es4 in Bx. apply wp_lset'; [exact Lq|]. ws1.
    eapply wp_call_spec; [reflexivity|cbn [List.length]; lia|cbn [firstn rev app]; apply alloc_spec; [exact Hw|lia]|intros O; apply T; eapply oom_mono; [exact O|lia]|].
    intros rs w1 (->&Al). cbn [app skipn]. pose proof (alloc_extends _ _ _ Hw Al ltac:(lia)) as Ex1. destruct Al as (Hw1&Em1&Mx1&Pg1&Gn1&Gc1&Ho1). pose proof Hw1 as (Q1&Q2&Q3&Q4&Q5&Q6).
    apply wp_ltee'; [rewrite set_nth_length; exact Lk|]. eapply wp_lget; [rewrite set_nth_other by congruence; apply set_nth_same; exact Lq|].
    eapply wp_store; [lia|unfold page_size; lia|]. rewrite Z.add_0_r, Em1. change (Z.of_nat 4) with 4. set (m2 := store 4 (mem w) (gnext w) x).
    assert (Out : forall y, y < gnext w \/ gnext w1 <= y -> rd m2 y = rd (mem w) y) by (intros y Y; unfold m2; rewrite rd_store_out by lia; reflexivity).
    apply K.
    + split; [|cbn [maxpages pages gnext gcd host mem set_mem]; repeat (split; [first [lia|congruence]|]); intros y Y; apply Out; lia].
      unfold wok. cbn [maxpages pages gnext gavail mem set_mem]. repeat (split; [lia|]). intros y Y. rewrite Out by lia. apply P6. lia.
    + apply same_locals_set; [cbn; tauto|]. apply same_locals_set; [cbn; tauto|]. apply same_locals_refl.
    + apply set_nth_same. rewrite set_nth_length. exact Lk.
    + cbn [gnext set_mem]. lia.
    + cbn [mem set_mem]. unfold m2. rewrite load_4_store. apply w32_small. exact Bx.
Qed.

(** A parameter [a] that got the word [y] is boxed at [r], in memory allocated between [w] and [w']. *)
Definition boxed (w w' : world) (a : arg) (y r : Z) : Prop :=
  gnext w <= r /\ r + 4 <= gnext w' /\
  match a with
  | AVal t => if is_stack t then load 4 (mem w') r = r + 4 /\ load (esize t) (mem w') (r + 4) = y /\ r + 4 + Z.of_nat (esize t) <= gnext w' else load 4 (mem w') r = y
  | _ => load 4 (mem w') r = y
  end.
Fixpoint boxed_all (w w' : world) (i : nat) (args : list arg) (ys l : list Z) : Prop :=
  match args, ys with
  | a :: args', y :: ys' => (exists r, nth_error l i = Some r /\ boxed w w' a y r) /\ boxed_all w w' (S i) args' ys' l
  | _, _ => True
  end.
Lemma extends_load : forall w w' n a, extends w w' -> 0 <= a -> a + Z.of_nat n <= gnext w -> load n (mem w') a = load n (mem w) a.
Proof. intros w w' n a (_&_&_&_&_&_&E) A B. apply load_ext. intros i Hi. apply E. lia. Qed.
Lemma boxed_mono : forall w0 w w' w2 a y r, wok w -> gnext w0 <= gnext w -> extends w' w2 -> boxed w w' a y r -> boxed w0 w2 a y r.
Proof.
  intros w0 w w' w2 a y r Hw G Ex (H1&H2&H3). pose proof Ex as (_&_&_&G2&_). pose proof Hw as (P1&P2&P3&P4&P5&P6). unfold boxed. split; [lia|]. split; [lia|].
  destruct a as [t| |]; try (rewrite (extends_load _ _ _ _ Ex) by lia; exact H3). destruct (is_stack t).
  - destruct H3 as (H3&H4&H5). pose proof (esize_range t). rewrite !(extends_load _ _ _ _ Ex) by lia. split; [exact H3|]. split; [exact H4|]. lia.
  - rewrite (extends_load _ _ _ _ Ex) by lia. exact H3.
Qed.
Lemma boxed_all_mono : forall args w0 w w' w2 i ys l, wok w -> gnext w0 <= gnext w -> extends w' w2 -> boxed_all w w' i args ys l -> boxed_all w0 w2 i args ys l.
Proof.
  induction args as [|a args IH]; intros w0 w w' w2 i [|y ys] l Hw G Ex H; cbn [boxed_all] in *; auto. destruct H as ((r&H1&H2)&H3).
  split; [exists r; split; [exact H1|eapply boxed_mono; eassumption]|eapply IH; eassumption].
Qed.

Definition word_ok (a : arg) (y : Z) : Prop := match a with AVal t => 0 <= y < 256 ^ Z.of_nat (esize t) | _ => 0 <= y < 2 ^ 32 end.
Fixpoint holds (i : nat) (ys l : list Z) : Prop := match ys with [] => True | y :: ys' => nth_error l i = Some y /\ holds (S i) ys' l end.
Lemma holds_ext : forall ys i l l', (forall k, (i <= k < i + List.length ys)%nat -> nth_error l' k = nth_error l k) -> holds i ys l -> holds i ys l'.
Proof.
  induction ys as [|y ys IH]; intros i l l' E H; cbn [holds List.length] in *; auto. destruct H as (H1&H2). split; [rewrite E by lia; exact H1|].
  eapply IH; [|exact H2]. intros k Hk. apply E. lia.
Qed.
Definition arg_memory (a : arg) : Z := match a with AVal t => box_memory t | _ => 4 end.
Definition args_memory (args : list arg) : Z := fold_right (fun a n => arg_memory a + n) 0 args.
Lemma arg_memory_pos : forall a, 4 <= arg_memory a.
Proof. intros [t| |]; cbn [arg_memory]; try lia. unfold box_memory, boxes. cbn [fold_right]. destruct (is_stack t); lia. Qed.
Lemma args_memory_nonneg : forall args, 0 <= args_memory args.
Proof. induction args as [|a args IH]; cbn [args_memory fold_right]; [lia|]. fold (args_memory args). pose proof (arg_memory_pos a). lia. Qed.
Lemma oom_more : forall w w' n k, gnext w' = gnext w + k -> maxpages w' = maxpages w -> 0 <= k -> oom w' n -> oom w (k + n).
Proof. intros w w' n k G M K O. unfold oom in *. lia. Qed.

Lemma wp_box_args : forall args v q i ys r (Q : outcome -> Prop) s l w, Forall2 word_ok args ys -> wok w -> v <> q -> (i + List.length args <= v)%nat -> (i + List.length args <= q)%nat ->
  (v < List.length l)%nat -> (q < List.length l)%nat -> holds i ys l -> (oom w (args_memory args) -> Q OTrap) ->
  (forall w' l', extends w w' -> same_locals (v :: q :: seq i (List.length args)) l l' -> gnext w' = gnext w + args_memory args -> boxed_all w w' i args ys l' -> wp r Q s l' w') ->
  wp (box_args v q i args ++ r) Q s l w.
Proof.
  induction args as [|a args IH]; intros v q i ys r Q s l w H Hw Nvq L1 L2 Lv Lq Hh T K; inversion H as [|a' y args' ys' Hy Hys]; subst.
  { cbn [box_args app]. apply K; [apply extends_refl; exact Hw|apply same_locals_refl|cbn; lia|exact Logic.I]. }
  cbn [box_args app List.length holds args_memory fold_right] in *. fold (args_memory args) in *. destruct Hh as (Hy0&Hh). pose proof (arg_memory_pos a) as Ap. pose proof (args_memory_nonneg args) as Np.
  eapply wp_lget; [exact Hy0|]. rewrite <- app_assoc.
  assert (Rest : forall w1 l1, extends w w1 -> same_locals [i; v; q] l l1 -> gnext w1 = gnext w + arg_memory a -> (exists r0, nth_error l1 i = Some r0 /\ boxed w w1 a y r0) ->
     wp (box_args v q (S i) args ++ r) Q s l1 w1).
  { intros w1 l1 Ex1 (S1&S2) G1 (r0&N0&B0). pose proof Ex1 as (Hw1&Mx&_). eapply (IH v q (S i) ys'); [exact Hys|exact Hw1|exact Nvq|lia|lia|lia|lia| | |].
    - eapply holds_ext; [|exact Hh]. intros k Hk. apply S2. rewrite (Forall2_len _ _ _ _ _ Hys) in Hk. cbn. intros [E|[E|[E|[]]]]; lia.
    - intros O. apply T. eapply oom_more; [exact G1|congruence|lia|exact O].
    - intros w2 l2 Ex2 (S3&S4) G2 B2. apply K; [eapply extends_trans; [exact Ex1|exact Ex2]| |lia|].
      + split; [lia|]. intros k Nk. cbn [In] in Nk. rewrite in_seq in Nk. rewrite S4, S2; [reflexivity|cbn; lia|cbn; rewrite in_seq; lia].
      + cbn [boxed_all]. split.
        * exists r0. split; [rewrite S4; [exact N0|cbn; rewrite in_seq; lia]|]. eapply boxed_mono; [exact Hw|lia|exact Ex2|exact B0].
        * pose proof Hw1 as Hw1'. eapply boxed_all_mono; [exact Hw1|lia|apply extends_refl; apply Ex2|exact B2]. }
  assert (Ref : a <> AVal TU8 -> match a with AVal _ => False | _ => True end -> wp (box_ref i q ++ box_args v q (S i) args ++ r) Q (y :: s) l w).
  { intros _ Na. change (box_ref i q) with (box_local TAddress i v q). apply wp_box_local; try lia; try exact Hw.
    - destruct a; [destruct Na|exact Hy|exact Hy].
    - intros O. apply T. eapply oom_mono; [exact O|]. change (box_memory TAddress) with 4. lia.
    - intros w1 l1 Ex1 Sl N0 G1 C1. change (box_memory TAddress) with 4 in G1. cbn [is_stack] in C1.
      apply Rest; [exact Ex1|exact Sl|destruct a; [destruct Na|exact G1|exact G1]|]. exists (gnext w). split; [exact N0|]. unfold boxed. split; [lia|]. split; [lia|]. destruct a; [destruct Na|exact C1|exact C1]. }
  destruct a as [t|t|t]; [|apply Ref; [discriminate|exact Logic.I]|apply Ref; [discriminate|exact Logic.I]].
  apply wp_box_local; try lia; try exact Hw; [exact Hy|intros O; apply T; eapply oom_mono; [exact O|cbn [arg_memory]; lia]|].
  intros w1 l1 Ex1 Sl N0 G1 C1. apply Rest; [exact Ex1|exact Sl|exact G1|]. exists (gnext w). split; [exact N0|]. unfold boxed.
  assert (Bm : box_memory t = 4 + (if is_stack t then Z.of_nat (esize t) else 0)) by (unfold box_memory, boxes; cbn [fold_right]; lia).
  pose proof (esize_range t). split; [lia|]. split; [destruct (is_stack t); lia|]. destruct (is_stack t); [|exact C1]. destruct C1 as (C1&C2). split; [exact C1|]. split; [exact C2|lia].
Qed.
