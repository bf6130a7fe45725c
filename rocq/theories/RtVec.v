(** * Vector operations: runtime/vector.rs. *)

From Verif Require Import Tac RtAlloc RtErr RtInt RtDiv RtShift RtAscii Ops SpecVal LemVal RtCopy RtCopy2.
Ltac Zify.zify_post_hook ::= idtac.

(** runtime/vector.rs 21-55. *)
Definition increment_vec_len : func := Func 1 0 0
 [ LocalGet 0; LocalGet 0; Load 4 0; Const 1; Bin I32 Add; Store 4 0 ].

(** runtime/vector.rs 61-122.  Local 1: encoded_error_ptr of [return_error]. *)
Definition decrement_vec_len (ep : errtab) : func := Func 1 1 0
 [ LocalGet 0; Load 4 0; Un Eqz;
   If 0 (return_error ep OutOfBounds 1 false)
     [ LocalGet 0; LocalGet 0; Load 4 0; Const 1; Bin I32 Sub; Store 4 0 ] ].

(** wasm_builder_extensions.rs [negate]: 1 i32.ne. *)
Definition negate : list instr := [ Const 1; Bin I32 Ne ].

(** runtime/vector.rs 137-314.  Locals: 0 vector_ref, 1 idx1_i64, 2 idx2_i64, 3 idx1, 4 idx2, 5 len,
    6 aux, 7 ptr1, 8 ptr2, 9 encoded_error_ptr. *)
Definition vec_swap (ep : errtab) (t : ty) : func := Func 3 7 0
 ([ LocalGet 1; Call (downcast_u64_to_u32 ep); LocalSet 3;
    LocalGet 2; Call (downcast_u64_to_u32 ep); LocalSet 4;
    LocalGet 0; Load 4 0; LocalTee 0; Load 4 0; LocalSet 5;
    Block "nonempty" 0 ([ LocalGet 5; Un Eqz ] ++ negate ++ [ BrIf "nonempty" ] ++ return_error ep OutOfBounds 9 false);
    Block "swap" 0
     ([ LocalGet 1; LocalGet 2; Bin I64 Eq; BrIf "swap";
        LocalGet 3; LocalGet 5; Bin I32 GeU; If 0 (return_error ep OutOfBounds 9 false) [];
        LocalGet 4; LocalGet 5; Bin I32 GeU; If 0 (return_error ep OutOfBounds 9 false) [] ]
      ++ vec_elem_ptr 0 3 (Z.of_nat (esize t)) ++ [ LocalSet 7 ]
      ++ vec_elem_ptr 0 4 (Z.of_nat (esize t)) ++ [ LocalSet 8;
        LocalGet 7; Load (esize t) 0; LocalSet 6;
        LocalGet 7; LocalGet 8; Load (esize t) 0; Store (esize t) 0;
        LocalGet 8; LocalGet 6; Store (esize t) 0 ]) ]).

(** runtime/vector.rs 329-411.  Locals: 0 vector_ref, 1 len. *)
Definition vec_pop_back (ep : errtab) (t : ty) : func := Func 1 1 1
 ([ LocalGet 0; Load 4 0; LocalTee 0; Load 4 0; LocalSet 1;
    LocalGet 0; Call (decrement_vec_len ep) ] ++ propagate true
  ++ [ LocalGet 0; Load 4 0; LocalSet 1 ]
  ++ vec_elem_ptr 0 1 (Z.of_nat (esize t)) ++ [ Load (esize t) 0 ]).

(** runtime/vector.rs 422-561.  Locals: 0 vec_ref, 1 elem, 2 vec_ptr, 3 len, 4 new_vec_ptr. *)
Definition DEAD_BEEF : Z := 3735928559.
Definition vec_push_back (ep : errtab) (t : ty) : func := Func 2 3 0
 ([ LocalGet 0; Load 4 0; LocalTee 2; Load 4 0; LocalTee 3; LocalGet 2; Load 4 4; Bin I32 Eq;
    If 0 [ LocalGet 2; Const 2; Call (vec_copy t (copy_ptr ep t)); LocalSet 4;
           LocalGet 0; LocalGet 4; Store 4 0;
           LocalGet 2; Const DEAD_BEEF; Store 4 0;
           LocalGet 2; LocalGet 4; Store 4 4;
           LocalGet 4; LocalSet 2 ] [] ]
  ++ vec_elem_ptr 2 3 (Z.of_nat (esize t)) ++ [ LocalGet 1; Store (esize t) 0;
    LocalGet 2; Call increment_vec_len ]).

(** wasm_builder_extensions.rs 180-193 [vec_elem_ptr_dynamic]. *)
Definition vec_elem_ptr_dynamic (ptr index size : nat) : list instr :=
  [ LocalGet ptr; Const 8; Bin I32 Add; LocalGet index; LocalGet size; Bin I32 Mul; Bin I32 Add ].

(** runtime/vector.rs 573-658.  Locals: 0 vec_ref, 1 index, 2 is_heap, 3 size, 4 vec_ptr, 5 elem_ref,
    6 encoded_error_ptr. *)
Definition vec_borrow (ep : errtab) : func := Func 4 3 1
 ([ LocalGet 0; Load 4 0; LocalSet 4;
    Block "inside" 0 ([ LocalGet 4; Load 4 0; LocalGet 1; Bin I32 GtU; BrIf "inside" ] ++ return_error ep OutOfBounds 6 true);
    LocalGet 2;
    If 1 (vec_elem_ptr_dynamic 4 1 3)
      ([ Const 4; Call alloc; LocalTee 5 ] ++ vec_elem_ptr_dynamic 4 1 3 ++ [ Store 4 0; LocalGet 5 ]) ]).

(** intermediate_types/vector.rs 242-312 [vec_borrow_instructions]: the code emitted for VecImmBorrow and VecMutBorrow,
    as a function of the vector reference and the index (inline, errors return from the enclosing function). *)
Definition vec_borrow_op (ep : errtab) (t : ty) : func := Func 2 0 1
 ([ LocalGet 0; LocalGet 1; Call (downcast_u64_to_u32 ep) ] ++ propagate true
  ++ [ Const (if is_stack t then 0 else 1); Const (Z.of_nat (esize t)); Call (vec_borrow ep) ] ++ propagate true).

(** runtime/vector.rs 677-753. *)
Definition vec_update_mut_ref : func := Func 1 0 0
 [ Loop "loop" 0
     [ LocalGet 0; Load 4 0; Load 4 0; Const DEAD_BEEF; Bin I32 Eq;
       If 0 [ LocalGet 0; LocalGet 0; Load 4 0; Load 4 4; Store 4 0; Br "loop" ] [] ] ].

(** ** Executions that change existing memory only inside [W] *)
Definition evolves (w w' : world) (W : mset) : Prop :=
  wok w' /\ maxpages w' = maxpages w /\ pages w <= pages w' /\ gnext w <= gnext w' /\
  gcd w' = gcd w /\ host w' = host w /\
  (forall a, 0 <= a < gnext w -> ~ W a -> rd (mem w') a = rd (mem w) a).

Lemma evolves_extends : forall w w' W, extends w w' -> evolves w w' W.
Proof. unfold extends, evolves. intros w w' W (A&B&C&D&E&F&G). repeat (split; [assumption|]). auto. Qed.
Lemma evolves_refl : forall w W, wok w -> evolves w w W.
Proof. intros. apply evolves_extends, extends_refl. assumption. Qed.
Lemma evolves_trans : forall a b c W, evolves a b W -> evolves b c W -> evolves a c W.
Proof.
  unfold evolves; intros a b c W (A1&A2&A3&A4&A5&A6&A7) (B1&B2&B3&B4&B5&B6&B7).
  split; [exact B1|]. repeat (split; [first [congruence|lia]|]). intros. rewrite B7 by (auto; lia). auto.
Qed.
Lemma evolves_sub : forall w w' W W', evolves w w' W -> sub W W' -> evolves w w' W'.
Proof. unfold evolves, sub. intros w w' W W' (A&B&C&D&E&F&G) S. repeat (split; [assumption|]). auto. Qed.
(** Writing live memory inside [W], or memory allocated since [w0]. *)
Lemma evolves_write : forall w0 w m p n W, wok w0 -> evolves w0 w W ->
  (forall x, ~ within p n x -> rd m x = rd (mem w) x) -> 0 <= p -> p + n <= gnext w ->
  (forall x, within p n x -> gnext w0 <= x \/ W x) ->
  evolves w0 (set_mem w m) W.
Proof.
  intros w0 w m p n W H0 (A1&A2&A3&A4&A5&A6&A7) U P N I.
  assert (wok (set_mem w m)).
  { eapply wok_frame; [exact A1|apply frame_set_mem; exact U|]. unfold within. intros; lia. }
  unfold evolves. cbn [mem set_mem pages maxpages gnext gcd host]. repeat (split; [assumption|]).
  intros a Ha Na. rewrite U; [auto|]. intros X. apply I in X as [X|X]; [lia|auto].
Qed.

Lemma vec_at_ext : forall m m' t vs p cap G, (forall x, between p (p + 8 + cap * Z.of_nat (esize t)) x -> rd m' x = rd m x) ->
  agree m m' G -> vec_at m t vs p cap G -> vec_at m' t vs p cap G.
Proof.
  intros m m' t vs p cap G A B (V1&V2&V3&V4&V5). pose proof (esize_range t). unfold between in A.
  assert (0 <= cap * Z.of_nat (esize t)) by nia.
  split; [rewrite <- V1; apply load_ext; intros; apply A; lia|].
  split; [rewrite <- V2; apply load_ext; intros; apply A; lia|]. split; [exact V3|]. split; [exact V4|].
  eapply elems_ext; [| |exact V5].
  - intros v x H1 S. apply vrep_ext. eapply agree_sub; eauto.
  - intros x Hx. apply A. nia.
Qed.

Lemma vec_at_mono : forall m t vs p cap G G', sub G G' -> vec_at m t vs p cap G -> vec_at m t vs p cap G'.
Proof. unfold vec_at. intros m t vs p cap G G' S (V1&V2&V3&V4&V5). repeat (split; [assumption|]). eapply elems_mono; eauto. Qed.

(** ** push_back *)
Definition cell (r : Z) : mset := between r (r + 4).
Definition spine (t : ty) (p cap : Z) : mset := between p (p + 8 + cap * Z.of_nat (esize t)).

(** Appending in place. *)
Lemma push_tail : forall t w vs v x p cap G Fx r (Q : outcome -> Prop) s l0 l1 l4 u,
  wok w -> vec_at (mem w) t vs p cap G -> Z.of_nat (List.length vs) < cap -> sub (spine t p cap) (heap w) -> disj (spine t p cap) G ->
  0 <= x < 256 ^ Z.of_nat (esize t) -> vrep (mem w) t v x Fx -> disj (spine t p cap) Fx -> disj G Fx -> u = Z.of_nat (List.length vs) -> x = l1 ->
  (forall m', (forall y, ~ spine t p cap y -> rd m' y = rd (mem w) y) -> vec_at m' t (vs ++ [v]) p cap (union G Fx) ->
     wp r Q s [l0; l1; p; u; l4] (set_mem w m')) ->
  wp ((vec_elem_ptr 2 3 (Z.of_nat (esize t)) ++ [ LocalGet 1; Store (esize t) 0; LocalGet 2; Call increment_vec_len ]) ++ r) Q s [l0; l1; p; u; l4] w.
Proof.
  intros t w vs v x p cap G Fx r Q s l0 l1 l4 u Hw (V1&V2&V3&V4&V5) Hl S Dj Hx Vx D2 D3 -> <- K. pose proof Hw as (P1&P2&P3&P4&P5&P6).
  pose proof (esize_range t) as Hsz. set (sz := Z.of_nat (esize t)) in *. set (len := List.length vs) in *.
  unfold spine in *. fold sz in S, Dj, D2, K. assert (Bn : (Z.of_nat len + 1) * sz <= cap * sz) by (apply Z.mul_le_mono_nonneg_r; lia).
  assert (B0 : 0 <= Z.of_nat len * sz) by (apply Z.mul_nonneg_nonneg; lia). rewrite Z.mul_add_distr_r, Z.mul_1_l in Bn.
  destruct (sub_block _ _ _ _ S) as [L1 L2]; [lia|]. unfold vec_elem_ptr. cbn [app].
  ws1. ws1. ws1. ws1. ws1. ws1. ws1. remember (Z.of_nat len * sz) as lsz eqn:Els. hide Els. set (a := p + 8 + lsz) in *.
  ws1. apply wp_store; [lia|fold sz; unfold page_size; lia|]. fold sz. rewrite Z.add_0_r. ws1.
  set (m1 := store sz (mem w) a x).
  assert (O1 : forall y, y < a \/ a + sz <= y -> rd m1 y = rd (mem w) y) by (intros; unfold m1; apply rd_store_out; lia).
  assert (La : load (esize t) m1 a = x) by (unfold m1, sz; rewrite load_store_same; apply Z.mod_small; exact Hx).
  clearbody m1. hide Hx.
  eapply wp_call; [reflexivity|cbn [List.length]; lia|]. cbn [rev firstn app]. apply wpf_intro; [reflexivity|]. cbn [app repeat]. ws1. ws1. ws1.
  assert (Lp : load 4 m1 p = Z.of_nat len) by (rewrite <- V1; apply load_ext; intros; apply O1; lia). rewrite Lp.
  assert (Hlen : 0 <= Z.of_nat len < 2147483647) by (clear - Hl V4 Hsz; nia).
  ws1. ws1. ws1. ws1. cbn [skipn app]. change (set_mem (set_mem w m1) ?b) with (set_mem w b).
  set (m2 := store 4 m1 p (Z.of_nat len + 1)).
  assert (O2 : forall y, y < p \/ p + 4 <= y -> rd m2 y = rd m1 y) by (intros; unfold m2; apply rd_store_out; lia).
  assert (Lp2 : load 4 m2 p = Z.of_nat len + 1) by (unfold m2; rewrite load_4_store; apply w32_small; lia).
  clearbody m2. apply K.
  - intros y Hy. unfold between in Hy. rewrite O2 by lia. apply O1. lia.
  - assert (Out : forall y, ~ between p (p + 8 + cap * sz) y -> rd m2 y = rd (mem w) y) by (intros y Hy; unfold between in Hy; rewrite O2 by lia; apply O1; lia).
    split; [rewrite app_length; cbn [List.length]; fold len; lia|].
    split; [rewrite <- V2; apply load_ext; intros; rewrite O2 by lia; apply O1; lia|].
    split; [rewrite app_length; cbn [List.length]; fold len; lia|]. split; [exact V4|].
    eapply elems_app with (F := G) (F' := Fx); [| |exact D3|intros y; left; assumption|intros y; right; assumption].
    + eapply elems_ext; [| |exact V5].
      * intros v0 x0 G0 S0. apply vrep_ext. intros y Hy. apply Out. intros X. eapply Dj; [exact X|apply S0; exact Hy].
      * fold len sz. unhide Els. rewrite (Z.mul_comm sz), <- Els. intros y Hy. rewrite O2 by lia. apply O1. lia.
    + fold len sz. unhide Els. rewrite (Z.mul_comm sz), <- Els. fold a. cbn [elems]. exists Fx, empty.
      split; [|split; [exact I|split; [intros ? ? []|split; [apply sub_refl|intros ? []]]]].
      replace (load (esize t) m2 a) with x.
      * eapply vrep_ext; [|exact Vx]. intros y Hy. apply Out. intros X. eapply D2; eauto.
      * rewrite <- La. apply load_ext. intros. symmetry. apply O2. unfold a. lia.
Qed.

Lemma vec_push_spec : forall ep t w r x v vs p cap G Fx,
  wf_ty t -> wok w -> sub (cell r) (heap w) -> load 4 (mem w) r = p ->
  vec_at (mem w) t vs p cap G -> sub (spine t p cap) (heap w) -> sub G (heap w) ->
  disj (spine t p cap) G -> disj (cell r) (spine t p cap) -> disj (cell r) G ->
  0 <= x < 256 ^ Z.of_nat (esize t) -> vrep (mem w) t v x Fx -> sub Fx (heap w) ->
  disj (cell r) Fx -> disj (spine t p cap) Fx -> disj G Fx ->
  let cap2 := copy_cap 2 (List.length vs) in 8 + cap2 * Z.of_nat (esize t) < 2147483648 ->
  wpf (vec_push_back ep t) [r; x] w (resq (fun rs w' => rs = [] /\ evolves w w' (union (cell r) (spine t p cap)) /\
    exists p' cap' G', load 4 (mem w') r = p' /\ vec_at (mem w') t (vs ++ [v]) p' cap' G' /\
      sub (spine t p' cap') (union (spine t p cap) (between (gnext w) (gnext w'))) /\
      sub G' (union (union G Fx) (between (gnext w) (gnext w'))) /\
      disj (spine t p' cap') G' /\ disj (cell r) (spine t p' cap') /\ disj (cell r) G' /\
      (Z.of_nat (List.length vs) < cap -> w' = set_mem w (mem w') /\ p' = p) /\
      (Z.of_nat (List.length vs) = cap -> load 4 (mem w') p = DEAD_BEEF /\ load 4 (mem w') (p + 4) = p' /\ gnext w <= p'))
   (Z.of_nat (List.length vs) = cap /\ ctrap w (has_small (TVec t)) (vec_bytes t cap2 + sumz (map (csize t) vs)))).
Proof.
  intros ep t w r x v vs p cap G Fx Wf Hw Sr Lr V Ss SG D1 D2 D3 Hx Vx SFx D4 D5 D6 cap2 Hc2.
  pose proof Hw as (P1&P2&P3&P4&P5&P6). pose proof V as (V1&V2&V3&V4&V5). pose proof (esize_range t) as Hsz.
  destruct (sub_block _ _ _ _ Sr) as [R1 R2]; [lia|].
  assert (Hcap : 0 <= cap) by lia. assert (Hcs : 0 <= cap * Z.of_nat (esize t)) by nia.
  destruct (sub_block _ _ _ _ Ss) as [L1 L2]; [lia|].
  pose proof (copy_cap_pos 2 (List.length vs) ltac:(lia)) as C1. fold cap2 in C1.
  assert (C2 : Z.of_nat (List.length vs) < cap2) by (unfold cap2, copy_cap; destruct (Nat.eqb_spec (List.length vs) 0); lia).
  apply wpf_intro; [reflexivity|]. cbn [app repeat]. ws1. ws1. rewrite Lr. ws1. ws1. rewrite V1. ws1. ws1. ws1. rewrite V2. ws1.
  apply wp_if; intros C; unb C.
  - assert (Ec : Z.of_nat (List.length vs) = cap) by lia. clear C. ws1. ws1.
    wcall (vec_copy_spec t ep 2 w vs p cap G (fun _ => copy_all t) Wf Hw V Ss SG); [lia|exact Hc2|intros T; split; [exact Ec|exact T]|].
    fold cap2. intros rs w1 (->&E1&G1&Va). wc. pose proof E1 as (Hw1&_&_&Gm&_). pose proof Hw1 as (Q1&Q2&Q3&Q4&Q5&Q6).
    set (d := gnext w) in *. unfold vec_bytes in *.
    assert (0 <= sumz (map (csize t) vs)) by (apply sumz_nonneg, Forall_map, Forall_forall; intros; apply csize_nonneg).
    assert (Hc2' : 0 <= cap2 * Z.of_nat (esize t)) by nia.
    ws1. ws1. ws1. ws1. ws1. ws1. ws1. ws1. ws1. ws1. ws1. ws1. apply wp_nil. cbn [ifk firstn app].
    change (set_mem (set_mem (set_mem w1 ?a) ?b) ?c) with (set_mem w1 c).
    set (m1 := store 4 (mem w1) r d). set (m2 := store 4 m1 p DEAD_BEEF). set (m3 := store 4 m2 (p + 4) d).
    assert (O3 : forall y, y < r \/ r + 4 <= y -> y < p \/ p + 8 <= y -> rd m3 y = rd (mem w1) y).
    { intros y Y1 Y2. unfold m3, m2, m1. rewrite !rd_store_out by lia. reflexivity. }
    assert (NR : r + 4 <= p \/ p + 8 <= r).
    { destruct (Z.le_gt_cases (r + 4) p); [left; lia|]. destruct (Z.le_gt_cases (p + 8) r); [right; lia|]. exfalso.
      unfold disj, cell, spine, between in D2. apply (D2 (Z.max r p)); lia. }
    assert (L3r : load 4 m3 r = d).
    { unfold m3. rewrite (load_store_other 4 4) by lia. unfold m2. rewrite (load_store_other 4 4) by lia. unfold m1. rewrite load_4_store. apply w32_small. lia. }
    assert (L3p : load 4 m3 p = DEAD_BEEF).
    { unfold m3. rewrite (load_store_other 4 4) by lia. unfold m2. rewrite load_4_store. reflexivity. }
    assert (L3q : load 4 m3 (p + 4) = d) by (unfold m3; rewrite load_4_store; apply w32_small; lia).
    assert (Hw3 : evolves w (set_mem w1 m3) (union (cell r) (spine t p cap))).
    { assert (EE : forall q m, 468 <= q -> q + 4 <= d -> sub (between q (q + 4)) (union (cell r) (spine t p cap)) ->
         evolves w (set_mem w1 m) (union (cell r) (spine t p cap)) -> forall vv, evolves w (set_mem w1 (store 4 m q vv)) (union (cell r) (spine t p cap))).
      { intros q m Q1' Q2' Q3' Q4' vv. change (set_mem w1 (store 4 m q vv)) with (set_mem (set_mem w1 m) (store 4 m q vv)).
        eapply evolves_write with (p := q) (n := 4); [exact Hw|exact Q4'| |lia|cbn [gnext set_mem]; lia|].
        - intros y Hy. apply rd_store_out. unfold within in Hy. lia.
        - intros y Hy. right. apply Q3'. exact Hy. }
      unfold m3, m2, m1. apply EE; [lia|lia|intros y Hy; right; unfold spine, between in *; lia|].
      apply EE; [lia|lia|intros y Hy; right; unfold spine, between in *; lia|].
      apply EE; [lia|lia|intros y Hy; left; exact Hy|]. destruct w1; apply evolves_extends; exact E1. }
    clearbody m3. clear m1 m2. set (w3 := set_mem w1 m3) in *.
    set (G2 := between (d + (8 + cap2 * Z.of_nat (esize t))) (gnext w1)) in *.
    eapply (push_tail t w3 vs v x d cap2 G2 Fx []); [apply Hw3| |lia| | |exact Hx| | | |reflexivity|reflexivity|].
    + eapply vec_at_ext; [| |exact Va]; [intros y Hy|intros y Hy]; apply O3; unfold G2, between in Hy; lia.
    + intros y Hy. unfold heap, spine, between in *. cbn [w3 gnext set_mem]. lia.
    + intros y Y1 Y2. unfold G2, spine, between in *. lia.
    + eapply vrep_ext; [|eapply vrep_extends; [exact E1|exact SFx|exact Vx]]. intros y Hy. apply O3.
      * destruct (Z.lt_ge_cases y r); [lia|]. destruct (Z.le_gt_cases (r + 4) y); [lia|]. exfalso. apply (D4 y); [unfold cell, between; lia|exact Hy].
      * destruct (Z.lt_ge_cases y p); [lia|]. destruct (Z.le_gt_cases (p + 8) y); [lia|]. exfalso. apply (D5 y); [unfold spine, between; lia|exact Hy].
    + intros y Y1 Y2. apply SFx in Y2. unfold heap, spine, between in *. lia.
    + intros y Y1 Y2. apply SFx in Y2. unfold heap, G2, between in *. lia.
    + intros m4 O4 V4'. apply wp_nil. cbn [fret firstn]. split; [reflexivity|]. split.
      * assert (Sp4 : forall y, spine t d cap2 y -> gnext w <= y < gnext w1) by (intros y Hy; unfold spine, between in Hy; fold d; lia).
        eapply evolves_write with (p := d) (n := 8 + cap2 * Z.of_nat (esize t)); [exact Hw|exact Hw3| |lia| |].
        -- intros y Hy. apply O4. intros X. apply Hy. unfold spine, between, within in *. lia.
        -- cbn [w3 gnext set_mem]. lia.
        -- intros y Hy. left. unfold within in Hy. fold d. lia.
      * cbn [mem set_mem gnext w3]. exists d, cap2, (union G2 Fx).
        assert (Low : forall n y, 0 <= y -> y + Z.of_nat n <= d -> load n m4 y = load n m3 y).
        { intros n y Y1 Y2. apply load_ext. intros. apply O4. unfold spine, between. lia. }
        split; [rewrite Low by lia; exact L3r|]. split; [exact V4'|].
        split; [intros y Hy; right; unfold spine, between in *; lia|].
        split; [intros y [Hy|Hy]; [right; unfold G2, between in *; lia|left; right; exact Hy]|].
        split; [intros y Y1 [Y2|Y2]; [unfold G2, spine, between in *; lia|apply SFx in Y2; unfold heap, spine, between in *; lia]|].
        split; [intros y Y1 Y2; unfold cell, spine, between in *; lia|].
        split; [intros y Y1 [Y2|Y2]; [unfold G2, cell, between in *; lia|eapply D4; eauto]|].
        split; [intros; lia|]. intros _. rewrite !Low by lia. split; [exact L3p|]. split; [exact L3q|]. lia.
  - assert (Ec : Z.of_nat (List.length vs) < cap) by lia. clear C. apply wp_nil. cbn [ifk firstn app].
    eapply (push_tail t w vs v x p cap G Fx []); [exact Hw|exact V|exact Ec|exact Ss|exact D1|exact Hx|exact Vx|exact D5|exact D6|reflexivity|reflexivity|].
    intros m' O' V'. apply wp_nil. cbn [fret firstn]. split; [reflexivity|]. split.
    + eapply evolves_write with (p := p) (n := 8 + cap * Z.of_nat (esize t)); [exact Hw|apply evolves_refl; exact Hw| |lia|lia|].
      * intros y Hy. apply O'. intros X. apply Hy. unfold spine, between, within in *. lia.
      * intros y Hy. right. right. unfold spine, between, within in *. lia.
    + cbn [mem set_mem gnext]. exists p, cap, (union G Fx).
      split; [rewrite <- Lr; apply load_ext; intros i Hi; apply O'; intros X; apply (D2 (r + i)); [unfold cell, between; lia|exact X]|].
      split; [exact V'|]. split; [intros y; left; assumption|]. split; [intros y; left; assumption|].
      split; [intros y Y1 [Y2|Y2]; [eapply D1; eauto|eapply D5; eauto]|]. split; [exact D2|].
      split; [intros y Y1 [Y2|Y2]; [eapply D3; eauto|eapply D4; eauto]|].
      split; [intros; split; reflexivity|lia].
Qed.
