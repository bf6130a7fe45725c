(** * Copying values: runtime/vector.rs [allocate_vector_with_header], [copy_local]; runtime/copy.rs;
      copying of structs and enums. *)

From Verif Require Import Tac RtAlloc RtErr RtDiv RtShift RtAscii Ops SpecVal LemVal.
Ltac Zify.zify_post_hook ::= idtac.

(** runtime/vector.rs 765-845.  Locals: 0 len, 1 capacity, 2 data_size, 3 pointer. *)
Definition allocate_vector_with_header : func := Func 3 1 1
 [ LocalGet 1; Un Eqz;
   If 0 [ Const 8; Call alloc; LocalSet 3 ]
     [ LocalGet 0; LocalGet 1; Bin I32 GtU; If 0 [ Unreachable ] [];
       LocalGet 1; LocalGet 2; Bin I32 Mul; Const 8; Bin I32 Add; Call alloc; LocalSet 3;
       LocalGet 3; LocalGet 0; Store 4 0;
       LocalGet 3; LocalGet 1; Store 4 4 ];
   LocalGet 3 ].

(** wasm_builder_extensions.rs 172-178 [vec_elem_ptr]. *)
Definition vec_elem_ptr (ptr index : nat) (size : Z) : list instr :=
  [ LocalGet ptr; Const 8; Bin I32 Add; LocalGet index; Const size; Bin I32 Mul; Bin I32 Add ].

(** runtime/copy.rs 5-30.  Locals: 0 src_ptr, 1 dst_ptr. *)
Definition copy_heap_int (size : Z) : func := Func 1 1 1
 [ Const size; Call alloc; LocalTee 1; LocalGet 0; Const size; MemCopy; LocalGet 1 ].

(** runtime/vector.rs 957-1117: from the element's address on the stack to its copy; [cp] copies
    what a pointer on the stack points to.  Locals 6 src_elem_ptr, 7 dst_elem_ptr. *)
Definition copy_elem (t : ty) (cp : list instr) : list instr :=
  match t with
  | TU128 => [ Load 4 0; LocalSet 6; Const 16; Call alloc; LocalTee 7; LocalGet 6; Const 16; MemCopy; LocalGet 7 ]
  | TU256 | TAddress => [ Load 4 0; LocalSet 6; Const 32; Call alloc; LocalTee 7; LocalGet 6; Const 32; MemCopy; LocalGet 7 ]
  | TVec _ | TStruct _ _ | TEnum _ => Load 4 0 :: cp
  | _ => [ Load (esize t) 0 ]
  end.

(** runtime/vector.rs 1120-1130: the copied element is stored with 4 bytes, or 8 for u64,
    whatever the element size. *)
Definition copy_store (t : ty) : nat := match t with TU64 => 8 | _ => 4 end.

(** runtime/vector.rs 855-1153 [copy_local_function].
    Locals: 0 src_ptr, 1 multiplier, 2 dst_ptr, 3 index, 4 len, 5 capacity, 6 src_elem_ptr, 7 dst_elem_ptr. *)
Definition vec_copy (t : ty) (cp : list instr) : func := Func 2 6 1
 ([ LocalGet 0; Load 4 0; LocalSet 4;
    LocalGet 4; Un Eqz; If 0 [ Const 1; LocalSet 5 ] [ LocalGet 4; LocalGet 1; Bin I32 Mul; LocalSet 5 ];
    LocalGet 4; LocalGet 5; Const (Z.of_nat (esize t)); Call allocate_vector_with_header; LocalSet 2;
    Const 0; LocalSet 3;
    Block "outer" 0
      [ LocalGet 4; Un Eqz; BrIf "outer";
        Loop "loop" 0
          (vec_elem_ptr 2 3 (Z.of_nat (esize t)) ++ vec_elem_ptr 0 3 (Z.of_nat (esize t)) ++ copy_elem t cp ++
           [ Store (copy_store t) 0;
             LocalGet 3; Const 1; Bin I32 Add; LocalTee 3; LocalGet 4; Bin I32 LtU; BrIf "loop" ]) ];
    LocalGet 2 ]).

(** intermediate_types/user_type_fields.rs 28-149 [copy_fields], [cp] as above.
    Locals: 0 src_ptr, 1 dst_ptr, 2 val_32, 3 val_64, 4 ptr_to_data. *)
Definition copy_field (t : ty) (cp : list instr) (off : Z) : list instr :=
  (if is_stack t then
     let val := (if Nat.eqb (esize t) 8 then 3 else 2)%nat in
     [ LocalGet 0; Load 4 off; Load (esize t) 0; LocalSet val;
       Const (Z.of_nat (esize t)); Call alloc; LocalTee 4; LocalGet val; Store (esize t) 0 ]
   else [ LocalGet 0; Const off; Bin I32 Add; LocalSet 4; LocalGet 4; Load 4 0 ] ++ cp ++ [ LocalSet 4 ])
  ++ [ LocalGet 1; LocalGet 4; Store 4 off ].
Fixpoint copy_fields (fs : list (ty * list instr)) (off : Z) : list instr :=
  match fs with
  | [] => []
  | (t, cp) :: fs' => copy_field t cp off ++ copy_fields fs' (off + 4)
  end.

(** intermediate_types/structs.rs 167-215 [copy_local_instructions].  The source emits this code
    inline with fresh locals; here it is a function of its own (the value on the stack is its
    argument), which changes nothing else as the code contains no return or outward branch. *)
Definition struct_copy (key : bool) (fs : list (ty * list instr)) : func := Func 1 4 1
 ((if key then [ Const 32; Call alloc; LocalGet 0; Const 32; Bin I32 Sub; Const 32; MemCopy ] else [])
  ++ [ Const (4 * Z.of_nat (List.length fs)); Call alloc; LocalSet 1 ]
  ++ copy_fields fs 0 ++ [ LocalGet 1 ]).

(** intermediate_types/enums.rs 353-389 [match_on_variant], variants numbered from [i]; [var] holds
    the variant index. *)
Fixpoint match_arms (var : nat) (i : Z) (arms : list (list instr)) : list instr :=
  match arms with
  | [] => []
  | a :: arms' =>
      Block "case" 0 ([ LocalGet var; Const i; Bin I32 Ne; BrIf "case" ] ++ a ++ [ Br "join" ])
      :: match_arms var (i + 1) arms'
  end.

(** intermediate_types/enums.rs 222-299 [copy_local_instructions], as a function like
    [struct_copy]; the locals of the arms' [copy_fields] share indices.  (Inline, the error return
    for an invalid variant index leaves the enclosing function.)
    Locals: 0 src_ptr, 1 ptr, 2 val_32, 3 val_64, 4 ptr_to_data, 5 variant_index, 6 encoded_error_ptr. *)
Definition enum_copy (ep : errtab) (size : Z) (vts : list (list (ty * list instr))) : func := Func 1 6 1
 ([ Const size; Call alloc; LocalSet 1; LocalGet 0; Load 4 0; LocalSet 5; LocalGet 1; LocalGet 5; Store 4 0;
    Block "join" 0 (match_arms 5 0 (map (fun fs => copy_fields fs 4) vts) ++ return_error ep OutOfBounds 6 true);
    LocalGet 1 ]).

(** intermediate_types.rs 371-467 [copy_local_instructions] after the middle pointer is loaded: copy what
    the pointer on the stack points to.  (For stack types the value itself is loaded by the caller.) *)
Fixpoint copy_ptr (ep : errtab) (t : ty) : list instr :=
  match t with
  | TU128 => [ Call (copy_heap_int 16) ]
  | TU256 | TAddress => [ Call (copy_heap_int 32) ]
  | TVec t' => [ Const 1; Call (vec_copy t' (copy_ptr ep t')) ]
  | TStruct key fs => [ Call (struct_copy key (map (fun f => (f, copy_ptr ep f)) fs)) ]
  | TEnum vts => [ Call (enum_copy ep (enum_size vts) (map (map (fun f => (f, copy_ptr ep f))) vts)) ]
  | _ => []
  end.

(** ** Bytes a copy takes *)
Definition sumz (l : list Z) : Z := fold_right Z.add 0 l.
Fixpoint zip_sum (fs : list (val -> Z)) (vs : list val) : Z :=
  match fs, vs with f :: fs', v :: vs' => f v + zip_sum fs' vs' | _, _ => 0 end.
Definition fsize (t : ty) (c : val -> Z) (v : val) : Z := if is_stack t then Z.of_nat (esize t) else c v.
Definition vec_bytes (t : ty) (cap : Z) : Z := 8 + cap * Z.of_nat (esize t).
Definition copy_cap (k : Z) (n : nat) : Z := if Nat.eqb n 0 then 1 else Z.of_nat n * k.
Fixpoint csize (t : ty) (v : val) : Z :=
  match t with
  | TU128 => 16
  | TU256 | TAddress => 32
  | TVec t' => match v with VVec vs => vec_bytes t' (copy_cap 1 (List.length vs)) + sumz (map (csize t') vs) | _ => 0 end
  | TStruct key fs => match v with
      VStruct _ vs => (if key then 32 else 0) + 4 * Z.of_nat (List.length fs) + zip_sum (map (fun f => fsize f (csize f)) fs) vs
      | _ => 0 end
  | TEnum vts => match v with
      VEnum tag vs => enum_size vts + match nth_error (map (fun fs => zip_sum (map (fun f => fsize f (csize f)) fs) vs) vts) tag with Some n => n | None => 0 end
      | _ => 0 end
  | _ => 0
  end.

(** The type contains a vector of 1- or 2-byte elements. *)
Definition small_elem (t : ty) : bool := match t with TBool | TU8 | TU16 => true | _ => false end.
Fixpoint has_small (t : ty) : bool :=
  match t with
  | TVec t' => small_elem t' || has_small t'
  | TStruct _ fs => existsb has_small fs
  | TEnum vts => existsb (existsb has_small) vts
  | _ => false
  end.

(** ** Allocating a vector *)
Lemma zero_load : forall n m a, (forall x, a <= x < a + Z.of_nat n -> rd m x = 0) -> load n m a = 0.
Proof.
  induction n; intros; cbn [load]; [reflexivity|]. rewrite H by lia. rewrite IHn; [lia|]. intros. apply H. lia.
Qed.

Lemma allocate_vector_spec : forall w len cap sz, wok w -> 0 <= len <= cap -> 0 <= sz -> 8 + cap * sz < 2147483648 -> cap < 2147483648 ->
  wpf allocate_vector_with_header [len; cap; sz] w (resq (fun vs w' => vs = [gnext w] /\ extends w w' /\
    gnext w' = gnext w + 8 + cap * sz /\ load 4 (mem w') (gnext w) = len /\ load 4 (mem w') (gnext w + 4) = cap /\
    (forall x, gnext w + 8 <= x -> rd (mem w') x = 0)) (oom w (8 + cap * sz))).
Proof.
  intros w len cap sz Hw Hl Hs Hc Hc2. pose proof Hw as (P1&P2&P3&P4&P5&P6).
  apply wpf_intro; [reflexivity|]. wc. ws1. ws1. apply wp_if; intros C.
  - assert (cap = 0) by (destruct (cap =? 0) eqn:E; cbn in C; lia). subst cap. assert (len = 0) by lia. subst len.
    ws1. wcall alloc_spec; [exact Hw|lia|intros O; eapply oom_mono; [exact O|lia]|].
    intros vs w1 [-> Al]. wc. ws1. apply wp_nil. wc. ws. pose proof Al as (Hw1&Em&A1&A2&A3&A4&A5).
    split; [reflexivity|]. split; [apply (alloc_extends _ _ _ Hw Al); lia|]. split; [lia|].
    rewrite Em. split; [apply zero_load; intros; apply P6; lia|]. split; [apply zero_load; intros; apply P6; lia|].
    intros; apply P6; lia.
  - assert (0 < cap) by (destruct (cap =? 0) eqn:E; cbn in C; lia). clear C.
    ws1. ws1. ws1. apply wp_if; intros C.
    { exfalso. destruct (cap <? len) eqn:E; cbn in C; lia. }
    apply wp_nil. wc. ws1. ws1. eapply wp_bin; [cbn [binop wrapt]; reflexivity|]. rewrite w32_small by nia. ws1.
    eapply wp_bin; [cbn [binop wrapt]; reflexivity|]. rewrite w32_small by nia.
    wcall alloc_spec; [exact Hw|nia|intros O; eapply oom_mono; [exact O|lia]|].
    intros vs w1 [-> Al]. wc. pose proof Al as (Hw1&Em&A1&A2&A3&A4&A5). pose proof Hw1 as (Q1&Q2&Q3&Q4&Q5&Q6).
    assert (Hcs : 0 <= cap * sz) by nia.
    ws1. ws1. ws1. ws1. ws1. ws1. ws1. apply wp_nil. wc. ws.
    change (set_mem (set_mem w1 ?a) ?b) with (set_mem w1 b).
    set (m1 := store 4 (mem w1) (gnext w) len). set (m2 := store 4 m1 (gnext w + 4) cap).
    assert (U : forall x, ~ within (gnext w) 8 x -> rd m2 x = rd (mem w1) x).
    { intros x Hx. unfold within in Hx. unfold m2, m1. rewrite !rd_store_out by lia. reflexivity. }
    split; [reflexivity|]. split.
    { apply (extends_write w w1 m2 (gnext w) 8 Hw); [apply (alloc_extends _ _ _ Hw Al); nia|exact U|lia|nia]. }
    cbn [gnext set_mem mem]. split; [lia|]. split; [|split].
    + unfold m2. rewrite (load_store_other 4 4) by lia. unfold m1. rewrite load_4_store. apply w32_small. lia.
    + unfold m2. rewrite load_4_store. apply w32_small. lia.
    + intros. rewrite U by (unfold within; lia). rewrite Em. apply P6. lia.
Qed.

(** ** When a copy can fail

    [crosses w n]: the next [n] bytes of the heap come within 3 bytes of a page boundary. *)
Definition crosses (w : world) (n : Z) : Prop := exists k, gnext w < 65536 * k /\ 65536 * k - 3 < gnext w + n.
Definition ctrap (w : world) (small : bool) (n : Z) : Prop := oom w n \/ (small = true /\ crosses w n).

Lemma ctrap_extends : forall w w1 b b' n k, extends w w1 -> ctrap w1 b n -> gnext w1 + n <= gnext w + k ->
  (b = true -> b' = true) -> ctrap w b' k.
Proof.
  intros w w1 b b' n k E [O|[B [j [C1 C2]]]] H I; [left; eapply oom_extends; eauto|right].
  destruct E as (_&_&_&E&_). split; [auto|]. exists j. lia.
Qed.

Lemma sumz_nonneg : forall l, Forall (fun x => 0 <= x) l -> 0 <= sumz l.
Proof. unfold sumz. induction 1; cbn [fold_right]; lia. Qed.
Lemma sumz_app : forall l l', sumz (l ++ l') = sumz l + sumz l'.
Proof. unfold sumz. induction l; intros; cbn [fold_right app]; [lia|rewrite IHl; lia]. Qed.
Lemma sumz_snoc : forall (f : val -> Z) l v, sumz (map f (l ++ [v])) = sumz (map f l) + f v.
Proof. intros. rewrite map_app, sumz_app. unfold sumz at 2. cbn [map fold_right]. lia. Qed.

Lemma copy_cap_pos : forall k n, 1 <= k -> 1 <= copy_cap k n.
Proof. unfold copy_cap; intros. destruct (Nat.eqb_spec n 0); nia. Qed.
Lemma copy_cap_ge : forall k n, 1 <= k -> Z.of_nat n <= copy_cap k n.
Proof. unfold copy_cap; intros. destruct (Nat.eqb_spec n 0); nia. Qed.

Lemma enum_size_pos : forall vts, 4 <= enum_size vts.
Proof. unfold enum_size. intros. assert (0 <= fold_right (fun fs n => Z.max (Z.of_nat (List.length (A := ty) fs)) n) 0 vts) by (induction vts; cbn [fold_right]; lia). lia. Qed.

Lemma zip_sum_nonneg : forall fs, Forall (fun t => forall v, 0 <= csize t v) fs ->
  forall vs, 0 <= zip_sum (map (fun f => fsize f (csize f)) fs) vs.
Proof.
  induction 1; intros vs; cbn [map zip_sum]; [lia|]. destruct vs as [|v vs]; [lia|].
  assert (0 <= fsize x (csize x) v) by (unfold fsize; destruct (is_stack x); [lia|apply H]).
  specialize (IHForall vs). lia.
Qed.

Lemma csize_nonneg : forall t v, 0 <= csize t v.
Proof.
  apply (ty_rec' (fun t => forall v, 0 <= csize t v)).
  - intros t St v. destruct t; try discriminate; cbn [csize]; lia.
  - intros; cbn [csize]; lia.
  - intros; cbn [csize]; lia.
  - intros; cbn [csize]; lia.
  - intros t H v. cbn [csize]. destruct v; try lia. pose proof (copy_cap_pos 1 (List.length l) ltac:(lia)).
    assert (0 <= sumz (map (csize t) l)) by (apply sumz_nonneg, Forall_map, Forall_forall; auto).
    unfold vec_bytes. nia.
  - intros k fs H v. cbn [csize]. destruct v; try lia. pose proof (zip_sum_nonneg fs H l). destruct k; lia.
  - intros vts H v. cbn [csize]. destruct v; try lia. pose proof (enum_size_pos vts).
    destruct (nth_error (map (fun fs => zip_sum (map (fun f => fsize f (csize f)) fs) l) vts) tag) eqn:E; [|lia].
    destruct (nth_error_map2 _ (fun _ => 0) _ _ _ E) as (fs&E1&->&_).
    pose proof (zip_sum_nonneg fs (nth_error_Forall _ _ _ _ H E1) l). lia.
Qed.

(** ** What copying a pointed-to value does *)
Definition copy_ok (t : ty) : Prop := forall ep w v p F r (Q : outcome -> Prop) s l,
  is_stack t = false -> wf_ty t -> wok w -> vrep (mem w) t v p F -> sub F (heap w) ->
  (ctrap w (has_small t) (csize t v) -> Q OTrap) ->
  (forall p' w', extends w w' -> gnext w' = gnext w + csize t v -> gnext w <= p' <= gnext w' ->
     vrep (mem w') t v p' (between (gnext w) (gnext w')) -> wp r Q (p' :: s) l w') ->
  wp (copy_ptr ep t ++ r) Q (p :: s) l w.

Lemma rd_mcopy_frame : forall m d s n x, ~ within d n x -> rd (mcopy m d s n) x = rd m x.
Proof. intros. apply rd_mcopy_out. unfold within in H. lia. Qed.

(** Copying a block of [n] bytes to the start of the heap. *)
Lemma copy_heap_int_spec : forall n w p, wok w -> live w p n -> 0 <= n < 2147483648 ->
  wpf (copy_heap_int n) [p] w (resq (fun vs w' => vs = [gnext w] /\ extends w w' /\
    gnext w' = gnext w + n /\ (forall i, 0 <= i < n -> rd (mem w') (gnext w + i) = rd (mem w) (p + i))) (oom w n)).
Proof.
  intros n w p Hw L Hn. pose proof Hw as (P1&P2&P3&P4&P5&P6). unfold live in L.
  apply wpf_intro; [reflexivity|]. wc. ws1. wcall alloc_spec; [exact Hw|lia|auto|].
  intros vs w1 [-> Al]. wc. pose proof Al as (Hw1&Em&A1&A2&A3&A4&A5). pose proof Hw1 as (Q1&Q2&Q3&Q4&Q5&Q6).
  ws1. ws1. ws1. ws1. ws. rewrite Em. set (m := mcopy (mem w) (gnext w) p n).
  destruct (extends_upd w w1 n m Hw Al ltac:(lia)) as (X1&X2&X3).
  { intros x Hx. unfold m. apply rd_mcopy_frame. exact Hx. }
  split; [reflexivity|]. split; [exact X1|]. cbn [gnext set_mem mem]. split; [lia|].
  intros. unfold m. rewrite rd_mcopy_in by lia. f_equal. lia.
Qed.

Lemma sub_live : forall a n F w, sub (between a (a + n)) F -> sub F (heap w) -> 0 < n -> 468 <= a /\ a + n <= gnext w.
Proof. intros a n F w A B N. apply (sub_block a (a + n)); [eapply sub_trans; eauto|lia]. Qed.

Lemma wp_copy_heap_int : forall n w p F r (Q : outcome -> Prop) s l, 0 < n < 2147483648 -> wok w ->
  sub (between p (p + n)) F -> sub F (heap w) -> (oom w n -> Q OTrap) ->
  (forall w', extends w w' -> gnext w' = gnext w + n ->
     (forall i, 0 <= i < n -> rd (mem w') (gnext w + i) = rd (mem w) (p + i)) -> wp r Q (gnext w :: s) l w') ->
  wp (Call (copy_heap_int n) :: r) Q (p :: s) l w.
Proof.
  intros n w p F r Q s l Hn Hw A B T K. destruct (sub_live _ _ _ _ A B) as [L1 L2]; [lia|].
  wcall copy_heap_int_spec; [exact Hw|unfold live; lia|lia|exact T|].
  intros vs w' (->&E&G&C). apply K; auto.
Qed.

Lemma copy_u128 : copy_ok TU128.
Proof.
  intros ep w v p F r Q s l _ _ Hw [[-> V] S1] S2 T K. cbn [copy_ptr app csize] in *.
  eapply (wp_copy_heap_int 16); [lia|exact Hw|exact S1|exact S2|intros; apply T; left; assumption|].
  intros w' E G C. apply K; auto; [lia|]. cbn [vrep].
  replace (load 16 (mem w') (gnext w)) with (load 16 (mem w) p); [split; [split; auto|apply between_sub; lia]|].
  apply load_ext. intros. symmetry. apply C. lia.
Qed.
Lemma copy_u256 : copy_ok TU256.
Proof.
  intros ep w v p F r Q s l _ _ Hw [[-> V] S1] S2 T K. cbn [copy_ptr app csize] in *.
  eapply (wp_copy_heap_int 32); [lia|exact Hw|exact S1|exact S2|intros; apply T; left; assumption|].
  intros w' E G C. apply K; auto; [lia|]. cbn [vrep].
  replace (load 32 (mem w') (gnext w)) with (load 32 (mem w) p); [split; [split; auto|apply between_sub; lia]|].
  apply load_ext. intros. symmetry. apply C. lia.
Qed.
Lemma copy_address : copy_ok TAddress.
Proof.
  intros ep w v p F r Q s l _ _ Hw [[-> V] S1] S2 T K. cbn [copy_ptr app csize] in *.
  eapply (wp_copy_heap_int 32); [lia|exact Hw|exact S1|exact S2|intros; apply T; left; assumption|].
  intros w' E G C. apply K; auto; [lia|]. cbn [vrep].
  replace (load_be 32 (mem w') (gnext w)) with (load_be 32 (mem w) p); [split; [split; auto|apply between_sub; lia]|].
  apply load_be_ext. intros. symmetry. apply C. lia.
Qed.

(** ** Elements of a vector *)
Lemma elems_nth : forall R sz m vs a F i v, elems R sz m vs a F -> nth_error vs i = Some v ->
  exists G, R v (load sz m (a + Z.of_nat sz * Z.of_nat i)) G /\ sub G F.
Proof.
  induction vs as [|u vs IH]; intros a F [|i] v; cbn [elems nth_error]; try discriminate.
  - intros (F1&F2&A&B&C&D&E) X. injection X as ->. exists F1. rewrite Nat2Z.inj_0, Z.mul_0_r, Z.add_0_r. auto.
  - intros (F1&F2&A&B&C&D&E) X. destruct (IH _ _ _ _ B X) as (G&G1&G2). exists G. split; [|eapply sub_trans; eauto].
    replace (a + Z.of_nat sz * Z.of_nat (S i)) with (a + Z.of_nat sz + Z.of_nat sz * Z.of_nat i) by lia. exact G1.
Qed.

Lemma agree_extends : forall w w' F, extends w w' -> sub F (heap w) -> agree (mem w) (mem w') F.
Proof. intros w w' F (_&_&_&_&_&_&E) S x Hx. apply S in Hx. unfold heap, between in Hx. apply E. lia. Qed.

Lemma vrep_extends : forall w w' t v x F, extends w w' -> sub F (heap w) -> vrep (mem w) t v x F -> vrep (mem w') t v x F.
Proof. intros. eapply vrep_ext; [eapply agree_extends; eauto|assumption]. Qed.

(** Copy of one element: from its address to a word representing the same value in fresh memory. *)
Lemma copy_elem_ok : forall t, (is_stack t = false -> copy_ok t) -> wf_ty t -> forall ep w v a F r (Q : outcome -> Prop) s l0 l1 l2 l3 l4 l5 l6 l7,
  wok w -> 468 <= a -> a + Z.of_nat (esize t) <= gnext w -> vrep (mem w) t v (load (esize t) (mem w) a) F -> sub F (heap w) ->
  (ctrap w (has_small t) (csize t v) -> Q OTrap) ->
  (forall y w' l6 l7, extends w w' -> gnext w' = gnext w + csize t v -> 0 <= y < 256 ^ Z.of_nat (esize t) ->
     vrep (mem w') t v y (between (gnext w) (gnext w')) -> wp r Q (y :: s) [l0;l1;l2;l3;l4;l5;l6;l7] w') ->
  wp (copy_elem t (copy_ptr ep t) ++ r) Q (a :: s) [l0;l1;l2;l3;l4;l5;l6;l7] w.
Proof.
  intros t IH Wf ep w v a F r Q s l0 l1 l2 l3 l4 l5 l6 l7 Hw A1 A2 V S T K. pose proof Hw as (P1&P2&P3&P4&P5&P6).
  destruct (is_stack t) eqn:St.
  - replace (copy_elem t (copy_ptr ep t)) with [Load (esize t) 0] by (destruct t; try discriminate; reflexivity).
    cbn [app]. apply wp_load; [lia|unfold page_size; lia|]. rewrite Z.add_0_r. eapply K.
    + apply extends_refl; exact Hw.
    + destruct t; try discriminate; cbn [csize]; lia.
    + apply load_range.
    + destruct t; try discriminate; exact V.
  - specialize (IH eq_refl).
    assert (D : forall n, 0 < n < 2147483648 -> esize t = 4%nat -> csize t v = n -> sub (between (load 4 (mem w) a) (load 4 (mem w) a + n)) F ->
      (forall w', extends w w' -> (forall i, 0 <= i < n -> rd (mem w') (gnext w + i) = rd (mem w) (load 4 (mem w) a + i)) ->
        gnext w' = gnext w + n -> vrep (mem w') t v (gnext w) (between (gnext w) (gnext w'))) ->
      wp ([ Load 4 0; LocalSet 6; Const n; Call alloc; LocalTee 7; LocalGet 6; Const n; MemCopy; LocalGet 7 ] ++ r) Q (a :: s) [l0;l1;l2;l3;l4;l5;l6;l7] w).
    { intros n Hn E4 Ec Sx KV. rewrite E4 in *. change (Z.of_nat 4) with 4 in *.
      destruct (sub_live _ _ _ _ Sx S) as [L1 L2]; [lia|]. cbn [app]. ws1. set (p := load 4 (mem w) a) in *. clearbody p.
      ws1. ws1. wcall alloc_spec; [exact Hw|lia|intros; apply T; left; rewrite Ec; assumption|].
      intros vs w1 [-> Al]. wc. pose proof Al as (Hw1&Em&B1&B2&B3&B4&B5). pose proof Hw1 as (Q1&Q2&Q3&Q4&Q5&Q6).
      ws1. ws1. ws1. ws1. ws1. rewrite Em. set (m := mcopy (mem w) (gnext w) p n).
      destruct (extends_upd w w1 n m Hw Al ltac:(lia)) as (X1&X2&X3).
      { intros x Hx. unfold m. apply rd_mcopy_frame. exact Hx. }
      eapply K; [exact X1|cbn [gnext set_mem]; lia|change (256 ^ 4) with 4294967296; lia|].
      apply KV; [exact X1| |cbn [gnext set_mem]; lia]. cbn [mem set_mem].
      intros. unfold m. rewrite rd_mcopy_in by lia. f_equal. lia. }
    assert (D2 : forall cp, cp = copy_ptr ep t -> esize t = 4%nat -> wp ((Load 4 0 :: cp) ++ r) Q (a :: s) [l0;l1;l2;l3;l4;l5;l6;l7] w).
    { intros cp -> E4. rewrite E4 in *. change (Z.of_nat 4) with 4 in *. cbn [app]. ws1.
      eapply IH; [exact St|exact Wf|exact Hw|exact V|exact S|exact T|]. intros p' w' E1 E2 E3 E4'. pose proof E1 as ((Q1&Q2&Q3&Q4&Q5&Q6)&_).
      eapply K; [exact E1|exact E2|change (256 ^ 4) with 4294967296; lia|exact E4']. }
    clear IH. destruct t; try discriminate; cbn [copy_elem].
    + destruct V as [[-> V] V2]. apply D; [lia|reflexivity|reflexivity|exact V2|]. intros w' E C G. cbn [vrep esize] in *.
      replace (load 16 (mem w') (gnext w)) with (load 16 (mem w) (load 4 (mem w) a)); [split; [split; auto|apply between_sub; lia]|].
      apply load_ext. intros. symmetry. apply C. lia.
    + destruct V as [[-> V] V2]. apply D; [lia|reflexivity|reflexivity|exact V2|]. intros w' E C G. cbn [vrep esize] in *.
      replace (load 32 (mem w') (gnext w)) with (load 32 (mem w) (load 4 (mem w) a)); [split; [split; auto|apply between_sub; lia]|].
      apply load_ext. intros. symmetry. apply C. lia.
    + destruct V as [[-> V] V2]. apply D; [lia|reflexivity|reflexivity|exact V2|]. intros w' E C G. cbn [vrep esize] in *.
      replace (load_be 32 (mem w') (gnext w)) with (load_be 32 (mem w) (load 4 (mem w) a)); [split; [split; auto|apply between_sub; lia]|].
      apply load_be_ext. intros. symmetry. apply C. lia.
    + apply D2; reflexivity.
    + apply D2; reflexivity.
    + apply D2; reflexivity.
Qed.

(** ** Copying a vector *)
(** A vector at [x] with capacity [cap] whose elements own (parts of) [G]. *)
Definition vec_at (m : memory) (t : ty) (vs : list val) (x cap : Z) (G : mset) : Prop :=
  load 4 m x = Z.of_nat (List.length vs) /\ load 4 m (x + 4) = cap /\ Z.of_nat (List.length vs) <= cap /\
  8 + cap * Z.of_nat (esize t) < 2147483648 /\ elems (vrep m t) (esize t) m vs (x + 8) G.

Lemma vrep_vec : forall m t v x F, vrep m (TVec t) v x F <-> exists vs cap G, v = VVec vs /\ vec_at m t vs x cap G /\
  sub (between x (x + 8 + cap * Z.of_nat (esize t))) F /\ sub G F /\ disj (between x (x + 8 + cap * Z.of_nat (esize t))) G.
Proof.
  intros. cbn [vrep]. unfold vec_at. split; intros (vs&cap&G&H); exists vs, cap, G; tauto.
Qed.

Lemma rd_store_narrow : forall m a y n k x, 0 <= n <= k -> 0 <= y < 256 ^ n ->
  (forall x, a + n <= x < a + k -> rd m x = 0) -> rd (store k m a y) x = rd (store n m a y) x.
Proof.
  intros m a y n k x Hn Hy Z0. destruct (Z.lt_ge_cases x a); [rewrite !rd_store_out by lia; reflexivity|].
  destruct (Z.lt_ge_cases x (a + n)); [rewrite !rd_store_in by lia; reflexivity|].
  rewrite (rd_store_out n m a) by lia. destruct (Z.lt_ge_cases x (a + k)); [|rewrite rd_store_out by lia; reflexivity].
  rewrite rd_store_in by lia. rewrite Z0 by lia. rewrite Z.div_small; [reflexivity|].
  split; [lia|]. eapply Z.lt_le_trans; [apply Hy|]. apply Z.pow_le_mono_r; lia.
Qed.

Lemma esize_range : forall t, 1 <= Z.of_nat (esize t) <= 8.
Proof. destruct t; cbn [esize]; lia. Qed.

Lemma copy_store_case : forall t, (small_elem t = false /\ copy_store t = esize t) \/
  (small_elem t = true /\ is_stack t = true /\ copy_store t = 4%nat /\ 1 <= Z.of_nat (esize t) <= 2).
Proof. destruct t; cbn [small_elem copy_store esize is_stack]; auto; right; repeat split; lia. Qed.

Lemma csize_stack : forall t v, is_stack t = true -> csize t v = 0.
Proof. destruct t; try discriminate; reflexivity. Qed.

Lemma firstn_snoc : forall {A} (l : list A) i v, nth_error l i = Some v -> firstn (S i) l = firstn i l ++ [v].
Proof. induction l; intros [|i] v E; try discriminate; cbn [firstn app]; [injection E as ->; reflexivity|]. f_equal. apply IHl; exact E. Qed.

Lemma wp_store_trap : forall n off r (Q : outcome -> Prop) v a s l w,
  page_size * pages w < a + off + Z.of_nat n -> Q OTrap -> wp (Store n off :: r) Q (v :: a :: s) l w.
Proof.
  intros. apply wp_basic_stop; [reflexivity|]. cbn [step]. replace (inb w (a + off) (Z.of_nat n)) with false; [exact H0|].
  symmetry. unfold inb. lia.
Qed.

Lemma vec_copy_spec : forall t ep k w vs p cap0 G, (is_stack t = false -> copy_ok t) -> wf_ty t -> wok w ->
  vec_at (mem w) t vs p cap0 G -> sub (between p (p + 8 + cap0 * Z.of_nat (esize t))) (heap w) -> sub G (heap w) ->
  1 <= k -> let cap := copy_cap k (List.length vs) in 8 + cap * Z.of_nat (esize t) < 2147483648 ->
  let n := vec_bytes t cap + sumz (map (csize t) vs) in
  wpf (vec_copy t (copy_ptr ep t)) [p; k] w (resq (fun r w' => r = [gnext w] /\ extends w w' /\ gnext w' = gnext w + n /\
     vec_at (mem w') t vs (gnext w) cap (between (gnext w + vec_bytes t cap) (gnext w'))) (ctrap w (has_small (TVec t)) n)).
Proof.
  intros t ep k w vs p cap0 G IH Wf Hw (V1&V2&V3&V4&V5) S1 S2 Hk cap Hcap n. pose proof Hw as (P1&P2&P3&P4&P5&P6).
  pose proof (esize_range t) as Hsz. set (sz := Z.of_nat (esize t)) in *. set (len := List.length vs) in *.
  assert (0 <= cap0) by lia. destruct (sub_block _ _ _ _ S1) as [L1 L2]; [nia|].
  pose proof (copy_cap_pos k len Hk) as C1. pose proof (copy_cap_ge k len Hk) as C2. fold cap in C1, C2.
  assert (Hcs : 0 <= cap * sz) by nia. assert (cap * sz >= cap) by nia.
  assert (Hsum : forall j, 0 <= sumz (map (csize t) (firstn j vs)) <= sumz (map (csize t) vs)).
  { intros j. assert (NN : forall l, 0 <= sumz (map (csize t) l)) by (intros; apply sumz_nonneg, Forall_map, Forall_forall; intros; apply csize_nonneg).
    split; [apply NN|]. rewrite <- (firstn_skipn j vs) at 2. rewrite map_app, sumz_app. specialize (NN (skipn j vs)). lia. }
  unfold vec_bytes in *. fold sz in n.
  apply wpf_intro; [reflexivity|]. wc. ws1. ws1. rewrite V1. ws1. ws1. ws1.
  assert (Hc0 : Z.of_nat len = 0 -> cap = 1) by (unfold cap, copy_cap; intros; destruct (Nat.eqb_spec len 0); lia).
  assert (Hc1 : Z.of_nat len <> 0 -> cap = Z.of_nat len * k) by (unfold cap, copy_cap; intros; destruct (Nat.eqb_spec len 0); lia).
  clearbody cap. match goal with |- wp (If _ _ _ :: ?r) ?Q _ _ _ => assert (K : wp r Q [] [p;k;0;0;Z.of_nat len;cap;0;0] w) end.
  2:{ apply wp_if; intros C; unb C.
      - specialize (Hc0 ltac:(lia)). subst cap. ws1. ws1. ws1. exact K.
      - specialize (Hc1 ltac:(lia)). subst cap. ws1. ws1. eapply wp_bin; [cbn [binop wrapt]; reflexivity|].
        rewrite w32_small by nia. ws1. ws1. exact K. }
  clear Hc0 Hc1.
  ws1. ws1. ws1. wcall allocate_vector_spec; [exact Hw|lia|lia|fold sz; lia|fold sz; lia| |].
  { intros O. left. eapply oom_mono; [exact O|]. unfold n. specialize (Hsum len). fold sz. lia. }
  intros r w1 (->&E1&G1&H1&H2&Z1). wc. fold sz in G1. set (dst := gnext w) in *.
  ws1. ws1. ws1. apply wp_block.
  set (D := dst + 8 + cap * sz) in *.
  match goal with |- wp _ (blk _ _ _ ?r ?Q) _ _ _ => assert (Fin : forall wi a b c, extends w wi -> gnext wi = D + sumz (map (csize t) vs) ->
     load 4 (mem wi) dst = Z.of_nat len -> load 4 (mem wi) (dst + 4) = cap ->
     elems (vrep (mem wi) t) (esize t) (mem wi) vs (dst + 8) (between D (gnext wi)) ->
     wp r Q [] [p;k;dst;a;Z.of_nat len;cap;b;c] wi) end.
  { intros wi a b c Ei Gi Hi1 Hi2 El. ws1. ws1. split; [reflexivity|]. split; [exact Ei|]. split; [unfold n; lia|].
    unfold vec_at. fold sz len. replace (dst + (8 + cap * sz)) with D by (unfold D; lia). auto 10. }
  ws1. ws1. apply wp_brif; intros C; unb C; wc.
  { assert (vs = []) by (destruct vs; [reflexivity|cbn [List.length] in len; lia]). subst vs.
    apply Fin; [exact E1|cbn [map sumz fold_right]; lia|exact H1|exact H2|exact I]. }
  eapply (wp_loop (fun f l wi => exists i x y, f = (len - i)%nat /\ (i < len)%nat /\ l = [p;k;dst;Z.of_nat i;Z.of_nat len;cap;x;y] /\
     extends w wi /\ gnext wi = D + sumz (map (csize t) (firstn i vs)) /\
     load 4 (mem wi) dst = Z.of_nat len /\ load 4 (mem wi) (dst + 4) = cap /\
     (forall a, dst + 8 + Z.of_nat i * sz <= a < D -> rd (mem wi) a = 0) /\
     elems (vrep (mem wi) t) (esize t) (mem wi) (firstn i vs) (dst + 8) (between D (gnext wi))) len).
  { exists 0%nat, 0, 0. rewrite Nat.sub_0_r. repeat (split; [first [reflexivity|assumption|lia]|]). split; [cbn [firstn map sumz fold_right]; lia|].
    repeat (split; [assumption|]). split; [|exact I]. intros a Ha. apply Z1. lia. }
  intros f l wi (i&x&y&->&Hi&->&Ei&Gi&Hh1&Hh2&Zi&El).
  pose proof Ei as (Hwi&_). pose proof Hwi as (Q1&Q2&Q3&Q4&Q5&Q6). assert (B1 : dst <= gnext wi) by (apply Ei).
  assert (Bi : (Z.of_nat i + 1) * sz <= cap * sz) by (apply Z.mul_le_mono_nonneg_r; lia).
  assert (Bi0 : (Z.of_nat i + 1) * sz <= cap0 * sz) by (apply Z.mul_le_mono_nonneg_r; lia).
  assert (Bs0 : 0 <= Z.of_nat i * sz) by (apply Z.mul_nonneg_nonneg; lia).
  rewrite Z.mul_add_distr_r, Z.mul_1_l in Bi, Bi0. remember (Z.of_nat i * sz) as isz eqn:Hisz. hide Hisz.
  specialize (Hsum i) as Hsi. specialize (Hsum (S i)) as Hsi1.
  destruct (nth_error vs i) as [v|] eqn:Ev; [|apply nth_error_None in Ev; fold len in Ev; lia].
  destruct (elems_nth _ _ _ _ _ _ _ _ V5 Ev) as (Gv&Vv&Sv). fold sz in Vv.
  unfold vec_elem_ptr. cbn [app]. fold sz.
  unhide Hisz. ws1. ws1. ws1. ws1. ws1. ws1. ws1. ws1. ws1. ws1. ws1. ws1. ws1. ws1. rewrite <- Hisz.
  rewrite (firstn_snoc _ _ _ Ev) in Hsi1. rewrite sumz_snoc in Hsi1.
  replace (p + 8 + sz * Z.of_nat i) with (p + 8 + isz) in Vv by lia. hide Hisz.
  eapply (copy_elem_ok t IH Wf ep wi v _ Gv); [exact Hwi|lia|fold sz; lia| | | |].
  { replace (load (esize t) (mem wi) (p + 8 + isz)) with (load (esize t) (mem w) (p + 8 + isz)).
    - eapply vrep_extends; [exact Ei|eapply sub_trans; eauto|exact Vv].
    - symmetry. eapply load_extends; [exact Ei|]. unfold live. fold sz. lia. }
  { eapply sub_trans; [eapply sub_trans; eauto|]. unfold heap. apply between_sub; lia. }
  { intros T. cbn [loopk fret]. eapply ctrap_extends; [exact Ei|exact T| |].
    - unfold n. lia.
    - cbn [has_small]. intros ->. apply orb_true_r. }
  intros z w2 l6 l7 E2 G2 Rz Vz. hide Rz. pose proof E2 as (Hw2&_). pose proof Hw2 as (R1&R2&R3&R4&R5&R6).
  set (a := dst + 8 + isz) in *.
  assert (Hin : 65536 * pages w2 < a + Z.of_nat (copy_store t) -> ctrap w (has_small (TVec t)) n).
  { intros X. right. unfold page_size in *. destruct (copy_store_case t) as [[Y1 Y2]|(Y1&Y2&Y3&Y4)].
    { exfalso. rewrite Y2 in X. fold sz in X. unfold a in X. lia. }
    cbn [has_small]. rewrite Y1. split; [reflexivity|]. rewrite Y3 in X. change (Z.of_nat 4) with 4 in X. fold sz in Y4.
    exists (pages w2). fold dst. unfold a in X. unfold n. lia. }
  destruct (Z.lt_ge_cases (65536 * pages w2) (a + Z.of_nat (copy_store t))) as [Tr|Ok].
  { apply wp_store_trap; [unfold page_size; lia|]. cbn [loopk blk fret]. apply Hin. exact Tr. }
  apply wp_store; [lia|unfold page_size; lia|]. rewrite Z.add_0_r.
  set (w3 := set_mem w2 _).
  assert (E2w : extends w w2) by (eapply extends_trans; eauto).
  assert (U : forall x, rd (mem w3) x = rd (store sz (mem w2) a z) x).
  { intros x0. unfold w3. cbn [mem set_mem]. destruct (copy_store_case t) as [[Y1 Y2]|(Y1&Y2&Y3&Y4)].
    - rewrite Y2. reflexivity.
    - rewrite Y3. fold sz in Y4. unhide Rz. apply rd_store_narrow; [lia|exact Rz|]. hide Rz. change (Z.of_nat 4) with 4.
      intros x1 Hx1. destruct (Z.lt_ge_cases x1 D) as [Hd|Hd].
      + destruct E2 as (_&_&_&_&_&_&E2). rewrite E2 by lia. apply Zi. unfold a in Hx1. lia.
      + apply R6. rewrite G2, Gi. rewrite (csize_stack t v Y2).
        replace (sumz (map (csize t) (firstn i vs))) with 0; [lia|].
        clear - Y2. induction (firstn i vs); [reflexivity|]. unfold sumz in *. cbn [map fold_right]. rewrite <- IHl, csize_stack by exact Y2. reflexivity. }
  assert (Bg : D <= gnext wi <= gnext w2) by (pose proof (csize_nonneg t v); lia).
  assert (Ba : a + sz <= D) by (unfold a, D; lia).
  assert (E3 : extends w w3).
  { apply (extends_write w w2 _ a sz Hw E2w); [|unfold a; lia|lia]. intros x0 Hx0. change (store _ _ _ _) with (mem w3). rewrite U.
    apply rd_store_out. unfold within in Hx0. lia. }
  assert (O3 : forall x, x < a \/ a + sz <= x -> rd (mem w3) x = rd (mem w2) x) by (intros; rewrite U; apply rd_store_out; lia).
  assert (A23 : forall F, sub F (between D (gnext w2)) -> agree (mem w2) (mem w3) F).
  { intros F S x0 Hx0. apply S in Hx0. unfold between in Hx0. apply O3. lia. }
  assert (O2 : forall x, 0 <= x < gnext wi -> rd (mem w2) x = rd (mem wi) x) by (apply E2).
  assert (El3 : elems (vrep (mem w3) t) (esize t) (mem w3) (firstn (S i) vs) (dst + 8) (between D (gnext w2))).
  { rewrite (firstn_snoc _ _ _ Ev). assert (Li : List.length (firstn i vs) = i) by (rewrite firstn_length; fold len; lia).
    eapply elems_app with (F := between D (gnext wi)) (F' := between (gnext wi) (gnext w2)).
    - eapply elems_ext; [| |exact El].
      + intros v0 x0 G0 S0 V0. eapply vrep_ext; [|eapply vrep_ext; [|exact V0]].
        * apply A23. eapply sub_trans; [exact S0|apply between_sub; lia].
        * intros x1 Hx1. apply S0 in Hx1. unfold between in Hx1. apply O2. unfold D in Hx1. lia.
      + rewrite Li. fold sz. intros x0 Hx0. unhide Hisz. rewrite (Z.mul_comm sz), <- Hisz in Hx0. hide Hisz. rewrite O3 by (unfold a; lia). apply O2. lia.
    - rewrite Li. fold sz. replace (dst + 8 + sz * Z.of_nat i) with a by (unhide Hisz; unfold a; lia). cbn [elems].
      exists (between (gnext wi) (gnext w2)), empty. split; [|split; [exact I|split; [intros ? ? []|split; [apply sub_refl|intros ? []]]]].
      replace (load (esize t) (mem w3) a) with z.
      + eapply vrep_ext; [|exact Vz]. apply A23. apply between_sub; lia.
      + rewrite (load_ext (esize t) (mem w3) (store sz (mem w2) a z) a a) by (intros; apply U).
        unfold sz. rewrite load_store_same. symmetry. apply Z.mod_small. unhide Rz. exact Rz.
    - apply between_disj; lia.
    - apply between_sub; lia.
    - apply between_sub; lia. }
  assert (Hd1 : load 4 (mem w3) dst = Z.of_nat len).
  { rewrite <- Hh1. apply load_ext. intros j Hj. change (Z.of_nat 4) with 4 in Hj. rewrite O3 by (unfold a; lia). apply O2. lia. }
  assert (Hd2 : load 4 (mem w3) (dst + 4) = cap).
  { rewrite <- Hh2. apply load_ext. intros j Hj. change (Z.of_nat 4) with 4 in Hj. rewrite O3 by (unfold a; lia). apply O2. lia. }
  assert (G3 : gnext w3 = D + sumz (map (csize t) (firstn (S i) vs))).
  { rewrite (firstn_snoc _ _ _ Ev), sumz_snoc. unfold w3. cbn [gnext set_mem]. lia. }
  change (gnext w2) with (gnext w3) in El3. clearbody w3.
  ws1. ws1. ws1. ws1. ws1. ws1. apply wp_brif; intros C'; unb C'; wc.
  - exists (len - S i)%nat. split; [lia|]. exists (S i), l6, l7. split; [reflexivity|]. split; [lia|].
    split; [repeat f_equal; lia|]. split; [exact E3|]. split; [exact G3|]. split; [exact Hd1|]. split; [exact Hd2|]. split; [|exact El3].
    unhide Hisz. rewrite Nat2Z.inj_succ, Z.mul_succ_l, <- Hisz. hide Hisz.
    intros x0 Hx0. rewrite O3 by (unfold a; lia). rewrite O2 by lia. apply Zi. unfold a. lia.
  - apply wp_nil. wc. replace (Z.of_nat i + 1) with (Z.of_nat len) by lia.
    assert (HS : firstn (S i) vs = vs) by (apply firstn_all2; fold len; lia). rewrite HS in *. apply wp_nil. wc.
    apply Fin; auto.
Qed.

Lemma copy_vector : forall t, (is_stack t = false -> copy_ok t) -> copy_ok (TVec t).
Proof.
  intros t IH ep w v p F r Q s l _ Wf Hw V S T K. apply vrep_vec in V as (vs&cap&G&->&V&S1&S2&Dj). cbn [wf_ty] in Wf.
  pose proof (esize_range t) as Hsz. pose proof V as (V1&V2&V3&V4&V5).
  pose proof (copy_cap_pos 1 (List.length vs) ltac:(lia)) as C1. set (cap' := copy_cap 1 (List.length vs)) in *.
  assert (Hc : 8 + cap' * Z.of_nat (esize t) < 2147483648).
  { unfold cap', copy_cap. destruct (Nat.eqb_spec (List.length vs) 0); [lia|nia]. }
  cbn [copy_ptr app]. ws1.
  wcall (vec_copy_spec t ep 1 w vs p cap G IH Wf Hw V);
    [eapply sub_trans; eauto|eapply sub_trans; eauto|lia|exact Hc|exact T|].
  intros rs w' (->&E&Gn&V'). wc. fold cap' in Gn, V'. cbn [csize] in K. fold cap' in K.
  assert (0 <= sumz (map (csize t) vs)) by (apply sumz_nonneg, Forall_map, Forall_forall; intros; apply csize_nonneg).
  unfold vec_bytes in *. apply K; [exact E|exact Gn|nia|]. apply vrep_vec.
  exists vs, cap', (between (gnext w + (8 + cap' * Z.of_nat (esize t))) (gnext w')). split; [reflexivity|]. split; [exact V'|].
  split; [apply between_sub; lia|]. split; [apply between_sub; nia|apply between_disj; lia].
Qed.

