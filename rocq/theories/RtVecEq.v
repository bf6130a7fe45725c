(** * Equality of vectors, structs and enums. *)

From Verif Require Import Tac RtAlloc RtErr RtEq RtDiv RtShift RtAscii Ops SpecVal LemVal RtCopy RtCopy2.
Ltac Zify.zify_post_hook ::= idtac.

(** runtime/vector.rs 1163-1328 [equality_function]; [eq] compares two elements on the stack.  The
    source's [br then_id] leaves the [then] arm, here a block of its own.
    Locals: 0 v1_ptr, 1 v2_ptr, 2 len, 3 result, 4 i. *)
Definition vec_equality (t : ty) (eq : list instr) : func := Func 2 3 1
 [ Const 1; LocalSet 3; LocalGet 0; Load 4 0; LocalGet 1; Load 4 0; LocalTee 2; Bin I32 Eq;
   If 0
     [ Block "then" 0
       (Const 0 :: LocalSet 4 ::
        if is_stack t then
          [ LocalGet 0; Const 8; Bin I32 Add; LocalGet 1; Const 8; Bin I32 Add;
            LocalGet 2; Const (Z.of_nat (esize t)); Bin I32 Mul; Call a_equals_b; LocalSet 3 ]
        else
          [ Loop "loop" 0
              (vec_elem_ptr 0 4 (Z.of_nat (esize t)) ++ [ Load (esize t) 0 ] ++
               vec_elem_ptr 1 4 (Z.of_nat (esize t)) ++ [ Load (esize t) 0 ] ++ eq ++
               [ If 0 [] [ Const 0; LocalSet 3; Br "then" ];
                 LocalGet 4; Const 1; Bin I32 Add; LocalTee 4; LocalGet 2; Bin I32 LtU; BrIf "loop" ]) ]) ]
     [ Const 0; LocalSet 3 ];
   LocalGet 3 ].

(** intermediate_types/user_type_fields.rs 154-239 [compare_fields]; [eq] as above, [p1] and [p2] the
    locals holding the pointers, [res] the local [result]. *)
Definition compare_field (p1 p2 res : nat) (t : ty) (eq : list instr) (off : Z) : list instr :=
  [ LocalGet p1; Load 4 off ] ++ (if is_stack t then [ Load (esize t) 0 ] else []) ++
  [ LocalGet p2; Load 4 off ] ++ (if is_stack t then [ Load (esize t) 0 ] else []) ++ eq ++
  [ If 0 [] [ Const 0; LocalSet res; Br "fields" ] ].
Fixpoint compare_field_list (p1 p2 res : nat) (fs : list (ty * list instr)) (off : Z) : list instr :=
  match fs with
  | [] => []
  | (t, eq) :: fs' => compare_field p1 p2 res t eq off ++ compare_field_list p1 p2 res fs' (off + 4)
  end.
Definition compare_fields (p1 p2 res : nat) (fs : list (ty * list instr)) : list instr :=
  [ Const 1; LocalSet res; Block "fields" 0 (compare_field_list p1 p2 res fs 0); LocalGet res ].

(** intermediate_types/structs.rs 142-165 [equality], emitted inline in the source and a function of
    its own here (see [struct_copy]).  Locals: 0, 1 the operands, 2 s1_ptr, 3 s2_ptr, 4 result. *)
Definition struct_equality (fs : list (ty * list instr)) : func := Func 2 3 1
 ([ LocalGet 0; LocalGet 1; LocalSet 2; LocalSet 3 ] ++ compare_fields 2 3 4 fs).

(** intermediate_types/enums.rs 124-214 [equality], as a function of its own.  The arms'
    [compare_fields] share their result local.
    Locals: 0, 1 the operands, 2 e1_ptr, 3 e2_ptr, 4 variant_index, 5 result, 6 fields' result, 7 encoded_error_ptr. *)
Definition enum_equality (ep : errtab) (vts : list (list (ty * list instr))) : func := Func 2 6 1
 [ LocalGet 0; LocalGet 1; LocalSet 2; LocalSet 3;
   LocalGet 2; Load 4 0; LocalTee 4; LocalGet 3; Load 4 0;
   LocalGet 2; Const 4; Bin I32 Add; LocalSet 2;
   LocalGet 3; Const 4; Bin I32 Add; LocalSet 3;
   Bin I32 Eq;
   If 1
     [ Const 0; LocalSet 5;
       Block "join" 0 (match_arms 4 0 (map (fun fs => compare_fields 2 3 6 fs ++ [ LocalSet 5 ]) vts)
                       ++ return_error ep OutOfBounds 7 true);
       LocalGet 5 ]
     [ Const 0 ] ].

(** intermediate_types.rs 790-933 [load_equality_instructions], for types other than references:
    compare the two values (or pointers) on the stack. *)
Fixpoint equality (ep : errtab) (t : ty) : list instr :=
  match t with
  | TBool | TU8 | TU16 | TU32 => [ Bin I32 Eq ]
  | TU64 => [ Bin I64 Eq ]
  | TU128 => [ Const 16; Call a_equals_b ]
  | TU256 | TAddress => [ Const 32; Call a_equals_b ]
  | TVec t' => [ Call (vec_equality t' (equality ep t')) ]
  | TStruct _ fs => [ Call (struct_equality (map (fun f => (f, equality ep f)) fs)) ]
  | TEnum vts => [ Call (enum_equality ep (map (map (fun f => (f, equality ep f))) vts)) ]
  end.

(** intermediate_types.rs 846-925: operands that are references, i.e. pointers to a word that points
    to the value (to its bytes, for a stack type).  Locals [p1], [p2]: ptr1, ptr2. *)
Definition ref_equality (ep : errtab) (t : ty) (p1 p2 : nat) : list instr :=
  [ Load 4 0; LocalSet p1; Load 4 0; LocalSet p2 ] ++
  (if is_stack t then [ LocalGet p1; Load (esize t) 0; LocalGet p2; Load (esize t) 0 ] else [ LocalGet p1; LocalGet p2 ]) ++
  equality ep t.

(** ** The value computed *)
Fixpoint list_all (f : val -> val -> bool) (vs us : list val) : bool :=
  match vs, us with
  | [], [] => true
  | v :: vs', u :: us' => f v u && list_all f vs' us'
  | _, _ => false
  end.
Fixpoint zip_all (fs : list (val -> val -> bool)) (vs us : list val) : bool :=
  match fs, vs, us with
  | [], [], [] => true
  | f :: fs', v :: vs', u :: us' => f v u && zip_all fs' vs' us'
  | _, _, _ => false
  end.
Fixpoint veqb (t : ty) (v u : val) : bool :=
  match t with
  | TVec t' => match v, u with VVec a, VVec b => list_all (veqb t') a b | _, _ => false end
  | TStruct _ fs => match v, u with VStruct _ a, VStruct _ b => zip_all (map veqb fs) a b | _, _ => false end
  | TEnum vts => match v, u with
      VEnum i a, VEnum j b => Nat.eqb i j && match nth_error (map (fun fs => zip_all (map veqb fs) a b) vts) i with Some r => r | None => false end
      | _, _ => false end
  | _ => match v, u with VInt a, VInt b => a =? b | _, _ => false end
  end.

Fixpoint zip_and (Ps : list (val -> Prop)) (vs : list val) : Prop :=
  match Ps, vs with P :: Ps', v :: vs' => P v /\ zip_and Ps' vs' | _, _ => True end.

(** No vector of a heap type anywhere inside is empty. *)
Fixpoint full (t : ty) (v : val) : Prop :=
  match t with
  | TVec t' => match v with VVec vs => (is_stack t' = false -> vs <> []) /\ fold_right and True (map (full t') vs) | _ => True end
  | TStruct _ fs => match v with VStruct _ vs => zip_and (map full fs) vs | _ => True end
  | TEnum vts => match v with VEnum tag vs => match nth_error (map (fun fs => zip_and (map full fs) vs) vts) tag with Some P => P | None => True end | _ => True end
  | _ => True
  end.

Definition eq_ok (t : ty) : Prop := forall ep w v u p q F G r (Q : outcome -> Prop) s l,
  wf_ty t -> wok w -> vrep (mem w) t v p F -> sub F (heap w) -> vrep (mem w) t u q G -> sub G (heap w) -> full t v \/ full t u ->
  wp r Q (b2z (veqb t v u) :: s) l w -> wp (equality ep t ++ r) Q (q :: p :: s) l w.

Lemma eq_stack : forall t, is_stack t = true -> eq_ok t.
Proof.
  intros t St ep w v u p q F G r Q s l _ _ V _ U _ _ K.
  destruct t; try discriminate; destruct V as [-> V], U as [-> U]; cbn [equality app veqb] in *;
    eapply wp_bin; try (cbn [binop]; reflexivity); exact K.
Qed.

Lemma wp_equal_bytes : forall n w p q F G r (Q : outcome -> Prop) s l, wok w -> (0 < n)%nat ->
  sub (between p (p + Z.of_nat n)) F -> sub F (heap w) -> sub (between q (q + Z.of_nat n)) G -> sub G (heap w) ->
  wp r Q (b2z (load n (mem w) p =? load n (mem w) q) :: s) l w -> wp (Const (Z.of_nat n) :: Call a_equals_b :: r) Q (q :: p :: s) l w.
Proof.
  intros n w p q F G r Q s l Hw Hn A B C D K. destruct (sub_live _ _ _ _ A B) as [A1 A2]; [lia|]. destruct (sub_live _ _ _ _ C D) as [C1 C2]; [lia|].
  ws1. eapply wp_call; [reflexivity|cbn [List.length]; lia|]; cbn [rev firstn app]. eapply returns_wpf; [apply a_equals_b_spec; [exact Hw|unfold live; lia|unfold live; lia]|].
  cbn [skipn app]. exact K.
Qed.

Lemma eq_u128 : eq_ok TU128.
Proof.
  intros ep w v u p q F G r Q s l _ Hw [[-> V] SV] SF [[-> U] SU] SG _ K. cbn [equality app veqb] in *.
  apply (wp_equal_bytes 16 w p q F G); auto. lia.
Qed.
Lemma eq_u256 : eq_ok TU256.
Proof.
  intros ep w v u p q F G r Q s l _ Hw [[-> V] SV] SF [[-> U] SU] SG _ K. cbn [equality app veqb] in *.
  apply (wp_equal_bytes 32 w p q F G); auto. lia.
Qed.
Lemma load_be_load : forall n m a m' b, (load_be n m a = load_be n m' b) <-> (load n m a = load n m' b).
Proof.
  intros. split; intros E.
  - apply load_ext. intros i Hi. rewrite (load_be_byte n m a i Hi), (load_be_byte n m' b i Hi), E. reflexivity.
  - apply load_be_ext. intros i Hi. apply (load_inj n _ _ _ _ E). exact Hi.
Qed.
Lemma eq_address : eq_ok TAddress.
Proof.
  intros ep w v u p q F G r Q s l _ Hw [[-> V] SV] SF [[-> U] SU] SG _ K. cbn [equality app veqb] in *.
  apply (wp_equal_bytes 32 w p q F G); auto; [lia|].
  replace (load 32 (mem w) p =? load 32 (mem w) q) with (load_be 32 (mem w) p =? load_be 32 (mem w) q); [exact K|].
  pose proof (load_be_load 32 (mem w) p (mem w) q).
  destruct (load_be 32 (mem w) p =? load_be 32 (mem w) q) eqn:E1, (load 32 (mem w) p =? load 32 (mem w) q) eqn:E2; auto; lia.
Qed.

(** ** Vectors *)
Lemma stack_elems_bytes : forall t m, is_stack t = true -> forall vs us a b F G, List.length vs = List.length us ->
  elems (vrep m t) (esize t) m vs a F -> elems (vrep m t) (esize t) m us b G ->
  (load (List.length vs * esize t) m a =? load (List.length vs * esize t) m b) = list_all (veqb t) vs us.
Proof.
  intros t m St. induction vs as [|v vs IH]; intros [|u us] a b F G L; try discriminate; cbn [elems list_all List.length Nat.mul]; [reflexivity|].
  intros (F1&F2&V&VS&_) (G1&G2&U&US&_). rewrite !load_split. injection L as L. specialize (IH us _ _ _ _ L VS US). rewrite <- IH.
  replace (veqb t v u) with (load (esize t) m a =? load (esize t) m b).
  2:{ destruct t; try discriminate; cbn [vrep] in V, U; destruct V as [-> _], U as [-> _]; reflexivity. }
  clear. pose proof (load_range (esize t) m a). pose proof (load_range (esize t) m b).
  set (n := (List.length vs * esize t)%nat). set (x := load n m (a + _)). set (y := load n m (b + _)).
  pose proof (pow256_pos (Z.of_nat (esize t)) ltac:(lia)). set (B := 256 ^ _) in *. clearbody B x y.
  set (c := load (esize t) m a) in *. set (d := load (esize t) m b) in *. clearbody c d.
  destruct (Z.eqb_spec c d), (Z.eqb_spec x y); subst; cbn [andb]; [apply Z.eqb_refl|nia|nia|nia].
Qed.

Lemma list_all_snoc : forall f vs us v u, List.length vs = List.length us -> list_all f (vs ++ [v]) (us ++ [u]) = list_all f vs us && f v u.
Proof. induction vs; intros [|y us] v u E; try discriminate; cbn [app list_all]; [rewrite andb_true_r; reflexivity|]. rewrite IHvs by (injection E; auto). apply andb_assoc. Qed.

Lemma list_all_false : forall f vs us i v u, nth_error vs i = Some v -> nth_error us i = Some u -> f v u = false -> list_all f vs us = false.
Proof.
  induction vs; intros [|x us] [|i] v u A B C; try discriminate; cbn [list_all nth_error] in *.
  - injection A as ->. injection B as ->. rewrite C. reflexivity.
  - rewrite (IHvs us i v u) by auto. apply andb_false_r.
Qed.

Lemma list_all_length : forall f vs us, list_all f vs us = true -> List.length vs = List.length us.
Proof. induction vs; intros [|y us] E; try discriminate; cbn [list_all List.length] in *; [reflexivity|]. apply andb_true_iff in E. f_equal. apply IHvs, E. Qed.

Lemma fold_and_nth : forall {A} (P : A -> Prop) l n a, fold_right and True (map P l) -> nth_error l n = Some a -> P a.
Proof. induction l; intros [|n] x H E; try discriminate; cbn in *; [injection E as ->; tauto|]. apply (IHl n x); tauto. Qed.

Lemma nth_error_ex : forall {A} (l : list A) i, (i < List.length l)%nat -> exists v, nth_error l i = Some v.
Proof. intros A l i H. destruct (nth_error l i) eqn:E; [eauto|]. apply nth_error_None in E. lia. Qed.

Lemma vec_equality_spec : forall t ep w vs us p q cp cq G H0, (is_stack t = false -> eq_ok t) -> wf_ty t -> wok w ->
  vec_at (mem w) t vs p cp G -> sub (between p (p + 8 + cp * Z.of_nat (esize t))) (heap w) -> sub G (heap w) ->
  vec_at (mem w) t us q cq H0 -> sub (between q (q + 8 + cq * Z.of_nat (esize t))) (heap w) -> sub H0 (heap w) ->
  full (TVec t) (VVec vs) \/ full (TVec t) (VVec us) ->
  returns (vec_equality t (equality ep t)) [p; q] w [b2z (list_all (veqb t) vs us)] w.
Proof.
  intros t ep w vs us p q cp cq G HQ IH Wf Hw (V1&V2&V3&V4&V5) SP SG (U1&U2&U3&U4&U5) SQ SH Fu.
  apply pure_intro. apply wpf_intro; [reflexivity|]; wc. pose proof Hw as (P1&P2&P3&P4&P5&P6).
  pose proof (esize_range t) as Hsz. set (sz := Z.of_nat (esize t)) in *.
  assert (0 <= cp * sz) by nia. assert (0 <= cq * sz) by nia.
  destruct (sub_block _ _ _ _ SP) as [A1 A2]; [lia|]. destruct (sub_block _ _ _ _ SQ) as [B1 B2]; [lia|].
  ws1. ws1. ws1. ws1. ws1. ws1. ws1. ws1. rewrite V1, U1. apply wp_if; intros C.
  2:{ ws. split; [|reflexivity]. f_equal. destruct (list_all (veqb t) vs us) eqn:E; [|reflexivity].
      apply list_all_length in E. rewrite E, Z.eqb_refl in C. discriminate. }
  assert (EL : List.length vs = List.length us) by (destruct (Z.eqb_spec (Z.of_nat (List.length vs)) (Z.of_nat (List.length us))); cbn in C; lia). clear C.
  apply wp_block. ws1. ws1. set (n := List.length vs) in *. rewrite <- EL in *.
  assert (Hn1 : Z.of_nat n * sz <= cp * sz) by (apply Z.mul_le_mono_nonneg_r; lia).
  assert (Hn2 : Z.of_nat n * sz <= cq * sz) by (apply Z.mul_le_mono_nonneg_r; lia).
  assert (Hn0 : 0 <= Z.of_nat n * sz) by (apply Z.mul_nonneg_nonneg; lia).
  destruct (is_stack t) eqn:St.
  - ws1. ws1. ws1. ws1. ws1. ws1. ws1. ws1. ws1.
    replace (Z.of_nat n * sz) with (Z.of_nat (n * esize t)) in * by (unfold sz; lia).
    eapply wp_call; [reflexivity|cbn [List.length]; lia|]; cbn [rev firstn app].
    eapply returns_wpf; [apply a_equals_b_spec; [exact Hw|unfold live; lia|unfold live; lia]|]. cbn [skipn app].
    pose proof (stack_elems_bytes t (mem w) St vs us _ _ _ _ EL V5 U5) as SE. fold n in SE. rewrite SE. ws. auto.
  - specialize (IH eq_refl). 
    assert (E4 : esize t = 4%nat) by (destruct t; try discriminate; reflexivity). unfold sz in *. clear sz. rewrite E4 in *. change (Z.of_nat 4) with 4 in *.
    assert (Hn : (0 < n)%nat) by (destruct Fu as [[Fn _]|[Fn _]]; specialize (Fn St); [destruct vs|destruct us]; try congruence; cbn [List.length] in n, EL; lia).
    eapply (wp_loop (fun k l w' => exists j, (j < n)%nat /\ k = (n - j)%nat /\ w' = w /\ l = [p; q; Z.of_nat n; 1; Z.of_nat j] /\
       list_all (veqb t) (firstn j vs) (firstn j us) = true)) with (k := n).
    { exists 0%nat. repeat (split; [first [lia|reflexivity]|]). reflexivity. }
    intros k l w' (j&Hj&->&->&->&Hall). destruct (nth_error_ex vs j Hj) as [v Ev]. destruct (nth_error_ex us j ltac:(lia)) as [u Eu].
    destruct (elems_nth _ _ _ _ _ _ _ _ V5 Ev) as (G1&VG&SG1). destruct (elems_nth _ _ _ _ _ _ _ _ U5 Eu) as (HQ1&UH&SH1). change (Z.of_nat 4) with 4 in *.
    unfold vec_elem_ptr. cbn [app]. ws1. ws1. ws1. ws1. ws1. ws1. ws1. ws1. ws1. ws1. ws1. ws1. ws1. ws1. ws1. ws1.
    replace (p + 8 + Z.of_nat j * 4) with (p + 8 + 4 * Z.of_nat j) by lia. replace (q + 8 + Z.of_nat j * 4) with (q + 8 + 4 * Z.of_nat j) by lia.
    eapply IH; [exact Wf|exact Hw|exact VG|exact (sub_trans _ _ _ SG1 SG)|exact UH|exact (sub_trans _ _ _ SH1 SH)|destruct Fu as [[_ Fe]|[_ Fe]]; [left; exact (fold_and_nth _ _ _ _ Fe Ev)|right; exact (fold_and_nth _ _ _ _ Fe Eu)]|].
    assert (Hsn : list_all (veqb t) (firstn (S j) vs) (firstn (S j) us) = veqb t v u).
    { rewrite (firstn_snoc _ _ _ Ev), (firstn_snoc _ _ _ Eu), list_all_snoc; [rewrite Hall; reflexivity|]. rewrite !firstn_length. lia. }
    apply wp_if; intros C.
    + assert (Ee : veqb t v u = true) by (destruct (veqb t v u); [reflexivity|cbn in C; lia]). rewrite Ee in Hsn.
      apply wp_nil. wc. ws1. ws1. ws1. ws1. ws1. ws1. ws1.
      * exists (n - S j)%nat. split; [lia|]. exists (S j). split; [lia|]. split; [lia|]. split; [reflexivity|]. split; [leq|exact Hsn].
      * ws. split; [|reflexivity]. assert (S j = n) by lia.
        rewrite firstn_all2 in Hsn by lia. rewrite firstn_all2 in Hsn by lia. rewrite Hsn. reflexivity.
    + assert (Ee : veqb t v u = false) by (destruct (veqb t v u); [cbn in C; lia|reflexivity]).
      ws. split; [|reflexivity]. rewrite (list_all_false _ _ _ _ _ _ Ev Eu Ee). reflexivity.
Qed.

Lemma eq_vector : forall t, eq_ok t -> eq_ok (TVec t).
Proof.
  intros t IH ep w v u p q F G r Q s l Wf Hw V SF U SG Fu K.
  apply vrep_vec in V. destruct V as (vs&cp&GV&->&V&V1&V2&V3). apply vrep_vec in U. destruct U as (us&cq&GU&->&U&U1&U2&U3).
  cbn [equality app veqb] in *. eapply wp_call; [reflexivity|cbn [List.length]; lia|]; cbn [rev firstn app].
  eapply returns_wpf; [eapply (vec_equality_spec t ep w vs us p q cp cq GV GU); eauto using sub_trans|]. exact K.
Qed.

(** ** Structs *)
Lemma compare_fields_ok : forall fs, Forall eq_ok fs -> fold_right and True (map wf_ty fs) ->
  forall ep w p q off vs us F G r (Q : outcome -> Prop) s l a b res x, wok w ->
  nth_error l a = Some p -> nth_error l b = Some q -> nth_error l res = Some x -> 0 <= off ->
  (fs <> [] -> 468 <= p /\ p + off + 4 * Z.of_nat (List.length fs) <= gnext w) ->
  (fs <> [] -> 468 <= q /\ q + off + 4 * Z.of_nat (List.length fs) <= gnext w) ->
  fields (map (fun t => field_of (mem w) t (vrep (mem w) t)) fs) (mem w) vs (p + off) F -> sub F (heap w) ->
  fields (map (fun t => field_of (mem w) t (vrep (mem w) t)) fs) (mem w) us (q + off) G -> sub G (heap w) ->
  zip_and (map full fs) vs \/ zip_and (map full fs) us ->
  (zip_all (map veqb fs) vs us = true -> wp r Q s l w) ->
  (zip_all (map veqb fs) vs us = false -> forall s', Q (OBr "fields" s' (set_nth res 0 l) w)) ->
  wp (compare_field_list a b res (map (fun t => (t, equality ep t)) fs) off ++ r) Q s l w.
Proof.
  induction fs as [|t fs IHfs]; intros IH Wf ep w p q off vs us F G r Q s l a b res x Hw La Lb Lr Ho Hp Hq V SF U SG Fu K1 K2.
  { cbn [map compare_field_list app]. destruct vs; [|destruct V]. destruct us; [|destruct U]. apply K1. reflexivity. }
  destruct vs as [|v vs]; [destruct V|]. destruct us as [|u us]; [destruct U|]. cbn [map fields zip_and zip_all] in *.
  destruct V as (F1&F2&V1&V2&_&Sf1&Sf2). destruct U as (G1&G2&U1&U2&_&Sg1&Sg2).
  assert (Fu1 : full t v \/ full t u) by tauto. assert (Fu2 : zip_and (map full fs) vs \/ zip_and (map full fs) us) by tauto. clear Fu.
  inversion IH as [|? ? IHt IHr]; subst. destruct Wf as [Wt Wr]. specialize (Hp ltac:(discriminate)). specialize (Hq ltac:(discriminate)). cbn [List.length] in Hp, Hq.
  cbn [compare_field_list]. unfold compare_field. rewrite <- !app_assoc. cbn [app]. pose proof Hw as (P1&P2&P3&P4&P5&P6).
  assert (Main : forall e, (e = veqb t v u) -> wp (If 0 [] [ Const 0; LocalSet res; Br "fields" ] :: compare_field_list a b res (map (fun t => (t, equality ep t)) fs) (off + 4) ++ r) Q (b2z e :: s) l w).
  { intros e He. apply wp_if; intros C.
    - assert (Et : e = true) by (destruct e; [reflexivity|cbn in C; lia]). rewrite <- He, Et in *. cbn [andb] in *.
      apply wp_nil. wc. eapply (IHfs IHr Wr ep w p q (off + 4) vs us F2 G2); eauto.
      + lia.
      + intros _. lia.
      + intros _. lia.
      + replace (p + (off + 4)) with (p + off + 4) by lia. exact V2.
      + exact (sub_trans _ _ _ Sf2 SF).
      + replace (q + (off + 4)) with (q + off + 4) by lia. exact U2.
      + exact (sub_trans _ _ _ Sg2 SG).
    - assert (Et : e = false) by (destruct e; [cbn in C; lia|reflexivity]). rewrite <- He, Et in *. cbn [andb] in *.
      ws1. eapply wp_lset; [exact Lr|]. apply wp_br. cbn [ifk]. apply K2. reflexivity. }
  unfold field_of in V1, U1. destruct (is_stack t) eqn:St.
  - destruct V1 as [Sv V1], U1 as [Su U1]. pose proof (esize_range t). destruct (sub_live _ _ _ _ Sv (sub_trans _ _ _ Sf1 SF)) as [Lv1 Lv2]; [lia|].
    destruct (sub_live _ _ _ _ Su (sub_trans _ _ _ Sg1 SG)) as [Lu1 Lu2]; [lia|].
    eapply wp_lget; [exact La|]. apply wp_load; [lia|unfold page_size; lia|]. cbn [app]. apply wp_load; [lia|unfold page_size; lia|]. rewrite Z.add_0_r.
    eapply wp_lget; [exact Lb|]. apply wp_load; [lia|unfold page_size; lia|]. cbn [app]. apply wp_load; [lia|unfold page_size; lia|]. rewrite Z.add_0_r.
    assert (Sv' : vrep (mem w) t v (load (esize t) (mem w) (load 4 (mem w) (p + off))) F1) by (destruct t; try discriminate; exact V1).
    assert (Su' : vrep (mem w) t u (load (esize t) (mem w) (load 4 (mem w) (q + off))) G1) by (destruct t; try discriminate; exact U1).
    eapply IHt; [exact Wt|exact Hw|exact Sv'|exact (sub_trans _ _ _ Sf1 SF)|exact Su'|exact (sub_trans _ _ _ Sg1 SG)|exact Fu1|]. apply Main; auto.
  - eapply wp_lget; [exact La|]. apply wp_load; [lia|unfold page_size; lia|]. cbn [app].
    eapply wp_lget; [exact Lb|]. apply wp_load; [lia|unfold page_size; lia|]. cbn [app].
    eapply IHt; [exact Wt|exact Hw|exact V1|exact (sub_trans _ _ _ Sf1 SF)|exact U1|exact (sub_trans _ _ _ Sg1 SG)|exact Fu1|]. apply Main; auto.
Qed.

Lemma zip_all_sym : forall fs, Forall (fun t => forall v u, veqb t v u = veqb t u v) fs -> forall vs us, zip_all (map veqb fs) vs us = zip_all (map veqb fs) us vs.
Proof. induction 1; intros [|v vs] [|u us]; cbn [map zip_all]; auto. rewrite H, IHForall. reflexivity. Qed.

Lemma list_all_sym : forall f, (forall v u, f v u = f u v) -> forall vs us, list_all f vs us = list_all f us vs.
Proof. induction vs; intros [|u us]; cbn [list_all]; auto. rewrite H, IHvs. reflexivity. Qed.

Lemma veqb_sym : forall t v u, veqb t v u = veqb t u v.
Proof.
  apply (ty_rec' (fun t => forall v u, veqb t v u = veqb t u v)).
  - intros t St v u. destruct t; try discriminate; destruct v, u; cbn [veqb]; auto; apply Z.eqb_sym.
  - intros v u. destruct v, u; cbn [veqb]; auto; apply Z.eqb_sym.
  - intros v u. destruct v, u; cbn [veqb]; auto; apply Z.eqb_sym.
  - intros v u. destruct v, u; cbn [veqb]; auto; apply Z.eqb_sym.
  - intros t H v u. destruct v, u; cbn [veqb]; auto. apply list_all_sym. exact H.
  - intros k fs H v u. destruct v, u; cbn [veqb]; auto. apply zip_all_sym. exact H.
  - intros vts H v u. destruct v as [| | |i a], u as [| | |j b]; cbn [veqb]; auto. rewrite Nat.eqb_sym. destruct (Nat.eqb_spec j i) as [->|]; [|reflexivity]. cbn [andb].
    destruct (nth_error vts i) as [fs|] eqn:E.
    + rewrite !(map_nth_error _ _ _ E). apply zip_all_sym. exact (nth_error_Forall _ _ _ _ H E).
    + assert (N : forall f : list ty -> bool, nth_error (map f vts) i = None) by (intros f; apply nth_error_None; rewrite map_length; apply nth_error_None; exact E).
      rewrite !N. reflexivity.
Qed.

Lemma eq_struct : forall key fs, Forall eq_ok fs -> eq_ok (TStruct key fs).
Proof.
  intros key fs IH ep w v u p q F G r Q s l [_ Wf] Hw V SF U SG Fu K. pose proof Hw as (P1&P2&P3&P4&P5&P6).
  cbn [vrep] in V, U. destruct V as (o&vs&GV&->&_&V1&V2&_&V). destruct U as (o'&us&GU&->&_&U1&U2&_&U). cbn [full veqb] in *.
  cbn [equality app]. eapply wp_call; [reflexivity|cbn [List.length]; lia|]; cbn [rev firstn app].
  eapply (returns_wpf _ _ _ [b2z (zip_all (map veqb fs) vs us)] w); [|exact K]. apply pure_intro. apply wpf_intro; [reflexivity|]. unfold compare_fields; wc.
  ws1. ws1. ws1. ws1. ws1. ws1. apply wp_block.
  rewrite <- (app_nil_r (compare_field_list _ _ _ _ _)).
  rewrite (zip_all_sym fs ltac:(apply Forall_forall; intros; apply veqb_sym) vs us).
  assert (Lp : forall z H, sub (between (if key then z - 32 else z) (z + 4 * Z.of_nat (List.length fs))) H -> sub H (heap w) -> fs <> [] ->
     468 <= z /\ z + 0 + 4 * Z.of_nat (List.length fs) <= gnext w).
  { intros z H A B N. assert (List.length fs <> 0%nat) by (destruct fs; [congruence|discriminate]).
    destruct (sub_block _ _ _ _ (sub_trans _ _ _ A B)); destruct key; lia. }
  eapply (compare_fields_ok fs IH Wf ep w q p 0 us vs GU GV); try reflexivity; try exact Hw; try lia.
  - exact (Lp q G U1 SG).
  - exact (Lp p F V1 SF).
  - rewrite Z.add_0_r. exact U.
  - exact (sub_trans _ _ _ U2 SG).
  - rewrite Z.add_0_r. exact V.
  - exact (sub_trans _ _ _ V2 SF).
  - tauto.
  - intros E. ws. rewrite E. auto.
  - intros E s'. wc. ws. rewrite E. auto.
Qed.

(** ** Enums *)
Lemma eq_enum : forall vts, Forall (Forall eq_ok) vts -> eq_ok (TEnum vts).
Proof.
  intros vts IH ep w v u p q F G r Q s l [Wn Wf] Hw V SF U SG Fu K. pose proof Hw as (P1&P2&P3&P4&P5&P6).
  cbn [vrep] in V, U. destruct V as (tag&vs&GV&->&Tv&V1&V2&_&V). destruct U as (tag'&us&GU&->&Tu&U1&U2&_&U).
  pose proof (enum_size_pos vts) as Hsz. destruct (wf_variants _ Wf) as [_ Wv].
  destruct (sub_block _ _ _ _ (sub_trans _ _ _ V1 SF)) as [La Lb]; [lia|]. destruct (sub_block _ _ _ _ (sub_trans _ _ _ U1 SG)) as [Lc Ld]; [lia|].
  cbn [equality app]. eapply wp_call; [reflexivity|cbn [List.length]; lia|]; cbn [rev firstn app].
  eapply (returns_wpf _ _ _ [b2z (veqb (TEnum vts) (VEnum tag vs) (VEnum tag' us))] w); [|exact K]. apply pure_intro. apply wpf_intro; [reflexivity|]. wc.
  ws1. ws1. ws1. ws1. ws1. ws1. rewrite Tu. ws1. ws1. ws1. rewrite Tv. ws1. ws1. ws1. ws1. ws1. ws1. ws1. ws1. ws1.
  cbn [veqb]. apply wp_if; intros C.
  2:{ ws. split; [|reflexivity]. replace (Nat.eqb tag tag') with false; [reflexivity|]. symmetry. apply Nat.eqb_neq. intros ->. rewrite Z.eqb_refl in C. discriminate. }
  assert (tag' = tag) by (destruct (Z.eqb_spec (Z.of_nat tag') (Z.of_nat tag)); cbn in C; lia). subst tag'. clear C. rewrite Nat.eqb_refl. cbn [andb].
  destruct (nth_error vts tag) as [fs|] eqn:Ef.
  2:{ exfalso. replace (nth_error (map _ vts) tag) with (@None (list (val -> Z -> mset -> Prop))) in V; [exact V|].
      symmetry. apply nth_error_None. rewrite map_length. apply nth_error_None. exact Ef. }
  rewrite (map_nth_error _ _ _ Ef). rewrite (map_nth_error _ _ _ Ef) in V. rewrite (map_nth_error _ _ _ Ef) in U. destruct (Wv _ _ Ef) as [Wl Wfs]. pose proof (enum_size_ge _ _ _ Ef) as Hge.
  assert (Htag : (tag < List.length vts)%nat) by (apply nth_error_Some; congruence).
  ws1. ws1. apply wp_block. eapply (wp_match_arms _ 4 0 _ _ _ _ _ tag); [cbn [nth_error]; f_equal; lia|lia|rewrite !map_length; lia| |].
  { rewrite map_map. apply (map_nth_error (fun x => compare_fields 2 3 6 (map (fun f => (f, equality ep f)) x) ++ [LocalSet 5]) _ _ Ef). }
  unfold compare_fields. cbn [app]. ws1. ws1. apply wp_block. rewrite <- (app_nil_r (compare_field_list _ _ _ _ _)).
  cbn [full] in Fu. rewrite !(map_nth_error _ _ _ Ef) in Fu.
  rewrite (zip_all_sym fs ltac:(apply Forall_forall; intros; apply veqb_sym) vs us).
  eapply (compare_fields_ok fs (nth_error_Forall _ _ _ _ IH Ef) Wfs ep w (q + 4) (p + 4) 0 us vs GU GV); try reflexivity; try exact Hw; try lia.
  - rewrite Z.add_0_r. exact U.
  - exact (sub_trans _ _ _ U2 SG).
  - rewrite Z.add_0_r. exact V.
  - exact (sub_trans _ _ _ V2 SF).
  - tauto.
  - intros E. ws. rewrite E. auto.
  - intros E s'. wc. ws. rewrite E. auto.
Qed.

(** Every type. *)
Theorem eq_all : forall t, eq_ok t.
Proof.
  apply (ty_rec' eq_ok).
  - exact eq_stack.
  - exact eq_u128.
  - exact eq_u256.
  - exact eq_address.
  - exact eq_vector.
  - exact eq_struct.
  - exact eq_enum.
Qed.

(** ** What [veqb] decides: equality of values, owners aside. *)
Fixpoint erase (v : val) : val :=
  match v with
  | VInt n => VInt n
  | VVec l => VVec (map erase l)
  | VStruct _ l => VStruct 0 (map erase l)
  | VEnum i l => VEnum i (map erase l)
  end.

Definition eqdec (t : ty) : Prop := forall m v u p q F G, vrep m t v p F -> vrep m t u q G -> (veqb t v u = true <-> erase v = erase u).

Lemma VInt_inj : forall a b, VInt a = VInt b -> a = b.
Proof. intros a b H. injection H. auto. Qed.

Lemma list_all_spec : forall t m sz, eqdec t -> forall vs us a b F G, elems (vrep m t) sz m vs a F -> elems (vrep m t) sz m us b G ->
  (list_all (veqb t) vs us = true <-> map erase vs = map erase us).
Proof.
  intros t m sz D. induction vs as [|v vs IH]; intros [|u us] a b F G; cbn [elems list_all map]; intros V U; try (split; congruence).
  destruct V as (F1&F2&V1&V2&_), U as (G1&G2&U1&U2&_). rewrite andb_true_iff, (D _ _ _ _ _ _ _ V1 U1), (IH _ _ _ _ _ V2 U2).
  split; [intros [-> ->]; reflexivity|intros E; injection E; auto].
Qed.

Lemma zip_all_spec : forall m fs, Forall eqdec fs -> forall vs us a b F G,
  fields (map (fun t => field_of m t (vrep m t)) fs) m vs a F -> fields (map (fun t => field_of m t (vrep m t)) fs) m us b G ->
  (zip_all (map veqb fs) vs us = true <-> map erase vs = map erase us).
Proof.
  intros m. induction 1 as [|t fs D _ IH]; intros [|v vs] [|u us] a b F G; cbn [map fields zip_all]; intros V U; try tauto.
  destruct V as (F1&F2&V1&V2&_), U as (G1&G2&U1&U2&_). rewrite andb_true_iff, (IH _ _ _ _ _ _ V2 U2).
  assert (E : veqb t v u = true <-> erase v = erase u).
  { unfold field_of in V1, U1. destruct (is_stack t) eqn:St; [|exact (D _ _ _ _ _ _ _ V1 U1)].
    destruct V1 as [_ [-> V1]], U1 as [_ [-> U1]]. destruct t; try discriminate; cbn [veqb erase]; rewrite Z.eqb_eq; (split; [congruence|apply VInt_inj]). }
  rewrite E. split; [intros [-> ->]; reflexivity|intros X; injection X; auto].
Qed.

Lemma veqb_spec : forall t, eqdec t.
Proof.
  apply (ty_rec' eqdec).
  - intros t St m v u p q F G V U. destruct t; try discriminate; destruct V as [-> _], U as [-> _]; cbn [veqb erase]; rewrite Z.eqb_eq; (split; [congruence|apply VInt_inj]).
  - intros m v u p q F G [[-> _] _] [[-> _] _]. cbn [veqb erase]; rewrite Z.eqb_eq; (split; [congruence|apply VInt_inj]).
  - intros m v u p q F G [[-> _] _] [[-> _] _]. cbn [veqb erase]; rewrite Z.eqb_eq; (split; [congruence|apply VInt_inj]).
  - intros m v u p q F G [[-> _] _] [[-> _] _]. cbn [veqb erase]; rewrite Z.eqb_eq; (split; [congruence|apply VInt_inj]).
  - intros t D m v u p q F G (vs&c&H&->&_&_&_&_&_&_&_&V) (us&c'&H'&->&_&_&_&_&_&_&_&U). cbn [veqb erase].
    rewrite (list_all_spec t m _ D _ _ _ _ _ _ V U). split; [congruence|intros E; injection E; auto].
  - intros k fs D m v u p q F G (o&vs&H&->&_&_&_&_&V) (o'&us&H'&->&_&_&_&_&U). cbn [veqb erase].
    rewrite (zip_all_spec m fs D _ _ _ _ _ _ V U). split; [congruence|intros E; injection E; auto].
  - intros vts D m v u p q F G (i&vs&H&->&_&_&_&_&V) (j&us&H'&->&_&_&_&_&U). cbn [veqb erase].
    rewrite andb_true_iff, Nat.eqb_eq. destruct (nth_error vts i) as [fs|] eqn:Ef.
    + rewrite (map_nth_error _ _ _ Ef). rewrite (map_nth_error _ _ _ Ef) in V. split.
      * intros [<- E]. rewrite (map_nth_error _ _ _ Ef) in U. apply (zip_all_spec m fs (nth_error_Forall _ _ _ _ D Ef) _ _ _ _ _ _ V U) in E. congruence.
      * intros E. injection E as <- E. split; [reflexivity|]. rewrite (map_nth_error _ _ _ Ef) in U.
        apply (zip_all_spec m fs (nth_error_Forall _ _ _ _ D Ef) _ _ _ _ _ _ V U). exact E.
    + exfalso. replace (nth_error (map _ vts) i) with (@None (list (val -> Z -> mset -> Prop))) in V; [exact V|].
      symmetry. apply nth_error_None. rewrite map_length. apply nth_error_None. exact Ef.
Qed.
