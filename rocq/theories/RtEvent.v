(** * Events: encoding the indexed fields that are hashed. *)

From Verif Require Import Tac RtAlloc RtErr RtEq RtDiv RtShift RtSwap RtAscii Ops SpecVal LemVal SpecAbi LemAbi RtCopy SpecSol RtAbi RtPack RtPack2 SpecEvent.
Ltac Zify.zify_post_hook ::= idtac.

(** native_functions/event.rs 1006-1113 [add_encode_indexed_string]; [x] is the local of the string pointer,
    [n] writer_pointer, [n+1] len, [n+2] i.  Here and below the locals that the compiler creates
    for one field are reused for the next. *)
Definition index_string (pad : bool) (x n : nat) : list instr :=
  [ LocalGet x; Load 4 0; LocalSet x; LocalGet x; Load 4 0; LocalSet (n + 1); LocalGet (n + 1) ] ++
  (if pad then [ Const 31; Bin I32 Add; Const 4294967264; Bin I32 And ] else []) ++
  [ Call alloc; LocalSet n; LocalGet x; Const 8; Bin I32 Add; LocalSet x; Const 0; LocalSet (n + 2);
    Loop "loop" 0
     [ LocalGet n; LocalGet x; Load 4 0; Store 1 0;
       LocalGet x; Const 1; Bin I32 Add; LocalSet x;
       LocalGet n; Const 1; Bin I32 Add; LocalSet n;
       LocalGet (n + 2); Const 1; Bin I32 Add; LocalTee (n + 2); LocalGet (n + 1); Bin I32 LtU; BrIf "loop" ] ].

(** native_functions/event.rs 510-776 [add_encode_indexed_vector_instructions], given the size of an element, the extra
    load of an enum's variant and the encoding of an element whose value is in local [n+2].  [x] is the local
    of the vector pointer, [n] len, [n+1] i. *)
Definition index_vec (esz : nat) (deref elem : list instr) (x n : nat) : list instr :=
  [ LocalGet x; Load 4 0; LocalSet n; LocalGet x; Const 8; Bin I32 Add; LocalSet x; Const 0; LocalSet (n + 1);
    Loop "loop" 0
     ([ LocalGet x; Load esz 0 ] ++ deref ++ [ LocalSet (n + 2) ] ++ elem ++
      [ LocalGet x; Const (Z.of_nat esz); Bin I32 Add; LocalSet x;
        LocalGet (n + 1); Const 1; Bin I32 Add; LocalTee (n + 1); LocalGet n; Bin I32 LtU; BrIf "loop" ]) ].

(** native_functions/event.rs 781-1001 [add_encode_indexed_struct_instructions], given for each field the loads leading from
    the field pointer to its value and the encoding of the value in local [n].  [x] is the local of
    the struct pointer. *)
Fixpoint index_fields (i : Z) (fs : list (list instr * list instr)) (x n : nat) : list instr :=
  match fs with
  | [] => []
  | (deref, elem) :: fs => [ LocalGet x; Load 4 (4 * i) ] ++ deref ++ [ LocalSet n ] ++ elem ++ index_fields (i + 1) fs x n
  end.

(** event.rs 709-719 (an enum in a vector); 803-825, 909-919, 952-962 (a stack value, a struct and an enum in a
    struct). *)
Definition vec_deref (t : aty) : list instr := match t with AEnum _ => [ Load 4 0 ] | _ => [] end.
Definition field_deref (t : aty) : list instr :=
  match t with
  | AInt t => if is_stack t then [ Load (esize t) 0 ] else []
  | AEnum _ => [ Load 1 0 ]
  | AStruct _ => [ Load 4 0 ]
  | _ => []
  end.

(** The encoding of the value of type [t] in local [x]; a word per simple value (event.rs 561-577, 729-745,
    827-843, 974-990).  Locals from [n] on are used. *)
Fixpoint index_elem (t : aty) (x n : nat) {struct t} : list instr :=
  match t with
  | AInt t => [ Const 32; Call alloc; LocalSet n; LocalGet x; LocalGet n; Call (pack_int t) ]
  | AEnum _ => [ Const 32; Call alloc; LocalSet n; LocalGet x; LocalGet n; Call pack_u32 ]
  | AString => index_string true x n
  | AVec t => index_vec (esize (mty t)) (vec_deref t) (index_elem t (n + 2) (n + 3)) x n
  | AStruct fs => index_fields 0 (map (fun f => (field_deref f, index_elem f n (n + 1))) fs) x n
  end.
Fixpoint index_locals (t : aty) : nat :=
  match t with
  | AInt _ | AEnum _ => 1
  | AString => 3
  | AVec t => 3 + index_locals t
  | AStruct fs => 1 + fold_right Nat.max 0%nat (map index_locals fs)
  end.

(** ** Appending to the heap *)

Definition appended (w w' : world) (bs : list Z) : Prop :=
  extends w w' /\ gnext w' = gnext w + lenz bs /\ bytes_at (mem w') (gnext w) bs.

Lemma appended_nil : forall w, wok w -> appended w w [].
Proof. intros w Hw. split; [apply extends_refl; exact Hw|]. split; [unfold lenz; cbn [List.length]; lia|reflexivity]. Qed.

Lemma appended_app : forall w w1 w2 a b, wok w -> appended w w1 a -> appended w1 w2 b -> appended w w2 (a ++ b).
Proof.
  intros w w1 w2 a b Hw (E1&G1&B1) (E2&G2&B2). split; [eapply extends_trans; eauto|]. rewrite lenz_app. split; [lia|].
  apply bytes_at_app. rewrite <- G1. split; [|exact B2]. eapply bytes_at_ext; [|exact B1].
  intros x Hx. destruct E2 as (_&_&_&_&_&_&E2). unfold wok in Hw. apply E2. lia.
Qed.

Lemma packs_appended : forall w w1 w' hd, wok w -> allocated w w1 (lenz hd) -> packs w1 w' (gnext w) hd [] -> appended w w' hd.
Proof.
  intros w w1 w' hd Hw (A1&A2&A3&A4&A5&A6&A7) (P1&P2&P3&P4&P5&P6&P7&P8&P9). unfold wok in Hw. pose proof (lenz_nonneg hd). unfold lenz in P6 at 1. cbn [List.length Z.of_nat] in P6.
  split; [|split; [lia|exact P7]]. unfold extends. split; [exact P1|]. repeat (split; [first [congruence|lia]|]).
  intros a Ha. rewrite P9 by (unfold within; lia). rewrite A2. reflexivity.
Qed.

Lemma extends_oom : forall w w1 n k, extends w w1 -> oom w1 n -> gnext w1 + n <= gnext w + k -> oom w k.
Proof. intros w w1 n k E O H. eapply oom_extends; eauto. Qed.

(** ** Locals *)

Definition same_but (x n : nat) (l l' : list Z) : Prop :=
  List.length l' = List.length l /\ forall i, (i < n)%nat -> i <> x -> nth_error l' i = nth_error l i.
Lemma same_but_refl : forall x n l, same_but x n l l.
Proof. split; auto. Qed.
Lemma same_but_trans : forall x n a b c, same_but x n a b -> same_but x n b c -> same_but x n a c.
Proof. intros x n a b c [A1 A2] [B1 B2]. split; [congruence|]. intros. rewrite B2, A2; auto. Qed.
Lemma same_but_set : forall x n i v l, i = x \/ (n <= i)%nat -> same_but x n l (set_nth i v l).
Proof. intros x n i v l H. split; [apply set_nth_length|]. intros. apply set_nth_other. lia. Qed.
Lemma same_but_weaken : forall x n y m l l', same_but y m l l' -> (n <= m)%nat -> y = x \/ (n <= y)%nat -> same_but x n l l'.
Proof. intros x n y m l l' [A1 A2] H1 H2. split; [exact A1|]. intros. apply A2; lia. Qed.

Ltac nl := repeat first [rewrite set_nth_same by (rewrite ?set_nth_length; lia) | rewrite set_nth_other by lia]; try eassumption; try reflexivity.
Ltac ls := apply wp_lset'; [rewrite ?set_nth_length; lia|].
Ltac lt := apply wp_ltee'; [rewrite ?set_nth_length; lia|].
Ltac lg := eapply wp_lget; [nl|].
Ltac sb := first [apply same_but_refl | eapply same_but_trans; [|apply same_but_set; first [left; reflexivity|right; lia]]; sb].

(** ** Strings *)

Lemma string_rep : forall m v X F w, vrep m (mty AString) v X F -> sub F (heap w) ->
  exists bs Y, v = VStruct 0 [VVec (map VInt bs)] /\ Y = load 4 m X /\ load 4 m Y = lenz bs /\ bytes_at m (Y + 8) bs /\ lenz bs < 2147483640 /\
    468 <= X /\ X + 4 <= gnext w /\ 468 <= Y /\ Y + 8 + lenz bs <= gnext w /\ map int_of (map VInt bs) = bs.
Proof.
  intros m v X F w V S. cbn [mty vrep map] in V. destruct V as (o&vs0&G&->&->&S1&S2&D1&N).
  cbn [fields] in N. destruct vs0 as [|v vs0]; [contradiction|]. destruct N as (F1&F2&V&N&_&SF1&_). destruct vs0 as [|v' vs0]; [|contradiction N].
  unfold field_of in V. cbn [is_stack] in V. set (Y := load 4 m X) in *.
  destruct V as (vs&cap&G'&->&L1&L2&L3&L4&S3&S4&D2&EL). cbn [esize] in *. change (Z.of_nat 1) with 1 in *. rewrite Z.mul_1_r in *.
  destruct (elems_ints _ _ _ _ EL) as [Ev Eb].
  destruct (sub_live X 4 F w) as [A1 A2]; [exact S1|exact S|lia|].
  destruct (sub_live Y (8 + cap) F w) as [A3 A4];
    [replace (Y + (8 + cap)) with (Y + 8 + cap) by lia; eapply sub_trans; [exact S3|]; eapply sub_trans; [exact SF1|exact S2]|exact S|lia|].
  exists (map int_of vs), Y. unfold lenz, bytes_at. rewrite map_length. rewrite <- Ev, <- Eb.
  repeat (split; [first [reflexivity|assumption|lia]|]). reflexivity.
Qed.

Definition ienc (pad : bool) (bs : list Z) : list Z := if pad then padded bs else bs.

Lemma wp_index_string : forall pad x n r (Q : outcome -> Prop) s l w v bs X F,
  nth_error l x = Some X -> (x < n)%nat -> (n + 3 <= List.length l)%nat -> wok w ->
  vrep (mem w) (mty AString) v X F -> sub F (heap w) -> v = VStruct 0 [VVec (map VInt bs)] -> bs <> [] -> lenz (ienc pad bs) < 2147483648 ->
  (ctrap w true (lenz (ienc pad bs)) -> Q OTrap) ->
  (forall l' w', same_but x n l l' -> appended w w' (ienc pad bs) -> wp r Q s l' w') ->
  wp (index_string pad x n ++ r) Q s l w.
Proof.
  intros pad x n r Q s l w v bs X F Nx Hx Hl Hw V S Ev Hbs Hlen T K. pose proof Hw as (P1&P2&P3&P4&P5&P6).
  destruct (string_rep _ _ _ _ w V S) as (bs'&Y&->&HY&L1&By&Lb&A1&A2&A3&A4&Eb').
  assert (bs' = bs). { injection Ev as Ev. rewrite <- Eb', Ev. rewrite map_map. apply map_id. } subst bs'. clear Ev Eb'.
  destruct (pad32_spec (List.length bs)) as (q&Q1&Q2&_). set (pd := pad32 (List.length bs)) in *.
  assert (LL : lenz (ienc pad bs) = if pad then lenz bs + Z.of_nat pd else lenz bs).
  { unfold ienc, padded. destruct pad; [|reflexivity]. rewrite lenz_app. unfold lenz. rewrite repeat_length. reflexivity. }
  assert (L0 : 0 < lenz bs) by (unfold lenz; destruct bs; [contradiction|cbn [List.length]; lia]).
  set (L := lenz (ienc pad bs)) in *. assert (HL : lenz bs <= L) by (rewrite LL; destruct pad; lia).
  unfold index_string. rewrite <- !app_assoc. cbn [app].
  lg. apply wp_load; [lia|unfold page_size; change (Z.of_nat 4) with 4; lia|]. rewrite Z.add_0_r, <- HY. ls. lg.
  apply wp_load; [lia|unfold page_size; change (Z.of_nat 4) with 4; lia|]. rewrite Z.add_0_r, L1. ls. lg.
  match goal with |- wp ((if pad then _ else _) ++ ?r) ?Q _ _ _ => assert (KL : wp r Q (L :: s) (set_nth (n + 1) (lenz bs) (set_nth x Y l)) w) end.
  2:{ destruct pad; cbn [app].
      - ws1. ws1. ws1. ws1. rewrite land_pad by lia. unfold lenz at 1 2. rewrite Nat2Z.id. fold pd. fold (lenz bs). rewrite LL in KL. exact KL.
      - rewrite LL in KL. exact KL. }
  cbn [app]. wcall alloc_spec; [exact Hw|lia|intros O; apply T; left; exact O|]. intros rs w1 [-> Al]. wc.
  pose proof Al as (Hw1&Em&B1&B2&B3&B4&B5). pose proof Hw1 as (R1&R2&R3&R4&R5&R6). set (t := gnext w) in *.
  ls. lg. ws1. ws1. ls. ws1. ls.
  match goal with |- wp _ _ _ ?l1 _ => set (l1' := l1) end.
  eapply (wp_loop (fun f l' wi => exists i, f = (List.length bs - i)%nat /\ (i < List.length bs)%nat /\ same_but x n l l' /\
     nth_error l' x = Some (Y + 8 + Z.of_nat i) /\ nth_error l' n = Some (t + Z.of_nat i) /\ nth_error l' (n + 1) = Some (lenz bs) /\ nth_error l' (n + 2) = Some (Z.of_nat i) /\
     exists m, wi = set_mem w1 m /\ bytes_at m t (firstn i bs) /\ (forall a, ~ within t (Z.of_nat i) a -> rd m a = rd (mem w) a)) (List.length bs)).
  { exists 0%nat. unfold lenz in L0. split; [lia|]. split; [lia|]. split; [unfold l1'; sb|]. unfold l1'.
    split; [nl; f_equal; lia|]. split; [nl; f_equal; lia|]. split; [nl|]. split; [nl|]. exists (mem w1).
    split; [destruct w1; reflexivity|]. split; [reflexivity|]. intros. rewrite Em. reflexivity. }
  clear l1'. intros f l' wi (i&->&Hi&SB&N1&N2&N3&N4&m&->&Bi&Oi). pose proof SB as [SBl _].
  assert (Hil : Z.of_nat i + 1 <= lenz bs) by (unfold lenz; lia).
  eapply wp_lget; [exact N2|]. eapply wp_lget; [exact N1|].
  destruct (Z_lt_ge_dec (65536 * pages w1) (Y + 8 + Z.of_nat i + 4)) as [Tr|Ok].
  { apply wp_load_trap; [cbn [pages set_mem]; unfold page_size; change (Z.of_nat 4) with 4; lia|]. cbn [loopk]. apply T. right. split; [reflexivity|].
    exists (pages w1). fold t. lia. }
  apply wp_load; [lia|cbn [pages set_mem]; unfold page_size; change (Z.of_nat 4) with 4; lia|]. cbn [mem set_mem]. rewrite Z.add_0_r.
  apply wp_store; [lia|cbn [pages set_mem]; unfold page_size; change (Z.of_nat 1) with 1; lia|]. cbn [mem set_mem]. rewrite Z.add_0_r.
  change (set_mem (set_mem w1 m) ?b) with (set_mem w1 b). change (Z.of_nat 1) with 1. set (m' := store 1 m _ _).
  assert (Rn : rd m' (t + Z.of_nat i) = nth i bs 0).
  { unfold m'. rewrite rd_store_in by lia. rewrite Z.sub_diag, Z.pow_0_r, Z.div_1_r.
    pose proof (rd_range m (Y + 8 + Z.of_nat i)). change (load 4 m (Y + 8 + Z.of_nat i)) with (rd m (Y + 8 + Z.of_nat i) + 256 * load 3 m (Y + 8 + Z.of_nat i + 1)).
    rewrite (Z.mul_comm 256), Z.mod_add, Z.mod_small by lia.
    rewrite Oi by (unfold within; lia). unfold bytes_at in By. rewrite <- By at 1. rewrite bytes_nth by (lia). reflexivity. }
  assert (Oi' : forall a, ~ within t (Z.of_nat (Datatypes.S i)) a -> rd m' a = rd (mem w) a).
  { intros a Ha. unfold within in *. unfold m'. rewrite rd_store_out by lia. apply Oi. unfold within. lia. }
  assert (Bi' : bytes_at m' t (firstn (Datatypes.S i) bs)).
  { rewrite (firstn_snoc bs i (nth i bs 0)) by (apply nth_error_nth'; exact Hi). apply bytes_at_app.
    assert (Li : lenz (firstn i bs) = Z.of_nat i) by (unfold lenz; rewrite firstn_length, Nat.min_l by lia; reflexivity).
    split.
    - eapply bytes_at_ext; [|exact Bi]. rewrite Li. intros a Ha. unfold m'. rewrite rd_store_out by lia. reflexivity.
    - rewrite Li. unfold bytes_at. cbn [List.length bytes]. rewrite Rn. reflexivity. }
  eapply wp_lget; [exact N1|]. ws1. ws1. ls. lg. ws1. ws1. ls. lg. ws1. ws1. lt. lg. ws1.
  apply wp_brif; intros C; unb C; wc.
  - exists (List.length bs - Datatypes.S i)%nat. split; [lia|]. exists (Datatypes.S i). unfold lenz in C. split; [reflexivity|]. split; [lia|].
    split; [eapply same_but_trans; [exact SB|sb]|]. split; [nl; f_equal; lia|]. split; [nl; f_equal; lia|]. split; [nl|]. split; [nl; f_equal; lia|].
    exists m'. auto.
  - apply wp_nil. wc. apply K; [eapply same_but_trans; [exact SB|sb]|]. unfold lenz in C. assert (Ei : Datatypes.S i = List.length bs) by lia.
    rewrite Ei in *. rewrite firstn_all in Bi'. fold (lenz bs) in Oi'.
    assert (B' : bytes_at m' t (ienc pad bs)).
    { unfold ienc. destruct pad; [|exact Bi']. unfold padded. apply bytes_at_app. split; [exact Bi'|]. fold pd.
      unfold bytes_at. rewrite repeat_length. apply bytes_zero. intros a Ha. rewrite Oi' by (unfold within; lia). apply P6. fold t. lia. }
    unfold appended. fold t L. cbn [gnext set_mem mem]. split; [|split; [lia|exact B']].
    apply (extends_write w w1 m' t (lenz bs) Hw); [apply (alloc_extends _ _ _ Hw Al); lia| |fold t; lia|lia].
    intros a Ha. rewrite Em. apply Oi'. exact Ha.
Qed.

(** ** Words *)

Lemma wp_append_word : forall f nl0 b n r (Q : outcome -> Prop) s l w x X k, f = Func 2 nl0 0 b ->
  nth_error l x = Some X -> (x < n)%nat -> (n < List.length l)%nat -> wok w ->
  (forall w1, allocated w w1 32 -> zeroed w1 (gnext w) 32 -> writes_word f [X; gnext w] w1 (gnext w) k) ->
  (oom w 32 -> Q OTrap) ->
  (forall l' w', same_but x n l l' -> appended w w' (word k) -> wp r Q s l' w') ->
  wp (Const 32 :: Call alloc :: LocalSet n :: LocalGet x :: LocalGet n :: Call f :: r) Q s l w.
Proof.
  intros f nl0 b n r Q s l w x X k Ef Nx Hx Hn Hw Wr T K. pose proof Hw as (P1&P2&P3&P4&P5&P6).
  ws1. wcall alloc_spec; [exact Hw|lia|exact T|]. intros rs w1 [-> Al]. wc. pose proof Al as (Hw1&Em&B1&B2&B3&B4&B5).
  ls. lg. lg. eapply wp_writes_word; [exact Ef|exact Hw1|lia|lia|apply Wr; [exact Al|apply (zeroed_fresh _ _ _ Hw Al)]|].
  intros w' P _ _ _. apply K; [apply same_but_set; right; lia|]. eapply packs_appended; [exact Hw|rewrite lenz_word; exact Al|exact P].
Qed.

(** ** The encoding of a value in a local *)

(** What the local holds: the representation of the value, but the variant of an enum. *)
Definition holds (m : memory) (t : aty) (v : val) (X : Z) (F : mset) : Prop :=
  match t with
  | AEnum n => exists tag, v = VEnum tag [] /\ X = Z.of_nat tag /\ (tag < n)%nat
  | _ => vrep m (mty t) v X F
  end.

Fixpoint str_in (t : aty) : bool :=
  match t with
  | AInt _ | AEnum _ => false
  | AString => true
  | AVec t => str_in t
  | AStruct fs => existsb str_in fs
  end.

Definition index_ok (t : aty) : Prop := forall x n r (Q : outcome -> Prop) s l w v X F,
  nth_error l x = Some X -> (x < n)%nat -> (n + index_locals t <= List.length l)%nat -> wok w -> wf_aty t ->
  holds (mem w) t v X F -> sub F (heap w) -> nonempty v -> lenz (in_place t v) < 2147483648 ->
  (ctrap w (str_in t) (lenz (in_place t v)) -> Q OTrap) ->
  (forall l' w', same_but x n l l' -> appended w w' (in_place t v) -> wp r Q s l' w') ->
  wp (index_elem t x n ++ r) Q s l w.

Lemma index_int : forall t, index_ok (AInt t).
Proof.
  intros t x n r Q s l w v X F Nx Hx Hl Hw Wf V S _ _ T K. cbn [index_elem app holds mty wf_aty index_locals str_in] in *.
  destruct (pack_int_func t) as (nl0&b&E). destruct (vrep_has (AInt t) _ _ _ _ Wf V) as (k&->&_).
  cbn [in_place] in *. rewrite lenz_word in T.
  eapply wp_append_word; [exact E|exact Nx|exact Hx|lia|exact Hw| |intros O; apply T; left; exact O|exact K].
  intros w1 Al Z. pose proof Al as (Hw1&Em&B1&B2&B3&B4&B5). pose proof Hw as (P1&P2&P3&P4&P5&P6).
  destruct (pack_int_word t w1 (VInt k) X (gnext w) F Wf Hw1) as (k'&E'&Wr); [rewrite Em; exact V| |lia|lia|exact Z| |].
  - eapply sub_trans; [exact S|]. unfold heap. apply between_sub; lia.
  - intros a Fa Ka. apply S in Fa. unfold heap, between in *. lia.
  - injection E' as <-. exact Wr.
Qed.

Lemma index_enum : forall n, index_ok (AEnum n).
Proof.
  intros nv x n r Q s l w v X F Nx Hx Hl Hw Wf (tag&->&->&Ht) S _ _ T K. cbn [index_elem app wf_aty index_locals str_in in_place] in *.
  rewrite lenz_word in T.
  eapply wp_append_word; [reflexivity|exact Nx|exact Hx|lia|exact Hw| |intros O; apply T; left; exact O|exact K].
  intros w1 Al Z. pose proof Al as (Hw1&Em&B1&B2&B3&B4&B5). pose proof Hw as (P1&P2&P3&P4&P5&P6).
  apply pack_u32_spec; [exact Hw1|unfold live; lia|exact Z|lia].
Qed.

Lemma index_str : index_ok AString.
Proof.
  intros x n r Q s l w v X F Nx Hx Hl Hw Wf V S Ne Hlen T K. cbn [index_elem holds index_locals str_in] in *.
  destruct (vrep_has AString _ _ _ _ Wf V) as (bs&->&_). cbn [in_place nonempty map fold_right] in *.
  rewrite map_map, map_id in *.
  eapply (wp_index_string true); [exact Nx|exact Hx|lia|exact Hw|exact V|exact S|reflexivity| |exact Hlen|exact T|exact K].
  destruct Ne as [[Ne _] _]. intros ->. apply Ne. reflexivity.
Qed.

Lemma concat_firstn_le : forall {A} i (ls : list (list A)), lenz (List.concat (firstn i ls)) <= lenz (List.concat ls).
Proof.
  induction i as [|i IH]; intros ls; cbn [firstn List.concat]; [unfold lenz; cbn [List.length]; lia|].
  destruct ls as [|a ls]; cbn [firstn List.concat]; [lia|]. rewrite !lenz_app. specialize (IH ls). lia.
Qed.

Lemma nonempty_nth : forall vs i v, fold_right and True (map nonempty vs) -> nth_error vs i = Some v -> nonempty v.
Proof.
  induction vs as [|u vs IH]; intros [|i] v H E; cbn [nth_error map fold_right] in *; try discriminate.
  - injection E as <-. apply H.
  - eapply IH; [apply H|exact E].
Qed.

Lemma vrep_enum_tag : forall n m v X F w, wf_aty (AEnum n) -> vrep m (mty (AEnum n)) v X F -> sub F (heap w) ->
  468 <= X /\ X + 4 <= gnext w /\ exists tag, v = VEnum tag [] /\ load 4 m X = Z.of_nat tag /\ (tag < n)%nat.
Proof.
  intros n m v X F w Wf V S. destruct (vrep_has (AEnum n) _ _ _ _ Wf V) as (tag&->&Ht).
  cbn [mty vrep] in V. destruct V as (tag'&vs&G&E&Lt&S1&_). injection E as <- <-.
  pose proof (enum_size_pos (repeat [] n)) as Ez.
  destruct (sub_live X 4 F w) as [B1 B2]; [eapply sub_trans; [|exact S1]; apply between_sub; lia|exact S|lia|]. eauto 10.
Qed.

Lemma index_vector : forall t, elem_ty t -> index_ok t -> index_ok (AVec t).
Proof.
  intros t Et IH x n r Q s l w v X F Nx Hx Hl Hw Wf V S Ne Hlen T K. pose proof Hw as (P1&P2&P3&P4&P5&P6).
  cbn [index_elem holds index_locals str_in wf_aty] in *.
  destruct (vrep_has (AVec t) _ _ _ _ Wf V) as (vs&->&Hvs). cbn [in_place nonempty] in *. destruct Ne as [Ne Nes].
  cbn [mty vrep] in V. destruct V as (vs'&cap&G&E&L1&L2&L3&L4&S1&S2&D1&EL). injection E as <-.
  pose proof (esize_range (mty t)) as Hsz. set (sz := esize (mty t)) in *. set (len := List.length vs) in *.
  assert (L0 : (0 < len)%nat) by (unfold len; destruct vs; [contradiction|cbn [List.length]; lia]).
  destruct (sub_live X (8 + cap * Z.of_nat sz) F w) as [A1 A2]; [rewrite Z.add_assoc; exact S1|exact S|nia|].
  assert (Bis0 : forall i, (i < len)%nat -> 0 <= Z.of_nat sz * Z.of_nat i /\ Z.of_nat sz * Z.of_nat i + Z.of_nat sz <= cap * Z.of_nat sz).
  { intros i Hi. clear - Hi L3 Hsz. split; [apply Z.mul_nonneg_nonneg; lia|].
    replace (Z.of_nat sz * Z.of_nat i + Z.of_nat sz) with ((Z.of_nat i + 1) * Z.of_nat sz) by ring. apply Z.mul_le_mono_nonneg_r; lia. }
  assert (Hc8 : Z.of_nat len < 2147483648) by nia. assert (Hcz : 0 <= cap * Z.of_nat sz) by nia.
  set (es := map (in_place t) vs) in *.
  unfold index_vec. cbn [app]. lg. apply wp_load; [lia|unfold page_size; change (Z.of_nat 4) with 4; lia|]. rewrite Z.add_0_r, L1. ls.
  lg. ws1. ws1. ls. ws1. ls.
  match goal with |- wp _ _ _ ?l1 _ => set (l1' := l1) end.
  eapply (wp_loop (fun f l' wi => exists i, f = (len - i)%nat /\ (i < len)%nat /\ same_but x n l l' /\
     nth_error l' x = Some (X + 8 + Z.of_nat sz * Z.of_nat i) /\ nth_error l' n = Some (Z.of_nat len) /\ nth_error l' (n + 1) = Some (Z.of_nat i) /\
     appended w wi (List.concat (firstn i es))) len).
  { exists 0%nat. split; [lia|]. split; [lia|]. split; [unfold l1'; sb|]. unfold l1'.
    split; [nl; f_equal; lia|]. split; [nl|]. split; [nl|]. apply appended_nil. exact Hw. }
  clear l1'. intros f l' wi (i&->&Hi&SB&N1&N2&N3&Ap). pose proof SB as [SBl _].
  pose proof Ap as (Ei&Gi&Bi). pose proof Ei as (Hwi&M1&M2&M3&M4&M5&Oi). pose proof Hwi as (R1&R2&R3&R4&R5&R6).
  destruct (nth_error vs i) as [v|] eqn:Ev; [|apply nth_error_None in Ev; fold len in Ev; lia].
  destruct (elems_nth _ _ _ _ _ _ _ _ EL Ev) as (Gv&Vv&Sv). fold sz in Vv.
  assert (Ees : firstn (Datatypes.S i) es = firstn i es ++ [in_place t v]).
  { apply firstn_snoc. unfold es. rewrite nth_error_map, Ev. reflexivity. }
  assert (Le : lenz (List.concat (firstn i es)) + lenz (in_place t v) <= lenz (List.concat es)).
  { pose proof (concat_firstn_le (Datatypes.S i) es) as Hc. rewrite Ees, concat_app, lenz_app in Hc. cbn [List.concat] in Hc. rewrite app_nil_r in Hc. exact Hc. }
  pose proof (lenz_nonneg (List.concat (firstn i es))) as Ln.
  destruct (Bis0 i Hi) as [Nis Bis]. clear Bis0.
  assert (SGF : sub Gv (heap w)) by (eapply sub_trans; [exact Sv|]; eapply sub_trans; [exact S2|exact S]).
  assert (SGi : sub Gv (heap wi)) by (eapply sub_trans; [exact SGF|]; unfold heap; apply between_sub; lia).
  eapply wp_lget; [exact N1|]. apply wp_load; [lia|unfold page_size; lia|]. rewrite Z.add_0_r.
  replace (load sz (mem wi) (X + 8 + Z.of_nat sz * Z.of_nat i)) with (load sz (mem w) (X + 8 + Z.of_nat sz * Z.of_nat i)).
  2:{ symmetry. apply load_ext. intros j Hj. apply Oi. lia. }
  set (y := load sz (mem w) (X + 8 + Z.of_nat sz * Z.of_nat i)) in *.
  assert (Vi : vrep (mem wi) (mty t) v y Gv).
  { eapply vrep_ext; [|exact Vv]. intros a Ga. apply Oi. apply SGF in Ga. unfold heap, between in Ga. lia. }
  rewrite <- ?app_assoc. cbn [app].
  match goal with |- wp (_ ++ _ :: ?r) ?Q _ _ _ => assert (KD : forall z, holds (mem wi) t v z Gv -> wp r Q [] (set_nth (n + 2) z l') wi) end.
  2:{ destruct t; cbn [vec_deref app]; try (ls; apply KD; exact Vi).
      destruct (vrep_enum_tag _ _ _ _ _ _ Wf Vi SGi) as (D1'&D2&tag&->&D3&D4).
      apply wp_load; [lia|unfold page_size; change (Z.of_nat 4) with 4; lia|]. rewrite Z.add_0_r. ls. apply KD. exists tag. auto. }
  intros z Hz.
  eapply (IH (n + 2)%nat (n + 3)%nat _ _ _ _ wi v z Gv); [nl|lia|rewrite set_nth_length; lia|exact Hwi|exact Wf|exact Hz|exact SGi| |lia| |].
  - eapply nonempty_nth; eauto.
  - intros Tr. cbn [loopk]. apply T. eapply ctrap_extends; [exact Ei|exact Tr|lia|auto].
  - intros l2 w2 SB2 Ap2. pose proof SB2 as [SB2l SB2n]. rewrite set_nth_length in SB2l.
    assert (M : same_but x n l l2).
    { eapply same_but_trans; [exact SB|]. eapply same_but_trans; [apply (same_but_set x n (n + 2)); right; lia|]. eapply same_but_weaken; [exact SB2|lia|right; lia]. }
    assert (N1' : nth_error l2 x = Some (X + 8 + Z.of_nat sz * Z.of_nat i)) by (rewrite SB2n by lia; nl).
    assert (N2' : nth_error l2 n = Some (Z.of_nat len)) by (rewrite SB2n by lia; nl).
    assert (N3' : nth_error l2 (n + 1) = Some (Z.of_nat i)) by (rewrite SB2n by lia; nl).
    assert (Ap3 : appended w w2 (List.concat (firstn (Datatypes.S i) es))).
    { rewrite Ees, concat_app. cbn [List.concat]. rewrite app_nil_r. eapply appended_app; eauto. }
    cbn [app]. eapply wp_lget; [exact N1'|]. ws1. ws1. ls. lg. ws1. ws1. lt. lg. ws1. apply wp_brif; intros C; unb C; wc.
    + exists (len - Datatypes.S i)%nat. split; [lia|]. exists (Datatypes.S i). split; [reflexivity|]. split; [lia|].
      split; [eapply same_but_trans; [exact M|sb]|]. split; [nl; f_equal; lia|]. split; [nl|]. split; [nl; f_equal; lia|]. exact Ap3.
    + apply wp_nil. wc. apply K; [eapply same_but_trans; [exact M|sb]|]. replace es with (firstn (Datatypes.S i) es); [exact Ap3|].
      apply firstn_all2. unfold es. rewrite map_length. fold len. lia.
Qed.

Lemma zip_concat_cons : forall t ts v vs, List.concat (zip_with (fun f v => f v) (map in_place (t :: ts)) (v :: vs)) =
  in_place t v ++ List.concat (zip_with (fun f v => f v) (map in_place ts) vs).
Proof. reflexivity. Qed.

Lemma index_elems : forall t, elem_ty t -> index_ok t.
Proof.
  refine (aty_rec' _ _ _ _ _ _).
  - intros t _. apply index_int.
  - intros n _. apply index_enum.
  - intros _. apply index_str.
  - intros t IH H. cbn [elem_ty] in H. apply index_vector; auto.
  - intros fs _ [].
Qed.

Lemma max_in : forall f (fs : list aty), (index_locals f <= fold_right Nat.max 0%nat (map index_locals (f :: fs)))%nat /\
  (fold_right Nat.max 0%nat (map index_locals fs) <= fold_right Nat.max 0%nat (map index_locals (f :: fs)))%nat.
Proof. intros. cbn [map fold_right]. lia. Qed.

Lemma index_fields_ok : forall fs, Forall elem_ty fs -> fold_right and True (map wf_aty fs) ->
  forall i x n r (Q : outcome -> Prop) s l w0 w vs X G F, nth_error l x = Some X -> (x < n)%nat ->
  (n + 1 + fold_right Nat.max 0%nat (map index_locals fs) <= List.length l)%nat -> wok w0 -> extends w0 w ->
  fields (map (fun t' => field_of (mem w0) t' (vrep (mem w0) t')) (map mty fs)) (mem w0) vs (X + 4 * i) G -> sub G F ->
  0 <= i -> 468 <= X -> sub (between (X + 4 * i) (X + 4 * i + 4 * Z.of_nat (List.length fs))) F -> sub F (heap w0) ->
  fold_right and True (map nonempty vs) ->
  lenz (List.concat (zip_with (fun f v => f v) (map in_place fs) vs)) < 2147483648 ->
  (ctrap w (existsb str_in fs) (lenz (List.concat (zip_with (fun f v => f v) (map in_place fs) vs))) -> Q OTrap) ->
  (forall l' w', same_but x n l l' -> appended w w' (List.concat (zip_with (fun f v => f v) (map in_place fs) vs)) -> wp r Q s l' w') ->
  wp (index_fields i (map (fun f => (field_deref f, index_elem f n (n + 1))) fs) x n ++ r) Q s l w.
Proof.
  induction 1 as [|f fs Hf H IH]; intros Wf i x n r Q s l w0 w vs X G F Nx Hx Hl Hw0 E0 V SG Hi HX SX SF Ne Hlen T K.
  - cbn [map index_fields fields app] in *. destruct vs; [|contradiction]. apply K; [apply same_but_refl|]. apply appended_nil. apply E0.
  - cbn [map fields] in V. destruct vs as [|v vs]; [contradiction|]. destruct V as (F1&F2&V1&V2&_&SF1&SF2).
    cbn [fold_right map] in Wf. destruct Wf as [Wf1 Wf2]. cbn [List.length] in SX. rewrite zip_concat_cons in *. rewrite lenz_app in *.
    cbn [map fold_right] in Ne. destruct Ne as [Ne1 Ne2]. destruct (max_in f fs) as [Mx1 Mx2].
    pose proof (lenz_nonneg (in_place f v)) as Ln1. pose proof (lenz_nonneg (List.concat (zip_with (fun f v => f v) (map in_place fs) vs))) as Ln2.
    pose proof E0 as (Hw&M1&M2&M3&M4&M5&Ow). pose proof Hw as (J1&J2&J3&J4&J5&J6). pose proof Hw0 as (P1&P2&P3&P4&P5&P6).
    destruct (sub_live (X + 4 * i) 4 F w0) as [A1 A2]; [eapply sub_trans; [|exact SX]; apply between_sub; lia|exact SF|lia|].
    assert (SF1F : sub F1 F) by (eapply sub_trans; eauto). assert (SF1w0 : sub F1 (heap w0)) by (eapply sub_trans; eauto).
    assert (SF1w : sub F1 (heap w)) by (eapply sub_trans; [exact SF1w0|]; unfold heap; apply between_sub; lia).
    assert (Og : forall a, F1 a -> rd (mem w) a = rd (mem w0) a) by (intros a Fa; apply Ow; apply SF1w0 in Fa; unfold heap, between in Fa; lia).
    cbn [map index_fields]. rewrite <- !app_assoc. cbn [app].
    lg. apply wp_load; [lia|unfold page_size; change (Z.of_nat 4) with 4; lia|].
    replace (load 4 (mem w) (X + 4 * i)) with (load 4 (mem w0) (X + 4 * i)) by (symmetry; apply load_ext; change (Z.of_nat 4) with 4; intros; apply Ow; lia).
    set (q := load 4 (mem w0) (X + 4 * i)) in *.
    match goal with |- wp (_ ++ _ :: ?r) ?Q _ _ _ => assert (KD : forall z, holds (mem w) f v z F1 -> wp r Q s (set_nth n z l) w) end.
    2:{ unfold field_of in V1. destruct f as [t|nv| |t|fs']; cbn [mty is_stack field_deref app] in *; try (exfalso; exact Hf).
        - destruct (is_stack t) eqn:St; cbn [app].
          + destruct V1 as [Sq Iv]. pose proof (esize_range t) as Hsz.
            destruct (sub_live q (Z.of_nat (esize t)) F w0) as [A3 A4]; [eapply sub_trans; eauto|exact SF|lia|].
            apply wp_load; [lia|unfold page_size; lia|]. rewrite Z.add_0_r. ls. apply KD. cbn [holds mty]. apply stack_vrep; [exact St|].
            replace (load (esize t) (mem w) q) with (load (esize t) (mem w0) q); [exact Iv|]. symmetry. apply load_ext. intros; apply Ow; lia.
          + ls. apply KD. cbn [holds mty]. eapply vrep_ext; [exact Og|exact V1].
        - assert (Vi : vrep (mem w) (mty (AEnum nv)) v q F1) by (eapply vrep_ext; [exact Og|exact V1]).
          destruct (vrep_enum_tag _ _ _ _ _ _ Wf1 Vi SF1w) as (D1'&D2&tag&->&D3&D4).
          apply wp_load; [lia|unfold page_size; change (Z.of_nat 1) with 1; lia|]. rewrite Z.add_0_r. ls. apply KD. exists tag.
          split; [reflexivity|]. split; [|exact D4]. cbn [wf_aty] in Wf1. rewrite load_1.
          change (load 4 (mem w) q) with (rd (mem w) q + 256 * load 3 (mem w) (q + 1)) in D3.
          pose proof (rd_range (mem w) q). pose proof (load_range 3 (mem w) (q + 1)). lia.
        - ls. apply KD. cbn [holds]. eapply vrep_ext; [exact Og|exact V1].
        - ls. apply KD. cbn [holds]. eapply vrep_ext; [exact Og|exact V1]. }
    intros z Hz.
    eapply (index_elems f Hf n (n + 1)%nat _ _ _ _ w v z F1); [nl|lia|rewrite set_nth_length; lia|exact Hw|exact Wf1|exact Hz|exact SF1w|exact Ne1|lia| |].
    + intros Tr. apply T. cbn [existsb]. eapply ctrap_extends; [apply extends_refl; exact Hw|exact Tr|lia|]. intros ->. reflexivity.
    + intros l2 w2 SB2 Ap2. pose proof SB2 as [SB2l SB2n]. rewrite set_nth_length in SB2l. pose proof Ap2 as (E2&G2&_).
      assert (M : same_but x n l l2).
      { eapply same_but_trans; [apply (same_but_set x n n); right; lia|]. eapply same_but_weaken; [exact SB2|lia|right; lia]. }
      eapply (IH Wf2 (i + 1) x n r Q s l2 w0 w2 vs X F2 F).
      * rewrite SB2n by lia. nl.
      * exact Hx.
      * lia.
      * exact Hw0.
      * eapply extends_trans; eauto.
      * replace (X + 4 * (i + 1)) with (X + 4 * i + 4) by lia. exact V2.
      * eapply sub_trans; eauto.
      * lia.
      * exact HX.
      * eapply sub_trans; [|exact SX]. apply between_sub; lia.
      * exact SF.
      * exact Ne2.
      * lia.
      * intros Tr. apply T. cbn [existsb]. eapply ctrap_extends; [exact E2|exact Tr|lia|]. intros ->. apply orb_true_r.
      * intros l3 w3 SB3 Ap3. apply K; [eapply same_but_trans; eauto|]. eapply appended_app; eauto.
Qed.

Lemma index_all : forall t, index_ty t -> index_ok t.
Proof.
  intros t H. destruct t as [t|n| |t|fs]; try (apply index_elems; exact H).
  cbn [index_ty] in H. intros x n r Q s l w v X F Nx Hx Hl Hw Wf V S Ne Hlen T K. cbn [holds] in V.
  cbn [wf_aty] in Wf. destruct Wf as [Wl Wf]. cbn [mty vrep] in V. rewrite map_length in V. destruct V as (o&vs&G&->&->&S1&S2&D1&V).
  destruct (sub_live X 4 F w) as [A1 A2]; [eapply sub_trans; [|exact S1]; apply between_sub; lia|exact S|lia|].
  cbn [index_elem index_locals str_in in_place nonempty] in *.
  eapply (index_fields_ok fs H Wf 0 x n r Q s l w w vs X G F); try assumption.
  - lia.
  - apply extends_refl; exact Hw.
  - rewrite Z.mul_0_r, Z.add_0_r. exact V.
  - lia.
  - rewrite Z.mul_0_r, Z.add_0_r. exact S1.
Qed.
