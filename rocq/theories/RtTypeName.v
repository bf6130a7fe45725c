(** * Names of types at run time: native_functions/type_name.rs. *)

From Verif Require Import Tac RtAlloc RtErr RtSwap RtAscii RtCopy SpecAbi SpecVal LemVal RtStor RtUnpack Ops RtRouter Comp RtUid CompType LemTypeName.
Ltac Zify.zify_post_hook ::= idtac.

(** type_name.rs 107-121: a store for each byte. *)
Fixpoint store_bytes (v : nat) (off : Z) (bs : list Z) : list instr :=
  match bs with [] => [] | b :: bs' => [ LocalGet v; Const b; Store 1 off ] ++ store_bytes v (off + 1) bs' end.

(** type_name.rs 21-127 [add_type_name_get_fn] for a type with the name [bs].  Locals: 0 type_name_ptr, 1 string_ptr,
    2 vector_ptr. *)
Definition type_name_get (bs : list Z) : func := Func 0 3 1
 ([ Const 4; Call alloc; LocalSet 0;
    Const 4; Call alloc; LocalSet 1;
    LocalGet 0; LocalGet 1; Store 4 0;
    Const (Z.of_nat (List.length bs)); Const (Z.of_nat (List.length bs)); Const 1; Call allocate_vector_with_header; LocalSet 2;
    LocalGet 1; LocalGet 2; Store 4 0 ] ++
  store_bytes 2 8 bs ++ [ LocalGet 0 ]).

Lemma wp_store_bytes : forall bs done off v x k (Q : outcome -> Prop) s l w, nth_error l v = Some x -> byte_list bs -> wok w -> 468 <= x -> 0 <= off ->
  x + off + Z.of_nat (List.length bs) <= gnext w -> bytes (List.length done) (mem w) (x + off - Z.of_nat (List.length done)) = done ->
  (forall m, bytes (List.length (done ++ bs)) m (x + off - Z.of_nat (List.length done)) = done ++ bs ->
     (forall y, ~ within (x + off) (Z.of_nat (List.length bs)) y -> rd m y = rd (mem w) y) -> wp k Q s l (set_mem w m)) ->
  wp (store_bytes v off bs ++ k) Q s l w.
Proof.
  induction bs as [|b bs IH]; intros done off v x k Q s l w Hl Hb Hw Hx Ho Hn Hd K; cbn [store_bytes app List.length] in *.
  - replace w with (set_mem w (mem w)) by (destruct w; reflexivity). rewrite app_nil_r in K. apply K; [exact Hd|auto].
  - pose proof Hw as (P1&P2&P3&P4&P5&P6). inversion Hb as [|? ? Hb1 Hb2]; subst.
    apply wp_lget with (v := x); [exact Hl|]. ws1. apply wp_store; [lia|unfold page_size; change (Z.of_nat 1) with 1; lia|]. change (Z.of_nat 1) with 1.
    set (w1 := set_mem w (store 1 (mem w) (x + off) b)).
    assert (Hw1 : wok w1) by (apply wok_set_mem; [exact Hw|intros y Hy; apply rd_store_out; lia]).
    assert (Rx : rd (mem w1) (x + off) = b). { cbn [w1 mem set_mem]. rewrite rd_store_in by lia. replace (x + off - (x + off)) with 0 by lia. change (256 ^ 0) with 1. rewrite Z.div_1_r. apply Z.mod_small. exact Hb1. }
    apply (IH (done ++ [b]) (off + 1) v x k Q s l w1); [exact Hl|exact Hb2|exact Hw1|exact Hx|lia|change (gnext w1) with (gnext w); lia| |].
    + rewrite app_length. cbn [List.length]. rewrite bytes_app. f_equal.
      * transitivity (bytes (List.length done) (mem w) (x + off - Z.of_nat (List.length done))); [|exact Hd]. replace (x + (off + 1) - Z.of_nat (List.length done + 1)) with (x + off - Z.of_nat (List.length done)) by lia.
        apply nth_ext with (d := 0) (d' := 0); [rewrite !bytes_length; reflexivity|]. rewrite bytes_length. intros i Hi. rewrite !bytes_nth by exact Hi. cbn [w1 mem set_mem]. apply rd_store_out. lia.
      * cbn [bytes]. f_equal. replace (x + (off + 1) - Z.of_nat (List.length done + 1) + Z.of_nat (List.length done)) with (x + off) by lia. exact Rx.
    + intros m Bm Rm. replace (set_mem w1 m) with (set_mem w m) by reflexivity. apply K.
      * rewrite <- app_assoc in Bm. cbn [app] in Bm. replace (x + off - Z.of_nat (List.length done)) with (x + (off + 1) - Z.of_nat (List.length (done ++ [b]))) by (rewrite app_length; cbn [List.length]; lia). exact Bm.
      * intros y Hy. rewrite Rm by (unfold within in *; lia). cbn [w1 mem set_mem]. apply rd_store_out. unfold within in Hy. lia.
Qed.

(** A string in a struct, as [std::type_name::TypeName] has it. *)
Definition T_type_name : ty := TStruct false [TStruct false [TVec TU8]].
Definition text (bs : list Z) : val := VStruct 0 [VStruct 0 [VVec (map VInt bs)]].

Lemma type_name_get_spec : forall bs w, byte_list bs -> wok w -> 8 + Z.of_nat (List.length bs) < 2147483648 ->
  wpf (type_name_get bs) [] w (resq (fun rs w' => exists p F, rs = [p] /\ extends w w' /\ vrep (mem w') T_type_name (text bs) p F /\
     sub F (between (gnext w) (gnext w'))) (oom w (16 + Z.of_nat (List.length bs)))).
Proof.
  intros bs w Hb Hw Hl. set (n := Z.of_nat (List.length bs)) in *. assert (Hn : 0 <= n) by (unfold n; lia). pose proof Hw as (P1&P2&P3&P4&P5&P6).
  apply wpf_intro; [reflexivity|]. unfold type_name_get. fold n. cbn [app]. wc. ws1.
  wcall alloc_spec; [exact Hw|lia|intros O; unfold oom in *; lia|].
  intros vs w1 (->&A). pose proof (alloc_extends w w1 4 Hw A ltac:(lia)) as X1. destruct A as (Hw1&Em1&A1&A2&A3&A4&A5). pose proof Hw1 as (Q1&Q2&Q3&Q4&Q5&Q6). wc. ws1. ws1.
  wcall alloc_spec; [exact Hw1|lia|intros O; unfold oom in *; lia|].
  intros vs w2 (->&A). pose proof (alloc_extends w1 w2 4 Hw1 A ltac:(lia)) as X2. destruct A as (Hw2&Em2&B1&B2&B3&B4&B5). pose proof Hw2 as (R1&R2&R3&R4&R5&R6). wc. ws1. ws1. ws1.
  apply wp_store; [lia|unfold page_size; change (Z.of_nat 4) with 4; lia|]. rewrite Z.add_0_r. change (Z.of_nat 4) with 4. set (w3 := set_mem w2 _).
  assert (Hw3 : wok w3) by (apply wok_set_mem; [exact Hw2|intros y Hy; apply rd_store_out; lia]).
  assert (E3 : load 4 (mem w3) (gnext w) = gnext w1). { cbn [w3 mem set_mem]. rewrite (load_store_same 4). apply Z.mod_small. change (256 ^ Z.of_nat 4) with (2 ^ 32). lia. }
  ws1. ws1. ws1.
  wcall (allocate_vector_spec w3 n n 1); [exact Hw3|lia|lia|lia|lia|intros O; unfold oom in *; change (gnext w3) with (gnext w2) in O; change (maxpages w3) with (maxpages w2) in O; lia|].
  intros vs w4 (->&X4&G4&L4&C4&_). rewrite Z.mul_1_r in G4. pose proof X4 as (Hw4&M4&Pg4&N4&Gc4&Ho4&Rd4). pose proof Hw4 as (S1&S2&S3&S4&S5&S6).
  assert (N3 : gnext w3 = gnext w + 8) by (change (gnext w3) with (gnext w2); lia). set (V := gnext w3) in *. wc. ws1. ws1. ws1.
  apply wp_store; [lia|unfold page_size; change (Z.of_nat 4) with 4; lia|]. rewrite Z.add_0_r. change (Z.of_nat 4) with 4. set (w5 := set_mem w4 _).
  assert (Hw5 : wok w5) by (apply wok_set_mem; [exact Hw4|intros y Hy; apply rd_store_out; lia]).
  change (wp (store_bytes 2 8 bs ++ [LocalGet 0]) (fret 1 (fun rs w' => exists p F, rs = [p] /\ extends w w' /\ vrep (mem w') T_type_name (text bs) p F /\
     sub F (between (gnext w) (gnext w'))) (oom w (16 + n))) [] [gnext w; gnext w1; V] w5).
  apply (wp_store_bytes bs [] 8 2 V); [reflexivity|exact Hb|exact Hw5|lia|lia|change (gnext w5) with (gnext w4); fold n; lia|reflexivity|].
  cbn [app List.length]. change (Z.of_nat 0) with 0. rewrite Z.sub_0_r. fold n. intros m Bm Rm. ws1. ws1.
  assert (Ry : forall y, ~ within (V + 8) n y -> ~ within (gnext w1) 4 y -> rd m y = rd (mem w4) y).
  { intros y Y1 Y2. rewrite Rm by exact Y1. cbn [w5 mem set_mem]. apply rd_store_out. unfold within in Y2. lia. }
  assert (Lp : load 4 m (gnext w) = gnext w1).
  { rewrite <- E3. apply load_ext. change (Z.of_nat 4) with 4. intros i Hi. rewrite Ry by (unfold within; lia). apply Rd4. lia. }
  assert (Ls : load 4 m (gnext w1) = V).
  { transitivity (load 4 (mem w5) (gnext w1)); [apply load_ext; change (Z.of_nat 4) with 4; intros i Hi; apply Rm; unfold within; lia|].
    cbn [w5 mem set_mem]. rewrite (load_store_same 4). apply Z.mod_small. change (256 ^ Z.of_nat 4) with (2 ^ 32). lia. }
  assert (Lv : load 4 m V = n) by (rewrite <- L4; apply load_ext; change (Z.of_nat 4) with 4; intros i Hi; apply Ry; unfold within; lia).
  assert (Lc : load 4 m (V + 4) = n) by (rewrite <- C4; apply load_ext; change (Z.of_nat 4) with 4; intros i Hi; apply Ry; unfold within; lia).
  exists (gnext w), (between (gnext w) (gnext w4)). split; [reflexivity|]. split; [|split].
  - unfold extends. split; [apply wok_set_mem; [exact Hw5|intros y Hy; cbn [gnext w5 set_mem] in Hy; apply Rm; unfold within; lia]|]. cbn [maxpages pages gnext gcd host w5 set_mem].
    change (maxpages w3) with (maxpages w2) in M4. change (pages w3) with (pages w2) in Pg4. change (gcd w3) with (gcd w2) in Gc4. change (host w3) with (host w2) in Ho4.
    destruct X1 as (_&X1b&X1c&X1d&X1e&X1f&X1g). destruct X2 as (_&X2b&X2c&X2d&X2e&X2f&X2g).
    split; [congruence|]. split; [lia|]. split; [lia|]. split; [congruence|]. split; [congruence|].
    intros y Hy. change (rd m y = rd (mem w) y). rewrite Ry by (unfold within; lia). rewrite Rd4 by lia. cbn [w3 mem set_mem]. rewrite rd_store_out by lia. rewrite X2g by lia. apply X1g. exact Hy.
  - cbn [w5 mem set_mem]. unfold T_type_name, text. cbn [vrep]. exists 0, [VStruct 0 [VVec (map VInt bs)]], (between (gnext w1) (gnext w4)). cbn [List.length map].
    split; [reflexivity|]. split; [reflexivity|]. split; [unfold sub, between; lia|]. split; [unfold sub, between; lia|]. split; [unfold disj, between; lia|].
    cbn [fields]. exists (between (gnext w1) (gnext w4)), empty. split; [|split; [exact I|split; [intros ? ? []|split; [unfold sub; auto|intros ? []]]]].
    unfold field_of. cbn [is_stack]. rewrite Lp. cbn [vrep]. exists 0, [VVec (map VInt bs)], (between V (gnext w4)). cbn [List.length map].
    split; [reflexivity|]. split; [reflexivity|]. split; [unfold sub, between; lia|]. split; [unfold sub, between; lia|]. split; [unfold disj, between; lia|].
    cbn [fields]. exists (between V (gnext w4)), empty. split; [|split; [exact I|split; [intros ? ? []|split; [unfold sub; auto|intros ? []]]]].
    unfold field_of. cbn [is_stack]. rewrite Ls. cbn [vrep]. exists (map VInt bs), n, empty. rewrite map_length. fold n. change (Z.of_nat (esize TU8)) with 1. rewrite Z.mul_1_r.
    split; [reflexivity|]. split; [exact Lv|]. split; [exact Lc|]. split; [lia|]. split; [lia|]. split; [unfold sub, between; lia|]. split; [intros ? []|]. split; [intros ? ? []|].
    apply elems_bytes. exact Bm.
  - cbn [gnext w5 set_mem]. unfold sub; auto.
Qed.

Lemma ascii_byte_list : forall s, byte_list (ascii_bytes s).
Proof.
  intros s. unfold byte_list, ascii_bytes. apply Forall_forall. intros x Hx. apply in_map_iff in Hx. destruct Hx as (c&<-&_). pose proof (Ascii.nat_ascii_bounded c). lia.
Qed.
Lemma join_byte_list : forall l, Forall byte_list l -> byte_list (join l).
Proof.
  intros l H. induction H as [|a l Ha H IH]; [constructor|]. destruct l as [|b l]; [exact Ha|]. change (join (a :: b :: l)) with (a ++ [44] ++ join (b :: l)).
  apply Forall_app. split; [exact Ha|]. constructor; [lia|exact IH].
Qed.
Lemma type_name_bytes : forall t, byte_list (type_name t).
Proof.
  induction t as [p|t IH|n args IH] using mtype_ind'; cbn [type_name].
  - apply ascii_byte_list.
  - apply Forall_app. split; [apply ascii_byte_list|]. apply Forall_app. split; [exact IH|apply ascii_byte_list].
  - apply Forall_app. split.
    + unfold address_hex. induction (be_bytes_range' 32 (s_address n)) as [|b l Hb _ IHl]; [constructor|]. cbn [flat_map].
      pose proof (Z.mod_pos_bound b 16 ltac:(lia)). assert (0 <= b / 16 < 16) by (split; [apply Z.div_pos; lia|apply Z.div_lt_upper_bound; lia]).
      assert (Hd : forall d, 0 <= d < 16 -> 0 <= hex_digit d < 256) by (intros d D; unfold hex_digit; destruct (d <? 10); lia).
      constructor; [apply Hd; assumption|]. constructor; [apply Hd; assumption|exact IHl].
    + apply Forall_app. split; [apply ascii_byte_list|]. apply Forall_app. split; [apply ascii_byte_list|]. apply Forall_app. split; [apply ascii_byte_list|].
      apply Forall_app. split; [apply ascii_byte_list|]. destruct args as [|a args]; [constructor|].
      apply Forall_app. split; [apply ascii_byte_list|]. apply Forall_app. split; [|apply ascii_byte_list].
      apply join_byte_list. apply Forall_map. exact IH.
Qed.

Lemma type_name_returned : forall t w, move_type t -> wok w -> 8 + Z.of_nat (List.length (type_name t)) < 2 ^ 31 ->
  wpf (type_name_get (type_name t)) [] w (resq (fun rs w' => exists p F, rs = [p] /\ extends w w' /\
     vrep (mem w') (TStruct false [TStruct false [TVec TU8]]) (VStruct 0 [VStruct 0 [VVec (map VInt (type_name t))]]) p F /\
     sub F (between (gnext w) (gnext w'))) (oom w (16 + Z.of_nat (List.length (type_name t))))).
Proof. intros t w _ Hw L. exact (type_name_get_spec (type_name t) w (type_name_bytes t) Hw L). Qed.
