(** * Structs, enums and locals: packing, unpacking, boxing (C81), from translation/bytecodes/structs.rs 55-300,
    translation/bytecodes/enums.rs 19-180 and translation/intermediate_types.rs 322-470, 709-788. *)

From Verif Require Import SpecInt Spec Tac RtAlloc RtErr RtInt RtDiv RtShift RtAscii Ops SpecVal LemVal RtCopy RtCopy2 RtVec SpecVec RtStore RtCall SpecRef RtRef LemRef.
Ltac Zify.zify_post_hook ::= idtac.

(** translation/bytecodes/structs.rs 87-158 and enums.rs 71-136: one field, at [off] from the local [p] ([pointer]).
    [d]: the local [ptr_to_data].  [v]: the local [val]; the code makes a new one for every field, and uses it right after
    setting it.  Enums do not write the word before an id: call with [false]. *)
Definition pack_field (p d v : nat) (off : Z) (f : bool * ty) : list instr :=
  (if is_stack (snd f) then
     [ LocalSet v; Const (Z.of_nat (esize (snd f))); Call alloc; LocalTee d; LocalGet v; Store (esize (snd f)) 0 ]
   else if fst f then [ LocalSet d; LocalGet d; Const 4; Bin I32 Sub; LocalGet p; Store 4 0 ]
   else [ LocalSet d ]) ++
  [ LocalGet p; LocalGet d; Store 4 off ].

(** structs.rs 87-160: the fields from the last to the first; [off]: the offset above the next one. *)
Fixpoint pack_rev (p d v : nat) (off : Z) (fs : list (bool * ty)) : list instr :=
  match fs with [] => [] | f :: fs' => pack_field p d v (off - 4) f ++ pack_rev p d v (off - 4) fs' end.

(** structs.rs 59-166 [pack]. *)
Definition pack_struct (key : bool) (fs : list (bool * ty)) (p d v : nat) : list instr :=
  (if key then [ Const 32; Call alloc; Drop ] else []) ++
  [ Const (4 * Z.of_nat (List.length fs)); Call alloc; LocalSet p ] ++
  pack_rev p d v (4 * Z.of_nat (List.length fs)) (rev fs) ++ [ LocalGet p ].

(** translation.rs 2795-2813 (Pack) and 2815-2900 (PackGeneric): the struct of an id (UID or NamedId) has 4 more bytes before it. *)
Definition pack_id (t : ty) (p d v : nat) : list instr :=
  [ Const 4; Call alloc; Drop ] ++ pack_struct false [(false, t)] p d v.

(** enums.rs 23-141 [pack_variant]: the offset starts at four times the number of fields and goes down after each. *)
Fixpoint pack_rev_enum (p d v : nat) (off : Z) (fs : list ty) : list instr :=
  match fs with [] => [] | t :: fs' => pack_field p d v off (false, t) ++ pack_rev_enum p d v (off - 4) fs' end.
Definition pack_variant (vts : list (list ty)) (g : nat) (fs : list ty) (p d v : nat) : list instr :=
  [ Const (enum_size vts); Call alloc; LocalSet p; LocalGet p; Const (Z.of_nat g); Store 4 0 ] ++
  pack_rev_enum p d v (4 * Z.of_nat (List.length fs)) (rev fs) ++ [ LocalGet p ].

(** structs.rs 200-300 [unpack_fields]. *)
Fixpoint unpack_fields (p : nat) (off : Z) (ts : list ty) : list instr :=
  match ts with
  | [] => []
  | t :: ts' => [ LocalGet p; Load 4 off ] ++ (if is_stack t then [ Load (esize t) 0 ] else []) ++ unpack_fields p (off + 4) ts'
  end.
(** structs.rs 168-196 [unpack]; enums.rs 146-178 [unpack_variant]. *)
Definition unpack_struct (ts : list ty) (p : nat) : list instr := [ LocalSet p ] ++ unpack_fields p 0 ts.
Definition unpack_variant (ts : list ty) (p : nat) : list instr := [ Const 4; Bin I32 Add; LocalSet p ] ++ unpack_fields p 0 ts.

(** intermediate_types.rs 709-788 [box_local_instructions] (StLoc, and arguments at the start of a function): the word on the
    stack goes to a new cell, whose address goes to the local [k].  [v], [q]: the locals [val] and [ptr]. *)
Definition box_local (t : ty) (k v q : nat) : list instr :=
  if is_stack t then
    [ LocalSet v; Const 4; Call alloc; LocalTee k; Const (Z.of_nat (esize t)); Call alloc; LocalTee q; Store 4 0; LocalGet q; LocalGet v; Store (esize t) 0 ]
  else [ LocalSet q; Const 4; Call alloc; LocalTee k; LocalGet q; Store 4 0 ].

(** intermediate_types.rs 322-369 [move_local_instructions] and 371-467 [copy_local_instructions], for types that are not
    references.  Borrowing a local (translation.rs 1285-1296) is [LocalGet]. *)
Definition move_local (t : ty) (k : nat) : list instr := [ LocalGet k; Load 4 0 ] ++ (if is_stack t then [ Load (esize t) 0 ] else []).
Definition copy_local (ep : errtab) (t : ty) (k : nat) : list instr := [ LocalGet k ] ++ read_ref ep t.

(** ** Packing *)

Fixpoint pack_fwd (p d v : nat) (off : Z) (fs : list (bool * ty)) : list instr :=
  match fs with [] => [] | f :: fs' => pack_fwd p d v (off + 4) fs' ++ pack_field p d v off f end.
Lemma pack_rev_app : forall a p d v off b, pack_rev p d v off (a ++ b) = pack_rev p d v off a ++ pack_rev p d v (off - 4 * Z.of_nat (List.length a)) b.
Proof.
  induction a as [|f a IH]; intros p d v off b; cbn [app pack_rev List.length]; [f_equal; lia|]. rewrite IH, <- app_assoc. do 3 f_equal. lia.
Qed.
Lemma pack_rev_fwd : forall fs p d v off, pack_rev p d v (off + 4 * Z.of_nat (List.length fs)) (rev fs) = pack_fwd p d v off fs.
Proof.
  induction fs as [|f fs IH]; intros p d v off; [reflexivity|]. cbn [rev pack_fwd]. rewrite pack_rev_app, rev_length. cbn [pack_rev List.length].
  rewrite <- (IH p d v (off + 4)), app_nil_r. f_equal; [f_equal; lia|f_equal; lia].
Qed.
Lemma pack_rev_enum_fwd : forall fs p d v off, pack_rev_enum p d v (off + 4 * Z.of_nat (List.length fs)) (rev fs) = pack_fwd p d v (off + 4) (plain_fields fs).
Proof.
  assert (A : forall a p d v off b, pack_rev_enum p d v off (a ++ b) = pack_rev_enum p d v off a ++ pack_rev_enum p d v (off - 4 * Z.of_nat (List.length a)) b).
  { induction a as [|f a IH]; intros p d v off b; cbn [app pack_rev_enum List.length]; [f_equal; lia|]. rewrite IH, <- app_assoc. do 3 f_equal. lia. }
  induction fs as [|f fs IH]; intros p d v off; [reflexivity|]. cbn [rev]. rewrite A, rev_length. cbn [pack_rev_enum List.length].
  unfold plain_fields in *. cbn [map pack_fwd]. rewrite <- (IH p d v (off + 4)), app_nil_r. f_equal; [f_equal; lia|f_equal; lia].
Qed.

(** Bytes that packing takes for the fields. *)
Definition boxes (ts : list ty) : Z := fold_right (fun t n => (if is_stack t then Z.of_nat (esize t) else 0) + n) 0 ts.
Lemma boxes_nonneg : forall ts, 0 <= boxes ts.
Proof. induction ts as [|t ts IH]; cbn [boxes fold_right]; [lia|]. fold (boxes ts). destruct (is_stack t); lia. Qed.

Lemma word_agree : forall f m m' v x F, agree m m' F -> word m f v x F -> word m' f v x F.
Proof.
  intros (b&t) m m' v x F A. unfold word. cbn [fst snd]. destruct b; [|apply vrep_ext; exact A]. intros (H0&G&H1&H2&H3&H4). split; [exact H0|].
  exists G. split; [|auto]. eapply vrep_ext; [|exact H1]. eapply agree_sub; eassumption.
Qed.
Lemma words_agree : forall fs m m' vs xs F, agree m m' F -> words m fs vs xs F -> words m' fs vs xs F.
Proof.
  induction fs as [|f fs IH]; intros m m' [|v vs] [|x xs] F A H; cbn [words] in *; try contradiction; [exact Logic.I|].
  destruct H as (F1&F2&H1&H2&H3&H4&H5&H6). exists F1, F2. split; [eapply word_agree; [|exact H1]; eapply agree_sub; eassumption|].
  split; [exact H2|]. split; [eapply IH; [|exact H3]; eapply agree_sub; eassumption|auto].
Qed.
Lemma id_cells_sub : forall fs m vs xs F, words m fs vs xs F -> sub (id_cells fs xs) F.
Proof.
  induction fs as [|(b&t) fs IH]; intros m [|v vs] [|x xs] F H; cbn [words id_cells] in *; try contradiction; [intros y []|].
  destruct H as (F1&F2&H1&H2&H3&H4&H5&H6). intros y [Y|Y]; [|apply H6; eapply IH; eassumption]. apply H5.
  unfold word in H1. cbn [fst snd] in H1. destruct b; [|destruct Y]. destruct H1 as (_&G&_&_&S&_). apply S. exact Y.
Qed.
Lemma held_by_agree : forall fs xs m m' a off, agree m m' (id_cells fs xs) -> (forall y, a + off <= y < a + off + 4 * Z.of_nat (List.length fs) -> rd m' y = rd m y) ->
  held_by m a off fs xs -> held_by m' a off fs xs.
Proof.
  induction fs as [|(b&t) fs IH]; intros [|x xs] m m' a off A B H; cbn [held_by id_cells List.length] in *; auto. destruct H as (H1&H2). split.
  - intros ->. destruct (H1 eq_refl) as (H3&H4). split; [rewrite <- H3|rewrite <- H4]; apply load_ext; intros i Hi; [apply B; lia|]. apply A. left. unfold between. lia.
  - eapply IH; [| |exact H2]; [eapply agree_sub; [exact A|]; intros y Y; right; exact Y|]. intros y Y. apply B. lia.
Qed.
Lemma words_length : forall fs m vs xs F, words m fs vs xs F -> List.length vs = List.length fs /\ List.length xs = List.length fs.
Proof.
  induction fs as [|f fs IH]; intros m [|v vs] [|x xs] F H; cbn [words] in *; try contradiction; [auto|].
  destruct H as (F1&F2&H1&H2&H3&_). destruct (IH _ _ _ _ H3). cbn [List.length]. lia.
Qed.
Lemma same_locals_refl : forall ks l, same_locals ks l l.
Proof. intros. split; reflexivity. Qed.
Lemma same_locals_trans : forall ks a b c, same_locals ks a b -> same_locals ks b c -> same_locals ks a c.
Proof. intros ks a b c (H1&H2) (H3&H4). split; [lia|]. intros k N. rewrite H4, H2 by exact N. reflexivity. Qed.
Lemma same_locals_set : forall ks k x a b, In k ks -> same_locals ks a b -> same_locals ks a (set_nth k x b).
Proof.
  intros ks k x a b I (H1&H2). split; [rewrite set_nth_length; exact H1|]. intros j N. rewrite set_nth_other; [apply H2; exact N|]. intros ->. contradiction.
Qed.

Lemma sub_pos : forall (F : mset) w a b, sub (between a b) F -> sub F (heap w) -> a < b -> 0 <= a /\ b <= gnext w.
Proof. intros F w a b H1 H2 L. destruct (sub_block a b 0 (gnext w)) as [X Y]; [|exact L|lia]. intros y Y. specialize (H2 y (H1 y Y)). unfold heap, between in H2 |- *. lia. Qed.

Lemma wp_pack_field : forall p d v off f x u F P r (Q : outcome -> Prop) s l w, p <> d -> p <> v -> d <> v -> nth_error l p = Some P -> (d < List.length l)%nat -> (v < List.length l)%nat ->
  wok w -> word (mem w) f u x F -> 0 <= x < 256 ^ Z.of_nat (esize (snd f)) -> sub F (heap w) -> 0 <= P -> 0 <= off -> P + off + 4 <= gnext w -> disj (cell (P + off)) F ->
  (oom w (boxes [snd f]) -> Q OTrap) ->
  (forall w' l', evolves w w' (union (cell (P + off)) (if fst f then between (x - 4) x else empty)) -> same_locals [d; v] l l' -> gnext w' = gnext w + boxes [snd f] ->
     field_of (mem w') (snd f) (vrep (mem w') (snd f)) u (load 4 (mem w') (P + off)) (union F (fresh w w')) ->
     (fst f = true -> load 4 (mem w') (P + off) = x /\ load 4 (mem w') (x - 4) = P) -> wp r Q s l' w') ->
  wp (pack_field p d v off f ++ r) Q (x :: s) l w.
Proof.
  intros p d v off (b&t) x u F P r Q s l w Npd Npv Ndv Hp Ld Lv Hw Hx Bx Sf P0 O0 Pn Dj T K. unfold pack_field. cbn [fst snd] in *.
  pose proof Hw as (P1&P2&P3&P4&P5&P6). unfold word in Hx. cbn [fst snd] in Hx. pose proof (esize_range t) as Es. unfold boxes in *. cbn [fold_right] in *.
  destruct (is_stack t) eqn:St.
  - destruct b; [destruct Hx; congruence|]. apply vrep_stack in Hx; [|exact St]. cbn [app]. apply wp_lset'; [exact Lv|]. ws1.
    eapply wp_call_spec; [reflexivity|cbn [List.length]; lia|wc; apply alloc_spec; [exact Hw|lia]|intros O; apply T; eapply oom_mono; [exact O|lia]|].
    intros rs w1 (->&Al). cbn [app skipn]. pose proof (alloc_extends _ _ _ Hw Al ltac:(lia)) as Ex. destruct Al as (Hw1&Em&Mx&Pg&Gn&Gc&Ho). pose proof Hw1 as (Q1&Q2&Q3&Q4&Q5&Q6).
    apply wp_ltee'; [rewrite set_nth_length; exact Ld|]. eapply wp_lget; [rewrite set_nth_other by congruence; apply set_nth_same; exact Lv|].
    eapply wp_store; [lia|unfold page_size; lia|]. rewrite Z.add_0_r, Em. set (m1 := store (Z.of_nat (esize t)) (mem w) (gnext w) x).
    eapply wp_lget; [rewrite !set_nth_other by congruence; exact Hp|]. eapply wp_lget; [apply set_nth_same; rewrite set_nth_length; exact Ld|].
    eapply wp_store; [lia|cbn [pages set_mem]; unfold page_size; lia|]. cbn [mem set_mem]. change (Z.of_nat 4) with 4. set (m2 := store 4 m1 (P + off) (gnext w)).
    assert (Lq : load 4 m2 (P + off) = gnext w) by (unfold m2; change 4 with (Z.of_nat 4); rewrite load_store_same, Z.mod_small; lia).
    change (set_mem (set_mem w1 m1) m2) with (set_mem w1 m2). apply K.
    + assert (E1 : evolves w (set_mem w1 m1) (union (cell (P + off)) empty)).
      { eapply evolves_write with (p := gnext w) (n := Z.of_nat (esize t)); [exact Hw|apply evolves_extends; exact Ex| |lia|lia|unfold within; intros; lia].
        intros y Y. rewrite Em. unfold m1. apply rd_store_out. unfold within in Y. lia. }
      change (set_mem w1 m2) with (set_mem (set_mem w1 m1) m2). eapply evolves_write with (p := P + off) (n := 4); [exact Hw|exact E1| |lia|cbn [gnext set_mem]; lia|].
      * intros y Y. cbn [mem set_mem]. unfold m2. apply rd_store_out. unfold within in Y. lia.
      * intros y Y. right. left. unfold within, cell, between in *. lia.
    + apply same_locals_set; [left; reflexivity|]. apply same_locals_set; [right; left; reflexivity|]. apply same_locals_refl.
    + cbn [gnext set_mem]. lia.
    + cbn [mem set_mem]. rewrite Lq. unfold field_of. rewrite St. split; [intros y Y; right; unfold fresh, between in *; cbn [gnext set_mem]; lia|].
      unfold m2, m1. rewrite load_store_other by lia. rewrite load_store_same, Z.mod_small by exact Bx. exact Hx.
    + discriminate.
  - assert (Es4 : esize t = 4%nat) by (destruct t; try discriminate; reflexivity). rewrite Es4 in Bx. destruct b; cbn [app].
    + destruct Hx as (_&G&V&S1&S2&D1). destruct (sub_pos F w (x - 4) x S2 Sf ltac:(lia)) as (X1&X2).
      apply wp_lset'; [exact Ld|]. eapply wp_lget; [apply set_nth_same; exact Ld|]. ws1. ws1. eapply wp_lget; [rewrite set_nth_other by congruence; exact Hp|].
      eapply wp_store; [lia|unfold page_size; lia|]. rewrite Z.add_0_r. change (Z.of_nat 4) with 4. set (m1 := store 4 (mem w) (x - 4) P).
      eapply wp_lget; [rewrite set_nth_other by congruence; exact Hp|]. eapply wp_lget; [apply set_nth_same; exact Ld|].
      eapply wp_store; [lia|cbn [pages set_mem]; unfold page_size; lia|]. cbn [mem set_mem]. change (Z.of_nat 4) with 4. set (m2 := store 4 m1 (P + off) x).
      change (set_mem (set_mem w m1) m2) with (set_mem w m2).
      assert (Lq : load 4 m2 (P + off) = x) by (unfold m2; change 4 with (Z.of_nat 4); rewrite load_store_same, Z.mod_small; lia).
      assert (Dc : P + off + 4 <= x - 4 \/ x <= P + off).
      { destruct (Z_le_dec (P + off + 4) (x - 4)); [lia|]. destruct (Z_le_dec x (P + off)); [lia|]. exfalso.
        apply (Dj (Z.max (P + off) (x - 4))); [unfold cell, between; lia|apply S2; unfold between; lia]. }
      apply K.
      * assert (E1 : evolves w (set_mem w m1) (union (cell (P + off)) (between (x - 4) x))).
        { eapply evolves_write with (p := x - 4) (n := 4); [exact Hw|apply evolves_refl; exact Hw| |lia|lia|].
          - intros y Y. unfold m1. apply rd_store_out. unfold within in Y. lia.
          - intros y Y. right. right. unfold within, between in *. lia. }
        change (set_mem w m2) with (set_mem (set_mem w m1) m2). eapply evolves_write with (p := P + off) (n := 4); [exact Hw|exact E1| |lia|cbn [gnext set_mem]; lia|].
        -- intros y Y. cbn [mem set_mem]. unfold m2. apply rd_store_out. unfold within in Y. lia.
        -- intros y Y. right. left. unfold within, cell, between in *. lia.
      * apply same_locals_set; [left; reflexivity|]. apply same_locals_refl.
      * cbn [gnext set_mem]. lia.
      * cbn [mem set_mem]. rewrite Lq. unfold field_of. rewrite St. eapply vrep_mono; [|eapply vrep_ext; [|exact V]]; [intros y Y; left; apply S1; exact Y|].
        intros y Y. unfold m2. rewrite rd_store_out, ?rd_store_out; [|unfold m1..].
        -- unfold m1. rewrite rd_store_out; [reflexivity|]. destruct (Z_lt_dec y (x - 4)); [lia|]. destruct (Z_lt_dec y x); [|lia]. exfalso. apply (D1 y); [unfold between; lia|exact Y].
        -- destruct (Z_lt_dec y (P + off)); [lia|]. destruct (Z_lt_dec y (P + off + 4)); [|lia]. exfalso. apply (Dj y); [unfold cell, between; lia|apply S1; exact Y].
      * intros _. cbn [mem set_mem]. split; [exact Lq|]. unfold m2. rewrite load_store_other by lia. unfold m1. change 4 with (Z.of_nat 4) at 2. rewrite load_store_same, Z.mod_small; lia.
    + apply wp_lset'; [exact Ld|]. eapply wp_lget; [rewrite set_nth_other by congruence; exact Hp|]. eapply wp_lget; [apply set_nth_same; exact Ld|].
      eapply wp_store; [lia|unfold page_size; lia|]. change (Z.of_nat 4) with 4. set (m2 := store 4 (mem w) (P + off) x).
      assert (Lq : load 4 m2 (P + off) = x) by (unfold m2; change 4 with (Z.of_nat 4); rewrite load_store_same, Z.mod_small; lia).
      assert (Out : forall y, ~ within (P + off) 4 y -> rd m2 y = rd (mem w) y) by (intros y Y; unfold m2; apply rd_store_out; unfold within in Y; lia).
      apply K.
      * eapply evolves_write with (p := P + off) (n := 4); [exact Hw|apply evolves_refl; exact Hw|exact Out|lia|lia|].
        intros y Y. right. left. unfold within, cell, between in *. lia.
      * apply same_locals_set; [left; reflexivity|]. apply same_locals_refl.
      * cbn [gnext set_mem]. lia.
      * cbn [mem set_mem]. rewrite Lq. unfold field_of. rewrite St. eapply vrep_mono; [|eapply vrep_ext; [|exact Hx]]; [intros y Y; left; exact Y|].
        intros y Y. apply Out. intros Z. apply (Dj y); [unfold within, cell, between in *; lia|exact Y].
      * discriminate.
Qed.

Lemma boxes_cons : forall t ts, boxes (t :: ts) = boxes [t] + boxes ts.
Proof. intros. unfold boxes. cbn [fold_right]. lia. Qed.
Lemma evolves_agree : forall w w' W F, evolves w w' W -> sub F (heap w) -> disj W F -> agree (mem w) (mem w') F.
Proof. intros w w' W F (_&_&_&_&_&_&E) S D y Y. apply E; [specialize (S y Y); unfold heap, between in S; lia|]. intros Z. exact (D y Z Y). Qed.
Lemma evolves_heap : forall w w' W F, evolves w w' W -> sub F (heap w) -> sub F (heap w').
Proof. intros w w' W F (_&_&_&G&_) S y Y. specialize (S y Y). unfold heap, between in *. lia. Qed.

Lemma wp_pack_fwd : forall fs p d v off xs vs F P r (Q : outcome -> Prop) s l w, p <> d -> p <> v -> d <> v -> nth_error l p = Some P -> (d < List.length l)%nat -> (v < List.length l)%nat ->
  wok w -> words (mem w) fs vs xs F -> sub F (heap w) -> 0 <= P -> 0 <= off -> P + off + 4 * Z.of_nat (List.length fs) <= gnext w ->
  disj (between (P + off) (P + off + 4 * Z.of_nat (List.length fs))) F ->
  (oom w (boxes (map snd fs)) -> Q OTrap) ->
  (forall w' l', evolves w w' (union (between (P + off) (P + off + 4 * Z.of_nat (List.length fs))) (id_cells fs xs)) -> same_locals [d; v] l l' -> gnext w' = gnext w + boxes (map snd fs) ->
     flds (mem w') (map snd fs) vs (P + off) (union F (fresh w w')) -> held_by (mem w') P off fs xs -> wp r Q s l' w') ->
  wp (pack_fwd p d v off fs ++ r) Q (rev xs ++ s) l w.
Proof.
  induction fs as [|f fs IH]; intros p d v off xs vs F P r Q s l w Npd Npv Ndv Hp Ld Lv Hw H Sf P0 O0 Pn Dj T K.
  - destruct vs, xs; cbn [words] in H; try contradiction. cbn [pack_fwd app rev]. apply K; [apply evolves_refl; exact Hw|apply same_locals_refl|cbn; lia|exact Logic.I|exact Logic.I].
  - destruct vs as [|u vs], xs as [|x xs]; cbn [words] in H; try contradiction. destruct H as (F1&F2&Hx&Bx&H&D12&S1&S2).
    cbn [List.length] in *. rewrite Nat2Z.inj_succ in *. cbn [map] in *. rewrite boxes_cons in *. pose proof (boxes_nonneg [snd f]) as B1. pose proof (boxes_nonneg (map snd fs)) as B2.
    cbn [pack_fwd rev]. rewrite <- !app_assoc. cbn [app].
    set (R := between (P + off) (P + off + 4 * Z.succ (Z.of_nat (List.length fs)))) in *.
    assert (Ri : sub (between (P + (off + 4)) (P + (off + 4) + 4 * Z.of_nat (List.length fs))) R) by (unfold R, between; intros y Y; lia).
    assert (Rc : sub (cell (P + off)) R) by (unfold R, cell, between; intros y Y; lia).
    eapply IH with (F := F2) (vs := vs) (P := P); [exact Npd|exact Npv|exact Ndv|exact Hp|exact Ld|exact Lv|exact Hw|exact H|eapply sub_trans; eassumption|exact P0|lia|lia| | |].
    { intros y Y Z. apply (Dj y); [apply Ri; exact Y|apply S2; exact Z]. }
    { intros O. apply T. eapply oom_mono; [exact O|lia]. }
    intros w1 l1 E1 L1 G1 Fl Hb. pose proof (id_cells_sub _ _ _ _ _ H) as Ic.
    assert (Sf1 : sub F1 (heap w)) by (eapply sub_trans; eassumption).
    assert (A1 : agree (mem w) (mem w1) F1).
    { eapply evolves_agree; [exact E1|exact Sf1|]. intros y [Y|Y] Z; [apply (Dj y); [apply Ri; exact Y|apply S1; exact Z]|apply (D12 y); [exact Z|apply Ic; exact Y]]. }
    pose proof E1 as (Hw1&Mx1&Pg1&Gm1&_).
    eapply wp_pack_field with (F := F1) (P := P) (u := u); [exact Npd|exact Npv|exact Ndv| | | |exact Hw1|eapply word_agree; [exact A1|exact Hx]|exact Bx|eapply evolves_heap; eassumption|exact P0|exact O0|lia| | |].
    { destruct L1 as (_&L1). rewrite L1; [exact Hp|]. intros [I|[I|[]]]; congruence. }
    { destruct L1 as (L1&_). lia. }
    { destruct L1 as (L1&_). lia. }
    { intros y Y Z. apply (Dj y); [apply Rc; exact Y|apply S1; exact Z]. }
    { intros O. apply T. unfold oom in *. lia. }
    intros w2 l2 E2 L2 G2 Ff Hi.
    assert (Sx : sub (if fst f then between (x - 4) x else empty) F1) by (unfold word in Hx; destruct (fst f); [destruct Hx as (_&G&_&_&X&_); exact X|intros y []]).
    assert (W2 : forall y, (cell (P + off) y \/ (if fst f then between (x - 4) x else empty) y) -> R y \/ F1 y) by (intros y [Y|Y]; [left; apply Rc; exact Y|right; apply Sx; exact Y]).
    assert (Hb' : sub (id_cells fs xs) (heap w1)) by (eapply sub_trans; [exact Ic|]; eapply sub_trans; [exact S2|]; eapply evolves_heap; eassumption).
    assert (A2 : agree (mem w1) (mem w2) (union F2 (fresh w w1))).
    { eapply evolves_agree; [exact E2| |].
      - intros y [Y|Y]; [eapply evolves_heap; [exact E1| |exact Y]; eapply sub_trans; eassumption|unfold fresh, heap, between in *; pose proof Hw as (_&_&P3&_); lia].
      - intros y Y [Z|Z].
        + destruct (W2 y Y) as [V|V]; [apply (Dj y V), S2; exact Z|apply (D12 y V Z)].
        + unfold fresh, between in Z. destruct (W2 y Y) as [V|V]; [unfold R, between in V; lia|apply Sf1 in V; unfold heap, between in V; lia]. }
    apply K.
    + eapply evolves_trans; [eapply evolves_sub; [exact E1|]|eapply evolves_sub; [exact E2|]].
      * intros y [Y|Y]; [left; apply Ri; exact Y|right]. destruct f. right. exact Y.
      * intros y [Y|Y]; [left; apply Rc; exact Y|right]. destruct f. left. exact Y.
    + eapply same_locals_trans; eassumption.
    + lia.
    + unfold flds. cbn [map fields]. exists (union F1 (fresh w1 w2)), (union F2 (fresh w w1)). split; [exact Ff|]. split; [|split; [|split]].
      * replace (P + off + 4) with (P + (off + 4)) by lia. eapply flds_agree; [exact A2| |exact Fl]. rewrite map_length. intros y Y.
        destruct E2 as (_&_&_&_&_&_&E2). apply E2; [lia|]. intros [V|V]; [unfold cell, between in V; lia|].
        apply (Dj y); [unfold R, between; lia|apply S1, Sx; exact V].
      * intros y [Y|Y] [Z|Z]; unfold fresh, between in *; [apply (D12 y Y Z)|apply Sf1 in Y; unfold heap, between in Y; lia| |lia].
        apply S2, Sf in Z. unfold heap, between in Z. lia.
      * intros y [Y|Y]; [left; apply S1; exact Y|right; unfold fresh, between in *; lia].
      * intros y [Y|Y]; [left; apply S2; exact Y|right; unfold fresh, between in *; lia].
    + destruct f as (b&t). cbn [held_by fst snd] in *. split; [exact Hi|]. eapply held_by_agree; [| |exact Hb]; [eapply agree_sub; [exact A2|]; intros y Y; left; apply Ic; exact Y|].
      intros y Y. destruct E2 as (_&_&_&_&_&_&E2). apply E2; [lia|]. intros [V|V]; [unfold cell, between in V; lia|]. apply (Dj y); [unfold R, between; lia|apply S1, Sx; exact V].
Qed.

(** Bytes that packing a struct takes. *)
Definition struct_memory (key : bool) (ts : list ty) : Z := (if key then 32 else 0) + 4 * Z.of_nat (List.length ts) + boxes ts.

Lemma boxes_bound : forall ts, boxes ts <= 8 * Z.of_nat (List.length ts).
Proof. induction ts as [|t ts IH]; [cbn; lia|]. rewrite boxes_cons. unfold boxes at 1. cbn [fold_right List.length]. destruct t; cbn [is_stack esize]; lia. Qed.

Lemma load_be_zero : forall n m a, (forall i, 0 <= i < Z.of_nat n -> rd m (a + i) = 0) -> load_be n m a = 0.
Proof.
  intros n m a H. transitivity (load_be n (fun _ => 0) a); [apply load_be_ext; intros i Hi; rewrite H by exact Hi; reflexivity|].
  clear. revert a. induction n as [|n IH]; intros a; [reflexivity|]. cbn [load_be]. rewrite IH. reflexivity.
Qed.

Lemma wp_pack_struct : forall key fs p d v xs vs F r (Q : outcome -> Prop) s l w, p <> d -> p <> v -> d <> v -> (p < List.length l)%nat -> (d < List.length l)%nat -> (v < List.length l)%nat ->
  Z.of_nat (List.length fs) < 65536 -> wok w -> words (mem w) fs vs xs F -> sub F (heap w) ->
  (oom w (struct_memory key (map snd fs)) -> Q OTrap) ->
  (forall x w' l', evolves w w' (id_cells fs xs) -> same_locals [p; d; v] l l' -> gnext w' = gnext w + struct_memory key (map snd fs) ->
     x = gnext w + (if key then 32 else 0) -> x < 2 ^ 32 -> vrep (mem w') (TStruct key (map snd fs)) (VStruct 0 vs) x (union F (fresh w w')) -> held_by (mem w') x 0 fs xs -> wp r Q (x :: s) l' w') ->
  wp (pack_struct key fs p d v ++ r) Q (rev xs ++ s) l w.
Proof.
  intros key fs p d v xs vs F r Q s l w Npd Npv Ndv Lp Ld Lv Hn Hw H Sf T K. unfold pack_struct. rewrite <- !app_assoc.
  unfold struct_memory in *. rewrite map_length in *. pose proof (boxes_nonneg (map snd fs)) as B. pose proof (boxes_bound (map snd fs)) as B2. rewrite map_length in B2.
  set (n := 4 * Z.of_nat (List.length fs)) in *. set (k := if key then 32 else 0) in *.
  assert (Hk : 0 <= k <= 32) by (unfold k; destruct key; lia).
  assert (M : forall w1, allocated w w1 k -> wp ([Const n; Call alloc; LocalSet p] ++ pack_rev p d v n (rev fs) ++ [LocalGet p] ++ r) Q (rev xs ++ s) l w1).
  { intros w1 Al. pose proof (alloc_extends _ _ _ Hw Al ltac:(lia)) as Ex1. destruct Al as (Hw1&Em1&Mx1&Pg1&Gn1&Gc1&Ho1).
    cbn [app]. ws1. eapply wp_call_spec; [reflexivity|cbn [List.length]; lia|cbn [firstn rev app]; apply alloc_spec; [exact Hw1|lia]|intros O; apply T; unfold oom in *; lia|].
    intros rs w2 (->&Al). cbn [app skipn]. pose proof (alloc_extends _ _ _ Hw1 Al ltac:(lia)) as Ex2. destruct Al as (Hw2&Em2&Mx2&Pg2&Gn2&Gc2&Ho2).
    apply wp_lset'; [exact Lp|]. set (x := gnext w1) in *. pose proof Hw as (P1&P2&P3&P4&P5&P6). pose proof Hw2 as (Q1&Q2&Q3&Q4&Q5&Q6).
    assert (Sf2 : sub F (heap w2)) by (intros y Y; specialize (Sf y Y); unfold heap, between in *; lia).
    replace (pack_rev p d v n (rev fs)) with (pack_fwd p d v 0 fs) by (rewrite <- pack_rev_fwd; reflexivity).
    eapply wp_pack_fwd with (P := x) (F := F) (vs := vs); [exact Npd|exact Npv|exact Ndv|apply set_nth_same; exact Lp|rewrite set_nth_length; exact Ld|rewrite set_nth_length; exact Lv|
      exact Hw2|rewrite Em2, Em1; exact H|exact Sf2|lia|lia|lia| |intros O; apply T; unfold oom in *; lia|].
    { intros y Y Z. apply Sf in Z. unfold heap, between in *. lia. }
    intros w3 l3 E3 L3 G3 Fl Hb. rewrite !Z.add_0_r in *. pose proof E3 as (Hw3&_&_&Gm3&_). pose proof Hw3 as (R1&R2&R3&R4&R5&R6).
    eapply wp_lget; [destruct L3 as (_&L3); rewrite L3; [apply set_nth_same; exact Lp|intros [I|[I|[]]]; congruence]|].
    assert (Sx : 0 <= x - k) by lia.
    assert (Fr : forall y, x <= y < x + n -> fresh w w3 y) by (intros y Y; unfold fresh, between; lia).
    apply K.
    + destruct E3 as (_&E2&E4&E5&E6&E7&E8). repeat (split; [first [assumption|lia|congruence]|]). intros y Y N. rewrite E8; [rewrite Em2, Em1; reflexivity|lia|].
      intros [V|V]; [unfold between in V; lia|contradiction].
    + split; [destruct L3 as (L3&_); rewrite L3; apply set_nth_length|]. intros j N. destruct L3 as (_&L3). rewrite L3, set_nth_other; [reflexivity| |]; intros I; apply N; [left; congruence|].
      destruct I as [I|[I|[]]]; [right; left; exact I|right; right; left; exact I].
    + lia.
    + lia.
    + lia.
    + cbn [vrep]. exists 0, vs, (union F (union (fresh w2 w3) empty)). split; [reflexivity|]. split; [|split; [|split; [|split]]].
      * unfold k in *. destruct key; [|reflexivity]. symmetry. apply load_be_zero. intros i Hi. destruct E3 as (_&_&_&_&_&_&E8). rewrite E8; [rewrite Em2, Em1; apply P6; lia|lia|].
        intros [V|V]; [unfold between in V; lia|]. apply (id_cells_sub _ _ _ _ _ H), Sf in V. unfold heap, between in V. lia.
      * rewrite map_length. fold n. intros y Y. right. unfold fresh, between in *. unfold k in *. destruct key; lia.
      * intros y [Y|[Y|[]]]; [left; exact Y|right; unfold fresh, between in *; lia].
      * rewrite map_length. fold n. intros y Y [Z|[Z|[]]]; [apply Sf in Z; unfold heap, between in *; unfold k in *; destruct key; lia|unfold fresh, between in *; unfold k in *; destruct key; lia].
      * eapply fields_mono; [|exact Fl]. intros y [Y|Y]; [left; exact Y|right; left; exact Y].
    + exact Hb. }
  unfold k in M. destruct key; cbn [app].
  - ws1. eapply wp_call_spec; [reflexivity|cbn [List.length]; lia|cbn [firstn rev app]; apply alloc_spec; [exact Hw|lia]|intros O; apply T; eapply oom_mono; [exact O|lia]|].
    intros rs w1 (->&Al). cbn [app skipn]. apply wp_drop. apply M. exact Al.
  - apply M. split; [exact Hw|]. repeat (split; [first [reflexivity|lia]|]). reflexivity.
Qed.
