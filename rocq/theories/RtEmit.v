(** * Events: building and emitting the log. *)

From Verif Require Import Tac RtAlloc RtErr RtEq RtDiv RtShift RtSwap RtAscii Ops SpecVal LemVal SpecAbi LemAbi RtCopy RtStor SpecSol RtAbi RtPack RtPack2 SpecEvent RtEvent.
Ltac Zify.zify_post_hook ::= idtac.

(** Locals of native_functions/event.rs 38-505 [add_emit_log_fn]: 0 struct_ptr, 1 writer_pointer, 2 calldata_reference_pointer,
    3 packed_data_begin, 4 local, 5 local_64, 6 abi_encoded_data_length, 7 packed_data_length,
    8 abi_encoded_data_calldata_reference_pointer, 9 data_struct_ptr, 10+2k and 11+2k data_begin and data_end of field [k],
    [b] and following: those of the encoders. *)

(** event.rs 82-225: encoding the field [k] if it is to be hashed (an ID is encoded as well). *)
Definition encode_field (b k : nat) (t : ity) : list instr :=
  let start x := [ LocalGet 0; Load 4 (4 * Z.of_nat k); LocalSet x; Const 0; Call alloc; LocalSet (10 + 2 * k) ] in
  let finish := [ Const 0; Call alloc; LocalSet (11 + 2 * k) ] in
  match t with
  | IAbi (AInt _) | IAbi (AEnum _) => []
  | IAbi AString => start b ++ index_string false b (b + 1) ++ finish
  | IAbi t => start 4%nat ++ index_elem t 4 b ++ finish
  | IId => start 4%nat ++ index_elem (AStruct [AInt TAddress]) 4 b ++ finish
  end.
Fixpoint encode_fields (b k : nat) (ts : list ity) : list instr :=
  match ts with [] => [] | t :: ts => encode_field b k t ++ encode_fields b (S k) ts end.

(** event.rs 227-259: the signature topic.  [i64::from_le_bytes] of each 8 bytes of the hash. *)
Definition le_num (bs : list Z) : Z := fold_right (fun b n => b + 256 * n) 0 bs.
Definition signature (s : option (list Z)) : list instr :=
  match s with
  | Some d =>
      [ Const 32; Call alloc; LocalTee 1; LocalSet 3 ] ++
      List.concat (map (fun i => [ LocalGet 1; Const (le_num (firstn 8 (skipn (8 * i) d))); Store 8 (8 * Z.of_nat i) ]) (seq 0 4))
  | None => [ Const 0; Call alloc; LocalSet 3 ]
  end.

(** event.rs 261-396: the topic of the field [k]. *)
Definition topic_field (ep : errtab) (k : nat) (t : ity) : list instr :=
  let pr := propagate false in
  [ LocalGet 0; Load 4 (4 * Z.of_nat k) ] ++
  (if is_stack (imty t) then [ Load (esize (imty t)) 0; LocalSet (val_local (imty t)) ] else [ LocalSet 4 ]) ++
  match t with
  | IAbi (AInt t) => [ Const 32; Call alloc; LocalTee 1; LocalSet 2 ] ++ pack_code ep (AInt t) pr pr (val_local t) 1 2
  | IAbi (AEnum n) => [ Const 32; Call alloc; LocalTee 1; LocalSet 2 ] ++ pack_code ep (AEnum n) pr pr 4 1 2
  | IId => [ Const 32; Call alloc; LocalTee 1; LocalSet 2; LocalGet 4; Load 4 0; LocalSet 4 ] ++
           pack_code ep (AInt TAddress) pr pr 4 1 2
  | IAbi _ => [ LocalGet (11 + 2 * k); LocalGet (10 + 2 * k); Bin I32 Sub; LocalSet 6; Const 32; Call alloc; LocalSet 1;
                LocalGet (10 + 2 * k); LocalGet 6; LocalGet 1; Host H_keccak ]
  end.
Fixpoint topic_fields (ep : errtab) (k : nat) (ts : list ity) : list instr :=
  match ts with [] => [] | t :: ts => topic_field ep k t ++ topic_fields ep (S k) ts end.

(** event.rs 398-495: the other fields. *)
Definition data_code (ep : errtab) (n : nat) (ts : list aty) : list instr :=
  match ts with
  | [] => [ Const 0; Call alloc; LocalGet 3; Bin I32 Sub; LocalSet 7 ]
  | _ =>
      [ LocalGet 0; Const (4 * Z.of_nat n); Bin I32 Add; LocalSet 9;
        Const (if existsb is_dynamic ts then 32 else encoded_size (AStruct ts)); Call alloc; LocalTee 1; LocalSet 8 ] ++
      [ LocalGet 9; LocalGet 1; LocalGet 8; Const (if existsb is_dynamic ts then 1 else 0);
        Call (pack_struct (encoded_size (AStruct ts))
          (map (fun f => (mty f, slot_size f, pack_code ep f (propagate false) (propagate false) (val_local (mty f)) 7 8)) ts)) ] ++
      (if existsb is_dynamic ts
       then [ LocalGet 8; LocalGet 8; Const 32; Bin I32 Add;
              Const 0; Call alloc; LocalGet 3; Const 32; Bin I32 Add; Bin I32 Sub; LocalTee 7; MemCopy ]
       else [ Const 0; Call alloc; LocalGet 3; Bin I32 Sub; LocalSet 7 ])
  end.

(** event.rs 38-505 [add_emit_log_fn]. *)
Definition index_need (t : ity) : nat := match t with IId => 2 | IAbi t => index_locals t end.
Definition emit (ep : errtab) (e : event) : func :=
  let n := List.length (e_indexed e) in
  let b := (10 + 2 * n)%nat in
  Func 1 (9 + 2 * n + 1 + fold_right Nat.max 0%nat (map index_need (e_indexed e))) 0
   (encode_fields b 0 (e_indexed e) ++ signature (e_sig e) ++ topic_fields ep 0 (e_indexed e) ++
    data_code ep n (e_data e) ++
    [ LocalGet 3; LocalGet 7; Const (match e_sig e with Some _ => 1 + lenz (e_indexed e) | None => lenz (e_indexed e) end); Host H_emit_log ]).

(** ** Small facts *)

Lemma le_num_digit : forall c i, Forall (fun b => 0 <= b < 256) c -> (i < List.length c)%nat ->
  (le_num c / 256 ^ Z.of_nat i) mod 256 = nth i c 0.
Proof.
  induction c as [|b c IH]; intros i H Hi; [cbn in Hi; lia|]. inversion H as [|? ? Hb Hc]; subst. cbn [le_num fold_right]. fold (le_num c).
  destruct i as [|i]; cbn [nth].
  - rewrite Z.pow_0_r, Z.div_1_r. rewrite (Z.mul_comm 256), Z.mod_add, Z.mod_small; lia.
  - rewrite Nat2Z.inj_succ, Z.pow_succ_r by lia. rewrite <- Z.div_div by (pose proof (pow256_pos (Z.of_nat i)); lia).
    rewrite (Z.mul_comm 256 (le_num c)), Z.div_add, (Z.div_small b) by lia. rewrite Z.add_0_l. apply IH; [exact Hc|cbn [List.length] in Hi; lia].
Qed.

Lemma store_le_num : forall m a c, List.length c = 8%nat -> Forall (fun b => 0 <= b < 256) c -> bytes_at (store 8 m a (le_num c)) a c.
Proof.
  intros m a c L H. unfold bytes_at. rewrite L. apply nth_ext with (d := 0) (d' := 0); [rewrite bytes_length; lia|].
  rewrite bytes_length. intros i Hi. rewrite bytes_nth by exact Hi. rewrite rd_store_in by lia.
  replace (a + Z.of_nat i - a) with (Z.of_nat i) by lia. apply le_num_digit; [exact H|lia].
Qed.

Lemma word_mod : forall v, word (v mod 2 ^ 256) = word v.
Proof.
  intros v. unfold word. rewrite <- (bytes_be 32 (store_be 32 (fun _ => 0) 0 v) 0 _ (load_be_store32 _ 0 v)).
  rewrite <- (be_bytes_load_be 32). rewrite load_be_store32.
  assert (G : forall n k, (n <= k)%nat -> be_bytes n (v mod 256 ^ Z.of_nat k) = be_bytes n v).
  { induction n as [|n IH]; intros k Hk; cbn [be_bytes]; [reflexivity|]. f_equal; [|apply IH; lia].
    replace (Z.of_nat k) with (Z.of_nat n + (1 + (Z.of_nat k - Z.of_nat n - 1))) by lia. rewrite Z.pow_add_r by lia.
    rewrite Z.rem_mul_r by (pose proof (pow256_pos (Z.of_nat n)); pose proof (pow256_pos (1 + (Z.of_nat k - Z.of_nat n - 1))); lia).
    pose proof (pow256_pos (Z.of_nat n)) as Hp. rewrite (Z.mul_comm (256 ^ Z.of_nat n)), Z.div_add, Z.div_small by (try lia; apply Z.mod_pos_bound; lia).
    rewrite Z.add_0_l. rewrite Z.pow_add_r, Z.pow_1_r by lia.
    rewrite Z.rem_mul_r by (pose proof (pow256_pos (Z.of_nat k - Z.of_nat n - 1)); lia).
    rewrite (Z.mul_comm 256), Z.mod_add by lia. apply Z.mod_mod. lia. }
  change (2 ^ 256) with (256 ^ Z.of_nat 32). apply (G 32%nat 32%nat). lia.
Qed.

Lemma bytes_hash : forall m a v, bytes_at (store_be 32 m a v) a (word v).
Proof. intros. unfold bytes_at. unfold word at 1. rewrite be_bytes_length. rewrite (bytes_be 32 _ _ _ (load_be_store32 m a v)). apply word_mod. Qed.

(** ** Encoding the fields that are hashed *)

(** What is hashed for a field, and what encoding a field takes from the heap. *)
Definition preimage (t : ity) (v : val) : option (list Z) :=
  match t, v with
  | IId, _ | IAbi (AInt _), _ | IAbi (AEnum _), _ => None
  | IAbi AString, VStruct _ [VVec bs] => Some (map int_of bs)
  | IAbi t, v => Some (in_place t v)
  end.
Definition index_cost (t : ity) (v : val) : Z :=
  match t with IId => 32 | _ => match preimage t v with Some bs => lenz bs | None => 0 end end.
Fixpoint index_costs (ts : list ity) (vs : list val) : Z :=
  match ts, vs with t :: ts, v :: vs => index_cost t v + index_costs ts vs | _, _ => 0 end.
Definition istr (t : ity) : bool := match t with IId => false | IAbi t => str_in t end.

Lemma index_cost_nonneg : forall t v, 0 <= index_cost t v.
Proof. intros t v. unfold index_cost. destruct t as [|t]; [lia|]. destruct (preimage (IAbi t) v) as [bs|]; [apply lenz_nonneg|lia]. Qed.
Lemma index_costs_nonneg : forall ts vs, 0 <= index_costs ts vs.
Proof. induction ts as [|t ts IH]; intros [|v vs]; cbn [index_costs]; try lia. pose proof (index_cost_nonneg t v). specialize (IH vs). lia. Qed.

Definition has_preimage (w : world) (lo : Z) (l : list Z) (k : nat) (t : ity) (v : val) : Prop :=
  match preimage t v with
  | None => True
  | Some bs => exists p, nth_error l (10 + 2 * k) = Some p /\ nth_error l (11 + 2 * k) = Some (p + lenz bs) /\
      lo <= p /\ p + lenz bs <= gnext w /\ bytes_at (mem w) p bs
  end.
Fixpoint stored (w : world) (lo : Z) (l : list Z) (k : nat) (ts : list ity) (vs : list val) : Prop :=
  match ts, vs with
  | [], [] => True
  | t :: ts, v :: vs => has_preimage w lo l k t v /\ stored w lo l (S k) ts vs
  | _, _ => False
  end.

Lemma has_preimage_ext : forall w w' lo l l' k t v, 0 <= lo -> extends w w' -> has_preimage w lo l k t v ->
  nth_error l' (10 + 2 * k) = nth_error l (10 + 2 * k) -> nth_error l' (11 + 2 * k) = nth_error l (11 + 2 * k) -> has_preimage w' lo l' k t v.
Proof.
  unfold has_preimage. intros w w' lo l l' k t v H0 (_&_&_&E1&_&_&E2) H N1 N2. destruct (preimage t v) as [bs|]; [|exact H].
  destruct H as (p&A1&A2&A3&A4&A5). exists p. rewrite N1, N2. repeat (split; [first [assumption|lia]|]).
  eapply bytes_at_ext; [|exact A5]. intros x Hx. apply E2. lia.
Qed.
Lemma stored_ext : forall ts vs w w' lo l l' k, 0 <= lo -> extends w w' ->
  (forall i, (10 + 2 * k <= i)%nat -> nth_error l' i = nth_error l i) -> stored w lo l k ts vs -> stored w' lo l' k ts vs.
Proof.
  induction ts as [|t ts IH]; intros [|v vs] w w' lo l l' k H0 E N; cbn [stored]; try tauto. intros [A B]. split.
  - eapply has_preimage_ext; eauto; apply N; lia.
  - eapply (IH vs w); [exact H0|exact E| |exact B]. intros. apply N. lia.
Qed.

Lemma max_need : forall t (ts : list ity), (index_need t <= fold_right Nat.max 0%nat (map index_need (t :: ts)))%nat /\
  (fold_right Nat.max 0%nat (map index_need ts) <= fold_right Nat.max 0%nat (map index_need (t :: ts)))%nat.
Proof. intros. cbn [map fold_right]. lia. Qed.

Lemma extends_alloc0 : forall w w1, wok w -> allocated w w1 0 -> extends w w1 /\ gnext w1 = gnext w /\ mem w1 = mem w.
Proof. intros w w1 Hw Al. split; [apply (alloc_extends _ _ _ Hw Al); lia|]. destruct Al as (_&A&_&_&B&_). split; [lia|exact A]. Qed.

Lemma wp_pos : forall r (Q : outcome -> Prop) s l w, wok w -> (oom w 0 -> Q OTrap) ->
  (forall w1, extends w w1 -> gnext w1 = gnext w -> mem w1 = mem w -> wp r Q (gnext w :: s) l w1) ->
  wp (Const 0 :: Call alloc :: r) Q s l w.
Proof.
  intros r Q s l w Hw T K. ws1. wcall alloc_spec; [exact Hw|lia|exact T|]. intros rs w1 [-> Al]. wc.
  destruct (extends_alloc0 _ _ Hw Al) as (E&G&M). apply K; auto.
Qed.

Lemma index_ok_id : index_ok (AStruct [AInt TAddress]).
Proof. apply index_all. cbn [index_ty]. repeat constructor. Qed.

Lemma wp_encode : forall (x b k : nat) code bs q tr r (Q : outcome -> Prop) s l w X w0,
  nth_error l 0 = Some X -> 468 <= X -> X + 4 * Z.of_nat k + 4 <= gnext w0 -> load 4 (mem w0) (X + 4 * Z.of_nat k) = q ->
  (x = 4 \/ (b <= x))%nat -> (12 + 2 * k <= b)%nat -> (x < List.length l)%nat -> (b < List.length l)%nat -> wok w0 -> extends w0 w ->
  (forall l1 w1 r (Q : outcome -> Prop) s, nth_error l1 x = Some q -> List.length l1 = List.length l -> extends w w1 -> gnext w1 = gnext w -> mem w1 = mem w ->
     (ctrap w1 tr (lenz bs) -> Q OTrap) ->
     (forall l2 w2, List.length l2 = List.length l1 -> (forall i, (i < b)%nat -> i <> 4%nat -> nth_error l2 i = nth_error l1 i) -> appended w1 w2 bs -> wp r Q s l2 w2) ->
     wp (code ++ r) Q s l1 w1) ->
  (ctrap w tr (lenz bs) -> Q OTrap) ->
  (forall l' w', List.length l' = List.length l -> (forall i, (i < b)%nat -> i <> 4%nat -> i <> (10 + 2 * k)%nat -> i <> (11 + 2 * k)%nat -> nth_error l' i = nth_error l i) ->
     appended w w' bs -> nth_error l' (10 + 2 * k) = Some (gnext w) -> nth_error l' (11 + 2 * k) = Some (gnext w + lenz bs) -> wp r Q s l' w') ->
  wp (([ LocalGet 0; Load 4 (4 * Z.of_nat k); LocalSet x; Const 0; Call alloc; LocalSet (10 + 2 * k) ] ++ code ++
       [ Const 0; Call alloc; LocalSet (11 + 2 * k) ]) ++ r) Q s l w.
Proof.
  intros x b k code bs q tr r Q s l w X w0 NX HX HXk Hq Hx Hb Hxl Hbl Hw0 E0 KC T K.
  pose proof E0 as (Hw&M1&M2&M3&M4&M5&Ow). pose proof Hw as (J1&J2&J3&J4&J5&J6). pose proof Hw0 as (P1&P2&P3&P4&P5&P6).
  rewrite <- !app_assoc. cbn [app]. eapply wp_lget; [exact NX|]. apply wp_load; [lia|unfold page_size; change (Z.of_nat 4) with 4; lia|].
  replace (load 4 (mem w) (X + 4 * Z.of_nat k)) with q.
  2:{ rewrite <- Hq. symmetry. apply load_ext. change (Z.of_nat 4) with 4. intros. apply Ow. lia. }
  pose proof (lenz_nonneg bs) as Ln. ls. apply wp_pos; [exact Hw|intros O; apply T; left; eapply oom_mono; [exact O|lia]|]. intros w1 E1 G1 Em1. pose proof E1 as (Hw1&_).
  apply wp_lset'; [rewrite set_nth_length; lia|].
  assert (Nk : (10 + 2 * k < List.length l)%nat) by lia.
  eapply KC; [rewrite set_nth_other by lia; apply set_nth_same; lia|rewrite !set_nth_length; reflexivity|exact E1|exact G1|exact Em1| |].
  { intros Tr. apply T. eapply ctrap_extends; [exact E1|exact Tr|lia|auto]. }
  intros l2 w2 L2 N2 Ap. rewrite !set_nth_length in L2. pose proof Ap as (E2&G2&B2). pose proof E2 as (Hw2&_).
  cbn [app]. apply wp_pos; [exact Hw2|intros O; apply T; left; eapply (extends_oom w w2); [eapply extends_trans; eauto|exact O|lia]|]. intros w3 E3 G3 Em3. apply wp_lset'; [lia|].
  apply K.
  - rewrite set_nth_length. exact L2.
  - intros i H1 H2 H3 H4. rewrite set_nth_other by lia. rewrite N2 by assumption. rewrite !set_nth_other by lia. reflexivity.
  - unfold appended. split; [eapply extends_trans; [exact E1|]; eapply extends_trans; eauto|]. split; [lia|]. rewrite Em3, <- G1. exact B2.
  - rewrite set_nth_other by lia. rewrite N2 by lia. apply set_nth_same. rewrite set_nth_length. lia.
  - rewrite set_nth_same by lia. f_equal. lia.
Qed.

Lemma encode_fields_ok : forall b ts, Forall indexed_ty ts ->
  forall k r (Q : outcome -> Prop) s l w0 w vs X G F, nth_error l 0 = Some X -> (10 + 2 * k + 2 * List.length ts <= b)%nat ->
  (b + 1 + fold_right Nat.max 0%nat (map index_need ts) <= List.length l)%nat -> wok w0 -> extends w0 w ->
  fields (map (fun t' => field_of (mem w0) t' (vrep (mem w0) t')) (map imty ts)) (mem w0) vs (X + 4 * Z.of_nat k) G -> sub G F ->
  (ts = [] \/ 468 <= X) -> sub (between (X + 4 * Z.of_nat k) (X + 4 * Z.of_nat k + 4 * Z.of_nat (List.length ts))) F -> sub F (heap w0) ->
  fold_right and True (map nonempty vs) -> index_costs ts vs < 2147483648 ->
  (ctrap w (existsb istr ts) (index_costs ts vs) -> Q OTrap) ->
  (forall l' w', List.length l' = List.length l -> (forall i, (i < 10 + 2 * k)%nat -> i <> 4%nat -> nth_error l' i = nth_error l i) ->
     extends w w' -> gnext w' = gnext w + index_costs ts vs -> stored w' (gnext w) l' k ts vs -> wp r Q s l' w') ->
  wp (encode_fields b k ts ++ r) Q s l w.
Proof.
  intros b. induction 1 as [|t ts Ht H IH]; intros k r Q s l w0 w vs X G F NX Hb Hl Hw0 E0 V SG HX SX SF Ne Hlen T K.
  - cbn [map encode_fields fields app index_costs] in *. destruct vs; [|contradiction]. pose proof E0 as (Hw&_).
    apply K; [reflexivity|auto|apply extends_refl; exact Hw|lia|exact Logic.I].
  - cbn [map fields] in V. destruct vs as [|v vs]; [contradiction|]. destruct V as (F1&F2&V1&V2&_&SF1&SF2).
    assert (HX' : 468 <= X) by (destruct HX as [HX|HX]; [discriminate HX|exact HX]). clear HX. rename HX' into HX.
    cbn [List.length] in SX, Hb. cbn [index_costs] in *. cbn [map fold_right] in Ne. destruct Ne as [Ne1 Ne2].
    destruct (max_need t ts) as [Mx1 Mx2]. pose proof (index_cost_nonneg t v) as Ln1. pose proof (index_costs_nonneg ts vs) as Ln2.
    pose proof E0 as (Hw&M1&M2&M3&M4&M5&Ow). pose proof Hw as (J1&J2&J3&J4&J5&J6). pose proof Hw0 as (P1&P2&P3&P4&P5&P6).
    destruct (sub_live (X + 4 * Z.of_nat k) 4 F w0) as [A1 A2]; [eapply sub_trans; [|exact SX]; apply between_sub; lia|exact SF|lia|].
    assert (SF1w0 : sub F1 (heap w0)) by (eapply sub_trans; [exact SF1|]; eapply sub_trans; eauto).
    cbn [encode_fields]. rewrite <- app_assoc.
    (* the rest *)
    assert (KR : forall l1 w1, List.length l1 = List.length l ->
       (forall i, (i < b)%nat -> i <> 4%nat -> i <> (10 + 2 * k)%nat -> i <> (11 + 2 * k)%nat -> nth_error l1 i = nth_error l i) ->
       extends w w1 -> gnext w1 = gnext w + index_cost t v -> has_preimage w1 (gnext w) l1 k t v -> wp (encode_fields b (Datatypes.S k) ts ++ r) Q s l1 w1).
    { intros l1 w1 L1 N1 E1 G1 H1. eapply (IH (Datatypes.S k) r Q s l1 w0 w1 vs X F2 F); try assumption; try (right; exact HX).
      - rewrite N1 by lia. exact NX.
      - lia.
      - lia.
      - eapply extends_trans; eauto.
      - replace (X + 4 * Z.of_nat (Datatypes.S k)) with (X + 4 * Z.of_nat k + 4) by lia. exact V2.
      - eapply sub_trans; eauto.
      - eapply sub_trans; [|exact SX]. apply between_sub; lia.
      - lia.
      - intros Tr. apply T. cbn [existsb]. eapply ctrap_extends; [exact E1|exact Tr|lia|]. intros ->. apply orb_true_r.
      - intros l2 w2 L2 N2 E2 G2 S2. apply K.
        + congruence.
        + intros i Hi Hi4. rewrite N2 by lia. apply N1; lia.
        + eapply extends_trans; eauto.
        + lia.
        + cbn [stored]. split.
          * eapply (has_preimage_ext w1); [lia|exact E2|exact H1|apply N2; lia|apply N2; lia].
          * clear - S2 G1 Ln1 P3 M3. revert S2. generalize (Datatypes.S k). revert vs. induction ts as [|t' ts IHt]; intros [|v' vs] k'; cbn [stored]; try tauto.
            intros [A B]. split; [|apply IHt; exact B]. unfold has_preimage in *. destruct (preimage t' v'); [|exact A].
            destruct A as (p&A1&A2&A3&A4&A5). exists p. repeat (split; [first [assumption|lia]|]). exact A5. }
    assert (T1 : forall tr (bs : list Z), lenz bs = index_cost t v -> (tr = true -> istr t = true) -> ctrap w tr (lenz bs) -> Q OTrap).
    { intros tr bs Lb Hs Tr. apply T. cbn [existsb]. eapply ctrap_extends; [apply extends_refl; exact Hw|exact Tr|lia|]. intros E. rewrite (Hs E). reflexivity. }
    assert (HV : forall w1, extends w w1 -> mem w1 = mem w -> forall ty q, vrep (mem w0) ty v q F1 -> vrep (mem w1) ty v q F1).
    { intros w1 E1 Em ty q. apply vrep_ext. intros a Fa. rewrite Em. apply Ow. apply SF1w0 in Fa. unfold heap, between in Fa. lia. }
    assert (HS : forall w1, extends w w1 -> gnext w1 = gnext w -> sub F1 (heap w1)).
    { intros w1 E1 G1. eapply sub_trans; [exact SF1w0|]. unfold heap. apply between_sub; lia. }
    assert (GEN : forall ta, index_ok ta -> wf_aty ta -> (match ta with AEnum _ => False | _ => True end) -> vrep (mem w0) (mty ta) v (load 4 (mem w0) (X + 4 * Z.of_nat k)) F1 ->
       (index_locals ta <= index_need t)%nat -> lenz (in_place ta v) = index_cost t v -> (str_in ta = true -> istr t = true) ->
       (forall bs, preimage t v = Some bs -> bs = in_place ta v) ->
       wp (([ LocalGet 0; Load 4 (4 * Z.of_nat k); LocalSet 4; Const 0; Call alloc; LocalSet (10 + 2 * k) ] ++ index_elem ta 4 b ++
       [ Const 0; Call alloc; LocalSet (11 + 2 * k) ]) ++ encode_fields b (Datatypes.S k) ts ++ r) Q s l w).
    { intros ta Io Wa Na Va Hn Lc Hs Hp.
      eapply (wp_encode 4 b k (index_elem ta 4 b) (in_place ta v) _ (str_in ta) _ _ _ _ _ X w0); [exact NX|exact HX|lia|reflexivity|left; reflexivity|lia|lia|lia|exact Hw0|exact E0| |apply T1; assumption|].
      - intros l1 w1 r' Q' s' N4 L1 E1 G1 Em Tr K'. pose proof E1 as (Hw1&_).
        eapply (Io 4%nat b r' Q' s' l1 w1 v _ F1); [exact N4|lia|lia|exact Hw1|exact Wa| |apply HS; assumption|exact Ne1|lia|exact Tr|].
        + destruct ta; try contradiction Na; cbn [holds]; apply HV; assumption.
        + intros l2 w2 [S1 S2] Ap. apply K'; [exact S1|exact S2|exact Ap].
      - intros l1 w1 L1 N1 Ap N2 N3. pose proof Ap as (E1&G1&B1). apply KR; try assumption; [lia|].
        unfold has_preimage. destruct (preimage t v) as [bs|] eqn:Ep; [|exact Logic.I]. rewrite (Hp bs eq_refl) in *. exists (gnext w).
        repeat (split; [first [assumption|lia]|]). exact B1. }
    destruct t as [|ta].
    + (* an ID *)
      cbn [imty indexed_ty] in *. cbn [encode_field]. unfold field_of in V1. cbn [is_stack] in V1.
      eapply (GEN (AStruct [AInt TAddress]) index_ok_id); [cbn; lia|exact Logic.I|exact V1|cbn; lia| |intros E; exact E|discriminate].
      destruct (vrep_has (AStruct [AInt TAddress]) _ _ _ _ ltac:(cbn; lia) V1) as (vs'&->&Hvs). cbn [map all_fields] in Hvs.
      destruct vs' as [|v' vs']; [contradiction|]. destruct Hvs as [[nn [-> _]] Hvs]. destruct vs'; [|contradiction]. reflexivity.
    + cbn [imty indexed_ty istr index_need] in *. destruct Ht as [Wa Hi].
      destruct ta as [t|n| |t|fs].
      * cbn [encode_field app]. apply KR; [reflexivity|auto|apply extends_refl; exact Hw|cbn [index_cost preimage]; lia|exact Logic.I].
      * cbn [encode_field app]. apply KR; [reflexivity|auto|apply extends_refl; exact Hw|cbn [index_cost preimage]; lia|exact Logic.I].
      * cbn [encode_field]. unfold field_of in V1. cbn [mty is_stack] in V1.
        destruct (vrep_has AString _ _ _ _ Wa V1) as (bs&->&_). cbn [index_cost preimage] in *. rewrite map_map in *. rewrite map_id in *. 
        eapply (wp_encode b b k (index_string false b (b + 1)) bs _ true _ _ _ _ _ X w0); [exact NX|exact HX|lia|reflexivity|right; lia|lia|lia|lia|exact Hw0|exact E0| |apply T1; auto|].
        -- intros l1 w1 r' Q' s' N4 L1 E1 G1 Em Tr K'. pose proof E1 as (Hw1&_).
           eapply (wp_index_string false b (b + 1) r' Q' s' l1 w1 _ bs _ F1); [exact N4|lia|cbn [index_locals] in *; lia|exact Hw1|apply HV; [exact E1|exact Em|exact V1]|apply HS; assumption|reflexivity| |cbn [ienc]; lia|exact Tr|].
           ++ cbn [nonempty map fold_right] in Ne1. destruct Ne1 as [[Ne1 _] _]. intros ->. apply Ne1. reflexivity.
           ++ intros l2 w2 [S1 S2] Ap. apply K'; [exact S1| |exact Ap]. intros. apply S2; lia.
        -- intros l1 w1 L1 N1 Ap N2 N3. pose proof Ap as (E1&G1&B1). apply KR; try assumption.
           unfold has_preimage. cbn [preimage]. rewrite map_map, map_id. exists (gnext w).
           repeat (split; [first [assumption|lia]|]). exact B1.
      * cbn [encode_field]. unfold field_of in V1. cbn [mty is_stack] in V1.
        eapply (GEN (AVec t)); [apply index_all; exact Hi|exact Wa|exact Logic.I|exact V1|lia|reflexivity|auto|].
        intros bs E. cbn [preimage] in E. injection E as <-. reflexivity.
      * cbn [encode_field]. unfold field_of in V1. cbn [mty is_stack] in V1.
        eapply (GEN (AStruct fs)); [apply index_all; exact Hi|exact Wa|exact Logic.I|exact V1|lia|reflexivity|auto|].
        intros bs E. cbn [preimage] in E. injection E as <-. reflexivity.
Qed.

(** ** Topics *)

Lemma signature_ok : forall sg r (Q : outcome -> Prop) s l w,
  match sg with Some s => List.length s = 32%nat /\ Forall (fun b => 0 <= b < 256) s | None => True end ->
  (4 <= List.length l)%nat -> wok w -> (oom w (lenz (match sg with Some s => s | None => [] end)) -> Q OTrap) ->
  (forall l' w', List.length l' = List.length l -> (forall i, i <> 1%nat -> i <> 3%nat -> nth_error l' i = nth_error l i) ->
     nth_error l' 3 = Some (gnext w) -> appended w w' (match sg with Some s => s | None => [] end) -> wp r Q s l' w') ->
  wp (signature sg ++ r) Q s l w.
Proof.
  intros sg r Q s l w Ok Hl Hw T K. pose proof Hw as (P1&P2&P3&P4&P5&P6). destruct sg as [d|]; cbn [signature].
  - destruct Ok as [Ld Rd]. cbn [map seq List.concat app]. assert (L32 : lenz d = 32) by (unfold lenz; lia).
    set (c0 := firstn 8 (skipn (8 * 0) d)). set (c1 := firstn 8 (skipn (8 * 1) d)). set (c2 := firstn 8 (skipn (8 * 2) d)). set (c3 := firstn 8 (skipn (8 * 3) d)).
    assert (Ed : d = c0 ++ c1 ++ c2 ++ c3).
    { unfold c0, c1, c2, c3. clear - Ld. do 32 (destruct d as [|? d]; [discriminate Ld|]). destruct d; [reflexivity|discriminate Ld]. }
    assert (Lc : List.length c0 = 8%nat /\ List.length c1 = 8%nat /\ List.length c2 = 8%nat /\ List.length c3 = 8%nat).
    { unfold c0, c1, c2, c3. rewrite !firstn_length, !skipn_length. lia. }
    rewrite Ed in Rd. apply Forall_app in Rd. destruct Rd as [Rd0 Rd]. apply Forall_app in Rd. destruct Rd as [Rd1 Rd]. apply Forall_app in Rd. destruct Rd as [Rd2 Rd3].
    destruct Lc as (Lc0&Lc1&Lc2&Lc3).
    clearbody c0 c1 c2 c3.
    ws1. wcall alloc_spec; [exact Hw|lia|intros O; apply T; rewrite L32; exact O|]. intros rs w1 [-> Al]. wc.
    pose proof Al as (Hw1&Em&B1&B2&B3&B4&B5). pose proof Hw1 as (R1&R2&R3&R4&R5&R6). set (t := gnext w) in *.
    lt. ls.
    change (8 * Z.of_nat 0) with 0. change (8 * Z.of_nat 1) with 8. change (8 * Z.of_nat 2) with 16. change (8 * Z.of_nat 3) with 24.
    lg. ws1. apply wp_store; [lia|unfold page_size; change (Z.of_nat 8) with 8; lia|]. change (Z.of_nat 8) with 8.
    lg. ws1. apply wp_store; [lia|cbn [pages set_mem]; unfold page_size; change (Z.of_nat 8) with 8; lia|]. change (Z.of_nat 8) with 8.
    lg. ws1. apply wp_store; [lia|cbn [pages set_mem]; unfold page_size; change (Z.of_nat 8) with 8; lia|]. change (Z.of_nat 8) with 8.
    lg. ws1. apply wp_store; [lia|cbn [pages set_mem]; unfold page_size; change (Z.of_nat 8) with 8; lia|]. change (Z.of_nat 8) with 8.
    cbn [mem set_mem]. change (set_mem (set_mem ?a _) ?b) with (set_mem a b). change (set_mem (set_mem ?a _) ?b) with (set_mem a b). change (set_mem (set_mem ?a _) ?b) with (set_mem a b).
    set (m0 := store 8 (mem w1) (t + 0) (le_num c0)). set (m1 := store 8 m0 (t + 8) (le_num c1)). set (m2 := store 8 m1 (t + 16) (le_num c2)). set (m3 := store 8 m2 (t + 24) (le_num c3)).
    apply K.
    + rewrite !set_nth_length. reflexivity.
    + intros i H1 H3. rewrite !set_nth_other by lia. reflexivity.
    + apply set_nth_same. rewrite set_nth_length. lia.
    + unfold appended. fold t. cbn [gnext mem set_mem]. split; [|split; [lia|]].
      * apply (extends_write w w1 m3 t 32 Hw); [apply (alloc_extends _ _ _ Hw Al); lia| |fold t; lia|lia].
        intros x Hx. unfold within in Hx. unfold m3, m2, m1, m0. rewrite !rd_store_out by lia. reflexivity.
      * rewrite Ed. apply bytes_at_app. split; [|apply bytes_at_app; split; [|apply bytes_at_app; split]]; unfold lenz; rewrite ?Lc0, ?Lc1, ?Lc2; change (Z.of_nat 8) with 8.
        -- apply (bytes_at_ext m0); [|unfold m0; rewrite Z.add_0_r; apply store_le_num; assumption]. unfold lenz. rewrite Lc0. intros x Hx. change (Z.of_nat 8) with 8 in Hx. unfold m3. rewrite rd_store_out by lia. unfold m2. rewrite rd_store_out by lia. unfold m1. rewrite rd_store_out by lia. reflexivity.
        -- apply (bytes_at_ext m1); [|unfold m1; apply store_le_num; assumption]. unfold lenz. rewrite Lc1. intros x Hx. change (Z.of_nat 8) with 8 in Hx. unfold m3. rewrite rd_store_out by lia. unfold m2. rewrite rd_store_out by lia. reflexivity.
        -- replace (t + 8 + 8) with (t + 16) by lia. apply (bytes_at_ext m2); [|unfold m2; apply store_le_num; assumption]. unfold lenz. rewrite Lc2. intros x Hx. change (Z.of_nat 8) with 8 in Hx. unfold m3. rewrite rd_store_out by lia. reflexivity.
        -- replace (t + 8 + 8 + 8) with (t + 24) by lia. unfold m3. apply store_le_num; assumption.
  - cbn [app]. apply wp_pos; [exact Hw|exact T|]. intros w1 E1 G1 Em. ls. apply K.
    + apply set_nth_length.
    + intros. apply set_nth_other. lia.
    + apply set_nth_same. lia.
    + split; [exact E1|]. split; [unfold lenz; cbn [List.length]; lia|reflexivity].
Qed.

Definition same_top (l l' : list Z) : Prop :=
  List.length l' = List.length l /\ nth_error l' 0 = nth_error l 0 /\ nth_error l' 3 = nth_error l 3 /\ forall i, (7 <= i)%nat -> nth_error l' i = nth_error l i.
Lemma same_top_refl : forall l, same_top l l.
Proof. split; auto. Qed.
Lemma same_top_trans : forall a b c, same_top a b -> same_top b c -> same_top a c.
Proof. intros a b c (A1&A2&A3&A4) (B1&B2&B3&B4). repeat (split; [congruence|]). intros. rewrite B4, A4; auto. Qed.
Lemma same_top_set : forall i v l, (i = 1 \/ i = 2 \/ i = 4 \/ i = 5 \/ i = 6)%nat -> same_top l (set_nth i v l).
Proof. intros i v l H. split; [apply set_nth_length|]. split; [apply set_nth_other; lia|]. split; [apply set_nth_other; lia|]. intros. apply set_nth_other. lia. Qed.
Ltac stp := first [apply same_top_refl | eapply same_top_trans; [|apply same_top_set; lia]; stp].

(** Packing one simple value into a new word. *)
Lemma wp_topic_word : forall ep t x (pre : list instr) r (Q : outcome -> Prop) s l w v X F,
  (match t with AInt _ | AEnum _ => True | _ => False end) -> (x = 4 \/ x = 5)%nat -> (7 <= List.length l)%nat -> wok w -> abort_flag w = 0 -> wf_aty t ->
  vrep (mem w) (mty t) v X F -> sub F (heap w) ->
  (forall r (Q : outcome -> Prop) l1 w1, same_top l l1 -> nth_error l1 x = nth_error l x -> nth_error l1 4 = nth_error l 4 -> extends w w1 -> mem w1 = mem w ->
     (forall l2, same_top l1 l2 -> nth_error l2 1 = nth_error l1 1 -> nth_error l2 2 = nth_error l1 2 -> nth_error l2 x = Some X -> wp r Q s l2 w1) -> wp (pre ++ r) Q s l1 w1) ->
  (oom w 32 -> Q OTrap) ->
  (forall l' w', same_top l l' -> appended w w' (enc t v) -> wp r Q s l' w') ->
  wp (([ Const 32; Call alloc; LocalTee 1; LocalSet 2 ] ++ pre ++ pack_code ep t (propagate false) (propagate false) x 1 2) ++ r) Q s l w.
Proof.
  intros ep t x pre r Q s l w v X F St Hx Hl Hw Fl Wf V S KP T K. pose proof Hw as (P1&P2&P3&P4&P5&P6).
  assert (Hd : dynamic t = false /\ head_size t = 32) by (destruct t; try contradiction St; auto). destruct Hd as [Dt Hs].
  pose proof (vrep_has _ _ _ _ _ Wf V) as Hv.
  assert (L32 : lenz (enc t v) = 32) by (rewrite (static_len t v Hv Dt); exact Hs).
  rewrite <- !app_assoc. cbn [app]. ws1. wcall alloc_spec; [exact Hw|lia|exact T|]. intros rs w1 [-> Al]. wc.
  pose proof Al as (Hw1&Em&B1&B2&B3&B4&B5). pose proof Hw1 as (R1&R2&R3&R4&R5&R6). set (p := gnext w) in *.
  assert (E1 : extends w w1) by (apply (alloc_extends _ _ _ Hw Al); lia).
  lt. ls. apply KP; [stp|rewrite !set_nth_other by lia; reflexivity|rewrite !set_nth_other by lia; reflexivity|exact E1|exact Em|].
  intros l2 S2 N1 N2 Nx. rewrite set_nth_other, set_nth_same in N1 by lia. rewrite set_nth_same in N2 by (rewrite set_nth_length; lia).
  eapply (pack_all t ep _ _ x 1%nat 2%nat r Q s l2 w1 v X p p F);
    [apply skips_propagate|apply skips_propagate|exact Nx|exact N1|exact N2|exact Hw1| |exact Wf|rewrite Em; exact V| |lia|lia| | |lia|lia| |].
  - rewrite <- Fl. unfold abort_flag. rewrite Em. reflexivity.
  - eapply sub_trans; [exact S|]. unfold heap. fold p. apply between_sub; lia.
  - rewrite Hs. apply (zeroed_fresh _ _ _ Hw Al).
  - intros a Fa Ka. apply S in Fa. unfold heap, between in *. fold p in Fa. lia.
  - intros O. unfold tpart in O. rewrite Dt in O. apply T. eapply extends_oom; [exact E1|exact O|]. unfold lenz. cbn [List.length]. fold p. lia.
  - intros w2 Pk. unfold hpart, tpart in Pk. rewrite Dt in Pk. apply K.
    + eapply same_top_trans; [|exact S2]. stp.
    + eapply packs_appended; [exact Hw|rewrite L32; exact Al|exact Pk].
Qed.

Lemma topic_field_ok : forall ep t k r (Q : outcome -> Prop) s l w0 w v X G lo,
  indexed_ty t -> nth_error l 0 = Some X -> (12 + 2 * k <= List.length l)%nat -> wok w0 -> extends w0 w -> abort_flag w0 = 0 ->
  field_of (mem w0) (imty t) (vrep (mem w0) (imty t)) v (load 4 (mem w0) (X + 4 * Z.of_nat k)) G -> sub G (heap w0) ->
  468 <= X -> X + 4 * Z.of_nat k + 4 <= gnext w0 -> 468 <= lo -> has_preimage w lo l k t v ->
  (oom w 32 -> Q OTrap) ->
  (forall l' w', same_top l l' -> appended w w' (topic (keccak (host w0)) t v) -> lenz (topic (keccak (host w0)) t v) = 32 -> wp r Q s l' w') ->
  wp (topic_field ep k t ++ r) Q s l w.
Proof.
  intros ep t k r Q s l w0 w v X G lo Ht NX Hl Hw0 E0 Fl0 V SG HX HXk Hlo Hp T K.
  pose proof E0 as (Hw&M1&M2&M3&M4&M5&Ow). pose proof Hw as (J1&J2&J3&J4&J5&J6). pose proof Hw0 as (P1&P2&P3&P4&P5&P6).
  assert (Fl : abort_flag w = 0).
  { rewrite <- Fl0. unfold abort_flag. apply load_ext. change (Z.of_nat 4) with 4. intros. apply Ow. lia. }
  assert (Og : forall a, G a -> rd (mem w) a = rd (mem w0) a) by (intros a Fa; apply Ow; apply SG in Fa; unfold heap, between in Fa; lia).
  assert (SGw : sub G (heap w)) by (eapply sub_trans; [exact SG|]; unfold heap; apply between_sub; lia).
  unfold topic_field. rewrite <- !app_assoc. cbn [app]. eapply wp_lget; [exact NX|]. apply wp_load; [lia|unfold page_size; change (Z.of_nat 4) with 4; lia|].
  replace (load 4 (mem w) (X + 4 * Z.of_nat k)) with (load 4 (mem w0) (X + 4 * Z.of_nat k)).
  2:{ symmetry. apply load_ext. change (Z.of_nat 4) with 4. intros. apply Ow. lia. }
  set (q := load 4 (mem w0) (X + 4 * Z.of_nat k)) in *.
  assert (HASH : forall bs, preimage t v = Some bs -> topic (keccak (host w0)) t v = word (keccak (host w0) bs) ->
    wp (([ LocalGet (11 + 2 * k); LocalGet (10 + 2 * k); Bin I32 Sub; LocalSet 6; Const 32; Call alloc; LocalSet 1;
                LocalGet (10 + 2 * k); LocalGet 6; LocalGet 1; Host H_keccak ]) ++ r) Q s (set_nth 4 q l) w).
  { intros bs Ep Et. unfold has_preimage in Hp. rewrite Ep in Hp. destruct Hp as (p&N1&N2&Lo&Hi&Bs). pose proof (lenz_nonneg bs) as Ln.
    cbn [app]. eapply wp_lget; [rewrite set_nth_other by lia; exact N2|]. eapply wp_lget; [rewrite set_nth_other by lia; exact N1|].
    ws1. replace (p + lenz bs - p) with (lenz bs) by lia. ls.
    match goal with |- wp _ _ _ ?L _ => assert (SL : same_top l L) by stp; assert (N6 : nth_error L 6 = Some (lenz bs)) by (apply set_nth_same; rewrite set_nth_length; lia); remember L as l1 eqn:El1 end. clear El1.
    destruct SL as (SL1&SL0&SL3&SLi). rewrite <- SLi in N1 by lia.
    ws1. wcall alloc_spec; [exact Hw|lia|exact T|]. intros rs w1 [-> Al]. wc.
    pose proof Al as (Hw1&Em&B1&B2&B3&B4&B5). pose proof Hw1 as (R1&R2&R3&R4&R5&R6). set (tt := gnext w) in *.
    ls. eapply wp_lget; [rewrite !set_nth_other by lia; exact N1|]. eapply wp_lget; [rewrite !set_nth_other by lia; exact N6|]. lg.
    eapply wp_host. { cbn [hostcall]. rewrite !inb_true by (unfold page_size; lia). cbn [andb]. reflexivity. }
    replace (keccak (host w1) (bytes (Z.to_nat (lenz bs)) (mem w1) p)) with (keccak (host w0) bs).
    2:{ rewrite B5, M5, Em. unfold lenz. rewrite Nat2Z.id. unfold bytes_at in Bs. rewrite Bs. reflexivity. }
    apply K; [eapply same_top_trans; [split; [exact SL1|split; [exact SL0|split; [exact SL3|exact SLi]]]|stp]| |rewrite Et; apply lenz_word]. rewrite Et. unfold appended. fold tt. cbn [gnext mem set_mem]. rewrite lenz_word. split; [|split; [lia|apply bytes_hash]].
    apply (extends_write w w1 _ tt 32 Hw); [apply (alloc_extends _ _ _ Hw Al); lia| |fold tt; lia|lia].
    intros x Hx. unfold within in Hx. apply rd_store_be_out. lia. }
  destruct t as [|ta].
  - (* an ID *)
    cbn [imty is_stack app] in *. unfold field_of in V. cbn [is_stack] in V. ls.
    assert (Vi : vrep (mem w) (TStruct false [TAddress]) v q G) by (eapply vrep_ext; [exact Og|exact V]).
    pose proof (vrep_has (AStruct [AInt TAddress]) _ _ _ _ ltac:(cbn; lia) Vi) as Hid.
    cbn [vrep map] in Vi. destruct Vi as (o&vs&G'&->&->&S1&S2&D1&N).
    cbn [fields] in N. destruct vs as [|v vs]; [contradiction|]. destruct N as (F1&F2&Va&N&_&SF1&_). destruct vs as [|v' vs]; [|contradiction N].
    unfold field_of in Va. cbn [is_stack] in Va.
    destruct (sub_live q 4 G w) as [A1 A2]; [exact S1|exact SGw|lia|].
    assert (exists nn, v = VInt nn) as [nn ->] by (cbn [vrep] in Va; destruct Va as [[-> _] _]; eauto).
    change (Const 32 :: Call alloc :: LocalTee 1 :: LocalSet 2 :: LocalGet 4 :: Load 4 0 :: LocalSet 4 :: pack_code ep (AInt TAddress) (propagate false) (propagate false) 4 1 2 ++ r)
      with (([ Const 32; Call alloc; LocalTee 1; LocalSet 2 ] ++ [LocalGet 4; Load 4 0; LocalSet 4] ++ pack_code ep (AInt TAddress) (propagate false) (propagate false) 4 1 2) ++ r).
    eapply (wp_topic_word ep (AInt TAddress) 4 _ r Q s _ w (VInt nn) _ F1); [exact Logic.I|left; reflexivity|rewrite set_nth_length; lia|exact Hw|exact Fl|exact Logic.I|exact Va| | |exact T|].
    + eapply sub_trans; [exact SF1|]. eapply sub_trans; [exact S2|exact SGw].
    + intros r' Q' l1 w1 SS N4 _ E1 Em K'. pose proof E1 as ((R1&R2&R3&R4&R5&R6)&_&_&Ge&_). cbn [app]. destruct SS as [Sl _]. rewrite set_nth_length in Sl.
      rewrite set_nth_same in N4 by lia. eapply wp_lget; [exact N4|]. apply wp_load; [lia|unfold page_size; change (Z.of_nat 4) with 4; lia|].
      rewrite Z.add_0_r, Em. ls. apply K'; [stp|apply set_nth_other; lia|apply set_nth_other; lia|apply set_nth_same; lia].
    + intros l' w' S' Ap. cbn [enc] in Ap. apply K; [|exact Ap|apply lenz_word]. eapply same_top_trans; [|exact S']. stp.
  - cbn [imty indexed_ty] in *. destruct Ht as [Wa Hi].
    assert (NOPRE : forall x XX (l0 : list Z), nth_error l0 x = Some XX -> forall r (Q : outcome -> Prop) l1 w1, same_top l0 l1 -> nth_error l1 x = nth_error l0 x -> nth_error l1 4 = nth_error l0 4 -> extends w w1 -> mem w1 = mem w ->
      (forall l2, same_top l1 l2 -> nth_error l2 1 = nth_error l1 1 -> nth_error l2 2 = nth_error l1 2 -> nth_error l2 x = Some XX -> wp r Q s l2 w1) -> wp ([] ++ r) Q s l1 w1).
    { intros x XX l0 N0 r' Q' l1 w1 _ N1 _ _ _ K'. cbn [app]. apply K'; [apply same_top_refl|reflexivity|reflexivity|congruence]. }
    destruct ta as [t|n| |t|fs].
    + cbn [mty] in *. match goal with |- wp ((if _ then _ else _) ++ ?r') _ _ _ _ =>
        assert (KX : forall x l1, same_top l l1 -> nth_error l1 (val_local t) = Some x -> vrep (mem w) t v x G -> wp r' Q s l1 w) end.
      2:{ unfold field_of in V. destruct (is_stack t) eqn:Stk.
          - destruct V as [Sq Iv]. pose proof (esize_range t) as Hsz.
            destruct (sub_live q (Z.of_nat (esize t)) G w0) as [A3 A4]; [exact Sq|exact SG|lia|].
            cbn [app]. apply wp_load; [lia|unfold page_size; lia|]. rewrite Z.add_0_r.
            assert (Lv : (val_local t < List.length l)%nat) by (unfold val_local; destruct t; lia).
            apply wp_lset'; [exact Lv|]. eapply KX; [apply same_top_set; unfold val_local; destruct t; lia|apply set_nth_same; exact Lv|].
            apply stack_vrep; [exact Stk|].
            replace (load (esize t) (mem w) q) with (load (esize t) (mem w0) q); [exact Iv|]. symmetry. apply load_ext. intros; apply Ow; lia.
          - cbn [app]. assert (E : val_local t = 4%nat) by (destruct t; try discriminate; reflexivity).
            ls. eapply KX; [stp|rewrite E; apply set_nth_same; lia|]. eapply vrep_ext; [exact Og|exact V]. }
      intros x l1 S1 Nx Vx.
      match goal with |- wp ?c _ _ _ _ => change c with (([ Const 32; Call alloc; LocalTee 1; LocalSet 2 ] ++ [] ++ pack_code ep (AInt t) (propagate false) (propagate false) (val_local t) 1 2) ++ r) end.
      destruct (vrep_has (AInt t) _ _ _ _ Wa Vx) as (nn&->&_).
      eapply (wp_topic_word ep (AInt t) (val_local t) [] r Q s l1 w (VInt nn) x G); [exact Logic.I|unfold val_local; destruct t; lia|destruct S1 as [S1 _]; lia|exact Hw|exact Fl|exact Wa|exact Vx|exact SGw|exact (NOPRE _ _ _ Nx)|exact T|].
      intros l' w' S' Ap. cbn [enc] in Ap. apply K; [|exact Ap|apply lenz_word]. eapply same_top_trans; eauto.
    + cbn [mty is_stack app] in *. unfold field_of in V. cbn [is_stack] in V. ls.
      assert (Vi : vrep (mem w) (mty (AEnum n)) v q G) by (eapply vrep_ext; [exact Og|exact V]).
      match goal with |- wp ?c _ _ _ _ => change c with (([ Const 32; Call alloc; LocalTee 1; LocalSet 2 ] ++ [] ++ pack_code ep (AEnum n) (propagate false) (propagate false) 4 1 2) ++ r) end.
      destruct (vrep_has (AEnum n) _ _ _ _ Wa Vi) as (tag&->&_).
      eapply (wp_topic_word ep (AEnum n) 4 [] r Q s _ w (VEnum tag []) q G); [exact Logic.I|left; reflexivity|rewrite set_nth_length; lia|exact Hw|exact Fl|exact Wa|exact Vi|exact SGw| |exact T|].
      * apply NOPRE. apply set_nth_same. lia.
      * intros l' w' S' Ap. cbn [enc] in Ap. apply K; [|exact Ap|apply lenz_word]. eapply same_top_trans; [|exact S']. stp.
    + cbn [mty is_stack app] in *. unfold field_of in V. cbn [is_stack] in V. destruct (vrep_has AString _ _ _ _ Wa V) as (bs&->&_).
      ls. eapply HASH; reflexivity.
    + cbn [mty is_stack app] in *. destruct (vrep_has (AVec t) _ _ _ _ Wa V) as (bs&->&_). ls. eapply HASH; reflexivity.
    + cbn [mty is_stack app] in *. destruct (vrep_has (AStruct fs) _ _ _ _ Wa V) as (bs&->&_). ls. eapply HASH; reflexivity.
Qed.

Lemma topic_fields_ok : forall ep ts, Forall indexed_ty ts ->
  forall k r (Q : outcome -> Prop) s l w0 w vs X G F lo, nth_error l 0 = Some X -> (10 + 2 * k + 2 * List.length ts <= List.length l)%nat -> wok w0 -> extends w0 w ->
  abort_flag w0 = 0 -> fields (map (fun t' => field_of (mem w0) t' (vrep (mem w0) t')) (map imty ts)) (mem w0) vs (X + 4 * Z.of_nat k) G -> sub G F ->
  (ts = [] \/ 468 <= X) -> sub (between (X + 4 * Z.of_nat k) (X + 4 * Z.of_nat k + 4 * Z.of_nat (List.length ts))) F -> sub F (heap w0) ->
  468 <= lo -> stored w lo l k ts vs -> (oom w (32 * lenz ts) -> Q OTrap) ->
  (forall l' w', same_top l l' -> appended w w' (List.concat (zip_with (topic (keccak (host w0))) ts vs)) ->
     lenz (List.concat (zip_with (topic (keccak (host w0))) ts vs)) = 32 * lenz ts -> wp r Q s l' w') ->
  wp (topic_fields ep k ts ++ r) Q s l w.
Proof.
  intros ep. induction 1 as [|t ts Ht H IH]; intros k r Q s l w0 w vs X G F lo NX Hl Hw0 E0 Fl V SG HX SX SF Hlo St T K.
  - cbn [map topic_fields fields app zip_with List.concat] in *. destruct vs; [|contradiction]. pose proof E0 as (Hw&_).
    apply K; [apply same_top_refl|apply appended_nil; exact Hw|reflexivity].
  - cbn [map fields] in V. destruct vs as [|v vs]; [contradiction|]. destruct V as (F1&F2&V1&V2&_&SF1&SF2).
    assert (HX' : 468 <= X) by (destruct HX as [HX|HX]; [discriminate HX|exact HX]). clear HX. rename HX' into HX.
    cbn [List.length] in SX, Hl. cbn [stored] in St. destruct St as [St1 St2].
    assert (Lt : lenz (t :: ts) = 1 + lenz ts) by (unfold lenz; cbn [List.length]; lia). rewrite Lt in *. pose proof (lenz_nonneg ts) as Ln.
    pose proof E0 as (Hw&M1&M2&M3&M4&M5&Ow). pose proof Hw as (J1&J2&J3&J4&J5&J6). pose proof Hw0 as (P1&P2&P3&P4&P5&P6).
    destruct (sub_live (X + 4 * Z.of_nat k) 4 F w0) as [A1 A2]; [eapply sub_trans; [|exact SX]; apply between_sub; lia|exact SF|lia|].
    cbn [topic_fields]. rewrite <- app_assoc.
    eapply (topic_field_ok ep t k _ Q s l w0 w v X F1 lo); try assumption.
    + lia.
    + eapply sub_trans; [exact SF1|]. eapply sub_trans; eauto.
    + intros O. apply T. eapply oom_mono; [exact O|lia].
    + intros l1 w1 S1 Ap1 L1. pose proof S1 as (S1l&S10&_&S1i). pose proof Ap1 as (E1&G1&_).
      eapply (IH (Datatypes.S k) r Q s l1 w0 w1 vs X F2 F lo); try assumption; try (right; exact HX).
      * congruence.
      * lia.
      * eapply extends_trans; eauto.
      * replace (X + 4 * Z.of_nat (Datatypes.S k)) with (X + 4 * Z.of_nat k + 4) by lia. exact V2.
      * eapply sub_trans; eauto.
      * eapply sub_trans; [|exact SX]. apply between_sub; lia.
      * eapply stored_ext; [|exact E1| |exact St2]; [lia|]. intros. apply S1i. lia.
      * intros O. apply T. eapply extends_oom; [exact E1|exact O|lia].
      * intros l2 w2 S2 Ap2 L2. cbn [zip_with List.concat] in K. apply K.
        -- eapply same_top_trans; eauto.
        -- eapply appended_app; eauto.
        -- rewrite lenz_app. lia.
Qed.
