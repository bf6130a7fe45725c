(** * ABI encoding: runtime/packing/{string,vector,structs}.rs, abi_types/packing.rs, and the size
      computations of translation/intermediate_types/structs.rs. *)

From Verif Require Import Tac RtAlloc RtErr RtEq RtDiv RtShift RtSwap RtAscii Ops SpecVal LemVal SpecAbi LemAbi RtCopy SpecSol RtAbi.
Ltac Zify.zify_post_hook ::= idtac.

(** abi_types/packing.rs 513-543 [is_dynamic], structs.rs 236-279 [solidity_abi_encode_is_dynamic]
    (the string type is a struct whose only field is a vector). *)
Fixpoint is_dynamic (t : aty) : bool :=
  match t with
  | AInt _ => false
  | AEnum _ => false
  | AString => true
  | AVec _ => true
  | AStruct fs => existsb is_dynamic fs
  end.

(** abi_types/packing.rs 463-511 [encoded_size], structs.rs 282-327 [solidity_abi_encode_size]. *)
Fixpoint encoded_size (t : aty) : Z :=
  match t with
  | AInt _ | AEnum _ => 32
  | AString => 32
  | AVec _ => 32
  | AStruct fs => fold_right Z.add 0 (map (fun f => match f with
                    | AStruct _ | AString => if is_dynamic f then 32 else encoded_size f
                    | _ => encoded_size f
                    end) fs)
  end.

(** The 32 bytes of a dynamic value's offset or the size of a static one: packing.rs 128-132,
    runtime/packing/vector.rs 59-63, runtime/packing/structs.rs 179-225 ([advancement]). *)
Definition slot_size (t : aty) : Z := if is_dynamic t then 32 else encoded_size t.

(** runtime/packing/string.rs 29-139.  Locals: 0 string_pointer, 1 writer_pointer,
    2 calldata_reference_pointer, 3 data_pointer, 4 vector_pointer, 5 len, 6 reference_value. *)
Definition pack_string : func := Func 3 4 0
 [ LocalGet 0; Load 4 0; LocalSet 4; LocalGet 4; Load 4 0; LocalSet 5;
   LocalGet 5; Const 31; Bin I32 Add; Const 4294967264; Bin I32 And; Const 32; Bin I32 Add; Call alloc; LocalSet 3;
   LocalGet 3; LocalGet 2; Bin I32 Sub; LocalSet 6;
   LocalGet 6; LocalGet 1; Call pack_u32;
   LocalGet 4; Const 8; Bin I32 Add; LocalSet 4;
   LocalGet 5; LocalGet 3; Call pack_u32;
   LocalGet 3; Const 32; Bin I32 Add; LocalSet 3;
   LocalGet 3; LocalGet 4; LocalGet 5; MemCopy ].

(** runtime/packing/vector.rs 25-201: elements of memory size [esz], head size [hs], packed by [pk].
    Locals: 0 vector_pointer, 1 writer_pointer, 2 calldata_reference_pointer, 3 data_pointer,
    4 inner_data_reference, 5 len, 6 reference_value, 7 i, 8 inner_local. *)
Definition pack_vector (esz : nat) (hs : Z) (pk : list instr) : func := Func 3 6 0
 [ LocalGet 0; Load 4 0; LocalSet 5;
   LocalGet 5; Const hs; Bin I32 Mul; Const 32; Bin I32 Add; Call alloc; LocalTee 3;
   LocalGet 2; Bin I32 Sub; LocalSet 6;
   LocalGet 6; LocalGet 1; Call pack_u32;
   LocalGet 0; Const 8; Bin I32 Add; LocalSet 0;
   LocalGet 5; LocalGet 3; Call pack_u32;
   LocalGet 3; Const 32; Bin I32 Add; LocalTee 3; LocalSet 4;
   Block "outer" 0
   ([ LocalGet 5; Const 0; Bin I32 Eq; BrIf "outer"; Const 0; LocalSet 7;
      Loop "loop" 0
      ([ LocalGet 0; Load esz 0; LocalSet 8 ] ++ pk ++
       [ LocalGet 0; Const (Z.of_nat esz); Bin I32 Add; LocalSet 0;
         LocalGet 3; Const hs; Bin I32 Add; LocalSet 3;
         LocalGet 7; Const 1; Bin I32 Add; LocalTee 7; LocalGet 5; Bin I32 LtU; BrIf "loop" ]) ]) ].

(** runtime/packing/structs.rs 34-254, for structs that are not events.  A field is given by its Move
    type, its head size and its packing code.  Locals: 0 struct_pointer, 1 writer_pointer,
    2 calldata_reference_pointer, 3 is_nested, 4 val_32, 5 val_64, 6 reference_value, 7 data_ptr,
    8 inner_data_reference. *)
Definition val_local (t : ty) : nat := match t with TU64 => 5 | _ => 4 end.
Fixpoint pack_fields (i : Z) (fs : list (ty * Z * list instr)) : list instr :=
  match fs with
  | [] => []
  | (t, adv, pk) :: fs =>
      [ LocalGet 0; Load 4 (4 * i) ] ++
      (if is_stack t then [ Load (esize t) 0; LocalSet (val_local t) ] else [ LocalSet 4 ]) ++
      Block "nested" 0 [ LocalGet 3; BrIf "nested"; LocalGet 2; LocalSet 8 ] ::
      pk ++ [ Const adv; LocalGet 7; Bin I32 Add; LocalSet 7 ] ++ pack_fields (i + 1) fs
  end.
Definition pack_struct (size : Z) (fs : list (ty * Z * list instr)) : func := Func 4 5 0
 ([ LocalGet 3;
    If 0 [ Const size; Call alloc; LocalTee 7; LocalTee 8; LocalGet 2; Bin I32 Sub; LocalSet 6;
           LocalGet 6; LocalGet 1; Call pack_u32 ]
         [ LocalGet 1; LocalSet 7 ] ] ++ pack_fields 0 fs).

(** abi_types/packing.rs 224-373 [add_pack_instructions] and 375-461 [add_pack_instructions_dynamic],
    selected by [is_dynamic] as all callers do.  [x], [wr], [rf] are the locals holding the value, the
    writer pointer and the reference pointer; [pv] and [ps] the error propagation code after a call of
    the vector and of the struct or enum functions.  References are in RtAbiRef.v. *)
Definition pack_int (t : ty) : func :=
  match t with TU64 => pack_u64 | TU128 => pack_u128 | TU256 => pack_u256 | TAddress => pack_address | _ => pack_u32 end.
Fixpoint pack_code (ep : errtab) (t : aty) (pv ps : list instr) (x wr rf : nat) {struct t} : list instr :=
  let pr := propagate false in
  match t with
  | AInt t => [ LocalGet x; LocalGet wr; Call (pack_int t) ]
  | AEnum _ => [ LocalGet x; LocalGet wr; Call (pack_enum ep) ] ++ ps
  | AString => [ LocalGet x; LocalGet wr; LocalGet rf; Call pack_string ]
  | AVec t => [ LocalGet x; LocalGet wr; LocalGet rf;
                Call (pack_vector (esize (mty t)) (slot_size t) (pack_code ep t pr pr 8 3 4)) ] ++ pv
  | AStruct fs => [ LocalGet x; LocalGet wr; LocalGet rf; Const (if is_dynamic (AStruct fs) then 1 else 0);
                    Call (pack_struct (encoded_size (AStruct fs))
                      (map (fun f => (mty f, slot_size f, pack_code ep f pr pr (val_local (mty f)) 7 8)) fs)) ] ++ ps
  end.

(** abi_types/packing.rs 108-210 [build_pack_instructions] as a function of the values to be encoded.
    Locals: the values, then [pointer], [len], [writer_pointer], [calldata_reference_pointer]. *)
Fixpoint pack_values (ep : errtab) (pv ps : list instr) (i n : nat) (ts : list aty) : list instr :=
  match ts with
  | [] => []
  | t :: ts => [ LocalGet n; LocalSet (n + 3) ] ++ pack_code ep t pv ps i (n + 2) (n + 3) ++
      [ LocalGet (n + 2); Const (slot_size t); Bin I32 Add; LocalSet (n + 2) ] ++ pack_values ep pv ps (S i) n ts
  end.
Definition build_pack (ep : errtab) (pv ps : list instr) (ts : list aty) : func :=
  let n := List.length ts in
  Func n 4 2
   ([ Const (fold_right Z.add 0 (map slot_size ts)); Call alloc; LocalTee n; LocalSet (n + 2) ] ++
    pack_values ep pv ps 0 n ts ++
    [ Const 0; Call alloc; LocalGet n; Bin I32 Sub; LocalSet (n + 1); LocalGet n; LocalGet (n + 1) ]).

(** ** Sizes *)

Lemma aty_rec' : forall P : aty -> Prop,
  (forall t, P (AInt t)) -> (forall n, P (AEnum n)) -> P AString -> (forall t, P t -> P (AVec t)) ->
  (forall fs, Forall P fs -> P (AStruct fs)) -> forall t, P t.
Proof.
  intros P H1 H2 H3 H4 H5. fix IH 1. intros [t|n| |t|fs]; [apply H1|apply H2|apply H3|apply H4, IH|].
  apply H5. induction fs as [|f fs IHf]; constructor; [apply IH|exact IHf].
Qed.

Lemma is_dynamic_eq : forall t, is_dynamic t = dynamic t.
Proof. reflexivity. Qed.

Lemma existsb_dynamic_eq : forall fs, existsb is_dynamic fs = existsb dynamic fs.
Proof. induction fs; cbn [existsb]; [reflexivity|]. rewrite is_dynamic_eq, IHfs. reflexivity. Qed.

Lemma slot_size_eq : forall t, slot_size t = head_size t.
Proof.
  refine (aty_rec' _ _ _ _ _ _); try reflexivity. intros fs H. unfold slot_size. cbn [is_dynamic encoded_size head_size].
  rewrite existsb_dynamic_eq. destruct (existsb dynamic fs) eqn:E; [reflexivity|].
  induction H as [|f fs Hf H IH]; [reflexivity|]. cbn [existsb] in E. apply orb_false_iff in E. destruct E as [E1 E2].
  cbn [map fold_right]. rewrite IH by exact E2. f_equal. unfold slot_size in Hf. rewrite is_dynamic_eq, E1 in Hf.
  destruct f; auto; rewrite is_dynamic_eq, E1; exact Hf.
Qed.

Lemma encoded_size_eq : forall fs, encoded_size (AStruct fs) = fold_right Z.add 0 (map head_size fs).
Proof.
  induction fs as [|f fs IH]; [reflexivity|]. cbn [encoded_size map fold_right] in *. rewrite IH. f_equal.
  rewrite <- slot_size_eq. unfold slot_size. destruct f; reflexivity.
Qed.

Lemma head_size_nonneg : forall t, 0 <= head_size t.
Proof.
  refine (aty_rec' _ _ _ _ _ _); cbn [head_size]; try lia. intros fs H. destruct (existsb dynamic fs); [lia|].
  induction H; cbn [map fold_right]; lia.
Qed.

(** ** Shape of encodings *)

Lemma lenz_app : forall {A} (l k : list A), lenz (l ++ k) = lenz l + lenz k.
Proof. intros. unfold lenz. rewrite app_length. lia. Qed.
Lemma lenz_nonneg : forall {A} (l : list A), 0 <= lenz l.
Proof. intros. unfold lenz. lia. Qed.
Lemma lenz_word : forall v, lenz (word v) = 32.
Proof. intros. unfold lenz, word. rewrite be_bytes_length. reflexivity. Qed.

Definition hpart (t : aty) (off : Z) (v : val) : list Z := if dynamic t then word off else enc t v.
Definition tpart (t : aty) (v : val) : list Z := if dynamic t then enc t v else [].

Lemma heads_len : forall ps off, lenz (heads off ps) = head_lens ps.
Proof.
  induction ps as [|[[|] e] ps IH]; intros off; cbn [heads]; [reflexivity| |]; rewrite lenz_app, IH; unfold head_lens; cbn [map fold_right head_len fst snd].
  - rewrite lenz_word. reflexivity.
  - reflexivity.
Qed.

Lemma tails_static : forall ps, Forall (fun p : part => fst p = false) ps -> tails ps = [].
Proof. unfold tails. induction 1 as [|[b e] ps H]; cbn [map List.concat fst] in *; [reflexivity|]. subst b. exact IHForall. Qed.

Lemma enc_struct : forall fs o vs, enc (AStruct fs) (VStruct o vs) = tuple (field_parts fs vs).
Proof. reflexivity. Qed.

Lemma static_len : forall t v, has_aty t v -> dynamic t = false -> lenz (enc t v) = head_size t.
Proof.
  refine (aty_rec' _ _ _ _ _ _); try (cbn [dynamic]; discriminate).
  - intros t v (n&->&_) _. cbn [enc head_size]. apply lenz_word.
  - intros n v (tag&->&_) _. cbn [enc head_size]. apply lenz_word.
  - intros fs H v (vs&->&Hv) D. rewrite enc_struct. cbn [dynamic] in D. unfold tuple. rewrite lenz_app, heads_len.
    cbn [head_size]. rewrite D.
    assert (E : head_lens (field_parts fs vs) = fold_right Z.add 0 (map head_size fs) /\ Forall (fun p : part => fst p = false) (field_parts fs vs)).
    { clear - H D Hv. revert vs Hv D. induction H as [|f fs Hf H IH]; intros [|v vs] Hv D; cbn [map all_fields] in Hv; try contradiction; [split; [reflexivity|constructor]|].
      destruct Hv as [V1 V2]. cbn [existsb] in D. apply orb_false_iff in D. destruct D as [D1 D2].
      destruct (IH vs V2 D2) as [E1 E2]. unfold field_parts, head_lens in *. cbn [map zip_with fold_right] in *. split.
      - rewrite E1. f_equal. unfold head_len. cbn [fst snd]. rewrite D1. apply Hf; assumption.
      - constructor; [exact D1|exact E2]. }
    destruct E as [-> E2]. rewrite (tails_static _ E2). cbn. lia.
Qed.

Lemma hpart_len : forall t off v, has_aty t v -> lenz (hpart t off v) = head_size t.
Proof.
  intros t off v H. unfold hpart. destruct (dynamic t) eqn:D; [|apply static_len; assumption].
  rewrite lenz_word. destruct t; cbn [dynamic head_size] in *; try discriminate; try reflexivity. rewrite D. reflexivity.
Qed.

(** Values in memory are well typed. *)
Lemma fields_nil : forall m vs a F, fields [] m vs a F -> vs = [].
Proof. intros m [|v vs] a F H; cbn [fields] in H; tauto. Qed.

Lemma elems_ints : forall m vs a F, elems (vrep m TU8) 1 m vs a F ->
  vs = map VInt (map int_of vs) /\ map int_of vs = bytes (List.length vs) m a.
Proof.
  induction vs as [|v vs IH]; intros a F; cbn [elems map bytes List.length]; [auto|].
  intros (F1&F2&[-> A]&B&_). destruct (IH _ _ B) as [E1 E2]. cbn [int_of]. change (Z.of_nat 1) with 1 in *. split.
  - f_equal. exact E1.
  - f_equal; [|exact E2]. cbn [load]. lia.
Qed.

Lemma vrep_has : forall t m v x F, wf_aty t -> vrep m (mty t) v x F -> has_aty t v.
Proof.
  refine (aty_rec' _ _ _ _ _ _).
  - intros t m v x F W V. cbn [mty wf_aty has_aty] in *.
    destruct t; try (exfalso; exact W); cbn [vrep] in V; first [exact (ex_intro _ _ V)|exact (ex_intro _ _ (proj1 V))].
  - intros n m v x F W V. cbn [mty vrep] in V. destruct V as (tag&vs&G&->&L&S1&S2&D&N).
    destruct (nth_error _ tag) as [Rs|] eqn:E in N; [|contradiction].
    destruct (nth_error_map2 _ (fun _ => []) _ _ _ E) as (fs&E1&->&_).
    assert (fs = []) by (apply nth_error_In in E1; apply repeat_spec in E1; exact E1). subst fs.
    cbn [map] in N. apply fields_nil in N. subst vs. exists tag. split; [reflexivity|].
    assert (T : nth_error (repeat (@nil ty) n) tag <> None) by (rewrite E1; discriminate).
    apply nth_error_Some in T. rewrite repeat_length in T. exact T.
  - intros m v x F W V. cbn [mty] in V. cbn [vrep map] in V. destruct V as (o&vs&G&->&->&S1&S2&D&N).
    cbn [fields] in N. destruct vs as [|v vs]; [contradiction|]. destruct N as (F1&F2&V&N&_). destruct vs as [|v' vs]; [|contradiction N].
    unfold field_of in V. cbn [is_stack] in V. cbn [vrep] in V. destruct V as (vs&cap&G'&->&_&_&_&_&_&_&_&EL).
    cbn [esize] in EL. destruct (elems_ints _ _ _ _ EL) as [E1 E2]. exists (map int_of vs). rewrite <- E1. split; [reflexivity|].
    rewrite E2. apply Forall_forall. intros b Hb. eapply bytes_range; eauto.
  - intros t IH m v x F W V. cbn [mty vrep] in V. destruct V as (vs&cap&G&->&_&_&_&_&_&_&_&EL). exists vs. split; [reflexivity|].
    cbn [wf_aty] in W. remember (x + 8) as a eqn:Ea. clear Ea. revert a G EL. induction vs as [|v vs IHv]; intros a G EL; constructor.
    + cbn [elems] in EL. destruct EL as (F1&F2&A&_). eapply IH; eauto.
    + cbn [elems] in EL. destruct EL as (F1&F2&_&B&_). eapply IHv; eauto.
  - intros fs H m v x F [_ W] V. cbn [mty] in V. cbn [vrep] in V. destruct V as (o&vs&G&->&->&S1&S2&D&N). clear S1 S2 D F.
    exists vs. split; [reflexivity|]. revert x vs G N W. induction H as [|f fs Hf H IH]; intros x [|v vs] G N W; cbn [map fields all_fields] in *; try tauto.
    destruct N as (F1&F2&A&B&_). destruct W as [W1 W2]. split; [|eapply IH; eauto].
    unfold field_of in A. destruct (is_stack (mty f)) eqn:St; [|eapply Hf; eauto].
    destruct f; cbn [mty is_stack] in St; try discriminate. destruct A as [_ A]. cbn [has_aty mty]. eauto.
Qed.

(** ** What packing a value does *)

Lemma app_inj_length : forall {A} (l l' k k' : list A), List.length l = List.length l' -> l ++ k = l' ++ k' -> l = l' /\ k = k'.
Proof.
  induction l as [|x l IH]; intros [|y l'] k k' L E; cbn [List.length] in L; try discriminate; [auto|].
  cbn [app] in E. injection E as -> E. apply IH in E; [|lia]. destruct E; subst; auto.
Qed.

Lemma bytes_at_app : forall m a l k, bytes_at m a (l ++ k) <-> bytes_at m a l /\ bytes_at m (a + lenz l) k.
Proof.
  unfold bytes_at, lenz. intros. rewrite app_length, bytes_app. split.
  - intros E. apply app_inj_length in E; [exact E|apply bytes_length].
  - intros [-> ->]. reflexivity.
Qed.

Lemma bytes_at_ext : forall m m' a l, (forall x, a <= x < a + lenz l -> rd m' x = rd m x) -> bytes_at m a l -> bytes_at m' a l.
Proof.
  unfold bytes_at, lenz. intros m m' a l H E. rewrite <- E at 2. apply bytes_ext. intros. apply H. lia.
Qed.

(** The head [hd] was written at [wr], the tail [tl] in freshly allocated memory; nothing else changed. *)
Definition packs (w w' : world) (wr : Z) (hd tl : list Z) : Prop :=
  wok w' /\ maxpages w' = maxpages w /\ pages w <= pages w' /\ gcd w' = gcd w /\ host w' = host w /\
  gnext w' = gnext w + lenz tl /\ bytes_at (mem w') wr hd /\ bytes_at (mem w') (gnext w) tl /\
  (forall a, 0 <= a < gnext w -> ~ within wr (lenz hd) a -> rd (mem w') a = rd (mem w) a).

(** A block of heads at [B] of [n] bytes, the parts [ps] already packed. *)
Definition built (w wi : world) (B n R : Z) (ps : list part) : Prop :=
  wok wi /\ maxpages wi = maxpages w /\ pages w <= pages wi /\ gcd wi = gcd w /\ host wi = host w /\
  gnext wi = gnext w + lenz (tails ps) /\ bytes_at (mem wi) B (heads (gnext w - R) ps) /\ bytes_at (mem wi) (gnext w) (tails ps) /\
  zeroed wi (B + head_lens ps) (n - head_lens ps) /\
  (forall a, 0 <= a < gnext w -> ~ within B n a -> rd (mem wi) a = rd (mem w) a).

Lemma head_lens_nonneg : forall ps, 0 <= head_lens ps.
Proof.
  unfold head_lens. induction ps as [|[[|] e] ps IH]; cbn [map fold_right head_len fst snd]; lia.
Qed.
Lemma head_lens_app : forall ps qs, head_lens (ps ++ qs) = head_lens ps + head_lens qs.
Proof. unfold head_lens. induction ps as [|p ps IH]; intros; cbn [map fold_right app]; [lia|]. rewrite IH. lia. Qed.
Lemma tails_app : forall ps qs, tails (ps ++ qs) = tails ps ++ tails qs.
Proof. intros. unfold tails. rewrite map_app, concat_app. reflexivity. Qed.
Lemma heads_app : forall ps off qs, heads off (ps ++ qs) = heads off ps ++ heads (off + lenz (tails ps)) qs.
Proof.
  induction ps as [|[[|] e] ps IH]; intros off qs; cbn [heads app].
  - f_equal. cbn. lia.
  - rewrite IH, app_assoc. do 2 f_equal. unfold tails. cbn [map List.concat fst snd]. rewrite lenz_app. unfold lenz. lia.
  - rewrite IH, app_assoc. do 2 f_equal.
Qed.

Lemma built_nil : forall w B n R, wok w -> zeroed w B n -> built w w B n R [].
Proof.
  intros w B n R Hw Z. unfold built, bytes_at, tails, head_lens, lenz. cbn [map List.concat fold_right heads List.length bytes].
  repeat (split; [first [assumption|reflexivity|lia]|]). rewrite Z.add_0_r, Z.sub_0_r. auto.
Qed.

Lemma built_step : forall w wi w' B n R ps d e, built w wi B n R ps -> 0 <= B -> B + n <= gnext w ->
  head_lens ps + head_len (d, e) <= n ->
  packs wi w' (B + head_lens ps) (if d then word (gnext wi - R) else e) (if d then e else []) ->
  built w w' B n R (ps ++ [(d, e)]).
Proof.
  intros w wi w' B n R ps d e (A1&A2&A3&A4&A5&A6&A7&A8&A9&A10) HB Hn Hl (C1&C2&C3&C4&C5&C6&C7&C8&C9).
  pose proof (head_lens_nonneg ps) as N1. pose proof (lenz_nonneg (tails ps)) as N2.
  assert (E1 : tails (ps ++ [(d, e)]) = tails ps ++ (if d then e else [])).
  { rewrite tails_app. f_equal. unfold tails. cbn [map List.concat fst snd]. rewrite app_nil_r. reflexivity. }
  assert (E2 : heads (gnext w - R) (ps ++ [(d, e)]) = heads (gnext w - R) ps ++ (if d then word (gnext wi - R) else e)).
  { rewrite heads_app. f_equal. destruct d; cbn [heads]; rewrite app_nil_r; [|reflexivity]. f_equal. lia. }
  assert (E3 : head_lens (ps ++ [(d, e)]) = head_lens ps + head_len (d, e)).
  { rewrite head_lens_app. unfold head_lens at 2. cbn [map fold_right]. lia. }
  assert (E4 : lenz (if d then word (gnext wi - R) else e) = head_len (d, e)).
  { destruct d; [apply lenz_word|reflexivity]. }
  assert (N3 : 0 <= head_len (d, e)) by (rewrite <- E4; apply lenz_nonneg).
  rewrite E4 in C9. unfold built. rewrite E1, E2, E3, lenz_app.
  split; [exact C1|]. repeat (split; [first [congruence|lia]|]). split; [|split; [|split]].
  - apply bytes_at_app. rewrite heads_len. split; [|exact C7]. eapply bytes_at_ext; [|exact A7].
    rewrite heads_len. intros x Hx. apply C9; unfold within; lia.
  - apply bytes_at_app. rewrite <- A6. split; [|exact C8]. eapply bytes_at_ext; [|exact A8].
    intros x Hx. apply C9; unfold within; lia.
  - intros x Hx. rewrite C9 by (unfold within; lia). apply A9. lia.
  - intros x Hx Nx. rewrite C9; [apply A10; assumption|lia|unfold within in *; lia].
Qed.


(** ** The packing code *)

Definition skips (p : list instr) : Prop := forall r (Q : outcome -> Prop) s l w,
  wok w -> abort_flag w = 0 -> wp r Q s l w -> wp (p ++ r) Q s l w.

Lemma skips_propagate : forall rt, skips (propagate rt).
Proof. intros rt r Q s l w. apply wp_propagate_ok. Qed.

Lemma packs_flag : forall w w' wr hd tl, wok w -> packs w w' wr hd tl -> 468 <= wr -> abort_flag w' = abort_flag w.
Proof.
  intros w w' wr hd tl Hw (_&_&_&_&_&_&_&_&F) H. unfold abort_flag. apply load_ext. intros. unfold wok in Hw.
  apply F; unfold within; lia.
Qed.

Lemma packs_word : forall w m wr n, wok w -> 468 <= wr -> wr + 32 <= gnext w -> bytes 32 m wr = word n ->
  (forall x, ~ within wr 32 x -> rd m x = rd (mem w) x) -> packs w (set_mem w m) wr (word n) [].
Proof.
  intros w m wr n Hw H1 H2 B F. unfold packs. cbn [mem pages maxpages gcd host gnext set_mem].
  split; [eapply wok_frame; [exact Hw|apply frame_set_mem; exact F|unfold within; intros; lia]|].
  repeat (split; [first [reflexivity|lia|unfold lenz; cbn [List.length]; lia]|]).
  split; [unfold bytes_at, word; rewrite be_bytes_length; exact B|]. split; [reflexivity|].
  intros a Ha. rewrite lenz_word. apply F.
Qed.

(** Calling a function that writes one word. *)
Lemma wp_writes_word : forall f nl b r (Q : outcome -> Prop) s l w x wr n, f = Func 2 nl 0 b ->
  wok w -> 468 <= wr -> wr + 32 <= gnext w -> writes_word f [x; wr] w wr n ->
  (forall w', packs w w' wr (word n) [] -> gnext w' = gnext w -> pages w' = pages w ->
      (forall a, ~ within wr 32 a -> rd (mem w') a = rd (mem w) a) -> wp r Q s l w') ->
  wp (Call f :: r) Q (wr :: x :: s) l w.
Proof.
  intros f nl b r Q s l w x wr n E Hw H1 H2 (m&R&B&F) K.
  eapply wp_call; [exact E|cbn [List.length]; lia|]. cbn [rev firstn app].
  eapply returns_wpf; [exact R|]. cbn [skipn app]. apply K; [|reflexivity|reflexivity|exact F]. apply packs_word; auto.
Qed.

Definition pack_ok (t : aty) : Prop := forall ep pv ps x wr rf r (Q : outcome -> Prop) s l w v X W R F,
  skips pv -> skips ps -> nth_error l x = Some X -> nth_error l wr = Some W -> nth_error l rf = Some R ->
  wok w -> abort_flag w = 0 -> wf_aty t -> vrep (mem w) (mty t) v X F -> sub F (heap w) ->
  468 <= W -> W + head_size t <= gnext w -> zeroed w W (head_size t) -> disj F (between W (W + head_size t)) ->
  0 <= R <= gnext w -> lenz (enc t v) < 2147483648 ->
  (oom w (lenz (tpart t v)) -> Q OTrap) ->
  (forall w', packs w w' W (hpart t (gnext w - R) v) (tpart t v) -> wp r Q s l w') ->
  wp (pack_code ep t pv ps x wr rf ++ r) Q s l w.

Lemma pack_int_word : forall t w v X W F, scalar t -> wok w -> vrep (mem w) t v X F -> sub F (heap w) ->
  468 <= W -> W + 32 <= gnext w -> zeroed w W 32 -> disj F (between W (W + 32)) ->
  exists n, v = VInt n /\ writes_word (pack_int t) [X; W] w W n.
Proof.
  intros t w v X W F Sc Hw V S H1 H2 Z D.
  assert (L : live w W 32) by (unfold live; lia).
  assert (Ap : forall k, 0 < k -> sub (between X (X + k)) F -> 468 <= X /\ X + k <= gnext w /\ (X + k <= W \/ W + 32 <= X)).
  { intros k Hk Sk. destruct (sub_live _ _ _ _ Sk S Hk) as [B1 B2]. split; [exact B1|]. split; [exact B2|].
    destruct (Z_lt_ge_dec W (X + k)); [|lia]. destruct (Z_lt_ge_dec X (W + 32)); [|lia]. exfalso.
    apply (D (Z.max X W)); [apply Sk|]; unfold between; lia. }
  destruct t; try (exfalso; exact Sc); cbn [vrep pack_int] in *.
  - destruct V as [-> V]. cbn [vbits] in V. exists X. split; [reflexivity|]. apply pack_u32_spec; auto; lia.
  - destruct V as [-> V]. cbn [vbits] in V. exists X. split; [reflexivity|]. apply pack_u32_spec; auto; lia.
  - destruct V as [-> V]. cbn [vbits] in V. exists X. split; [reflexivity|]. apply pack_u32_spec; auto; lia.
  - destruct V as [-> V]. cbn [vbits] in V. exists X. split; [reflexivity|]. apply pack_u32_spec; auto; lia.
  - destruct V as [-> V]. cbn [vbits] in V. exists X. split; [reflexivity|]. apply pack_u64_spec; auto; lia.
  - destruct V as [[-> V] S1]. destruct (Ap 16 ltac:(lia) S1) as (B1&B2&B3). eexists. split; [reflexivity|].
    apply pack_u128_spec; auto; unfold live; lia.
  - destruct V as [[-> V] S1]. destruct (Ap 32 ltac:(lia) S1) as (B1&B2&B3). eexists. split; [reflexivity|].
    apply pack_u256_spec; auto; unfold live; lia.
  - destruct V as [[-> V] S1]. destruct (Ap 32 ltac:(lia) S1) as (B1&B2&B3). eexists. split; [reflexivity|].
    apply pack_address_spec; auto; unfold live; lia.
Qed.

Lemma pack_int_func : forall t, exists nl b, pack_int t = Func 2 nl 0 b.
Proof. destruct t; cbn [pack_int]; eexists; eexists; reflexivity. Qed.

Lemma pack_scalar : forall t, pack_ok (AInt t).
Proof.
  intros t ep pv ps x wr rf r Q s l w v X W R F _ _ N1 N2 N3 Hw Fl Wf V S H1 H2 Z D HR _ _ K.
  cbn [pack_code app wf_aty mty head_size] in *.
  destruct (pack_int_word t w v X W F Wf Hw V S H1 H2 Z D) as (n&->&Wr).
  destruct (pack_int_func t) as (nl&b&E). eapply wp_lget; [exact N1|]. eapply wp_lget; [exact N2|].
  eapply wp_writes_word; [exact E|exact Hw|exact H1|exact H2|exact Wr|]. intros w' P _ _ _. apply K. exact P.
Qed.

Lemma pack_enums : forall n, pack_ok (AEnum n).
Proof.
  intros n ep pv ps x wr rf r Q s l w v X W R F _ Sp N1 N2 N3 Hw Fl Wf V S H1 H2 Z D HR _ _ K.
  destruct (vrep_has (AEnum n) _ _ _ _ Wf V) as (tag&->&Ht).
  cbn [mty vrep] in V. destruct V as (tag'&vs&G&E&Lt&S1&_). injection E as <- <-.
  cbn [pack_code wf_aty head_size] in *. cbn [app]. eapply wp_lget; [exact N1|]. eapply wp_lget; [exact N2|].
  pose proof (enum_size_pos (repeat [] n)) as Ez.
  destruct (sub_live X 4 F w) as [B1 B2]; [eapply sub_trans; [|exact S1]; apply between_sub; lia|exact S|lia|].
  eapply wp_writes_word; [reflexivity|exact Hw|exact H1|exact H2|apply pack_enum_spec|].
  - exact Hw.
  - unfold live; lia.
  - exact Z.
  - unfold live; lia.
  - lia.
  - intros w' P _ _ _. pose proof (packs_flag _ _ _ _ _ Hw P H1) as Ff. apply Sp; [apply P|congruence|]. apply K.
    unfold hpart, tpart. cbn [dynamic enc]. rewrite <- Lt. exact P.
Qed.

Lemma land_pad : forall n, 0 <= n < 2147483648 -> Z.land (n + 31) 4294967264 = n + Z.of_nat (pad32 (Z.to_nat n)).
Proof.
  intros n Hn. destruct (pad32_spec (Z.to_nat n)) as (q&E1&E2&E3).
  assert (E : n + Z.of_nat (pad32 (Z.to_nat n)) = 32 * ((n + 31) / 32)).
  { assert (Z.of_nat q = (n + 31) / 32) by (rewrite E3, Nat2Z.inj_div; f_equal; lia). lia. }
  rewrite E. change 4294967264 with (Z.shiftl (Z.ones 27) 5).
  apply Z.bits_inj'. intros i Hi. rewrite Z.land_spec, Z.shiftl_spec by exact Hi.
  replace (32 * ((n + 31) / 32)) with (Z.shiftl (Z.shiftr (n + 31) 5) 5) by (rewrite Z.shiftl_mul_pow2, Z.shiftr_div_pow2 by lia; change (2 ^ 5) with 32; lia).
  rewrite Z.shiftl_spec by exact Hi. destruct (Z_lt_ge_dec i 5).
  - rewrite !(Z.testbit_neg_r _ (i - 5)) by lia. apply andb_false_r.
  - rewrite Z.shiftr_spec by lia. replace (i - 5 + 5) with i by lia. destruct (Z_lt_ge_dec i 32).
    + rewrite Z.ones_spec_low by lia. apply andb_true_r.
    + rewrite Z.ones_spec_high by lia. rewrite andb_false_r. symmetry. apply Z.testbit_false; [lia|].
      rewrite Z.div_small; [reflexivity|]. split; [lia|]. apply Z.lt_le_trans with (2 ^ 32); [lia|]. apply Z.pow_le_mono_r; lia.
Qed.

Lemma zeroed_fresh : forall w w1 n, wok w -> allocated w w1 n -> zeroed w1 (gnext w) n.
Proof. intros w w1 n (_&_&_&_&_&P) (_&E&_) x Hx. rewrite E. apply P. lia. Qed.

Lemma pack_string_spec : forall w v X W R F, wok w -> vrep (mem w) (mty AString) v X F -> sub F (heap w) ->
  468 <= W -> W + 32 <= gnext w -> zeroed w W 32 -> disj F (between W (W + 32)) -> 0 <= R <= gnext w ->
  lenz (enc AString v) < 2147483648 ->
  wpf pack_string [X; W; R] w (resq (fun vs w' => vs = [] /\ packs w w' W (word (gnext w - R)) (enc AString v)) (oom w (lenz (enc AString v)))).
Proof.
  intros w v X W R F Hw V S H1 H2 Z D HR Hl. pose proof Hw as (P1&P2&P3&P4&P5&P6).
  cbn [mty vrep map] in V. destruct V as (o&vs0&G&->&->&S1&S2&D1&N).
  cbn [fields] in N. destruct vs0 as [|v vs0]; [contradiction|]. destruct N as (F1&F2&V&N&_&SF1&_). destruct vs0 as [|v' vs0]; [|contradiction N].
  unfold field_of in V. cbn [is_stack] in V. set (Y := load 4 (mem w) X) in *.
  destruct V as (vs&cap&G'&->&L1&L2&L3&L4&S3&S4&D2&EL). cbn [esize] in *. change (Z.of_nat 1) with 1 in *. rewrite Z.mul_1_r in *.
  destruct (elems_ints _ _ _ _ EL) as [_ Eb]. cbn [enc] in *. rewrite Eb in *.
  set (len := List.length vs) in *. set (bs := bytes len (mem w) (Y + 8)) in *.
  assert (Lb : List.length bs = len) by apply bytes_length.
  destruct (sub_live X 4 F w) as [A1 A2]; [exact S1|exact S|lia|].
  destruct (sub_live Y (8 + cap) F w) as [A3 A4];
    [replace (Y + (8 + cap)) with (Y + 8 + cap) by lia; eapply sub_trans; [exact S3|]; eapply sub_trans; [exact SF1|exact S2]|exact S|lia|].
  assert (DY : Y + 8 + cap <= W \/ W + 32 <= Y).
  { destruct (Z_lt_ge_dec W (Y + 8 + cap)); [|lia]. destruct (Z_lt_ge_dec Y (W + 32)); [|lia]. exfalso.
    apply (D (Z.max Y W)); [|unfold between; lia]. apply S2, SF1, S3. unfold between. lia. }
  destruct (pad32_spec len) as (q&Q1&Q2&_). set (pd := pad32 len) in *.
  assert (Len : lenz (enc_bytes bs) = 32 + Z.of_nat len + Z.of_nat pd).
  { unfold enc_bytes, padded. rewrite !lenz_app, lenz_word. unfold lenz. rewrite repeat_length, Lb. fold pd. lia. }
  rewrite Len in Hl.
  apply wpf_intro; [reflexivity|]. wc.
  ws1. ws1. fold Y. ws1. ws1. ws1. rewrite L1. ws1. ws1. ws1. ws1. ws1. ws1.
  rewrite land_pad by lia. rewrite Nat2Z.id. fold pd. ws1. ws1.
  wcall alloc_spec; [exact Hw|lia|rewrite Len; intros O; eapply oom_mono; [exact O|lia]|].
  intros rs w1 [-> Al]. wc. pose proof Al as (Hw1&Em&B1&B2&B3&B4&B5). pose proof Hw1 as (R1&R2&R3&R4&R5&R6).
  set (T := gnext w) in *. pose proof (zeroed_fresh _ _ _ Hw Al) as ZT. fold T in ZT.
  ws1. ws1. ws1. ws1. ws1. ws1. ws1.
  eapply wp_writes_word; [reflexivity|exact Hw1|exact H1|lia| |].
  { apply pack_u32_spec; [exact Hw1|unfold live; lia|intros x Hx; rewrite Em; apply Z; exact Hx|lia]. }
  intros w2 (C1&C2&C3&C4&C5&C6&C7&C8&C9) C10 C10' C11. unfold lenz in C6. cbn [List.length Z.of_nat] in C6. pose proof C1 as (R1'&R2'&R3'&R4'&R5'&R6').
  ws1. ws1. ws1. ws1. ws1. ws1.
  eapply wp_writes_word; [reflexivity|exact C1|lia|lia| |].
  { apply pack_u32_spec; [exact C1|unfold live; lia|intros x Hx; rewrite C11 by (unfold within; lia); apply ZT; lia|lia]. }
  intros w3 (E1&E2&E3&E4&E5&E6&E7&E8&E9) E10 E10' E11. pose proof E1 as (R1''&R2''&R3''&R4''&R5''&R6'').
  ws1. ws1. ws1. ws1. ws1. ws1. ws1.
  apply wp_mcopy; [lia|unfold page_size; lia|lia|unfold page_size; lia|]. apply wp_nil. wc. split; [reflexivity|].
  set (m := mcopy _ _ _ _).
  assert (O : forall x, ~ within (T + 32) (Z.of_nat len) x -> rd m x = rd (mem w3) x) by (intros; apply rd_mcopy_frame; assumption).
  assert (I' : forall j, 0 <= j < Z.of_nat len -> rd m (T + 32 + j) = rd (mem w) (Y + 8 + j)).
  { intros j Hj. unfold m. rewrite rd_mcopy_in by lia. replace (Y + 8 + (T + 32 + j - (T + 32))) with (Y + 8 + j) by lia.
    rewrite E11 by (unfold within; lia). rewrite C11 by (unfold within; lia). rewrite Em. reflexivity. }
  unfold packs. cbn [mem pages maxpages gcd host gnext set_mem].
  split; [eapply wok_frame; [exact E1|apply frame_set_mem; exact O|unfold within; intros; lia]|].
  repeat (split; [first [congruence|lia]|]).
  assert (Bw : bytes_at m W (word (T - R))).
  { eapply bytes_at_ext; [|exact C7]. rewrite lenz_word. intros x Hx. rewrite O by (unfold within; lia). apply E11. unfold within; lia. }
  split; [exact Bw|]. split.
  - unfold enc_bytes, padded. rewrite Lb. apply bytes_at_app. split.
    + eapply bytes_at_ext; [|exact E7]. rewrite lenz_word. intros x Hx. apply O. unfold within; lia.
    + rewrite lenz_word. apply bytes_at_app. split.
      * unfold bytes_at. rewrite Lb. unfold bs. apply bytes_ext. intros. rewrite I' by lia. reflexivity.
      * unfold bytes_at. rewrite repeat_length. fold pd. apply bytes_zero. unfold lenz. rewrite Lb. intros x Hx.
        rewrite O by (unfold within; lia). rewrite E11 by (unfold within; lia). rewrite C11 by (unfold within; lia). apply ZT. lia.
  - intros x Hx Nx. rewrite lenz_word in Nx. rewrite O by (unfold within in *; lia). rewrite E11 by (unfold within in *; lia). rewrite C11 by assumption. rewrite Em. reflexivity.
Qed.

Lemma pack_strings : pack_ok AString.
Proof.
  intros ep pv ps x wr rf r Q s l w v X W R F _ _ N1 N2 N3 Hw Fl Wf V S H1 H2 Z D HR Hl T K.
  cbn [pack_code app head_size] in *. eapply wp_lget; [exact N1|]. eapply wp_lget; [exact N2|]. eapply wp_lget; [exact N3|].
  wcall (pack_string_spec w v X W R F Hw V S H1 H2 Z D HR Hl); [exact T|]. intros vs w' [-> P]. apply K. exact P.
Qed.

(** ** Vectors *)

Lemma head_len_part : forall t v, has_aty t v -> head_len (dynamic t, enc t v) = head_size t.
Proof.
  intros t v H. rewrite <- (hpart_len t 0 v H). unfold hpart, head_len. cbn [fst snd]. destruct (dynamic t); [rewrite lenz_word|]; reflexivity.
Qed.

Definition elem_parts (t : aty) (vs : list val) : list part := map (fun v => (dynamic t, enc t v)) vs.

Lemma elem_parts_heads : forall t vs, Forall (has_aty t) vs -> head_lens (elem_parts t vs) = Z.of_nat (List.length vs) * head_size t.
Proof.
  induction 1 as [|v vs Hv H IH]; [reflexivity|]. unfold elem_parts, head_lens in *. cbn [map fold_right List.length].
  rewrite IH, head_len_part by exact Hv. lia.
Qed.

Lemma tails_firstn : forall i ps, lenz (tails (firstn i ps)) <= lenz (tails ps).
Proof. intros. rewrite <- (firstn_skipn i ps) at 2. rewrite tails_app, lenz_app. pose proof (lenz_nonneg (tails (skipn i ps))). lia. Qed.

Lemma tuple_len : forall ps, lenz (tuple ps) = head_lens ps + lenz (tails ps).
Proof. intros. unfold tuple. rewrite lenz_app, heads_len. reflexivity. Qed.

Lemma Forall_firstn : forall {A} (P : A -> Prop) l n, Forall P l -> Forall P (firstn n l).
Proof. intros A P l n H. revert n. induction H; intros [|n]; cbn [firstn]; constructor; auto. Qed.

Lemma tails_one : forall t v, tails [(dynamic t, enc t v)] = tpart t v.
Proof. intros. unfold tails, tpart. cbn [map List.concat fst snd]. apply app_nil_r. Qed.

Lemma pack_vector_spec : forall t ep w v X W R F, pack_ok t -> wf_aty t -> wok w -> abort_flag w = 0 ->
  vrep (mem w) (mty (AVec t)) v X F -> sub F (heap w) ->
  468 <= W -> W + 32 <= gnext w -> zeroed w W 32 -> disj F (between W (W + 32)) -> 0 <= R <= gnext w ->
  lenz (enc (AVec t) v) < 2147483648 ->
  wpf (pack_vector (esize (mty t)) (slot_size t) (pack_code ep t (propagate false) (propagate false) 8 3 4)) [X; W; R] w
    (resq (fun vs w' => vs = [] /\ packs w w' W (word (gnext w - R)) (enc (AVec t) v)) (oom w (lenz (enc (AVec t) v)))).
Proof.
  intros t ep w v X W R F IH Wf Hw Fl V S H1 H2 Z D HR Hl. pose proof Hw as (P1&P2&P3&P4&P5&P6).
  destruct (vrep_has (AVec t) _ _ _ _ Wf V) as (vs&->&Hvs).
  cbn [mty vrep] in V. destruct V as (vs'&cap&G&E&L1&L2&L3&L4&S1&S2&D1&EL). injection E as <-.
  rewrite slot_size_eq. pose proof (esize_range (mty t)) as Hsz. set (sz := esize (mty t)) in *.
  pose proof (head_size_nonneg t) as Hh. set (hs := head_size t) in *.
  cbn [enc] in *. change (map (fun v => (dynamic t, enc t v)) vs) with (elem_parts t vs) in *. set (ps := elem_parts t vs) in *.
  set (len := List.length vs) in *. pose proof (elem_parts_heads t vs Hvs) as HL. fold ps len hs in HL.
  rewrite lenz_app, lenz_word, tuple_len, HL in *. pose proof (lenz_nonneg (tails ps)) as Ht.
  assert (Hlh : 0 <= Z.of_nat len * hs) by nia. set (n := Z.of_nat len * hs) in *.
  destruct (sub_live X (8 + cap * Z.of_nat sz) F w) as [A1 A2]; [rewrite Z.add_assoc; exact S1|exact S|nia|].
  assert (Hcs : Z.of_nat len * Z.of_nat sz <= cap * Z.of_nat sz) by nia.
  assert (Hlc : 0 <= Z.of_nat len * Z.of_nat sz) by nia.
  assert (Hc8 : Z.of_nat len < 2147483648) by nia.
  assert (Bih0 : forall i, (i < len)%nat -> 0 <= Z.of_nat i * hs /\ Z.of_nat i * hs + hs <= n).
  { intros i Hi. unfold n. clear - Hi Hh. split; [apply Z.mul_nonneg_nonneg; lia|].
    replace (Z.of_nat i * hs + hs) with ((Z.of_nat i + 1) * hs) by ring. apply Z.mul_le_mono_nonneg_r; lia. }
  assert (Bis0 : forall i, (i < len)%nat -> 0 <= Z.of_nat i * Z.of_nat sz /\ Z.of_nat i * Z.of_nat sz + Z.of_nat sz <= cap * Z.of_nat sz).
  { intros i Hi. clear - Hi L3 Hsz. split; [apply Z.mul_nonneg_nonneg; lia|].
    replace (Z.of_nat i * Z.of_nat sz + Z.of_nat sz) with ((Z.of_nat i + 1) * Z.of_nat sz) by ring. apply Z.mul_le_mono_nonneg_r; lia. }
  apply wpf_intro; [reflexivity|]. wc. ws1. ws1. rewrite L1. ws1. ws1. ws1.
  eapply wp_bin; [cbn [binop wrapt]; reflexivity|]. fold n. rewrite w32_small by lia. ws1. ws1.
  wcall alloc_spec; [exact Hw|lia|intros O; eapply oom_mono; [exact O|lia]|].
  intros rs w1 [-> Al]. wc. pose proof Al as (Hw1&Em&B1&B2&B3&B4&B5). pose proof Hw1 as (R1&R2&R3&R4&R5&R6).
  set (T := gnext w) in *. pose proof (zeroed_fresh _ _ _ Hw Al) as ZT. fold T in ZT.
  ws1. ws1. ws1. ws1. ws1. ws1.
  eapply wp_writes_word; [reflexivity|exact Hw1|exact H1|lia| |].
  { apply pack_u32_spec; [exact Hw1|unfold live; lia|intros x Hx; rewrite Em; apply Z; exact Hx|lia]. }
  intros w2 (C1&C2&C3&C4&C5&C6&C7&C8&C9) C10 C10' C11. unfold lenz in C6. cbn [List.length Z.of_nat] in C6. pose proof C1 as (R1'&R2'&R3'&R4'&R5'&R6').
  ws1. ws1. ws1. ws1. ws1. ws1.
  eapply wp_writes_word; [reflexivity|exact C1|lia|lia| |].
  { apply pack_u32_spec; [exact C1|unfold live; lia|intros x Hx; rewrite C11 by (unfold within; lia); apply ZT; lia|lia]. }
  intros w3 (E1&E2&E3&E4&E5&E6&E7&E8&E9) E10 E10' E11. pose proof E1 as (R1''&R2''&R3''&R4''&R5''&R6'').
  ws1. ws1. ws1. ws1. ws1. set (H := T + 32) in *.
  assert (O3 : forall a, 0 <= a < T -> ~ within W 32 a -> rd (mem w3) a = rd (mem w) a).
  { intros a Ha Na. rewrite E11 by (unfold within in *; lia). rewrite C11 by assumption. rewrite Em. reflexivity. }
  assert (Z3 : zeroed w3 H n).
  { intros x Hx. unfold H in Hx. rewrite E11 by (unfold within; lia). rewrite C11 by (unfold within; lia). apply ZT. lia. }
  assert (G3 : gnext w3 = H + n) by (unfold H; lia).
  apply wp_block.
  match goal with |- wp _ (blk _ _ _ ?r ?Q) _ _ _ => assert (Fin : forall wi l, built w3 wi H n H ps -> wp r Q [] l wi) end.
  { intros wi l (I1&I2&I3&I4&I5&I6&I7&I8&I9&I10). apply wp_nil. wc. split; [reflexivity|].
    replace (gnext w3 - H) with (head_lens ps) in I7 by lia. unfold packs. rewrite lenz_app, lenz_word, tuple_len.
    split; [exact I1|]. repeat (split; [first [congruence|lia]|]). split; [|split].
    - eapply bytes_at_ext; [|exact C7]. rewrite lenz_word. intros x Hx. unfold H in I10. rewrite I10 by (unfold within; lia). apply E11. unfold within; lia.
    - apply bytes_at_app. rewrite lenz_word. split.
      + eapply bytes_at_ext; [|exact E7]. rewrite lenz_word. intros x Hx. apply I10; unfold within, H; lia.
      + unfold tuple. fold H. apply bytes_at_app. split; [exact I7|]. rewrite heads_len, HL.
        match goal with |- bytes_at _ ?a _ => replace a with (gnext w3) by (unfold H; lia) end. exact I8.
    - intros x Hx Nx. unfold H in I10. rewrite I10 by (unfold within; lia). apply O3; assumption. }
  ws1. ws1. ws1. apply wp_brif; intros C; unb C; wc.
  { assert (vs = []) by (destruct vs; [reflexivity|cbn [List.length] in len; lia]). subst vs. apply Fin. apply built_nil; [exact E1|exact Z3]. }
  ws1. ws1.
  eapply (wp_loop (fun f l wi => exists i y, f = (len - i)%nat /\ (i < len)%nat /\
     l = [X + 8 + Z.of_nat i * Z.of_nat sz; W; R; H + Z.of_nat i * hs; H; Z.of_nat len; T - R; Z.of_nat i; y] /\
     built w3 wi H n H (firstn i ps)) len).
  { exists 0%nat, 0. rewrite Nat.sub_0_r. repeat (split; [first [reflexivity|lia]|]). split; [leq|].
    apply built_nil; [exact E1|exact Z3]. }
  intros f l wi (i&y&->&Hi&->&Bi). pose proof Bi as (I1&I2&I3&I4&I5&I6&I7&I8&I9&I10). pose proof I1 as (J1&J2&J3&J4&J5&J6).
  destruct (nth_error vs i) as [v|] eqn:Ev; [|apply nth_error_None in Ev; fold len in Ev; lia].
  destruct (elems_nth _ _ _ _ _ _ _ _ EL Ev) as (Gv&Vv&Sv). fold sz in Vv.
  assert (Hv : has_aty t v) by (rewrite Forall_forall in Hvs; apply Hvs; eapply nth_error_In; eauto).
  assert (Eps : firstn (Datatypes.S i) ps = firstn i ps ++ [(dynamic t, enc t v)]).
  { apply firstn_snoc. unfold ps, elem_parts. rewrite nth_error_map, Ev. reflexivity. }
  assert (Hfi : head_lens (firstn i ps) = Z.of_nat i * hs).
  { unfold ps, elem_parts. rewrite firstn_map. change (map _ ?l) with (elem_parts t l). rewrite elem_parts_heads by (apply Forall_firstn; exact Hvs).
    rewrite firstn_length. fold len. rewrite Nat.min_l by lia. reflexivity. }
  rewrite Hfi in I9.
  pose proof (tails_firstn (Datatypes.S i) ps) as Tl. rewrite Eps, tails_app, lenz_app, tails_one in Tl.
  pose proof (lenz_nonneg (tails (firstn i ps))) as Tn. pose proof (lenz_nonneg (tpart t v)) as Tn2.
  destruct (Bih0 i Hi) as [Nih Bih]. destruct (Bis0 i Hi) as [Nis Bis]. clear Bih0 Bis0.
  assert (Oi : forall a, F a -> rd (mem wi) a = rd (mem w) a).
  { intros a Fa. pose proof (S a Fa) as Ha. unfold heap, between in Ha. fold T in Ha.
    rewrite I10; [|unfold H in *; lia|unfold within, H; lia]. apply O3; [lia|]. intros Ka. apply (D a Fa). unfold within in Ka. unfold between. exact Ka. }
  cbn [app]. ws1. apply wp_load; [lia|unfold page_size; unfold H in *; lia|]. rewrite Z.add_0_r. ws1.
  replace (load sz (mem wi) (X + 8 + Z.of_nat i * Z.of_nat sz)) with (load sz (mem w) (X + 8 + Z.of_nat sz * Z.of_nat i)).
  2:{ rewrite (Z.mul_comm (Z.of_nat sz)). symmetry. apply load_ext. intros j Hj. apply Oi. apply S1. unfold between. lia. }
  set (x := load sz (mem w) (X + 8 + Z.of_nat sz * Z.of_nat i)) in *.
  assert (SGF : sub Gv F) by (eapply sub_trans; eauto).
  eapply (IH ep _ _ 8%nat 3%nat 4%nat _ _ _ _ wi v x (H + Z.of_nat i * hs) H Gv); try reflexivity; try apply skips_propagate.
  - exact I1.
  - rewrite <- Fl. unfold abort_flag. apply load_ext. change (Z.of_nat 4) with 4. intros j Hj.
    rewrite I10; [|unfold H in *; lia|unfold within, H; lia]. apply O3; [lia|unfold within; lia].
  - exact Wf.
  - eapply vrep_ext; [|exact Vv]. intros a Ga. apply Oi, SGF, Ga.
  - eapply sub_trans; [exact SGF|]. eapply sub_trans; [exact S|]. unfold heap. fold T. apply between_sub; unfold H in *; lia.
  - unfold H. lia.
  - fold hs. lia.
  - fold hs. intros a Ha. apply I9. lia.
  - intros a Ga Ka. apply SGF, S in Ga. unfold heap, between in *. fold T in Ga. unfold H in *. lia.
  - unfold H in *. lia.
  - pose proof (hpart_len t 0 v Hv) as Hp. unfold hpart in Hp. unfold tpart in *. fold hs in Hp. destruct (dynamic t); lia.
  - intros O. cbn [loopk blk fret]. unfold oom in *. lia.
  - intros w' Pk. fold T in Pk.
    assert (Bs : built w3 w' H n H (firstn (Datatypes.S i) ps)).
    { rewrite Eps. eapply built_step; [exact Bi|unfold H; lia|lia|rewrite Hfi, head_len_part by exact Hv; fold hs; lia|].
      rewrite Hfi. exact Pk. }
    pose proof Bs as (M1&M2&M3&M4&M5&M6&_). pose proof M1 as (J1'&J2'&J3'&J4'&J5'&J6'). rewrite Eps, tails_app, lenz_app, tails_one in M6.
    cbn [app]. ws1. ws1. ws1. ws1. ws1. ws1. ws1. ws1. ws1. ws1. ws1. ws1. ws1. ws1. apply wp_brif; intros C'; unb C'; wc.
    + exists (len - Datatypes.S i)%nat. split; [lia|]. exists (Datatypes.S i), x. split; [reflexivity|]. split; [lia|].
      split; [leq|exact Bs].
    + apply wp_nil. wc. apply wp_nil. wc. apply Fin. replace ps with (firstn (Datatypes.S i) ps); [exact Bs|].
      apply firstn_all2. unfold ps, elem_parts. rewrite map_length. fold len. lia.
Qed.

Lemma pack_vectors : forall t, pack_ok t -> pack_ok (AVec t).
Proof.
  intros t IH ep pv ps x wr rf r Q s l w v X W R F Sv _ N1 N2 N3 Hw Fl Wf V S H1 H2 Z D HR Hl T K.
  cbn [pack_code head_size] in *. cbn [app]. eapply wp_lget; [exact N1|]. eapply wp_lget; [exact N2|]. eapply wp_lget; [exact N3|].
  wcall (pack_vector_spec t ep w v X W R F IH Wf Hw Fl V S H1 H2 Z D HR Hl); [exact T|]. intros vs w' [-> P]. cbn [app].
  pose proof (packs_flag _ _ _ _ _ Hw P H1) as Ff. apply Sv; [apply P|congruence|]. apply K. exact P.
Qed.

(** ** Structs *)

Lemma field_parts_cons : forall f fs v vs, field_parts (f :: fs) (v :: vs) = (dynamic f, enc f v) :: field_parts fs vs.
Proof. reflexivity. Qed.

Lemma field_parts_heads : forall fs vs, all_fields (map has_aty fs) vs -> head_lens (field_parts fs vs) = fold_right Z.add 0 (map head_size fs).
Proof.
  induction fs as [|f fs IH]; intros [|v vs] H; cbn [map all_fields] in H; try contradiction; [reflexivity|].
  destruct H as [H1 H2]. rewrite field_parts_cons. unfold head_lens in *. cbn [map fold_right]. rewrite IH, head_len_part by assumption. reflexivity.
Qed.

Lemma fields_has : forall fs m vs a G, fold_right and True (map wf_aty fs) ->
  fields (map (fun t' => field_of m t' (vrep m t')) (map mty fs)) m vs a G -> all_fields (map has_aty fs) vs.
Proof.
  induction fs as [|f fs IH]; intros m [|v vs] a G W H; cbn [map fields all_fields fold_right] in *; try tauto.
  destruct H as (F1&F2&A&B&_). destruct W as [W1 W2]. split; [|eapply IH; eauto].
  unfold field_of in A. destruct (is_stack (mty f)) eqn:St; [|eapply vrep_has; eauto].
  destruct f; cbn [mty is_stack] in St; try discriminate. destruct A as [_ A]. cbn [has_aty mty]. eauto.
Qed.

Lemma stack_vrep : forall m t v x F, is_stack t = true -> int_val t v x -> vrep m t v x F.
Proof. intros m t v x F St H. destruct t; try discriminate; exact H. Qed.

Lemma sum_head_nonneg : forall fs, 0 <= fold_right Z.add 0 (map head_size fs).
Proof. induction fs as [|f fs IH]; cbn [map fold_right]; [lia|]. pose proof (head_size_nonneg f). lia. Qed.

Definition field_code (ep : errtab) (f : aty) : ty * Z * list instr :=
  (mty f, slot_size f, pack_code ep f (propagate false) (propagate false) (val_local (mty f)) 7 8).

Lemma pack_fields_ok : forall fs, Forall pack_ok fs -> fold_right and True (map wf_aty fs) ->
  forall ep i vs w wi B n RR qs G F r (Q : outcome -> Prop) s X W R nz v32 v64 rv l8,
  built w wi B n RR qs -> wok w -> abort_flag w = 0 -> 468 <= B -> B + n <= gnext w -> n < 2147483648 ->
  fields (map (fun t' => field_of (mem w) t' (vrep (mem w) t')) (map mty fs)) (mem w) vs (X + 4 * i) G -> sub G F ->
  0 <= i -> 468 <= X -> sub (between (X + 4 * i) (X + 4 * i + 4 * Z.of_nat (List.length fs))) F ->
  sub F (heap w) -> disj F (between B (B + n)) ->
  head_lens qs + fold_right Z.add 0 (map head_size fs) = n ->
  lenz (tails qs) + lenz (tails (field_parts fs vs)) < 2147483648 ->
  RR = (if nz =? 0 then R else l8) -> 0 <= RR <= gnext w ->
  (oom w (lenz (tails qs) + lenz (tails (field_parts fs vs))) -> Q OTrap) ->
  (forall w' v32 v64 d8, built w w' B n RR (qs ++ field_parts fs vs) -> wp r Q s [X; W; R; nz; v32; v64; rv; B + n; d8] w') ->
  wp (pack_fields i (map (field_code ep) fs) ++ r) Q s [X; W; R; nz; v32; v64; rv; B + head_lens qs; l8] wi.
Proof.
  induction 1 as [|f fs Hf H IH]; intros Wf ep i vs w wi B n RR qs G F r Q s X W R nz v32 v64 rv l8
    Bi Hw Fl HB HBn Hn V SG Hi HX SX SF DF Hq Ht HRR HRg T K.
  - cbn [map pack_fields fields fold_right] in *. destruct vs; [|contradiction]. cbn [app].
    replace (B + head_lens qs) with (B + n) by lia. apply K. rewrite app_nil_r. exact Bi.
  - cbn [map fields] in V. destruct vs as [|v vs]; [contradiction|]. destruct V as (F1&F2&V1&V2&_&SF1&SF2).
    cbn [fold_right map] in Wf. destruct Wf as [Wf1 Wf2]. cbn [List.length] in SX. rewrite field_parts_cons in *.
    cbn [map fold_right] in Hq. change ((dynamic f, enc f v) :: field_parts fs vs) with ([(dynamic f, enc f v)] ++ field_parts fs vs) in Ht, T.
    rewrite tails_app, lenz_app, tails_one in Ht, T.
    assert (Hv : has_aty f v).
    { unfold field_of in V1. destruct (is_stack (mty f)) eqn:St; [|eapply vrep_has; eauto].
      destruct f; cbn [mty is_stack] in St; try discriminate. destruct V1 as [_ A]. cbn [has_aty mty]. eauto. }
    pose proof Bi as (I1&I2&I3&I4&I5&I6&I7&I8&I9&I10). pose proof I1 as (J1&J2&J3&J4&J5&J6). pose proof Hw as (P1&P2&P3&P4&P5&P6).
    pose proof (lenz_nonneg (tails qs)) as Tn. pose proof (lenz_nonneg (tpart f v)) as Tn2. pose proof (lenz_nonneg (tails (field_parts fs vs))) as Tn3.
    pose proof (head_size_nonneg f) as Hh. pose proof (sum_head_nonneg fs) as Hh2. pose proof (head_lens_nonneg qs) as Hh3.
    assert (Oi : forall a, F a -> rd (mem wi) a = rd (mem w) a).
    { intros a Fa. pose proof (SF a Fa) as Ha. unfold heap, between in Ha. apply I10; [lia|].
      intros Ka. apply (DF a Fa). unfold within in Ka. unfold between. exact Ka. }
    destruct (sub_live (X + 4 * i) 4 F w) as [A1 A2]; [eapply sub_trans; [|exact SX]; apply between_sub; lia|exact SF|lia|].
    assert (Lq : load 4 (mem wi) (X + 4 * i) = load 4 (mem w) (X + 4 * i)).
    { apply load_ext. change (Z.of_nat 4) with 4. intros j Hj. apply Oi, SX. unfold between. lia. }
    set (q := load 4 (mem w) (X + 4 * i)) in *.
    cbn [map field_code pack_fields app]. fold (field_code ep). rewrite slot_size_eq. ws1.
    apply wp_load; [lia|unfold page_size; change (Z.of_nat 4) with 4; lia|]. rewrite Lq. rewrite <- !app_assoc. cbn [app]. rewrite <- ?app_assoc. cbn [app].
    assert (SF1F : sub F1 F) by (eapply sub_trans; eauto).
    match goal with |- wp ((if _ then _ else _) ++ ?r) ?Q _ _ _ =>
      assert (KX : forall x v32 v64, nth_error [X; W; R; nz; v32; v64; rv; B + head_lens qs; l8] (val_local (mty f)) = Some x ->
        vrep (mem wi) (mty f) v x F1 -> wp r Q s [X; W; R; nz; v32; v64; rv; B + head_lens qs; l8] wi) end.
    2:{ unfold field_of in V1. destruct (is_stack (mty f)) eqn:St.
        - destruct V1 as [Sq Iv]. pose proof (esize_range (mty f)) as Hsz.
          destruct (sub_live q (Z.of_nat (esize (mty f))) F w) as [A3 A4]; [eapply sub_trans; eauto|exact SF|lia|].
          cbn [app]. apply wp_load; [lia|unfold page_size; lia|]. rewrite Z.add_0_r.
          replace (load (esize (mty f)) (mem wi) q) with (load (esize (mty f)) (mem w) q).
          2:{ symmetry. apply load_ext. intros j Hj. apply Oi, SF1F, Sq. unfold between. lia. }
          assert (Vx : vrep (mem wi) (mty f) v (load (esize (mty f)) (mem w) q) F1) by (apply stack_vrep; assumption).
          unfold val_local in *. destruct (mty f); try discriminate; ws1; (eapply KX; [reflexivity|exact Vx]).
        - cbn [app]. assert (E : val_local (mty f) = 4%nat) by (destruct (mty f); try discriminate; reflexivity).
          ws1. eapply KX; [rewrite E; reflexivity|]. eapply vrep_ext; [|exact V1]. intros a Fa. apply Oi, SF1F, Fa. }
    clear v32 v64. intros x v32 v64 Nx Vx. apply wp_block. ws1.
    match goal with |- wp (BrIf _ :: _) (blk _ _ _ ?r ?Q) _ _ _ => assert (KR : wp r Q s [X; W; R; nz; v32; v64; rv; B + head_lens qs; RR] wi) end.
    2:{ apply wp_brif; intros C; unb C; wc.
        - replace l8 with RR; [exact KR|]. rewrite HRR. destruct (Z.eqb_spec nz 0); [contradiction|reflexivity].
        - ws1. ws1. apply wp_nil. wc. replace R with RR at 2; [exact KR|]. rewrite HRR. rewrite C. reflexivity. }
    eapply (Hf ep _ _ (val_local (mty f)) 7%nat 8%nat _ _ _ _ wi v x (B + head_lens qs) RR F1); try reflexivity; try apply skips_propagate.
    + clear - Nx. unfold val_local in *. destruct (mty f); exact Nx.
    + exact I1.
    + rewrite <- Fl. unfold abort_flag. apply load_ext. change (Z.of_nat 4) with 4. intros j Hj. apply I10; [lia|unfold within; lia].
    + exact Wf1.
    + exact Vx.
    + eapply sub_trans; [exact SF1F|]. eapply sub_trans; [exact SF|]. unfold heap. apply between_sub; lia.
    + lia.
    + lia.
    + intros a Ha. apply I9. lia.
    + intros a Fa Ka. apply (DF a); [apply SF1F; exact Fa|]. unfold between in *. lia.
    + lia.
    + pose proof (hpart_len f 0 v Hv) as Hp. unfold hpart in Hp. unfold tpart in *. destruct (dynamic f); lia.
    + intros O. apply T. unfold oom in *. lia.
    + intros w' Pk.
      assert (Bs : built w w' B n RR (qs ++ [(dynamic f, enc f v)])).
      { eapply built_step; [exact Bi|lia|lia|rewrite head_len_part by exact Hv; lia|exact Pk]. }
      assert (Hq1 : head_lens (qs ++ [(dynamic f, enc f v)]) = head_lens qs + head_size f).
      { rewrite head_lens_app. unfold head_lens at 2. cbn [map fold_right]. rewrite head_len_part by exact Hv. lia. }
      cbn [app]. ws1. ws1. ws1. ws1. replace (head_size f + (B + head_lens qs)) with (B + head_lens (qs ++ [(dynamic f, enc f v)])) by lia.
      eapply (IH Wf2 ep (i + 1) vs w w' B n RR (qs ++ [(dynamic f, enc f v)]) F2 F); auto.
      * replace (X + 4 * (i + 1)) with (X + 4 * i + 4) by lia. exact V2.
      * eapply sub_trans; eauto.
      * lia.
      * eapply sub_trans; [|exact SX]. apply between_sub; lia.
      * lia.
      * rewrite tails_app, lenz_app, tails_one. lia.
      * rewrite HRR. destruct (nz =? 0) eqn:Enz; reflexivity.
      * rewrite tails_app, lenz_app, tails_one. intros O. apply T. unfold oom in *. lia.
      * intros w2 a b c Bf. rewrite <- app_assoc in Bf. apply K. exact Bf.
Qed.
