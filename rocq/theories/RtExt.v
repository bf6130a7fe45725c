(** * Calls to other contracts: native_functions/contract_calls.rs 45-812. *)

From Verif Require Import Tac RtAlloc RtErr RtInt RtInt2 RtEq RtMul RtDiv RtShift RtSwap RtAscii RtCopy Ops SpecAbi LemAbi SpecVal LemVal SpecSol RtAbi RtPack RtPack2 RtUnpack RtUnpack2 LemSol RtStor RtRouter SpecExt.
Ltac Zify.zify_post_hook ::= idtac.

(** The selector as a number ([i32::from_be_bytes]). *)
Definition be_num (bs : list Z) : Z := fold_left (fun n b => 256 * n + b) bs 0.

(** contract_calls.rs 243-286: packing the arguments in the locals from [i] on. *)
Fixpoint pack_call_args (ep : errtab) (n i : nat) (ts : list aty) : list instr :=
  match ts with
  | [] => []
  | t :: ts => pack_code ep t (propagate true) (propagate true) i (n + 6) (n + 7) ++
      [ LocalGet (n + 6); Const (slot_size t); Bin I32 Add; LocalSet (n + 6) ] ++ pack_call_args ep n (S i) ts
  end.

(** contract_calls.rs 96-186: the configuration. *)
Definition read_config (n : nat) (payable : bool) : list instr :=
 [ LocalGet 0; Load 4 0; LocalSet 0;
   LocalGet 0; Load 4 0; Const 12; Bin I32 Add; LocalSet (n + 0);
   LocalGet 0; Load 4 4; Load 1 0; LocalSet (n + 1);
   LocalGet 0; Load 4 8; Load 8 0; LocalSet (n + 2) ] ++
 (if payable
  then [ LocalGet 0; Load 4 12; LocalTee (n + 3); LocalGet (n + 3); Call swap_i256_bytes ]
  else [ Const 32; Call alloc; LocalSet (n + 3) ]).

(** contract_calls.rs 188-302: the call data. *)
Definition call_data (ep : errtab) (n : nat) (sel : list Z) (ts : list aty) : list instr :=
 [ Const 4; Call alloc; LocalTee (n + 4); Const (be_num sel); Call swap_i32_bytes; Store 4 0 ] ++
 (match ts with
  | [] => []
  | _ => [ Const (fold_right Z.add 0 (map slot_size ts)); Call alloc; LocalTee (n + 6); LocalSet (n + 7) ] ++ pack_call_args ep n 1 ts
  end) ++
 [ Const 0; Call alloc; LocalGet (n + 4); Bin I32 Sub; LocalSet (n + 5);
   Const 4; Call alloc; LocalSet (n + 9) ].

(** contract_calls.rs 304-344: the call. *)
Definition make_call (n : nat) (static : bool) : list instr :=
  if static
  then [ LocalGet (n + 0); LocalGet (n + 4); LocalGet (n + 5); LocalGet (n + 2); LocalGet (n + 9); Host H_static_call; LocalSet (n + 8) ]
  else [ LocalGet (n + 1);
         If 0 [ LocalGet (n + 0); LocalGet (n + 4); LocalGet (n + 5); LocalGet (n + 2); LocalGet (n + 9); Host H_delegate_call; LocalSet (n + 8) ]
              [ LocalGet (n + 0); LocalGet (n + 4); LocalGet (n + 5); LocalGet (n + 3); LocalGet (n + 2); LocalGet (n + 9); Host H_call; LocalSet (n + 8) ] ].

(** contract_calls.rs 346-411: the result struct and its status. *)
Definition call_status (n : nat) (size : Z) : list instr :=
 [ Const size; Call alloc; LocalSet (n + 10);
   Const 4; Call alloc; LocalTee (n + 11); LocalGet (n + 8); Store 4 0;
   LocalGet (n + 10); LocalGet (n + 11); Store 4 0 ].

(** contract_calls.rs 413-545: the returned value of type [t].  The local for a decoded [u64] has type i64. *)
Definition call_value (ep : errtab) (n : nat) (t : aty) : list instr :=
 [ Block "b" 0
   ([ LocalGet (n + 8); Const 0; Bin I32 Ne; BrIf "b";
      LocalGet (n + 9); Load 4 0; LocalSet (n + 9);
      LocalGet (n + 9); Call alloc; LocalTee (n + 12);
      Const 0; LocalGet (n + 9); Host H_read_return_data; LocalSet (n + 9);
      LocalGet (n + 12); LocalSet (n + 13) ] ++
    unpack_code ep t (propagate true) (n + 12) (n + 13) ++
    [ LocalSet (n + 14) ] ++
    (if is_stack (mty t)
     then let sz := match mty t with TU64 => 8%nat | _ => 4%nat end in
          [ Const (Z.of_nat sz); Call alloc; LocalTee (n + 15); LocalGet (n + 14); Store sz 0;
            LocalGet (n + 10); LocalGet (n + 15); Store 4 4 ]
     else [ LocalGet (n + 10); LocalGet (n + 14); Store 4 4 ])) ].

(** contract_calls.rs 45-812 [add_external_contract_call_fn] for a function declared [view] or [pure] ([static]) or
    [payable], with the selector [sel], the parameter types [ts] and the type [res] of the returned value, if any.
    References among the parameters are passed as the pointers they are (lines 244-247), so [ts] lists the
    referenced types.  Locals: 0 self, the arguments; then, from [n] on, 0 address_ptr, 1 is_delegate_call, 2 gas,
    3 value, 4 calldata_start, 5 calldata_len, 6 writer_pointer, 7 calldata_reference_pointer, 8 call_contract_result,
    9 return_data_len, 10 call_result, 11 call_result_code_ptr, 12 return_data_abi_encoded_ptr, 13
    calldata_reader_pointer, 14 abi_decoded_call_result, 15 call_result_value_ptr.  Lines 547-812, which reload
    objects after a delegate call, have no effect when no argument is an object id and the calling function has
    no object with a named id; that case is the one modelled. *)
Definition external_call (ep : errtab) (static payable : bool) (sel : list Z) (ts : list aty) (res : option aty) : func :=
  let n := S (List.length ts) in
  Func n 16 1
   (read_config n payable ++ call_data ep n sel ts ++ make_call n static ++
    call_status n (match res with Some _ => 8 | None => 4 end) ++
    (match res with Some t => call_value ep n t | None => [] end) ++
    [ LocalGet (n + 10) ]).

(** ** Proofs *)

Lemma wp_getm : forall n j pre rest r (Q : outcome -> Prop) s w v, List.length pre = n -> nth_error rest j = Some v ->
  wp r Q (v :: s) (pre ++ rest) w -> wp (LocalGet (n + j) :: r) Q s (pre ++ rest) w.
Proof. intros n j pre rest r Q s w v <- H K. eapply wp_lget; [rewrite nth_mid; exact H|exact K]. Qed.
Lemma wp_setm : forall n j pre rest r (Q : outcome -> Prop) s w v u, List.length pre = n -> nth_error rest j = Some u ->
  wp r Q s (pre ++ set_nth j v rest) w -> wp (LocalSet (n + j) :: r) Q (v :: s) (pre ++ rest) w.
Proof. intros n j pre rest r Q s w v u <- H K. eapply wp_lset; [rewrite nth_mid; exact H|]. rewrite set_mid. exact K. Qed.
Lemma wp_teem : forall n j pre rest r (Q : outcome -> Prop) s w v u, List.length pre = n -> nth_error rest j = Some u ->
  wp r Q (v :: s) (pre ++ set_nth j v rest) w -> wp (LocalTee (n + j) :: r) Q (v :: s) (pre ++ rest) w.
Proof. intros n j pre rest r Q s w v u <- H K. eapply wp_ltee; [rewrite nth_mid; exact H|]. rewrite set_mid. exact K. Qed.

Ltac gm := eapply wp_getm; [eassumption|reflexivity|].
Ltac sm := eapply wp_setm; [eassumption|reflexivity|]; cbn [set_nth].
Ltac tm := eapply wp_teem; [eassumption|reflexivity|]; cbn [set_nth].
(** Allocation. *)
Ltac al Hw := eapply wp_call_spec; [reflexivity|cbn [List.length]; lia|cbn [firstn rev app]; apply alloc_spec; [exact Hw|lia]| |].

(** Memory below the old frontier is unchanged outside [E]; the host state may change. *)
Definition grown (w w' : world) (E : mset) : Prop :=
  wok w' /\ maxpages w' = maxpages w /\ gnext w <= gnext w' /\ (forall a, 0 <= a < gnext w -> ~ E a -> rd (mem w') a = rd (mem w) a).

Lemma grown_refl : forall w E, wok w -> grown w w E.
Proof. unfold grown. intros. repeat split; auto; lia || apply H. Qed.
Lemma grown_trans : forall w w1 w2 E, grown w w1 E -> grown w1 w2 empty -> grown w w2 E.
Proof.
  intros w w1 w2 E (A1&A2&A3&A4) (B1&B2&B3&B4). unfold grown. repeat (split; [assumption || congruence || lia|]).
  intros a Ha He. rewrite B4; [apply A4; assumption|lia|intros X; exact X].
Qed.
Lemma grown_extends : forall w w', extends w w' -> grown w w' empty.
Proof. intros w w' (A1&A2&A3&A4&A5&A6&A7). unfold grown. auto 10. Qed.
Lemma grown_alloc : forall w w' n, wok w -> allocated w w' n -> 0 <= n -> grown w w' empty.
Proof. intros w w' n Hw A Hn. apply grown_extends. eapply alloc_extends; eauto. Qed.
(** A write above the old frontier. *)
Lemma grown_write : forall w0 w m p n E, wok w0 -> grown w0 w E -> (forall x, ~ within p n x -> rd m x = rd (mem w) x) ->
  gnext w0 <= p -> p + n <= gnext w -> grown w0 (set_mem w m) E.
Proof.
  intros w0 w m p n E H0 (A1&A2&A3&A4) U P N. unfold grown. cbn [maxpages gnext mem set_mem]. split.
  - eapply wok_frame; [exact A1|apply frame_set_mem; exact U|]. unfold within. intros; lia.
  - repeat (split; [assumption|]). intros a Ha He. rewrite U by (unfold within; lia). apply A4; assumption.
Qed.

(** What the configuration looks like in memory. *)
Lemma configured_facts : forall m c self F, configured m c self F ->
  let p := load 4 m self in let q0 := load 4 m p in let q1 := load 4 m (p + 4) in let q2 := load 4 m (p + 8) in let q3 := load 4 m (p + 12) in
  sub (between self (self + 4)) F /\ sub (between p (p + 16)) F /\ sub (between q0 (q0 + 32)) F /\ sub (between q1 (q1 + 1)) F /\
  sub (between q2 (q2 + 8)) F /\ sub (between q3 (q3 + 32)) F /\
  load_be 32 m q0 = to c /\ 0 <= to c < 2 ^ 160 /\ load 1 m q1 = (if delegate c then 1 else 0) /\ load 8 m q2 = gas c /\ load 32 m q3 = amount c /\ 0 <= amount c < 2 ^ 256 /\
  forall m', (forall y, F y -> ~ between q3 (q3 + 32) y -> rd m' y = rd m y) -> 
    (forall y, between self (self + 4) y \/ between p (p + 16) y \/ between q0 (q0 + 32) y \/ between q1 (q1 + 1) y \/ between q2 (q2 + 8) y -> ~ between q3 (q3 + 32) y) /\
    (forall v', load 32 m' q3 = v' -> 0 <= v' < 2 ^ 256 -> configured m' (mkConfig (to c) (delegate c) (gas c) v') self F).
Proof.
  intros m c self F H. unfold configured, config_ty, config_val in H. cbn [vrep map] in H.
  destruct H as (o&vs&G&E&_&S1&S2&D1&H). injection E as <- <-. cbn [List.length] in *. change (Z.of_nat 1) with 1 in *.
  cbn [fields] in H. destruct H as (F1&F2&H&_&_&S3&_). unfold field_of in H. cbn [is_stack] in H.
  destruct H as (o2&vs2&G2&E2&_&S4&S5&D2&H). injection E2 as <- <-. cbn [List.length map fields] in *. change (Z.of_nat 4) with 4 in *.
  destruct H as (A1&A2&H0&(B1&B2&H1&(C1&C2&H2&(X1&X2&H3&_&_&S12&_)&D5&S10&S11)&D4&S8&S9)&D3&S6&S7).
  unfold field_of in H0, H1, H2, H3. cbn [is_stack esize] in H0, H1, H2, H3. cbn [vrep] in H0, H3.
  set (p := load 4 m self) in *. rewrite ?Z.add_0_r in *. replace (p + 4 + 4) with (p + 8) in * by lia. replace (p + 8 + 4) with (p + 12) in * by lia.
  set (q0 := load 4 m p) in *. set (q1 := load 4 m (p + 4)) in *. set (q2 := load 4 m (p + 8)) in *. set (q3 := load 4 m (p + 12)) in *.
  destruct H0 as [[E0 R0] K0]. destruct H1 as [K1 [E1 R1]]. destruct H2 as [K2 [E2 R2]]. destruct H3 as [[E3 R3] K3].
  apply (f_equal int_of) in E0, E1, E2, E3. cbv beta iota delta [int_of] in E0, E1, E2, E3.
  change (Z.of_nat 1) with 1 in *. change (Z.of_nat 8) with 8 in *. cbn [vbits] in *. replace (self + 4 * 1) with (self + 4) in * by lia. replace (p + 4 * 4) with (p + 16) in * by lia.
  cbv zeta.
  assert (SA : sub A1 F) by (intros y Y; auto). assert (SB : sub B1 F) by (intros y Y; auto 8). assert (SC : sub C1 F) by (intros y Y; auto 8). assert (SX : sub X1 F) by (intros y Y; auto 10).
  split; [exact S1|]. split; [intros y Y; auto|]. split; [intros y Y; auto|]. split; [intros y Y; auto|]. split; [intros y Y; auto|]. split; [intros y Y; auto|].
  split; [auto|]. split; [rewrite E0; exact R0|]. split; [auto|]. split; [auto|]. split; [auto|]. split; [rewrite E3; exact R3|].
  intros m' M'.
  assert (Ds : forall y, between self (self + 4) y \/ between p (p + 16) y \/ between q0 (q0 + 32) y \/ between q1 (q1 + 1) y \/ between q2 (q2 + 8) y -> ~ between q3 (q3 + 32) y).
  { intros y [Y|[Y|[Y|[Y|Y]]]] Z0; pose proof (K3 y Z0) as Z1.
    - apply (D1 y Y). apply S3. apply S5. apply S7. apply S9. apply S11. apply S12. exact Z1.
    - apply (D2 y Y). apply S7. apply S9. apply S11. apply S12. exact Z1.
    - apply (D3 y (K0 y Y)). apply S9. apply S11. apply S12. exact Z1.
    - apply (D4 y (K1 y Y)). apply S11. apply S12. exact Z1.
    - apply (D5 y (K2 y Y)). apply S12. exact Z1. }
  split; [exact Ds|]. intros v' V' R'.
  assert (L4 : forall a, (forall y, a <= y < a + 4 -> between self (self + 4) y \/ between p (p + 16) y) -> load 4 m' a = load 4 m a).
  { intros a Ha. apply load_ext. change (Z.of_nat 4) with 4. intros i Hi. specialize (Ha (a + i) ltac:(lia)). apply M'; [|apply Ds; tauto]. destruct Ha as [Y|Y]; auto. }
  assert (Ep : load 4 m' self = p) by (apply L4; intros; left; unfold between; lia).
  assert (Eq0 : load 4 m' p = q0) by (apply L4; intros; right; unfold between; lia).
  assert (Eq1 : load 4 m' (p + 4) = q1) by (apply L4; intros; right; unfold between; lia).
  assert (Eq2 : load 4 m' (p + 8) = q2) by (apply L4; intros; right; unfold between; lia).
  assert (Eq3 : load 4 m' (p + 12) = q3) by (apply L4; intros; right; unfold between; lia).
  assert (Em0 : load_be 32 m' q0 = load_be 32 m q0) by (apply load_be_ext; change (Z.of_nat 32) with 32; intros i Hi; apply M'; [apply SA, K0|apply Ds; right; right; left]; unfold between; lia).
  assert (Em1 : load 1 m' q1 = load 1 m q1) by (apply load_ext; change (Z.of_nat 1) with 1; intros i Hi; apply M'; [apply SB, K1|apply Ds; right; right; right; left]; unfold between; lia).
  assert (Em2 : load 8 m' q2 = load 8 m q2) by (apply load_ext; change (Z.of_nat 8) with 8; intros i Hi; apply M'; [apply SC, K2|apply Ds; right; right; right; right]; unfold between; lia).
  unfold configured, config_ty, config_val. cbn [vrep map to delegate gas amount].
  exists 0. eexists. exists G. split; [reflexivity|]. split; [reflexivity|]. cbn [List.length]. change (4 * Z.of_nat 1) with 4.
  split; [exact S1|]. split; [exact S2|]. split; [exact D1|]. cbn [fields]. exists F1, empty.
  split; [|split; [exact Logic.I|split; [intros y _ []|split; [exact S3|intros y []]]]].
  unfold field_of. cbn [is_stack]. exists 0. eexists. exists G2. split; [reflexivity|]. split; [reflexivity|]. rewrite Ep. cbn [List.length]. change (4 * Z.of_nat 4) with 16.
  split; [exact S4|]. split; [exact S5|]. split; [exact D2|]. cbn [fields]. rewrite Eq0, Eq1.
  replace (p + 4 + 4) with (p + 8) by lia. replace (p + 8 + 4) with (p + 12) by lia. rewrite Eq2, Eq3. cbn [esize]. change (Z.of_nat 1) with 1. change (Z.of_nat 8) with 8.
  exists A1, A2. split; [|split; [|split; [exact D3|split; assumption]]].
  { split; [|exact K0]. unfold int_val. rewrite Em0, E0. split; [reflexivity|exact R0]. }
  exists B1, B2. split; [|split; [|split; [exact D4|split; assumption]]].
  { split; [exact K1|]. unfold int_val. rewrite Em1, E1. split; [reflexivity|exact R1]. }
  exists C1, C2. split; [|split; [|split; [exact D5|split; assumption]]].
  { split; [exact K2|]. unfold int_val. rewrite Em2, E2. split; [reflexivity|exact R2]. }
  exists X1, empty. split; [|split; [exact Logic.I|split; [intros y _ []|split; [exact S12|intros y []]]]].
  split; [|exact K3]. unfold int_val. rewrite V'. split; [reflexivity|exact R'].
Qed.



Lemma read_config_ok : forall payable c self xs F w r (Q : outcome -> Prop) s, wok w -> configured (mem w) c self F -> sub F (heap w) ->
  let A := amount_at (mem w) self in
  (payable = false -> oom w 32 -> Q OTrap) ->
  (forall w1 p ap vp, grown w w1 (fun y => payable = true /\ between A (A + 32) y) -> host w1 = host w ->
     gnext w1 = gnext w + (if payable then 0 else 32) -> live w1 ap 20 -> load_be 20 (mem w1) ap = to c -> live w1 vp 32 ->
     load_be 32 (mem w1) vp = (if payable then amount c else 0) -> configured (mem w1) (after_call payable c) self F ->
     468 <= A -> A + 32 <= gnext w ->
     wp r Q s ((p :: xs) ++ [ap; (if delegate c then 1 else 0); gas c; vp; 0; 0; 0; 0; 0; 0; 0; 0; 0; 0; 0; 0]) w1) ->
  wp (read_config (S (List.length xs)) payable ++ r) Q s ((self :: xs) ++ repeat 0 16) w.
Proof.
  intros payable c self xs F w r Q s Hw C SF A T K. pose proof Hw as (P1&P2&P3&P4&P5&P6).
  pose proof (configured_facts _ _ _ _ C) as X. cbv zeta in X. destruct X as (S0&S1&S2&S3&S4&S5&E1&E2&E3&E4&E5&E6&X).
  unfold amount_at in A. set (p := load 4 (mem w) self) in *.
  set (q0 := load 4 (mem w) p) in *. set (q1 := load 4 (mem w) (p + 4)) in *. set (q2 := load 4 (mem w) (p + 8)) in *. fold A in S5, E5, X.
  assert (B : forall a k, sub (between a (a + k)) F -> 0 < k -> 468 <= a /\ a + k <= gnext w).
  { intros a k H Hk. pose proof (SF _ (H a ltac:(unfold between; lia))) as Y1. pose proof (SF _ (H (a + k - 1) ltac:(unfold between; lia))) as Y2. unfold heap, between in *. lia. }
  pose proof (B _ _ S0 ltac:(lia)) as B0. pose proof (B _ _ S1 ltac:(lia)) as B1. pose proof (B _ _ S2 ltac:(lia)) as B2. pose proof (B _ _ S3 ltac:(lia)) as B3. pose proof (B _ _ S4 ltac:(lia)) as B4. pose proof (B _ _ S5 ltac:(lia)) as B5.
  unfold read_config. set (n := S (List.length xs)). rewrite <- app_assoc.
  cbn [app]. eapply wp_lget; [reflexivity|]. ws1. fold p. eapply wp_lset; [reflexivity|]. cbn [set_nth].
  pose (pre := p :: xs).
  match goal with |- wp ?c ?Q ?s _ ?w => change (wp c Q s (pre ++ [0; 0; 0; 0; 0; 0; 0; 0; 0; 0; 0; 0; 0; 0; 0; 0]) w) end.
  assert (Lp : List.length pre = n) by reflexivity.
  assert (N0 : forall rest, nth_error (pre ++ rest) 0 = Some p) by reflexivity.
  assert (Ep : pre = p :: xs) by reflexivity. clearbody pre n.
  eapply wp_lget; [apply N0|]. ws1. fold q0. ws1. ws1. sm.
  eapply wp_lget; [apply N0|]. ws1. fold q1. ws1. sm.
  eapply wp_lget; [apply N0|]. ws1. fold q2. ws1. sm. rewrite E3, E4.
  destruct payable; cbn [app].
  - eapply wp_lget; [apply N0|]. ws1. fold A. tm. gm.
    destruct (swap_bytes_values 4 w A A Hw) as (m'&Rt&Mo&Ml&Mb); [unfold live; change (8 * Z.of_nat 4) with 32; lia|unfold live; change (8 * Z.of_nat 4) with 32; lia|].
    change (8 * Z.of_nat 4) with 32 in Mo. change (8 * 4)%nat with 32%nat in Ml, Mb.
    eapply wp_call; [reflexivity|cbn [List.length]; lia|]. cbn [firstn rev app]. apply returns_wpf with (vs := []) (w' := set_mem w m'); [exact Rt|].
    cbn [firstn skipn app rev].
    specialize (X m' ltac:(intros y _ Hy; apply Mo; intros W; apply Hy; exact W)). destruct X as [Ds X].
    assert (G : grown w (set_mem w m') (fun y => true = true /\ between A (A + 32) y)).
    { unfold grown. cbn [maxpages gnext mem set_mem]. split; [|split; [reflexivity|split; [lia|]]].
      - apply wok_set_mem; [exact Hw|]. intros y Hy. apply Mo. unfold within. lia.
      - intros y Hy He. apply Mo. intros W. apply He. split; [reflexivity|exact W]. }
    rewrite Ep. apply K; try assumption; try reflexivity.
    + cbn [gnext set_mem]. lia.
    + unfold live. cbn [gnext set_mem]. lia.
    + cbn [mem set_mem]. pose proof (low_bits m' q0 20 12 eq_refl) as Lb. change (Z.of_nat 12) with 12 in Lb. change (256 ^ Z.of_nat 20) with (2 ^ 160) in Lb. rewrite Lb.
      replace (load_be 32 m' q0) with (load_be 32 (mem w) q0); [rewrite E1; apply Z.mod_small; exact E2|].
      apply load_be_ext. change (Z.of_nat 32) with 32. intros i Hi. symmetry. apply Mo. intros W. apply (Ds (q0 + i)); [right; right; left; unfold between; lia|exact W].
    + unfold live. cbn [gnext set_mem]. lia.
    + cbn [mem set_mem]. rewrite Ml. exact E5.
    + cbn [mem set_mem after_call]. apply X; [|apply bswap_range]. rewrite Mb, <- E5. symmetry. apply bswap_load.
    + lia.
    + lia.
  - ws1. al Hw. { intros O. apply T; [reflexivity|exact O]. }
    intros rs w1 [-> Al]. pose proof (grown_alloc _ _ _ Hw Al ltac:(lia)) as G. cbn [firstn skipn app rev]. pose proof Al as (Hw1&Em&A1&A2&A3&A4&A5).
    sm. rewrite Ep. apply K; try assumption.
    + unfold grown in *. destruct G as (G1&G2&G3&G4). repeat (split; [assumption|]). intros; apply G4; [assumption|intros Z0; exact Z0].
    + unfold live. lia.
    + rewrite Em. pose proof (low_bits (mem w) q0 20 12 eq_refl) as Lb. change (Z.of_nat 12) with 12 in Lb. change (256 ^ Z.of_nat 20) with (2 ^ 160) in Lb. rewrite Lb, E1. apply Z.mod_small. exact E2.
    + unfold live. lia.
    + rewrite Em. apply load_be_zero. intros y Hy. apply P6. lia.
    + rewrite Em. exact C.
    + lia.
    + lia.
Qed.

Lemma represented_represents : forall ts m vs xs F w, mem w = m -> sub F (heap w) -> represented m ts vs xs F -> represents w ts vs xs.
Proof.
  induction ts as [|t ts IH]; intros m [|v vs] [|x xs] F w E S H; cbn [represented represents] in *; try tauto.
  destruct H as [H1 H2]. split; [rewrite E; eapply vrep_mono; eauto|eapply IH; eauto].
Qed.
Lemma represented_ext : forall ts m m' vs xs (F : mset), (forall y, F y -> rd m' y = rd m y) -> represented m ts vs xs F -> represented m' ts vs xs F.
Proof.
  induction ts as [|t ts IH]; intros m m' [|v vs] [|x xs] F E H; cbn [represented] in *; try tauto.
  destruct H as [H1 H2]. split; [eapply vrep_ext; eauto|eapply IH; eauto].
Qed.

Lemma selector_stored : forall sel m a, List.length sel = 4%nat -> Forall (fun b => 0 <= b < 256) sel ->
  0 <= be_num sel < 4294967296 /\ bytes_at (store 4 m a (bswap 4 (be_num sel))) a sel.
Proof.
  intros sel m a L H. destruct sel as [|b0 [|b1 [|b2 [|b3 [|]]]]]; try discriminate L.
  inversion H as [|? ? H0 T0]; subst. inversion T0 as [|? ? H1 T1]; subst. inversion T1 as [|? ? H2 T2]; subst. inversion T2 as [|? ? H3 T3]; subst. clear H T0 T1 T2 T3 L.
  unfold be_num. cbn [fold_left]. split; [lia|].
  assert (E : bswap 4 (256 * (256 * (256 * (256 * 0 + b0) + b1) + b2) + b3) = b0 + 256 * (b1 + 256 * (b2 + 256 * b3))).
  { rewrite bswap4. set (N := 256 * (256 * (256 * (256 * 0 + b0) + b1) + b2) + b3).
    assert (D1 : N / 256 = b2 + 256 * (b1 + 256 * b0)) by (symmetry; apply Z.div_unique with b3; unfold N; lia).
    assert (D2 : N / 65536 = b1 + 256 * b0) by (symmetry; apply Z.div_unique with (b3 + 256 * b2); unfold N; lia).
    assert (D3 : N / 16777216 = b0) by (symmetry; apply Z.div_unique with (b3 + 256 * b2 + 65536 * b1); unfold N; lia).
    assert (M0 : N mod 256 = b3) by (symmetry; apply Z.mod_unique with (b2 + 256 * (b1 + 256 * b0)); unfold N; lia).
    assert (M1 : (b2 + 256 * (b1 + 256 * b0)) mod 256 = b2) by (symmetry; apply Z.mod_unique with (b1 + 256 * b0); lia).
    assert (M2 : (b1 + 256 * b0) mod 256 = b1) by (symmetry; apply Z.mod_unique with b0; lia).
    rewrite D1, D2, D3, M0, M1, M2, Z.mod_small by lia. lia. }
  rewrite E. unfold bytes_at. cbn [List.length bytes].
  rewrite !rd_store_in by lia.
  replace (a - a) with 0 by lia. replace (a + 1 - a) with 1 by lia. replace (a + 1 + 1 - a) with 2 by lia. replace (a + 1 + 1 + 1 - a) with 3 by lia.
  change (256 ^ 0) with 1. change (256 ^ 1) with 256. change (256 ^ 2) with (256 * 256). change (256 ^ 3) with (256 * (256 * 256)).
  rewrite Z.div_1_r, <- !Z.div_div by lia. rewrite !div_lo by lia. rewrite !mod_lo by lia. rewrite Z.mod_small by lia. reflexivity.
Qed.

Lemma pack_call_args_ok : forall ep w0 w B n pre, wok w0 -> wok w -> B = gnext w0 -> B + n = gnext w -> 0 <= n < 2147483648 ->
  (forall a, 0 <= a < B -> rd (mem w) a = rd (mem w0) a) -> abort_flag w = 0 ->
  forall ts vs xs i wi qs r (Q : outcome -> Prop) s a0 a1 a2 a3 a4 a5 tl, xs = skipn i pre ->
  fold_right and True (map wf_aty ts) -> represents w0 ts vs xs ->
  built w wi B n B qs ->
  head_lens qs + fold_right Z.add 0 (map head_size ts) = n ->
  lenz (tails qs) + lenz (tails (field_parts ts vs)) < 2147483648 ->
  (oom w (lenz (tails qs) + lenz (tails (field_parts ts vs))) -> Q OTrap) ->
  (forall w', built w w' B n B (qs ++ field_parts ts vs) -> wp r Q s (pre ++ a0 :: a1 :: a2 :: a3 :: a4 :: a5 :: (B + n) :: B :: tl) w') ->
  wp (pack_call_args ep (List.length pre) i ts ++ r) Q s (pre ++ a0 :: a1 :: a2 :: a3 :: a4 :: a5 :: (B + head_lens qs) :: B :: tl) wi.
Proof.
  intros ep w0 w B n pre Hw0 Hw HB HBn Hn Ow Fl.
  induction ts as [|t ts IH]; intros vs xs i wi qs r Q s a0 a1 a2 a3 a4 a5 tl Hxs Wf V Bi Hq Ht T K.
  - destruct vs, xs; try contradiction V. cbn [pack_call_args app map fold_right] in *. replace (head_lens qs) with n by lia. apply K.
    rewrite app_nil_r. exact Bi.
  - destruct vs as [|v vs]; [contradiction V|]. destruct xs as [|x xs]; [contradiction V|]. destruct V as [V1 V2].
    symmetry in Hxs. apply skipn_cons in Hxs. destruct Hxs as [Nx Hxs]. symmetry in Hxs.
    cbn [map fold_right] in Wf, Hq. destruct Wf as [Wf1 Wf2]. rewrite field_parts_cons in *.
    change ((dynamic t, enc t v) :: field_parts ts vs) with ([(dynamic t, enc t v)] ++ field_parts ts vs) in Ht, T.
    rewrite tails_app, lenz_app, tails_one in Ht, T.
    pose proof (vrep_has _ _ _ _ _ Wf1 V1) as Hv.
    pose proof Bi as (I1&I2&I3&I4&I5&I6&I7&I8&I9&I10). pose proof I1 as (J1&J2&J3&J4&J5&J6). pose proof Hw as (P1&P2&P3&P4&P5&P6). pose proof Hw0 as (P1'&P2'&P3'&P4'&P5'&P6').
    pose proof (lenz_nonneg (tails qs)) as Tn. pose proof (lenz_nonneg (tpart t v)) as Tn2. pose proof (lenz_nonneg (tails (field_parts ts vs))) as Tn3.
    pose proof (head_size_nonneg t) as Hh. pose proof (sum_head_nonneg ts) as Hh2. pose proof (head_lens_nonneg qs) as Hh3.
    assert (Oi : forall a, 0 <= a < B -> rd (mem wi) a = rd (mem w0) a).
    { intros a Ha. rewrite I10; [apply Ow; exact Ha|lia|unfold within; lia]. }
    cbn [pack_call_args]. rewrite <- !app_assoc. cbn [app].
    eapply (pack_all t ep (propagate true) (propagate true) i (List.length pre + 6)%nat (List.length pre + 7)%nat _ _ _ _ wi v x (B + head_lens qs) B (heap w0));
      [apply skips_propagate|apply skips_propagate|apply nth_front; exact Nx|rewrite nth_mid; reflexivity|rewrite nth_mid; reflexivity|exact I1| |exact Wf1| | | | | | | | | |].
    + rewrite <- Fl. unfold abort_flag. apply load_ext. change (Z.of_nat 4) with 4. intros j Hj. apply I10; [lia|unfold within; lia].
    + eapply vrep_ext; [|exact V1]. intros a Ha. unfold heap, between in Ha. apply Oi. lia.
    + unfold heap. apply between_sub; lia.
    + lia.
    + lia.
    + intros a Ha. apply I9. lia.
    + intros a Fa Ka. unfold heap, between in *. lia.
    + lia.
    + pose proof (hpart_len t 0 v Hv) as Hp. unfold hpart in Hp. unfold tpart in *. destruct (dynamic t); lia.
    + intros O. apply T. unfold oom in *. lia.
    + intros w' Pk.
      assert (Bs : built w w' B n B (qs ++ [(dynamic t, enc t v)])).
      { eapply built_step; [exact Bi|lia|lia|rewrite head_len_part by exact Hv; lia|exact Pk]. }
      assert (Hq1 : head_lens (qs ++ [(dynamic t, enc t v)]) = head_lens qs + head_size t).
      { rewrite head_lens_app. unfold head_lens at 2. cbn [map fold_right]. rewrite head_len_part by exact Hv. lia. }
      pose proof Bs as ((J1'&J2'&J3'&J4'&J5'&J6')&_).
      rewrite slot_size_eq. eapply wp_lget; [rewrite nth_mid; reflexivity|]. ws1. ws1. eapply wp_lset; [rewrite nth_mid; reflexivity|]. rewrite set_mid. cbn [set_nth].
      replace (B + head_lens qs + head_size t) with (B + head_lens (qs ++ [(dynamic t, enc t v)])) by lia.
      eapply IH; [exact Hxs|exact Wf2|exact V2|exact Bs|lia| | |].
      * rewrite tails_app, lenz_app, tails_one. lia.
      * rewrite tails_app, lenz_app, tails_one. intros O. apply T. unfold oom in *. lia.
      * intros w2 Bf. rewrite <- app_assoc in Bf. apply K. exact Bf.
Qed.

Lemma call_data_ok : forall ep sel ts vs xs p G w r (Q : outcome -> Prop) s a0 a1 a2 a3, wok w -> abort_flag w = 0 ->
  List.length sel = 4%nat -> Forall (fun b => 0 <= b < 256) sel ->
  fold_right and True (map wf_aty ts) -> represented (mem w) ts vs xs G -> sub G (heap w) ->
  let e := enc_args ts vs in lenz e < 2147483640 ->
  (oom w (8 + lenz e) -> Q OTrap) ->
  (forall w1 a6 a7, extends w w1 -> gnext w1 = gnext w + (8 + lenz e) -> bytes_at (mem w1) (gnext w) (sel ++ e) ->
     wp r Q s ((p :: xs) ++ [a0; a1; a2; a3; gnext w; 4 + lenz e; a6; a7; 0; gnext w + 4 + lenz e; 0; 0; 0; 0; 0; 0]) w1) ->
  wp (call_data ep (S (List.length ts)) sel ts ++ r) Q s ((p :: xs) ++ [a0; a1; a2; a3; 0; 0; 0; 0; 0; 0; 0; 0; 0; 0; 0; 0]) w.
Proof.
  intros ep sel ts vs xs p G w r Q s a0 a1 a2 a3 Hw Fl Ls Hs Wf V SG e Le T K. pose proof Hw as (P1&P2&P3&P4&P5&P6).
  assert (L0 : 0 <= lenz e) by apply lenz_nonneg.
  unfold call_data. rewrite <- !app_assoc. set (n := S (List.length ts)). pose (pre := p :: xs). fold pre in K |- *.
  pose proof (represented_represents _ _ _ _ _ w eq_refl SG V) as V0. pose proof (represents_length _ _ _ _ V0) as Lx.
  assert (Lp : List.length pre = n) by (unfold pre, n; cbn [List.length]; congruence).
  assert (Sk : xs = skipn 1 pre) by reflexivity. clearbody pre n.
  cbn [app]. ws1. al Hw. { intros O. apply T. unfold oom in *. lia. }
  intros rs w1 [-> Al]. cbn [firstn skipn app rev]. pose proof (alloc_extends _ _ _ Hw Al ltac:(lia)) as Ex1. pose proof Al as (Hw1&Em&A1&A2&A3&A4&A5). pose proof Hw1 as (Q1&Q2&Q3&Q4&Q5&Q6).
  tm. ws1. destruct (selector_stored sel (mem w1) (gnext w) Ls Hs) as [Rs Bs].
  eapply wp_call; [reflexivity|cbn [List.length]; lia|]. cbn [firstn rev app]. eapply returns_wpf; [apply swap_i32_spec; exact Rs|]. cbn [firstn skipn app rev].
  set (start := gnext w) in *.
  eapply wp_store; [lia|unfold page_size; change (Z.of_nat 4) with 4; lia|]. rewrite Z.add_0_r. change (Z.of_nat 4) with 4.
  set (w2 := set_mem w1 (store 4 (mem w1) start (bswap 4 (be_num sel)))).
  assert (Ex2 : extends w w2).
  { apply extends_write with start 4; [exact Hw|exact Ex1| |lia|lia]. intros y Hy. apply rd_store_out. unfold within in Hy. lia. }
  pose proof Ex2 as (Hw2&_&Pg2&_&Gc2&Hh2&O2). change (gnext w2) with (gnext w1) in *. change (pages w2) with (pages w1) in *. change (maxpages w2) with (maxpages w1) in *.
  assert (Fl2 : abort_flag w2 = 0).
  { rewrite <- Fl. unfold abort_flag. apply load_ext. change (Z.of_nat 4) with 4. intros. apply O2. lia. }
  assert (Bs2 : bytes_at (mem w2) start sel) by exact Bs.
  (* the arguments *)
  assert (K2 : forall w3 a6 a7, extends w2 w3 -> gnext w3 = gnext w2 + lenz e -> bytes_at (mem w3) (gnext w2) e ->
    wp ([ Const 0; Call alloc; LocalGet (n + 4); Bin I32 Sub; LocalSet (n + 5); Const 4; Call alloc; LocalSet (n + 9) ] ++ r) Q s
      (pre ++ [a0; a1; a2; a3; start; 0; a6; a7; 0; 0; 0; 0; 0; 0; 0; 0]) w3).
  { intros w3 a6 a7 Ex3 G3 B3. pose proof Ex3 as (Hw3&Mx3&Pg3&_&Gc3&Hh3&O3). pose proof Hw3 as (R1&R2&R3&R4&R5&R6).
    change (gnext w2) with (gnext w1) in *. change (maxpages w2) with (maxpages w1) in *. cbn [app]. ws1. al Hw3. { intros O. apply T. unfold oom in *. fold start. lia. }
    intros rs w4 [-> Al4]. cbn [firstn skipn app rev]. pose proof (alloc_extends _ _ _ Hw3 Al4 ltac:(lia)) as Ex4. pose proof Al4 as (Hw4&Em4&B1&B2&B3'&B4&B5). pose proof Hw4 as (R1'&R2'&R3'&R4'&R5'&R6').
    gm. ws1. sm. ws1. al Hw4. { intros O. apply T. unfold oom in *. fold start. lia. }
    intros rs w5 [-> Al5]. cbn [firstn skipn app rev]. pose proof (alloc_extends _ _ _ Hw4 Al5 ltac:(lia)) as Ex5. pose proof Al5 as (Hw5&Em5&C1&C2&C3&C4&C5).
    sm. replace (gnext w3 - start) with (4 + lenz e) by lia. replace (gnext w4) with (start + 4 + lenz e) by lia.
    apply K.
    - eapply extends_trans; [exact Ex2|]. eapply extends_trans; [exact Ex3|]. eapply extends_trans; eassumption.
    - lia.
    - rewrite Em5, Em4. apply bytes_at_app. unfold lenz at 1. rewrite Ls. change (Z.of_nat 4) with 4. split.
      + eapply bytes_at_ext; [|exact Bs2]. unfold lenz. rewrite Ls. change (Z.of_nat 4) with 4. intros y Hy. apply O3. lia.
      + replace (start + 4) with (gnext w1) by lia. exact B3. }
  destruct ts as [|t ts'].
  { destruct vs; [|contradiction V]. apply K2.
    - apply extends_refl. exact Hw2.
    - unfold e. cbn. lia.
    - reflexivity. }
  set (ts := t :: ts') in *. clearbody ts.
  assert (V2 : represents w2 ts vs xs).
  { apply (represented_represents ts (mem w2) vs xs G); [reflexivity| |].
    - intros y Y. apply SG in Y. unfold heap, between in *. change (gnext w2) with (gnext w1). lia.
    - eapply represented_ext; [|exact V]. intros y Y. apply SG in Y. unfold heap, between in Y. apply O2. lia. }
  pose proof (represents_has _ _ _ _ Wf V2) as Hvs. pose proof (field_parts_heads ts vs Hvs) as HL.
  set (qs := field_parts ts vs) in *. assert (He : lenz e = head_lens qs + lenz (tails qs)) by (unfold e, enc_args; fold qs; rewrite tuple_len; reflexivity).
  pose proof (lenz_nonneg (tails qs)) as Tn. pose proof (sum_head_nonneg ts) as Hn. rewrite HL in He.
  assert (Hsl : fold_right Z.add 0 (map slot_size ts) = fold_right Z.add 0 (map head_size ts)).
  { clear. induction ts as [|t0 ts IH]; [reflexivity|]. cbn [map fold_right]. rewrite IH, slot_size_eq. reflexivity. }
  set (k := fold_right Z.add 0 (map head_size ts)) in *. rewrite Hsl. cbn [app].
  ws1. al Hw2. { intros O. apply T. unfold oom in *. change (gnext w2) with (gnext w1) in O. change (maxpages w2) with (maxpages w1) in O. lia. }
  intros rs w3 [-> Al3]. cbn [firstn skipn app rev]. pose proof Al3 as (Hw3&Em3&B1&B2&B3&B4&B5). pose proof (zeroed_fresh _ _ _ Hw2 Al3) as ZT.
  tm. sm. set (B := gnext w2) in *.
  replace B with (B + head_lens []) at 1 by (cbn; lia). rewrite <- Lp at 1.
  eapply (pack_call_args_ok ep w2 w3 B k pre Hw2 Hw3); try reflexivity; try assumption; try lia.
  - intros. rewrite Em3. reflexivity.
  - unfold abort_flag. rewrite Em3. exact Fl2.
  - rewrite <- Sk. exact V2.
  - apply built_nil; [exact Hw3|exact ZT].
  - fold qs. change (lenz (tails [])) with 0. lia.
  - fold qs. change (lenz (tails [])) with 0. intros O. apply T. unfold oom in *. unfold B in B3. change (gnext w2) with (gnext w1) in B3. change (maxpages w2) with (maxpages w1) in B1. lia.
  - cbn [app]. fold qs. intros w4 (I1&I2&I3&I4&I5&I6&I7&I8&I9&I10). apply K2.
    + unfold extends. split; [exact I1|]. split; [congruence|]. split; [lia|]. fold B. split; [lia|]. split; [congruence|]. split; [congruence|].
      intros a Ha. rewrite I10; [rewrite Em3; reflexivity|lia|unfold within; lia].
    + fold B. lia.
    + fold B. unfold e, enc_args. fold qs. unfold tuple. apply bytes_at_app. rewrite heads_len, HL. split.
      * replace (gnext w3 - B) with k in I7 by lia. exact I7.
      * replace (B + k) with (gnext w3) by lia. exact I8.
Qed.

(** The world after the call [c], the length of the answer stored at [out]. *)
Definition after (w : world) (c : ext_call) (out : Z) : world :=
  set_host (set_mem w (store 4 (mem w) out (lenz (r_data (answer (host w) c))))) (called (host w) c).

Lemma make_call_ok : forall n static (payable : bool) c data w r (Q : outcome -> Prop) s pre ap vp st a6 a7 a8 out tl, List.length pre = n -> wok w ->
  live w ap 20 -> live w st (lenz data) -> live w vp 32 -> live w out 4 -> load_be 20 (mem w) ap = to c -> bytes_at (mem w) st data ->
  load_be 32 (mem w) vp = (if payable then amount c else 0) ->
  let k := wanted static payable c data in
  wp r Q s (pre ++ ap :: (if delegate c then 1 else 0) :: gas c :: vp :: st :: lenz data :: a6 :: a7 :: r_status (answer (host w) k) mod 256 :: out :: tl) (after w k out) ->
  wp (make_call n static ++ r) Q s (pre ++ ap :: (if delegate c then 1 else 0) :: gas c :: vp :: st :: lenz data :: a6 :: a7 :: a8 :: out :: tl) w.
Proof.
  intros n static payable c data w r Q s pre ap vp st a6 a7 a8 out tl Lp Hw La Ld Lv Lo Ea Ed Ev k K.
  assert (Eb : bytes (Z.to_nat (lenz data)) (mem w) st = data) by (unfold lenz; rewrite Nat2Z.id; exact Ed).
  unfold make_call. unfold wanted in k. destruct static; cbn [app].
  - gm. gm. gm. gm. gm. eapply wp_host.
    { cbn [hostcall]. rewrite !inb_live by assumption. cbn [andb]. rewrite Ea, Eb. unfold do_call. reflexivity. }
    sm. exact K.
  - gm. apply wp_if; intros D.
    + destruct (delegate c); [|congruence]. gm. gm. gm. gm. gm. eapply wp_host.
      { cbn [hostcall]. rewrite !inb_live by assumption. cbn [andb]. rewrite Ea, Eb. unfold do_call. reflexivity. }
      sm. apply wp_nil. exact K.
    + destruct (delegate c); [congruence|]. gm. gm. gm. gm. gm. gm. eapply wp_host.
      { cbn [hostcall]. rewrite !inb_live by assumption. cbn [andb]. rewrite Ea, Eb, Ev. unfold do_call. reflexivity. }
      sm. apply wp_nil. exact K.
Qed.

Lemma after_ok : forall w0 w c out E, wok w0 -> grown w0 w E -> gnext w0 <= out -> out + 4 <= gnext w -> grown w0 (after w c out) E.
Proof.
  intros w0 w c out E H0 G Lo Hi. pose proof (grown_write w0 w (store 4 (mem w) out (lenz (r_data (answer (host w) c)))) out 4 E H0 G) as X.
  destruct X as (X1&X2&X3&X4); [intros y Hy; apply rd_store_out; unfold within in Hy; lia|exact Lo|exact Hi|].
  unfold grown. auto.
Qed.

Lemma call_status_ok : forall n size w r (Q : outcome -> Prop) s pre a0 a1 a2 a3 a4 a5 a6 a7 st a9 a10 a11 tl, List.length pre = n -> wok w ->
  0 <= st < 256 -> 4 <= size < 2147483640 ->
  (oom w (size + 4) -> Q OTrap) ->
  (forall w1, extends w w1 -> gnext w1 = gnext w + size + 4 -> load 4 (mem w1) (gnext w) = gnext w + size -> load 1 (mem w1) (gnext w + size) = st ->
     (forall y, gnext w + 4 <= y < gnext w + size -> rd (mem w1) y = 0) ->
     wp r Q s (pre ++ a0 :: a1 :: a2 :: a3 :: a4 :: a5 :: a6 :: a7 :: st :: a9 :: gnext w :: gnext w + size :: tl) w1) ->
  wp (call_status n size ++ r) Q s (pre ++ a0 :: a1 :: a2 :: a3 :: a4 :: a5 :: a6 :: a7 :: st :: a9 :: a10 :: a11 :: tl) w.
Proof.
  intros n size w r Q s pre a0 a1 a2 a3 a4 a5 a6 a7 st a9 a10 a11 tl Lp Hw Hs Hz T K. pose proof Hw as (P1&P2&P3&P4&P5&P6).
  unfold call_status. cbn [app]. ws1. al Hw. { intros O. apply T. unfold oom in *. lia. }
  intros rs w1 [-> Al]. cbn [firstn skipn app rev]. pose proof (alloc_extends _ _ _ Hw Al ltac:(lia)) as Ex1. pose proof Al as (Hw1&Em&A1&A2&A3&A4&A5). pose proof Hw1 as (Q1&Q2&Q3&Q4&Q5&Q6).
  sm. ws1. al Hw1. { intros O. apply T. unfold oom in *. lia. }
  intros rs w2 [-> Al2]. cbn [firstn skipn app rev]. pose proof (alloc_extends _ _ _ Hw1 Al2 ltac:(lia)) as Ex2. pose proof Al2 as (Hw2&Em2&B1&B2&B3&B4&B5). pose proof Hw2 as (R1&R2&R3&R4&R5&R6).
  tm. gm. eapply wp_store; [lia|unfold page_size; change (Z.of_nat 4) with 4; lia|]. rewrite Z.add_0_r. change (Z.of_nat 4) with 4.
  gm. gm. eapply wp_store; [lia|unfold page_size; cbn [pages set_mem]; change (Z.of_nat 4) with 4; lia|]. rewrite Z.add_0_r. change (Z.of_nat 4) with 4. cbn [mem set_mem].
  set (m1 := store 4 (mem w2) (gnext w1) st). set (m2 := store 4 m1 (gnext w) (gnext w1)). change (set_mem (set_mem w2 m1) m2) with (set_mem w2 m2).
  assert (m1 = store 4 (mem w2) (gnext w + size) st) as M1 by (unfold m1; rewrite A3; reflexivity). assert (m2 = store 4 m1 (gnext w) (gnext w + size)) as M2 by (unfold m2; rewrite A3; reflexivity). clearbody m1 m2. subst m1. subst m2.
  rewrite A3. set (m1 := store 4 (mem w2) (gnext w + size) st). set (m2 := store 4 m1 (gnext w) (gnext w + size)).
  apply K.
  - apply extends_write with (gnext w) (size + 4); [exact Hw|eapply extends_trans; eassumption| |lia|lia].
    intros y Hy. unfold within in Hy. unfold m2, m1. rewrite !rd_store_out by lia. reflexivity.
  - cbn [gnext set_mem]. lia.
  - cbn [mem set_mem]. unfold m2. rewrite (load_store_same 4). apply Z.mod_small. change (256 ^ Z.of_nat 4) with 4294967296. lia.
  - cbn [mem set_mem]. unfold m2. rewrite load_store_other by lia. unfold m1. cbn [load]. rewrite rd_store_in by lia.
    replace (gnext w + size - (gnext w + size)) with 0 by lia. change (256 ^ 0) with 1. rewrite Z.div_1_r, Z.mod_small by lia. lia.
  - intros y Hy. cbn [mem set_mem]. unfold m2, m1. rewrite !rd_store_out by lia. rewrite Em2, Em. apply P6. lia.
Qed.

Lemma load_store_le : forall (k n : nat) m a v, (k <= n)%nat -> load k (store (Z.of_nat n) m a v) a = v mod 256 ^ Z.of_nat k.
Proof.
  intros k n m a v H. rewrite (load_ext k _ (store (Z.of_nat k) m a v) a a); [apply load_store_same|].
  intros i Hi. rewrite !rd_store_in by lia. reflexivity.
Qed.
Lemma ctrap_grown : forall w w1 b b' n k, maxpages w1 = maxpages w -> gnext w <= gnext w1 -> ctrap w1 b n -> gnext w1 + n <= gnext w + k -> (b = true -> b' = true) -> ctrap w b' k.
Proof.
  intros w w1 b b' n k M L [O|[B [j [C1 C2]]]] H I; [left|right].
  - unfold oom in *. lia.
  - split; [auto|]. exists j. lia.
Qed.
Lemma grown_gcd : forall w w1 g, extends (set_gcd w g) w1 -> grown w w1 empty /\ host w1 = host w.
Proof. intros w w1 g (A1&A2&A3&A4&A5&A6&A7). split; [|exact A6]. unfold grown. auto 10. Qed.

Lemma call_value_ok : forall ep n t v data w r (Q : outcome -> Prop) s pre a0 a1 a2 a3 a4 a5 a6 a7 st rl cr a11 a12 a13 a14 a15, List.length pre = n ->
  wok w -> errtab_ok ep -> abort_flag w = 0 -> wf_aty t -> 0 <= st < 256 ->
  live w rl 4 -> load 4 (mem w) rl = lenz data -> lenz data < 2147483640 -> Forall (fun b => 0 <= b < 256) data -> x_data (h_ext (host w)) = data ->
  468 <= cr -> cr + 8 <= gnext w -> 65536 * maxpages w <= 2147483648 ->
  (st = 0 -> encodes t v data) ->
  (st = 0 -> ctrap w (has_string t) (lenz data + need t v + 8) -> Q OTrap) ->
  (st <> 0 -> forall l, nth_error l 10 = Some cr -> wp r Q s (pre ++ l) w) ->
  (forall w1, st = 0 -> grown w w1 (between (cr + 4) (cr + 8)) -> host w1 = host w ->
     field_of (mem w1) (mty t) (vrep (mem w1) (mty t)) v (load 4 (mem w1) (cr + 4)) (between (gnext w) (gnext w1)) ->
     forall l, nth_error l 10 = Some cr -> wp r Q s (pre ++ l) w1) ->
  wp (call_value ep n t ++ r) Q s (pre ++ [a0; a1; a2; a3; a4; a5; a6; a7; st; rl; cr; a11; a12; a13; a14; a15]) w.
Proof.
  intros ep n t v data w r Q s pre a0 a1 a2 a3 a4 a5 a6 a7 st rl cr a11 a12 a13 a14 a15 Lp Hw He Fl Wt Hst Lr El Ld Fd Ex Hc1 Hc2 Hm En T K1 K2.
  pose proof Hw as (P1&P2&P3&P4&P5&P6). pose proof (lenz_nonneg data) as L0. pose proof (need_nonneg t v) as Hn.
  unfold call_value. cbn [app]. ws1. gm. ws1. eapply wp_bin; [reflexivity|]. apply wp_brif.
  { intros C. cbn [blk]. cbn [firstn app]. apply K1; [|reflexivity]. intros ->. apply C. reflexivity. }
  intros C. assert (st = 0) as ->. { destruct (st =? 0) eqn:E0; [lia|]. cbn [negb b2z] in C. lia. } clear C K1.
  unfold live in Lr. gm. eapply wp_load; [lia|unfold page_size; change (Z.of_nat 4) with 4; lia|]. rewrite Z.add_0_r, El. sm. gm.
  al Hw. { intros O. cbn [blk]. apply T; [reflexivity|left]. unfold oom in *. lia. }
  intros rs w1 [-> Al]. cbn [firstn skipn app rev]. pose proof (grown_alloc _ _ _ Hw Al ltac:(lia)) as G1. pose proof Al as (Hw1&Em&A1&A2&A3&A4&A5). pose proof Hw1 as (Q1&Q2&Q3&Q4&Q5&Q6).
  tm. ws1. gm. set (R := gnext w) in *.
  assert (Fn : firstn (Z.to_nat (lenz data)) (skipn (Z.to_nat 0) data) = data) by (unfold lenz; rewrite Nat2Z.id; cbn [Z.to_nat skipn]; apply firstn_all).
  eapply wp_host.
  { cbn [hostcall]. rewrite A5, Ex, Fn. rewrite inb_live by (first [exact Hw1|unfold live; fold (lenz data); lia]). reflexivity. }
  set (w2 := set_mem w1 (write_bytes (mem w1) R data)). sm. gm. sm.
  assert (G2 : grown w w2 empty).
  { apply (grown_write w w1 _ R (lenz data) empty Hw G1); [|fold R; lia|lia]. intros y Hy. apply rd_write_bytes_out. exact Hy. }
  assert (Hh2 : host w2 = host w) by exact A5.
  pose proof G2 as (Hw2&M2&N2&O2).
  assert (Fl2 : abort_flag w2 = 0).
  { rewrite <- Fl. unfold abort_flag. apply load_ext. change (Z.of_nat 4) with 4. intros. apply O2; [lia|intros X; exact X]. }
  assert (Ba : bytes_at (mem w2) R data) by (apply bytes_write; exact Fd).
  specialize (En eq_refl (mem w2) R ltac:(lia) ltac:(lia) Ba). unfold decodes_args in En. cbn [map dec_fields] in En. destruct En as [En _].
  change (gnext w2) with (gnext w1) in *. change (pages w2) with (pages w1) in *. change (maxpages w2) with (maxpages w1) in *.
  eapply (unpack_all t ep (propagate true) (n + 12)%nat (n + 13)%nat _ _ _ _ w2 v R R (R + lenz data)); [apply skips_propagate|exact He|rewrite <- Lp, nth_mid; reflexivity|rewrite <- Lp, nth_mid; reflexivity|exact Hw2|exact Fl2|exact Wt|lia|lia| | |exact En| |].
  { change (gnext w2) with (gnext w1). lia. }
  { lia. }
  { intros X. cbn [blk]. apply T; [reflexivity|]. eapply ctrap_grown; [|fold R; exact N2|exact X| |auto]; [exact M2|]. change (gnext w2) with (gnext w1). fold R. lia. }
  intros w3 x (E3&G3&Rx&Px&Vx). pose proof (grown_gcd _ _ _ E3) as [Gr3 Hh3]. pose proof (grown_trans _ _ _ _ G2 Gr3) as G4. pose proof G4 as (Hw3&M4&N4&O4). pose proof Hw3 as (R1&R2&R3&R4&R5&R6).
  change (gnext w2) with (gnext w1) in *. rewrite <- Lp, set_mid. rewrite Lp. cbn [set_nth app].
  assert (Hh : host w3 = host w) by congruence.
  assert (Lc : forall y, cr + 4 <= y < cr + 8 -> R <= y -> False) by (intros; lia).
  sm. destruct (is_stack (mty t)) eqn:Sk.
  - (* boxed *)
    assert (En0 : need t v = 0) by (apply need_stack; exact Sk).
    set (sz := match mty t with TU64 => 8%nat | _ => 4%nat end).
    assert (Hsz : (esize (mty t) <= sz)%nat /\ 4 <= Z.of_nat sz <= 8) by (unfold sz; destruct (mty t); cbn; lia). destruct Hsz as [Hsz1 Hsz2]. cbn [app]. clearbody sz.
    ws1. al Hw3. { intros O. cbn [blk]. apply T; [reflexivity|left]. unfold oom in *. fold R. lia. }
    intros rs w4 [-> Al4]. cbn [firstn skipn app rev]. pose proof (grown_trans _ _ _ _ G4 (grown_alloc _ _ _ Hw3 Al4 ltac:(lia))) as G5. pose proof Al4 as (Hw4&Em4&B1&B2&B3&B4&B5). pose proof Hw4 as (R1'&R2'&R3'&R4'&R5'&R6').
    tm. gm. eapply wp_store; [lia|unfold page_size; lia|]. rewrite Z.add_0_r. set (q := gnext w3) in *.
    gm. gm. eapply wp_store; [lia|unfold page_size; cbn [pages set_mem]; change (Z.of_nat 4) with 4; lia|]. cbn [mem set_mem]. change (Z.of_nat 4) with 4.
    set (m1 := store (Z.of_nat sz) (mem w4) q x). set (m2 := store 4 m1 (cr + 4) q). change (set_mem (set_mem w4 m1) m2) with (set_mem w4 m2).
    apply wp_nil. cbn [blk firstn app]. apply K2; [reflexivity| |cbn [host set_mem]; congruence| |reflexivity].
    + pose proof (grown_write w w4 m1 q (Z.of_nat sz) empty Hw G5) as G6. destruct G6 as (G61&G62&G63&G64); [intros y Hy; apply rd_store_out; unfold within in Hy; lia|fold R; lia|lia|].
      cbn [maxpages gnext mem set_mem] in *. unfold grown. cbn [maxpages gnext mem set_mem]. split; [|split; [exact G62|split; [exact G63|]]].
      * apply wok_set_mem; [exact Hw4|]. intros y Hy. unfold m2, m1. rewrite !rd_store_out by lia. reflexivity.
      * intros y Hy Hny. unfold m2. rewrite rd_store_out by (unfold between in Hny; lia). apply G64; [exact Hy|intros X; exact X].
    + cbn [mem gnext set_mem]. unfold field_of. rewrite Sk.
      assert (Eq : load 4 m2 (cr + 4) = q) by (unfold m2; rewrite (load_store_same 4); apply Z.mod_small; change (256 ^ Z.of_nat 4) with 4294967296; lia).
      rewrite Eq. split; [apply between_sub; fold R; lia|].
      replace (load (esize (mty t)) m2 q) with x.
      * clear - Vx Sk. destruct (mty t); try discriminate Sk; exact Vx.
      * unfold m2. rewrite load_store_other by lia. unfold m1. rewrite load_store_le by exact Hsz1. symmetry. apply Z.mod_small. exact Rx.
  - cbn [app]. specialize (Px eq_refl). assert (E4 : esize (mty t) = 4%nat) by (clear - Sk; destruct (mty t); try discriminate Sk; reflexivity). rewrite E4 in Rx. change (256 ^ Z.of_nat 4) with 4294967296 in Rx.
    gm. gm. eapply wp_store; [lia|unfold page_size; change (Z.of_nat 4) with 4; lia|]. change (Z.of_nat 4) with 4.
    set (m2 := store 4 (mem w3) (cr + 4) x).
    apply wp_nil. cbn [blk firstn app]. apply K2; [reflexivity| |cbn [host set_mem]; congruence| |reflexivity].
    + unfold grown. cbn [maxpages gnext mem set_mem]. split; [|split; [exact M4|split; [exact N4|]]].
      * apply wok_set_mem; [exact Hw3|]. intros y Hy. unfold m2. rewrite !rd_store_out by lia. reflexivity.
      * intros y Hy Hny. unfold m2. rewrite rd_store_out by (unfold between in Hny; lia). apply O4; [exact Hy|intros X; exact X].
    + cbn [mem gnext set_mem]. unfold field_of. rewrite Sk.
      assert (Eq : load 4 m2 (cr + 4) = x) by (unfold m2; rewrite (load_store_same 4); apply Z.mod_small; change (256 ^ Z.of_nat 4) with 4294967296; lia).
      rewrite Eq. eapply vrep_mono; [apply between_sub|eapply vrep_ext; [|exact Vx]]; [fold R; lia|lia|].
      intros y Hy. unfold between in Hy. unfold m2. apply rd_store_out. lia.
Qed.

(** Memory a call takes. *)
Definition call_cost (payable : bool) (e : list Z) (res : option aty) (v : val) (st : Z) (data : list Z) : Z :=
  (if payable then 0 else 32) + 8 + lenz e +
  match res with Some t => 12 + (if st =? 0 then lenz data + need t v + 8 else 0) | None => 8 end.
Definition call_strings (res : option aty) : bool := match res with Some t => has_string t | None => false end.

Lemma external_call_spec : forall ep static payable sel ts res vs v xs self c F G w, wok w -> errtab_ok ep -> abort_flag w = 0 ->
  65536 * maxpages w <= 2147483648 ->
  List.length sel = 4%nat -> Forall (fun b => 0 <= b < 256) sel -> fold_right and True (map wf_aty ts) ->
  configured (mem w) c self F -> sub F (heap w) -> represented (mem w) ts vs xs G -> sub G (heap w) -> disj F G ->
  let e := enc_args ts vs in lenz e < 2147483640 ->
  let k := wanted static payable c (sel ++ e) in let a := answer (host w) k in let st := r_status a mod 256 in
  Forall (fun b => 0 <= b < 256) (r_data a) -> lenz (r_data a) < 2147483640 ->
  (match res with Some t => wf_aty t /\ (st = 0 -> encodes t v (r_data a)) | None => True end) ->
  let A := amount_at (mem w) self in
  wpf (external_call ep static payable sel ts res) (self :: xs) w (resq (fun rs w' => exists x, rs = [x] /\
      host w' = called (host w) k /\ grown w w' (fun y => payable = true /\ between A (A + 32) y) /\ configured (mem w') (after_call payable c) self F /\
      call_result res v st (mem w') x (between (gnext w) (gnext w')))
    (ctrap w (call_strings res) (call_cost payable e res v st (r_data a)))).
Proof.
  intros ep static payable sel ts res vs v xs self c F G w Hw He Fl Hm Ls Hs Wf C SF V SG D e Le k a st Fd Ld Hr A.
  pose proof Hw as (P1&P2&P3&P4&P5&P6). pose proof (lenz_nonneg e) as L0. pose proof (lenz_nonneg (r_data a)) as L1.
  pose proof (represents_length _ _ _ _ (represented_represents _ _ _ _ _ w eq_refl SG V)) as Lx.
  assert (Hst : 0 <= st < 256) by (apply Z.mod_pos_bound; lia).
  set (size := match res with Some _ => 8 | None => 4 end). assert (Hsize : 4 <= size <= 8) by (unfold size; destruct res; lia).
  assert (Hco : (if payable then 0 else 32) + 8 + lenz e + size + 4 <= call_cost payable e res v st (r_data a)).
  { unfold call_cost, size. destruct res as [t|]; [|lia]. pose proof (need_nonneg t v). destruct (st =? 0); lia. }
  set (N := call_cost payable e res v st (r_data a)) in *.
  assert (TT : forall w1 n, maxpages w1 = maxpages w -> gnext w <= gnext w1 -> gnext w1 + n <= gnext w + N -> oom w1 n -> ctrap w (call_strings res) N).
  { intros w1 n E1 E2 E3 O. left. unfold oom in *. lia. }
  unfold external_call. apply wpf_intro; [cbn [List.length]; congruence|]. fold size.
  match goal with |- wp _ ?Q0 _ _ _ => set (Q := Q0) end.
  rewrite <- Lx at 1. change (self :: xs ++ repeat 0 16) with ((self :: xs) ++ repeat 0 16).
  apply (read_config_ok payable c self xs F w _ Q _ Hw C SF).
  { intros -> O. cbn [fret Q]. apply (TT w 32); try reflexivity; try lia. exact O. }
  fold A. intros w1 p ap vp G1 H1 N1 La Ea Lv Ev C1 A1 A2. pose proof G1 as (Hw1&M1&_&O1).
  assert (Fl1 : abort_flag w1 = 0).
  { rewrite <- Fl. unfold abort_flag. apply load_ext. change (Z.of_nat 4) with 4. intros. apply O1; [lia|]. unfold between. lia. }
  assert (SA : sub (between A (A + 32)) F) by (pose proof (configured_facts _ _ _ _ C) as X; cbv zeta in X; apply X).
  assert (V1 : represented (mem w1) ts vs xs G).
  { eapply represented_ext; [|exact V]. intros y Y. pose proof (SG y Y) as Y1. unfold heap, between in Y1. apply O1; [lia|]. intros [_ Z0]. exact (D y (SA y Z0) Y). }
  assert (SG1 : sub G (heap w1)) by (intros y Y; apply SG in Y; unfold heap, between in *; destruct payable; lia).
  rewrite <- ?app_assoc. eapply (call_data_ok ep sel ts vs xs p G w1); try assumption.
  { fold e. intros O. cbn [fret Q]. apply (TT w1 (8 + lenz e)); try assumption; destruct payable; lia. }
  fold e. intros w2 a6 a7 Ex2 N2 B2. pose proof (grown_trans _ _ _ _ G1 (grown_extends _ _ Ex2)) as G2. pose proof G2 as (Hw2&M2&_&O2). pose proof Ex2 as (_&_&_&_&_&H2&O12).
  assert (Ek : lenz (sel ++ e) = 4 + lenz e) by (rewrite lenz_app; unfold lenz at 1; rewrite Ls; lia). rewrite <- Ek.
  assert (Hk : host w2 = host w) by congruence. pose proof Hw1 as Hw1'. destruct Hw1 as (Q1&Q2&Q3&Q4&Q5&Q6).
  eapply (make_call_ok (S (List.length ts)) static payable c (sel ++ e) w2); try assumption.
  { cbn [List.length]. congruence. }
  { unfold live in *. lia. }
  { unfold live in *. lia. }
  { unfold live in *. lia. }
  { unfold live in *. lia. }
  { rewrite <- Ea. apply load_be_ext. change (Z.of_nat 20) with 20. unfold live in La. intros. apply O12. lia. }
  { rewrite <- Ev. apply load_be_ext. change (Z.of_nat 32) with 32. unfold live in Lv. intros. apply O12. lia. }
  fold k. rewrite Hk. fold a st. set (rl := gnext w1 + 4 + lenz e).
  assert (G3 : grown w (after w2 k rl) (fun y => payable = true /\ between A (A + 32) y)).
  { apply after_ok; [exact Hw|exact G2| |]; unfold rl; destruct payable; lia. }
  assert (Gn1 : gnext w <= gnext w1) by (destruct payable; lia).
  assert (G13 : grown w1 (after w2 k rl) empty).
  { apply after_ok; [exact Hw1'|apply grown_extends; exact Ex2| |]; unfold rl; lia. }
  assert (H3 : host (after w2 k rl) = called (host w) k) by (unfold after; cbn [host set_host]; rewrite Hk; reflexivity).
  assert (E3 : load 4 (mem (after w2 k rl)) rl = lenz (r_data a)).
  { unfold after. cbn [mem set_host set_mem]. rewrite (load_store_same 4), Hk. fold a. apply Z.mod_small. change (256 ^ Z.of_nat 4) with 4294967296. lia. }
  assert (N3 : gnext (after w2 k rl) = gnext w2) by reflexivity. set (w3 := after w2 k rl) in *. clearbody w3. pose proof G3 as (Hw3&M3&_&O3).
  assert (Lp : List.length (p :: xs) = S (List.length ts)) by (cbn [List.length]; congruence).
  eapply (call_status_ok (S (List.length ts)) size w3); [exact Lp|exact Hw3|exact Hst|lia| |].
  { intros O. cbn [fret Q]. apply (TT w3 (size + 4)); try assumption; destruct payable; lia. }
  intros w4 Ex4 N4 E4 S4 Z4. pose proof (grown_trans _ _ _ _ G3 (grown_extends _ _ Ex4)) as G4. pose proof G4 as (Hw4&M4&_&O4). pose proof Ex4 as (_&_&_&_&_&H4&O34).
  pose proof (grown_trans _ _ _ _ G13 (grown_extends _ _ Ex4)) as (_&_&N14&O14).
  set (cr := gnext w3) in *. assert (Hcr : gnext w1 <= cr) by lia.
  assert (Fin : forall w5, grown w4 w5 (fun y => exists t, res = Some t /\ st = 0 /\ between (cr + 4) (cr + 8) y) -> host w5 = host w4 ->
     (forall t, res = Some t -> st = 0 -> field_of (mem w5) (mty t) (vrep (mem w5) (mty t)) v (load 4 (mem w5) (cr + 4)) (between (gnext w4) (gnext w5))) ->
     forall l, nth_error l 10 = Some cr -> wp [ LocalGet (S (List.length ts) + 10) ] Q [] ((p :: xs) ++ l) w5).
  { intros w5 G5 H5 Fi l Nl. eapply wp_getm; [exact Lp|exact Nl|]. apply wp_nil. unfold Q. cbn [fret]. exists cr. cbn [firstn]. split; [reflexivity|].
    pose proof G5 as (Hw5&M5&N5&O5). pose proof Hw5 as (R1&R2&R3&R4&R5&R6). assert (Gw : grown w w5 (fun y => payable = true /\ between A (A + 32) y)).
    { unfold grown. split; [exact Hw5|]. split; [congruence|]. split; [lia|]. intros y Hy Hn. rewrite O5; [apply O4; assumption|lia|]. intros (t&_&_&X). unfold between in X. lia. }
    split; [congruence|]. split; [exact Gw|]. split.
    - unfold configured. eapply vrep_ext; [|exact C1]. intros y Y. pose proof (SF y Y) as Y1. unfold heap, between in Y1.
      rewrite O5; [apply O14; [lia|intros X; exact X]|lia|]. intros (t&_&_&X). unfold between in X. lia.
    - assert (Ec : load 4 (mem w5) cr = cr + size).
      { rewrite <- E4. apply load_ext. change (Z.of_nat 4) with 4. intros i Hi. apply O5; [lia|]. intros (t&_&_&X). unfold between in X. lia. }
      assert (Es : load 1 (mem w5) (cr + size) = st).
      { rewrite <- S4. apply load_ext. change (Z.of_nat 1) with 1. intros i Hi. apply O5; [lia|]. intros (t&Er&_&X). unfold size in *. rewrite Er in *. unfold between in X. lia. }
      assert (Fc : forall st', st' = st -> field_of (mem w5) TU8 (vrep (mem w5) TU8) (VInt st') (load 4 (mem w5) cr) (between (cr + size) (cr + size + 4))).
      { intros st' ->. unfold field_of. cbn [is_stack esize]. rewrite Ec, Es. split; [apply between_sub; change (Z.of_nat 1) with 1; lia|]. split; [reflexivity|]. cbn [vbits]. lia. }
      assert (One : vrep (mem w5) (TStruct false [TU8]) (VStruct 0 [VInt st]) cr (between (gnext w) (gnext w5))).
      { cbn [vrep map List.length]. exists 0, [VInt st], (between (cr + size) (cr + size + 4)). split; [reflexivity|]. split; [reflexivity|]. change (4 * Z.of_nat 1) with 4.
        split; [apply between_sub; lia|]. split; [apply between_sub; lia|]. split; [apply between_disj; lia|]. cbn [fields].
        exists (between (cr + size) (cr + size + 4)), empty. split; [apply Fc; reflexivity|]. split; [exact Logic.I|]. split; [intros y _ []|]. split; [intros y Y; exact Y|intros y []]. }
      unfold call_result. destruct res as [t|]; [|exact One]. destruct (st =? 0) eqn:S0; [|exact One]. assert (st = 0) as E0 by lia.
      specialize (Fi t eq_refl E0). change size with 8 in *. cbn [vrep map List.length]. exists 0, [VInt 0; v], (between (cr + 8) (gnext w5)). split; [reflexivity|]. split; [reflexivity|]. change (4 * Z.of_nat 2) with 8.
      split; [apply between_sub; lia|]. split; [apply between_sub; lia|]. split; [apply between_disj; lia|]. cbn [fields].
      exists (between (cr + 8) (cr + 8 + 4)), (between (gnext w4) (gnext w5)). split; [apply Fc; lia|]. split; [|split; [apply between_disj; lia|split; apply between_sub; lia]].
      exists (between (gnext w4) (gnext w5)), empty. split; [exact Fi|]. split; [exact Logic.I|]. split; [intros y _ []|]. split; [intros y Y; exact Y|intros y []]. }
  destruct res as [t|].
  - destruct Hr as [Wt Hr]. change size with 8 in *.
    eapply (call_value_ok ep (S (List.length ts)) t v (r_data a) w4); try assumption; try lia.
    + rewrite <- Fl1. unfold abort_flag. apply load_ext. change (Z.of_nat 4) with 4. intros. apply O14; [lia|intros X; exact X].
    + unfold live, rl. lia.
    + rewrite <- E3. apply load_ext. change (Z.of_nat 4) with 4. intros. apply O34. unfold rl. lia.
    + rewrite H4, H3. reflexivity.
    + intros E0 X. unfold Q. cbn [fret]. eapply ctrap_grown; [exact M4| |exact X| |cbn [call_strings]; auto]; [lia|].
      unfold N, call_cost. rewrite E0. cbn [Z.eqb]. destruct payable; lia.
    + intros Ns l Nl. apply Fin; try assumption; try reflexivity; [apply grown_refl; exact Hw4|]. intros t0 _ E0. contradiction.
    + intros w5 E0 G5 H5 Fi l Nl. apply Fin; try assumption.
      * destruct G5 as (X1&X2&X3&X4). unfold grown. repeat (split; [assumption|]). intros y Hy Hn. apply X4; [exact Hy|]. intros Z0. apply Hn. exists t. auto.
      * intros t0 Et _. injection Et as <-. exact Fi.
  - apply Fin; try reflexivity; [apply grown_refl; exact Hw4|intros t0 Et; discriminate].
Qed.
