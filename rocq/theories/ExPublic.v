(** * Example contracts for PropsPublic.v. *)

From Verif Require Import Tac RtAlloc RtErr RtInt RtInt2 RtEq RtMul RtDiv RtShift SpecInt RtSwap RtAscii RtCopy Ops Spec SpecAbi LemAbi SpecVal LemVal SpecSol RtAbi RtPack RtPack2 RtUnpack RtUnpack2 LemSol RtStor RtDyn RtRouter SpecRouter LemRouter RtCall RtPublic SpecPublic LemPublic RtRevert LemRevert.
Ltac Zify.zify_post_hook ::= idtac.

(** [struct Insufficient { balance: u64 }] with selector 0x0a0b0c0d, an error built from the u64 in local 0. *)
Definition e_sel : list Z := [10; 11; 12; 13].
Definition pack_error : list instr :=
  [ LocalGet 0; LocalSet 6; Const 4; Call alloc; LocalSet 4;
    Const 8; Call alloc; LocalTee 5; LocalGet 6; Store 8 0; LocalGet 4; LocalGet 5; Store 4 0; LocalGet 4 ].
(** [if (balance < amount) revert(Insufficient { balance });] *)
Definition guard (ep : errtab) (k : list instr) : list instr :=
  [ LocalGet 0; LocalGet 1; Bin I64 LtU; If 0 (pack_error ++ [ Call (revert ep e_sel [AInt TU64]) ] ++ k) [] ].
(** [public fun check(balance: u64, amount: u64) { if (balance < amount) { revert(..); return } }] *)
Definition check_body (ep : errtab) : list instr := guard ep (prepare_return 2 3 [] ++ []) ++ prepare_return 2 3 [].
Definition check (ep : errtab) : func := move_function 2 5 2 (check_body ep) [].
(** [public fun withdraw(balance: u64, amount: u64): u64 { if (balance < amount) revert(..); balance - amount }] *)
Definition withdraw_body (ep : errtab) : list instr :=
  guard ep [] ++ [ LocalGet 0; LocalGet 1; Call (sub_u64 ep) ] ++ propagate true ++ prepare_return 2 3 [TU64].
Definition withdraw (ep : errtab) : func := move_function 2 5 2 (withdraw_body ep) [TU64].

Definition two : list aty := [AInt TU64; AInt TU64].
Definition c_pub (ep : errtab) : contract :=
  mkContract [([1; 2; 3; 4], wrap ep two (check ep) []); ([5; 6; 7; 8], wrap ep two (withdraw ep) [AInt TU64])] None None (Func 0 0 0 []).

Lemma c_pub_ok : forall ep, contract_ok (c_pub ep).
Proof.
  intros ep. unfold contract_ok, c_pub, selector_ok. cbn [c_funs c_receive c_fallback c_save].
  split; [|split; [|split]]; [|discriminate|discriminate|eauto].
  intros s f [E|[E|[]]]; injection E as <- <-; (split; [split; [reflexivity|repeat constructor; lia]|unfold is_wrapper, wrap; eauto]).
Qed.
Lemma c_pub_quiet : forall ep, saves_quietly (c_pub ep).
Proof.
  intros ep w Hw. right. exists w. split; [|reflexivity]. exists 3%nat. split; [reflexivity|discriminate].
Qed.
Lemma c_pub_check : forall ep, selected (c_pub ep) [1; 2; 3; 4] (wrap ep two (check ep) []) 4.
Proof. intros ep. eapply (sel_public _ _ []); [reflexivity|intros ? ? []]. Qed.
Lemma c_pub_withdraw : forall ep, selected (c_pub ep) [5; 6; 7; 8] (wrap ep two (withdraw ep) [AInt TU64]) 4.
Proof. intros ep. eapply (sel_public _ _ [_]); [reflexivity|]. intros s f [E|[]]. injection E as <- _. discriminate. Qed.

Lemma pack_error_run : forall w a b, wok w -> 0 <= a < 2 ^ 64 -> ~ oom w 12 ->
  exists n x l w', exec n pack_error [] [a; b; 0; 0; 0; 0; 0] w = ONormal [x] l w' /\ extends w w' /\ gnext w' = gnext w + 12 /\
    vrep (mem w') (TStruct false [TU64]) (VStruct 0 [VInt a]) x (heap w').
Proof.
  intros w a b Hw Ha No.
  assert (H : wp pack_error (fun o => exists x l w', o = ONormal [x] l w' /\ extends w w' /\ gnext w' = gnext w + 12 /\
    vrep (mem w') (TStruct false [TU64]) (VStruct 0 [VInt a]) x (heap w')) [] [a; b; 0; 0; 0; 0; 0] w).
  2:{ destruct H as (n&_&x&l&w'&E&H). exists n, x, l, w'. split; [exact E|exact H]. }
  change (2 ^ 64) with 18446744073709551616 in Ha. pose proof Hw as (P1&P2&P3&P4&P5&P6).
  unfold pack_error. ws1. ws1. ws1.
  wcall alloc_spec; [exact Hw|lia|intros O; exfalso; apply No; unfold oom in *; lia|].
  intros vs w1 (->&A1). pose proof (alloc_extends _ _ _ Hw A1 ltac:(lia)) as E1. pose proof A1 as (Hw1&Em1&Mx1&Pg1&G1&_). cbn [app]. wc. ws1. ws1.
  wcall alloc_spec; [exact Hw1|lia|intros O; exfalso; apply No; unfold oom in *; lia|].
  intros vs w2 (->&A2). pose proof (alloc_extends _ _ _ Hw1 A2 ltac:(lia)) as E2. pose proof A2 as (Hw2&Em2&Mx2&Pg2&G2&_). cbn [app].
  pose proof Hw2 as (Q1&Q2&Q3&Q4&Q5&Q6). rewrite G1 in *. set (g := gnext w) in *.
  ws1. ws1. ws1. ws1. ws1. ws1. ws1. ws1.
  match goal with |- exists x l w', ONormal _ _ (set_mem _ ?m) = _ /\ _ => set (m' := m) end.
  assert (O : forall y, ~ (g <= y < g + 12) -> rd m' y = rd (mem w2) y).
  { intros y Hy. unfold m'. rewrite rd_store_out by lia. cbn [mem set_mem]. apply rd_store_out. lia. }
  eexists _, _, _. split; [reflexivity|]. split; [|split; [cbn [gnext set_mem]; lia|]].
  - pose proof (extends_trans _ _ _ E1 E2) as (_&X2&X3&X4&X5&X6&X7). unfold extends. cbn [mem pages maxpages gnext gcd host set_mem].
    split; [apply (wok_set_mem w2); [exact Hw2|]; intros; apply O; lia|]. repeat (split; [assumption|]). intros y Hy. rewrite O by lia. apply X7. exact Hy.
  - cbn [vrep map fields mem set_mem List.length]. exists 0, [VInt a], (between (g + 4) (g + 12)). split; [reflexivity|]. split; [reflexivity|].
    unfold heap. cbn [gnext set_mem].
    split; [intros y Hy; unfold between in *; lia|]. split; [intros y Hy; unfold between in *; lia|]. split; [intros y Y1 Y2; unfold between in *; lia|].
    assert (L1 : load 4 m' g = g + 4).
    { unfold m'. rewrite (load_store_same 4). apply Z.mod_small. change (256 ^ Z.of_nat 4) with 4294967296. lia. }
    assert (L2 : load 8 m' (g + 4) = a).
    { unfold m'. rewrite load_store_other by lia. cbn [mem set_mem]. rewrite (load_store_same 8). apply Z.mod_small. change (256 ^ Z.of_nat 8) with 18446744073709551616. lia. }
    exists (between (g + 4) (g + 12)), empty. rewrite L1. unfold field_of. cbn [is_stack esize]. rewrite L2. change (Z.of_nat 8) with 8.
    split; [split; [intros y Hy; unfold between in *; lia|split; [reflexivity|exact Ha]]|]. split; [exact Logic.I|].
    split; [intros y _ []|]. split; [intros y Hy; exact Hy|intros y []].
Qed.

Lemma two_words : forall w1 a b xs, held (mem w1) two [VInt a; VInt b] xs (heap w1) -> xs = [a; b].
Proof.
  intros w1 a b xs H. destruct xs as [|x xs]; [contradiction H|]. destruct H as (F1&F2&[E _]&H&_).
  destruct xs as [|y xs]; [contradiction H|]. destruct H as (F3&F4&[E' _]&H&_).
  destruct xs as [|z xs]; [|contradiction H]. injection E as <-. injection E' as <-. reflexivity.
Qed.

Lemma guard_point : forall ep k w a b, wok w -> 0 <= a < 2 ^ 64 -> 0 <= b < 2 ^ 64 -> a < b -> ~ oom w 12 -> forall rest,
  exists x l w', at_point ([ Call (revert ep e_sel [AInt TU64]) ] ++ k) [x] l w' [] (guard ep k ++ rest) [] [a; b; 0; 0; 0; 0; 0] w /\
    extends w w' /\ gnext w' = gnext w + 12 /\ vrep (mem w') (TStruct false [TU64]) (VStruct 0 [VInt a]) x (heap w').
Proof.
  intros ep k w a b Hw Ha Hb L No rest. destruct (pack_error_run w a b Hw Ha No) as (n&x&l&w'&E&X).
  exists x, l, w'. split; [|exact X]. unfold guard.
  change ([ LocalGet 0; LocalGet 1; Bin I64 LtU; If 0 (pack_error ++ [ Call (revert ep e_sel [AInt TU64]) ] ++ k) [] ] ++ rest)
    with ([ LocalGet 0; LocalGet 1; Bin I64 LtU ] ++ If 0 (pack_error ++ [ Call (revert ep e_sel [AInt TU64]) ] ++ k) [] :: rest).
  eapply (at_seq _ _ _ _ _ 10 _ _ _ _ _ [1] [a; b; 0; 0; 0; 0; 0] w).
  - cbn. replace (a <? b) with true by lia. reflexivity.
  - apply at_if. cbn [Z.eqb]. eapply at_seq; [exact E|apply at_here].
Qed.

Lemma withdraw_point : forall ep w a b, 1 <= pages w -> abort_flag w = 0 -> 0 <= b <= a -> a < 2 ^ 64 ->
  at_point (prepare_return 2 3 [TU64] ++ []) (rev [a - b] ++ []) [a; b; 0; 0; 0; 0; 0] w [] (withdraw_body ep) [] [a; b; 0; 0; 0; 0; 0] w.
Proof.
  intros ep w a b Hp Fl Hb Ha. unfold withdraw_body. change (2 ^ 64) with 18446744073709551616 in Ha.
  assert (H : wp (guard ep [] ++ [ LocalGet 0; LocalGet 1; Call (sub_u64 ep) ] ++ propagate true) (fun o => o = ONormal [a - b] [a; b; 0; 0; 0; 0; 0] w)
     [] [a; b; 0; 0; 0; 0; 0] w).
  { unfold guard. cbn [app]. ws1. ws1. ws1. ws1; [lia|]. ws1. cbn [ifk]. ws1. ws1.
    eapply wp_call; [reflexivity|cbn; lia|]. cbn [rev firstn app skipn]. exists (FRet [a - b] w). split.
    - apply wpf_exact. apply wpf_intro; [reflexivity|]. wc. ws1. ws1. ws1. ws1; [lia|]. ws1. ws1. ws1. ws1. cbn. apply wp_nil. reflexivity.
    - unfold propagate. apply wp_block. wc. ws1. eapply wp_basic; [reflexivity|cbn [step]; rewrite inb_256 by lia; reflexivity|]. 
      change (load 4 (mem w) (256 + 0)) with (abort_flag w). rewrite Fl. ws1. ws1. apply wp_brif; intros Cq; [|discriminate Cq]. cbn. apply wp_nil. reflexivity. }
  destruct H as (n&_&E).
  rewrite !app_assoc. rewrite <- (app_assoc (guard ep [])).
  eapply at_seq; [exact E|]. rewrite app_nil_r. apply at_here.
Qed.

Lemma withdraw_goes_on : exists ep w k x l w3 out w',
  running ep w /\ running ep w3 /\
  at_point ([ Call (revert ep e_sel [AInt TU64]) ] ++ k) [x] l w3 [] (withdraw_body ep) [] ([3; 5] ++ repeat 0 5) w /\
  vrep (mem w3) (TStruct false [TU64]) (VStruct 0 [VInt 3]) x (heap w3) /\
  returns (withdraw ep) [3; 5] w out w' /\ abort_flag w' = ep Overflow /\
  ~ carries_error w' (e_sel ++ enc_args [AInt TU64] [VInt 3]).
Proof.
  assert (Hr : running ep0 w0) by (split; [exact w0_ok|split; [exact ep0_ok|reflexivity]]).
  destruct (guard_point ep0 [] w0 3 5 w0_ok) with (rest := [ LocalGet 0; LocalGet 1; Call (sub_u64 ep0) ] ++ propagate true ++ prepare_return 2 3 [TU64])
    as (x&l&w3&A&E&_&V); [lia|lia|lia|vm_compute; discriminate|].
  destruct (runs_to_vals 5000 (withdraw ep0) [3; 5] w0 [BADF00D]
    (fun w' => (abort_flag w' =? 500) && (load 4 (mem w') 500 =? 0))) as (w'&R&H); [vm_compute; reflexivity|].
  apply andb_prop in H. destruct H as [H1 H2]. apply Z.eqb_eq in H1. apply Z.eqb_eq in H2.
  exists ep0, w0, [], x, l, w3, [BADF00D], w'. split; [exact Hr|]. split; [eapply running_extends; eassumption|]. split; [exact A|]. split; [exact V|].
  split; [exact R|]. split; [exact H1|]. intros (_&_&_&_&L&_). rewrite H1, H2 in L. discriminate L.
Qed.
