(** * Questions about other accounts: native_functions/account.rs. *)

From Verif Require Import Tac RtAlloc RtErr RtSwap RtAscii RtCopy Ops SpecVal LemVal SpecSol LemSol RtStor.
Ltac Zify.zify_post_hook ::= idtac.

(** account.rs 15-41 [add_native_account_code_size_fn]. *)
Definition native_account_code_size : func :=
  Func 1 0 1 [ LocalGet 0; Const 12; Bin I32 Add; Host H_account_code_size ].

(** account.rs 43-83 [add_native_account_balance_fn]. *)
Definition native_account_balance : func :=
  Func 1 1 1
   [ Const 32; Call alloc; LocalSet 1;
     LocalGet 0; Const 12; Bin I32 Add; LocalGet 1; Host H_account_balance;
     LocalGet 1; LocalGet 1; Call swap_i256_bytes; LocalGet 1 ].

Lemma address_word : forall m p a, load_be 32 m p = a -> 0 <= a < 2 ^ 160 -> load_be 20 m (p + 12) = a.
Proof.
  intros m p a E H. pose proof (low_bits m p 20 12 eq_refl) as Lb. change (Z.of_nat 12) with 12 in Lb. change (256 ^ Z.of_nat 20) with (2 ^ 160) in Lb.
  rewrite Lb, E. apply Z.mod_small. exact H.
Qed.

Lemma code_size_spec : forall a p F w, wok w -> vrep (mem w) TAddress (VInt a) p F -> sub F (heap w) ->
  0 <= x_code_size (h_ext (host w)) (x_calls (h_ext (host w))) a < 2 ^ 32 ->
  wpf native_account_code_size [p] w (resq (fun rs w' => rs = [x_code_size (h_ext (host w)) (x_calls (h_ext (host w))) a] /\ w' = w) False).
Proof.
  intros a p F w Hw V S Hs. pose proof Hw as (P1&P2&P3&P4&P5&P6). cbn [vrep] in V. destruct V as [[E R] K].
  apply (f_equal int_of) in E. cbv beta iota delta [int_of] in E. cbn [vbits] in R.
  assert (K1 : heap w p) by (apply S, K; unfold between; lia). assert (K2 : heap w (p + 31)) by (apply S, K; unfold between; lia). unfold heap, between in K1, K2.
  apply wpf_intro; [reflexivity|]; wc. ws1. ws1. ws1.
  eapply wp_host.
  { cbn [hostcall]. rewrite (inb_live w (p + 12) 20 Hw) by (unfold live; lia). rewrite (address_word (mem w) p a (eq_sym E) ltac:(lia)). reflexivity. }
  ws1. split; [|reflexivity]. unfold w32. rewrite Z.mod_small; [reflexivity|exact Hs].
Qed.

Lemma balance_spec : forall a p F w, wok w -> vrep (mem w) TAddress (VInt a) p F -> sub F (heap w) ->
  0 <= x_balance (h_ext (host w)) (x_calls (h_ext (host w))) a < 2 ^ 256 ->
  wpf native_account_balance [p] w (resq (fun rs w' => exists x, rs = [x] /\ extends w w' /\
     vrep (mem w') TU256 (VInt (x_balance (h_ext (host w)) (x_calls (h_ext (host w))) a)) x (between (gnext w) (gnext w'))) (oom w 32)).
Proof.
  intros a p F w Hw V S Hs. pose proof Hw as (P1&P2&P3&P4&P5&P6). cbn [vrep] in V. destruct V as [[E R] K].
  apply (f_equal int_of) in E. cbv beta iota delta [int_of] in E. cbn [vbits] in R.
  assert (K1 : heap w p) by (apply S, K; unfold between; lia). assert (K2 : heap w (p + 31)) by (apply S, K; unfold between; lia). unfold heap, between in K1, K2.
  apply wpf_intro; [reflexivity|]; wc. ws1.
  wcall alloc_spec; [exact Hw|lia|auto|]. intros vs w1 (->&A). pose proof (alloc_extends w w1 32 Hw A ltac:(lia)) as X.
  destruct A as (Hw1&A). pose proof X as (_&X1&X2&X3&X4&X5&X6). pose proof Hw1 as (Q1&Q2&Q3&Q4&Q5&Q6).
  assert (G : gnext w1 = gnext w + 32) by tauto. assert (Em : mem w1 = mem w) by tauto.
  wc. ws1. ws1. ws1. ws1. ws1.
  set (bal := x_balance (h_ext (host w)) (x_calls (h_ext (host w))) a) in *.
  pose (m := store_be 32 (mem w1) (gnext w) bal).
  eapply wp_host.
  { cbn [hostcall]. rewrite (inb_live w1 (p + 12) 20 Hw1) by (unfold live; lia). rewrite (inb_live w1 (gnext w) 32 Hw1) by (unfold live; lia).
    rewrite X5, Em, (address_word (mem w) p a (eq_sym E) ltac:(lia)). cbn [andb]. fold bal. rewrite <- Em. fold m. reflexivity. }
  assert (Lb : load_be 32 m (gnext w) = bal).
  { unfold m. rewrite load_be_store32. apply Z.mod_small. exact Hs. }
  assert (Ex2 : extends w (set_mem w1 m)).
  { apply extends_write with (gnext w) 32; [exact Hw|exact X| |lia|lia]. intros x Hx. unfold m. apply rd_store_be_out. unfold within in Hx. lia. }
  set (w2 := set_mem w1 m) in *. assert (Hw2 : wok w2) by (unfold extends in Ex2; tauto).
  ws1. ws1. eapply wp_call; [reflexivity|cbn [List.length]; lia|]. cbn [firstn rev app].
  destruct (swap_bytes_values 4 w2 (gnext w) (gnext w) Hw2) as (m2&Re&O&_&L); [unfold live; cbn [w2 set_mem gnext maxpages pages]; change (8 * Z.of_nat 4) with 32; lia..|].
  change (8 * Z.of_nat 4) with 32 in *. change (8 * 4)%nat with 32%nat in *.
  eapply returns_wpf; [exact Re|]. cbn [firstn skipn app rev]. ws1. ws1. exists (gnext w). split; [reflexivity|]. split.
  - change (set_mem w2 m2) with (set_mem w1 m2). apply extends_write with (gnext w) 32; [exact Hw|exact X| |lia|lia].
    intros x Hx. rewrite O by exact Hx. unfold w2. cbn [mem set_mem]. unfold m. apply rd_store_be_out. unfold within in Hx. lia.
  - cbn [vrep mem set_mem gnext w2]. rewrite L. cbn [mem set_mem w2]. rewrite Lb. split; [|apply between_sub; lia].
    split; [reflexivity|]. cbn [vbits]. exact Hs.
Qed.

Lemma code_size_ok : forall a p F w, wok w -> vrep (mem w) TAddress (VInt a) p F -> sub F (heap w) ->
  0 <= x_code_size (h_ext (host w)) (x_calls (h_ext (host w))) a < 2 ^ 32 ->
  returns native_account_code_size [p] w [x_code_size (h_ext (host w)) (x_calls (h_ext (host w))) a] w.
Proof.
  intros a p F w Hw V S Hs. destruct (wpf_cases _ _ _ _ _ (code_size_spec a p F w Hw V S Hs)) as [(vs&w'&R&->&->)|[_ []]]. exact R.
Qed.

Lemma balance_ok : forall a p F w, wok w -> vrep (mem w) TAddress (VInt a) p F -> sub F (heap w) ->
  let b := x_balance (h_ext (host w)) (x_calls (h_ext (host w))) a in 0 <= b < 2 ^ 256 ->
  (exists x w', returns native_account_balance [p] w [x] w' /\ extends w w' /\ vrep (mem w') TU256 (VInt b) x (between (gnext w) (gnext w'))) \/
  (traps native_account_balance [p] w /\ oom w 32).
Proof.
  intros a p F w Hw V S b Hs. destruct (wpf_cases _ _ _ _ _ (balance_spec a p F w Hw V S Hs)) as [(vs&w'&R&x&->&Ex&Q)|[T O]]; [left; eauto 6|right; auto].
Qed.
