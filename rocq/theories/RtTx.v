(** * Transaction context: native_functions/transaction.rs. *)

From Verif Require Import SpecInt SpecAbi Tac RtAlloc RtErr RtInt RtDiv RtSwap RtAscii LemAbi LemErr Ops RtVec RtVec2 RtCopy RtCopy2 RtStor RtRouter SpecRouter SpecStr RtStr.
Ltac Zify.zify_post_hook ::= idtac.

(** transaction.rs 21-51 [define_host_fn_native_fn_wrapper]: allocate 32 bytes (IU256::HEAP_SIZE),
    let the host fill them, return the pointer.  Local 0: ptr. *)
Definition host_word (h : hostfn) : func := Func 0 1 1
 [ Const 32; Call alloc; LocalTee 0; Host h; LocalGet 0 ].
(** transaction.rs 83-88 [add_native_msg_value_fn], 90-95 [add_native_block_basefee_fn],
    97-102 [add_native_tx_gas_price_fn]. *)
Definition native_msg_value : func := host_word H_msg_value.
Definition native_block_basefee : func := host_word H_block_basefee.
Definition native_gas_price : func := host_word H_tx_gas_price.

(** transaction.rs 53-81 [add_native_sender_fn]. *)
Definition native_sender : func := Func 0 1 1
 [ Const 32; Call alloc; LocalTee 0; Const 12; Bin I32 Add; Host H_msg_sender; LocalGet 0 ].

(** runtime/vector.rs 1338-1374 [bytes_to_vec_function].  Locals: 0 bytes_ptr, 1 n, 2 vector_ptr. *)
Definition bytes_to_vec : func := Func 2 1 1
 [ LocalGet 1; LocalGet 1; Const 1; Call allocate_vector_with_header; LocalSet 2;
   LocalGet 2; Const 8; Bin I32 Add; LocalGet 0; LocalGet 1; MemCopy; LocalGet 2 ].

(** transaction.rs 104-144 [add_native_data_fn]. *)
Definition native_data : func := Func 0 0 1
 [ Const 396; Load 4 4; Const 396; Load 4 0; Call bytes_to_vec ].

(** The 256-bit quantity a host function writes. *)
Definition host_value (h : hostfn) (H : hostst) : option Z :=
  match h with
  | H_msg_value => Some (h_value H)
  | H_block_basefee => Some (h_basefee H)
  | H_tx_gas_price => Some (h_gas_price H)
  | _ => None
  end.

Lemma host_word_spec : forall h w v, wok w -> host_value h (host w) = Some v ->
  wpf (host_word h) [] w (resq (fun vs w' => vs = [gnext w] /\ extends w w' /\ live w' (gnext w) 32 /\
    load_be 32 (mem w') (gnext w) = v mod 2 ^ 256) (oom w 32)).
Proof.
  intros h w v Hw Hv. apply wpf_intro; [reflexivity|]; wc. ws1.
  wcall alloc_spec; [exact Hw|lia|auto|]. intros vs w1 (->&A). pose proof (alloc_extends w w1 32 Hw A ltac:(lia)) as X.
  destruct A as (Hw1&A). pose proof X as (_&X1&X2&X3&X4&X5&X6).
  wc. ws1.
  assert (G : gnext w1 = gnext w + 32) by tauto.
  assert (Lv : live w1 (gnext w) 32) by (unfold live; pose proof Hw as (?&?&?&?); lia).
  assert (Ih : inb w1 (gnext w) 32 = true) by (apply inb_live; assumption).
  pose (m := store_be 32 (mem w1) (gnext w) v).
  assert (E : hostcall h (gnext w :: []) [gnext w] w1 = ONormal [] [gnext w] (set_mem w1 m)).
  { destruct h; try discriminate; cbn [host_value] in Hv; injection Hv as Hv; cbn [hostcall]; rewrite Ih, X5, Hv; reflexivity. }
  eapply wp_host; [exact E|]. ws1. ws1. split; [reflexivity|].
  split; [|split; [exact Lv|exact (load_be_store32 (mem w1) (gnext w) v)]].
  apply extends_write with (gnext w) 32; [exact Hw|exact X| |lia|lia].
  intros x Hx. unfold m. apply rd_store_be_out. unfold within in Hx. lia.
Qed.

Lemma sender_spec : forall w, wok w ->
  wpf native_sender [] w (resq (fun vs w' => vs = [gnext w] /\ extends w w' /\ live w' (gnext w) 32 /\
    load_be 32 (mem w') (gnext w) = h_sender (host w) mod 2 ^ 160) (oom w 32)).
Proof.
  intros w Hw. apply wpf_intro; [reflexivity|]; wc. ws1.
  wcall alloc_spec; [exact Hw|lia|auto|]. intros vs w1 (->&A). pose proof (alloc_extends w w1 32 Hw A ltac:(lia)) as X.
  destruct A as (Hw1&A). pose proof X as (_&X1&X2&X3&X4&X5&X6). pose proof Hw as (P1&P2&P3&P4&P5&P6). pose proof Hw1 as (Q1&Q2&Q3&Q4&Q5&Q6).
  assert (G : gnext w1 = gnext w + 32) by tauto.
  wc. ws1. ws1. ws1.
  pose (m := store_be 20 (mem w1) (gnext w + 12) (h_sender (host w))).
  eapply wp_host.
  { cbn [hostcall]. rewrite (inb_live w1 (gnext w + 12) 20 Hw1) by (unfold live; lia). rewrite X5. reflexivity. }
  fold m. ws1. ws1. split; [reflexivity|]. split; [|split; [unfold live; cbn [gnext set_mem]; lia|]].
  - apply extends_write with (gnext w) 32; [exact Hw|exact X| |lia|lia].
    intros x Hx. unfold m. apply rd_store_be_out. unfold within in Hx. lia.
  - cbn [mem set_mem]. change 32%nat with (12 + 20)%nat. rewrite load_be_split, (load_be_zero 12).
    + pose proof (load_be_store_be_same 20 (mem w1) (gnext w + 12) (h_sender (host w))) as E. exact E.
    + intros x Hx. unfold m. rewrite rd_store_be_out by lia.
      rewrite (proj1 A). apply P6. lia.
Qed.

Lemma bytes_to_vec_spec : forall w p s, wok w -> live w p (Z.of_nat (List.length s)) -> bytes (List.length s) (mem w) p = s ->
  Z.of_nat (List.length s) < 2 ^ 31 - 8 ->
  wpf bytes_to_vec [p; Z.of_nat (List.length s)] w (resq (fun vs w' => vs = [gnext w] /\ extends w w' /\ byte_vec w' (gnext w) s)
    (oom w (8 + Z.of_nat (List.length s)))).
Proof.
  intros w p s Hw Lp Bs Hs. pose proof Hw as (P1&P2&P3&P4&P5&P6). unfold live in Lp.
  set (n := Z.of_nat (List.length s)) in *. assert (0 <= n) by (unfold n; lia).
  apply wpf_intro; [reflexivity|]; wc. ws1. ws1. ws1.
  wcall allocate_vector_spec; [exact Hw|lia|lia|lia|lia|intros O; eapply oom_mono; [exact O|lia]|].
  intros vs w1 (->&X&G1&L1&L2&Zr). pose proof X as (Hw1&X1&X2&X3&X4&X5&X6). pose proof Hw1 as (Q1&Q2&Q3&Q4&Q5&Q6).
  wc. ws1. ws1. ws1. ws1. ws1. ws1. ws1. ws1. ws1.
  split; [reflexivity|]. set (m := mcopy (mem w1) (gnext w + 8) p n). split.
  { apply extends_write with (gnext w + 8) n; [exact Hw|exact X| |lia|lia]. intros x Hx. unfold m. apply rd_mcopy_out. unfold within in Hx. lia. }
  unfold byte_vec. fold n. cbn [gnext mem set_mem]. split; [unfold live; cbn [gnext set_mem]; lia|]. split.
  - rewrite <- L1. apply load_ext. intros k Hk. unfold m. apply rd_mcopy_out. lia.
  - rewrite <- Bs at 2. apply nth_ext with (d := 0) (d' := 0); [rewrite !bytes_length; reflexivity|].
    rewrite bytes_length. intros k Hk. rewrite !bytes_nth by lia. unfold m. rewrite rd_mcopy_in by lia. rewrite X6 by lia. f_equal. lia.
Qed.

Lemma data_spec : forall w s, wok w -> load 4 (mem w) 396 = Z.of_nat (List.length s) ->
  live w (load 4 (mem w) 400) (Z.of_nat (List.length s)) -> bytes (List.length s) (mem w) (load 4 (mem w) 400) = s ->
  Z.of_nat (List.length s) < 2 ^ 31 - 8 ->
  wpf native_data [] w (resq (fun vs w' => vs = [gnext w] /\ extends w w' /\ byte_vec w' (gnext w) s)
    (oom w (8 + Z.of_nat (List.length s)))).
Proof.
  intros w s Hw Ln Lp Bs Hs. pose proof Hw as (P1&P2&P3&P4&P5&P6).
  apply wpf_intro; [reflexivity|]; wc. ws1. ws1. ws1. ws1. change (396 + 4) with 400. rewrite Ln.
  wcall bytes_to_vec_spec; [exact Hw|exact Lp|exact Bs|exact Hs|auto|].
  intros vs w1 (->&X&B). wc. ws1. auto.
Qed.

Lemma load_reversed : forall n m a, be_bytes n (load n m a) = rev (be_bytes n (load_be n m a)).
Proof.
  intros. rewrite <- bswap_load, bswap_bytes, rev_involutive; [reflexivity|]. apply load_range.
Qed.

Lemma host_word_result : forall h w v, wok w -> host_value h (host w) = Some v -> 0 <= v < 2 ^ 256 ->
  (exists p w', returns (host_word h) [] w [p] w' /\ extends w w' /\ gnext w <= p /\ live w' p 32 /\
     bytes 32 (mem w') p = be_bytes 32 v /\ be_bytes 32 (load 32 (mem w') p) = rev (be_bytes 32 v)) \/
  out_of_memory (host_word h) [] w 32.
Proof.
  intros h w v Hw Hv R. pose proof (host_word_spec h w v Hw Hv) as W. apply wpf_cases in W.
  destruct W as [(vs&w'&Rt&->&X&L&E)|(Tr&O)]; [left|right; split; assumption].
  rewrite Z.mod_small in E by exact R. exists (gnext w), w'. repeat (split; [assumption || lia|]).
  rewrite load_reversed, E, <- be_bytes_load_be, E. auto.
Qed.

Lemma sender_result : forall w, wok w -> 0 <= h_sender (host w) < 2 ^ 160 ->
  (exists p w', returns native_sender [] w [p] w' /\ extends w w' /\ gnext w <= p /\ live w' p 32 /\
     bytes 32 (mem w') p = be_bytes 32 (h_sender (host w))) \/
  out_of_memory native_sender [] w 32.
Proof.
  intros w Hw R. pose proof (sender_spec w Hw) as W. apply wpf_cases in W.
  destruct W as [(vs&w'&Rt&->&X&L&E)|(Tr&O)]; [left|right; split; assumption].
  rewrite Z.mod_small in E by exact R. exists (gnext w), w'. repeat (split; [assumption || lia|]).
  rewrite <- be_bytes_load_be, E. reflexivity.
Qed.

Lemma data_result : forall w s, wok w -> load 4 (mem w) 396 = Z.of_nat (List.length s) ->
  live w (load 4 (mem w) 400) (Z.of_nat (List.length s)) -> bytes (List.length s) (mem w) (load 4 (mem w) 400) = s ->
  Z.of_nat (List.length s) < 2 ^ 31 - 8 ->
  (exists p w', returns native_data [] w [p] w' /\ extends w w' /\ gnext w <= p /\ byte_vec w' p s) \/
  out_of_memory native_data [] w (8 + Z.of_nat (List.length s)).
Proof.
  intros w s Hw H1 H2 H3 H4. pose proof (data_spec w s Hw H1 H2 H3 H4) as W. apply wpf_cases in W.
  destruct W as [(vs&w'&Rt&->&X&B)|(Tr&O)]; [left|right; split; assumption].
  exists (gnext w), w'. repeat (split; [assumption || lia|]). exact B.
Qed.

(** The calldata the host holds reaches the contract. *)
Lemma data_begins : forall w w1 w2 data, begins w w1 (List.length (h_args (host w))) data ->
  firstn (List.length (h_args (host w))) data = h_args (host w) -> extends w1 w2 ->
  Z.of_nat (List.length (h_args (host w))) < 2 ^ 31 - 8 -> wok w ->
  (exists p w', returns native_data [] w2 [p] w' /\ extends w2 w' /\ gnext w2 <= p /\ byte_vec w' p (h_args (host w))) \/
  out_of_memory native_data [] w2 (8 + Z.of_nat (List.length (h_args (host w)))).
Proof.
  intros w w1 w2 data (B1&B2&B3&B4&B5&B6&B7&B8&B9&B10) Hf X Hs Hw. pose proof Hw as (P1&P2&P3&P4&P5&P6). pose proof X as (Hw2&X1&X2&X3&X4&X5&X6).
  set (s := h_args (host w)) in *. assert (Ls : (List.length s <= List.length data)%nat).
  { rewrite <- Hf, firstn_length. lia. }
  assert (E1 : load 4 (mem w2) 396 = Z.of_nat (List.length s)) by (rewrite <- B8; apply load_ext; intros; apply X6; lia).
  assert (E2 : load 4 (mem w2) 400 = gnext w) by (rewrite <- B9; apply load_ext; intros; apply X6; lia).
  apply data_result; [exact Hw2|exact E1|rewrite E2; unfold live; lia| |exact Hs].
  rewrite E2. rewrite <- Hf at 2. apply nth_ext with (d := 0) (d' := 0); [rewrite bytes_length, firstn_length; lia|].
  rewrite bytes_length. intros k Hk. rewrite bytes_nth by lia. rewrite nth_firstn_lt by lia.
  rewrite <- B7, bytes_nth by lia. apply X6. lia.
Qed.
