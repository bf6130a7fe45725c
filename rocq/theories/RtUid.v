(** * Ids: native_functions/object.rs 20-106, 279-330. *)

From Verif Require Import Tac RtAlloc RtErr RtSwap RtAscii RtCopy Ops SpecAbi LemAbi SpecVal LemVal SpecStor SpecLayout RtStor RtRouter SpecDyn RtChild Comp.
Ltac Zify.zify_post_hook ::= idtac.

(** A struct type as Move names it: the address and name of its module and its own name. *)
Record struct_name := StructName { s_address : Z; s_module : string; s_ident : string }.

(** object.rs 20-67 [add_compute_named_id_fn] for the tag type [t]; [H] is keccak256, which the compiler computes
    (utils.rs 86-114).  Local 0: id_ptr.  Only non-generic structs are accepted as tags (lines 36-39). *)
Definition named_id_key (H : list Z -> Z) (t : struct_name) : Z := H (ascii_bytes (s_ident t)) mod 2 ^ 256.
Definition compute_named_id (H : list Z -> Z) (t : struct_name) : func := Func 0 1 1
  ([ Const 32; Call alloc; LocalSet 0 ] ++ keccak_string_to_memory (named_id_key H t) ++ [ LocalGet 0 ]).

(** object.rs 72-106 [add_as_uid_fn].  Locals: 0 named_id_ptr, 1 result. *)
Definition as_uid : func := Func 1 1 1
  [ Const 4; Call alloc; LocalTee 1; LocalGet 0; Store 4 0; LocalGet 1 ].

(** object.rs 279-330 [add_borrow_uid_fn].  Locals: 0 obj_ptr, 1 uid_ptr, 2 uid_ref. *)
Definition borrow_uid : func := Func 1 2 1
  [ LocalGet 0; Load 4 0; LocalSet 1;
    Const 4; Call alloc; LocalTee 2; LocalGet 1; Store 4 0; LocalGet 2 ].

Lemma named_id_spec : forall H t w, wok w ->
  wpf (compute_named_id H t) [] w (resq (fun rs w' => exists p, rs = [p] /\ extends w w' /\ gnext w <= p /\ live w' p 32 /\ load_be 32 (mem w') p = named_id_key H t) (oom w 32)).
Proof.
  intros H t w Hw. set (k := named_id_key H t). assert (Hk : 0 <= k < 2 ^ 256) by (apply Z.mod_pos_bound; lia).
  apply wpf_intro; [reflexivity|]; unfold compute_named_id; fold k; wc. ws1.
  wcall alloc_spec; [exact Hw|lia|auto|]. intros vs w1 (->&A). pose proof (alloc_extends w w1 32 Hw A ltac:(lia)) as X.
  destruct A as (Hw1&Em&A1&A2&A3&A4&A5). pose proof Hw as (P1&P2&P3&P4&P5&P6). wc. ws1.
  change (wp (keccak_string_to_memory k ++ [LocalGet 0]) (fret 1 (fun rs w' => exists p, rs = [p] /\ extends w w' /\ gnext w <= p /\ live w' p 32 /\ load_be 32 (mem w') p = k) (oom w 32)) [] [gnext w] w1).
  apply wp_key with (p := gnext w); [exact Hw1|exact Hk|reflexivity|unfold live; lia|].
  intros m Lm Rm. ws1. ws1. exists (gnext w). split; [reflexivity|]. split; [|split; [lia|split; [unfold live; cbn [gnext set_mem]; lia|exact Lm]]].
  apply extends_write with (gnext w) 32; [exact Hw|exact X| |lia|lia]. intros x Hx. apply Rm. exact Hx.
Qed.

(** Putting a pointer into a new reference. *)
Lemma new_ref_spec : forall w w1 x, wok w -> allocated w w1 4 -> 0 <= x < 2 ^ 32 ->
  let w2 := set_mem w1 (store 4 (mem w1) (gnext w) x) in extends w w2 /\ live w2 (gnext w) 4 /\ load 4 (mem w2) (gnext w) = x.
Proof.
  intros w w1 x Hw A Hx w2. pose proof (alloc_extends w w1 4 Hw A ltac:(lia)) as X. destruct A as (Hw1&Em&A1&A2&A3&A4&A5). pose proof Hw as (P1&P2&P3&P4&P5&P6).
  split; [|split].
  - apply extends_write with (gnext w) 4; [exact Hw|exact X| |lia|lia]. intros y Hy. apply rd_store_out. unfold within in Hy. lia.
  - unfold live. cbn [w2 gnext set_mem]. lia.
  - cbn [w2 mem set_mem]. rewrite (load_store_same 4). apply Z.mod_small. exact Hx.
Qed.

Lemma uid_extends : forall w w' u p, wok w -> extends w w' -> uid_at w u p -> uid_at w' u p /\ load_be 32 (mem w') p = load_be 32 (mem w) p.
Proof.
  intros w w' u p Hw (_&_&_&G&_&_&R) (U1&U2&U3&U4&U5&U6&U7).
  assert (E1 : load 4 (mem w') u = load 4 (mem w) u) by (apply load_ext; change (Z.of_nat 4) with 4; intros i Hi; apply R; lia).
  assert (E2 : load 4 (mem w') (load 4 (mem w) u) = load 4 (mem w) (load 4 (mem w) u)) by (apply load_ext; change (Z.of_nat 4) with 4; intros i Hi; apply R; lia).
  split; [|apply load_be_ext; change (Z.of_nat 32) with 32; intros i Hi; apply R; lia].
  unfold uid_at. rewrite E1, E2. repeat (split; [first [assumption|lia]|]). lia.
Qed.

Lemma as_uid_spec : forall u p w, wok w -> uid_at w u p ->
  wpf as_uid [u] w (resq (fun rs w' => exists r, rs = [r] /\ extends w w' /\ live w' r 4 /\ gnext w <= r /\ load 4 (mem w') r = u /\ uid_at w' u p /\ load_be 32 (mem w') p = load_be 32 (mem w) p) (oom w 4)).
Proof.
  intros u p w Hw U. pose proof Hw as (P1&P2&P3&P4&P5&P6). pose proof U as (U1&U2&_). apply wpf_intro; [reflexivity|]; wc. ws1.
  wcall alloc_spec; [exact Hw|lia|auto|]. intros vs w1 (->&A). destruct (new_ref_spec w w1 u Hw A ltac:(lia)) as (X&L&E). destruct A as (Hw1&Em&A1&A2&A3&A4&A5). pose proof Hw1 as (Q1&Q2&Q3&Q4&Q5&Q6).
  wc. ws1. ws1. apply wp_store; [lia|unfold page_size; change (Z.of_nat 4) with 4; lia|]. rewrite Z.add_0_r. change (Z.of_nat 4) with 4. ws1. ws1.
  exists (gnext w). split; [reflexivity|]. split; [exact X|]. split; [exact L|]. split; [lia|]. split; [exact E|]. exact (uid_extends w _ u p Hw X U).
Qed.

Lemma borrow_uid_spec : forall fs owner id vs x F w, wok w -> object_at (mem w) fs owner id vs x F -> sub F (heap w) ->
  wpf borrow_uid [x] w (resq (fun rs w' => exists r p, rs = [r] /\ extends w w' /\ live w' r 4 /\ gnext w <= r /\ load 4 (mem w') r = load 4 (mem w) x /\ uid_at w' (load 4 (mem w') r) p /\ load_be 32 (mem w') p = id) (oom w 4)).
Proof.
  intros fs owner id vs x F w Hw Ob SF. pose proof Hw as (P1&P2&P3&P4&P5&P6).
  destruct (id_bytes_ok w (mem w) fs owner id vs x F Ob SF Hw eq_refl) as (c&_&Li&C1&C2&X1&X2&Sc&Ec&A1&A2&B1&B2).
  assert (U : uid_at w (load 4 (mem w) x) c) by (unfold uid_at; unfold id_ptr in Ec; repeat (split; [first [assumption|congruence]|]); assumption).
  apply wpf_intro; [reflexivity|]; wc. ws1. apply wp_load; [lia|unfold page_size; change (Z.of_nat 4) with 4; lia|]. rewrite Z.add_0_r. ws1. ws1.
  wcall alloc_spec; [exact Hw|lia|auto|]. intros rs w1 (->&A). destruct (new_ref_spec w w1 (load 4 (mem w) x) Hw A ltac:(lia)) as (X&L&E). destruct A as (Hw1&Em&D1&D2&D3&D4&D5). pose proof Hw1 as (Q1&Q2&Q3&Q4&Q5&Q6).
  wc. ws1. ws1. apply wp_store; [lia|unfold page_size; change (Z.of_nat 4) with 4; lia|]. rewrite Z.add_0_r. change (Z.of_nat 4) with 4. ws1. ws1.
  destruct (uid_extends w _ _ c Hw X U) as (U'&Lc). exists (gnext w), c. split; [reflexivity|]. split; [exact X|]. split; [exact L|]. split; [lia|]. split; [exact E|].
  change (mem (set_mem w1 (store 4 (mem w1) (gnext w) (load 4 (mem w) x)))) with (store 4 (mem w1) (gnext w) (load 4 (mem w) x)) in *. rewrite E. split; [exact U'|]. rewrite Lc. exact Li.
Qed.
