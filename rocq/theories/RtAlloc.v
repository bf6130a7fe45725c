(** * The memory allocator (memory.rs). *)

From Verif Require Import Tac.

(** memory.rs 23-124 [setup_module_memory]: the emitted allocator.
    Locals: 0 requested_size, 1 memory_delta, 2 grow_pages, 3 memory_pointer. *)
Definition alloc : func := Func 1 3 1
 [ Block "block" 0
     [ LocalGet 0; GlobalGet GAvail; Bin I32 Sub; LocalTee 1;
       Const 0; Bin I32 LeS; BrIf "block";
       Block "inner" 0
         [ LocalGet 1; Const 65536; Bin I32 DivU; Const 1; Bin I32 Add; LocalTee 2;
           MemGrow; Const 0; Bin I32 GtS;
           If 0
             [ LocalGet 2; Const 65536; Bin I32 Mul; GlobalGet GAvail; Bin I32 Add; GlobalSet GAvail ]
             [ Unreachable ] ] ];
   GlobalGet GNext; LocalTee 3; LocalGet 0; Bin I32 Add; GlobalSet GNext;
   GlobalGet GAvail; LocalGet 0; Bin I32 Sub; GlobalSet GAvail;
   LocalGet 3 ].

(** Allocating [n] more bytes may exceed what the host grants (the allocator asks
    for up to one page more than needed). *)
Definition oom (w : world) (n : Z) : Prop := 65536 * maxpages w < gnext w + n + 65536.

(** Effect of a successful allocation of [n] bytes. *)
Definition allocated (w w' : world) (n : Z) : Prop :=
  wok w' /\ mem w' = mem w /\ maxpages w' = maxpages w /\ pages w <= pages w' /\
  gnext w' = gnext w + n /\ gcd w' = gcd w /\ host w' = host w.

Ltac Zify.zify_post_hook ::= Z.div_mod_to_equations.

(** [wok] without the zero-memory clause: all the allocator itself relies on. *)
Definition heap_ok (w : world) : Prop :=
  1 <= pages w <= maxpages w /\ maxpages w <= 65535 /\
  468 <= gnext w /\ 0 <= gavail w <= 65536 /\
  gnext w + gavail w = 65536 * pages w.

Lemma wok_heap_ok : forall w, wok w -> heap_ok w.
Proof. unfold wok, heap_ok; tauto. Qed.

Lemma alloc_spec0 : forall w n, heap_ok w -> 0 <= n < 2147483648 ->
  wpf alloc [n] w (resq (fun vs w' => vs = [gnext w] /\ heap_ok w' /\ mem w' = mem w /\
     maxpages w' = maxpages w /\ pages w <= pages w' /\ gnext w' = gnext w + n /\
     gcd w' = gcd w /\ host w' = host w) (oom w n)).
Proof.
  intros [m pg mx gn ga gc h] n (P1&P2&P3&P4&P5) Hn; cbn [mem pages maxpages gnext gavail] in *.
  unfold alloc. apply wpf_intro; [reflexivity|]. wc.
  ws1.
  apply wp_lget with (v := n); [reflexivity|].
  ws1. ws1.
  ws1. ws1. eapply wp_bin; [reflexivity|].
  apply wp_brif; intros C; unb C.
  - assert (n <= ga).
    { destruct (Z_le_gt_dec n ga); [lia|].
      rewrite w32_small, !sgn32_pos in C by lia. lia. }
    wc. ws. split; [reflexivity|]. unfold heap_ok; wc.
    repeat match goal with |- _ /\ _ => split end; try reflexivity; lia.
  - assert (ga < n).
    { destruct (Z_le_gt_dec n ga); [|lia].
      destruct (Z.eq_dec n ga); [subst; rewrite w32_small, !sgn32_pos in C by lia; lia|].
      rewrite w32_sub_neg, sgn32_neg, sgn32_pos in C by lia. lia. }
    rewrite w32_small in * by lia.
    ws1. ws1. ws1.
    eapply wp_bin; [reflexivity|].
    ws1. ws1. ws1.
    apply wp_mgrow; wc; intros.
    + ws1. eapply wp_bin; [reflexivity|]. apply wp_if; intros C2; unb C2.
      2:{ rewrite !sgn32_pos in C2 by lia. lia. }
      ws. split; [reflexivity|]. unfold heap_ok; wc.
      repeat match goal with |- _ /\ _ => split end; try reflexivity; lia.
    + ws1. eapply wp_bin; [reflexivity|]. apply wp_if; intros C2; unb C2.
      1:{ vm_compute in C2. discriminate. }
      ws. unfold oom; wc. lia.
Qed.

Lemma alloc_spec : forall w n, wok w -> 0 <= n < 2147483648 ->
  wpf alloc [n] w (resq (fun vs w' => vs = [gnext w] /\ allocated w w' n) (oom w n)).
Proof.
  intros w n Hw Hn. eapply wpf_conseq; [apply alloc_spec0; [apply wok_heap_ok; exact Hw|exact Hn]|].
  intros [vs w'| | |]; cbn [resq]; auto.
  intros (->&H1&H2&H3&H4&H5&H6&H7). split; [reflexivity|]. unfold allocated.
  pose proof Hw as (P1&P2&P3&P4&P5&P6). destruct H1 as (Q1&Q2&Q3&Q4&Q5).
  split; [|auto 10]. unfold wok. repeat (split; [lia|]). intros. rewrite H2. apply P6. lia.
Qed.
