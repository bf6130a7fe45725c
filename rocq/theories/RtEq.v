(** * Equality and zero tests on memory (runtime/equality.rs). *)

From Verif Require Import Tac RtAlloc RtErr RtInt RtInt2.

(** runtime/equality.rs 18-109.
    Locals: 0 a_ptr, 1 b_ptr, 2 type_heap_size, 3 offset. *)
Definition a_equals_b : func := Func 3 1 1
 [ Block "block" 0
     [ LocalGet 0; LocalGet 1; Bin I32 Eq; BrIf "block";
       Loop "loop" 0
         [ LocalGet 3; LocalGet 2; Bin I32 Eq; BrIf "block";
           LocalGet 0; LocalGet 3; Bin I32 Add; Load 1 0;
           LocalGet 1; LocalGet 3; Bin I32 Add; Load 1 0;
           Bin I32 Ne;
           If 0 [ Const 0; Return ] [];
           LocalGet 3; Const 1; Bin I32 Add; LocalSet 3; Br "loop" ] ];
   Const 1 ].

(** runtime/equality.rs 122-235.
    Locals: 0 v1_ptr, 1 v2_ptr, 2 length, 3 type_heap_size, 4 res, 5 offset, 6 size. *)
Definition vec_equality_heap_type : func := Func 4 3 1
 [ Const 1; LocalSet 4; Const 0; LocalSet 5;
   LocalGet 0; Const 8; Bin I32 Add; LocalSet 0;
   LocalGet 1; Const 8; Bin I32 Add; LocalSet 1;
   LocalGet 2; Const 4; Bin I32 Mul; LocalSet 6;
   Block "block" 0
     [ Loop "loop" 0
         [ LocalGet 6; LocalGet 5; Bin I32 Eq; BrIf "block";
           LocalGet 0; LocalGet 5; Bin I32 Add; Load 4 0;
           LocalGet 1; LocalGet 5; Bin I32 Add; Load 4 0;
           LocalGet 3; Call a_equals_b;
           If 0 [ LocalGet 5; Const 4; Bin I32 Add; LocalSet 5; Br "loop" ]
                [ Const 0; LocalSet 4; Br "block" ] ] ];
   LocalGet 4 ].

(** runtime/equality.rs 245-318.  Locals: 0 ptr, 1 len, 2 i, 3 out. *)
Definition is_zero : func := Func 2 2 1
 [ Block "outer" 0
     [ Const 0; LocalSet 2; Const 1; LocalSet 3;
       Loop "loop" 0
         [ LocalGet 2; LocalGet 1; Bin I32 GeU; BrIf "outer";
           LocalGet 0; LocalGet 2; Bin I32 Add; Load 4 0;
           Const 0; Bin I32 Ne;
           If 0 [ Const 0; LocalSet 3; Br "outer" ]
                [ LocalGet 2; Const 4; Bin I32 Add; LocalSet 2; Br "loop" ] ] ];
   LocalGet 3 ].

(** A function that computes [v] and changes nothing. *)
Lemma pure_intro : forall f args w v,
  wpf f args w (resq (fun vs w' => vs = [v] /\ w' = w) False) -> returns f args w [v] w.
Proof. intros. apply wpf_returns in H. destruct H as (?&?&?&->&->). auto. Qed.

Lemma bytes_S : forall n m a, bytes (S n) m a = bytes n m a ++ [rd m (a + Z.of_nat n)].
Proof. intros. replace (S n) with (n + 1)%nat by lia. rewrite bytes_app. reflexivity. Qed.

Lemma load_S_byte : forall n m a, load (S n) m a = load n m a + 256 ^ Z.of_nat n * rd m (a + Z.of_nat n).
Proof. intros. replace (S n) with (n + 1)%nat by lia. rewrite load_split, load_1. reflexivity. Qed.

Lemma a_equals_b_spec : forall n w a b, wok w ->
  live w a (Z.of_nat n) -> live w b (Z.of_nat n) ->
  returns a_equals_b [a; b; Z.of_nat n] w [b2z (load n (mem w) a =? load n (mem w) b)] w.
Proof.
  intros n w a b Hw La Lb. apply pure_intro. apply wpf_intro; [reflexivity|]; wc.
  pose proof Hw as (P1&P2&P3&P4&P5&P6). unfold live in La, Lb.
  ws1. ws1. ws1. ws1. ws1.
  - ws. assert (a = b) by lia. subst. rewrite Z.eqb_refl. auto.
  - eapply (wp_loop (fun k l w' => exists j, (j <= n)%nat /\ k = (n - j)%nat /\
       l = [a; b; Z.of_nat n; Z.of_nat j] /\ w' = w /\
       load j (mem w) a = load j (mem w) b)) with (k := n).
    + exists 0%nat. repeat (split; [first [lia|reflexivity]|]). reflexivity.
    + intros k l w' (j&Hj&->&->&->&Hz). ws1. ws1. ws1. ws1.
      * assert (j = n) by lia. subst j. ws. rewrite Hz, Z.eqb_refl. auto.
      * pose proof (load_S_byte j (mem w) a) as Sa. pose proof (load_S_byte j (mem w) b) as Sb.
        ws1. ws1. ws1. ws1. ws1. ws1. ws1. ws1. ws1. ws1.
        -- rewrite !load_1 in *. ws. split; [|reflexivity].
           destruct (load n (mem w) a =? load n (mem w) b) eqn:E; [|reflexivity]. exfalso.
           apply Z.eqb_eq in E. pose proof (load_inj n _ _ _ _ E (Z.of_nat j)). lia.
        -- rewrite !load_1 in *. ws. exists (n - S j)%nat. split; [lia|]. exists (S j).
           repeat (split; [first [lia|reflexivity|leq]|]). rewrite Sa, Sb, Hz. f_equal. f_equal. lia.
Qed.

Lemma load_chunk4 : forall j m p,
  load (4 * S j) m p = load (4 * j) m p + 256 ^ (4 * Z.of_nat j) * load 4 m (p + 4 * Z.of_nat j).
Proof. intros. exact (load_chunk 4 j m p). Qed.

Lemma is_zero_spec : forall N w p, wok w -> live w p (Z.of_nat (4 * N)) ->
  returns is_zero [p; Z.of_nat (4 * N)] w [b2z (load (4 * N) (mem w) p =? 0)] w.
Proof.
  intros N w p Hw Lp. apply pure_intro. apply wpf_intro; [reflexivity|]; wc.
  pose proof Hw as (P1&P2&P3&P4&P5&P6). unfold live in Lp.
  ws1. ws1. ws1. ws1. ws1.
  eapply (wp_loop (fun k l w' => exists j, (j <= N)%nat /\ k = (N - j)%nat /\
       l = [p; Z.of_nat (4 * N); 4 * Z.of_nat j; 1] /\ w' = w /\
       load (4 * j) (mem w) p = 0)) with (k := N).
  - exists 0%nat. repeat (split; [first [lia|reflexivity]|]). reflexivity.
  - intros k l w' (j&Hj&->&->&->&Hz). ws1. ws1. ws1. ws1.
    + assert (j = N) by lia. subst j. ws. rewrite Hz. auto.
    + pose proof (load_chunk4 j (mem w) p) as Sa.
      ws1. ws1. ws1. ws1. ws1. ws1. ws1.
      * ws. split; [|reflexivity].
        pose proof (load_ge_chunk 4 j N (mem w) p ltac:(lia)) as G. change (Z.of_nat 4) with 4 in G.
        specialize (G ltac:(lia)). pose proof (pow256_pos (4 * Z.of_nat j)).
        replace (_ =? 0) with false by lia. reflexivity.
      * ws. exists (N - S j)%nat. split; [lia|]. exists (S j).
        repeat (split; [first [lia|reflexivity|leq]|]). rewrite Sa, Hz.
        replace (load 4 (mem w) (p + 4 * Z.of_nat j)) with 0 by lia. lia.
Qed.
