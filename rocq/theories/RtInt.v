(** * Integer runtime functions (runtime/integers.rs, runtime/integers/{add,sub}.rs). *)

From Verif Require Import Tac RtAlloc RtErr.

(** runtime/integers.rs 31-69.  Locals: 0 n, 1 max, 2 encoded_error_ptr. *)
Definition check_overflow_u8_u16 (ep : errtab) : func := Func 2 1 1
 [ LocalGet 0; LocalGet 1; Bin I32 GtU;
   If 1 (return_error ep Overflow 2 true) [ LocalGet 0 ] ].

(** runtime/integers/add.rs 208-259.  Locals: 0 n1, 1 n2, 2 res, 3 encoded_error_ptr. *)
Definition add_u32 (ep : errtab) : func := Func 2 2 1
 [ LocalGet 0; LocalGet 1; Bin I32 Add;
   LocalTee 2; LocalGet 0; Bin I32 LtU; LocalGet 2; LocalGet 1; Bin I32 LtU; Bin I32 Or;
   If 1 (return_error ep Overflow 3 true) [ LocalGet 2 ] ].

(** runtime/integers/add.rs 274-328. *)
Definition add_u64 (ep : errtab) : func := Func 2 2 1
 [ LocalGet 0; LocalGet 1; Bin I64 Add; LocalTee 2;
   LocalGet 0; Bin I64 LtU; LocalGet 2; LocalGet 1; Bin I64 LtU; Bin I32 Or;
   If 1 (return_error ep Overflow 3 true) [ LocalGet 2 ] ].

(** runtime/integers/sub.rs 203-243.  Locals: 0 n1, 1 n2, 2 encoded_error_ptr. *)
Definition sub_u32 (ep : errtab) : func := Func 2 1 1
 [ LocalGet 0; LocalGet 1; Bin I32 LtU;
   If 1 (return_error ep Overflow 2 true) [ LocalGet 0; LocalGet 1; Bin I32 Sub ] ].

(** runtime/integers/sub.rs 253-293. *)
Definition sub_u64 (ep : errtab) : func := Func 2 1 1
 [ LocalGet 0; LocalGet 1; Bin I64 LtU;
   If 1 (return_error ep Overflow 2 true) [ LocalGet 0; LocalGet 1; Bin I64 Sub ] ].

(** runtime/integers/mul.rs 324-378.  Locals: 0 n1, 1 n2, 2 encoded_error_ptr. *)
Definition mul_u32 (ep : errtab) : func := Func 2 1 1
 [ LocalGet 1; Const 0; Bin I32 Ne;
   If 1
     [ LocalGet 0; Const 4294967295; LocalGet 1; Bin I32 DivU; Bin I32 GtU;
       If 1 (return_error ep Overflow 2 true) [ LocalGet 0; LocalGet 1; Bin I32 Mul ] ]
     [ Const 0 ] ].

(** runtime/integers/mul.rs 395-449. *)
Definition mul_u64 (ep : errtab) : func := Func 2 1 1
 [ LocalGet 1; Const 0; Bin I64 Ne;
   If 1
     [ LocalGet 0; Const 18446744073709551615; LocalGet 1; Bin I64 DivU; Bin I64 GtU;
       If 1 (return_error ep Overflow 2 true) [ LocalGet 0; LocalGet 1; Bin I64 Mul ] ]
     [ Const 0 ] ].

(** runtime/integers.rs 80-113.  Locals: 0 n, 1 encoded_error_ptr. *)
Definition downcast_u64_to_u32 (ep : errtab) : func := Func 1 1 1
 [ LocalGet 0; Const 4294967295; Bin I64 GtU;
   If 1 (return_error ep OutOfBounds 1 true) [ LocalGet 0; Un Wrap64 ] ].

(** runtime/integers.rs 125-207 (c = 4, 32-bit chunks) and 219-301 (c = 8, 64-bit
    chunks): the two functions differ in the chunk size only.
    Locals: 0 reader_pointer, 1 heap_size, 2 offset, 3 encoded_error_ptr. *)
Definition downcast_heap (c : nat) (ep : errtab) : func := Func 2 2 1
 [ LocalGet 0; Load c 0;
   Block "inner" 0
     [ Const (Z.of_nat c); LocalSet 2;
       Loop "loop" 0
         [ LocalGet 0; LocalGet 2; Bin I32 Add; Load c 0; Un Eqz;
           If 0
             [ LocalGet 1; Const (Z.of_nat c); Bin I32 Sub; LocalGet 2; Bin I32 Eq; BrIf "inner";
               Const (Z.of_nat c); LocalGet 2; Bin I32 Add; LocalSet 2; Br "loop" ]
             (return_error ep OutOfBounds 3 true) ] ] ].
Definition downcast_u128_u256_to_u32 := downcast_heap 4.
Definition downcast_u128_u256_to_u64 := downcast_heap 8.

(** runtime/integers.rs 321-432.
    Locals: 0 a_ptr, 1 b_ptr, 2 type_heap_size, 3 a, 4 b, 5 res, 6 offset. *)
Definition less_than : func := Func 3 4 1
 [ LocalGet 2; Const 8; Bin I32 Sub; LocalSet 6;
   Block "block" 0
     [ Loop "loop" 0
         [ LocalGet 6; Const 0; Bin I32 LtS;
           If 0 [ Const 0; LocalSet 5; Br "block" ] [];
           LocalGet 0; LocalGet 6; Bin I32 Add; Load 8 0; LocalTee 3;
           LocalGet 1; LocalGet 6; Bin I32 Add; Load 8 0; LocalTee 4;
           Bin I64 LtU; LocalTee 5; BrIf "block";
           LocalGet 3; LocalGet 4; Bin I64 Eq;
           If 0 [ LocalGet 6; Const 8; Bin I32 Sub; LocalSet 6; Br "loop" ]
                [ Const 0; Return ] ] ];
   LocalGet 5 ].

(** runtime/integers/add.rs 23-193.
    Locals: 0 n1_ptr, 1 n2_ptr, 2 pointer, 3 type_heap_size, 4 offset, 5 overflowed,
    6 partial_sum, 7 n1, 8 n2, 9 encoded_error_ptr. *)
Definition heap_integers_add (ep : errtab) : func := Func 4 6 1
 [ Const 0; LocalSet 4; Const 0; LocalSet 5;
   Block "block" 0
     [ Loop "loop" 0
         [ LocalGet 4; LocalGet 3; Bin I32 Eq; BrIf "block";
           LocalGet 0; LocalGet 4; Bin I32 Add; Load 8 0; LocalTee 7;
           LocalGet 1; LocalGet 4; Bin I32 Add; Load 8 0; LocalTee 8;
           Bin I64 Add; LocalGet 5; Un ExtendU; Bin I64 Add; LocalSet 6;
           LocalGet 2; LocalGet 4; Bin I32 Add; LocalGet 6; Store 8 0;
           LocalGet 7; Const 0; Bin I64 Ne; LocalGet 8; Const 0; Bin I64 Ne; Bin I32 And;
           LocalGet 5; Un ExtendU; Const 0; Bin I64 Ne; Bin I32 Or;
           LocalGet 6; LocalGet 7; Bin I64 LeU; LocalGet 6; LocalGet 8; Bin I64 LeU; Bin I32 Or;
           Bin I32 And; LocalSet 5;
           LocalGet 4; Const 8; Bin I32 Add; LocalSet 4; Br "loop" ] ];
   LocalGet 5; Const 1; Bin I32 Eq;
   If 1 (return_error ep Overflow 9 true) [ LocalGet 2 ] ].

(** runtime/integers/sub.rs 23-193.
    Locals: 0 n1_ptr, 1 n2_ptr, 2 pointer, 3 type_heap_size, 4 offset, 5 borrow,
    6 sum, 7 partial_sub, 8 n1, 9 n2, 10 encoded_error_ptr. *)
Definition heap_integers_sub (ep : errtab) : func := Func 4 7 1
 [ Const 0; LocalSet 5; Const 0; LocalSet 4;
   Block "block" 0
     [ Loop "loop" 0
         [ LocalGet 4; LocalGet 3; Bin I32 Eq; BrIf "block";
           LocalGet 0; LocalGet 4; Bin I32 Add; Load 8 0; LocalSet 8;
           LocalGet 1; LocalGet 4; Bin I32 Add; Load 8 0; LocalSet 9;
           LocalGet 8; LocalGet 5; Bin I64 Sub; LocalGet 9; Bin I64 Sub; LocalTee 7; LocalSet 7;
           LocalGet 2; LocalGet 4; Bin I32 Add; LocalGet 7; Store 8 0;
           LocalGet 9; LocalGet 5; Bin I64 Add; LocalSet 6;
           LocalGet 8; LocalGet 6; Bin I64 LtU; LocalGet 6; LocalGet 9; Bin I64 LtU; Bin I32 Or;
           Un ExtendU; LocalSet 5;
           LocalGet 4; Const 8; Bin I32 Add; LocalSet 4; Br "loop" ] ];
   LocalGet 5; Const 1; Bin I64 Eq;
   If 1 (return_error ep Overflow 10 true) [ LocalGet 2 ] ].

(** ** Specifications *)

(** A 32/64-bit operation either returns [v] and changes nothing, or aborts with
    [e], depending on [ok]. *)
Definition checked (ep : errtab) (f : func) (args : list Z) (w : world) (ok : Prop) (v : Z) (e : rt_error) : Prop :=
  (ok -> returns f args w [v] w) /\
  (~ ok -> exists w', returns f args w [BADF00D] w' /\ aborted ep e w w').

Lemma b2z_or : forall a b, Z.lor (b2z a) (b2z b) = b2z (a || b).
Proof. destruct a, b; reflexivity. Qed.
Lemma b2z_and : forall a b, Z.land (b2z a) (b2z b) = b2z (a && b).
Proof. destruct a, b; reflexivity. Qed.

Lemma checked_intro : forall ep f args w (ok : Prop) v e,
  (ok \/ ~ ok) ->
  wpf f args w (resq (fun vs w' =>
    (ok /\ vs = [v] /\ w' = w) \/ (~ ok /\ vs = [BADF00D] /\ aborted ep e w w')) False) ->
  checked ep f args w ok v e.
Proof.
  intros ep f args w ok v e D H. apply wpf_returns in H. destruct H as (vs&w'&R&[(A&->&->)|(A&->&B)]).
  - split; [auto|tauto].
  - split; [tauto|eauto].
Qed.

Ltac checked_tac := apply checked_intro; [lia|]; apply wpf_intro; [reflexivity|]; wc.

Lemma check_overflow_spec : forall ep w n max, wok w -> errtab_ok ep ->
  checked ep (check_overflow_u8_u16 ep) [n; max] w (n <= max) n Overflow.
Proof.
  intros. checked_tac. ws.
  - werr; auto. right. split; [lia|]. split; [reflexivity|]. apply aborted_store; auto.
  - left. repeat split. lia.
Qed.

Lemma w32_add_case : forall a b, 0 <= a < 4294967296 -> 0 <= b < 4294967296 ->
  (a + b < 4294967296 /\ w32 (a + b) = a + b) \/
  (4294967296 <= a + b /\ w32 (a + b) = a + b - 4294967296).
Proof.
  intros. destruct (Z_lt_le_dec (a + b) 4294967296).
  - left. split; [lia|]. apply w32_small. lia.
  - right. split; [lia|]. apply w32_add_over. lia.
Qed.
Lemma w64_add_case : forall a b, 0 <= a < 18446744073709551616 -> 0 <= b < 18446744073709551616 ->
  (a + b < 18446744073709551616 /\ w64 (a + b) = a + b) \/
  (18446744073709551616 <= a + b /\ w64 (a + b) = a + b - 18446744073709551616).
Proof.
  intros. destruct (Z_lt_le_dec (a + b) 18446744073709551616).
  - left. split; [lia|]. apply w64_small. lia.
  - right. split; [lia|]. apply w64_add_over. lia.
Qed.

Lemma add_u32_spec : forall ep w a b, wok w -> errtab_ok ep ->
  0 <= a < 4294967296 -> 0 <= b < 4294967296 ->
  checked ep (add_u32 ep) [a; b] w (a + b < 4294967296) (a + b) Overflow.
Proof.
  intros. checked_tac.
  pose proof (w32_add_case a b) as K.
  ws; rewrite b2z_or in *; unb C.
  - werr; auto. right. split; [lia|]. split; [reflexivity|]. apply aborted_store; auto.
  - left. split; [lia|]. split; [|reflexivity]. f_equal. lia.
Qed.

Lemma add_u64_spec : forall ep w a b, wok w -> errtab_ok ep ->
  0 <= a < 18446744073709551616 -> 0 <= b < 18446744073709551616 ->
  checked ep (add_u64 ep) [a; b] w (a + b < 18446744073709551616) (a + b) Overflow.
Proof.
  intros. checked_tac.
  pose proof (w64_add_case a b) as K.
  ws; rewrite b2z_or in *; unb C.
  - werr; auto. right. split; [lia|]. split; [reflexivity|]. apply aborted_store; auto.
  - left. split; [lia|]. split; [|reflexivity]. f_equal. lia.
Qed.

Lemma sub_u32_spec : forall ep w a b, wok w -> errtab_ok ep ->
  0 <= a < 4294967296 -> 0 <= b < 4294967296 ->
  checked ep (sub_u32 ep) [a; b] w (b <= a) (a - b) Overflow.
Proof.
  intros. checked_tac. ws.
  - werr; auto. right. split; [lia|]. split; [reflexivity|]. apply aborted_store; auto.
  - left. repeat split. lia.
Qed.

Lemma sub_u64_spec : forall ep w a b, wok w -> errtab_ok ep ->
  0 <= a < 18446744073709551616 -> 0 <= b < 18446744073709551616 ->
  checked ep (sub_u64 ep) [a; b] w (b <= a) (a - b) Overflow.
Proof.
  intros. checked_tac. ws.
  - werr; auto. right. split; [lia|]. split; [reflexivity|]. apply aborted_store; auto.
  - left. repeat split. lia.
Qed.

Lemma mul_div_iff : forall a b M, 0 <= a -> 0 < b -> 0 <= M -> (a <= M / b <-> a * b <= M).
Proof.
  intros. split; intros.
  - apply Z.le_trans with (M / b * b); [nia|]. pose proof (Z.mul_div_le M b). nia.
  - apply Z.div_le_lower_bound; lia.
Qed.

Lemma mul_u32_spec : forall ep w a b, wok w -> errtab_ok ep ->
  0 <= a < 4294967296 -> 0 <= b < 4294967296 ->
  checked ep (mul_u32 ep) [a; b] w (a * b < 4294967296) (a * b) Overflow.
Proof.
  intros. apply checked_intro; [destruct (Z_lt_le_dec (a*b) 4294967296); [auto|right; lia]|].
  apply wpf_intro; [reflexivity|]; wc.
  ws1. ws1. ws1. ws1.
  - ws. eapply wp_bin; [cbn [binop]; replace (b =? 0) with false by lia; reflexivity|].
    pose proof (mul_div_iff a b 4294967295).
    ws.
    + werr; auto. right. split; [lia|]. split; [reflexivity|]. apply aborted_store; auto.
    + left. try rewrite w32_small by nia. repeat split. lia.
  - ws. left. replace b with 0 by lia. rewrite Z.mul_0_r. repeat split.
Qed.

Lemma mul_u64_spec : forall ep w a b, wok w -> errtab_ok ep ->
  0 <= a < 18446744073709551616 -> 0 <= b < 18446744073709551616 ->
  checked ep (mul_u64 ep) [a; b] w (a * b < 18446744073709551616) (a * b) Overflow.
Proof.
  intros. apply checked_intro; [destruct (Z_lt_le_dec (a*b) 18446744073709551616); [auto|right; lia]|].
  apply wpf_intro; [reflexivity|]; wc.
  ws1. ws1. ws1. ws1.
  - ws. eapply wp_bin; [cbn [binop]; replace (b =? 0) with false by lia; reflexivity|].
    pose proof (mul_div_iff a b 18446744073709551615).
    ws.
    + werr; auto. right. split; [lia|]. split; [reflexivity|]. apply aborted_store; auto.
    + left. try rewrite w64_small by nia. repeat split. lia.
  - ws. left. replace b with 0 by lia. rewrite Z.mul_0_r. repeat split.
Qed.

Lemma downcast_u64_to_u32_spec : forall ep w n, wok w -> errtab_ok ep -> 0 <= n ->
  checked ep (downcast_u64_to_u32 ep) [n] w (n < 4294967296) n OutOfBounds.
Proof.
  intros. checked_tac. ws.
  - werr; auto. right. split; [lia|]. split; [reflexivity|]. apply aborted_store; auto.
  - left. repeat split. lia.
Qed.

Lemma aborted_flag : forall ep e w w', errtab_ok ep -> aborted ep e w w' -> abort_flag w' <> 0.
Proof. intros ep e w w' He [_ ->]. specialize (He e). lia. Qed.

(** Calling a checked operation and propagating its failure. *)
Lemma wp_call_checked : forall ep f np nl nr b (rt : bool) r (Q : outcome -> Prop) s l w (ok : Prop) v e,
  f = Func np nl nr b -> (np <= List.length s)%nat ->
  wok w -> errtab_ok ep -> abort_flag w = 0 ->
  checked ep f (rev (firstn np s)) w ok v e -> ok \/ ~ ok ->
  (ok -> wp r Q (v :: skipn np s) l w) ->
  (forall w', ~ ok -> aborted ep e w w' -> Q (ORet (if rt then [BADF00D] else []) l w')) ->
  wp (Call f :: propagate rt ++ r) Q s l w.
Proof.
  intros ep f np nl nr b rt r Q s l w ok v e Hf Hn Hw He H0 [C1 C2] D K1 K2.
  destruct D as [D|D].
  - eapply wp_call; [eassumption|assumption|]. eapply returns_wpf; [apply C1; exact D|].
    apply wp_propagate_ok; auto.
  - destruct (C2 D) as (w'&R&A). eapply wp_call; [eassumption|assumption|]. eapply returns_wpf; [exact R|].
    apply wp_propagate_err; [eapply wok_aborted; eassumption|eapply aborted_flag; eassumption|]. apply K2; assumption.
Qed.
