(** * Properties of integer arithmetic: C03-C11, C13-C15 and the comparison operators (C12). *)

From Verif Require Import SpecInt Spec Tac RtAlloc RtErr Ops LemInt.

(** C03.  u8..u64: the sum, or the overflow error. *)
Theorem C03_add_u8_u64 : forall ep t w a b,
  is_heap t = false -> running ep w -> 0 <= a < 2 ^ width t -> 0 <= b < 2 ^ width t ->
  (a + b < 2 ^ width t -> yields (arith_fn ep MAdd t) [a; b] w t (a + b)) /\
  (2 ^ width t <= a + b -> aborts_with ep (arith_fn ep MAdd t) [a; b] w Overflow).
Proof. exact add_small. Qed.
Print Assumptions C03_add_u8_u64.

Example C03_example : running ep0 w0 /\
  (exists w', returns (arith_fn ep0 MAdd U8) [200; 55] w0 [255] w') /\
  (exists w', returns (arith_fn ep0 MAdd U8) [200; 56] w0 [BADF00D] w').
Proof. split; [apply (running_wm zmem 600); [apply wm_ok; lia|reflexivity]|]. split; runs 100%nat. Qed.

(** C04.  u128/u256: a fresh integer holding the sum, or the overflow error; memory below the
    old frontier is unchanged ([extends] in [yields_fresh]). *)
Theorem C04_add_u128_u256 : forall ep t w x y a b,
  is_heap t = true -> running ep w -> repr w t x a -> repr w t y b ->
  (a + b < 2 ^ width t -> yields_fresh (arith_fn ep MAdd t) [x; y] w t (a + b)
                          \/ out_of_memory (arith_fn ep MAdd t) [x; y] w (heap_size t)) /\
  (2 ^ width t <= a + b -> aborts_with ep (arith_fn ep MAdd t) [x; y] w Overflow
                          \/ out_of_memory (arith_fn ep MAdd t) [x; y] w (heap_size t)).
Proof. exact add_heap. Qed.
Print Assumptions C04_add_u128_u256.

(** Two u128 (2^64-1 at 480, 2^127 at 496) and two u256 (2^128+1 at 512, 2^255 at 544). *)
Definition wex : world :=
  wm (store 32 (store 32 (store 16 (store 16 zmem 480 (2 ^ 64 - 1)) 496 (2 ^ 127)) 512 (2 ^ 128 + 1)) 544 (2 ^ 255)) 600.

Example C04_example : running ep0 wex /\ repr wex U128 480 (2 ^ 64 - 1) /\ repr wex U128 496 (2 ^ 127) /\
  repr wex U256 512 (2 ^ 128 + 1) /\ repr wex U256 544 (2 ^ 255) /\
  (exists w', returns (arith_fn ep0 MAdd U128) [480; 496] wex [600] w' /\ load 16 (mem w') 600 = 2 ^ 127 + 2 ^ 64 - 1) /\
  (exists w', returns (arith_fn ep0 MAdd U256) [544; 544] wex [BADF00D] w').
Proof.
  split.
  { apply running_wm; [repeat (apply wm_store_ok; [|lia]); apply wm_ok; lia|vm_compute; reflexivity]. }
  repeat (split; [split; [cbn; lia|cbn [is_heap heap_size]; split; [unfold live, wex, wm; cbn; lia|vm_compute; reflexivity]]|]).
  split; [|runs 1000%nat].
  destruct (runs_to_vals 1000 (arith_fn ep0 MAdd U128) [480; 496] wex [600] (fun w' => load 16 (mem w') 600 =? 2 ^ 127 + 2 ^ 64 - 1))
    as (w'&R&H); [vm_compute; reflexivity|]. exists w'. split; [exact R|apply Z.eqb_eq; exact H].
Qed.

(** C05.  u8..u64: the difference, or the overflow error. *)
Theorem C05_sub_u8_u64 : forall ep t w a b,
  is_heap t = false -> running ep w -> 0 <= a < 2 ^ width t -> 0 <= b < 2 ^ width t ->
  (b <= a -> yields (arith_fn ep MSub t) [a; b] w t (a - b)) /\
  (a < b -> aborts_with ep (arith_fn ep MSub t) [a; b] w Overflow).
Proof. exact sub_small. Qed.
Print Assumptions C05_sub_u8_u64.

Example C05_example :
  (exists w', returns (arith_fn ep0 MSub U64) [2 ^ 63; 1] w0 [2 ^ 63 - 1] w') /\
  (exists w', returns (arith_fn ep0 MSub U16) [5; 6] w0 [BADF00D] w').
Proof. split; runs 100%nat. Qed.

(** C06.  u128/u256: a fresh integer holding the difference, or the overflow error. *)
Theorem C06_sub_u128_u256 : forall ep t w x y a b,
  is_heap t = true -> running ep w -> repr w t x a -> repr w t y b ->
  (b <= a -> yields_fresh (arith_fn ep MSub t) [x; y] w t (a - b)
             \/ out_of_memory (arith_fn ep MSub t) [x; y] w (heap_size t)) /\
  (a < b -> aborts_with ep (arith_fn ep MSub t) [x; y] w Overflow
             \/ out_of_memory (arith_fn ep MSub t) [x; y] w (heap_size t)).
Proof. exact sub_heap. Qed.
Print Assumptions C06_sub_u128_u256.

Example C06_example :
  (exists w', returns (arith_fn ep0 MSub U128) [496; 480] wex [600] w' /\ load 16 (mem w') 600 = 2 ^ 127 - (2 ^ 64 - 1)) /\
  (exists w', returns (arith_fn ep0 MSub U128) [480; 496] wex [BADF00D] w').
Proof.
  split; [|runs 1000%nat].
  destruct (runs_to_vals 1000 (arith_fn ep0 MSub U128) [496; 480] wex [600] (fun w' => load 16 (mem w') 600 =? 2 ^ 127 - (2 ^ 64 - 1)))
    as (w'&R&H); [vm_compute; reflexivity|]. exists w'. split; [exact R|apply Z.eqb_eq; exact H].
Qed.

(** C07.  u8..u64: the product, or the overflow error. *)
Theorem C07_mul_u8_u64 : forall ep t w a b,
  is_heap t = false -> running ep w -> 0 <= a < 2 ^ width t -> 0 <= b < 2 ^ width t ->
  (a * b < 2 ^ width t -> yields (arith_fn ep MMul t) [a; b] w t (a * b)) /\
  (2 ^ width t <= a * b -> aborts_with ep (arith_fn ep MMul t) [a; b] w Overflow).
Proof. exact mul_small. Qed.
Print Assumptions C07_mul_u8_u64.

Example C07_example :
  (exists w', returns (arith_fn ep0 MMul U64) [2 ^ 32; 2 ^ 32 - 1] w0 [2 ^ 64 - 2 ^ 32] w') /\
  (exists w', returns (arith_fn ep0 MMul U64) [2 ^ 32; 2 ^ 32] w0 [BADF00D] w').
Proof. split; runs 100%nat. Qed.

(** C08 is false: the u128 product 2^96 * 2^32 = 2^128 does not fit, yet 0 is returned. *)
Theorem C08_mul_overflow_undetected_refuted : exists ep w x y,
  running ep w /\ repr w U128 x (2 ^ 96) /\ repr w U128 y (2 ^ 32) /\
  yields_fresh (arith_fn ep MMul U128) [x; y] w U128 0.
Proof. exact mul_heap_refuted. Qed.
Print Assumptions C08_mul_overflow_undetected_refuted.

(** C08, the part that holds: products that fit are exact; others abort or come out reduced
    modulo 2^width (missing: that they always abort). *)
Theorem C08_mul_u128_u256_partial : forall ep t w x y a b,
  is_heap t = true -> running ep w -> repr w t x a -> repr w t y b ->
  (a * b < 2 ^ width t -> yields_fresh (arith_fn ep MMul t) [x; y] w t (a * b)
                          \/ out_of_memory (arith_fn ep MMul t) [x; y] w (heap_size t)) /\
  (2 ^ width t <= a * b -> aborts_with ep (arith_fn ep MMul t) [x; y] w Overflow
                          \/ yields_fresh (arith_fn ep MMul t) [x; y] w t ((a * b) mod 2 ^ width t)
                          \/ out_of_memory (arith_fn ep MMul t) [x; y] w (heap_size t)).
Proof. exact mul_heap. Qed.
Print Assumptions C08_mul_u128_u256_partial.

Example C08_example :
  (exists w', returns (arith_fn ep0 MMul U128) [480; 480] wex [600] w' /\ load 16 (mem w') 600 = (2 ^ 64 - 1) * (2 ^ 64 - 1)) /\
  (exists w', returns (arith_fn ep0 MMul U128) [480; 496] wex [BADF00D] w').
Proof.
  split; [|runs 1000%nat].
  destruct (runs_to_vals 1000 (arith_fn ep0 MMul U128) [480; 480] wex [600] (fun w' => load 16 (mem w') 600 =? (2 ^ 64 - 1) * (2 ^ 64 - 1)))
    as (w'&R&H); [vm_compute; reflexivity|]. exists w'. split; [exact R|apply Z.eqb_eq; exact H].
Qed.

(** C09.  Quotient and remainder of u128/u256; division by zero never returns. *)
Theorem C09_div_mod_u128_u256 : forall ep t w x y a b,
  is_heap t = true -> running ep w -> repr w t x a -> repr w t y b ->
  (b <> 0 -> exists q r, a = q * b + r /\ 0 <= r < b /\
     (yields_fresh (arith_fn ep MDiv t) [x; y] w t q \/ out_of_memory (arith_fn ep MDiv t) [x; y] w (2 * heap_size t)) /\
     (yields_fresh (arith_fn ep MMod t) [x; y] w t r \/ out_of_memory (arith_fn ep MMod t) [x; y] w (2 * heap_size t))) /\
  (b = 0 -> traps (arith_fn ep MDiv t) [x; y] w /\ traps (arith_fn ep MMod t) [x; y] w).
Proof. exact div_heap. Qed.
Print Assumptions C09_div_mod_u128_u256.

Example C09_example :
  (exists w', returns (arith_fn ep0 MDiv U128) [496; 480] wex [616] w' /\ load 16 (mem w') 616 = 2 ^ 127 / (2 ^ 64 - 1)) /\
  (exists w', returns (arith_fn ep0 MMod U128) [496; 480] wex [600] w' /\ load 16 (mem w') 600 = 2 ^ 127 mod (2 ^ 64 - 1)) /\
  traps (arith_fn ep0 MDiv U128) [496; 580] wex.
Proof.
  split; [|split; [|apply (traps_by_ok 1000); vm_compute; reflexivity]].
  - destruct (runs_to_vals 20000 (arith_fn ep0 MDiv U128) [496; 480] wex [616] (fun w' => load 16 (mem w') 616 =? 2 ^ 127 / (2 ^ 64 - 1)))
      as (w'&R&H); [vm_compute; reflexivity|]. exists w'. split; [exact R|apply Z.eqb_eq; exact H].
  - destruct (runs_to_vals 20000 (arith_fn ep0 MMod U128) [496; 480] wex [600] (fun w' => load 16 (mem w') 600 =? 2 ^ 127 mod (2 ^ 64 - 1)))
      as (w'&R&H); [vm_compute; reflexivity|]. exists w'. split; [exact R|apply Z.eqb_eq; exact H].
Qed.

(** Division and remainder of u8..u64 (companion of C09). *)
Theorem C09_div_mod_u8_u64 : forall ep t w a b,
  is_heap t = false -> running ep w -> 0 <= a < 2 ^ width t -> 0 <= b < 2 ^ width t ->
  (b <> 0 -> exists q r, a = q * b + r /\ 0 <= r < b /\
     yields (arith_fn ep MDiv t) [a; b] w t q /\ yields (arith_fn ep MMod t) [a; b] w t r) /\
  (b = 0 -> traps (arith_fn ep MDiv t) [a; b] w /\ traps (arith_fn ep MMod t) [a; b] w).
Proof. exact div_small. Qed.
Print Assumptions C09_div_mod_u8_u64.

Example C09_example2 : (exists w', returns (arith_fn ep0 MDiv U32) [1000; 7] w0 [142] w') /\ traps (arith_fn ep0 MMod U64) [3; 0] w0.
Proof. split; [runs 100%nat|apply (traps_by_ok 100); vm_compute; reflexivity]. Qed.

(** C10.  Shifts of u128/u256. *)
Theorem C10_shift_u128_u256 : forall ep op t w x a n,
  is_heap t = true -> running ep w -> repr w t x a -> 0 <= n < 256 ->
  (n < width t -> yields_fresh (shift_fn ep op t) [x; n] w t (shifted op t a n)
                  \/ out_of_memory (shift_fn ep op t) [x; n] w (heap_size t)) /\
  (width t <= n -> aborts_with ep (shift_fn ep op t) [x; n] w Overflow
                  \/ out_of_memory (shift_fn ep op t) [x; n] w (heap_size t)).
Proof. exact shift_heap. Qed.
Print Assumptions C10_shift_u128_u256.

Example C10_example :
  (exists w', returns (shift_fn ep0 MShl U128) [480; 70] wex [600] w' /\ load 16 (mem w') 600 = ((2 ^ 64 - 1) * 2 ^ 70) mod 2 ^ 128) /\
  (exists w', returns (shift_fn ep0 MShr U256) [512; 3] wex [600] w' /\ load 32 (mem w') 600 = 2 ^ 125) /\
  (exists w', returns (shift_fn ep0 MShl U128) [480; 128] wex [BADF00D] w').
Proof.
  split; [|split; [|runs 1000%nat]].
  - destruct (runs_to_vals 1000 (shift_fn ep0 MShl U128) [480; 70] wex [600] (fun w' => load 16 (mem w') 600 =? ((2 ^ 64 - 1) * 2 ^ 70) mod 2 ^ 128))
      as (w'&R&H); [vm_compute; reflexivity|]. exists w'. split; [exact R|apply Z.eqb_eq; exact H].
  - destruct (runs_to_vals 1000 (shift_fn ep0 MShr U256) [512; 3] wex [600] (fun w' => load 32 (mem w') 600 =? 2 ^ 125))
      as (w'&R&H); [vm_compute; reflexivity|]. exists w'. split; [exact R|apply Z.eqb_eq; exact H].
Qed.

(** C11.  Shifts of u8..u64. *)
Theorem C11_shift_u8_u64 : forall ep op t w a n,
  is_heap t = false -> running ep w -> 0 <= a < 2 ^ width t -> 0 <= n < 256 ->
  (n < width t -> yields (shift_fn ep op t) [a; n] w t (shifted op t a n)) /\
  (width t <= n -> aborts_with ep (shift_fn ep op t) [a; n] w Overflow).
Proof. exact shift_small. Qed.
Print Assumptions C11_shift_u8_u64.

Example C11_example :
  (exists w', returns (shift_fn ep0 MShl U8) [255; 4] w0 [240] w') /\
  (exists w', returns (shift_fn ep0 MShr U64) [2 ^ 63; 63] w0 [1] w') /\
  (exists w', returns (shift_fn ep0 MShl U8) [1; 8] w0 [BADF00D] w').
Proof. repeat split; runs 100%nat. Qed.

(** C12, all comparison operators on all integer types: [<], [<=], [>], [>=], [==], [!=]. *)
Theorem C12_comparisons : forall op t w x y a b, wok w -> repr w t x a -> repr w t y b ->
  returns (cmp_fn op t) [x; y] w [b2z (move_cmp op a b)] w.
Proof. exact cmp_fn_spec. Qed.
Print Assumptions C12_comparisons.

Example C12_example2 :
  (exists w', returns (cmp_fn MLe U128) [480; 480] wex [1] w') /\
  (exists w', returns (cmp_fn MGt U256) [544; 512] wex [1] w') /\
  (exists w', returns (cmp_fn MNeq U16) [7; 7] wex [0] w').
Proof. repeat split; runs 1000%nat. Qed.

(** C13 is false for u64 to u8/u16: only the value modulo 2^32 is checked, ... *)
Theorem C13_u64_to_u8_refuted : forall ep w, running ep w ->
  yields (cast_fn ep U64 U8) [2 ^ 32 + 5] w U8 5 /\ yields (cast_fn ep U64 U16) [2 ^ 32 + 5] w U16 5.
Proof. exact cast_u64_refuted. Qed.
Print Assumptions C13_u64_to_u8_refuted.

(** ... and for u256 to u128, where the check looks at the wrong memory. *)
Theorem C13_u256_to_u128_refuted : exists ep w x,
  running ep w /\ repr w U256 x (2 ^ 128 + 1) /\ yields (cast_fn ep U256 U128) [x] w U128 1.
Proof. exact cast_u256_refuted. Qed.
Print Assumptions C13_u256_to_u128_refuted.

(** C13, all other narrowing casts keep the value or abort ([sound_narrowing] excludes exactly
    u64 to u8, u64 to u16 and u256 to u128). *)
Theorem C13_narrowing_partial : forall ep from to w x z,
  sound_narrowing from to -> width to < width from -> running ep w -> repr w from x z ->
  (z < 2 ^ width to -> yields (cast_fn ep from to) [x] w to z) /\
  (2 ^ width to <= z -> exists e, aborts_with ep (cast_fn ep from to) [x] w e).
Proof. exact narrowing. Qed.
Print Assumptions C13_narrowing_partial.

Example C13_example : sound_narrowing U128 U64 /\
  (exists w', returns (cast_fn ep0 U128 U64) [480] wex [2 ^ 64 - 1] w') /\
  (exists w', returns (cast_fn ep0 U128 U8) [480] wex [BADF00D] w').
Proof. split; [exact I|]. split; runs 1000%nat. Qed.

(** C14.  Casts to an equally wide or wider type keep the value. *)
Theorem C14_widening : forall ep from to w x z,
  width from <= width to -> running ep w -> repr w from x z ->
  yields (cast_fn ep from to) [x] w to z \/
  (is_heap to = true /\ out_of_memory (cast_fn ep from to) [x] w (heap_size to)).
Proof. exact widening. Qed.
Print Assumptions C14_widening.

Example C14_example :
  (exists w', returns (cast_fn ep0 U8 U64) [77] wex [77] w') /\
  (exists w', returns (cast_fn ep0 U128 U256) [496] wex [600] w' /\ load 32 (mem w') 600 = 2 ^ 127).
Proof.
  split; [runs 1000%nat|].
  destruct (runs_to_vals 1000 (cast_fn ep0 U128 U256) [496] wex [600] (fun w' => load 32 (mem w') 600 =? 2 ^ 127))
    as (w'&R&H); [vm_compute; reflexivity|]. exists w'. split; [exact R|apply Z.eqb_eq; exact H].
Qed.

(** C15.  Bitwise operators, bit by bit. *)
Theorem C15_bitwise_u128_u256 : forall ep op t w x y a b,
  bitwise_op op -> is_heap t = true -> running ep w -> repr w t x a -> repr w t y b ->
  exists c, (forall i, 0 <= i -> Z.testbit c i = bit_of op (Z.testbit a i) (Z.testbit b i)) /\
    (yields_fresh (arith_fn ep op t) [x; y] w t c \/ out_of_memory (arith_fn ep op t) [x; y] w (heap_size t)).
Proof. exact bitwise_heap. Qed.
Print Assumptions C15_bitwise_u128_u256.

Theorem C15_bitwise_u8_u64 : forall ep op t w a b,
  bitwise_op op -> is_heap t = false -> running ep w -> 0 <= a < 2 ^ width t -> 0 <= b < 2 ^ width t ->
  exists c, (forall i, 0 <= i -> Z.testbit c i = bit_of op (Z.testbit a i) (Z.testbit b i)) /\
    yields (arith_fn ep op t) [a; b] w t c.
Proof. exact bitwise_small. Qed.
Print Assumptions C15_bitwise_u8_u64.

Example C15_example : bitwise_op MXor /\
  (exists w', returns (arith_fn ep0 MXor U128) [480; 496] wex [600] w' /\ load 16 (mem w') 600 = 2 ^ 127 + 2 ^ 64 - 1).
Proof.
  split; [right; right; reflexivity|].
  destruct (runs_to_vals 1000 (arith_fn ep0 MXor U128) [480; 496] wex [600] (fun w' => load 16 (mem w') 600 =? 2 ^ 127 + 2 ^ 64 - 1))
    as (w'&R&H); [vm_compute; reflexivity|]. exists w'. split; [exact R|apply Z.eqb_eq; exact H].
Qed.
