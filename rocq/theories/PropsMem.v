(** * Properties of the allocator and of memory comparisons: C01, C02, C12, C16, C17. *)

From Verif Require Import Spec Tac RtAlloc RtErr RtInt RtInt2 RtEq LemMem.

(** C01.  In every history of allocations (each below 2 GiB) and arbitrary memory writes, all
    blocks lie inside memory, behind the initial frontier (which is behind the
    compiler-reserved area), and are pairwise disjoint; and a further allocation either succeeds
    without changing a byte, or traps, and then the host would have to let the memory grow beyond its limit. *)
Theorem C01_allocations_never_overlap : forall w bl w',
  heap_ok w -> alloc_history w bl w' ->
  Forall (fun b => 468 <= gnext w <= fst b /\ fst b + snd b <= 65536 * pages w') bl /\
  ForallOrdPairs disjoint bl /\
  (forall n, 0 <= n < 2147483648 ->
     (exists p w'', returns alloc [n] w' [p] w'' /\ mem w'' = mem w' /\
        p + n <= 65536 * pages w'' /\ Forall (disjoint (p, n)) bl) \/
     (traps alloc [n] w' /\ 65536 * maxpages w' < gnext w' + n + 65536)).
Proof. exact alloc_history_safe. Qed.
Print Assumptions C01_allocations_never_overlap.

Example C01_example : heap_ok w0 /\ exists w1 w2,
  alloc_history w0 [(70600, 100); (600, 70000)] w2 /\ returns alloc [70000] w0 [600] w1.
Proof.
  split; [apply wok_heap_ok, w0_ok|].
  destruct (runs_to_vals 50 alloc [70000] w0 [600]
    (fun w1 => runs_to 50 alloc [100] w1 (fun r _ => zs_eqb r [70600] && true))) as (w1&R&H); [vm_compute; reflexivity|].
  apply runs_to_vals in H. destruct H as (w2&R2&_).
  exists w1, w2. split; [|exact R]. eapply AH_alloc; [|lia|exact R2].
  eapply AH_alloc; [apply AH_start|lia|exact R].
Qed.

(** C02 is false: for a request of 2^32-1 bytes the allocator returns a block that does not
    fit into memory, and the next block it hands out overlaps it (and starts below it). *)
Theorem C02_huge_requests_refuted : exists w n p w1 q w2,
  heap_ok w /\ 0 <= n < 4294967296 /\
  returns alloc [n] w [p] w1 /\ 65536 * maxpages w1 < p + n /\
  returns alloc [8] w1 [q] w2 /\ ~ disjoint (p, n) (q, 8).
Proof. exact huge_alloc_refuted. Qed.
Print Assumptions C02_huge_requests_refuted.

(** C02, the part that holds: every request below 2^31 is safe. *)
Theorem C02_requests_below_2GiB_partial : forall w n, heap_ok w -> 0 <= n < 2147483648 ->
  (exists p w', returns alloc [n] w [p] w' /\ heap_ok w' /\ mem w' = mem w /\
     p = gnext w /\ gnext w' = p + n /\ p + n <= 65536 * pages w') \/
  (traps alloc [n] w /\ 65536 * maxpages w < gnext w + n + 65536).
Proof. exact alloc_safe. Qed.
Print Assumptions C02_requests_below_2GiB_partial.

Example C02_example : heap_ok w0 /\ exists w', returns alloc [70000] w0 [600] w' /\ pages w' = 2.
Proof.
  split; [apply wok_heap_ok, w0_ok|]. 
  destruct (runs_to_vals 50 alloc [70000] w0 [600] (fun w' => pages w' =? 2)) as (w'&R&H); [vm_compute; reflexivity|].
  exists w'. split; [exact R|apply Z.eqb_eq; exact H].
Qed.

(** C12.  [less_than] on two heap integers of 8*N bytes returns 1 exactly when the first number
    is the smaller one; nothing changes. *)
Theorem C12_less_than_is_numeric : forall N w a b, (1 <= N)%nat -> wok w ->
  live w a (Z.of_nat (8 * N)) -> live w b (Z.of_nat (8 * N)) -> Z.of_nat (8 * N) < 2147483648 ->
  returns less_than [a; b; Z.of_nat (8 * N)] w
    [b2z (load (8 * N) (mem w) a <? load (8 * N) (mem w) b)] w.
Proof. exact less_than_spec. Qed.
Print Assumptions C12_less_than_is_numeric.

Example C12_example :
  let w := wm (store 16 (store 16 zmem 480 (2 ^ 100 + 1)) 496 (2 ^ 100 + 2)) 600 in
  wok w /\ live w 480 16 /\ live w 496 16 /\ returns less_than [480; 496; 16] w [1] w /\
  returns less_than [496; 480; 16] w [0] w.
Proof.
  intros w. assert (wok w).
  { apply wm_store_ok; [apply wm_store_ok; [apply wm_ok|]|]; lia. }
  assert (live w 480 16) by (unfold live, w, wm; cbn; lia).
  assert (live w 496 16) by (unfold live, w, wm; cbn; lia).
  repeat (split; [assumption|]). split.
  - exact (less_than_spec 2 w 480 496 ltac:(lia) ltac:(assumption) ltac:(assumption) ltac:(assumption) ltac:(lia)).
  - exact (less_than_spec 2 w 496 480 ltac:(lia) ltac:(assumption) ltac:(assumption) ltac:(assumption) ltac:(lia)).
Qed.

(** C16.  Byte-wise equality of n bytes. *)
Theorem C16_equality_compares_all_bytes : forall n w a b, wok w ->
  live w a (Z.of_nat n) -> live w b (Z.of_nat n) ->
  exists r, returns a_equals_b [a; b; Z.of_nat n] w [r] w /\
    (r = 1 \/ r = 0) /\ (r = 1 <-> bytes n (mem w) a = bytes n (mem w) b).
Proof. exact a_equals_b_bytes. Qed.
Print Assumptions C16_equality_compares_all_bytes.

Example C16_example :
  let w := wm (store 3 (store 3 zmem 480 66051) 490 66051) 600 in
  wok w /\ live w 480 3 /\ live w 490 3 /\ (exists w', returns a_equals_b [480; 490; 3] w [1] w') /\
  (exists w', returns a_equals_b [480; 490; 4] w [1] w') /\ (exists w', returns a_equals_b [480; 481; 3] w [0] w').
Proof.
  intros w. assert (wok w).
  { apply wm_store_ok; [apply wm_store_ok; [apply wm_ok|]|]; lia. }
  split; [assumption|]. split; [unfold live, w, wm; cbn; lia|]. split; [unfold live, w, wm; cbn; lia|].
  repeat split; runs 200%nat.
Qed.

(** C17.  The zero test answers 1 exactly when all bytes of the block are zero. *)
Theorem C17_is_zero_tests_all_bytes : forall N w p, wok w -> live w p (Z.of_nat (4 * N)) ->
  exists r, returns is_zero [p; Z.of_nat (4 * N)] w [r] w /\
    (r = 1 \/ r = 0) /\ (r = 1 <-> forall i, 0 <= i < Z.of_nat (4 * N) -> rd (mem w) (p + i) = 0).
Proof. exact is_zero_bytes. Qed.
Print Assumptions C17_is_zero_tests_all_bytes.

Example C17_example :
  let w := wm (store 1 zmem 511 7) 600 in
  wok w /\ live w 480 32 /\ (exists w', returns is_zero [480; 32] w [0] w') /\ (exists w', returns is_zero [476; 32] w [1] w').
Proof.
  intros w. assert (wok w) by (apply wm_store_ok; [apply wm_ok|]; lia).
  split; [assumption|]. split; [unfold live, w, wm; cbn; lia|].
  repeat split; runs 200%nat.
Qed.
