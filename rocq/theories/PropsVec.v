(** * Properties of vectors, copies and equality: C21-C26, C59-C61. *)

From Verif Require Import SpecInt Spec Tac RtAlloc RtErr SpecVal RtCopy RtVec RtVec2 RtVecEq SpecVec LemVec ExVec.

(** C21.  [push_back] on a vector with elements [vs] leaves, behind the same reference, a vector
    with the elements [vs ++ [v]], and changes nothing outside the vector, its reference and fresh
    memory; or it traps for lack of memory.  (Memory limit at most 1 GiB.) *)
Theorem C21_push_back_appends : forall ep t w r x v vs F Fx, wf_ty t -> wok w -> maxpages w <= 16384 ->
  vec_ref w t r vs F -> owns w t v x Fx -> 0 <= x < 256 ^ Z.of_nat (esize t) -> disj (cell r) Fx -> disj F Fx ->
  (exists w' F', returns (vec_push_back ep t) [r; x] w [] w' /\ vec_ref w' t r (vs ++ [v]) F' /\
     sub F' (union (union F Fx) (fresh w w')) /\ evolves w w' (union (cell r) F)) \/
  no_memory (vec_push_back ep t) [r; x] w (has_small (TVec t))
    (vec_bytes t (copy_cap 2 (List.length vs)) + sumz (map (csize t) vs)).
Proof. exact push_back_ok. Qed.
Print Assumptions C21_push_back_appends.

Example C21_example : wok w_u64 /\ vec_ref w_u64 TU64 480 [VInt 7; VInt 9] (between 500 524) /\ owns w_u64 TU64 (VInt 11) 11 empty /\
  exists w', returns (vec_push_back ep0 TU64) [480; 11] w_u64 [] w' /\ load 4 (mem w') 480 = 600 /\ load 4 (mem w') 600 = 3 /\
    load 8 (mem w') 608 = 7 /\ load 8 (mem w') 616 = 9 /\ load 8 (mem w') 624 = 11.
Proof.
  split; [exact w_u64_ok|]. split; [exact w_u64_vec|]. split; [split; [split; [reflexivity|cbn [vbits]; lia]|intros y []]|].
  destruct (runs_to_vals 500 (vec_push_back ep0 TU64) [480; 11] w_u64 []
    (fun w' => (load 4 (mem w') 480 =? 600) && (load 4 (mem w') 600 =? 3) && (load 8 (mem w') 608 =? 7) && (load 8 (mem w') 616 =? 9) && (load 8 (mem w') 624 =? 11)))
    as (w'&R&H); [vm_compute; reflexivity|]. exists w'. split; [exact R|]. rewrite !andb_true_iff, !Z.eqb_eq in H. tauto.
Qed.

(** C22.  [pop_back] on the empty vector aborts with the out-of-bounds error and changes nothing else; on a vector
    [vs' ++ [v]] it returns [v] and leaves [vs'], changing only memory of the vector. *)
Theorem C22_pop_back_removes_last : forall ep t w r vs F, running ep w -> vec_ref w t r vs F ->
  (vs = [] -> exists w', returns (vec_pop_back ep t) [r] w [BADF00D] w' /\ aborted ep OutOfBounds w w') /\
  (forall vs' v, vs = vs' ++ [v] -> exists x w' F1 F2, returns (vec_pop_back ep t) [r] w [x] w' /\
     vec_ref w' t r vs' F1 /\ owns w' t v x F2 /\ 0 <= x < 256 ^ Z.of_nat (esize t) /\ disj F1 F2 /\ sub F1 F /\ sub F2 F /\ frame w w' F).
Proof. exact pop_back_ok. Qed.
Print Assumptions C22_pop_back_removes_last.

Example C22_example : running ep0 w_u64 /\ vec_ref w_u64 TU64 480 ([VInt 7] ++ [VInt 9]) (between 500 524) /\
  (exists w', returns (vec_pop_back ep0 TU64) [480] w_u64 [9] w') /\
  running ep0 w_u128 /\ vec_ref w_u128 TU128 480 [VInt 5] (between 500 532) /\ vec_ref w_u128 TU128 484 [] (between 540 552).
Proof.
  split; [exact w_u64_running|]. split; [exact w_u64_vec|]. split; [runs 200%nat|]. split; [exact w_u128_running|].
  split; [exact w_u128_vec|exact w_u128_empty].
Qed.

(** C23 is false: [swap] with two equal indices beyond the end of a non-empty vector returns
    normally instead of aborting. *)
Theorem C23_equal_indices_out_of_range_refuted : exists ep w w' r vs F i,
  running ep w /\ vec_ref w TU64 r vs F /\ 0 <= i < 2 ^ 64 /\ Z.of_nat (List.length vs) <= i /\
  returns (vec_swap ep TU64) [r; i; i] w [] w' /\ abort_flag w' = 0.
Proof. exact swap_equal_out_of_range. Qed.
Print Assumptions C23_equal_indices_out_of_range_refuted.

(** C23, the part that holds: with both indices in range exactly the two elements are exchanged; with an index out of range, the
    abort happens unless the indices are equal. *)
Theorem C23_swap_partial : forall ep t w r vs F i j, running ep w -> vec_ref w t r vs F -> 0 <= i < 2 ^ 64 -> 0 <= j < 2 ^ 64 ->
  let n := Z.of_nat (List.length vs) in
  (i < n /\ j < n -> exists w' vs', returns (vec_swap ep t) [r; i; j] w [] w' /\ swapped (Z.to_nat i) (Z.to_nat j) vs vs' /\
     vec_ref w' t r vs' F /\ frame w w' F /\ abort_flag w' = 0) /\
  ((n <= i \/ n <= j) -> i <> j \/ n = 0 \/ 2 ^ 32 <= i -> exists w', returns (vec_swap ep t) [r; i; j] w [] w' /\ abort_flag w' = ep OutOfBounds).
Proof. exact swap_ok. Qed.
Print Assumptions C23_swap_partial.

Example C23_example : running ep0 w_u64 /\ vec_ref w_u64 TU64 480 [VInt 7; VInt 9] (between 500 524) /\
  swapped 0 1 [VInt 7; VInt 9] [VInt 9; VInt 7] /\
  exists w', returns (vec_swap ep0 TU64) [480; 0; 1] w_u64 [] w' /\ load 8 (mem w') 508 = 9 /\ load 8 (mem w') 516 = 7.
Proof.
  split; [exact w_u64_running|]. split; [exact w_u64_vec|]. split.
  { repeat split. intros [|[|k]] A B; try congruence. destruct k; reflexivity. }
  destruct (runs_to_vals 500 (vec_swap ep0 TU64) [480; 0; 1] w_u64 []
    (fun w' => (load 8 (mem w') 508 =? 9) && (load 8 (mem w') 516 =? 7))) as (w'&R&H); [vm_compute; reflexivity|].
  exists w'. split; [exact R|]. rewrite !andb_true_iff, !Z.eqb_eq in H. exact H.
Qed.

(** C24.  Borrowing element [i] aborts with the out-of-bounds error when [i] is not below the length; otherwise it yields
    a reference to the [i]-th element, inside the vector, and leaves the vector as it is (a reference to a stack value needs 4
    bytes of heap). *)
Theorem C24_borrow_checks_bounds : forall ep t w r vs F i, running ep w -> vec_ref w t r vs F -> 0 <= i < 2 ^ 64 ->
  let n := Z.of_nat (List.length vs) in
  (n <= i -> exists w', returns (vec_borrow_op ep t) [r; i] w [BADF00D] w' /\ aborted ep OutOfBounds w w') /\
  (forall v, nth_error vs (Z.to_nat i) = Some v ->
     (exists e w' F', returns (vec_borrow_op ep t) [r; i] w [e] w' /\ extends w w' /\ ref_to w' t e v F' /\ sub F' F /\ vec_ref w' t r vs F)
     \/ (is_stack t = true /\ out_of_memory (vec_borrow_op ep t) [r; i] w 4)).
Proof. exact borrow_ok. Qed.
Print Assumptions C24_borrow_checks_bounds.

Example C24_example : running ep0 w_u64 /\ vec_ref w_u64 TU64 480 [VInt 7; VInt 9] (between 500 524) /\
  (exists w', returns (vec_borrow_op ep0 TU64) [480; 1] w_u64 [600] w') /\
  (exists w', returns (vec_borrow_op ep0 TU64) [480; 2] w_u64 [BADF00D] w') /\
  (exists w', returns (vec_borrow_op ep0 TU128) [480; 0] w_u128 [508] w').
Proof.
  split; [exact w_u64_running|]. split; [exact w_u64_vec|]. split; [runs 200%nat|]. split; [runs 200%nat|]. runs 200%nat.
Qed.

(** C25 is false: two empty vectors of u128 compare unequal. *)
Theorem C25_empty_vectors_refuted : exists ep w p q F G w',
  wok w /\ owns w (TVec TU128) (VVec []) p F /\ owns w (TVec TU128) (VVec []) q G /\ disj F G /\
  returns (eq_fn ep (TVec TU128)) [p; q] w [0] w'.
Proof. exact empty_vectors_unequal. Qed.
Print Assumptions C25_empty_vectors_refuted.

(** C25, the part that holds: comparing two vectors gives 1 exactly when they have the same elements, provided that
    one of them contains no empty vector of a heap type (and is none). *)
Theorem C25_vector_equality_partial : forall ep t w vs us p q F G, wf_ty (TVec t) -> wok w ->
  owns w (TVec t) (VVec vs) p F -> owns w (TVec t) (VVec us) q G -> full (TVec t) (VVec vs) \/ full (TVec t) (VVec us) ->
  exists b, returns (eq_fn ep (TVec t)) [p; q] w [b2z b] w /\ (b = true <-> map erase vs = map erase us).
Proof. exact vector_equality_ok. Qed.
Print Assumptions C25_vector_equality_partial.

Example C25_example : owns w_u64 (TVec TU64) (VVec [VInt 7; VInt 9]) 500 (between 500 524) /\ full (TVec TU64) (VVec [VInt 7; VInt 9]) /\
  full (TVec TU64) (VVec []) /\ owns w_u128 (TVec TU128) (VVec [VInt 5]) 500 (between 500 532) /\ full (TVec TU128) (VVec [VInt 5]) /\
  (exists w', returns (eq_fn ep0 (TVec TU128)) [500; 500] w_u128 [1] w') /\ (exists w', returns (eq_fn ep0 (TVec TU128)) [500; 540] w_u128 [0] w').
Proof.
  split; [exact w_u64_owns|]. split; [cbn; split; [discriminate|tauto]|]. split; [cbn; split; [discriminate|tauto]|].
  split; [exact w_u128_owns|]. split; [cbn; split; [discriminate|tauto]|]. split; runs 500%nat.
Qed.

(** C26.  Copying a vector yields a vector with the same elements that lies entirely in fresh memory, hence shares nothing with the
    original, which is unchanged; or the copy traps for lack of memory. *)
Theorem C26_vector_copy_independent : forall ep t w vs p F, wf_ty (TVec t) -> wok w -> owns w (TVec t) (VVec vs) p F ->
  (exists p' w', returns (copy_fn ep (TVec t)) [p] w [p'] w' /\ extends w w' /\
     owns w' (TVec t) (VVec vs) p' (fresh w w') /\ owns w' (TVec t) (VVec vs) p F /\ disj F (fresh w w')) \/
  no_memory (copy_fn ep (TVec t)) [p] w (has_small (TVec t)) (csize (TVec t) (VVec vs)).
Proof. exact vector_copy_ok. Qed.
Print Assumptions C26_vector_copy_independent.

Example C26_example : wok w_u128 /\ owns w_u128 (TVec TU128) (VVec [VInt 5]) 500 (between 500 532) /\
  exists w', returns (copy_fn ep0 (TVec TU128)) [500] w_u128 [600] w' /\ load 4 (mem w') 608 = 612 /\ load 16 (mem w') 612 = 5.
Proof.
  split; [exact (proj1 w_u128_running)|]. split; [exact w_u128_owns|].
  destruct (runs_to_vals 500 (copy_fn ep0 (TVec TU128)) [500] w_u128 [600]
    (fun w' => (load 4 (mem w') 608 =? 612) && (load 16 (mem w') 612 =? 5))) as (w'&R&H); [vm_compute; reflexivity|].
  exists w'. split; [exact R|]. rewrite !andb_true_iff, !Z.eqb_eq in H. exact H.
Qed.

(** C59 is false: copying a one-element vector<u8> traps although nearly all of the allowed memory is free. *)
Theorem C59_spurious_copy_trap_refuted : exists ep w p F,
  wok w /\ owns w (TVec TU8) (VVec [VInt 1]) p F /\ traps (copy_fn ep (TVec TU8)) [p] w /\
  65536 * pages w + 6000000 <= 65536 * maxpages w.
Proof. exact copy_traps_at_page_end. Qed.
Print Assumptions C59_spurious_copy_trap_refuted.

(** C59, the part that holds: without vectors of 1- or 2-byte elements, a copy only traps when the memory limit is in the way. *)
Theorem C59_copy_traps_only_without_memory_partial : forall ep t w v p F, is_stack t = false -> has_small t = false -> wf_ty t -> wok w -> owns w t v p F ->
  traps (copy_fn ep t) [p] w -> 65536 * maxpages w < gnext w + csize t v + 65536.
Proof. exact copy_traps_only_oom. Qed.
Print Assumptions C59_copy_traps_only_without_memory_partial.

Example C59_example : has_small (TVec TU128) = false /\ wf_ty (TVec TU128) /\ owns w_tight (TVec TU128) (VVec [VInt 5]) 500 (between 500 532) /\
  wok w_tight /\ traps (copy_fn ep0 (TVec TU128)) [500] w_tight.
Proof.
  split; [reflexivity|]. split; [exact I|]. split; [exact w_tight_owns|]. split; [exact w_tight_ok|].
  apply (traps_by_ok 200). vm_compute. reflexivity.
Qed.

(** C60.  Values of every type (integers, addresses, vectors, structs, enums, nested in any way): a copy of a heap value is
    equal to the original, lies in fresh memory and leaves the original alone. *)
Theorem C60_deep_copy : forall ep t w v p F, is_stack t = false -> wf_ty t -> wok w -> owns w t v p F ->
  (exists p' w', returns (copy_fn ep t) [p] w [p'] w' /\ extends w w' /\ owns w' t v p' (fresh w w') /\ owns w' t v p F) \/
  no_memory (copy_fn ep t) [p] w (has_small t) (csize t v).
Proof. exact copy_fn_ok. Qed.
Print Assumptions C60_deep_copy.

(** C60.  Comparing two values of any type gives 1 exactly when they are equal (owners aside), if one of them
    contains no empty vector of a heap type. *)
Theorem C60_deep_equality_partial : forall ep t w v u p q F G, wf_ty t -> wok w -> owns w t v p F -> owns w t u q G -> full t v \/ full t u ->
  exists b, returns (eq_fn ep t) [p; q] w [b2z b] w /\ (b = true <-> erase v = erase u).
Proof. exact eq_fn_ok. Qed.
Print Assumptions C60_deep_equality_partial.

Example C60_example : is_stack T_obj = false /\ wf_ty T_obj /\ wok w_obj /\ owns w_obj T_obj v_obj 520 (between 488 640) /\ full T_obj v_obj /\
  (exists w', returns (copy_fn ep0 T_obj) [520] w_obj [672] w') /\ (exists w', returns (eq_fn ep0 T_obj) [520; 520] w_obj [1] w').
Proof.
  split; [reflexivity|]. split; [cbn; lia|]. split; [exact w_obj_ok|]. split; [exact w_obj_owns|]. split; [cbn; intuition discriminate|]. split; runs 1000%nat.
Qed.

(** C61.  After a [push_back] through one reference, possibly moving the vector, a second
    reference to the vector that is brought up to date designates the same, extended vector. *)
Theorem C61_references_follow_relocation : forall ep t w r r2 x v vs F Fx, wf_ty t -> wok w -> maxpages w <= 16384 ->
  vec_ref w t r vs F -> owns w t v x Fx -> 0 <= x < 256 ^ Z.of_nat (esize t) -> disj (cell r) Fx -> disj F Fx ->
  sub (cell r2) (heap w) -> disj (cell r2) F -> disj (cell r2) Fx -> disj (cell r2) (cell r) -> load 4 (mem w) r2 = load 4 (mem w) r ->
  (exists w' w'' F', returns (vec_push_back ep t) [r; x] w [] w' /\ returns vec_update_mut_ref [r2] w' [] w'' /\
     vec_ref w'' t r2 (vs ++ [v]) F' /\ load 4 (mem w'') r2 = load 4 (mem w'') r) \/
  no_memory (vec_push_back ep t) [r; x] w (has_small (TVec t))
    (vec_bytes t (copy_cap 2 (List.length vs)) + sumz (map (csize t) vs)).
Proof. exact push_back_alias. Qed.
Print Assumptions C61_references_follow_relocation.

Example C61_example : vec_ref w_u64 TU64 480 [VInt 7; VInt 9] (between 500 524) /\ load 4 (mem w_u64) 484 = load 4 (mem w_u64) 480 /\
  sub (cell 484) (heap w_u64) /\ disj (cell 484) (between 500 524) /\ disj (cell 484) (cell 480).
Proof.
  split; [exact w_u64_vec|]. split; [reflexivity|]. unfold cell, sub, disj, heap, between. cbn [gnext w_u64 wm]. repeat split; intros; lia.
Qed.
