(** * Arguments of Move functions (C82). *)

From Verif Require Import SpecInt Spec Tac RtAlloc RtErr SpecVal LemVal RtCopy RtVec RtVec2 SpecVec LemVec ExVec RtCall SpecRef RtRef LemRef RtLocal ExRef SpecArgs RtArgs LemArgs LemArgs2 ExArgs.
Ltac Zify.zify_post_hook ::= idtac.

(** C82: for every list of parameters, the caller's code before a call and the callee's code at its start give the callee, for
    every parameter, a reference of its own: to the value passed, or to the very value that the reference passed leads to.
    No memory of the caller changes.  The callee traps only if memory runs out. *)
Theorem C82_arguments : forall args xs b c s l w, wok w -> Forall2 (arg_ok w) args xs -> (b + List.length args <= c)%nat -> (c + List.length args <= List.length l)%nat ->
  exists ys l', runs (prepare_arguments b c args) (rev xs ++ s) l w (rev ys ++ s) l' w /\ same_locals (call_locals b c (List.length args)) l l' /\ List.length ys = List.length args /\
  forall v q nl, v <> q -> (List.length args <= v < List.length args + nl)%nat -> (List.length args <= q < List.length args + nl)%nat ->
    (exists w' l2, runs (box_args v q 0 args) [] (ys ++ repeat 0 nl) w [] l2 w' /\ extends w w' /\
       forall i a x u F, nth_error args i = Some a -> nth_error xs i = Some x -> at_call w a x u F ->
         exists r, nth_error l2 i = Some r /\ passed w w' a x r u F) \/
    (crashes (box_args v q 0 args) [] (ys ++ repeat 0 nl) w /\ oom w (args_memory args)).
Proof. exact arguments_ok. Qed.
Print Assumptions C82_arguments.
Example C82_arguments_example : wok w_ref /\ Forall2 (arg_ok w_ref) [ARef T_ref; AVal TU128; AVal TU64] [600; 740; 9] /\
  at_call w_ref (ARef T_ref) 600 v_ref (between 604 732) /\ at_call w_ref (AVal TU128) 740 (VInt 6) (between 740 756) /\ at_call w_ref (AVal TU64) 9 (VInt 9) empty /\
  (exists w', runs (prepare_arguments 0 3 [ARef T_ref; AVal TU128; AVal TU64]) [9; 740; 600] [0; 0; 0; 0; 0; 0] w_ref [9; 740; 604] [604; 740; 9; 0; 0; 0] w' /\ (gnext w' =? 800) = true) /\
  (exists w', runs (box_args 3 4 0 [ARef T_ref; AVal TU128; AVal TU64]) [] [604; 740; 9; 0; 0] w_ref [] [800; 804; 808; 9; 812] w' /\
     (load 4 (mem w') 800 =? 604) && (load 4 (mem w') 804 =? 740) && (load 4 (mem w') 808 =? 812) && (load 8 (mem w') 812 =? 9) = true).
Proof.
  split; [exact (proj1 w_ref_running)|]. split; [apply Forall2_cons; [cbn [arg_ok]; nums|apply Forall2_cons; [cbn [arg_ok esize]; lia|apply Forall2_cons; [cbn [arg_ok esize]; lia|apply Forall2_nil]]]|]. split; [exact w_ref_ref|]. split; [exact w_ref_spare|].
  split; [split; [cbn [vrep]; nums|intros y []]|]. split.
  - apply (runs_by 300 _ _ _ _ _ _ (fun w' => gnext w' =? 800)). vm_compute. reflexivity.
  - apply (runs_by 300 _ _ _ _ _ _ (fun w' => (load 4 (mem w') 800 =? 604) && (load 4 (mem w') 804 =? 740) && (load 4 (mem w') 808 =? 812) && (load 8 (mem w') 812 =? 9))). vm_compute. reflexivity.
Qed.

(** C82: when two references [r] (the caller's) and [r'] (the callee's) lead to the same value, writing through [r'] to any part
    of it other than the whole, or to the whole if it is a number or an address, changes what [r] leads to in the same way, and
    the two go on leading to the same value.  Nothing outside the value changes. *)
Theorem C82_writes_reach_caller : forall w t r r' v F path t' v' u x Fx p q s l, p <> q -> (p < List.length l)%nat -> (q < List.length l)%nat ->
  wok w -> ref_to w t r v F -> ref_to w t r' v F -> load 4 (mem w) r' = load 4 (mem w) r -> disj (cell r) (cell r') ->
  part t v path t' v' -> path <> [] \/ is_number t = true -> owns w t' u x Fx -> 0 <= x < 256 ^ Z.of_nat (esize t') -> disj (cell r) Fx -> disj (cell r') Fx -> disj F Fx ->
  exists w' l', runs (write_ref t' p q) (cell_of (mem w) v path r' :: x :: s) l w s l' w' /\ same_locals [p; q] l l' /\ frame w w' F /\
    ref_to w' t r (put v path u) (union F Fx) /\ ref_to w' t r' (put v path u) (union F Fx) /\ load 4 (mem w') r' = load 4 (mem w') r.
Proof. exact write_shared_ok. Qed.
Print Assumptions C82_writes_reach_caller.
Example C82_writes_example : wok w_two /\ ref_to w_two T_ref 600 v_ref (between 604 732) /\ ref_to w_two T_ref 780 v_ref (between 604 732) /\
  load 4 (mem w_two) 780 = load 4 (mem w_two) 600 /\ disj (cell 600) (cell 780) /\ part T_ref v_ref [1%nat; 0%nat] TU128 (VInt 5) /\ [1%nat; 0%nat] <> [] /\
  owns w_two TU128 (VInt 6) 740 (between 740 756) /\ disj (cell 600) (between 740 756) /\ disj (cell 780) (between 740 756) /\ disj (between 604 732) (between 740 756).
Proof.
  split; [exact w_two_ok|]. split; [exact (proj1 w_two_refs)|]. split; [exact (proj2 w_two_refs)|]. split; [vm_compute; reflexivity|]. split; [nums|]. split; [exact part_u128|].
  split; [discriminate|]. split; [exact w_two_spare|]. nums.
Qed.

(** C82: when the callee appends any number of elements to a vector through its own reference [r], however often the vector
    moves, the code after the call makes the caller's reference [r2] lead to the vector with all of them; or a [push_back] runs
    out of memory. *)
Theorem C82_pushes_reach_caller : forall ep t r r2 us xs w vs F Fx, wf_ty t -> wok w -> maxpages w <= 16384 ->
  vec_ref w t r vs F -> vec_ref w t r2 vs F -> disj (cell r2) (cell r) -> load 4 (mem w) r2 = load 4 (mem w) r ->
  words (mem w) (plain_fields (map (fun _ => t) us)) us xs Fx -> sub Fx (heap w) -> disj (cell r) Fx -> disj F Fx -> disj (cell r2) Fx ->
  (exists w' w'' F', pushes ep t r xs w w' /\ returns vec_update_mut_ref [r2] w' [] w'' /\ frame w' w'' (cell r2) /\ vec_ref w'' t r2 (vs ++ us) F') \/
  (exists xs1 x xs2 w1 us1, xs = xs1 ++ x :: xs2 /\ us1 = firstn (List.length xs1) us /\ pushes ep t r xs1 w w1 /\
     no_memory (vec_push_back ep t) [r; x] w1 (has_small (TVec t)) (vec_bytes t (copy_cap 2 (List.length (vs ++ us1))) + sumz (map (csize t) (vs ++ us1)))).
Proof. exact pushes_reach_ok. Qed.
Print Assumptions C82_pushes_reach_caller.
(** Four elements: the vector moves twice. *)
Example C82_pushes_example : wok w_u64 /\ vec_ref w_u64 TU64 480 [VInt 7; VInt 9] (between 500 524) /\ vec_ref w_u64 TU64 484 [VInt 7; VInt 9] (between 500 524) /\
  disj (cell 484) (cell 480) /\ load 4 (mem w_u64) 484 = load 4 (mem w_u64) 480 /\
  words (mem w_u64) (plain_fields (map (fun _ => TU64) [VInt 1; VInt 2; VInt 3; VInt 4])) [VInt 1; VInt 2; VInt 3; VInt 4] [1; 2; 3; 4] empty /\
  exists w', runs (flat_map (fun x => [Const 480; Const x; Call (vec_push_back ep0 TU64)]) [1; 2; 3; 4] ++ [Const 484; Call vec_update_mut_ref]) [] [] w_u64 [] [] w' /\
    (load 4 (mem w') 484 =? load 4 (mem w') 480) && negb (load 4 (mem w') 480 =? 500) && (load 4 (mem w') (load 4 (mem w') 484) =? 6) && (load 4 (mem w') 500 =? DEAD_BEEF) &&
    (load 4 (mem w') (load 4 (mem w') 504) =? DEAD_BEEF) = true.
Proof.
  split; [exact w_u64_ok|]. split; [exact w_u64_vec|]. split; [exact w_u64_second|]. split; [nums|]. split; [reflexivity|]. split; [exact w_u64_words|].
  apply (runs_by 3000 _ _ _ _ _ _ (fun w' => (load 4 (mem w') 484 =? load 4 (mem w') 480) && negb (load 4 (mem w') 480 =? 500) && (load 4 (mem w') (load 4 (mem w') 484) =? 6) && (load 4 (mem w') 500 =? DEAD_BEEF) &&
    (load 4 (mem w') (load 4 (mem w') 504) =? DEAD_BEEF))). vm_compute. reflexivity.
Qed.

(** C82, from end to end: after a call of [fun extend(v: &mut vector<T>, x1: T, ..., xn: T)], which appends its arguments to [v]
    one by one, the caller's reference leads to the vector with all of them, for every type, vector and number of arguments; or
    memory runs out. *)
Theorem C82_function_appends : forall ep t rt q b c r us xs vs F Fx s l w, wf_ty t -> wok w -> maxpages w <= 16384 -> abort_flag w = 0 ->
  (b + S (List.length xs) <= c)%nat -> (c + S (List.length xs) <= List.length l)%nat ->
  vec_ref w t r vs F -> words (mem w) (plain_fields (map (fun _ => t) us)) us xs Fx -> sub Fx (heap w) -> disj (cell r) Fx -> disj F Fx ->
  (exists w' l' F', runs (call_with (extend_fn ep t (List.length xs)) (extend_args t (List.length xs)) [] rt q b c) (rev (r :: xs) ++ s) l w s l' w' /\ vec_ref w' t r (vs ++ us) F') \/
  (crashes (call_with (extend_fn ep t (List.length xs)) (extend_args t (List.length xs)) [] rt q b c) (rev (r :: xs) ++ s) l w /\
    (oom w (args_memory (extend_args t (List.length xs))) \/
     exists w0 r' xs1 x xs2 w1 us1, extends w w0 /\ gnext w0 = gnext w + args_memory (extend_args t (List.length xs)) /\ xs = xs1 ++ x :: xs2 /\ us1 = firstn (List.length xs1) us /\ pushes ep t r' xs1 w0 w1 /\
       no_memory (vec_push_back ep t) [r'; x] w1 (has_small (TVec t)) (vec_bytes t (copy_cap 2 (List.length (vs ++ us1))) + sumz (map (csize t) (vs ++ us1))))).
Proof. exact extend_ok. Qed.
Print Assumptions C82_function_appends.
Example C82_function_example : running ep0 w_u64 /\ vec_ref w_u64 TU64 480 [VInt 7; VInt 9] (between 500 524) /\
  words (mem w_u64) (plain_fields (map (fun _ => TU64) [VInt 1; VInt 2; VInt 3; VInt 4])) [VInt 1; VInt 2; VInt 3; VInt 4] [1; 2; 3; 4] empty /\
  exists w', runs (call_with (extend_fn ep0 TU64 4) (extend_args TU64 4) [] false 0 1 6) [4; 3; 2; 1; 480] (repeat 0 11) w_u64 [] [0; 500; 1; 2; 3; 4; 480; 0; 0; 0; 0] w' /\
    (let p := load 4 (mem w') 480 in negb (p =? 500) && (load 4 (mem w') p =? 6) && (load 8 (mem w') (p + 8) =? 7) && (load 8 (mem w') (p + 48) =? 4)) = true.
Proof.
  split; [exact w_u64_running|]. split; [exact w_u64_vec|]. split; [exact w_u64_words|].
  apply (runs_by 3000 _ _ _ _ _ _ (fun w' => let p := load 4 (mem w') 480 in negb (p =? 500) && (load 4 (mem w') p =? 6) && (load 8 (mem w') (p + 8) =? 7) && (load 8 (mem w') (p + 48) =? 4))). vm_compute. reflexivity.
Qed.

(** The claim that all that a function does through a [&mut] parameter is seen by its caller fails twice.

    For every struct, enum or vector type: after a call of [fun assign(p: &mut T, x: T) { *p = x }] the caller's reference still
    leads to the old value. *)
Theorem C82_assigned_value_refuted : forall t rt q b c r x v F s l w, is_number t = false -> wok w -> abort_flag w = 0 -> (b + 2 <= c)%nat -> (c + 2 <= List.length l)%nat ->
  ref_to w t r v F -> 0 <= x < 2 ^ 32 ->
  (exists w' l', runs (call_with (assign_fn t) [mut_ref t; AVal t] [] rt q b c) (x :: r :: s) l w s l' w' /\ ref_to w' t r v F) \/
  (crashes (call_with (assign_fn t) [mut_ref t; AVal t] [] rt q b c) (x :: r :: s) l w /\ oom w 8).
Proof. exact assigned_lost. Qed.
Print Assumptions C82_assigned_value_refuted.
Example C82_assigned_example : is_number (TVec TU64) = false /\ running ep0 w_u64 /\ ref_to w_u64 (TVec TU64) 480 (VVec [VInt 7; VInt 9]) (between 500 524) /\ owns w_u64 (TVec TU64) (VVec []) 540 (between 540 548) /\
  exists w', runs (call_with (assign_fn (TVec TU64)) [mut_ref (TVec TU64); AVal (TVec TU64)] [] false 0 1 3) [540; 480] [0; 0; 0; 0; 0] w_u64 [] [0; 500; 540; 480; 0] w' /\ (load 4 (mem w') 480 =? 500) && (load 4 (mem w') 500 =? 2) = true.
Proof.
  split; [reflexivity|]. split; [exact w_u64_running|]. split; [exact w_u64_vec|]. split; [split; [cbn [vrep]; exists [], 0, empty; nums|nums]|].
  apply (runs_by 300 _ _ _ _ _ _ (fun w' => (load 4 (mem w') 480 =? 500) && (load 4 (mem w') 500 =? 2))). vm_compute. reflexivity.
Qed.

(** For every vector without spare capacity: after [let p = same(r); push_back(p, x)], where [same] returns its argument, the
    length of the vector behind [r] is 0xDEADBEEF. *)
Theorem C82_returned_reference_refuted : forall ep t rt q b c kr kx r x u vs F Fx s l w, wf_ty t -> wok w -> abort_flag w = 0 -> maxpages w <= 16384 ->
  (b < c)%nat -> (c < List.length l)%nat -> (q < List.length l)%nat -> ~ In kr [q; b; c] -> ~ In kx [q; b; c] -> nth_error l kr = Some r -> nth_error l kx = Some x -> q <> c ->
  vec_ref w t r vs F -> load 4 (mem w) (load 4 (mem w) r + 4) = Z.of_nat (List.length vs) ->
  owns w t u x Fx -> 0 <= x < 256 ^ Z.of_nat (esize t) -> disj (cell r) Fx -> disj F Fx ->
  (exists w' l', runs (push_through ep t rt q b c kr kx) (r :: s) l w (3735928559 :: s) l' w') \/
  (crashes (push_through ep t rt q b c kr kx) (r :: s) l w /\
     (oom w 8 \/ exists w1, extends w w1 /\ gnext w1 = gnext w + 8 /\ ctrap w1 (has_small (TVec t)) (vec_bytes t (copy_cap 2 (List.length vs)) + sumz (map (csize t) vs)))).
Proof. exact returned_lost. Qed.
Print Assumptions C82_returned_reference_refuted.
Example C82_returned_example : running ep0 w_u64 /\ vec_ref w_u64 TU64 480 [VInt 7; VInt 9] (between 500 524) /\ load 4 (mem w_u64) (load 4 (mem w_u64) 480 + 4) = 2 /\ owns w_u64 TU64 (VInt 11) 11 empty /\
  exists w', runs (push_through ep0 TU64 false 0 1 2 3 4) [480] [0; 0; 0; 480; 11] w_u64 [3735928559] [604; 500; 480; 480; 11] w' /\ (load 4 (mem w') 600 =? 608) && (load 4 (mem w') 608 =? 3) = true.
Proof.
  split; [exact w_u64_running|]. split; [exact w_u64_vec|]. split; [vm_compute; reflexivity|]. split; [split; [split; [reflexivity|cbn [vbits]; lia]|intros y []]|].
  apply (runs_by 600 _ _ _ _ _ _ (fun w' => (load 4 (mem w') 600 =? 608) && (load 4 (mem w') 608 =? 3))). vm_compute. reflexivity.
Qed.
