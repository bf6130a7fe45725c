(** * Calls between Move functions: C54, C66. *)

From Verif Require Import SpecInt SpecVal Spec Tac RtAlloc RtErr RtStor RtCall.

(** C54.  A function whose code arrives (through any blocks, branches and loops) at a Ret with the
    values [vs] on the operand stack, in the state [w1]; a call to it with the same arguments, on any
    operand stack [sc] of the caller.  Then the caller goes on with exactly the values [vs] on top of its
    own stack, its locals other than the scratch local [q] unchanged and no memory in use in [w1] changed; or the
    call traps because the block for the results (the sum of their widths) cannot be allocated. *)
Theorem C54 : forall np nl r b body ts rt q k lbs args vs s sc l l' w w1,
  List.length args = np ->
  at_point (prepare_return r b ts ++ k) (rev vs ++ s) l' w1 lbs body [] (args ++ repeat 0 nl) w -> ~ In "result"%string lbs ->
  (r < b)%nat -> (b + List.length ts <= np + nl)%nat -> wok w1 -> abort_flag w1 = 0 ->
  words_of ts vs -> total_size ts < 2147483648 -> (q < List.length l)%nat ->
  (exists n l2 w2, exec n (call_code (move_function np nl r body ts) ts rt q) (rev args ++ sc) l w = ONormal (rev vs ++ sc) l2 w2 /\
     extends w1 w2 /\ (ts = [] -> w2 = w1) /\ List.length l2 = List.length l /\ forall i, i <> q -> nth_error l2 i = nth_error l i) \/
  (exists n, exec n (call_code (move_function np nl r body ts) ts rt q) (rev args ++ sc) l w = OTrap) /\ oom w1 (total_size ts).
Proof. exact call_results. Qed.
Print Assumptions C54.

(** A function with two results of different widths that returns from inside a branch: the
    hypotheses of C54 hold, and the caller finds 7 (u8) below 2^40 + 1 (u64) above its own 99. *)
Definition two_results : list instr :=
  [ Block "b" 0 [ LocalGet 0; If 0 ([ LocalGet 0; LocalGet 1; Const 1; Bin I64 Add ] ++ prepare_return 2 3 [TU8; TU64]) [] ] ].
Example C54_example :
  at_point (prepare_return 2 3 [TU8; TU64] ++ []) (rev [7; 2 ^ 40 + 1] ++ []) [7; 2 ^ 40; 0; 0; 0] w0 ["b"%string]
    two_results [] ([7; 2 ^ 40] ++ repeat 0 3) w0 /\
  words_of [TU8; TU64] [7; 2 ^ 40 + 1] /\ wok w0 /\ abort_flag w0 = 0 /\
  exists n l2 w2, exec n (call_code (move_function 2 3 2 two_results [TU8; TU64]) [TU8; TU64] true 0) (rev [7; 2 ^ 40] ++ [99]) [5; 6] w0 =
    ONormal [2 ^ 40 + 1; 7; 99] l2 w2 /\ l2 = [gnext w0; 6].
Proof.
  split; [|split; [|split; [exact w0_ok|split; [reflexivity|]]]].
  - apply at_block; [left; reflexivity|].
    apply (at_seq _ _ _ _ _ 5 [LocalGet 0] _ _ _ _ [7] [7; 2 ^ 40; 0; 0; 0] w0); [reflexivity|].
    apply at_if. cbn [Z.eqb]. rewrite app_nil_r. apply (at_seq _ _ _ _ _ 10 [LocalGet 0; LocalGet 1; Const 1; Bin I64 Add] _ _ _ _ [2 ^ 40 + 1; 7] [7; 2 ^ 40; 0; 0; 0] w0); [reflexivity|].
    apply at_here.
  - repeat constructor; cbn; lia.
  - assert (H : match exec 400 (call_code (move_function 2 3 2 two_results [TU8; TU64]) [TU8; TU64] true 0) (rev [7; 2 ^ 40] ++ [99]) [5; 6] w0 with
        ONormal s l _ => zs_eqb s [2 ^ 40 + 1; 7; 99] && zs_eqb l [gnext w0; 6] | _ => false end = true) by (vm_compute; reflexivity).
    destruct (exec 400 _ _ _ w0) eqn:E; try discriminate H. exists 400%nat, l, w. apply andb_true_iff in H. destruct H as [H1 H2].
    apply zs_eqb_eq in H1. apply zs_eqb_eq in H2. subst. auto.
Qed.

(** C66.  [calls f args w g args' w']: running [f] from the state [w] leads, through any number of nested
    calls, to a call of [g].  If [g] comes back with the abort flag set (by Abort or by a failed runtime
    check), [f] comes back in the same state: no caller executes anything after the abort, so no memory,
    storage or log of the final state differs from those at the abort. *)
Theorem C66 : forall f args w g args' w', calls f args w g args' w' ->
  forall rs w1, returns g args' w' rs w1 -> wok w1 -> abort_flag w1 <> 0 -> exists rs', returns f args w rs' w1.
Proof. exact chain_aborts. Qed.
Print Assumptions C66.

(** C66 for one call: what the caller hands to its own caller is the marker BADF00D, or nothing if it has no result. *)
Theorem C66_marker : forall f ts rt q k s' l' w0 lbs np nl nr code args args' w rs w1, List.length args = np ->
  at_point (call_code f ts rt q ++ k) (rev args' ++ s') l' w0 lbs code [] (args ++ repeat 0 nl) w ->
  returns f args' w0 rs w1 -> wok w1 -> abort_flag w1 <> 0 ->
  returns (Func np nl nr code) args w (firstn nr (if rt then [BADF00D] else [])) w1.
Proof. exact caller_aborts. Qed.
Print Assumptions C66_marker.

(** Two nested callers that would write to memory after the call of a function that aborts. *)
Definition aborting : func := Func 0 0 1 [ Const 256; Const 468; Store 4 0; Const 1; Return ].
Definition caller1 : func := Func 0 1 1 (call_code aborting [TU8] true 0 ++ [ Const 300; Const 7; Store 4 0; Const 5 ]).
Definition caller2 : func := Func 0 1 1 (call_code caller1 [TU8] true 0 ++ [ Const 304; Const 7; Store 4 0; Const 5 ]).
Example C66_example : exists w1, calls caller2 [] w0 aborting [] w0 /\ returns aborting [] w0 [1] w1 /\ wok w1 /\ abort_flag w1 <> 0 /\
  returns caller2 [] w0 [BADF00D] w1.
Proof.
  exists (set_mem w0 (store 4 (mem w0) 256 468)).
  split; [|split; [|split; [|split]]].
  - eapply (calls_next 0 1 1 _ [] w0 [] caller1 [TU8] true 0 _ [] [0] [] w0); [reflexivity|apply at_here|].
    eapply (calls_next 0 1 1 _ [] w0 [] aborting [TU8] true 0 _ [] [0] [] w0); [reflexivity|apply at_here|]. apply calls_here.
  - exists 20%nat. split; [reflexivity|discriminate].
  - apply wok_set_mem; [exact w0_ok|]. intros. apply rd_store_out. cbn in *. lia.
  - vm_compute. discriminate.
  - exists 50%nat. split; [reflexivity|discriminate].
Qed.
