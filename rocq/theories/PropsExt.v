(** * Calls to other contracts and questions about accounts (C83, C84). *)

From Verif Require Import SpecInt Spec Tac RtAlloc RtErr RtSwap RtCopy SpecAbi SpecVal LemVal SpecVec SpecSol LemSol RtRouter SpecExt RtExt LemExt RtAccount ExVec ExExt.
Ltac Zify.zify_post_hook ::= idtac.

(** C83: a call of an external function with the configuration [c] makes exactly one call of the kind, to the account, with
    the selector and encoded arguments, the amount and the gas that the program asks for ([wanted]).  Its result
    holds the status the call had and, after a success, the value the other contract's reply encodes.  No memory of
    the caller changes but, for a payable function, the configured amount, whose bytes are reversed (missing: that the
    configuration stays as it was; see [C83_second_call_refuted]).  Or memory runs out.  The caller's storage is as the
    other contract left it ([called]).  Not covered: arguments that are object ids, and objects with a named id in the caller. *)
Theorem C83_call_partial : forall ep static payable sel ts res vs v xs self c F G w, running ep w -> 65536 * maxpages w <= 2147483648 ->
  List.length sel = 4%nat -> Forall (fun b => 0 <= b < 256) sel -> fold_right and True (map wf_aty ts) ->
  configured (mem w) c self F -> sub F (heap w) -> represented (mem w) ts vs xs G -> sub G (heap w) -> disj F G ->
  let e := enc_args ts vs in lenz e < 2147483640 ->
  let k := wanted static payable c (sel ++ e) in let a := answer (host w) k in let st := r_status a mod 256 in
  Forall (fun b => 0 <= b < 256) (r_data a) -> lenz (r_data a) < 2147483640 ->
  (match res with Some t => wf_aty t /\ (st = 0 -> encodes t v (r_data a)) | None => True end) ->
  let A := amount_at (mem w) self in
  (exists x w', returns (external_call ep static payable sel ts res) (self :: xs) w [x] w' /\
      host w' = called (host w) k /\ call_result res v st (mem w') x (between (gnext w) (gnext w')) /\
      grown w w' (fun y => payable = true /\ between A (A + 32) y) /\ configured (mem w') (after_call payable c) self F) \/
  no_memory (external_call ep static payable sel ts res) (self :: xs) w (call_strings res) (call_cost payable e res v st (r_data a)).
Proof. exact external_call_ok. Qed.
Print Assumptions C83_call_partial.
(** A payable call with a u32 and a u256 argument, answered by the number 11. *)
Example C83_call_example : running ep0 w_ext /\ configured (mem w_ext) c_ext 1000 (between 1000 1096) /\ sub (between 1000 1096) (heap w_ext) /\
  represented (mem w_ext) [AInt TU32; AInt TU256] [VInt 5; VInt 9] [5; 1096] (between 1096 1128) /\ sub (between 1096 1128) (heap w_ext) /\
  disj (between 1000 1096) (between 1096 1128) /\ enc_args [AInt TU32; AInt TU256] [VInt 5; VInt 9] = word 5 ++ word 9 /\
  answer (host w_ext) (wanted false true c_ext ([1; 2; 3; 4] ++ word 5 ++ word 9)) = mkReply 0 (word 11) (stor host0) (committed host0) /\
  Forall (fun b => 0 <= b < 256) (word 11) /\ encodes (AInt TU256) (VInt 11) (word 11) /\
  exists w', returns (external_call ep0 false true [1; 2; 3; 4] [AInt TU32; AInt TU256] (Some (AInt TU256))) [1000; 5; 1096] w_ext [1204] w' /\
    (load 4 (mem w') (load 4 (mem w') 1204) =? 0) && (load 32 (mem w') (load 4 (mem w') 1208) =? 11) = true.
Proof.
  split; [exact w_ext_running|]. split; [exact w_ext_config|]. split; [nums|]. split; [exact w_ext_args|]. split; [nums|]. split; [nums|].
  split; [reflexivity|]. split; [reflexivity|]. split; [apply be_bytes_range|]. split.
  - change (word 11) with (enc_args [AInt TU256] [VInt 11]). apply encodes_enc; [exact Logic.I|]. cbn [has_aty]. exists 11. nums.
  - apply runs_to_vals with (n := 600%nat). vm_compute. reflexivity.
Qed.

(** C83: the standard encoding of a value, as another contract replies with, is one. *)
Theorem C83_standard_reply : forall t v, wf_aty t -> has_aty t v -> encodes t v (enc_args [t] [v]).
Proof. exact encodes_enc. Qed.
Print Assumptions C83_standard_reply.
Example C83_standard_reply_example : wf_aty (AVec AString) /\ has_aty (AVec AString) (VVec [VStruct 0 [VVec (map VInt [104; 105])]; VStruct 0 [VVec (map VInt [])]]).
Proof.
  split; [exact Logic.I|]. cbn [has_aty]. eexists. split; [reflexivity|]. repeat apply Forall_cons; try apply Forall_nil; eexists; (split; [reflexivity|]);
  repeat apply Forall_cons; try apply Forall_nil; lia.
Qed.

(** C83 is false of the code in full: with an amount of 7, the second of two equal payable calls sends 7 * 2^248. *)
Theorem C83_second_call_refuted : exists c self F w x y w', running ep0 w /\ configured (mem w) c self F /\ sub F (heap w) /\ delegate c = false /\ amount c = 7 /\
  returns (twice (external_call ep0 false true [1; 2; 3; 4] [] None)) [self] w [x; y] w' /\
  map c_value (x_calls (h_ext (host w'))) = [7 * 2 ^ 248; 7].
Proof.
  destruct pays_twice as (x&y&w'&R&E). exists c_ext, 1000, (between 1000 1096), w_ext, x, y, w'.
  split; [exact w_ext_running|]. split; [exact w_ext_config|]. split; [nums|]. auto.
Qed.
Print Assumptions C83_second_call_refuted.

(** C83 is false of the code for a parameter of type [&u32]: the other contract receives the address of the number, 1128,
    instead of the number, 5. *)
Theorem C83_reference_argument_refuted : exists c self F w p x w', running ep0 w /\ configured (mem w) c self F /\ sub F (heap w) /\
  field_of (mem w) TU32 (vrep (mem w) TU32) (VInt 5) p (between p (p + 4)) /\
  returns (external_call ep0 false false [1; 2; 3; 4] [AInt TU32] None) [self; p] w [x] w' /\
  map c_data (x_calls (h_ext (host w'))) = [[1; 2; 3; 4] ++ word 1128].
Proof.
  destruct sends_address as (x&w'&R&E). exists c_ext, 1000, (between 1000 1096), w_ext, 1128, x, w'.
  split; [exact w_ext_running|]. split; [exact w_ext_config|]. split; [nums|]. split; [nums|]. auto.
Qed.
Print Assumptions C83_reference_argument_refuted.

(** C84: the code size the program is told is the one of the account it asks about; nothing changes. *)
Theorem C84_code_size : forall a p F w, wok w -> vrep (mem w) TAddress (VInt a) p F -> sub F (heap w) ->
  0 <= x_code_size (h_ext (host w)) (x_calls (h_ext (host w))) a < 2 ^ 32 ->
  returns native_account_code_size [p] w [x_code_size (h_ext (host w)) (x_calls (h_ext (host w))) a] w.
Proof. exact code_size_ok. Qed.
Print Assumptions C84_code_size.

(** C84: the balance the program is told, as a new u256, is the one of the account it asks about. *)
Theorem C84_balance : forall a p F w, wok w -> vrep (mem w) TAddress (VInt a) p F -> sub F (heap w) ->
  let b := x_balance (h_ext (host w)) (x_calls (h_ext (host w))) a in 0 <= b < 2 ^ 256 ->
  (exists x w', returns native_account_balance [p] w [x] w' /\ extends w w' /\ vrep (mem w') TU256 (VInt b) x (between (gnext w) (gnext w'))) \/
  (traps native_account_balance [p] w /\ oom w 32).
Proof. exact balance_ok. Qed.
Print Assumptions C84_balance.
Example C84_example : wok w_ext /\ vrep (mem w_ext) TAddress (VInt 42) 1020 (between 1020 1052) /\ sub (between 1020 1052) (heap w_ext) /\
  x_balance (h_ext (host w_ext)) (x_calls (h_ext (host w_ext))) 42 = 3 + 2 ^ 200 /\ x_code_size (h_ext (host w_ext)) (x_calls (h_ext (host w_ext))) 42 = 24 /\
  exists w', returns native_account_balance [1020] w_ext [1132] w' /\ (load 32 (mem w') 1132 =? 3 + 2 ^ 200) = true.
Proof.
  split; [exact (proj1 w_ext_running)|]. split; [cbn [vrep]; nums|]. split; [nums|]. split; [reflexivity|]. split; [reflexivity|].
  apply runs_to_vals with (n := 300%nat). vm_compute. reflexivity.
Qed.
