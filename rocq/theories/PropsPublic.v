(** * Calls of public functions and custom errors: C74, C75. *)

From Verif Require Import SpecInt SpecVal Spec Tac RtAlloc RtErr RtCopy SpecAbi SpecSol RtUnpack RtUnpack2 RtRouter SpecRouter LemRouter RtCall RtPublic SpecPublic LemPublic RtRevert LemRevert ExPublic.

(** C75.  A call whose calldata are the selector of a public function, the standard ABI encoding of values [vs] of its argument
    types and anything after that.  The function's code [f] is run, once, with one word per argument; the words represent the
    values [vs] in disjoint parts of fresh memory, and the chain and the memory in use are as before the call.
    If [f] traps, so does the transaction.  If [f] ends with an error, the transaction ends with status 1, the error's data as
    the revert data.  If it returns the values [us], the transaction ends with status 0 and the standard ABI encoding of [us] as its
    return data, unless memory runs out.  Decoding fails only for lack of memory, or, if a string is among the arguments, near
    the end of a page (C31). *)
Theorem C75_call : forall c ep w s ts f rs vs rest, contract_ok c -> errtab_ok ep -> fresh_call w -> selector_ok s ->
  fold_right and True (map wf_aty ts) -> fold_right and True (map wf_aty rs) -> Z.of_nat (List.length rs) < 65536 -> move_fn ts rs f ->
  selected c s (wrap ep ts f rs) 4 -> all_fields (map has_aty ts) vs ->
  h_args (host w) = s ++ enc_args ts vs ++ rest -> let args := s ++ enc_args ts vs ++ rest in gnext w + lenz args <= 2147483648 ->
  transaction c w FTrap /\ ctrap w (existsb has_string ts) (lenz args + need_args ts vs) \/
  exists xs w1, running ep w1 /\ host w1 = host w /\ maxpages w1 = maxpages w /\ gnext w1 = gnext w + lenz args + need_args ts vs /\
    held (mem w1) ts vs xs (heap w1) /\
    (forall x, 0 <= x < gnext w -> ~ within 396 8 x -> rd (mem w1) x = rd (mem w) x) /\
    (traps f xs w1 -> transaction c w FTrap) /\
    (forall out w2 data, returns f xs w1 out w2 -> carries_error w2 data ->
       exists w', transaction c w (FRet [1] w') /\ host w' = set_result (host w2) data) /\
    (forall out w2 us, saves_quietly c -> returns f xs w1 out w2 -> running ep w2 -> returned w2 rs us out -> lenz (enc_args rs us) < 2147483648 ->
       transaction c w FTrap \/ exists w', transaction c w (FRet [0] w') /\ h_result (host w') = enc_args rs us).
Proof. exact call_public. Qed.
Print Assumptions C75_call.

(** C75 for a function given by its code: when that arrives (through any blocks, branches, loops and calls) at a Ret with words
    for the values [us] on the stack, the return data of the transaction is the standard encoding of [us]. *)
Theorem C75_returns : forall c ep w s ts nl r b body rs vs rest, contract_ok c -> errtab_ok ep -> saves_quietly c -> fresh_call w -> selector_ok s ->
  fold_right and True (map wf_aty ts) -> fold_right and True (map wf_aty rs) -> Z.of_nat (List.length rs) < 65536 ->
  selected c s (wrap ep ts (move_function (List.length ts) nl r body (map mty rs)) rs) 4 ->
  (r < b)%nat -> (b + List.length rs <= List.length ts + nl)%nat -> all_fields (map has_aty ts) vs ->
  h_args (host w) = s ++ enc_args ts vs ++ rest -> gnext w + lenz (s ++ enc_args ts vs ++ rest) <= 2147483648 ->
  transaction c w FTrap \/
  exists xs w1, running ep w1 /\ host w1 = host w /\ maxpages w1 = maxpages w /\
    gnext w1 = gnext w + lenz (s ++ enc_args ts vs ++ rest) + need_args ts vs /\ held (mem w1) ts vs xs (heap w1) /\
    forall k lbs st l' w2 ys us,
      at_point (prepare_return r b (map mty rs) ++ k) (rev ys ++ st) l' w2 lbs body [] (xs ++ repeat 0 nl) w1 -> ~ In "result"%string lbs ->
      running ep w2 -> represents w2 rs us ys -> lenz (enc_args rs us) < 2147483648 ->
      transaction c w FTrap \/ exists w', transaction c w (FRet [0] w') /\ h_result (host w') = enc_args rs us.
Proof. exact returned_transaction. Qed.
Print Assumptions C75_returns.

Definition w_pub (s : list Z) (a b : Z) : world :=
  mkW zmem 1 100 1000 (65536 - 1000) 0
    (mkHost (fun _ => 0) (fun _ => 5) (fun _ => 5) (s ++ enc_args two [VInt a; VInt b] ++ []) 161 162 0 1 1 0 0 [] [] ext0).

(** The contract with [check] and [withdraw]; 5 - 3 is returned as the word 2; and the theorem applies to all such calls. *)
Example C75_example : 
  (exists w', transaction (c_pub ep0) (w_pub [5; 6; 7; 8] 5 3) (FRet [0] w') /\ h_result (host w') = word 2) /\
  contract_ok (c_pub ep0) /\ saves_quietly (c_pub ep0) /\ fresh_call (w_pub [5; 6; 7; 8] 5 3) /\
  selected (c_pub ep0) [5; 6; 7; 8] (wrap ep0 two (withdraw ep0) [AInt TU64]) 4 /\ move_fn two [AInt TU64] (withdraw ep0) /\
  all_fields (map has_aty two) [VInt 5; VInt 3] /\
  (forall w1 xs, running ep0 w1 -> held (mem w1) two [VInt 5; VInt 3] xs (heap w1) ->
     exists l, at_point (prepare_return 2 3 [TU64] ++ []) (rev [2] ++ []) l w1 [] (withdraw_body ep0) [] (xs ++ repeat 0 5) w1 /\
       represents w1 [AInt TU64] [VInt 2] [2]).
Proof.
  split; [|split; [apply c_pub_ok|split; [apply c_pub_quiet|split; [|split; [apply c_pub_withdraw|split; [|split]]]]]].
  - destruct (runs_to_vals 5000 (router (c_pub ep0)) [68] (w_pub [5; 6; 7; 8] 5 3) [0]
      (fun w' => zs_eqb (h_result (host w')) (word 2))) as (w'&R&H); [vm_compute; reflexivity|].
    apply zs_eqb_eq in H. exists w'. split; [exact R|exact H].
  - split; [|split; [reflexivity|split; [|reflexivity]]].
    + unfold wok, w_pub; cbn [pages maxpages gnext gavail mem]. repeat (split; [lia|]). reflexivity.
    + vm_compute. repeat constructor; discriminate.
  - unfold move_fn, withdraw, move_function. eauto.
  - cbn [two map all_fields has_aty]. split; [|split; [|exact Logic.I]]; (eexists; split; [reflexivity|split; [lia|reflexivity]]).
  - intros w1 xs ((P1&_)&_&Fl) H. apply two_words in H. subst xs. eexists. split; [|cbn [represents mty vrep]; split; [split; [reflexivity|split; [lia|reflexivity]]|exact Logic.I]].
    apply (withdraw_point ep0 w1 5 3); [lia|exact Fl|lia|reflexivity].
Qed.

(** C74.  [error::revert(e)]: the 4-byte selector of the error type and the standard ABI encoding of the fields of [e] are left as
    the error of the transaction; nothing else in use changes.  Lack of memory for them is a trap. *)
Theorem C74_revert_data : forall ep sel fs vs x w, running ep w -> selector_ok sel ->
  fold_right and True (map wf_aty fs) -> vrep (mem w) (TStruct false (map mty fs)) (VStruct 0 vs) x (heap w) ->
  let e := enc_args fs vs in lenz e < 2147483640 ->
  (exists w', returns (revert ep sel fs) [x] w [] w' /\ raised w w' (sel ++ e)) \/
  (traps (revert ep sel fs) [x] w /\ oom w (8 + lenz e)).
Proof. exact revert_leaves. Qed.
Print Assumptions C74_revert_data.

(** C74 for a whole transaction: when the call chain of a public function leads to a function without results whose code arrives
    at [revert(e)] and returns after it, the transaction ends with status 1 and selector and encoding of [e] as revert data.
    Missing for the full property: other code after the [revert] (C74_continues_refuted). *)
Theorem C74_transaction_partial : forall c ep w s ts f rs vs rest, contract_ok c -> errtab_ok ep -> fresh_call w -> selector_ok s ->
  fold_right and True (map wf_aty ts) -> fold_right and True (map wf_aty rs) -> Z.of_nat (List.length rs) < 65536 -> move_fn ts rs f ->
  selected c s (wrap ep ts f rs) 4 -> all_fields (map has_aty ts) vs ->
  h_args (host w) = s ++ enc_args ts vs ++ rest -> gnext w + lenz (s ++ enc_args ts vs ++ rest) <= 2147483648 ->
  transaction c w FTrap \/
  exists xs w1, running ep w1 /\ host w1 = host w /\ maxpages w1 = maxpages w /\
    gnext w1 = gnext w + lenz (s ++ enc_args ts vs ++ rest) + need_args ts vs /\ held (mem w1) ts vs xs (heap w1) /\
    forall np nl r b body args w2 k lbs st l' w3 x sel fs us,
      calls f xs w1 (move_function np nl r body []) args w2 -> List.length args = np ->
      at_point ([ Call (revert ep sel fs) ] ++ prepare_return r b [] ++ k) (x :: st) l' w3 lbs body [] (args ++ repeat 0 nl) w2 -> ~ In "result"%string lbs ->
      running ep w3 -> selector_ok sel -> fold_right and True (map wf_aty fs) ->
      vrep (mem w3) (TStruct false (map mty fs)) (VStruct 0 us) x (heap w3) -> lenz (enc_args fs us) < 2147483640 ->
      transaction c w FTrap \/
      exists w', transaction c w (FRet [1] w') /\ host w' = set_result (host w3) (sel ++ enc_args fs us).
Proof. exact reverted_transaction. Qed.
Print Assumptions C74_transaction_partial.

(** [check(3, 5)] reverts with Insufficient { balance: 3 }; the theorem applies to all such calls. *)
Example C74_example :
  (exists w', transaction (c_pub ep0) (w_pub [1; 2; 3; 4] 3 5) (FRet [1] w') /\ h_result (host w') = e_sel ++ word 3) /\
  selected (c_pub ep0) [1; 2; 3; 4] (wrap ep0 two (check ep0) []) 4 /\ move_fn two [] (check ep0) /\ selector_ok e_sel /\
  (forall w1 xs, running ep0 w1 -> ~ oom w1 12 -> held (mem w1) two [VInt 3; VInt 5] xs (heap w1) ->
     calls (check ep0) xs w1 (move_function 2 5 2 (check_body ep0) []) xs w1 /\
     exists x l w3, at_point ([ Call (revert ep0 e_sel [AInt TU64]) ] ++ prepare_return 2 3 [] ++ []) [x] l w3 [] (check_body ep0) [] (xs ++ repeat 0 5) w1 /\
       running ep0 w3 /\ vrep (mem w3) (TStruct false [TU64]) (VStruct 0 [VInt 3]) x (heap w3)).
Proof.
  split; [|split; [apply c_pub_check|split; [|split]]].
  - destruct (runs_to_vals 5000 (router (c_pub ep0)) [68] (w_pub [1; 2; 3; 4] 3 5) [1]
      (fun w' => zs_eqb (h_result (host w')) (e_sel ++ word 3))) as (w'&R&H); [vm_compute; reflexivity|].
    apply zs_eqb_eq in H. exists w'. split; [exact R|exact H].
  - unfold move_fn, check, move_function. eauto.
  - split; [reflexivity|repeat constructor; lia].
  - intros w1 xs Hr No H. apply two_words in H. subst xs. split; [constructor|].
    destruct (guard_point ep0 (prepare_return 2 3 [] ++ []) w1 3 5) with (rest := prepare_return 2 3 []) as (x&l&w3&A&E&_&V); try lia; [apply Hr|exact No|].
    exists x, l, w3. split; [exact A|]. split; [eapply running_extends; eassumption|exact V].
Qed.

(** C74, full statement refuted.  [revert] is not among the functions after which a caller looks at the abort pointer
    (native_functions.rs 845-871), so the code after it runs: [withdraw(3, 5)] arrives at revert(Insufficient { balance: 3 })
    and goes on to the subtraction, whose overflow error replaces the custom error. *)
Theorem C74_continues_refuted : exists ep w k x l w3 out w',
  running ep w /\ running ep w3 /\
  at_point ([ Call (revert ep e_sel [AInt TU64]) ] ++ k) [x] l w3 [] (withdraw_body ep) [] ([3; 5] ++ repeat 0 5) w /\
  vrep (mem w3) (TStruct false [TU64]) (VStruct 0 [VInt 3]) x (heap w3) /\
  returns (withdraw ep) [3; 5] w out w' /\ abort_flag w' = ep Overflow /\
  ~ carries_error w' (e_sel ++ enc_args [AInt TU64] [VInt 3]).
Proof. exact withdraw_goes_on. Qed.
Print Assumptions C74_continues_refuted.
