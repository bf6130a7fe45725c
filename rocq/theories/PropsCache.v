(** * Changes to objects are in storage when the transaction ends (C78, C79). *)

From Verif Require Import SpecInt Spec Tac RtAlloc RtErr RtSwap RtCopy SpecAbi SpecVal LemVal SpecStor SpecLayout RtStor RtStore LemStore RtSave RtLoad RtLoadObj LemPlace LemObj ExObj RtChild LemDelete RtDelete SpecMove RtTransfer LemMove ExMove RtCall SpecCache RtCache LemCache ExCache.

(** C78, full statement: when an entry function returns, storage has every object it took by mutable reference or by value
    and did not delete, as the function left it in memory; other slots are not touched by the return.
    Proved: for a function whose code, started with the arguments [args] in the world [w], comes to a return at any depth of
    blocks, branches and loops, with the results [vs] on the stack, the objects [as_] in its locals and the world [w1].
    Missing: objects with other objects inside (C78_tree_changes_saved_partial), and vectors shorter than in storage (C37). *)
Theorem C78_changes_saved_partial : forall ep rt np nl r b body ts args w k lbs s l w1 vs as_, List.length args = np ->
  at_point (cache_args ep rt (map arg_code as_) ++ prepare_return r b ts ++ k) (rev vs ++ s) l w1 lbs body [] (args ++ repeat 0 nl) w -> ~ In "result"%string lbs ->
  (r < b)%nat -> (b + List.length ts <= np + nl)%nat -> words_of ts vs -> total_size ts < 2147483648 ->
  running ep w1 -> statics w1 -> Forall (in_hand w1 l) as_ -> Forall (savable w1) as_ -> distinct_objects (host w1) as_ ->
  (exists rs w2, returns (move_function np nl r body ts) args w rs w2 /\ abort_flag w2 = 0 /\
     Forall (up_to_date (host w1) (stor (host w2))) as_ /\
     (forall y, (forall a, In a as_ -> ~ covers (a_slots (host w1) a) y) -> stor (host w2) y = stor (host w1) y)) \/
  traps (move_function np nl r body ts) args w /\ oom w1 (save_memory as_ + total_size ts).
Proof. exact entry_saves. Qed.
Print Assumptions C78_changes_saved_partial.

(** A function that takes two objects by mutable reference and one number, and returns the number plus one out of a branch:
    the hypotheses hold, and storage then has 77 and 78 in the first fields of the objects. *)
Definition touch_two : list instr :=
  [ Block "b" 0 [ LocalGet 2; If 0 ([ LocalGet 2; Const 1; Bin I64 Add ] ++ cache_args ep0 true (map arg_code [arg_1; arg_2 10]) ++ prepare_return 3 4 [TU64]) [] ] ].
Example C78_example :
  let w := w_two 10 (fun _ => 0) in
  at_point (cache_args ep0 true (map arg_code [arg_1; arg_2 10]) ++ prepare_return 3 4 [TU64] ++ []) (rev [8] ++ []) [500; 504; 7; 0; 0] w ["b"%string]
    touch_two [] ([500; 504; 7] ++ repeat 0 2) w /\
  words_of [TU64] [8] /\ running ep0 w /\ statics w /\ Forall (in_hand w [500; 504; 7; 0; 0]) [arg_1; arg_2 10] /\
  Forall (savable w) [arg_1; arg_2 10] /\ distinct_objects (host w) [arg_1; arg_2 10] /\
  exists w2, returns (move_function 3 2 3 touch_two [TU64]) [500; 504; 7] w [964] w2 /\
     (load 8 (mem w2) 964 =? 8) && ((stor (host w2) (k_two 9) / 2 ^ 64) mod 2 ^ 64 =? 77) && ((stor (host w2) (k_two 10) / 2 ^ 64) mod 2 ^ 64 =? 78) = true.
Proof.
  cbv zeta. split; [|split; [|split; [|split; [|split; [|split; [|split; [apply distinct_two|]]]]]]].
  - rewrite app_nil_r. apply at_block; [left; reflexivity|].
    apply (at_seq _ _ _ _ _ 5 [LocalGet 2] _ _ _ _ [7] [500; 504; 7; 0; 0] (w_two 10 (fun _ => 0))); [reflexivity|].
    apply at_if. cbn [Z.eqb]. apply (at_seq _ _ _ _ _ 10 [LocalGet 2; Const 1; Bin I64 Add] _ _ _ _ [8] [500; 504; 7; 0; 0] (w_two 10 (fun _ => 0))); [reflexivity|].
    apply at_here.
  - repeat constructor; cbn; lia.
  - apply w_two_running. auto.
  - apply w_two_statics. auto.
  - constructor; [apply in_hand_1; auto|constructor; [apply in_hand_2; auto|constructor]].
  - constructor; [|constructor; [|constructor]]; eapply savable_two; try reflexivity; cbn; auto.
  - apply (runs_to_vals 3000). vm_compute. reflexivity.
Qed.

(** C78.  The next transaction sees the changes: whoever loads an object that storage has as it was in memory gets those fields,
    unless an enum is in the way (C91). *)
Theorem C78_seen_later_partial : forall ep h st a, up_to_date h st a -> a_owner a <> 0 -> 0 < a_hash a < 2 ^ 64 -> legible (keccak h) (a_types a) (a_vals a) (a_slot h a) ->
  Forall (fun s => snd s < 2 ^ 256) (a_slots h a) -> object_memory (a_types a) (a_vals a) < 2 ^ 31 ->
  forall w p sid ow, ready ep w p -> keccak (host w) = keccak h -> stor (host w) = st -> load_be 32 (mem w) p = a_slot h a ->
    468 <= sid -> sid + 32 <= gnext w -> (sid + 32 <= p \/ p + 32 <= sid) -> 0 <= ow -> ow + 32 <= gnext w ->
    wpf (load_object ep (a_hash a) (a_types a)) [p; sid; ow] w (resq (fun r w' => exists x F, r = [x] /\ host w' = host w /\
       object_at (mem w') (a_types a) (load_be 32 (mem w) ow) (load_be 32 (mem w) sid) (a_vals a) x F /\ sub F (heap w'))
     (ctrap w (existsb narrow (a_types a)) (object_memory (a_types a) (a_vals a)))).
Proof. exact seen_later. Qed.
Print Assumptions C78_seen_later_partial.

(** C78, refuted for an object that is given twice: nothing keeps a caller from naming the same object in two arguments.  The
    function works on two copies of it, both are saved, and what was changed in the first copy is lost. *)
Theorem C78_same_object_twice_refuted : forall ep rt l s w a b, running ep w -> statics w -> in_hand w l a -> in_hand w l b -> savable w a -> savable w b ->
  a_owner a = a_owner b -> a_id a = a_id b -> a_types a = a_types b -> a_owner b <> 0 -> forallb flat (a_types b) = true ->
  (exists n w', exec n (cache_args ep rt (map arg_code [a; b])) s l w = ONormal s l w' /\ up_to_date (host w) (stor (host w')) b /\
     (a_vals a <> a_vals b -> ~ up_to_date (host w) (stor (host w')) a)) \/
  (exists n, exec n (cache_args ep rt (map arg_code [a; b])) s l w = OTrap) /\ oom w (save_memory [a; b]).
Proof. exact same_object_twice. Qed.
Print Assumptions C78_same_object_twice_refuted.
Example C78_twice_example :
  let w := w_two 9 (fun _ => 0) in
  running ep0 w /\ statics w /\ in_hand w [500; 504] arg_1 /\ in_hand w [500; 504] (arg_2 9) /\ savable w arg_1 /\ savable w (arg_2 9) /\ a_vals arg_1 <> a_vals (arg_2 9) /\
  match exec 3000 (cache_args ep0 true (map arg_code [arg_1; arg_2 9])) [] [500; 504] w with
  | ONormal _ _ w' => (stor (host w') (k_two 9) / 2 ^ 64) mod 2 ^ 64 = 78 | _ => False end.
Proof.
  cbv zeta. split; [apply w_two_running; auto|]. split; [apply w_two_statics; auto|]. split; [apply in_hand_1; auto|]. split; [apply in_hand_2; auto|].
  split; [eapply savable_two; try reflexivity; cbn; auto|]. split; [eapply savable_two; try reflexivity; cbn; auto|]. split; [discriminate|].
  vm_compute. reflexivity.
Qed.

(** C79, full statement: when the transaction ends, storage has every dynamic field that was borrowed mutably, as it was left
    in memory; everything else is written out as it is.  [ts]: the places of the program that borrow a dynamic field, each
    with the type it borrows; [ds]: what each of them borrowed last, if anything.
    Missing: that what a place borrowed last is all it borrowed, which fails for places that run twice; fields with
    objects inside, and vectors shorter than in storage (C37). *)
Theorem C79_fields_saved_partial : forall ep ts ds gs w, wok w -> errtab_ok ep -> statics w ->
  Forall2 (field_in_hand w) gs ds -> Forall2 field_type ds ts -> Forall (savable w) (somes ds) -> distinct_objects (host w) (somes ds) ->
  (exists w', returns (commit_changes ep ts) gs w [] w' /\ committed (host w') = stor (host w') /\
     Forall (up_to_date (host w) (committed (host w'))) (somes ds) /\
     (forall y, (forall a, In a (somes ds) -> ~ covers (a_slots (host w) a) y) -> committed (host w') y = stor (host w) y)) \/
  traps (commit_changes ep ts) gs w /\ oom w (fields_memory ds).
Proof. exact fields_saved. Qed.
Print Assumptions C79_fields_saved_partial.
(** Three places; the second was not reached. *)
Example C79_example :
  let w := w_two 10 (fun _ => 0) in let ts := [(5, fs_flat); (7, [TU8]); (5, fs_flat)] in let ds := [Some arg_1; None; Some (arg_2 10)] in
  wok w /\ statics w /\ Forall2 (field_in_hand w) [564; 4294967295; 764] ds /\ Forall2 field_type ds ts /\
  Forall (savable w) (somes ds) /\ distinct_objects (host w) (somes ds) /\
  exists w', returns (commit_changes ep0 ts) [564; 4294967295; 764] w [] w' /\
     ((committed (host w') (k_two 9) / 2 ^ 64) mod 2 ^ 64 =? 77) && ((committed (host w') (k_two 10) / 2 ^ 64) mod 2 ^ 64 =? 78) = true.
Proof.
  cbv zeta. split; [apply w_two_ok|]. split; [apply w_two_statics; auto|]. split; [|split; [|split; [|split; [apply distinct_two|]]]].
  - constructor; [|constructor; [reflexivity|constructor; [|constructor]]].
    + split; [lia|]. exists (between 532 700). split; [apply w_two_first; auto|apply w_two_sub; lia].
    + split; [lia|]. exists (between 732 900). split; [apply w_two_second; auto|apply w_two_sub; lia].
  - repeat constructor.
  - constructor; [|constructor; [|constructor]]; eapply savable_two; try reflexivity; cbn; auto.
  - apply (runs_to_vals 3000). vm_compute. reflexivity.
Qed.

(** C79, refuted for a place that runs twice, as in a loop or a function called twice: each place remembers one field only.  A
    change to the field it borrowed first is not in storage after the transaction. *)
Theorem C79_place_runs_twice_refuted : forall ep g v x1 x2 a b l s w, running ep w -> statics w -> (g < List.length l)%nat -> (v < List.length l)%nat -> g <> v ->
  field_in_hand w x1 (Some a) -> field_in_hand w x2 (Some b) -> a_hash a = a_hash b -> a_types a = a_types b -> forallb storable (a_types b) = true -> savable w b ->
  distinct_objects (host w) [a; b] -> 0 <= x1 < 2 ^ 31 -> 0 <= x2 < 2 ^ 31 ->
  let code := [ Const (x1 + 8) ] ++ borrowed_field g v ++ [ Drop; Const (x2 + 8) ] ++ borrowed_field g v ++
              [ Drop; LocalGet g; Call (commit_changes ep [(a_hash b, a_types b)]) ] in
  (exists n l' w', exec n code s l w = ONormal s l' w' /\
     up_to_date (host w) (committed (host w')) b /\
     (~ up_to_date (host w) (stor (host w)) a -> ~ up_to_date (host w) (committed (host w')) a)) \/
  (exists n, exec n code s l w = OTrap) /\ oom w (fields_memory [Some b]).
Proof. exact site_twice. Qed.
Print Assumptions C79_place_runs_twice_refuted.
Example C79_twice_example :
  let w := w_two 10 (fun _ => 0) in
  running ep0 w /\ statics w /\ field_in_hand w 564 (Some arg_1) /\ field_in_hand w 764 (Some (arg_2 10)) /\ savable w (arg_2 10) /\ distinct_objects (host w) [arg_1; arg_2 10] /\
  ~ up_to_date (host w) (stor (host w)) arg_1 /\
  match exec 3000 (run_twice ep0 0 1 564 764 5 fs_flat) [] [0; 0] w with
  | ONormal _ _ w' => committed (host w') (k_two 9) = 0 /\ (committed (host w') (k_two 10) / 2 ^ 64) mod 2 ^ 64 = 78 | _ => False end.
Proof.
  cbv zeta. split; [apply w_two_running; auto|]. split; [apply w_two_statics; auto|].
  split; [split; [lia|]; exists (between 532 700); split; [apply w_two_first; auto|apply w_two_sub; lia]|].
  split; [split; [lia|]; exists (between 732 900); split; [apply w_two_second; auto|apply w_two_sub; lia]|].
  split; [eapply savable_two; try reflexivity; cbn; auto|]. split; [apply distinct_two|]. split.
  - intros U. destruct U as (U&_); [discriminate|]. vm_compute in U. discriminate.
  - vm_compute. split; reflexivity.
Qed.
