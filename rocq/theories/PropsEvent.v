(** * Events: C76. *)

From Verif Require Import SpecInt Spec Tac RtAlloc RtErr RtCopy SpecAbi SpecVal LemVal SpecSol SpecEvent RtEvent RtEmit RtEmit2 LemEvent ExObj ExEvent.

(** C76, for events whose indexed strings and vectors are not empty and whose indexed structs contain no structs.
    Emitting an event adds one log: first the hash of the event's signature (unless anonymous) and a topic for each indexed
    field, then the standard ABI encoding of the other fields, with the number of topics.  Nothing else changes.  It traps
    only if memory runs out, or (these are flaws) near the end of a page: with an indexed string, if the page ends within
    3 bytes of the memory used; with dynamic data, if within 32 bytes per topic. *)
Theorem C76_event_log_partial : forall ep e w X vs ds, event_ok e -> wok w -> abort_flag w = 0 -> List.length vs = List.length (e_indexed e) ->
  vrep (mem w) (event_ty e) (VStruct 0 (vs ++ ds)) X (heap w) -> fold_right and True (map nonempty vs) -> event_cost e vs ds < 2147483648 ->
  (exists w', returns (emit ep e) [X] w [] w' /\
     host w' = set_logs (host w) (log_of (keccak (host w)) e vs ds :: h_logs (host w)) /\
     wok w' /\ abort_flag w' = 0 /\ (forall a, 0 <= a < gnext w -> rd (mem w') a = rd (mem w) a)) \/
  (traps (emit ep e) [X] w /\ emit_traps w e (event_cost e vs ds)).
Proof. exact event_log. Qed.
Print Assumptions C76_event_log_partial.

(** [Paid { n: 7, who: "ab", amount: 9, memo: "c" }], two indexed fields. *)
Example C76_example :
  (event_ok paid /\ wok (w_paid 560) /\ abort_flag (w_paid 560) = 0 /\
   vrep (mem (w_paid 560)) (event_ty paid) (VStruct 0 (paid_vs ++ paid_ds)) 500 (heap (w_paid 560)) /\
   fold_right and True (map nonempty paid_vs) /\ event_cost paid paid_vs paid_ds = 258) /\
  (exists w', returns (emit ep0 paid) [500] (w_paid 560) [] w' /\
     h_logs (host w') = [(3, some_hash ++ word 7 ++ word (hash0 [97; 98]) ++ word 9 ++ word 64 ++ word 1 ++ 99 :: repeat 0 31)]).
Proof.
  split.
  - split; [exact paid_ok|]. split; [apply w_paid_ok; lia|]. split; [vm_compute; reflexivity|]. split; [apply w_paid_rep; lia|].
    split; [cbn; repeat split; discriminate|vm_compute; reflexivity].
  - destruct (runs_to_vals 3000 (emit ep0 paid) [500] (w_paid 560) []
      (fun w' => same_log (h_logs (host w')) [(3, some_hash ++ word 7 ++ word (hash0 [97; 98]) ++ word 9 ++ word 64 ++ word 1 ++ 99 :: repeat 0 31)])) as (w'&R&E);
      [vm_compute; reflexivity|]. exists w'. split; [exact R|]. apply same_log_eq. exact E.
Qed.

(** The log of an event with an empty indexed vector is wrong: one element is read from beyond its end. *)
Theorem C76_empty_vector_refuted : exists e w X vs ds w', event_ok e /\ wok w /\ abort_flag w = 0 /\
  vrep (mem w) (event_ty e) (VStruct 0 (vs ++ ds)) X (heap w) /\ event_cost e vs ds < 2147483648 /\
  returns (emit ep0 e) [X] w [] w' /\ h_logs (host w') <> log_of (keccak (host w)) e vs ds :: h_logs (host w).
Proof.
  destruct (runs_to_vals 3000 (emit ep0 listed) [500] w_listed []
    (fun w' => negb (same_log (h_logs (host w')) [log_of hash0 listed [VVec []] []]))) as (w'&R&E); [vm_compute; reflexivity|].
  exists listed, w_listed, 500, [VVec []], [], w'. split; [exact listed_ok|]. split; [exact w_listed_ok|]. split; [vm_compute; reflexivity|].
  split; [exact w_listed_rep|]. split; [vm_compute; reflexivity|]. split; [exact R|]. intros C.
  change (log_of (keccak (host w_listed)) listed [VVec []] [] :: h_logs (host w_listed)) with [log_of hash0 listed [VVec []] []] in C. rewrite C in E.
  vm_compute in E. discriminate E.
Qed.
Print Assumptions C76_empty_vector_refuted.

(** So is the log of an event with an indexed struct that contains a struct: the inner struct's pointer is followed once too often. *)
Theorem C76_nested_struct_refuted : exists e w X vs ds w', Forall (fun t => match t with IId => True | IAbi t => wf_aty t end) (e_indexed e) /\
  topic_count e <= 4 /\ wok w /\ abort_flag w = 0 /\
  vrep (mem w) (event_ty e) (VStruct 0 (vs ++ ds)) X (heap w) /\ fold_right and True (map nonempty vs) /\ event_cost e vs ds < 2147483648 /\
  returns (emit ep0 e) [X] w [] w' /\ h_logs (host w') <> log_of (keccak (host w)) e vs ds :: h_logs (host w).
Proof.
  destruct (runs_to_vals 3000 (emit ep0 nested) [500] w_nested []
    (fun w' => negb (same_log (h_logs (host w')) [log_of hash0 nested [nested_v] []]))) as (w'&R&E); [vm_compute; reflexivity|].
  exists nested, w_nested, 500, [nested_v], [], w'. split; [repeat constructor|]. split; [vm_compute; discriminate|].
  split; [exact w_nested_ok|]. split; [vm_compute; reflexivity|].
  split; [exact w_nested_rep|]. split; [cbn; tauto|]. split; [vm_compute; reflexivity|]. split; [exact R|]. intros C.
  change (log_of (keccak (host w_nested)) nested [nested_v] [] :: h_logs (host w_nested)) with [log_of hash0 nested [nested_v] []] in C. rewrite C in E.
  vm_compute in E. discriminate E.
Qed.
Print Assumptions C76_nested_struct_refuted.

(** With plenty of memory left, an event with dynamic data traps near the end of a page. *)
Theorem C76_page_end_refuted : exists e w X vs ds, event_ok e /\ wok w /\ abort_flag w = 0 /\
  vrep (mem w) (event_ty e) (VStruct 0 (vs ++ ds)) X (heap w) /\ fold_right and True (map nonempty vs) /\
  ~ oom w (1000 * event_cost e vs ds) /\ traps (emit ep0 e) [X] w.
Proof.
  exists paid, (w_paid 65228), 500, paid_vs, paid_ds. split; [exact paid_ok|]. split; [apply w_paid_ok; lia|]. split; [vm_compute; reflexivity|].
  split; [apply w_paid_rep; lia|]. split; [cbn; repeat split; discriminate|].
  split; [replace (event_cost paid paid_vs paid_ds) with 258 by (vm_compute; reflexivity); unfold oom; cbn [gnext maxpages w_paid wh]; lia|].
  apply (traps_by_ok 3000). vm_compute. reflexivity.
Qed.
Print Assumptions C76_page_end_refuted.
