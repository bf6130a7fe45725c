(** * Ids that come from types, and references to ids (C86, C87). *)

From Coq Require Import String.
From Verif Require Import SpecInt Spec Tac RtAlloc RtErr RtSwap RtCopy SpecAbi SpecVal SpecStor SpecLayout RtStor ExObj SpecDyn RtChild ExDyn Comp RtUid LemUid.
Open Scope string_scope.
Open Scope Z_scope.

(** C86, full statement: the id of a named object depends on its tag type only: it is the same whenever it is computed, and
    different for different types.
    Proved: two computations, in any two states, of the ids of the types [t1] and [t2] give the same 32 bytes exactly when
    the types have the same name, provided keccak256 ([H]) does not collide on the two names.  Each computation writes to
    new memory only.
    Missing: types with the same name, but from different modules; this is refuted below. *)
Theorem C86_named_id_partial : forall H t1 t2 w1 w2, wok w1 -> wok w2 ->
  let n1 := ascii_bytes (s_ident t1) in let n2 := ascii_bytes (s_ident t2) in
  0 <= H n1 < 2 ^ 256 -> 0 <= H n2 < 2 ^ 256 -> (H n1 = H n2 -> n1 = n2) ->
  (exists p1 w1' p2 w2', returns (compute_named_id H t1) [] w1 [p1] w1' /\ extends w1 w1' /\ gnext w1 <= p1 /\ live w1' p1 32 /\
     returns (compute_named_id H t2) [] w2 [p2] w2' /\ extends w2 w2' /\ gnext w2 <= p2 /\ live w2' p2 32 /\
     (load_be 32 (mem w1') p1 = load_be 32 (mem w2') p2 <-> s_ident t1 = s_ident t2)) \/
  oom w1 32 \/ oom w2 32.
Proof. exact named_ids. Qed.
Print Assumptions C86_named_id_partial.

(** C86, refuted for types of different modules: the module is not part of what is hashed.  Whatever the hash function, the
    tags [Vault] of two modules, or of two accounts, have one id. *)
Theorem C86_same_name_refuted : exists t1 t2, t1 <> t2 /\ forall H w, wok w -> ~ oom w 32 ->
  exists p w1 w2, returns (compute_named_id H t1) [] w [p] w1 /\ returns (compute_named_id H t2) [] w [p] w2 /\
    load_be 32 (mem w1) p = load_be 32 (mem w2) p.
Proof. exact same_name_same_id. Qed.
Print Assumptions C86_same_name_refuted.
Example C86_example : let w := w_child (fun _ => 0) in
  wok w /\ ~ oom w 32 /\ hash0 (ascii_bytes "Vault") <> hash0 (ascii_bytes "Bank") /\
  runs_to 500 (compute_named_id hash0 (StructName 1 "m" "Vault")) [] w (fun r w' => match r with [p] => (p =? 740) && (load_be 32 (mem w') p =? hash0 [86; 97; 117; 108; 116]) | _ => false end) = true.
Proof.
  intros w. split; [apply w_child_ok|]. split; [unfold oom; cbn; lia|]. split; [vm_compute; discriminate|]. vm_compute. reflexivity.
Qed.

(** C87.  The reference to the id of an object that the framework hands out leads to the id of that object.  It is in new
    memory; nothing that was there changes. *)
Theorem C87_uid_of_object : forall fs owner id vs x F w, wok w -> object_at (mem w) fs owner id vs x F -> sub F (heap w) ->
  wpf borrow_uid [x] w (resq (fun rs w' => exists r p, rs = [r] /\ extends w w' /\ live w' r 4 /\ gnext w <= r /\
    load 4 (mem w') r = load 4 (mem w) x /\ uid_at w' (load 4 (mem w') r) p /\ load_be 32 (mem w') p = id) (oom w 4)).
Proof. exact borrow_uid_spec. Qed.
Print Assumptions C87_uid_of_object.

(** C87.  The same of the id of a named object. *)
Theorem C87_uid_of_named_id : forall u p w, wok w -> uid_at w u p ->
  wpf as_uid [u] w (resq (fun rs w' => exists r, rs = [r] /\ extends w w' /\ live w' r 4 /\ gnext w <= r /\
    load 4 (mem w') r = u /\ uid_at w' (load 4 (mem w') r) p /\ load_be 32 (mem w') p = load_be 32 (mem w) p) (oom w 4)).
Proof. exact as_uid_leads. Qed.
Print Assumptions C87_uid_of_named_id.
Example C87_example : let w := w_child (fun _ => 0) in
  wok w /\ object_at (mem w) fs_flat 161 9 vs_flat 564 (between 532 700) /\ sub (between 532 700) (heap w) /\ uid_at w 612 620 /\
  runs_to 500 borrow_uid [564] w (fun r w' => match r with [q] => load_be 32 (mem w') (load 4 (mem w') (load 4 (mem w') (load 4 (mem w') q))) =? 9 | _ => false end) &&
  runs_to 500 as_uid [612] w (fun r w' => match r with [q] => load_be 32 (mem w') (load 4 (mem w') (load 4 (mem w') (load 4 (mem w') q))) =? 9 | _ => false end) = true.
Proof.
  intros w. split; [apply w_child_ok|]. split; [apply w_child_object|]. split; [intros y; unfold heap, between; change (gnext w) with 740; lia|].
  split; [unfold uid_at; vm_compute; repeat split; discriminate|]. vm_compute. reflexivity.
Qed.
