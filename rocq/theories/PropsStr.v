(** * Properties of the string natives: C49-C52. *)

From Verif Require Import SpecInt Spec Tac RtAlloc SpecSol LemSol RtCopy RtStr SpecStr LemStr.

(** C49.  What the validation accepts, exactly: the string, continued by at most three of the bytes
    that follow it in memory, is UTF-8 in which C0 80 also stands for character 0.  The three bytes
    after the string must exist.  The claim ("exactly the well-formed strings") fails in three ways,
    proved below. *)
Theorem C49_accepted_partial : forall w v s, wok w -> byte_vec w v s ->
  v + 8 + Z.of_nat (List.length s) + 3 <= 65536 * pages w ->
  exists r, returns check_utf8 [v] w [r] w /\ (r = 0 \/ r = 1) /\
    (r = 1 <-> exists k, (k <= 3)%nat /\ modified_utf8 (s ++ bytes k (mem w) (v + 8 + Z.of_nat (List.length s)))).
Proof. exact check_result. Qed.
Print Assumptions C49_accepted_partial.

(** C49.  Well-formed strings are accepted. *)
Theorem C49_wellformed_partial : forall w v s, wok w -> byte_vec w v s ->
  v + 8 + Z.of_nat (List.length s) + 3 <= 65536 * pages w ->
  utf8 s -> returns check_utf8 [v] w [1] w.
Proof. exact check_accepts. Qed.
Print Assumptions C49_wellformed_partial.

(** C49.  When no byte is C0 and the byte after the string is not a continuation byte (it is zero
    when the string is the latest allocation) the result is the validity of the string. *)
Theorem C49_exact_partial : forall w v s, wok w -> byte_vec w v s ->
  v + 8 + Z.of_nat (List.length s) + 3 <= 65536 * pages w ->
  ~ In 0xC0 s -> ~ 0x80 <= rd (mem w) (v + 8 + Z.of_nat (List.length s)) <= 0xBF ->
  exists r, returns check_utf8 [v] w [r] w /\ (r = 1 /\ utf8 s \/ r = 0 /\ ~ utf8 s).
Proof. exact check_exact. Qed.
Print Assumptions C49_exact_partial.

Example C49_example :
  let s := [0x61; 0xC3; 0xA9; 0xE2; 0x82; 0xAC; 0xF0; 0x9F; 0x98; 0x80] in
  wok (str_world s []) /\ byte_vec (str_world s []) 500 s /\ utf8 s /\ ~ In 0xC0 s /\
  rd (mem (str_world s [])) (500 + 8 + 10) = 0 /\ 500 + 8 + 10 + 3 <= 65536 * pages (str_world s []).
Proof.
  cbv zeta. split; [apply str_world_ok; unfold lenz; cbn; lia|]. split; [split; [unfold live; cbn; lia|split; reflexivity]|].
  split. { exists [0x61; 0xE9; 0x20AC; 0x1F600]. split; [|reflexivity]. unfold scalar. repeat (constructor; [lia|]). constructor. }
  split; [cbn [In]; lia|]. split; [reflexivity|cbn; lia].
Qed.

(** C49 is false of the code: the overlong form C0 80, which is not UTF-8, is accepted; ... *)
Theorem C49_overlong_refuted : exists w v s, wok w /\ byte_vec w v s /\ ~ utf8 s /\ returns check_utf8 [v] w [1] w.
Proof. exact overlong_accepted. Qed.
Print Assumptions C49_overlong_refuted.

(** ... so is a string that stops in the middle of a character, if the memory after it goes on ... *)
Theorem C49_truncated_refuted : exists w v s, wok w /\ byte_vec w v s /\ ~ utf8 s /\ ~ In 0xC0 s /\ returns check_utf8 [v] w [1] w.
Proof. exact truncated_accepted. Qed.
Print Assumptions C49_truncated_refuted.

(** ... and the validation of a well-formed string traps when the string ends at the end of the memory. *)
Theorem C49_end_of_memory_refuted : exists w v s, wok w /\ byte_vec w v s /\ utf8 s /\ traps check_utf8 [v] w.
Proof. exact end_of_memory_traps. Qed.
Print Assumptions C49_end_of_memory_refuted.

(** C50.  For indices below 2^32 the test answers whether the index is a character boundary.  The
    Move wrappers compare the index with the length first, so they only pass such indices; for larger
    ones see [C50_refuted]. *)
Theorem C50_boundary_partial : forall w v s i, wok w -> byte_vec w v s -> 0 <= i < 2 ^ 32 ->
  exists r, returns is_char_boundary [v; i] w [r] w /\ (r = 1 /\ boundary s i \/ r = 0 /\ ~ boundary s i).
Proof. exact is_char_boundary_spec. Qed.
Print Assumptions C50_boundary_partial.

(** In a well-formed string those are the positions between characters. *)
Theorem C50_between_characters : forall s i, utf8 s -> 0 <= i ->
  (boundary s i <-> exists cs ds, Forall scalar cs /\ Forall scalar ds /\
     s = List.concat (map utf8_char cs) ++ List.concat (map utf8_char ds) /\ i = Z.of_nat (List.length (List.concat (map utf8_char cs)))).
Proof. exact boundary_between. Qed.
Print Assumptions C50_between_characters.

Example C50_example :
  let s := [0x61; 0xC3; 0xA9] in let w := str_world s [] in
  wok w /\ byte_vec w 500 s /\ boundary s 0 /\ boundary s 1 /\ ~ boundary s 2 /\ boundary s 3 /\
  (exists w', returns is_char_boundary [500; 1] w [1] w') /\ (exists w', returns is_char_boundary [500; 2] w [0] w').
Proof.
  cbv zeta. split; [apply str_world_ok; unfold lenz; cbn; lia|]. split; [split; [unfold live; cbn; lia|split; reflexivity]|].
  unfold boundary. split; [left; reflexivity|]. split; [right; right; split; [cbn; lia|change (nth _ _ 0) with 0xC3; lia]|].
  split; [intros [H|[H|[_ H]]]; [lia|discriminate H|apply H; change (nth _ _ 0) with 0xA9; lia]|]. split; [right; left; reflexivity|].
  split; runs 200%nat.
Qed.

(** C50 is false of the code for indices of 2^32 and more: only the low 32 bits are looked at. *)
Theorem C50_refuted : exists w v s i, wok w /\ byte_vec w v s /\ 0 <= i < 2 ^ 64 /\ ~ boundary s i /\
  exists w', returns is_char_boundary [v; i] w [1] w'.
Proof. exact boundary_wraps. Qed.
Print Assumptions C50_refuted.

(** C51.  For 0 <= i <= j <= length the result is a fresh string holding bytes i..j (of less than
    2 GiB, see C01 for the allocator); what was allocated before is unchanged. *)
Theorem C51_substring : forall w v s i j, wok w -> byte_vec w v s ->
  0 <= i <= j -> j <= Z.of_nat (List.length s) -> j - i < 2 ^ 31 - 8 ->
  (exists p w', returns sub_string [v; i; j] w [p] w' /\ extends w w' /\ gnext w <= p /\ byte_vec w' p (slice s i j)) \/
  out_of_memory sub_string [v; i; j] w (8 + (j - i)).
Proof. exact substring_result. Qed.
Print Assumptions C51_substring.

(** The bytes i..j, one by one. *)
Theorem C51_bytes : forall s i j k, 0 <= i <= j -> j <= Z.of_nat (List.length s) ->
  Z.of_nat (List.length (slice s i j)) = j - i /\
  (0 <= k < j - i -> nth (Z.to_nat k) (slice s i j) 0 = nth (Z.to_nat (i + k)) s 0).
Proof. exact slice_nth. Qed.
Print Assumptions C51_bytes.

(** C51.  Index pairs outside the string stop the execution (below 2^32; the Move wrappers check first). *)
Theorem C51_out_of_range : forall w v s i j, wok w -> byte_vec w v s -> 0 <= i < 2 ^ 32 -> 0 <= j < 2 ^ 32 ->
  j < i \/ Z.of_nat (List.length s) < j -> traps sub_string [v; i; j] w.
Proof. exact sub_string_trap. Qed.
Print Assumptions C51_out_of_range.

Example C51_example :
  let s := [0x61; 0x62; 0x63; 0x64] in let w := str_world s [] in
  wok w /\ byte_vec w 500 s /\ slice s 1 3 = [0x62; 0x63] /\
  (exists p w', returns sub_string [500; 1; 3] w [p] w' /\ byte_vec w' p [0x62; 0x63]).
Proof.
  cbv zeta. set (s := [0x61; 0x62; 0x63; 0x64]). set (w := str_world s []).
  assert (Hw : wok w) by (apply str_world_ok; unfold lenz; cbn; lia).
  assert (B : byte_vec w 500 s) by (split; [unfold live; cbn; lia|split; reflexivity]).
  split; [exact Hw|]. split; [exact B|]. split; [reflexivity|].
  destruct (C51_substring w 500 s 1 3 Hw B ltac:(lia) ltac:(cbn; lia) ltac:(lia)) as [(p&w'&R&_&_&V)|(_&O)]; [eauto|].
  exfalso. revert O. unfold oom. cbn. lia.
Qed.

(** C52.  The search returns the least index at which [r] occurs in [s], or the length of [s]. *)
Theorem C52_index_of : forall w v s p r, wok w -> byte_vec w v s -> byte_vec w p r ->
  exists i : nat, returns index_of [v; p] w [Z.of_nat i] w /\
    (occurs r s i /\ (forall j, occurs r s j -> (i <= j)%nat) \/ i = List.length s /\ forall j, ~ occurs r s j).
Proof. exact index_of_spec. Qed.
Print Assumptions C52_index_of.

Example C52_example :
  let s := [0x61; 0x62; 0x61; 0x62; 0x63; 0x62; 0x63] in let r := [0x62; 0x63] in
  let w := str_world s ([2; 0; 0; 0; 2; 0; 0; 0] ++ r) in
  wok w /\ byte_vec w 500 s /\ byte_vec w 515 r /\ occurs r s 3 /\ occurs r s 5 /\
  (exists w', returns index_of [500; 515] w [3] w').
Proof.
  cbv zeta. split; [apply str_world_ok; unfold lenz; cbn; lia|].
  split; [split; [unfold live; cbn; lia|split; reflexivity]|]. split; [split; [unfold live; cbn; lia|split; reflexivity]|].
  unfold occurs. cbn. split; [split; [lia|reflexivity]|]. split; [split; [lia|reflexivity]|]. runs 500%nat.
Qed.
