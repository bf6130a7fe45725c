(** * Dynamic fields (C47, C48, C69, C70). *)

From Verif Require Import SpecInt Spec Tac RtAlloc RtErr RtSwap RtCopy SpecAbi SpecVal LemVal SpecSol SpecStor SpecLayout RtStor RtStore LemStore RtSave RtLoad LemObj ExObj SpecDyn RtDyn LemDyn RtChild LemChild ExDyn.

(** C47, full statement: whenever the ids of two dynamic fields with names of the same type are equal, parent and
    name are the same or keccak256 has a collision.  Missing: types with more than one part of
    variable size ([one_vector]), for which it is false, and names with empty vectors, for which there
    is no id (C48). *)
Theorem C47_keys_distinguished_partial : forall t name w1 p1 x1 v1 F1 r1 w1' w2 p2 x2 v2 F2 r2 w2',
  one_vector t = true -> key_type t = true -> Forall (fun c => 0 <= c < 256) name ->
  name_at w1 t v1 x1 F1 -> name_at w2 t v2 x2 F2 -> live w1 p1 32 -> live w2 p2 32 -> keccak (host w1) = keccak (host w2) ->
  name_of t v1 -> name_of t v2 -> full v1 -> full v2 ->
  lenz (key_bytes t v1) + lenz name < 2 ^ 31 -> lenz (key_bytes t v2) + lenz name < 2 ^ 31 ->
  returns (hash_type_and_key t name) [p1; x1] w1 r1 w1' -> returns (hash_type_and_key t name) [p2; x2] w2 r2 w2' ->
  exists a1 a2, r1 = [a1] /\ r2 = [a2] /\
    let par1 := load_be 32 (mem w1) p1 in let par2 := load_be 32 (mem w2) p2 in
    (load_be 32 (mem w1') a1 = load_be 32 (mem w2') a2 -> par1 = par2 /\ v1 = v2 \/
     collision (host w1) (preimage par1 t v1 name) (preimage par2 t v2 name)).
Proof. exact keys_distinguished. Qed.
Print Assumptions C47_keys_distinguished_partial.

(** C47 refuted: on every parent the names [[1]; [2]] and [[1; 2]] of type vector<vector<u8>> have the same id. *)
Theorem C47_nested_collide_refuted : forall name w p x1 x2 F1 F2, Forall (fun c => 0 <= c < 256) name -> lenz name < 2 ^ 30 ->
  name_at w (TVec (TVec TU8)) (VVec [VVec [VInt 1]; VVec [VInt 2]]) x1 F1 ->
  name_at w (TVec (TVec TU8)) (VVec [VVec [VInt 1; VInt 2]]) x2 F2 -> live w p 32 -> ~ oom w (lenz name + 66) ->
  exists a1 w1 a2 w2, returns (hash_type_and_key (TVec (TVec TU8)) name) [p; x1] w [a1] w1 /\
    returns (hash_type_and_key (TVec (TVec TU8)) name) [p; x2] w [a2] w2 /\ load_be 32 (mem w1) a1 = load_be 32 (mem w2) a2.
Proof. exact nested_collide. Qed.
Print Assumptions C47_nested_collide_refuted.

(** C48.  For every name without an empty vector inside, the id is computed: the hash of parent, name
    and type name.  Missing: names with empty vectors, for which it is false. *)
Theorem C48_completes_partial : forall t name w p x v F, key_type t = true -> Forall (fun c => 0 <= c < 256) name ->
  name_at w t v x F -> live w p 32 -> full v -> lenz (key_bytes t v) + lenz name < 2 ^ 31 ->
  (exists a w', returns (hash_type_and_key t name) [p; x] w [a] w' /\ extends w w' /\ gnext w <= a /\ a + 32 = gnext w' /\
     load_be 32 (mem w') a = hash (host w) (preimage (load_be 32 (mem w) p) t v name)) \/
  (traps (hash_type_and_key t name) [p; x] w /\ oom w (lenz (preimage (load_be 32 (mem w) p) t v name) + 32)).
Proof. exact hash_completes. Qed.
Print Assumptions C48_completes_partial.

(** C48 refuted: with an empty vector of integers as the name the call always traps, however much memory there is. *)
Theorem C48_empty_refuted : forall t name w p x F, is_stack t = true -> name_at w (TVec t) (VVec []) x F -> live w p 32 ->
  traps (hash_type_and_key (TVec t) name) [p; x] w.
Proof. exact empty_name_traps. Qed.
Print Assumptions C48_empty_refuted.

Example C47_example :
  one_vector (TVec TU8) = true /\ key_type (TVec TU8) = true /\ key_type (TVec (TVec TU8)) = true /\
  name_at w_names (TVec TU8) (VVec [VInt 7; VInt 8]) 608 (between 608 620) /\ name_of (TVec TU8) (VVec [VInt 7; VInt 8]) /\
  full (VVec [VInt 7; VInt 8]) /\
  name_at w_names (TVec (TVec TU8)) (VVec [VVec [VInt 1]; VVec [VInt 2]]) 532 (between 532 572) /\
  name_at w_names (TVec (TVec TU8)) (VVec [VVec [VInt 1; VInt 2]]) 572 (between 572 600) /\ live w_names 500 32 /\
  name_at w_names (TVec TU8) (VVec []) 600 (between 600 608) /\ ~ oom w_names 70 /\
  exists w', returns (hash_type_and_key (TVec TU8) [117; 56]) [500; 608] w_names [736] w'.
Proof.
  do 3 (split; [reflexivity|]). split; [exact names_string|]. split.
  { exists [VInt 7; VInt 8]. split; [reflexivity|]. repeat constructor; eexists; (split; [reflexivity|cbn; lia]). }
  split; [cbn; repeat split; discriminate|]. split; [exact names_two|]. split; [exact names_one|]. split; [unfold live; cbn; lia|].
  split; [exact names_empty|]. split; [unfold oom; cbn; lia|]. runs 1000%nat.
Qed.

(** C69, full statement: after a dynamic field was added, every later state with the same storage finds it under
    parent and id, with this type and no other, and borrowing or removing it gives the same values.
    Missing: values with wrapped objects, and those with an enum in the way (C91); see C67 for the other restrictions. *)
Theorem C69_field_round_trip_partial : forall ep h fs w pa x owner id vs F, wok w -> errtab_ok ep -> statics w -> abort_flag w = 0 ->
  live w pa 32 -> forallb storable fs = true -> 0 < h < 2 ^ 64 -> object_at (mem w) fs owner id vs x F -> sub F (heap w) ->
  let H := keccak (host w) in let parent := load_be 32 (mem w) pa in let k := slot_of (host w) parent id in
  separate (slots H fs vs (k, 8)) -> no_shrinks H (stor (host w)) fs vs (k, 8) -> object_memory fs vs < 2 ^ 31 -> legible H fs vs k ->
  wpf (add_child_object ep h fs) [pa; x] w (resq (fun r w' => r = [] /\
     (forall y, ~ covers (slots H fs vs (k, 8)) y -> stor (host w') y = stor (host w) y) /\
     forall w2 pa2 ca, wok w2 -> errtab_ok ep -> statics w2 -> abort_flag w2 = 0 -> keccak (host w2) = H -> stor (host w2) = stor (host w') ->
       live w2 pa2 32 -> live w2 ca 32 -> 468 <= ca -> load_be 32 (mem w2) pa2 = parent -> load_be 32 (mem w2) ca = id ->
       (exists w3, returns has_child_object [pa2; ca] w2 [1] w3) /\
       (forall h', 0 <= h' < 2 ^ 64 -> exists w3, returns (has_child_object_with_ty h') [pa2; ca] w2 [if h' =? h then 1 else 0] w3) /\
       (forall u, uid_at w2 u pa2 -> wpf (borrow_child_object ep h fs) [u; ca] w2 (resq (fun r w3 => exists a F', r = [a] /\
          host w3 = host w2 /\ live w3 a 4 /\ object_at (mem w3) fs parent id vs (load 4 (mem w3) a) F' /\ sub F' (heap w3))
          (ctrap w2 (existsb narrow fs) (36 + object_memory fs vs)))) /\
       (forall u, uid_at w2 u pa2 -> wpf (remove_child_object ep h fs) [u; ca] w2 (resq (fun r w3 => exists x' F', r = [x'] /\
          host w3 = host w2 /\ object_at (mem w3) fs parent id vs x' F' /\ sub F' (heap w3))
          (ctrap w2 (existsb narrow fs) (36 + object_memory fs vs))))) (oom w (32 + costs vs))).
Proof. exact field_round_trip. Qed.
Print Assumptions C69_field_round_trip_partial.

(** C70.  Asking whether a field exists answers whether its slot is nonzero; asking with a type, whether the slot
    says that type; neither changes storage. *)
Theorem C70_exists_reads_slot : forall h w pa ca, wok w -> statics w -> live w pa 32 -> live w ca 32 -> 468 <= ca -> 0 <= h < 2 ^ 64 ->
  let slot := stored (host w) (load_be 32 (mem w) pa) (load_be 32 (mem w) ca) in
  (exists w', returns has_child_object [pa; ca] w [if slot =? 0 then 0 else 1] w' /\ host w' = host w) /\
  (exists w', returns (has_child_object_with_ty h) [pa; ca] w [match inspect (bswap 8 h) slot with Present => 1 | _ => 0 end] w' /\ host w' = host w).
Proof.
  intros h w pa ca Hw St Lp Lc Hc Hh slot. split.
  - destruct (exists_iff w pa ca Hw St Lp Lc Hc) as (w'&R&Fr). exists w'. split; [exact R|apply Fr].
  - destruct (has_child_object_with_ty_spec h w pa ca Hw St Lp Lc Hc Hh) as (w'&R&Fr). exists w'. split; [exact R|apply Fr].
Qed.
Print Assumptions C70_exists_reads_slot.

(** C70.  Borrowing a field that does not exist, or has another type, fails with the error for it. *)
Theorem C70_borrow_missing_reported : forall ep h fs w pa ca u, wok w -> errtab_ok ep -> statics w -> abort_flag w = 0 -> uid_at w u pa ->
  live w ca 32 -> 468 <= ca -> 0 <= h < 2 ^ 64 ->
  let slot := stored (host w) (load_be 32 (mem w) pa) (load_be 32 (mem w) ca) in
  forall e, (inspect (bswap 8 h) slot, e) = (Missing, StorageObjectNotFound) \/ (inspect (bswap 8 h) slot, e) = (Other_type, StorageObjectTypeMismatch) ->
  wpf (borrow_child_object ep h fs) [u; ca] w (resq (fun r w' => r = [BADF00D] /\ abort_flag w' = ep e /\ host w' = host w) (oom w 64)).
Proof. exact missing_field. Qed.
Print Assumptions C70_borrow_missing_reported.

(** An object with a u64, an address and a bool becomes a field of the parent 77. *)
Example C69_example : let w := w_child (fun _ => 0) in
  wok w /\ statics w /\ abort_flag w = 0 /\ live w 700 32 /\ forallb plain fs_flat = true /\
  object_at (mem w) fs_flat 161 9 vs_flat 564 (between 532 700) /\ sub (between 532 700) (heap w) /\
  separate (slots hash0 fs_flat vs_flat (slot_of (host w) 77 9, 8)) /\ no_shrinks hash0 (fun _ => 0) fs_flat vs_flat (slot_of (host w) 77 9, 8) /\
  uid_at w 732 700 /\
  exists w1, returns (add_child_object ep0 5 fs_flat) [700; 564] w [] w1 /\
    runs_to 500 (has_child_object_with_ty 5) [700; 620] (w_child (stor (host w1))) (fun r _ => zs_eqb r [1]) &&
    runs_to 500 (remove_child_object ep0 5 fs_flat) [732; 620] (w_child (stor (host w1))) (fun r w2 =>
      match r with [x] => (load 8 (mem w2) (load 4 (mem w2) (x + 4)) =? 77) && (load_be 32 (mem w2) (load 4 (mem w2) (x + 8)) =? 2748) | _ => false end) = true.
Proof.
  intros w. split; [apply w_child_ok|]. split; [apply w_child_statics|]. split; [vm_compute; reflexivity|]. split; [unfold live; cbn; lia|]. split; [reflexivity|].
  split; [apply w_child_object|]. split; [intros y; unfold heap, between; change (gnext w) with 740; lia|].
  split. { split; [repeat constructor|]. repeat constructor; cbn [fst snd]; vm_compute; (reflexivity || discriminate). }
  split; [cbn; tauto|]. split; [unfold uid_at; vm_compute; repeat split; discriminate|].
  apply (runs_to_vals 1000). vm_compute. reflexivity.
Qed.

Example C70_example : let w := w_child (fun _ => 0) in
  wok w /\ statics w /\ uid_at w 732 700 /\ live w 620 32 /\
  inspect (bswap 8 5) (stored (host w) (load_be 32 (mem w) 700) (load_be 32 (mem w) 620)) = Missing /\
  exists w1, returns (borrow_child_object ep0 5 fs_flat) [732; 620] w [BADF00D] w1 /\ (abort_flag w1 =? ep0 StorageObjectNotFound) = true.
Proof.
  intros w. split; [apply w_child_ok|]. split; [apply w_child_statics|]. split; [unfold uid_at; vm_compute; repeat split; discriminate|].
  split; [unfold live; cbn; lia|]. split; [vm_compute; reflexivity|]. apply (runs_to_vals 500). vm_compute. reflexivity.
Qed.
