(** * Objects in storage: layout, saving and loading. *)

From Verif Require Import SpecInt Spec Tac RtAlloc RtErr RtSwap RtCopy SpecVal LemVal SpecLayout RtStore LemStore RtSave RtLoad RtLoadObj LemPlace LemObj ExObj.

(** C34.  Consecutive fields of 1 to 32 bytes: each lies in one slot, behind the bytes already taken, and
    behind every field before it. *)
Theorem C34_no_overlap : forall p sizes, 0 <= snd p <= 32 -> Forall (fun s => 1 <= s <= 32) sizes ->
  Forall (fun x => 0 <= snd (fst x) /\ snd (fst x) + snd x <= 32 /\ follows (p, 0) x) (places p sizes) /\
  ForallOrdPairs follows (places p sizes).
Proof. intros p sizes H F. exact (places_follow sizes p H F). Qed.
Print Assumptions C34_no_overlap.

(** C34.  Saving an object puts the scalars of its fields, in order, into these places.  Missing: enum fields (see C90)
    and wrapped objects; for fields with vectors see C67. *)
Theorem C34_written_in_place_partial : forall ep h fs w x p owner id vs F k, ready ep w p -> load_be 32 (mem w) 0 = 0 ->
  load_be 32 (mem w) p = k -> forallb flat fs = true -> 0 <= h < 2 ^ 64 ->
  object_at (mem w) fs owner id vs x F -> sub F (heap w) -> disj F (between p (p + 32)) -> last_slot k fs < 2 ^ 256 ->
  exists w', returns (save_object ep h fs) [x; p] w [] w' /\
    stor (host w') k mod 2 ^ 64 = bswap 8 h /\ placed (stor (host w')) (object_places k fs) (object_ints vs).
Proof.
  intros. destruct (save_flat ep h fs w x p owner id vs F k) as (w'&R&_&T&_&P&_); auto. exists w'. auto.
Qed.
Print Assumptions C34_written_in_place_partial.

(** C34.  Loading an object takes the scalars from the same places.  Missing: as above. *)
Theorem C34_read_in_place_partial : forall ep h fs w p sid ow vs k, ready ep w p -> load_be 32 (mem w) p = k ->
  468 <= sid -> sid + 32 <= gnext w -> (sid + 32 <= p \/ p + 32 <= sid) -> 0 <= ow -> ow + 32 <= gnext w ->
  forallb flat fs = true -> 0 <= h < 2 ^ 64 -> last_slot k fs < 2 ^ 256 -> object_memory fs vs < 2 ^ 31 ->
  inspect (bswap 8 h) (stor (host w) k) = Present -> Forall2 typed fs vs ->
  placed (stor (host w)) (object_places k fs) (object_ints vs) ->
  wpf (load_object ep h fs) [p; sid; ow] w (resq (fun r w' => exists x F, r = [x] /\ host w' = host w /\
     object_at (mem w') fs (load_be 32 (mem w) ow) (load_be 32 (mem w) sid) vs x F /\ sub F (heap w'))
   (ctrap w (existsb narrow fs) (object_memory fs vs))).
Proof. exact load_flat. Qed.
Print Assumptions C34_read_in_place_partial.

(** The fields u64, address and bool of an object in slot 7. *)
Example C34_example : object_places 7 fs_flat = [(7, 8, 8); (8, 0, 20); (8, 20, 1)] /\
  ready ep0 w_flat 500 /\ load_be 32 (mem w_flat) 0 = 0 /\ load_be 32 (mem w_flat) 500 = 7 /\ forallb flat fs_flat = true /\
  object_at (mem w_flat) fs_flat 161 9 vs_flat 564 (between 532 700) /\ sub (between 532 700) (heap w_flat) /\
  disj (between 532 700) (between 500 532) /\ last_slot 7 fs_flat < 2 ^ 256 /\ object_memory fs_flat vs_flat < 2 ^ 31 /\
  exists w1, returns (save_object ep0 5 fs_flat) [564; 500] w_flat [] w1 /\
    (stor (host w1) 7 =? bswap 8 5 + 77 * 2 ^ 64) && (stor (host w1) 8 mod 2 ^ 168 =? 2748 + 2 ^ 160) &&
    runs_to 500 (load_object ep0 5 fs_flat) [500; 620; 532] (wh m_flat 700 (stor (host w1))) (fun r _ => zs_eqb r [732]) = true.
Proof.
  split; [vm_compute; reflexivity|]. split; [exact w_flat_ready|]. do 3 (split; [vm_compute; reflexivity|]). split; [exact w_flat_object|].
  split; [intros y; unfold heap, between; change (gnext w_flat) with 700; lia|]. split; [intros y; unfold between; lia|].
  split; [vm_compute; reflexivity|]. split; [vm_compute; reflexivity|]. apply (runs_to_vals 500). vm_compute. reflexivity.
Qed.

(** C35, full statement: an object of integers, bools and addresses, saved in any state and loaded from the
    storage this leaves, has the same fields again; no other slot changes.  Missing: loading can also
    trap at the end of a page if a field is a bool, u8 or u16 ([ctrap]). *)
Theorem C35_round_trip_partial : forall ep h fs w x p owner id vs F k, ready ep w p -> load_be 32 (mem w) 0 = 0 ->
  load_be 32 (mem w) p = k -> forallb flat fs = true -> 0 < h < 2 ^ 64 ->
  object_at (mem w) fs owner id vs x F -> sub F (heap w) -> disj F (between p (p + 32)) -> last_slot k fs < 2 ^ 256 ->
  object_memory fs vs < 2 ^ 31 ->
  exists w', returns (save_object ep h fs) [x; p] w [] w' /\
    (forall y, y < k \/ last_slot k fs < y -> stor (host w') y = stor (host w) y) /\
    forall w2 p2 sid ow, ready ep w2 p2 -> keccak (host w2) = keccak (host w) -> stor (host w2) = stor (host w') ->
      load_be 32 (mem w2) p2 = k ->
      468 <= sid -> sid + 32 <= gnext w2 -> (sid + 32 <= p2 \/ p2 + 32 <= sid) -> 0 <= ow -> ow + 32 <= gnext w2 ->
      wpf (load_object ep h fs) [p2; sid; ow] w2 (resq (fun r w3 => exists x' F', r = [x'] /\ host w3 = host w2 /\
         object_at (mem w3) fs (load_be 32 (mem w2) ow) (load_be 32 (mem w2) sid) vs x' F' /\ sub F' (heap w3))
       (ctrap w2 (existsb narrow fs) (object_memory fs vs))).
Proof. exact round_trip_flat. Qed.
Print Assumptions C35_round_trip_partial.

(** The concrete object above meets the hypotheses and comes back. *)
Example C35_example : exists w1, returns (save_object ep0 5 fs_flat) [564; 500] w_flat [] w1 /\
  runs_to 500 (load_object ep0 5 fs_flat) [500; 620; 532] (wh m_flat 700 (stor (host w1))) (fun r w2 =>
    match r with [x] => (load 8 (mem w2) (load 4 (mem w2) (x + 4)) =? 77) && (load_be 32 (mem w2) (load 4 (mem w2) (x + 8)) =? 2748) &&
      (load 1 (mem w2) (load 4 (mem w2) (x + 12)) =? 1) && (load_be 32 (mem w2) (x - 32) =? 161) | _ => false end) = true.
Proof. apply (runs_to_vals 500). vm_compute. reflexivity. Qed.

(** C35 refuted: storage holds an object with one bool field, memory is plentiful, and loading it traps. *)
Theorem C35_load_traps_refuted : exists ep h w p sid ow vs,
  ready ep w p /\ 468 <= sid /\ sid + 32 <= gnext w /\ (sid + 32 <= p \/ p + 32 <= sid) /\ 0 <= ow /\ ow + 32 <= gnext w /\ 0 < h < 2 ^ 64 /\
  let k := load_be 32 (mem w) p in
  inspect (bswap 8 h) (stor (host w) k) = Present /\ Forall2 typed [TBool] vs /\ placed (stor (host w)) (object_places k [TBool]) (object_ints vs) /\
  traps (load_object ep h [TBool]) [p; sid; ow] w /\ gnext w + 1000000 < 65536 * maxpages w.
Proof. exact load_traps_at_page_end. Qed.
Print Assumptions C35_load_traps_refuted.

(** C67, full statement: the same for objects with fields of any scalar, vector and struct types, to any
    depth.  Missing: vectors must not be shorter than what storage has in their place ([no_shrinks]),
    hash collisions between the areas of the vectors are excluded ([separate]), and the traps of C35. *)
Theorem C67_round_trip_partial : forall ep h fs w x p owner id vs F k, ready ep w p -> load_be 32 (mem w) 0 = 0 ->
  load_be 32 (mem w) p = k -> forallb plain fs = true -> 0 < h < 2 ^ 64 ->
  object_at (mem w) fs owner id vs x F -> sub F (heap w) -> disj F (between p (p + 32)) ->
  let H := keccak (host w) in
  separate (slots H fs vs (k, 8)) -> no_shrinks H (stor (host w)) fs vs (k, 8) -> object_memory fs vs < 2 ^ 31 ->
  wpf (save_object ep h fs) [x; p] w (resq (fun r w' => r = [] /\
    helds H (stor (host w')) fs vs (k, 8) /\
    (forall y, ~ covers (slots H fs vs (k, 8)) y -> stor (host w') y = stor (host w) y) /\
    forall w2 p2 sid ow, ready ep w2 p2 -> keccak (host w2) = H -> stor (host w2) = stor (host w') ->
      load_be 32 (mem w2) p2 = k ->
      468 <= sid -> sid + 32 <= gnext w2 -> (sid + 32 <= p2 \/ p2 + 32 <= sid) -> 0 <= ow -> ow + 32 <= gnext w2 ->
      wpf (load_object ep h fs) [p2; sid; ow] w2 (resq (fun r w3 => exists x' F', r = [x'] /\ host w3 = host w2 /\
         object_at (mem w3) fs (load_be 32 (mem w2) ow) (load_be 32 (mem w2) sid) vs x' F' /\ sub F' (heap w3))
       (ctrap w2 (existsb narrow fs) (object_memory fs vs))))
   (oom w (costs vs))).
Proof. exact round_trip_plain. Qed.
Print Assumptions C67_round_trip_partial.

(** A vector of three u64, saved where storage has none, and loaded again. *)
Example C67_example : let w := wh m_vec 700 (fun _ => 0) in
  ready ep0 w 500 /\ load_be 32 (mem w) 500 = 7 /\ forallb plain [TVec TU64] = true /\
  object_at (mem w) [TVec TU64] 161 9 [VVec [VInt 11; VInt 12; VInt 13]] 564 (between 532 700) /\
  separate (slots hash0 [TVec TU64] [VVec [VInt 11; VInt 12; VInt 13]] (7, 8)) /\
  no_shrinks hash0 (fun _ => 0) [TVec TU64] [VVec [VInt 11; VInt 12; VInt 13]] (7, 8) /\
  exists w1, returns (save_object ep0 5 [TVec TU64]) [564; 500] w [] w1 /\
    runs_to 500 (load_object ep0 5 [TVec TU64]) [500; 576; 532] (wh m_vec 700 (stor (host w1))) (fun r w2 =>
      match r with [x] => let v := load 4 (mem w2) (x + 4) in (load 4 (mem w2) v =? 3) && (load 8 (mem w2) (v + 24) =? 13) | _ => false end) = true.
Proof.
  intros w. split; [exact (w_vec_ready' _)|]. split; [vm_compute; reflexivity|]. split; [reflexivity|]. split; [exact w_vec_object|].
  split. { split; [constructor; [constructor; [left; vm_compute; reflexivity|constructor]|constructor; [constructor|constructor]]|].
    repeat constructor; try (vm_compute; discriminate); vm_compute; reflexivity. }
  split; [cbn [no_shrinks]; split; [apply no_shrink_vec; split; [vm_compute; discriminate|cbn; tauto]|exact I]|].
  apply (runs_to_vals 1000). vm_compute. reflexivity.
Qed.

(** C68.  An empty slot and an object of another type are reported, whatever else is in storage. *)
Theorem C68_wrong_object_reported : forall ep h fs w p sid ow k, ready ep w p -> 0 <= sid < 2 ^ 32 -> 0 <= ow -> ow + 32 <= gnext w ->
  load_be 32 (mem w) p = k -> 0 <= h < 2 ^ 64 ->
  forall e, (inspect (bswap 8 h) (stor (host w) k), e) = (Missing, StorageObjectNotFound) \/
    (inspect (bswap 8 h) (stor (host w) k), e) = (Other_type, StorageObjectTypeMismatch) ->
  wpf (load_object ep h fs) [p; sid; ow] w (resq (fun r w' => r = [BADF00D] /\ abort_flag w' = ep e /\ host w' = host w) (oom w 32)).
Proof. exact load_err_flag. Qed.
Print Assumptions C68_wrong_object_reported.

Example C68_example : let w := wh m_flat 700 (fun y => if y =? 7 then 99 else 0) in
  ready ep0 w 500 /\ inspect (bswap 8 5) (stor (host w) 7) = Other_type /\ inspect (bswap 8 5) (stor (host w) 8) = Missing /\
  exists w1, returns (load_object ep0 5 fs_flat) [500; 620; 532] w [BADF00D] w1 /\ (abort_flag w1 =? ep0 StorageObjectTypeMismatch) = true.
Proof.
  intros w. split; [exact (w_flat_ready' _)|]. split; [reflexivity|]. split; [reflexivity|]. apply (runs_to_vals 500). vm_compute. reflexivity.
Qed.

(** C37 refuted: a vector of u64 shrinks from five to three elements; the slot that held only the fifth one
    keeps it. *)
Theorem C37_shrink_refuted : exists ep h w w' x p F k owner id vs old, let H := keccak (host w) in
  ready ep w p /\ load_be 32 (mem w) 0 = 0 /\ load_be 32 (mem w) p = k /\ 0 <= h < 2 ^ 64 /\
  object_at (mem w) [TVec TU64] owner id [VVec vs] x F /\ sub F (heap w) /\ disj F (between p (p + 32)) /\
  helds H (stor (host w)) [TVec TU64] [VVec old] (k, 8) /\ (List.length vs < List.length old)%nat /\
  returns (save_object ep h [TVec TU64]) [x; p] w [] w' /\
  let d := data_slot H (k + 1) in
  exists y, fst (afters (map (fun _ => TU64) vs) (d, 0)) < y <= fst (afters (map (fun _ => TU64) old) (d, 0)) /\ stor (host w') y <> 0.
Proof. exact shrink_leaves_element. Qed.
Print Assumptions C37_shrink_refuted.

(** C37 refuted: a vector of u256 shrinks from two elements to one, and saving it traps. *)
Theorem C37_shrink_traps_refuted : exists ep h w x p F k owner id vs old, let H := keccak (host w) in
  ready ep w p /\ load_be 32 (mem w) 0 = 0 /\ load_be 32 (mem w) p = k /\ 0 <= h < 2 ^ 64 /\
  object_at (mem w) [TVec TU256] owner id [VVec vs] x F /\ sub F (heap w) /\ disj F (between p (p + 32)) /\
  helds H (stor (host w)) [TVec TU256] [VVec old] (k, 8) /\ (List.length vs < List.length old)%nat /\
  separate (slots H [TVec TU256] [VVec old] (k, 8)) /\ traps (save_object ep h [TVec TU256]) [x; p] w /\ gnext w + 1000000 < 65536 * maxpages w.
Proof. exact shrink_traps. Qed.
Print Assumptions C37_shrink_traps_refuted.
