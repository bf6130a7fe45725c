(** * Transferring, sharing, freezing and deleting objects (C45, C46, C72, C73). *)

From Verif Require Import SpecInt Spec Tac RtAlloc RtErr RtSwap RtCopy SpecAbi SpecVal LemVal SpecStor SpecLayout RtStor RtStore LemStore RtSave RtLoad RtLoadObj LemObj ExObj RtChild LemDelete RtDelete SpecMove RtTransfer LemMove ExMove.

(** C46, full statement: after a transfer the object is in the slot of its new owner with the same fields, nothing is left of
    it under its old owner, and nothing else changed; in memory the object now names the new owner.
    ([vs0]: the fields storage has so far, [vs]: those in memory; the recipient's address is at [rp].)
    An object that storage had under its old owner must be one that can be deleted without a trace (C92): the last hypothesis
    on types.
    Missing: objects with other objects inside, and recipients with a longer vector left in the same slots. *)
Theorem C46_transfer_partial : forall ep h fs w x owner id vs vs0 F rp, wok w -> errtab_ok ep -> statics w ->
  object_at (mem w) fs owner id vs x F -> sub F (heap w) -> forallb storable fs = true -> (owner <> 0 -> forallb erasable fs = true) -> 0 <= h < 2 ^ 64 ->
  owner <> shared_owner -> owner <> frozen_owner -> 468 <= rp -> rp + 32 <= gnext w -> rp + 32 <= x - 32 \/ x <= rp ->
  let H := keccak (host w) in let owner' := load_be 32 (mem w) rp in
  let k := slot_of (host w) owner id in let k' := slot_of (host w) owner' id in
  kept H (stor (host w)) fs vs0 owner k -> room_for H (stor (host w)) fs vs k' ->
  wpf (transfer_object ep h fs) [x; rp] w (resq (fun r w' => r = [] /\
     relocated H (stor (host w)) (stor (host w')) (bswap 8 h) fs vs (slots_under H fs vs0 owner k) k' /\
     (owner <> 0 -> ~ covers (slots H fs vs (k', 8)) k -> stored (host w') owner id = 0) /\
     object_at (mem w') fs owner' id vs x F /\ sub F (heap w') /\ abort_flag w' = abort_flag w /\ host w' = set_stor (host w) (stor (host w')))
    (oom w (32 + costs vs0 + costs vs))).
Proof.
  intros. eapply wpf_conseq; [eapply transfer_hands; eassumption|]. intros o. destruct o; cbn [resq]; auto.
  intros (->&A&B&C&D&E&G&K&L). auto 10.
Qed.
Print Assumptions C46_transfer_partial.

(** C46.  The same for sharing and freezing; shared and frozen objects are kept under the owners 1 and 2. *)
Theorem C46_share_partial : forall ep h fs w x owner id vs vs0 F, wok w -> errtab_ok ep -> statics w ->
  object_at (mem w) fs owner id vs x F -> sub F (heap w) -> forallb storable fs = true -> (owner <> 0 -> forallb erasable fs = true) -> 0 <= h < 2 ^ 64 ->
  owner <> shared_owner -> owner <> frozen_owner ->
  let H := keccak (host w) in let k := slot_of (host w) owner id in let k' := slot_of (host w) 1 id in
  kept H (stor (host w)) fs vs0 owner k -> room_for H (stor (host w)) fs vs k' ->
  wpf (share_object ep h fs) [x] w (resq (fun r w' => r = [] /\
     relocated H (stor (host w)) (stor (host w')) (bswap 8 h) fs vs (slots_under H fs vs0 owner k) k' /\
     (owner <> 0 -> ~ covers (slots H fs vs (k', 8)) k -> stored (host w') owner id = 0) /\
     object_at (mem w') fs 1 id vs x F /\ sub F (heap w') /\ abort_flag w' = abort_flag w /\ host w' = set_stor (host w) (stor (host w')))
    (oom w (32 + costs vs0 + costs vs))).
Proof.
  intros. eapply wpf_conseq; [eapply share_hands; eassumption|]. intros o. destruct o; cbn [resq]; auto.
  intros (->&A&B&C&D&E&G&K&L). auto 10.
Qed.
Print Assumptions C46_share_partial.
Theorem C46_freeze_partial : forall ep h fs w x owner id vs vs0 F, wok w -> errtab_ok ep -> statics w ->
  object_at (mem w) fs owner id vs x F -> sub F (heap w) -> forallb storable fs = true -> (owner <> 0 -> forallb erasable fs = true) -> 0 <= h < 2 ^ 64 ->
  owner <> shared_owner -> owner <> frozen_owner ->
  let H := keccak (host w) in let k := slot_of (host w) owner id in let k' := slot_of (host w) 2 id in
  kept H (stor (host w)) fs vs0 owner k -> room_for H (stor (host w)) fs vs k' ->
  wpf (freeze_object ep h fs) [x] w (resq (fun r w' => r = [] /\
     relocated H (stor (host w)) (stor (host w')) (bswap 8 h) fs vs (slots_under H fs vs0 owner k) k' /\
     (owner <> 0 -> ~ covers (slots H fs vs (k', 8)) k -> stored (host w') owner id = 0) /\
     object_at (mem w') fs 2 id vs x F /\ sub F (heap w') /\ abort_flag w' = abort_flag w /\ host w' = set_stor (host w) (stor (host w')))
    (oom w (32 + costs vs0 + costs vs))).
Proof.
  intros. eapply wpf_conseq; [eapply freeze_hands; eassumption|]. intros o. destruct o; cbn [resq]; auto.
  intros (->&A&B&C&D&E&G&K&L). auto 10.
Qed.
Print Assumptions C46_freeze_partial.

(** C46.  Whoever loads the object from its new slot, in any later state with the same storage, gets the same fields.
    Missing as above; fields after an enum that is in the way (C91); loading narrow fields can trap at the end of a page (C35). *)
Theorem C46_transfer_then_load_partial : forall ep h fs w x owner id vs vs0 F rp w', wok w -> errtab_ok ep -> statics w ->
  object_at (mem w) fs owner id vs x F -> sub F (heap w) -> forallb storable fs = true -> (owner <> 0 -> forallb erasable fs = true) -> 0 < h < 2 ^ 64 -> object_memory fs vs < 2 ^ 31 ->
  owner <> shared_owner -> owner <> frozen_owner -> 468 <= rp -> rp + 32 <= gnext w -> rp + 32 <= x - 32 \/ x <= rp ->
  let H := keccak (host w) in let k' := slot_of (host w) (load_be 32 (mem w) rp) id in
  kept H (stor (host w)) fs vs0 owner (slot_of (host w) owner id) -> room_for H (stor (host w)) fs vs k' -> legible H fs vs k' ->
  returns (transfer_object ep h fs) [x; rp] w [] w' ->
  forall w2 p sid ow, ready ep w2 p -> keccak (host w2) = H -> stor (host w2) = stor (host w') -> load_be 32 (mem w2) p = k' ->
    468 <= sid -> sid + 32 <= gnext w2 -> (sid + 32 <= p \/ p + 32 <= sid) -> 0 <= ow -> ow + 32 <= gnext w2 ->
    wpf (load_object ep h fs) [p; sid; ow] w2 (resq (fun r w3 => exists x' F', r = [x'] /\ host w3 = host w2 /\
       object_at (mem w3) fs (load_be 32 (mem w2) ow) (load_be 32 (mem w2) sid) vs x' F' /\ sub F' (heap w3))
      (ctrap w2 (existsb narrow fs) (object_memory fs vs))).
Proof. exact transfer_then_load. Qed.
Print Assumptions C46_transfer_then_load_partial.

(** C45.  A frozen object is not deleted and not shared: both calls set the error and change nothing else.  Freezing it
    again changes nothing. *)
Theorem C45_frozen_stays : forall ep h fs w x id vs F, wok w -> errtab_ok ep -> statics w -> object_at (mem w) fs 2 id vs x F -> sub F (heap w) ->
  (exists w', returns (delete_object ep fs) [x] w [] w' /\ aborted ep FrozenObjectsCannotBeDeleted w w') /\
  (exists w', returns (share_object ep h fs) [x] w [] w' /\ aborted ep FrozenObjectsCannotBeShared w w') /\
  returns (freeze_object ep h fs) [x] w [] w.
Proof.
  intros ep h fs w x id vs F Hw He St Ob SF. split; [exact (frozen_delete ep fs w x id vs F Hw He St Ob SF)|].
  split; [exact (frozen_share ep h fs w x id vs F Hw He St Ob SF)|exact (frozen_freeze ep h fs w x id vs F Hw St Ob SF)].
Qed.
Print Assumptions C45_frozen_stays.

(** C45, full statement: transferring a frozen object sets the error for it and changes nothing else.  Proved: an error is
    set, so the call fails.  Missing: that nothing else changes and that the error is the one for transfers, which are false. *)
Theorem C45_frozen_transfer_fails_partial : forall ep h fs w x rp id vs F, wok w -> errtab_ok ep -> statics w ->
  object_at (mem w) fs 2 id vs x F -> sub F (heap w) -> forallb storable fs = true -> 0 <= h < 2 ^ 64 ->
  468 <= rp -> rp + 32 <= gnext w -> rp + 32 <= x - 32 \/ x <= rp ->
  let H := keccak (host w) in let k' := slot_of (host w) (load_be 32 (mem w) rp) id in room_for H (stor (host w)) fs vs k' ->
  wpf (transfer_object ep h fs) [x; rp] w (resq (fun r w' => r = [] /\ abort_flag w' <> 0 /\
     (forall y, ~ covers (slots H fs vs (k', 8)) y -> stor (host w') y = stor (host w) y)) (oom w (32 + costs vs))).
Proof. exact frozen_transfer_fails. Qed.
Print Assumptions C45_frozen_transfer_fails_partial.

(** C45 refuted: before the error is noticed, the object is written to the slot of the recipient, and the
    error says that frozen objects cannot be deleted. *)
Theorem C45_frozen_transfer_refuted : forall ep h fs w x rp id vs F, wok w -> errtab_ok ep -> statics w ->
  object_at (mem w) fs 2 id vs x F -> sub F (heap w) -> forallb storable fs = true -> 0 <= h < 2 ^ 64 ->
  468 <= rp -> rp + 32 <= gnext w -> rp + 32 <= x - 32 \/ x <= rp ->
  let H := keccak (host w) in let k' := slot_of (host w) (load_be 32 (mem w) rp) id in room_for H (stor (host w)) fs vs k' ->
  ~ oom w (32 + costs vs) ->
  exists w', returns (transfer_object ep h fs) [x; rp] w [] w' /\ abort_flag w' = ep FrozenObjectsCannotBeDeleted /\
    stor (host w') k' mod 2 ^ 64 = bswap 8 h /\ helds H (stor (host w')) fs vs (k', 8).
Proof. exact frozen_transfer_saved. Qed.
Print Assumptions C45_frozen_transfer_refuted.

(** C72.  Deleting an object clears every slot it used (fields, vectors and their elements) and no other.
    Missing: enums that hold vectors (see C92), structs that hold enums, and objects inside objects. *)
Theorem C72_delete_partial : forall ep fs w x owner id vs vs0 F, wok w -> errtab_ok ep -> statics w -> object_at (mem w) fs owner id vs x F -> sub F (heap w) ->
  forallb erasable fs = true -> owner <> 0 -> owner <> frozen_owner ->
  let H := keccak (host w) in let l := slots H fs vs0 (slot_of (host w) owner id, 8) in
  kept H (stor (host w)) fs vs0 owner (slot_of (host w) owner id) ->
  wpf (delete_object ep fs) [x] w (resq (fun r w' => r = [] /\ abort_flag w' = abort_flag w /\ host w' = set_stor (host w) (stor (host w')) /\
     stored (host w') owner id = 0 /\ (forall y, covers l y -> stor (host w') y = 0) /\ (forall y, ~ covers l y -> stor (host w') y = stor (host w) y)) (oom w (costs vs0))).
Proof. exact delete_erases. Qed.
Print Assumptions C72_delete_partial.

(** C73.  A shared object is not transferred and not frozen: both calls set the error and change nothing else.  Sharing it
    again changes nothing. *)
Theorem C73_shared_stays : forall ep h fs w x id vs F, wok w -> errtab_ok ep -> statics w -> object_at (mem w) fs 1 id vs x F -> sub F (heap w) ->
  (forall rp, exists w', returns (transfer_object ep h fs) [x; rp] w [] w' /\ aborted ep SharedObjectsCannotBeTransferred w w') /\
  (exists w', returns (freeze_object ep h fs) [x] w [] w' /\ aborted ep SharedObjectsCannotBeFrozen w w') /\
  returns (share_object ep h fs) [x] w [] w.
Proof.
  intros ep h fs w x id vs F Hw He St Ob SF. split; [exact (shared_transfer ep h fs w x id vs F Hw He St Ob SF)|].
  split; [exact (shared_freeze ep h fs w x id vs F Hw He St Ob SF)|exact (shared_share ep h fs w x id vs F Hw St Ob SF)].
Qed.
Print Assumptions C73_shared_stays.

(** An object of owner 161 with new values in memory goes to 4660, is shared, is frozen, or is deleted. *)
Example C46_example : let w := w_move 161 (st_move 161) in
  wok w /\ errtab_ok ep0 /\ statics w /\ object_at (mem w) fs_flat 161 9 vs_flat 564 (between 532 700) /\ sub (between 532 700) (heap w) /\
  forallb storable fs_flat = true /\ load_be 32 (mem w) 468 = 4660 /\
  kept hash2 (stor (host w)) fs_flat vs_old 161 (slot_of (host w) 161 9) /\
  (forall o, room_for hash2 (stor (host w)) fs_flat vs_flat (slot_of (host w) o 9)) /\
  object_memory fs_flat vs_flat < 2 ^ 31 /\ ~ oom w (32 + costs vs_old + costs vs_flat) /\
  let gone st' := (st' (k_move 161) =? 0) && (st' (k_move 161 + 1) =? 0) in
  let there st' k := st' k =? bswap 8 5 + 77 * 2 ^ 64 in
  (exists w', returns (transfer_object ep0 5 fs_flat) [564; 468] w [] w' /\ gone (stor (host w')) && there (stor (host w')) (k_move 4660) = true) /\
  (exists w', returns (share_object ep0 5 fs_flat) [564] w [] w' /\ gone (stor (host w')) && there (stor (host w')) (k_move 1) = true) /\
  (exists w', returns (freeze_object ep0 5 fs_flat) [564] w [] w' /\ gone (stor (host w')) && there (stor (host w')) (k_move 2) = true) /\
  (exists w', returns (delete_object ep0 fs_flat) [564] w [] w' /\ gone (stor (host w')) = true).
Proof.
  intros w. split; [apply w_move_ok|]. split; [exact ep0_ok|]. split; [apply w_move_statics|]. split; [apply w_move_object; tauto|]. split; [apply w_move_sub|].
  split; [reflexivity|]. split; [vm_compute; reflexivity|]. split; [unfold w; rewrite w_move_slot; apply st_move_kept|]. split; [intros o; unfold w; rewrite w_move_slot; apply room_move|].
  split; [vm_compute; reflexivity|]. split; [vm_compute; intros Q; discriminate Q|]. cbv zeta.
  split; [apply (runs_to_vals 3000); vm_compute; reflexivity|]. split; [apply (runs_to_vals 3000); vm_compute; reflexivity|].
  split; apply (runs_to_vals 3000); vm_compute; reflexivity.
Qed.
Example C45_example : let w := w_move 2 (st_move 2) in
  wok w /\ statics w /\ object_at (mem w) fs_flat 2 9 vs_flat 564 (between 532 700) /\ sub (between 532 700) (heap w) /\
  room_for hash2 (stor (host w)) fs_flat vs_flat (slot_of (host w) (load_be 32 (mem w) 468) 9) /\ ~ oom w (32 + costs vs_flat) /\
  stor (host w) (k_move 4660) = 0 /\
  exists w', returns (transfer_object ep0 5 fs_flat) [564; 468] w [] w' /\ (stor (host w') (k_move 4660) =? bswap 8 5 + 77 * 2 ^ 64) && (abort_flag w' =? ep0 FrozenObjectsCannotBeDeleted) = true.
Proof.
  intros w. split; [apply w_move_ok|]. split; [apply w_move_statics|]. split; [apply w_move_object; tauto|]. split; [apply w_move_sub|].
  split; [change (load_be 32 (mem w) 468) with 4660; unfold w; rewrite w_move_slot; apply room_move|]. split; [vm_compute; intros Q; discriminate Q|].
  split; [vm_compute; reflexivity|]. apply (runs_to_vals 3000); vm_compute; reflexivity.
Qed.
Example C73_example : let w := w_move 1 (st_move 1) in
  wok w /\ statics w /\ object_at (mem w) fs_flat 1 9 vs_flat 564 (between 532 700) /\ sub (between 532 700) (heap w) /\
  exists w', returns (transfer_object ep0 5 fs_flat) [564; 468] w [] w' /\ (abort_flag w' =? ep0 SharedObjectsCannotBeTransferred) = true.
Proof.
  intros w. split; [apply w_move_ok|]. split; [apply w_move_statics|]. split; [apply w_move_object; tauto|]. split; [apply w_move_sub|].
  apply (runs_to_vals 3000); vm_compute; reflexivity.
Qed.
