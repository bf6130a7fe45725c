(** * Reading objects of other accounts (C85). *)

From Verif Require Import SpecInt Spec Tac RtAlloc RtErr RtSwap RtCopy SpecAbi SpecVal SpecStor SpecLayout RtStor LemStore RtSave RtLoad RtLoadObj LemPlace LemObj ExObj SpecDyn RtChild ExDyn RtCall SpecMove SpecCache RtCache RtPeep LemPeep ExPeep.

(** C85, full statement: peeping at the object of an account, by the account's address and the object's id, gives a reference
    to the object as it is in storage.  Nothing is written to storage, and no memory that the program had changes.
    Proved: for an object [a] that storage has (see C78: this is how transactions leave the objects they had).  Given its
    owner's address and its id, wherever in memory they are, the function returns a reference to an object with the same
    owner, id and fields.
    Missing: objects with other objects inside, and those with an enum in the way (C91). *)
Theorem C85_peep_partial : forall ep h st a, up_to_date h st a -> a_owner a <> 0 -> 0 < a_hash a < 2 ^ 64 -> legible (keccak h) (a_types a) (a_vals a) (a_slot h a) ->
  Forall (fun s => snd s < 2 ^ 256) (a_slots h a) -> object_memory (a_types a) (a_vals a) < 2 ^ 31 ->
  forall w p u c, wok w -> errtab_ok ep -> statics w -> abort_flag w = 0 -> keccak (host w) = keccak h -> stor (host w) = st ->
    468 <= p -> p + 32 <= gnext w -> load_be 32 (mem w) p = a_owner a -> uid_at w u c -> load_be 32 (mem w) c = a_id a ->
    wpf (native_peep ep (a_hash a) (a_types a)) [p; u] w (resq (fun r w' => exists q F, r = [q] /\ host w' = host w /\ abort_flag w' = 0 /\
       (forall y, 468 <= y < gnext w -> rd (mem w') y = rd (mem w) y) /\ gnext w <= q /\ live w' q 4 /\
       object_at (mem w') (a_types a) (a_owner a) (a_id a) (a_vals a) (load 4 (mem w') q) F /\ sub F (heap w'))
     (ctrap w (existsb narrow (a_types a)) (36 + object_memory (a_types a) (a_vals a)))).
Proof. exact peep_seen. Qed.
Print Assumptions C85_peep_partial.

(** C85.  When the account has no object with the id, or has one of another type, the error for it is reported; storage stays. *)
Theorem C85_missing_reported : forall ep h fs w p u c, wok w -> errtab_ok ep -> statics w -> abort_flag w = 0 ->
  468 <= p -> p + 32 <= gnext w -> uid_at w u c -> 0 <= h < 2 ^ 64 ->
  let slot := slot_of (host w) (load_be 32 (mem w) p) (load_be 32 (mem w) c) in
  forall e, (inspect (bswap 8 h) (stor (host w) slot), e) = (Missing, StorageObjectNotFound) \/
            (inspect (bswap 8 h) (stor (host w) slot), e) = (Other_type, StorageObjectTypeMismatch) ->
  wpf (native_peep ep h fs) [p; u] w (resq (fun r w' => (exists q, r = [q]) /\ abort_flag w' = ep e /\ host w' = host w) (oom w 68)).
Proof.
  intros ep h fs w p u c Hw He St Ab H1 H2 U Hh slot e E. eapply wpf_conseq; [exact (peep_err ep h fs w p u c e Hw He St Ab H1 H2 U Hh E)|].
  intros o. destruct o; cbn [resq]; auto. intros (q&->&A&B). split; [exists q; reflexivity|auto].
Qed.
Print Assumptions C85_missing_reported.

(** The object 9 of the account 77 has a vector of three numbers. *)
Example C85_example : let w := w_child st_peep in
  up_to_date (host w) st_peep theirs /\ Forall (fun s => snd s < 2 ^ 256) (a_slots (host w) theirs) /\ object_memory (a_types theirs) (a_vals theirs) < 2 ^ 31 /\
  wok w /\ statics w /\ abort_flag w = 0 /\ load_be 32 (mem w) 700 = a_owner theirs /\ uid_at w 612 620 /\ load_be 32 (mem w) 620 = a_id theirs /\
  runs_to 3000 (native_peep ep0 5 [TVec TU64]) [700; 612] w (fun r w' =>
    match r with [q] => let v := load 4 (mem w') (load 4 (mem w') q + 4) in
      (load 4 (mem w') v =? 3) && (load 8 (mem w') (v + 8) =? 11) && (load 8 (mem w') (v + 24) =? 13) | _ => false end) &&
  runs_to 3000 (native_peep ep0 6 [TVec TU64]) [700; 612] w (fun r w' => abort_flag w' =? ep0 StorageObjectTypeMismatch) &&
  runs_to 3000 (native_peep ep0 5 [TVec TU64]) [700; 612] (w_child (fun _ => 0)) (fun r w' => abort_flag w' =? ep0 StorageObjectNotFound) = true.
Proof.
  intros w. split; [exact theirs_stored|]. split; [exact theirs_slots|]. split; [vm_compute; reflexivity|]. split; [apply w_child_ok|]. split; [apply w_child_statics|].
  split; [vm_compute; reflexivity|]. split; [vm_compute; reflexivity|]. split; [unfold uid_at; vm_compute; repeat split; discriminate|]. split; vm_compute; reflexivity.
Qed.
