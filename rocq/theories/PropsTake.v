(** * Objects as arguments of entry functions (C93). *)

From Verif Require Import SpecInt Spec Tac RtAlloc RtErr RtSwap RtCopy SpecAbi SpecVal SpecStor SpecLayout RtStor LemStore RtSave RtLoad RtLoadObj LemPlace LemObj ExVec ExObj SpecDyn RtChild RtCall SpecMove ExMove LemMove SpecCache SpecTake RtTake LemTake.

(** C93, full statement: a caller passes an object by its id.  The function gets the object with this id as storage has it, if
    the caller may use it ([searched]: objects of the caller, shared objects, and frozen ones where they cannot be changed,
    or only one of these if the parameter says so).  Otherwise the call fails.
    Proved: for an object [a] that storage has under an owner whose objects may be passed (and not a second one with the same
    id under another such owner), the function gets an object with the same owner, id and fields; storage does not change,
    nor does memory that the program had; the next argument is read after the 32 bytes of the id.
    Missing: objects with other objects inside (PropsTakeTree.v), and those with an enum in the way (C91). *)
Theorem C93_object_argument_partial : forall ep kind imm w r a, up_to_date (host w) (stor (host w)) a -> a_owner a <> 0 -> 0 < a_hash a < 2 ^ 64 ->
  legible (keccak (host w)) (a_types a) (a_vals a) (a_slot (host w) a) ->
  Forall (fun s => snd s < 2 ^ 256) (a_slots (host w) a) -> object_memory (a_types a) (a_vals a) < 2 ^ 31 ->
  wok w -> errtab_ok ep -> statics w -> abort_flag w = 0 -> live w r 32 -> load_be 32 (mem w) r = a_id a ->
  In (a_owner a) (searched (host w) kind imm) -> (forall o, In o (searched (host w) kind imm) -> o <> a_owner a -> stored (host w) o (a_id a) = 0) ->
  wpf (take_object ep (a_hash a) (a_types a) kind imm) [r] w (resq (fun rs w' => exists x F, rs = [x] /\ host w' = host w /\ abort_flag w' = 0 /\ gcd w' = r + 32 /\
     (forall y, 468 <= y < gnext w -> rd (mem w') y = rd (mem w) y) /\ object_at (mem w') (a_types a) (a_owner a) (a_id a) (a_vals a) x F /\ sub F (heap w'))
   (ctrap w (existsb narrow (a_types a)) (64 + object_memory (a_types a) (a_vals a)))).
Proof. exact take_seen. Qed.
Print Assumptions C93_object_argument_partial.

(** C93.  The id of an object that is not the caller's, nor one that everybody may use in this way, is refused. *)
Theorem C93_not_entitled : forall ep h fs kind imm w r, wok w -> errtab_ok ep -> statics w -> abort_flag w = 0 -> live w r 32 -> 0 <= h < 2 ^ 64 ->
  (forall o, In o (searched (host w) kind imm) -> stored (host w) o (load_be 32 (mem w) r) = 0) ->
  wpf (take_object ep h fs kind imm) [r] w (resq (fun rs w' => abort_flag w' = ep StorageObjectNotFound /\ host w' = host w) (oom w 96)).
Proof. exact take_not_found. Qed.
Print Assumptions C93_not_entitled.

(** C93.  So is the id of an object of another type. *)
Theorem C93_wrong_type : forall ep h fs kind imm w r, wok w -> errtab_ok ep -> statics w -> abort_flag w = 0 -> live w r 32 -> 0 <= h < 2 ^ 64 ->
  (exists o, In o (searched (host w) kind imm) /\ stored (host w) o (load_be 32 (mem w) r) <> 0) ->
  (forall o, In o (searched (host w) kind imm) -> stored (host w) o (load_be 32 (mem w) r) <> 0 -> stored (host w) o (load_be 32 (mem w) r) mod 2 ^ 64 <> bswap 8 h) ->
  wpf (take_object ep h fs kind imm) [r] w (resq (fun rs w' => abort_flag w' = ep StorageObjectTypeMismatch /\ host w' = host w) (oom w 96)).
Proof. exact take_other_type. Qed.
Print Assumptions C93_wrong_type.

(** The object 9, stored for the caller (account 161), as a shared object or as a frozen one; its id is at 620. *)
Example C93_example :
  let obj o := HeldArg 0 5 fs_flat o 9 vs_old in
  let takes kind imm o := runs_to 3000 (take_object ep0 5 fs_flat kind imm) [620] (w_move 161 (st_move o)) (fun rs w' =>
    match rs with [x] => (abort_flag w' =? 0) && (gcd w' =? 652) && (load 8 (mem w') (load 4 (mem w') (x + 4)) =? 70) | _ => false end) in
  let refuses kind imm o h := runs_to 3000 (take_object ep0 h fs_flat kind imm) [620] (w_move 161 (st_move o)) (fun rs w' => abort_flag w' =? ep0 (if h =? 5 then StorageObjectNotFound else StorageObjectTypeMismatch)) in
  let w := w_move 161 (st_move 161) in
  up_to_date (host w) (stor (host w)) (obj 161) /\ legible (keccak (host w)) fs_flat vs_old (a_slot (host w) (obj 161)) /\
  Forall (fun s => snd s < 2 ^ 256) (a_slots (host w) (obj 161)) /\ object_memory fs_flat vs_old < 2 ^ 31 /\
  wok w /\ statics w /\ abort_flag w = 0 /\ live w 620 32 /\ load_be 32 (mem w) 620 = 9 /\
  searched (host w) None true = [161; 1; 2] /\ searched (host w) None false = [161; 1] /\ stored (host w) 1 9 = 0 /\ stored (host w) 2 9 = 0 /\ stored (host w) 161 9 <> 0 /\
  takes None false 161 && takes None false 1 && takes None true 2 && takes (Some Owned) false 161 && takes (Some Shared) false 1 && takes (Some Frozen) true 2 &&
  refuses None false 2 5 && refuses None true 77 5 && refuses (Some Owned) false 1 5 && refuses (Some Shared) false 161 5 && refuses (Some Frozen) true 161 5 && refuses None false 161 6 = true.
Proof.
  intros obj takes refuses w.
  assert (S : a_slot (host w) (obj 161) = k_move 161) by (apply w_move_slot).
  pose proof (st_move_kept 161 ltac:(lia)) as (L&Hs&Sl). 
  split. { intros _. rewrite S. split; [vm_compute; reflexivity|exact Hs]. }
  split; [left; reflexivity|]. split. { change (a_slots (host w) (obj 161)) with (slots hash2 fs_flat vs_old (a_slot (host w) (obj 161), 8)). rewrite S. change (slots hash2 fs_flat vs_old (k_move 161, 8)) with [(k_move 161, k_move 161 + 1)]. pose proof (k_move_small 161). constructor; [cbn [fst snd]; lia|constructor]. }
  split; [vm_compute; reflexivity|]. split; [apply w_move_ok|]. split; [apply w_move_statics|]. split; [vm_compute; reflexivity|].
  split; [unfold live, w; cbn [w_move gnext]; lia|]. do 5 (split; [vm_compute; reflexivity|]). split; [vm_compute; discriminate|]. vm_compute. reflexivity.
Qed.
