(** * Properties of transfers of objects with objects inside (C97). *)

From Verif Require Import SpecInt Spec Tac RtAlloc RtErr RtSwap RtCopy SpecAbi SpecVal SpecStor SpecLayout RtStor RtEnumPos RtStore RtLoad RtLoadObj ExVec ExObj ExMove SpecWrap RtWrap RtWrapLoad RtWrapObj ExWrap SpecTto RtTto LemTto ExTto RtTreeMove LemTreeMove ExTreeMove.
Ltac Zify.zify_post_hook ::= idtac.

(** C97. After a transfer of an object with objects inside, the object is in the slot of its new owner with its fields; each
    object inside is in the slots that belong to it as an object of the one that has it; nothing is left under the former
    owner, nor in the former places of objects that have been put into it; and nothing else changes.  ([uss]: what storage
    has in the former places.  The recipient's address is at [rp].) Missing: as in C96. *)
Theorem C97_transfer_partial : forall ep h fs w x owner id vs uss F, wok w -> errtab_ok ep -> statics w ->
  tree_at (mem w) fs owner id vs x F -> sub F (heap w) -> forallb sound fs = true -> forallb direct fs = true -> 0 <= h < 2 ^ 64 -> owner <> 1 ->
  let H := keccak (host w) in let D := departures fs owner id vs in
  Forall2 (was_there H (stor (host w))) D uss -> separate (formers H D uss) ->
  forall rp, 468 <= rp -> rp + 32 <= gnext w -> disj F (between rp (rp + 32)) ->
  let owner' := load_be 32 (mem w) rp in let k := home H owner' id in
  separate (tree_slots H fs id vs k) -> lastings H (stor (host w)) fs id vs (k, 8) ->
  wpf (transfer_tree ep h fs) [x; rp] w (resq (fun r w' => r = [] /\
     tree_relocated H (stor (host w)) (stor (host w')) (bswap 8 h) fs id vs (formers H D uss) k /\
     (owner <> 0 -> ~ covers (tree_slots H fs id vs k) (home H owner id) -> stored (host w') owner id = 0) /\
     wok w' /\ statics w' /\ tree_at (mem w') fs owner' id (all_settled fs id vs) x F /\ sub F (heap w') /\ abort_flag w' = abort_flag w /\ host w' = set_stor (host w) (stor (host w')))
    (oom w (32 + weigh uss + wcosts fs vs))).
Proof. exact transfer_tree_hands. Qed.
Print Assumptions C97_transfer_partial.

(** C97. The same for sharing and freezing: the new owners are 1 and 2. *)
Theorem C97_share_partial : forall ep h fs w x owner id vs uss F, wok w -> errtab_ok ep -> statics w ->
  tree_at (mem w) fs owner id vs x F -> sub F (heap w) -> forallb sound fs = true -> forallb direct fs = true -> 0 <= h < 2 ^ 64 -> owner <> 1 ->
  let H := keccak (host w) in let D := departures fs owner id vs in
  Forall2 (was_there H (stor (host w))) D uss -> separate (formers H D uss) -> owner <> 2 ->
  let k := home H 1 id in separate (tree_slots H fs id vs k) -> lastings H (stor (host w)) fs id vs (k, 8) ->
  wpf (share_tree ep h fs) [x] w (resq (fun r w' => r = [] /\
     tree_relocated H (stor (host w)) (stor (host w')) (bswap 8 h) fs id vs (formers H D uss) k /\
     (owner <> 0 -> ~ covers (tree_slots H fs id vs k) (home H owner id) -> stored (host w') owner id = 0) /\
     wok w' /\ statics w' /\ tree_at (mem w') fs 1 id (all_settled fs id vs) x F /\ sub F (heap w') /\ abort_flag w' = abort_flag w /\ host w' = set_stor (host w) (stor (host w')))
    (oom w (32 + weigh uss + wcosts fs vs))).
Proof. exact share_tree_hands. Qed.
Print Assumptions C97_share_partial.
Theorem C97_freeze_partial : forall ep h fs w x owner id vs uss F, wok w -> errtab_ok ep -> statics w ->
  tree_at (mem w) fs owner id vs x F -> sub F (heap w) -> forallb sound fs = true -> forallb direct fs = true -> 0 <= h < 2 ^ 64 -> owner <> 1 ->
  let H := keccak (host w) in let D := departures fs owner id vs in
  Forall2 (was_there H (stor (host w))) D uss -> separate (formers H D uss) -> owner <> 2 ->
  let k := home H 2 id in separate (tree_slots H fs id vs k) -> lastings H (stor (host w)) fs id vs (k, 8) ->
  wpf (freeze_tree ep h fs) [x] w (resq (fun r w' => r = [] /\
     tree_relocated H (stor (host w)) (stor (host w')) (bswap 8 h) fs id vs (formers H D uss) k /\
     (owner <> 0 -> ~ covers (tree_slots H fs id vs k) (home H owner id) -> stored (host w') owner id = 0) /\
     wok w' /\ statics w' /\ tree_at (mem w') fs 2 id (all_settled fs id vs) x F /\ sub F (heap w') /\ abort_flag w' = abort_flag w /\ host w' = set_stor (host w) (stor (host w')))
    (oom w (32 + weigh uss + wcosts fs vs))).
Proof. exact freeze_tree_hands. Qed.
Print Assumptions C97_freeze_partial.

(** C97. Whoever loads the object from there later gets the same fields and the same objects inside. Missing: as above, and what
    is missing in C95. *)
Theorem C97_then_load_partial : forall ep h fs id vs C k H st st', forallb readable fs = true -> 0 < h < 2 ^ 64 -> tree_memory fs vs < 2 ^ 31 -> separate (tree_slots H fs id vs k) ->
  tree_relocated H st st' (bswap 8 h) fs id vs C k ->
  forall w2 p sid ow, ready ep w2 p -> zeros w2 -> keccak (host w2) = H -> stor (host w2) = st' -> load_be 32 (mem w2) p = k ->
    468 <= sid -> sid + 32 <= gnext w2 -> (sid + 32 <= p \/ p + 32 <= sid) -> load_be 32 (mem w2) sid = id -> 0 <= ow -> ow + 32 <= gnext w2 ->
    wpf (load_tree ep h fs) [p; sid; ow] w2 (resq (fun r w3 => exists y G, r = [y] /\ host w3 = host w2 /\
       tree_at (mem w3) fs (load_be 32 (mem w2) ow) id (adopts fs id vs) y G /\ sub G (heap w3)) (ctrap w2 (existsb thin fs) (tree_memory fs vs))).
Proof. exact relocated_reloads. Qed.
Print Assumptions C97_then_load_partial.

(** C97. A shared object with objects inside is not transferred and not frozen: the error is set and nothing else changes. *)
Theorem C97_shared_stays : forall ep h fs w x id vs F, wok w -> errtab_ok ep -> statics w -> tree_at (mem w) fs 1 id vs x F -> sub F (heap w) ->
  (forall rp, exists w', returns (transfer_tree ep h fs) [x; rp] w [] w' /\ aborted ep SharedObjectsCannotBeTransferred w w') /\
  (exists w', returns (freeze_tree ep h fs) [x] w [] w' /\ aborted ep SharedObjectsCannotBeFrozen w w') /\
  returns (share_tree ep h fs) [x] w [] w.
Proof.
  intros ep h fs w x id vs F Hw He St Tr SF. split; [exact (shared_tree_transfer ep h fs w x id vs F Hw He St Tr SF)|].
  split; [exact (shared_tree_freeze ep h fs w x id vs F Hw He St Tr SF)|exact (shared_tree_share ep h fs w x id vs F Hw St Tr SF)].
Qed.
Print Assumptions C97_shared_stays.

(** The object 9 of the account 161, into which the account's object 11 has been put, goes to the account 4660. *)
Example C97_example : let w := w_hand 161 st_hand in let H := keccak (host w) in let D := departures fs_tto 161 9 (vs_tto 161) in let uss := [[VInt 70; VInt 12]; [VInt 4]] in
  wok w /\ errtab_ok ep0 /\ statics w /\ tree_at (mem w) fs_tto 161 9 (vs_tto 161) 564 (between 532 900) /\ sub (between 532 900) (heap w) /\ disj (between 532 900) (between 468 (468 + 32)) /\
  forallb sound fs_tto = true /\ forallb direct fs_tto = true /\ forallb readable fs_tto = true /\ tree_memory fs_tto (vs_tto 161) < 2 ^ 31 /\
  D = [([TU64; TU256], 161, 9); ([TU64], 161, 11)] /\ Forall2 (was_there H (stor (host w))) D uss /\ separate (formers H D uss) /\
  Forall (fun o => separate (tree_slots H fs_tto 9 (vs_tto 161) (home H o 9)) /\ lastings H (stor (host w)) fs_tto 9 (vs_tto 161) (home H o 9, 8)) [4660; 1; 2] /\
  load_be 32 (mem w) 468 = 4660 /\ ~ oom w (32 + weigh uss + wcosts fs_tto (vs_tto 161)) /\
  let gone w' := (stored (host w') 161 9 =? 0) && (stor (host w') (home hash2 161 9 + 1) =? 0) && (stor (host w') k_old =? 0) in
  let there w' o := (stor (host w') (home hash2 o 9) =? bswap 8 5 + 77 * 2 ^ 64) && (stor (host w') (home hash2 o 9 + 1) =? 11) && (stor (host w') k_new =? bswap 8 6 + 5 * 2 ^ 64) in
  (exists w', returns (transfer_tree ep0 5 fs_tto) [564; 468] w [] w' /\ gone w' && there w' 4660 = true) /\
  (exists w', returns (share_tree ep0 5 fs_tto) [564] w [] w' /\ gone w' && there w' 1 = true) /\
  (exists w', returns (freeze_tree ep0 5 fs_tto) [564] w [] w' /\ gone w' && there w' 2 = true) /\
  (let w1 := w_hand 1 st_hand in tree_at (mem w1) fs_tto 1 9 (vs_tto 161) 564 (between 532 900) /\
   exists w', returns (transfer_tree ep0 5 fs_tto) [564; 468] w1 [] w' /\ (abort_flag w' =? ep0 SharedObjectsCannotBeTransferred) = true).
Proof.
  intros w H D uss. split; [apply w_hand_ok|]. split; [exact ep0_ok|]. split; [apply w_hand_statics; auto|]. split; [apply w_hand_tree; auto|].
  split; [intros y; unfold heap, between; change (gnext w) with 900; lia|]. split; [unfold disj, between; intros; lia|]. do 3 (split; [reflexivity|]). split; [vm_compute; reflexivity|]. split; [reflexivity|]. split; [exact st_hand_there|].
  split; [apply separateb_ok; vm_compute; reflexivity|].
  split; [repeat (constructor; [split; [apply separateb_ok; vm_compute; reflexivity|unfold lastings, fs_tto, vs_tto, VObj; cbn [map along lasting no_shrink]; repeat split]|]); constructor|].
  split; [vm_compute; reflexivity|]. split; [vm_compute; intros Q; discriminate Q|]. cbv zeta.
  split; [apply (runs_to_vals 4000); vm_compute; reflexivity|]. split; [apply (runs_to_vals 4000); vm_compute; reflexivity|]. split; [apply (runs_to_vals 4000); vm_compute; reflexivity|].
  split; [apply w_hand_tree; auto|]. apply (runs_to_vals 4000); vm_compute; reflexivity.
Qed.
