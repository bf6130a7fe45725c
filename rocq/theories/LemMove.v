(** * Lemmas for PropsMove.v. *)

From Verif Require Import Tac RtAlloc RtErr RtInt RtInt2 RtEq RtMul RtDiv RtShift RtSwap RtAscii RtCopy Ops SpecAbi LemAbi SpecVal LemVal SpecStor SpecLayout RtStor LemStor RtStore LemStore RtSave RtLoad RtLoadObj LemPlace LemObj RtChild LemDelete RtDelete SpecMove RtTransfer.
Ltac Zify.zify_post_hook ::= idtac.

Lemma kept_shapes : forall H st fs vs owner k, kept H st fs vs owner k -> owner <> 0 -> typeds fs vs /\ separate (slots H fs vs (k, 8)) /\ shapes H st fs vs (k, 8).
Proof. intros H st fs vs owner k K No. destruct (K No) as (A&B&C). split; [exact A|]. split; [exact C|]. apply helds_shapes. exact B. Qed.

(** What a successful move leaves. *)
Definition handed (ep : errtab) (h : Z) (fs : list ty) (vs vs0 : list val) (x owner owner' id : Z) (F : mset) (w w' : world) : Prop :=
  let H := keccak (host w) in let k := slot_of (host w) owner id in let k' := slot_of (host w) owner' id in
  object_at (mem w') fs owner' id vs x F /\ sub F (heap w') /\ statics w' /\ abort_flag w' = abort_flag w /\ host w' = set_stor (host w) (stor (host w')) /\
  relocated H (stor (host w)) (stor (host w')) (bswap 8 h) fs vs (slots_under H fs vs0 owner k) k' /\
  (owner <> 0 -> ~ covers (slots H fs vs (k', 8)) k -> stored (host w') owner id = 0) /\
  (object_memory fs vs < 2 ^ 31 -> 0 < h -> legible H fs vs k' -> reloads ep h fs vs k' H (stor (host w'))).

Lemma moved_handed : forall ep h fs vs vs0 x owner owner' id F w w', wok w -> statics w -> sub F (heap w) -> 500 <= x -> 0 <= h < 2 ^ 64 -> forallb storable fs = true ->
  separate (slots (keccak (host w)) fs vs (slot_of (host w) owner' id, 8)) ->
  moved h fs vs vs0 x owner owner' id F w w' -> handed ep h fs vs vs0 x owner owner' id F w w'.
Proof.
  intros ep h fs vs vs0 x owner owner' id F w w' Hw St SF Hx Hh Pl Se (G&N&Ob&T&Hd&C1&C2). pose proof Hw as (P1&P2&P3&P4&P5&P6). unfold handed. cbv zeta.
  pose proof (keccak_grows _ _ _ G) as Kg.
  split; [exact Ob|]. split; [eapply heap_grows; eassumption|]. split; [eapply statics_grows; eassumption|]. split.
  { unfold abort_flag. eapply load_grows; [exact G|lia|lia|]. intros y Hy D. unfold del_mem, slot_mem, within in D. lia. }
  split; [apply G|]. split; [unfold relocated; auto|]. split.
  - intros No Nc. unfold stored. rewrite (slot_of_keccak (host w)) by exact Kg. rewrite C1; [reflexivity| |exact Nc].
    unfold slots_under. rewrite (proj2 (Z.eqb_neq _ _) No). unfold slots. apply covers_cons. left. cbn [fst snd].
    destruct (afters_ok fs (slot_of (host w) owner id, 8)) as (_&B); [unfold good; cbn; lia|]. apply before_fst in B. cbn [fst] in *. lia.
  - intros Hm Hh' Lg. apply reloads_ok; try assumption; [lia|]. destruct Se as (_&Se). apply Forall_forall. rewrite Forall_forall in Se. intros a Ha. apply Se. exact Ha.
Qed.

Section Moves.
Variables (ep : errtab) (h : Z) (fs : list ty) (w : world) (x owner id : Z) (vs vs0 : list val) (F : mset).
Hypotheses (Hw : wok w) (He : errtab_ok ep) (St : statics w) (Ob : object_at (mem w) fs owner id vs x F) (SF : sub F (heap w))
  (Pl : forallb storable fs = true) (Hh : 0 <= h < 2 ^ 64) (No1 : owner <> shared_owner) (No2 : owner <> frozen_owner)
  (Er : owner <> 0 -> forallb erasable fs = true)
  (Old : kept (keccak (host w)) (stor (host w)) fs vs0 owner (slot_of (host w) owner id)).

Lemma x_high : 500 <= x.
Proof. destruct (object_placed w fs owner id vs x F Ob SF) as (X&_). exact X. Qed.

Lemma transfer_hands : forall rp, 468 <= rp -> rp + 32 <= gnext w -> rp + 32 <= x - 32 \/ x <= rp ->
  let owner' := load_be 32 (mem w) rp in
  room_for (keccak (host w)) (stor (host w)) fs vs (slot_of (host w) owner' id) ->
  wpf (transfer_object ep h fs) [x; rp] w (resq (fun r w' => r = [] /\ handed ep h fs vs vs0 x owner owner' id F w w') (oom w (32 + costs vs0 + costs vs))).
Proof.
  intros rp R1 R2 R3 owner' (Se&Ns). eapply wpf_conseq; [eapply (transfer_object_spec ep h fs w x rp owner id vs vs0 F); try assumption; intros N; split; [exact (Er N)|exact (kept_shapes _ _ _ _ _ _ Old N)]|].
  intros o. destruct o; cbn [resq]; auto. intros (->&Mv). split; [reflexivity|]. apply moved_handed; try assumption. exact x_high.
Qed.
Lemma share_hands : room_for (keccak (host w)) (stor (host w)) fs vs (slot_of (host w) shared_owner id) ->
  wpf (share_object ep h fs) [x] w (resq (fun r w' => r = [] /\ handed ep h fs vs vs0 x owner shared_owner id F w w') (oom w (32 + costs vs0 + costs vs))).
Proof.
  intros (Se&Ns). eapply wpf_conseq; [eapply (share_object_spec ep h fs w x owner id vs vs0 F); try assumption; intros N; split; [exact (Er N)|exact (kept_shapes _ _ _ _ _ _ Old N)]|].
  intros o. destruct o; cbn [resq]; auto. intros (->&Mv). split; [reflexivity|]. apply moved_handed; try assumption. exact x_high.
Qed.
Lemma freeze_hands : room_for (keccak (host w)) (stor (host w)) fs vs (slot_of (host w) frozen_owner id) ->
  wpf (freeze_object ep h fs) [x] w (resq (fun r w' => r = [] /\ handed ep h fs vs vs0 x owner frozen_owner id F w w') (oom w (32 + costs vs0 + costs vs))).
Proof.
  intros (Se&Ns). eapply wpf_conseq; [eapply (freeze_object_spec ep h fs w x owner id vs vs0 F); try assumption; intros N; split; [exact (Er N)|exact (kept_shapes _ _ _ _ _ _ Old N)]|].
  intros o. destruct o; cbn [resq]; auto. intros (->&Mv). split; [reflexivity|]. apply moved_handed; try assumption. exact x_high.
Qed.

End Moves.

Lemma delete_erases : forall ep fs w x owner id vs vs0 F, wok w -> errtab_ok ep -> statics w -> object_at (mem w) fs owner id vs x F -> sub F (heap w) ->
  forallb erasable fs = true -> owner <> 0 -> owner <> frozen_owner ->
  let H := keccak (host w) in let l := slots H fs vs0 (slot_of (host w) owner id, 8) in
  kept H (stor (host w)) fs vs0 owner (slot_of (host w) owner id) ->
  wpf (delete_object ep fs) [x] w (resq (fun r w' => r = [] /\ abort_flag w' = abort_flag w /\ host w' = set_stor (host w) (stor (host w')) /\
     stored (host w') owner id = 0 /\ (forall y, covers l y -> stor (host w') y = 0) /\ (forall y, ~ covers l y -> stor (host w') y = stor (host w) y)) (oom w (costs vs0))).
Proof.
  intros ep fs w x owner id vs vs0 F Hw He St Ob SF Pl E No2 H l Old. destruct (kept_shapes _ _ _ _ _ _ Old E) as (Ty&Se&Sh). pose proof Hw as (P1&P2&P3&P4&P5&P6).
  assert (Pf : Forall (fun t => erasable t = true) fs) by (apply Forall_forall; rewrite forallb_forall in Pl; exact Pl).
  pose proof (object_placed w fs owner id vs x F Ob SF) as Po. pose proof (proj1 Po) as Hx.
  eapply wpf_conseq; [eapply (delete_object_spec ep fs w x owner id vs0); eassumption|].
  intros o. destruct o; cbn [resq]; auto; [|intros (_&O); exact O]. intros (->&G&N&Z0&C1&C2). split; [reflexivity|]. split.
  { unfold abort_flag. eapply load_grows; [exact G|lia|lia|]. intros y Hy D. unfold del_mem, slot_mem, within in D. lia. }
  split; [apply G|]. split; [|split; assumption]. unfold stored. rewrite (slot_of_keccak (host w)) by (eapply keccak_grows; exact G). rewrite C1; [reflexivity|].
  unfold slots. apply covers_cons. left. cbn [fst snd]. destruct (afters_ok fs (slot_of (host w) owner id, 8)) as (_&B); [unfold good; cbn; lia|]. apply before_fst in B. cbn [fst] in *. lia.
Qed.

(** Frozen objects. *)
Section Frozen.
Variables (ep : errtab) (h : Z) (fs : list ty) (w : world) (x id : Z) (vs : list val) (F : mset).
Hypotheses (Hw : wok w) (He : errtab_ok ep) (St : statics w) (Ob : object_at (mem w) fs frozen_owner id vs x F) (SF : sub F (heap w)).

Lemma frozen_delete : exists w', returns (delete_object ep fs) [x] w [] w' /\ aborted ep FrozenObjectsCannotBeDeleted w w'.
Proof. eexists. split; [eapply delete_object_frozen; [exact Hw|exact St|eapply object_placed; eassumption]|apply aborted_store; exact He]. Qed.
Lemma frozen_share : exists w', returns (share_object ep h fs) [x] w [] w' /\ aborted ep FrozenObjectsCannotBeShared w w'.
Proof. eexists. split; [eapply (share_settled ep h fs w x frozen_owner); [exact Hw|exact St|exact Ob|exact SF|auto]|apply aborted_store; exact He]. Qed.
Lemma frozen_freeze : returns (freeze_object ep h fs) [x] w [] w.
Proof. apply (freeze_settled ep h fs w x frozen_owner id vs F Hw St Ob SF). auto. Qed.
End Frozen.

(** Shared objects. *)
Section Shared.
Variables (ep : errtab) (h : Z) (fs : list ty) (w : world) (x id : Z) (vs : list val) (F : mset).
Hypotheses (Hw : wok w) (He : errtab_ok ep) (St : statics w) (Ob : object_at (mem w) fs shared_owner id vs x F) (SF : sub F (heap w)).

Lemma shared_transfer : forall rp, exists w', returns (transfer_object ep h fs) [x; rp] w [] w' /\ aborted ep SharedObjectsCannotBeTransferred w w'.
Proof. intros rp. eexists. split; [eapply transfer_object_shared; eassumption|apply aborted_store; exact He]. Qed.
Lemma shared_freeze : exists w', returns (freeze_object ep h fs) [x] w [] w' /\ aborted ep SharedObjectsCannotBeFrozen w w'.
Proof. eexists. split; [eapply (freeze_settled ep h fs w x shared_owner); [exact Hw|exact St|exact Ob|exact SF|auto]|apply aborted_store; exact He]. Qed.
Lemma shared_share : returns (share_object ep h fs) [x] w [] w.
Proof. apply (share_settled ep h fs w x shared_owner id vs F Hw St Ob SF). auto. Qed.
End Shared.

Lemma transfer_then_load : forall ep h fs w x owner id vs vs0 F rp w', wok w -> errtab_ok ep -> statics w ->
  object_at (mem w) fs owner id vs x F -> sub F (heap w) -> forallb storable fs = true -> (owner <> 0 -> forallb erasable fs = true) -> 0 < h < 2 ^ 64 -> object_memory fs vs < 2 ^ 31 ->
  owner <> shared_owner -> owner <> frozen_owner -> 468 <= rp -> rp + 32 <= gnext w -> rp + 32 <= x - 32 \/ x <= rp ->
  let H := keccak (host w) in let k' := slot_of (host w) (load_be 32 (mem w) rp) id in
  kept H (stor (host w)) fs vs0 owner (slot_of (host w) owner id) -> room_for H (stor (host w)) fs vs k' -> legible H fs vs k' ->
  returns (transfer_object ep h fs) [x; rp] w [] w' ->
  reloads ep h fs vs k' H (stor (host w')).
Proof.
  intros ep h fs w x owner id vs vs0 F rp w' Hw He St Ob SF Pl Er Hh Hm N1 N2 R1 R2 R3 H k' Kp Ro Lg Re.
  assert (W := transfer_hands ep h fs w x owner id vs vs0 F Hw He St Ob SF Pl ltac:(lia) N1 N2 Er Kp rp R1 R2 R3 Ro).
  destruct (wpf_cases _ _ _ _ _ W) as [(r1&w1&R&_&Q)|(T&_)].
  - destruct (returns_unique _ _ _ _ _ _ _ R Re) as (_&<-). apply Q; [exact Hm|lia|exact Lg].
  - exfalso. pose proof (evals_unique _ _ _ _ _ T Re) as E. discriminate E.
Qed.

Lemma frozen_transfer_fails : forall ep h fs w x rp id vs F, wok w -> errtab_ok ep -> statics w ->
  object_at (mem w) fs frozen_owner id vs x F -> sub F (heap w) -> forallb storable fs = true -> 0 <= h < 2 ^ 64 ->
  468 <= rp -> rp + 32 <= gnext w -> rp + 32 <= x - 32 \/ x <= rp ->
  let H := keccak (host w) in let k' := slot_of (host w) (load_be 32 (mem w) rp) id in room_for H (stor (host w)) fs vs k' ->
  wpf (transfer_object ep h fs) [x; rp] w (resq (fun r w' => r = [] /\ abort_flag w' <> 0 /\
     (forall y, ~ covers (slots H fs vs (k', 8)) y -> stor (host w') y = stor (host w) y)) (oom w (32 + costs vs))).
Proof.
  intros ep h fs w x rp id vs F Hw He St Ob SF Pl Hh R1 R2 R3 H k' (Se&Ns).
  eapply wpf_conseq; [eapply (transfer_object_frozen ep h fs w x rp id vs F); eassumption|]. intros o. destruct o; cbn [resq]; auto.
  intros (->&A&B&C&D). pose proof (He FrozenObjectsCannotBeDeleted). split; [reflexivity|]. split; [lia|exact D].
Qed.

Lemma frozen_transfer_saved : forall ep h fs w x rp id vs F, wok w -> errtab_ok ep -> statics w ->
  object_at (mem w) fs frozen_owner id vs x F -> sub F (heap w) -> forallb storable fs = true -> 0 <= h < 2 ^ 64 ->
  468 <= rp -> rp + 32 <= gnext w -> rp + 32 <= x - 32 \/ x <= rp ->
  let H := keccak (host w) in let k' := slot_of (host w) (load_be 32 (mem w) rp) id in room_for H (stor (host w)) fs vs k' ->
  ~ oom w (32 + costs vs) ->
  exists w', returns (transfer_object ep h fs) [x; rp] w [] w' /\ abort_flag w' = ep FrozenObjectsCannotBeDeleted /\
    stor (host w') k' mod 2 ^ 64 = bswap 8 h /\ helds H (stor (host w')) fs vs (k', 8).
Proof.
  intros ep h fs w x rp id vs F Hw He St Ob SF Pl Hh R1 R2 R3 H k' (Se&Ns) No.
  destruct (wpf_cases _ _ _ _ _ (transfer_object_frozen ep h fs w x rp id vs F Hw He St Ob SF Pl Hh R1 R2 R3 Se Ns)) as [(r&w'&R&->&A&B&C&_)|(_&O)]; [|contradiction].
  exists w'. auto.
Qed.
