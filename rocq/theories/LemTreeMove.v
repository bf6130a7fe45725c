(** * Lemmas for PropsTreeMove.v. *)

From Verif Require Import Tac RtAlloc RtErr RtInt RtInt2 RtEq RtMul RtDiv RtShift RtSwap RtAscii RtCopy RtCopy2 Ops SpecAbi LemAbi SpecVal LemVal SpecStor SpecLayout RtStor LemStor RtEnumPos RtStore LemStore RtSave RtLoad RtLoadObj LemPlace LemObj RtChild LemDelete RtDelete SpecMove RtTransfer RtCache LemMove SpecWrap RtWrap RtWrapLoad RtWrapObj SpecTto RtTto LemTto RtTreeMove.
Ltac Zify.zify_post_hook ::= idtac.

(** ** Objects that are shared or frozen *)

Lemma transfer_tree_shared : forall ep h fs w x rp id vs F, wok w -> statics w -> tree_at (mem w) fs shared_owner id vs x F -> sub F (heap w) ->
  returns (transfer_tree ep h fs) [x; rp] w [] (set_mem w (store 4 (mem w) 256 (ep SharedObjectsCannotBeTransferred))).
Proof.
  intros ep h fs w x rp id vs F Hw St Ob SF. pose proof Hw as (P1&P2&P3&P4&P5&P6).
  pose proof (tree_placed w fs shared_owner id vs x F Ob SF) as (X1&X2&Eo&_). pose proof St as (S0&S1&S2&S3&S4).
  apply RtDelete.returns_intro. apply wpf_intro; [reflexivity|]. wc. unfold transfer_tree, A_SHARED, A_FROZEN. cbn [app]. ws1. ws1. ws1. ws1.
  apply wp_block. ws1. ws1. ws1. eapply wp_call; [reflexivity|cbn [List.length]; lia|]. wc.
  eapply returns_wpf; [apply (a_equals_b_spec 32); [exact Hw|unfold live; lia|unfold live; lia]|]. wc.
  rewrite eqb_be, Eo, S3, Z.eqb_refl. cbn [b2z]. ws1. apply wp_brif; intros C; unb C; [exfalso; lia|]. wc. werr; [exact Hw|]. auto.
Qed.

Lemma share_tree_settled : forall ep h fs w x owner id vs F, wok w -> statics w -> tree_at (mem w) fs owner id vs x F -> sub F (heap w) ->
  owner = shared_owner \/ owner = frozen_owner ->
  returns (share_tree ep h fs) [x] w [] (if owner =? shared_owner then w else set_mem w (store 4 (mem w) 256 (ep FrozenObjectsCannotBeShared))).
Proof.
  intros ep h fs w x owner id vs F Hw St Ob SF Ho. pose proof Hw as (P1&P2&P3&P4&P5&P6).
  pose proof (tree_placed w fs owner id vs x F Ob SF) as (X1&X2&Eo&_). pose proof St as (S0&S1&S2&S3&S4).
  apply RtDelete.returns_intro. apply wpf_intro; [reflexivity|]. wc. unfold share_tree, A_SHARED, A_FROZEN. apply wp_block. ws1. ws1. ws1. ws1. ws1. ws1. ws1.
  eapply wp_call; [reflexivity|cbn [List.length]; lia|]. wc.
  eapply returns_wpf; [apply (a_equals_b_spec 32); [exact Hw|unfold live; lia|unfold live; lia]|]. wc.
  rewrite eqb_be, Eo, S3. apply wp_brif; intros C; unb C; wc.
  - rewrite C. apply wp_nil. wc. auto.
  - rewrite C. assert (owner = frozen_owner) by (destruct (Z.eqb_spec owner shared_owner); [discriminate|tauto]).
    ws1. ws1. ws1. eapply wp_call; [reflexivity|cbn [List.length]; lia|]. wc.
    eapply returns_wpf; [apply (a_equals_b_spec 32); [exact Hw|unfold live; lia|unfold live; lia]|]. wc.
    rewrite eqb_be, Eo, S4, H, Z.eqb_refl. cbn [b2z]. apply wp_if; intros D; unb D; [|exfalso; lia]. werr; [exact Hw|]. auto.
Qed.

Lemma freeze_tree_settled : forall ep h fs w x owner id vs F, wok w -> statics w -> tree_at (mem w) fs owner id vs x F -> sub F (heap w) ->
  owner = shared_owner \/ owner = frozen_owner ->
  returns (freeze_tree ep h fs) [x] w [] (if owner =? frozen_owner then w else set_mem w (store 4 (mem w) 256 (ep SharedObjectsCannotBeFrozen))).
Proof.
  intros ep h fs w x owner id vs F Hw St Ob SF Ho. pose proof Hw as (P1&P2&P3&P4&P5&P6).
  pose proof (tree_placed w fs owner id vs x F Ob SF) as (X1&X2&Eo&_). pose proof St as (S0&S1&S2&S3&S4).
  apply RtDelete.returns_intro. apply wpf_intro; [reflexivity|]. wc. unfold freeze_tree, A_SHARED, A_FROZEN. apply wp_block. ws1. ws1. ws1. ws1. ws1. ws1.
  eapply wp_call; [reflexivity|cbn [List.length]; lia|]. wc.
  eapply returns_wpf; [apply (a_equals_b_spec 32); [exact Hw|unfold live; lia|unfold live; lia]|]. wc.
  rewrite eqb_be, Eo, S4. apply wp_brif; intros C; unb C; wc.
  - rewrite C. apply wp_nil. wc. auto.
  - rewrite C. assert (owner = shared_owner) by (destruct (Z.eqb_spec owner frozen_owner); [discriminate|tauto]).
    ws1. ws1. ws1. eapply wp_call; [reflexivity|cbn [List.length]; lia|]. wc.
    eapply returns_wpf; [apply (a_equals_b_spec 32); [exact Hw|unfold live; lia|unfold live; lia]|]. wc.
    rewrite eqb_be, Eo, S3, H, Z.eqb_refl. cbn [b2z]. apply wp_if; intros D; unb D; [|exfalso; lia]. werr; [exact Hw|]. auto.
Qed.

(** ** Objects that move *)

(** What a successful move leaves: in memory, in storage, and for whoever loads the object later. *)
Definition tree_handed (ep : errtab) (h : Z) (fs : list shape) (vs : list val) (uss : list (list val)) (x owner owner' id : Z) (F : mset) (w w' : world) : Prop :=
  let H := keccak (host w) in let k := home H owner id in let k' := home H owner' id in
  tree_relocated H (stor (host w)) (stor (host w')) (bswap 8 h) fs id vs (formers H (departures fs owner id vs) uss) k' /\
  (owner <> 0 -> ~ covers (tree_slots H fs id vs k') k -> stored (host w') owner id = 0) /\
  wok w' /\ statics w' /\ tree_at (mem w') fs owner' id (all_settled fs id vs) x F /\ sub F (heap w') /\ abort_flag w' = abort_flag w /\ host w' = set_stor (host w) (stor (host w')).

Lemma moved_tree_handed : forall ep h fs vs uss x owner owner' id F w w', wok w -> statics w -> sub F (heap w) ->
  Forall2 (was_there (keccak (host w)) (stor (host w))) (departures fs owner id vs) uss ->
  tree_moved h fs vs uss x owner owner' id F w w' -> tree_handed ep h fs vs uss x owner owner' id F w w'.
Proof.
  intros ep h fs vs uss x owner owner' id F w w' Hw St SF Was (G&N&Tr&Re). pose proof Hw as (P1&P2&P3&P4&P5&P6). unfold tree_handed. cbv zeta.
  pose proof (keccak_grows _ _ _ G) as Kg. set (H := keccak (host w)) in *.
  split; [exact Re|]. split.
  - intros No Nc. destruct Re as (_&_&C1&_). unfold stored. change (slot_of (host w') owner id) with (home (keccak (host w')) owner id). rewrite Kg. fold H. rewrite C1; [reflexivity| |exact Nc].
    unfold departures in Was |- *. rewrite (proj2 (Z.eqb_neq _ _) No) in Was |- *. cbn [app] in Was |- *. destruct uss as [|us uss]; [inversion Was|]. cbn [formers former]. apply covers_app. left.
    unfold slots. apply covers_cons. left. cbn [fst snd].
    destruct (afters_ok (map slot_ty fs) (home H owner id, 8)) as (_&B); [unfold good; cbn; lia|]. apply before_fst in B. cbn [fst] in *. lia.
  - split; [apply G|]. split; [exact (statics_tto w w' F St Hw SF G)|]. split; [exact Tr|]. split; [eapply heap_grows; eassumption|]. split; [|apply G].
    unfold abort_flag. eapply load_grows; [exact G|lia|lia|]. intros y Hy [D|[D|D]]; [unfold slot_mem, within in D; lia|unfold within in D; lia|]. apply SF in D. unfold heap, between in D. lia.
Qed.

(** Loading the object from the slot [k]. *)
Definition tree_reloads (ep : errtab) (h : Z) (fs : list shape) (id : Z) (vs : list val) (k : Z) (H : list Z -> Z) (st : Z -> Z) : Prop :=
  forall w2 p sid ow, ready ep w2 p -> zeros w2 -> keccak (host w2) = H -> stor (host w2) = st -> load_be 32 (mem w2) p = k ->
    468 <= sid -> sid + 32 <= gnext w2 -> (sid + 32 <= p \/ p + 32 <= sid) -> load_be 32 (mem w2) sid = id -> 0 <= ow -> ow + 32 <= gnext w2 ->
    wpf (load_tree ep h fs) [p; sid; ow] w2 (resq (fun r w3 => exists y G, r = [y] /\ host w3 = host w2 /\
       tree_at (mem w3) fs (load_be 32 (mem w2) ow) id (adopts fs id vs) y G /\ sub G (heap w3)) (ctrap w2 (existsb thin fs) (tree_memory fs vs))).

Lemma relocated_reloads : forall ep h fs id vs C k H st st', forallb readable fs = true -> 0 < h < 2 ^ 64 -> tree_memory fs vs < 2 ^ 31 -> separate (tree_slots H fs id vs k) ->
  tree_relocated H st st' (bswap 8 h) fs id vs C k -> tree_reloads ep h fs id vs k H st'.
Proof.
  intros ep h fs id vs C k H st st' Rd Hh Mm Se (Ht&Hd&_) w2 p2 sid ow Rd2 Zs2 Ek Es Lp2 Hs Hs2 Hsp Ls Ho Ho2.
  eapply wpf_conseq; [apply (load_tree_spec ep h fs w2 p2 sid ow k vs); rewrite ?Ls, ?Ek, ?Es; try assumption|].
  - destruct Se as (_&Rg). eapply Forall_impl; [|exact Rg]. intros a (_&Y). exact Y.
  - intros o2. destruct o2 as [r2 w3| | |]; cbn [resq]; auto. intros (y&G&->&S&_&T&SG). rewrite Ls in T. exists y, G. split; [reflexivity|]. split; [exact (proj2 S)|]. split; [exact T|].
    intros z Hz. apply SG in Hz. pose proof S as ((W3&_&_&B&_)&_). pose proof Rd2 as ((_&_&P3&_)&_). destruct Hz as [Z1|Z1]; unfold heap, between in *; lia.
Qed.

Section Moves.
Variables (ep : errtab) (h : Z) (fs : list shape) (w : world) (x owner id : Z) (vs : list val) (uss : list (list val)) (F : mset).
Hypotheses (Hw : wok w) (He : errtab_ok ep) (St : statics w) (Tr : tree_at (mem w) fs owner id vs x F) (SF : sub F (heap w))
  (So : forallb sound fs = true) (Di : forallb direct fs = true) (Hh : 0 <= h < 2 ^ 64) (No1 : owner <> shared_owner).
Let H := keccak (host w).
Hypotheses (Was : Forall2 (was_there H (stor (host w))) (departures fs owner id vs) uss) (Sp : separate (formers H (departures fs owner id vs) uss)).

Lemma transfer_tree_hands : forall rp, 468 <= rp -> rp + 32 <= gnext w -> disj F (between rp (rp + 32)) ->
  let owner' := load_be 32 (mem w) rp in let k := home H owner' id in
  separate (tree_slots H fs id vs k) -> lastings H (stor (host w)) fs id vs (k, 8) ->
  wpf (transfer_tree ep h fs) [x; rp] w (resq (fun r w' => r = [] /\ tree_handed ep h fs vs uss x owner owner' id F w w') (oom w (32 + weigh uss + wcosts fs vs))).
Proof.
  intros rp R1 R2 R3 owner' k Se Ns. eapply wpf_conseq; [eapply (transfer_tree_spec ep h fs w x owner id vs uss F); assumption|].
  intros o. destruct o; cbn [resq]; auto. intros (->&Mv). split; [reflexivity|]. apply moved_tree_handed; assumption.
Qed.
Lemma share_tree_hands : owner <> frozen_owner -> let k := home H shared_owner id in
  separate (tree_slots H fs id vs k) -> lastings H (stor (host w)) fs id vs (k, 8) ->
  wpf (share_tree ep h fs) [x] w (resq (fun r w' => r = [] /\ tree_handed ep h fs vs uss x owner shared_owner id F w w') (oom w (32 + weigh uss + wcosts fs vs))).
Proof.
  intros No2 k Se Ns. eapply wpf_conseq; [eapply (share_tree_spec ep h fs w x owner id vs uss F); assumption|].
  intros o. destruct o; cbn [resq]; auto. intros (->&Mv). split; [reflexivity|]. apply moved_tree_handed; assumption.
Qed.
Lemma freeze_tree_hands : owner <> frozen_owner -> let k := home H frozen_owner id in
  separate (tree_slots H fs id vs k) -> lastings H (stor (host w)) fs id vs (k, 8) ->
  wpf (freeze_tree ep h fs) [x] w (resq (fun r w' => r = [] /\ tree_handed ep h fs vs uss x owner frozen_owner id F w w') (oom w (32 + weigh uss + wcosts fs vs))).
Proof.
  intros No2 k Se Ns. eapply wpf_conseq; [eapply (freeze_tree_spec ep h fs w x owner id vs uss F); assumption|].
  intros o. destruct o; cbn [resq]; auto. intros (->&Mv). split; [reflexivity|]. apply moved_tree_handed; assumption.
Qed.
End Moves.

Section Shared.
Variables (ep : errtab) (h : Z) (fs : list shape) (w : world) (x id : Z) (vs : list val) (F : mset).
Hypotheses (Hw : wok w) (He : errtab_ok ep) (St : statics w) (Tr : tree_at (mem w) fs shared_owner id vs x F) (SF : sub F (heap w)).
Lemma shared_tree_transfer : forall rp, exists w', returns (transfer_tree ep h fs) [x; rp] w [] w' /\ aborted ep SharedObjectsCannotBeTransferred w w'.
Proof. intros rp. eexists. split; [eapply transfer_tree_shared; eassumption|apply aborted_store; exact He]. Qed.
Lemma shared_tree_freeze : exists w', returns (freeze_tree ep h fs) [x] w [] w' /\ aborted ep SharedObjectsCannotBeFrozen w w'.
Proof. eexists. split; [eapply (freeze_tree_settled ep h fs w x shared_owner); [exact Hw|exact St|exact Tr|exact SF|auto]|apply aborted_store; exact He]. Qed.
Lemma shared_tree_share : returns (share_tree ep h fs) [x] w [] w.
Proof. apply (share_tree_settled ep h fs w x shared_owner id vs F Hw St Tr SF). auto. Qed.
End Shared.
