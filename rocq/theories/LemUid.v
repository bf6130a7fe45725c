(** * Ids that come from types (proofs). *)

From Coq Require Import String.
From Verif Require Import Tac RtAlloc RtErr RtSwap RtCopy SpecAbi SpecVal SpecStor RtStor SpecDyn RtChild Comp RtUid.
Ltac Zify.zify_post_hook ::= idtac.

Lemma ascii_bytes_inj : forall s t, ascii_bytes s = ascii_bytes t -> s = t.
Proof.
  induction s as [|a s IH]; intros [|b t] E; cbn [ascii_bytes] in E; try discriminate; [reflexivity|]. injection E as E1 E2.
  f_equal; [|apply IH; exact E2]. apply Nat2Z.inj in E1. rewrite <- (Ascii.ascii_nat_embedding a), <- (Ascii.ascii_nat_embedding b). f_equal. exact E1.
Qed.

Lemma named_id_returns : forall H t w, wok w ->
  (exists p w', returns (compute_named_id H t) [] w [p] w' /\ extends w w' /\ gnext w <= p /\ live w' p 32 /\ load_be 32 (mem w') p = named_id_key H t) \/ oom w 32.
Proof.
  intros H t w Hw. destruct (wpf_cases _ _ _ _ _ (named_id_spec H t w Hw)) as [(vs&w'&R&p&->&X&G&L&E)|(_&O)]; [left; eauto 10|right; exact O].
Qed.

Lemma named_ids : forall H t1 t2 w1 w2, wok w1 -> wok w2 ->
  let n1 := ascii_bytes (s_ident t1) in let n2 := ascii_bytes (s_ident t2) in
  0 <= H n1 < 2 ^ 256 -> 0 <= H n2 < 2 ^ 256 -> (H n1 = H n2 -> n1 = n2) ->
  (exists p1 w1' p2 w2', returns (compute_named_id H t1) [] w1 [p1] w1' /\ extends w1 w1' /\ gnext w1 <= p1 /\ live w1' p1 32 /\
     returns (compute_named_id H t2) [] w2 [p2] w2' /\ extends w2 w2' /\ gnext w2 <= p2 /\ live w2' p2 32 /\
     (load_be 32 (mem w1') p1 = load_be 32 (mem w2') p2 <-> s_ident t1 = s_ident t2)) \/
  oom w1 32 \/ oom w2 32.
Proof.
  intros H t1 t2 w1 w2 Hw1 Hw2 n1 n2 B1 B2 C.
  destruct (named_id_returns H t1 w1 Hw1) as [(p1&w1'&R1&X1&G1&L1&E1)|O]; [|tauto].
  destruct (named_id_returns H t2 w2 Hw2) as [(p2&w2'&R2&X2&G2&L2&E2)|O]; [|tauto].
  left. exists p1, w1', p2, w2'. do 8 (split; [assumption|]). rewrite E1, E2. unfold named_id_key. fold n1 n2. rewrite !Z.mod_small by assumption. split.
  - intros E. apply ascii_bytes_inj. apply C. exact E.
  - intros E. unfold n1, n2. rewrite E. reflexivity.
Qed.

Lemma same_name_same_id : exists t1 t2, t1 <> t2 /\ forall H w, wok w -> ~ oom w 32 ->
  exists p w1 w2, returns (compute_named_id H t1) [] w [p] w1 /\ returns (compute_named_id H t2) [] w [p] w2 /\
    load_be 32 (mem w1) p = load_be 32 (mem w2) p.
Proof.
  exists (StructName 1 "bank" "Vault"), (StructName 2 "shop" "Vault"). split; [discriminate|]. intros H w Hw O.
  destruct (named_id_returns H (StructName 1 "bank" "Vault") w Hw) as [(p&w'&R&_)|X]; [|contradiction].
  exists p, w', w'. split; [exact R|]. split; [exact R|reflexivity].
Qed.

Lemma as_uid_leads : forall u p w, wok w -> uid_at w u p ->
  wpf as_uid [u] w (resq (fun rs w' => exists r, rs = [r] /\ extends w w' /\ live w' r 4 /\ gnext w <= r /\
    load 4 (mem w') r = u /\ uid_at w' (load 4 (mem w') r) p /\ load_be 32 (mem w') p = load_be 32 (mem w) p) (oom w 4)).
Proof.
  intros u p w Hw U. eapply wpf_conseq; [exact (as_uid_spec u p w Hw U)|]. intros o. destruct o; cbn [resq]; auto.
  intros (r&->&X&L&G&E&U'&B). exists r. rewrite E. auto 10.
Qed.
