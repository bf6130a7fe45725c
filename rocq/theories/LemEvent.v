(** * Event logs. *)

From Verif Require Import Tac RtAlloc RtErr RtEq RtDiv RtShift RtSwap RtAscii Ops SpecVal LemVal SpecAbi RtCopy SpecSol RtPack RtPack2 SpecEvent RtEvent RtEmit RtEmit2.
Ltac Zify.zify_post_hook ::= idtac.

Theorem event_log : forall ep e w X vs ds, event_ok e -> wok w -> abort_flag w = 0 -> List.length vs = List.length (e_indexed e) ->
  vrep (mem w) (event_ty e) (VStruct 0 (vs ++ ds)) X (heap w) -> fold_right and True (map nonempty vs) -> event_cost e vs ds < 2147483648 ->
  (exists w', returns (emit ep e) [X] w [] w' /\
     host w' = set_logs (host w) (log_of (keccak (host w)) e vs ds :: h_logs (host w)) /\
     wok w' /\ abort_flag w' = 0 /\ (forall a, 0 <= a < gnext w -> rd (mem w') a = rd (mem w) a)) \/
  (traps (emit ep e) [X] w /\ emit_traps w e (event_cost e vs ds)).
Proof.
  intros ep e w X vs ds H1 H2 H3 H4 H5 H6 H7.
  destruct (wpf_cases _ _ _ _ _ (emit_spec ep e w X vs ds H1 H2 H3 H4 H5 H6 H7)) as [(rs&w'&R&->&w1&E&G&->)|T]; [left|right; exact T].
  eexists. split; [exact R|]. split; [reflexivity|]. destruct E as (E1&_&_&_&_&_&E7).
  split; [exact E1|]. cbn [mem set_host]. split; [|exact E7]. rewrite <- H3. unfold abort_flag. cbn [mem set_host]. apply load_ext. change (Z.of_nat 4) with 4. intros. apply E7.
  destruct H2 as (_&_&P&_). lia.
Qed.
