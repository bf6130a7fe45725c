(** * Reading objects of other accounts (proof). *)

From Verif Require Import Tac RtAlloc RtErr RtSwap RtCopy SpecAbi SpecVal LemVal SpecStor SpecLayout RtStor LemStore RtSave RtLoad RtLoadObj LemPlace LemObj SpecDyn RtChild RtCall SpecMove SpecCache RtCache LemCache RtPeep.
Ltac Zify.zify_post_hook ::= idtac.

Lemma peep_seen : forall ep h st a, up_to_date h st a -> a_owner a <> 0 -> 0 < a_hash a < 2 ^ 64 -> legible (keccak h) (a_types a) (a_vals a) (a_slot h a) ->
  Forall (fun s => snd s < 2 ^ 256) (a_slots h a) -> object_memory (a_types a) (a_vals a) < 2 ^ 31 ->
  forall w p u c, wok w -> errtab_ok ep -> statics w -> abort_flag w = 0 -> keccak (host w) = keccak h -> stor (host w) = st ->
    468 <= p -> p + 32 <= gnext w -> load_be 32 (mem w) p = a_owner a -> uid_at w u c -> load_be 32 (mem w) c = a_id a ->
    wpf (native_peep ep (a_hash a) (a_types a)) [p; u] w (resq (fun r w' => exists q F, r = [q] /\ host w' = host w /\ abort_flag w' = 0 /\
       (forall y, 468 <= y < gnext w -> rd (mem w') y = rd (mem w) y) /\ gnext w <= q /\ live w' q 4 /\
       object_at (mem w') (a_types a) (a_owner a) (a_id a) (a_vals a) (load 4 (mem w') q) F /\ sub F (heap w'))
     (ctrap w (existsb narrow (a_types a)) (36 + object_memory (a_types a) (a_vals a)))).
Proof.
  intros ep h st a U N Hh Pl Sl Mm w p u c Hw He St Ab Ek Es Hp1 Hp2 Lp Uc Lc. destruct (U N) as (U1&U2).
  unfold a_slots, slots_under in Sl. rewrite (proj2 (Z.eqb_neq _ _) N) in Sl.
  assert (Ks : slot_of (host w) (a_owner a) (a_id a) = a_slot h a) by (unfold a_slot, slot_of, hash; rewrite Ek; reflexivity).
  eapply wpf_conseq; [eapply (peep_ok ep (a_hash a) (a_types a) w p u c (a_vals a)); try assumption; try lia; rewrite ?Lp, ?Lc, ?Ks, ?Ek, ?Es; try assumption; apply inspect_saved; assumption|].
  intros o. destruct o; cbn [resq]; auto. rewrite Lp, Lc. intros (q&F&->&Eh&A0&G&L&Gq&Ob&SF). exists q, F.
  split; [reflexivity|]. split; [exact Eh|]. split; [exact A0|]. split; [|tauto].
  intros y Hy. apply G; [lia|]. unfold child_mem, within. lia.
Qed.
