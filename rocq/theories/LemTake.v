(** * Objects as arguments: the object an id stands for. *)

From Verif Require Import Tac RtAlloc RtErr RtInt RtInt2 RtSwap RtCopy SpecAbi SpecVal LemVal SpecStor SpecLayout RtStor LemStor RtStore LemStore RtSave RtLoad RtLoadObj LemPlace LemObj RtChild SpecMove SpecCache RtPeep SpecTake RtAbi RtTake.
Ltac Zify.zify_post_hook ::= idtac.

Lemma holder_only : forall h os id o, In o os -> stored h o id <> 0 -> (forall o', In o' os -> o' <> o -> stored h o' id = 0) -> holder h os id = Some o.
Proof.
  unfold holder. intros h os id o. induction os as [|o1 os IH]; intros I N U; [contradiction|]. cbn [find].
  destruct (Z.eq_dec o1 o) as [->|D].
  - destruct (Z.eqb_spec (stored h o id) 0); [contradiction|reflexivity].
  - rewrite (U o1 (or_introl eq_refl) D). cbn [Z.eqb negb]. apply IH; [destruct I; [contradiction|assumption]|exact N|]. intros o' I' D'. apply U; [right; exact I'|exact D'].
Qed.

Lemma holder_none : forall h os id, (forall o, In o os -> stored h o id = 0) -> holder h os id = None.
Proof.
  unfold holder. intros h os id. induction os as [|o1 os IH]; intros U; [reflexivity|]. cbn [find]. rewrite (U o1 (or_introl eq_refl)). cbn [Z.eqb negb]. apply IH. intros o I. apply U. right. exact I.
Qed.

Lemma take_seen : forall ep kind imm w r a, up_to_date (host w) (stor (host w)) a -> a_owner a <> 0 -> 0 < a_hash a < 2 ^ 64 ->
  legible (keccak (host w)) (a_types a) (a_vals a) (a_slot (host w) a) ->
  Forall (fun s => snd s < 2 ^ 256) (a_slots (host w) a) -> object_memory (a_types a) (a_vals a) < 2 ^ 31 ->
  wok w -> errtab_ok ep -> statics w -> abort_flag w = 0 -> live w r 32 -> load_be 32 (mem w) r = a_id a ->
  In (a_owner a) (searched (host w) kind imm) -> (forall o, In o (searched (host w) kind imm) -> o <> a_owner a -> stored (host w) o (a_id a) = 0) ->
  wpf (take_object ep (a_hash a) (a_types a) kind imm) [r] w (resq (fun rs w' => exists x F, rs = [x] /\ host w' = host w /\ abort_flag w' = 0 /\ gcd w' = r + 32 /\
     (forall y, 468 <= y < gnext w -> rd (mem w') y = rd (mem w) y) /\ object_at (mem w') (a_types a) (a_owner a) (a_id a) (a_vals a) x F /\ sub F (heap w'))
   (ctrap w (existsb narrow (a_types a)) (64 + object_memory (a_types a) (a_vals a)))).
Proof.
  intros ep kind imm w r a U N Hh Pl Sl Mm Hw He St Ab Lr Lb I Un. destruct (U N) as (U1&U2).
  unfold a_slots, slots_under in Sl. rewrite (proj2 (Z.eqb_neq _ _) N) in Sl. unfold a_slot in *.
  assert (In' : inspect (bswap 8 (a_hash a)) (stor (host w) (slot_of (host w) (a_owner a) (a_id a))) = Present) by (apply inspect_saved; assumption).
  assert (Nz : stored (host w) (a_owner a) (a_id a) <> 0).
  { unfold stored. intros C. unfold inspect in In'. rewrite C in In'. discriminate. }
  assert (Hd := holder_only _ _ _ _ I Nz Un).
  eapply wpf_conseq; [apply (take_ok ep (a_hash a) (a_types a) kind imm w r (a_vals a) (a_owner a)); try assumption; rewrite ?Lb; try assumption; lia|].
  intros oo. destruct oo; cbn [resq]; auto. rewrite Lb. intros (x&F&->&Eh&A0&G&Gr&Ob&SF). exists x, F.
  split; [reflexivity|]. split; [exact Eh|]. split; [exact A0|]. split; [exact G|]. split; [|tauto].
  intros y Hy. apply Gr; [change (gnext (set_gcd w (r + 32))) with (gnext w); lia|]. unfold take_mem, scratch, within. lia.
Qed.

Lemma take_not_found : forall ep h fs kind imm w r, wok w -> errtab_ok ep -> statics w -> abort_flag w = 0 -> live w r 32 -> 0 <= h < 2 ^ 64 ->
  (forall o, In o (searched (host w) kind imm) -> stored (host w) o (load_be 32 (mem w) r) = 0) ->
  wpf (take_object ep h fs kind imm) [r] w (resq (fun rs w' => abort_flag w' = ep StorageObjectNotFound /\ host w' = host w) (oom w 96)).
Proof.
  intros ep h fs kind imm w r Hw He St Ab Lr Hh U.
  eapply wpf_conseq; [apply (take_err ep h fs kind imm w r StorageObjectNotFound); try assumption; rewrite (holder_none _ _ _ U); reflexivity|].
  intros oo. destruct oo; cbn [resq]; tauto.
Qed.

Lemma take_other_type : forall ep h fs kind imm w r, wok w -> errtab_ok ep -> statics w -> abort_flag w = 0 -> live w r 32 -> 0 <= h < 2 ^ 64 ->
  (exists o, In o (searched (host w) kind imm) /\ stored (host w) o (load_be 32 (mem w) r) <> 0) ->
  (forall o, In o (searched (host w) kind imm) -> stored (host w) o (load_be 32 (mem w) r) <> 0 -> stored (host w) o (load_be 32 (mem w) r) mod 2 ^ 64 <> bswap 8 h) ->
  wpf (take_object ep h fs kind imm) [r] w (resq (fun rs w' => abort_flag w' = ep StorageObjectTypeMismatch /\ host w' = host w) (oom w 96)).
Proof.
  intros ep h fs kind imm w r Hw He St Ab Lr Hh (o&I&N) U.
  destruct (holder (host w) (searched (host w) kind imm) (load_be 32 (mem w) r)) as [o'|] eqn:Hd.
  2:{ unfold holder in Hd. pose proof (find_none _ _ Hd o I) as C. cbv beta in C. rewrite (proj2 (Z.eqb_neq _ _) N) in C. cbn [negb] in C. congruence. }
  destruct (holder_in _ _ _ _ Hd) as (I'&N').
  eapply wpf_conseq; [apply (take_err ep h fs kind imm w r StorageObjectTypeMismatch); try assumption; rewrite Hd; split; [|reflexivity]|].
  - specialize (U o' I' N'). unfold stored in *. unfold inspect. rewrite (proj2 (Z.eqb_neq _ _) N').
    rewrite <- (Znumtheory.Zmod_div_mod (2 ^ 64) (2 ^ 256)) in U by (try lia; exists (2 ^ 192); reflexivity).
    rewrite (proj2 (Z.eqb_neq _ _) U). reflexivity.
  - intros oo. destruct oo; cbn [resq]; tauto.
Qed.
