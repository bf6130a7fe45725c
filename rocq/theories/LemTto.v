(** * Saving an object into which other objects have been put: runtime/storage.rs 1618-1708. *)

From Verif Require Import Tac RtAlloc RtErr RtInt RtInt2 RtEq RtMul RtDiv RtShift RtSwap RtAscii RtCopy RtCopy2 Ops SpecAbi LemAbi SpecVal LemVal SpecStor SpecLayout RtStor LemStor RtEnumPos RtStore LemStore RtSave RtLoad RtLoadObj LemPlace LemObj RtChild LemDelete RtDelete SpecMove RtTransfer RtCache LemMove SpecWrap RtWrap SpecTto RtTto.
Ltac Zify.zify_post_hook ::= idtac.

(** runtime/storage.rs 1618-1708 [cache_storage_object_changes] for an object with objects inside.  Locals: 0 struct_ptr_ref,
    1 struct_ptr, 2 slot_ptr. *)
Definition cache_tree (ep : errtab) (h : Z) (fs : list shape) : func := Func 1 2 0
 [ LocalGet 0; Load 4 0; LocalTee 1; Call locate_struct_slot;
   LocalGet 1; Call get_struct_owner; Const 32; Call is_zero;
   If 0 []
     [ Const 32; Call alloc; LocalTee 2; Const A_OBJ_SLOT; Const 32; MemCopy;
       LocalGet 1; Call (check_tree ep fs);
       LocalGet 1; LocalGet 2; Call (save_tree ep h fs) ] ].
(** For an object without objects inside, this is the function of RtCache.v. *)
Lemma cache_tree_flat : forall ep h fs, cache_tree ep h (map Value fs) = cache_object ep h fs.
Proof. intros. unfold cache_tree. rewrite check_tree_flat, save_tree_flat. reflexivity. Qed.

(** ** Where an object is stored does not depend on the owners noted inside *)

Definition owner_free (s : shape) : Prop := forall H st parent q v p,
  (contains H st s parent (settled s q v) p -> contains H st s parent v p) /\ (lasting H st s parent v p -> lasting H st s parent (settled s q v) p) /\
  reach H s parent (settled s q v) p = reach H s parent v p /\ wcost s (settled s q v) = wcost s v.
Lemma owner_free_fields : forall fs, Forall owner_free fs -> forall H st parent q vs p,
  (contents H st fs parent (all_settled fs q vs) p -> contents H st fs parent vs p) /\ (lastings H st fs parent vs p -> lastings H st fs parent (all_settled fs q vs) p) /\
  reaches H fs parent (all_settled fs q vs) p = reaches H fs parent vs p /\ wcosts fs (all_settled fs q vs) = wcosts fs vs.
Proof.
  intros fs F. induction F as [|s fs Hs _ IH]; intros H st parent q vs p; destruct vs as [|v vs]; try (unfold contents, lastings, reaches, wcosts, all_settled; cbn; auto; fail).
  unfold contents, lastings, reaches, wcosts, all_settled. cbn [map adopt_all along gather sums].
  destruct (Hs H st parent q v p) as (A1&A2&A3&A4). destruct (IH H st parent q vs (after (slot_ty s) p)) as (B1&B2&B3&B4).
  unfold contents, lastings, reaches, wcosts, all_settled in B1, B2, B3, B4. rewrite A3, A4, B3, B4. split; [|split; [|auto]]; intros (X&Y); auto.
Qed.
Lemma owner_free_all : forall s, owner_free s.
Proof.
  apply shape_rec'.
  - intros t H st parent q v p. cbn [settled]. auto.
  - intros h fs IH H st parent q v p.
    destruct v as [n|l|o [|[i| | |] vs]|g l]; cbn [settled]; auto.
    destruct (owner_free_fields fs IH H st i i vs (home H parent i, 8)) as (A1&A2&A3&A4).
    unfold VObj. cbn [contains lasting reach wcost]. fold (all_settled fs i vs). split; [|split; [exact A2|split]].
    + intros (o'&id&us&E&B&C&D). unfold VObj in E. assert (E1 : i = id) by congruence. assert (E2 : all_settled fs i vs = us) by congruence. exists o, i, vs. split; [reflexivity|]. subst id. split; [exact B|]. split; [exact C|]. apply A1. rewrite E2. exact D.
    + cbv zeta. f_equal. exact A3.
    + f_equal; auto.
  - intros fs IH H st parent q v p.
    destruct v as [n|l|o vs|g l]; cbn [settled]; auto.
    destruct (owner_free_fields fs IH H st parent q vs p) as (A1&A2&A3&A4).
    cbn [contains lasting reach wcost]. fold (all_settled fs q vs). split; [|split; [exact A2|split; [exact A3|auto]]].
    intros (us&E&D). assert (E1 : o = 0) by congruence. assert (E2 : all_settled fs q vs = us) by congruence. exists vs. split; [congruence|]. apply A1. rewrite E2. exact D.
Qed.
Lemma owner_frees : forall fs H st parent q vs p,
  (contents H st fs parent (all_settled fs q vs) p -> contents H st fs parent vs p) /\ (lastings H st fs parent vs p -> lastings H st fs parent (all_settled fs q vs) p) /\
  reaches H fs parent (all_settled fs q vs) p = reaches H fs parent vs p /\ wcosts fs (all_settled fs q vs) = wcosts fs vs.
Proof. intros fs. apply owner_free_fields. apply Forall_forall. intros. apply owner_free_all. Qed.

Definition lasting_less_ok (s : shape) : Prop := forall H st st' parent v p, (forall x, st' x = 0 \/ st' x = st x) -> lasting H st s parent v p -> lasting H st' s parent v p.
Lemma lastings_less' : forall fs, Forall lasting_less_ok fs -> forall H st st' parent vs p, (forall x, st' x = 0 \/ st' x = st x) -> lastings H st fs parent vs p -> lastings H st' fs parent vs p.
Proof.
  intros fs F. induction F as [|s fs Hs _ IH]; intros H st st' parent vs p L A; destruct vs as [|v vs]; unfold lastings in *; cbn [map along] in *; auto.
  destruct A as (A1&A2). split; [eapply Hs; eassumption|]. eapply IH; eassumption.
Qed.
Lemma lasting_less : forall s, lasting_less_ok s.
Proof.
  apply shape_rec'.
  - intros t H st st' parent v p L A. cbn [lasting] in *. eapply no_shrink_less; eassumption.
  - intros h fs IH H st st' parent v p L A. cbn [lasting] in *. destruct v as [n|l|o [|[i| | |] vs]|g l]; auto. eapply (lastings_less' fs IH); eassumption.
  - intros fs IH H st st' parent v p L A. cbn [lasting] in *. destruct v as [n|l|o vs|g l]; auto. eapply (lastings_less' fs IH); eassumption.
Qed.
Lemma lastings_less : forall fs H st st' parent vs p, (forall x, st' x = 0 \/ st' x = st x) -> lastings H st fs parent vs p -> lastings H st' fs parent vs p.
Proof. intros fs. apply lastings_less'. apply Forall_forall. intros. apply lasting_less. Qed.

Lemma cache_tree_spec : forall ep h fs w q owner id vs F uss, wok w -> errtab_ok ep -> statics w -> 468 <= q -> q + 4 <= gnext w ->
  tree_at (mem w) fs owner id vs (load 4 (mem w) q) F -> sub F (heap w) -> forallb sound fs = true -> forallb direct fs = true -> 0 <= h < 2 ^ 64 -> owner <> 0 ->
  let H := keccak (host w) in let k := home H owner id in let C := formers H (all_arrivals fs id vs) uss in
  Forall2 (was_there H (stor (host w))) (all_arrivals fs id vs) uss -> separate C ->
  separate (tree_slots H fs id vs k) -> lastings H (stor (host w)) fs id vs (k, 8) ->
  wpf (cache_tree ep h fs) [q] w (resq (fun r w' => r = [] /\ grows (tto_mem F) w w' /\ gnext w' <= gnext w + (32 + weigh uss + wcosts fs vs) /\
     stor (host w') k mod 2 ^ 64 = bswap 8 h /\ contents H (stor (host w')) fs id vs (k, 8) /\
     (forall y, covers C y -> ~ covers (tree_slots H fs id vs k) y -> stor (host w') y = 0) /\
     (forall y, ~ covers C y -> ~ covers (tree_slots H fs id vs k) y -> stor (host w') y = stor (host w) y)) (nomem w (32 + weigh uss + wcosts fs vs))).
Proof.
  intros ep h fs w q owner id vs F uss Hw He St Hq Hq2 Ob SF So Di Hh E0 H k C Was Se Sp Ns. pose proof Hw as (P1&P2&P3&P4&P5&P6). pose proof St as (Z0&Z1&Z2&Z3&Z4).
  set (x := load 4 (mem w) q) in *. pose proof (tree_placed w fs owner id vs x F Ob SF) as (X1&X2&Lo&Pt). cbv zeta in Pt. destruct Pt as (A1&A2&B1&B2&C1&C2&Li).
  pose proof (wcosts_nonneg fs vs) as Cn. pose proof (weigh_nonneg uss) as Un.
  assert (Rx : 0 <= x < 2 ^ 32) by (apply (load_range 4)).
  destruct (locate_struct_slot_spec w x Hw Z2) as (m1&R1&V1&F1); try (unfold live, id_ptr; lia). unfold id_ptr in V1. rewrite Lo, Li in V1.
  change (slot_of (host w) owner id) with k in V1. set (w1 := set_mem w m1) in *.
  assert (G1 : grows (tto_mem F) w w1).
  { apply grows_set_mem; [exact Hw| |]; unfold tto_mem, slot_mem, within; [|intros a [Y|[Y|Y]]; try lia; apply SF in Y; unfold heap, between in Y; lia]. intros a Ha. apply F1; unfold within; intros Y; apply Ha; lia. }
  assert (Keep : forall w', grows (fun y => slot_mem 128 y \/ within 404 64 y) w w' -> tree_at (mem w') fs owner id vs x F /\ sub F (heap w')).
  { intros w' Gw. split; [|eapply heap_grows; eassumption]. eapply tree_ext; [|exact Ob]. intros y Hy. pose proof (SF y Hy) as B. unfold heap, between in B. destruct Gw as (_&_&_&_&_&_&Gw). apply Gw; [lia|]. unfold slot_mem, within. lia. }
  assert (G1' : grows (fun y => slot_mem 128 y \/ within 404 64 y) w w1).
  { apply grows_set_mem; [exact Hw| |]; unfold slot_mem, within; [|intros; lia]. intros a Ha. apply F1; unfold within; intros Y; apply Ha; lia. }
  assert (Hw1 : wok w1) by apply G1. destruct (Keep w1 G1') as (Ob1&SF1).
  assert (Lo1 : load_be 32 (mem w1) (x - 32) = owner).
  { pose proof (tree_placed w1 fs owner id vs x F Ob1 SF1) as (_&_&L&_). exact L. }
  apply wpf_intro; [reflexivity|]. wc. ws1. ws1. fold x. ws1.
  eapply wp_call; [reflexivity|cbn [List.length]; lia|]. wc. eapply returns_wpf; [exact R1|]. wc. fold w1.
  ws1. eapply wp_call; [reflexivity|cbn [List.length]; lia|]. wc. eapply returns_wpf; [apply owner_spec; lia|]. wc. ws1.
  assert (Gn1 : gnext w1 = gnext w) by reflexivity. assert (Pg1 : pages w1 = pages w) by reflexivity.
  eapply wp_call; [reflexivity|cbn [List.length]; lia|]. wc. eapply returns_wpf; [apply is_zero_be; [exact Hw1|unfold live; lia]|]. wc. rewrite Lo1, (proj2 (Z.eqb_neq owner 0) E0).
  apply wp_if; intros Cb; unb Cb; [discriminate Cb|]. clear Cb.
  ws1. eapply wp_call_spec; [reflexivity|cbn [List.length]; lia|wc; apply alloc_spec; [exact Hw1|lia]| |].
  { intros O. wc. unfold nomem, oom in *. change (maxpages w1) with (maxpages w) in O. lia. }
  intros rs w2 (->&(Hw2&M2&X2'&Pg2&Gn2&Gc2&Hh2)). wc. rewrite Gn1 in *. set (p := gnext w). unfold A_OBJ_SLOT. ws1. ws1. ws1.
  pose proof Hw2 as (Y1&Y2&Y3&Y4&Y5&Y6). ws1.
  set (w3 := set_mem w2 _).
  assert (O3 : forall y, ~ within p 32 y -> rd (mem w3) y = rd (mem w1) y).
  { intros y Hy. cbn [w3 mem set_mem]. rewrite rd_mcopy_frame by exact Hy. rewrite M2. reflexivity. }
  assert (G3 : grows (fun y => slot_mem 128 y \/ within 404 64 y) w w3).
  { eapply grows_trans; [exact G1'|]. split; [|split; [exact X2'|split; [exact Pg2|split; [cbn [w3 gnext set_mem]; lia|split; [exact Gc2|split; [cbn [w3 host set_mem]; rewrite Hh2; symmetry; apply set_stor_same|]]]]]].
    - apply wok_set_mem; [exact Hw2|]. intros y Hy. apply rd_mcopy_frame. unfold within. lia.
    - intros a Ha _. apply O3. unfold within. lia. }
  assert (Hw3 : wok w3) by apply G3. destruct (Keep w3 G3) as (Ob3&SF3).
  assert (G3t : grows (tto_mem F) w w3) by (eapply grows_mono; [exact G3|]; intros y _ [Y|Y]; unfold tto_mem; auto).
  pose proof (statics_tto w w3 F St Hw SF G3t) as St3.
  assert (Gn3 : gnext w3 = p + 32) by (cbn [w3 gnext set_mem]; lia).
  assert (Vp : load_be 32 (mem w3) p = k).
  { rewrite <- V1. change m1 with (mem w1). rewrite <- M2. apply load_be_ext. intros i Hi. change (Z.of_nat 32) with 32 in Hi. cbn [w3 mem set_mem]. rewrite rd_mcopy_in by lia. f_equal. lia. }
  assert (Hs3 : host w3 = host w) by (cbn [w3 host set_mem]; rewrite Hh2; reflexivity).
  assert (Mp3 : maxpages w3 = maxpages w) by (apply G3).
  ws1. eapply wp_call_spec; [reflexivity|cbn [List.length]; lia|wc; eapply (check_tree_spec ep fs w3 x owner id vs F uss); try assumption| |].
  { rewrite Hs3. exact Was. }
  { rewrite Hs3. exact Se. }
  { intros (N1&N2). wc. unfold nomem, oom in *. rewrite Mp3, Gn3 in N2. unfold p in N2. lia. }
  rewrite Hs3. fold H C. intros rs w4 (->&Cl&Tr4). wc. pose proof Cl as (G4&Gn4&Cz&Cs). rewrite Hs3 in Cs. ws1. ws1.
  assert (EH : keccak (host w4) = H) by (rewrite (keccak_grows _ _ _ G4), Hs3; reflexivity).
  pose proof (statics_tto w3 w4 F St3 Hw3 SF3 G4) as (S0&S1&S2&_).
  assert (Mp4 : maxpages w4 = maxpages w) by (destruct G4 as (_&G4&_); congruence).
  assert (Np : disj F (between p (p + 32))) by (intros y Hy Y; apply SF in Hy; unfold heap, between in *; unfold p in Y; lia).
  assert (B4 : gnext w3 <= gnext w4) by (destruct G4 as (_&_&_&B&_); exact B).
  destruct (owner_frees fs H (stor (host w4)) id id vs (k, 8)) as (OF1&OF2&OF3&OF4).
  assert (Ts : tree_slots H fs id (all_settled fs id vs) k = tree_slots H fs id vs k) by (unfold tree_slots; rewrite OF3; reflexivity).
  eapply wp_call_spec; [reflexivity|cbn [List.length]; lia|wc; eapply (save_tree_spec ep h fs w4 x p owner id (all_settled fs id vs) F k); try assumption| |].
  - split; [apply G4|]. split; [exact He|]. split; [exact S1|]. unfold p in *. lia.
  - split; [exact S0|exact S2].
  - rewrite <- Vp. apply (load_be_grows 32 (tto_mem F) w3 w4 p G4); [unfold p; lia|change (Z.of_nat 32) with 32; lia|]. change (Z.of_nat 32) with 32. intros y Hy [Y|[Y|Y]]; [unfold slot_mem, within, p in *; lia|unfold within, p in *; lia|]. apply (Np y Y). unfold between. lia.
  - eapply heap_grows; eassumption.
  - rewrite EH, Ts. exact Sp.
  - rewrite EH. apply OF2. eapply lastings_less; [|exact Ns]. intros y. destruct (covers_dec C y) as [Y|Y]; [left; auto|right; auto].
  - rewrite OF4. intros (N1&N2). wc. unfold nomem, oom in *. rewrite Mp4 in N2. unfold p in Gn3. lia.
  - rewrite EH, OF4, Ts. intros rs w5 (->&G5&N5&T5&H5&U5). wc. apply wp_nil. wc. ws1. split; [reflexivity|].
    assert (G04 : grows (tto_mem F) w w4) by (eapply grows_trans; eassumption). destruct (owner_frees fs H (stor (host w5)) id id vs (k, 8)) as (OG1&_).
    split; [|split; [unfold p in *; lia|split; [exact T5|split; [apply OG1; exact H5|split]]]].
    + destruct G04 as (K1&K2&K3&K4&K5&K6&K7). destruct G5 as (J1&J2&J3&J4&J5&J6&J7). split; [exact J1|]. split; [congruence|]. split; [lia|]. split; [lia|]. split; [congruence|]. split; [rewrite J6 at 1; rewrite K6 at 1; reflexivity|].
      intros a Ha Na. rewrite J7, K7; [reflexivity|exact Ha|exact Na|lia|]. intros [[Y|Y]|Y]; [apply Na; left; left; exact Y|unfold within, p in Y; lia|apply Na; right; left; exact Y].
    + intros y Yc Yt. rewrite U5 by exact Yt. apply Cz. exact Yc.
    + intros y Yc Yt. rewrite U5 by exact Yt. apply Cs. exact Yc.
Qed.
