(** * Objects with objects inside as arguments of entry functions. *)

From Verif Require Import Tac RtAlloc RtErr RtInt RtInt2 RtEq RtMul RtDiv RtShift RtSwap RtAscii RtCopy Ops SpecAbi RtAbi SpecVal LemVal SpecStor SpecLayout RtStor LemStor RtStore LemStore RtSave RtLoad RtLoadObj LemPlace LemObj RtChild SpecMove SpecCache RtPeep SpecWrap RtWrap RtWrapLoad RtWrapObj SpecTto SpecTake RtTake LemTake.
Ltac Zify.zify_post_hook ::= idtac.

Lemma take_tree_ok : forall ep h fs kind imm w r vs o, wok w -> errtab_ok ep -> statics w -> abort_flag w = 0 -> live w r 32 ->
  let H := keccak (host w) in let st := stor (host w) in let id := load_be 32 (mem w) r in let k := slot_of (host w) o id in
  holder (host w) (searched (host w) kind imm) id = Some o -> 0 < h < 2 ^ 64 -> forallb readable fs = true -> st k mod 2 ^ 64 = bswap 8 h ->
  contents H st fs id vs (k, 8) -> Forall (fun a => snd a < 2 ^ 256) (tree_slots H fs id vs k) -> tree_memory fs vs < 2 ^ 31 ->
  wpf (take_tree ep h fs kind imm) [r] w (resq (fun rs w' => exists x F, rs = [x] /\ host w' = host w /\ abort_flag w' = 0 /\ gcd w' = r + 32 /\
     grows take_mem (set_gcd w (r + 32)) w' /\ tree_at (mem w') fs o id (adopts fs id vs) x F /\ sub F (heap w'))
   (ctrap w (existsb thin fs) (64 + tree_memory fs vs))).
Proof.
  intros ep h fs kind imm w r vs o Hw He St Ab Lr H st id k Hd Hh Rd In Ct Sl Mm. pose proof Hw as (P1&P2&P3&P4&P5&P6).
  assert (Om : 0 <= tree_memory fs vs) by (unfold tree_memory; pose proof (tmems_nonneg fs vs); lia).
  apply take_call; try assumption.
  { intros O. left. eapply oom_mono; [exact O|lia]. }
  intros w1 Ex Gn Lb St1 Ab1. fold id in Lb. pose proof Ex as (E1&E2&E3&E4&E5&E6&E7). change (gnext (set_gcd w (r + 32))) with (gnext w) in *. change (host (set_gcd w (r + 32))) with (host w) in *. change (maxpages (set_gcd w (r + 32))) with (maxpages w) in *. change (gcd (set_gcd w (r + 32))) with (r + 32) in *.
  pose proof E1 as (A1&A2&A3&A4&A5&A6).
  eapply take_start; [reflexivity|..]; try assumption; try lia.
  - intros O. left. unfold oom in *. lia.
  - intros w' C. rewrite E6, Lb in C. fold id in C. congruence.
  - rewrite E6, Lb. intros o' w3 po C G3 H3 R3 Ab3 N3 K3 Po1 Po2 Lo Lu. rewrite Hd in C. injection C as <-.
    pose proof R3 as (Hw3&_). pose proof Hw3 as (B1&B2&B3&B4&B5&B6). assert (M3 : maxpages w3 = maxpages w1) by apply G3.
    assert (Z3 : zeros w3).
    { destruct St1 as (S0&_&S2&_). split; [transitivity (load_be 32 (mem w1) 0); [|exact S0]|transitivity (load_be 32 (mem w1) 96); [|exact S2]]; apply load_be_ext; intros i Hi; change (Z.of_nat 32) with 32 in Hi; apply G3; try lia; unfold take_mem, scratch, within; lia. }
    assert (Hst : host w3 = host w) by congruence.
    assert (L := load_tree_spec ep h fs w3 (gnext w1) (gnext w) po k vs). rewrite Hst, Lu in L.
    eapply wpf_conseq; [apply L; try assumption; lia|].
    intros oo. destruct oo as [rs w4| | |]; cbn [resq]; try tauto.
    + intros (x&F&->&Se&G4&Ob&SF). exists x. split; [reflexivity|]. exists x. split; [reflexivity|]. rewrite Lo in Ob. destruct Se as (Gr&Eh). split; [apply Gr|].
      assert (G14 : grows take_mem w1 w4).
      { apply (grows_mono (fun y => take_mem y \/ gnext w1 <= y)); [|intros y Hy [X|X]; [exact X|lia]].
        eapply grows_trans; [eapply grows_mono; [exact G3|auto]|]. eapply grows_mono; [exact Gr|]. intros y Hy. unfold wmem, slot_mem, take_mem, scratch, within. lia. }
      assert (Ab4 : abort_flag w4 = 0).
      { rewrite <- Ab1. unfold abort_flag. apply load_ext. intros j Hj. change (Z.of_nat 4) with 4 in Hj. apply G14; [lia|]. unfold take_mem, scratch, within. lia. }
      rewrite Ab4. exists x, F. split; [reflexivity|]. split; [congruence|]. split; [reflexivity|]. split; [|split; [|split; [exact Ob|]]].
      * assert (gcd w4 = gcd w1) by apply G14. lia.
      * eapply grows_trans; [apply grows_extends; exact Ex|exact G14].
      * intros y Hy. apply SF in Hy. assert (gnext w3 <= gnext w4) by apply Gr. unfold heap, union, between in *. lia.
    + intros [O|(N&y&Y1&Y2)]; [left; unfold oom in *; lia|right; split; [exact N|]]. exists y. lia.
Qed.

Lemma take_tree_seen : forall ep h fs kind imm w r vs o, 0 < h < 2 ^ 64 -> forallb readable fs = true ->
  wok w -> errtab_ok ep -> statics w -> abort_flag w = 0 -> live w r 32 ->
  let H := keccak (host w) in let st := stor (host w) in let id := load_be 32 (mem w) r in let k := slot_of (host w) o id in
  st k mod 2 ^ 64 = bswap 8 h -> contents H st fs id vs (k, 8) -> Forall (fun a => snd a < 2 ^ 256) (tree_slots H fs id vs k) -> tree_memory fs vs < 2 ^ 31 ->
  In o (searched (host w) kind imm) -> (forall o', In o' (searched (host w) kind imm) -> o' <> o -> stored (host w) o' id = 0) ->
  wpf (take_tree ep h fs kind imm) [r] w (resq (fun rs w' => exists x F, rs = [x] /\ host w' = host w /\ abort_flag w' = 0 /\ gcd w' = r + 32 /\
     (forall y, 468 <= y < gnext w -> rd (mem w') y = rd (mem w) y) /\ tree_at (mem w') fs o id (adopts fs id vs) x F /\ sub F (heap w'))
   (ctrap w (existsb thin fs) (64 + tree_memory fs vs))).
Proof.
  intros ep h fs kind imm w r vs o Hh Rd Hw He St Ab Lr H st id k In' Ct Sl Mm I Un.
  assert (Nz : stored (host w) o id <> 0).
  { unfold stored. intros C. pose proof (inspect_saved h (stor (host w) k) Hh In') as D. unfold inspect in D. fold k in C. rewrite C in D. discriminate. }
  assert (Hd := holder_only _ _ _ _ I Nz Un).
  eapply wpf_conseq; [apply (take_tree_ok ep h fs kind imm w r vs o); assumption|].
  intros oo. destruct oo; cbn [resq]; auto. intros (x&F&->&Eh&A0&G&Gr&Ob&SF). exists x, F.
  split; [reflexivity|]. split; [exact Eh|]. split; [exact A0|]. split; [exact G|]. split; [|tauto].
  intros y Hy. apply Gr; [change (gnext (set_gcd w (r + 32))) with (gnext w); lia|]. unfold take_mem, scratch, within. lia.
Qed.

(** An object that is not there, or of another type, whatever is inside. *)
Lemma load_with_err : forall ep h decs w p sid ow k e, ready ep w p -> 0 <= sid < 2 ^ 32 -> 0 <= ow -> ow + 32 <= gnext w -> load_be 32 (mem w) p = k ->
  0 <= h < 2 ^ 64 -> load_error h (stor (host w) k mod 2 ^ 256) = Some e ->
  wpf (load_with ep h decs) [p; sid; ow] w (resq (fun r w' => r = [BADF00D] /\ exists w1, seen (slot_mem p) w w1 /\ aborted ep e w1 w') (oom w 32)).
Proof.
  intros ep h decs w p sid ow k e Rd Hs Ho Ho2 Lp Hh E. pose proof Rd as (Hw&He&H1&Hp&Hp2). pose proof Hw as (P1&P2&P3&P4&P5&P6).
  apply wpf_intro; [reflexivity|]. wc. ws1. ws1. eapply (load_object_start ep w p ow k); try reflexivity; try assumption; [intros O; exact O|].
  intros w1 (S1&G1&Lo&Lk&L64). pose proof (proj1 (proj1 S1)) as Hw1. pose proof Hw1 as (Q1&Q2&Q3&Q4&Q5&Q6). unfold load_error in E.
  destruct (stor (host w) k mod 2 ^ 256 =? 0) eqn:Z0.
  - injection E as <-. apply wp_if; intros C; [|exfalso; cbn in C; lia]. eapply wp_return_error_end; [reflexivity|exact Hw1|]. wc. split; [reflexivity|].
    exists w1. split; [exact S1|apply aborted_store; exact He].
  - apply wp_if; intros C; [exfalso; cbn in C; lia|]. apply wp_nil. wc. unfold A_SLOT_DATA. ws1. apply wp_load; [lia|unfold page_size; lia|]. ws1. ws1.
    assert (El : bswap 8 (load 8 (mem w1) (64 + 24)) = stor (host w) k mod 2 ^ 256 mod 2 ^ 64) by (rewrite bswap_load, low8, L64; reflexivity).
    destruct (Z.eqb_spec (stor (host w) k mod 2 ^ 256 mod 2 ^ 64) (bswap 8 h)) as [X|X]; [discriminate|]. injection E as <-.
    apply wp_if; intros C2.
    + exfalso. apply X. rewrite <- El. f_equal. destruct (load 8 (mem w1) (64 + 24) =? h) eqn:Y; [lia|cbn in C2; lia].
    + eapply wp_return_error_end; [reflexivity|exact Hw1|]. wc. split; [reflexivity|]. exists w1. split; [exact S1|apply aborted_store; exact He].
Qed.

Lemma take_tree_err : forall ep h fs kind imm w r e, wok w -> errtab_ok ep -> statics w -> abort_flag w = 0 -> live w r 32 ->
  let st := stor (host w) in let id := load_be 32 (mem w) r in 0 <= h < 2 ^ 64 ->
  match holder (host w) (searched (host w) kind imm) id with
  | None => e = StorageObjectNotFound
  | Some o => load_error h (st (slot_of (host w) o id) mod 2 ^ 256) = Some e
  end ->
  wpf (take_tree ep h fs kind imm) [r] w (resq (fun rs w' => rs = [BADF00D] /\ abort_flag w' = ep e /\ host w' = host w) (oom w 96)).
Proof.
  intros ep h fs kind imm w r e Hw He St Ab Lr st id Hh C. pose proof Hw as (P1&P2&P3&P4&P5&P6).
  apply take_call; try assumption.
  { intros O. eapply oom_mono; [exact O|lia]. }
  intros w1 Ex Gn Lb St1 Ab1. fold id in Lb. pose proof Ex as (E1&E2&E3&E4&E5&E6&E7). change (gnext (set_gcd w (r + 32))) with (gnext w) in *. change (host (set_gcd w (r + 32))) with (host w) in *. change (maxpages (set_gcd w (r + 32))) with (maxpages w) in *. change (gcd (set_gcd w (r + 32))) with (r + 32) in *.
  assert (Nz : ep e <> 0) by (specialize (He e); lia).
  eapply take_start; [reflexivity|..]; try assumption; try lia.
  - unfold oom. lia.
  - rewrite E6, Lb. intros w' D Hw' Af Eh. rewrite D in C. subst e. exists BADF00D. split; [reflexivity|]. split; [exact Hw'|]. rewrite Af. destruct (Z.eqb_spec (ep StorageObjectNotFound) 0); [contradiction|]. tauto.
  - rewrite E6, Lb. intros o' w3 po D G3 H3 R3 Ab3 N3 K3 Po1 Po2 Lo Lu. rewrite D in C.
    pose proof R3 as (Hw3&_). pose proof Hw3 as (B1&B2&B3&B4&B5&B6). assert (M3 : maxpages w3 = maxpages w1) by apply G3.
    eapply wpf_conseq; [eapply (load_with_err ep h _ w3 (gnext w1) (gnext w) po (slot_of (host w) o' id)); try assumption; rewrite ?H3, ?E6; try eassumption; lia|].
    intros oo. destruct oo as [rs w4| | |]; cbn [resq]; try tauto.
    + intros (->&w2&Se&Fr&Af). exists BADF00D. split; [reflexivity|]. exists BADF00D. split; [reflexivity|]. split; [|].
      * eapply wok_frame; [apply Se|exact Fr|]. intros a X. assert (468 <= gnext w2) by apply Se. unfold within in X. lia.
      * rewrite Af. destruct (Z.eqb_spec (ep e) 0); [contradiction|]. split; [reflexivity|]. split; [reflexivity|].
        transitivity (host w2); [apply Fr|]. transitivity (host w3); [apply Se|congruence].
    + unfold oom. lia.
Qed.

Lemma take_tree_not_found : forall ep h fs kind imm w r, wok w -> errtab_ok ep -> statics w -> abort_flag w = 0 -> live w r 32 -> 0 <= h < 2 ^ 64 ->
  (forall o, In o (searched (host w) kind imm) -> stored (host w) o (load_be 32 (mem w) r) = 0) ->
  wpf (take_tree ep h fs kind imm) [r] w (resq (fun rs w' => abort_flag w' = ep StorageObjectNotFound /\ host w' = host w) (oom w 96)).
Proof.
  intros ep h fs kind imm w r Hw He St Ab Lr Hh U.
  eapply wpf_conseq; [apply (take_tree_err ep h fs kind imm w r StorageObjectNotFound); try assumption; rewrite (holder_none _ _ _ U); reflexivity|].
  intros oo. destruct oo; cbn [resq]; tauto.
Qed.

Lemma take_tree_other_type : forall ep h fs kind imm w r, wok w -> errtab_ok ep -> statics w -> abort_flag w = 0 -> live w r 32 -> 0 <= h < 2 ^ 64 ->
  (exists o, In o (searched (host w) kind imm) /\ stored (host w) o (load_be 32 (mem w) r) <> 0) ->
  (forall o, In o (searched (host w) kind imm) -> stored (host w) o (load_be 32 (mem w) r) <> 0 -> stored (host w) o (load_be 32 (mem w) r) mod 2 ^ 64 <> bswap 8 h) ->
  wpf (take_tree ep h fs kind imm) [r] w (resq (fun rs w' => abort_flag w' = ep StorageObjectTypeMismatch /\ host w' = host w) (oom w 96)).
Proof.
  intros ep h fs kind imm w r Hw He St Ab Lr Hh (o&I&N) U.
  destruct (holder (host w) (searched (host w) kind imm) (load_be 32 (mem w) r)) as [o'|] eqn:Hd.
  2:{ unfold holder in Hd. pose proof (find_none _ _ Hd o I) as C. cbv beta in C. rewrite (proj2 (Z.eqb_neq _ _) N) in C. cbn [negb] in C. congruence. }
  destruct (holder_in _ _ _ _ Hd) as (I'&N').
  eapply wpf_conseq; [apply (take_tree_err ep h fs kind imm w r StorageObjectTypeMismatch); try assumption; rewrite Hd|].
  - specialize (U o' I' N'). unfold stored in *. unfold load_error. rewrite (proj2 (Z.eqb_neq _ _) N').
    rewrite (proj2 (Z.eqb_neq _ _) U). reflexivity.
  - intros oo. destruct oo; cbn [resq]; tauto.
Qed.

(** What a transfer leaves (C97). *)
Lemma received_tree : forall ep h fs kind imm id vs C o H st st', 0 < h < 2 ^ 64 -> forallb readable fs = true ->
  tree_relocated H st st' (bswap 8 h) fs id vs C (home H o id) -> separate (tree_slots H fs id vs (home H o id)) -> tree_memory fs vs < 2 ^ 31 ->
  forall w r, wok w -> errtab_ok ep -> statics w -> abort_flag w = 0 -> live w r 32 -> load_be 32 (mem w) r = id ->
  keccak (host w) = H -> stor (host w) = st' -> In o (searched (host w) kind imm) ->
  (forall o', In o' (searched (host w) kind imm) -> o' <> o -> stored (host w) o' id = 0) ->
  wpf (take_tree ep h fs kind imm) [r] w (resq (fun rs w' => exists x F, rs = [x] /\ host w' = host w /\ abort_flag w' = 0 /\ gcd w' = r + 32 /\
     (forall y, 468 <= y < gnext w -> rd (mem w') y = rd (mem w) y) /\ tree_at (mem w') fs o id (adopts fs id vs) x F /\ sub F (heap w'))
   (ctrap w (existsb thin fs) (64 + tree_memory fs vs))).
Proof.
  intros ep h fs kind imm id vs C o H st st' Hh Rd (Ht&Hd&_) (_&Rg) Mm w r Hw He St Ab Lr <- <- <- I Un.
  apply take_tree_seen; try assumption. eapply Forall_impl; [|exact Rg]. intros a (_&Y). exact Y.
Qed.
