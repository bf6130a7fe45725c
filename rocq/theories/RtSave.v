(** * Saving an object. *)

From Verif Require Import Tac RtAlloc RtErr RtInt RtInt2 RtEq RtSwap RtCopy Ops SpecAbi LemAbi SpecVal LemVal SpecStor SpecLayout RtStor RtStore LemStore.
Ltac Zify.zify_post_hook ::= idtac.

(** The state in which the fields start: the slot has the type hash in its lowest 8 bytes. *)
Definition start (h k : Z) (st : Z -> Z) : sst := mkS k 8 (bswap 8 h) st.

Lemma save_object_put : forall ep h fs w x p owner id vs F k, ready ep w p -> load_be 32 (mem w) 0 = 0 ->
  load_be 32 (mem w) p = k -> forallb storable fs = true -> 0 <= h < 2 ^ 64 ->
  object_at (mem w) fs owner id vs x F -> sub F (heap w) -> disj F (between p (p + 32)) ->
  safes (keccak (host w)) fs vs (start h k (stor (host w))) ->
  wpf (save_object ep h fs) [x; p] w (resq (fun r w' => r = [] /\ grows (slot_mem p) w w' /\ gnext w' <= gnext w + costs vs /\
     stor (host w') = s_stor (cache (puts (keccak (host w)) fs vs (start h k (stor (host w)))))) (nomem w (costs vs))).
Proof.
  intros ep h fs w x p owner id vs F k Rd Z0 Lp Pl Hh (a&b&c&G&La&Lb&Lc&Li&Lo&Sx&Sa&Sb&Sc&SG&DJ&Fl) SF DF Sf.
  pose proof Rd as (Hw&He&H1&Hp&Hp2). pose proof Hw as (P1&P2&P3&P4&P5&P6).
  destruct (heap_block F w (x - 32) (36 + 4 * Z.of_nat (List.length fs)) SF) as (X1&X2); [|lia|].
  { intros y Hy. apply Sx. unfold between in *. lia. }
  destruct (heap_block F w a 4 SF Sa) as (A1&A2); [lia|].
  destruct (heap_block F w b 4 SF Sb) as (B1&B2); [lia|].
  destruct (heap_block F w c 32 SF Sc) as (C1&C2); [lia|].
  apply wpf_intro; [reflexivity|]. wc. unfold A_SLOT_DATA. ws1. ws1. ws1. ws1. ws1.
  ws1. set (m1 := mcopy _ _ _ _). set (w1 := set_mem w m1). assert (Pg : pages w1 = pages w) by reflexivity.
  ws1. ws1. ws1. set (w2 := set_mem w1 _).
  assert (F1 : forall y, ~ within 64 32 y -> rd (mem w2) y = rd (mem w) y).
  { intros y Hy. unfold within in Hy. cbn [w2 w1 mem set_mem]. rewrite rd_store_out by lia. unfold m1. apply rd_mcopy_frame. exact Hy. }
  assert (G2 : grows (slot_mem p) w w2).
  { apply (grows_set_mem (slot_mem p) w (mem w2) Hw); [intros y Hy; apply F1; intros Y; apply Hy; left; left; exact Y|].
    unfold slot_mem, within. lia. }
  assert (R2 : ready ep w2 p) by (eapply ready_grows; [exact Rd|exact G2|lia]).
  assert (Ld : forall y, 468 <= y -> y + 4 <= gnext w -> load 4 (mem w2) y = load 4 (mem w) y).
  { intros y Y1 Y2. apply load_ext. intros i Hi. apply F1. unfold within. lia. }
  assert (RI : returns get_id_bytes_ptr [x] w2 [c] w2).
  { assert (Pg2 : pages w2 = pages w) by reflexivity. apply pure_intro. apply wpf_intro; [reflexivity|]. wc. ws1.
    ws1. rewrite Ld, La by lia. ws1. rewrite Ld, Lb by lia. ws1. rewrite Ld, Lc by lia. ws1. auto. }
  ws1. ws1. ws1. eapply wp_call; [reflexivity|cbn [List.length]; lia|]. wc. eapply returns_wpf; [exact RI|]. wc. ws1.
  assert (At : at_state w2 p (start h k (stor (host w)))).
  { split; [|split; [|reflexivity]].
    - cbn [start s_slot]. rewrite <- Lp. apply load_be_ext. intros i Hi. apply F1. unfold within. lia.
    - cbn [start s_word w2 w1 mem set_mem]. rewrite (load_be_split 24 8). rewrite load_be_zero.
      + rewrite Z.mul_0_l, Z.add_0_l. change (64 + Z.of_nat 24) with 88. replace h with (bswap 8 (bswap 8 h)) at 1 by (apply bswap_bswap; change (256 ^ Z.of_nat 8) with (2 ^ 64); lia).
        apply (load_be_store_swapped 8). apply bswap_range.
      + intros y Hy. rewrite rd_store_out by lia. unfold m1. rewrite rd_mcopy_in by lia.
        pose proof (load_be_byte 32 (mem w) 0 (y - 64) ltac:(lia)) as E. rewrite Z0, Z.div_0_l, Z.mod_0_l in E by (try apply Z.pow_nonzero; lia).
        rewrite <- E. f_equal. lia. }
  eapply (encode_fields_wp fs) with (q := start h k (stor (host w))).
  - apply Forall_forall. intros t Ht. apply writes_storable. rewrite forallb_forall in Pl. auto.
  - exact R2.
  - exact (zero_grows p w w2 G2 Hw Hp Z0).
  - exact At.
  - cbn. lia.
  - exact Sf.
  - lia.
  - change (x + 4 * 1) with (x + 4). eapply (fields_grows fs p); [exact G2|eapply sub_trans; [exact SG|exact SF]|eapply disj_sub; [exact DF|exact SG|apply sub_refl]|lia|lia| |exact Fl]. intros y Hy Y. apply (DF y); [apply Sx; unfold between; lia|unfold within in Y; unfold between; lia].
  - eapply sub_trans; [exact SG|]. exact SF.
  - eapply disj_sub; [exact DF|exact SG|apply sub_refl].
  - lia.
  - change (gnext w2) with (gnext w). lia.
  - intros y Hy Y. apply (DF y); [apply Sx; unfold between; lia|unfold within in Y; unfold between; lia].
  - intros N. exact N.
  - intros w3 G3 N3 At3. pose proof G3 as (Hw3&_&_&N3'&_). pose proof Hw3 as (Q1&Q2&Q3&Q4&Q5&Q6). change (gnext w2) with (gnext w) in N3, N3'.
    ws1. ws1. apply wp_scache; [exact Hw3|unfold live; lia|unfold live; lia|]. ws1.
    destruct At3 as (A31&A32&A33). rewrite A31, A32, A33. split; [reflexivity|].
    split; [eapply grows_trans; [exact G2|eapply grows_trans; [exact G3|apply grows_stor; exact Hw3]]|]. split; [exact N3|]. reflexivity.
Qed.

(** What is in storage afterwards. *)
Lemma save_storable_spec : forall ep h fs w x p owner id vs F k, ready ep w p -> load_be 32 (mem w) 0 = 0 ->
  load_be 32 (mem w) p = k -> forallb storable fs = true -> 0 <= h < 2 ^ 64 ->
  object_at (mem w) fs owner id vs x F -> sub F (heap w) -> disj F (between p (p + 32)) ->
  let H := keccak (host w) in
  separate (slots H fs vs (k, 8)) -> no_shrinks H (stor (host w)) fs vs (k, 8) ->
  wpf (save_object ep h fs) [x; p] w (resq (fun r w' => r = [] /\ grows (slot_mem p) w w' /\ gnext w' <= gnext w + costs vs /\
     stor (host w') k mod 2 ^ 64 = bswap 8 h /\ helds H (stor (host w')) fs vs (k, 8) /\
     (forall y, covers (unused_of H fs vs (k, 8)) y -> stor (host w') y = 0) /\
     (forall y, ~ covers (slots H fs vs (k, 8)) y -> stor (host w') y = stor (host w) y)) (nomem w (costs vs))).
Proof.
  intros ep h fs w x p owner id vs F k Rd Z0 Lp Pl Hh Ob SF DF H Se Ns.
  set (q := start h k (stor (host w))). assert (Gq : good (pos q)) by (unfold good; cbn; lia).
  assert (Ty : typeds fs vs) by (destruct Ob as (a&b&c&G&_&_&_&_&_&_&_&_&_&_&_&Fl); eapply fields_typed; eassumption).
  assert (Pf : Forall (fun t => storable t = true) fs) by (apply Forall_forall; rewrite forallb_forall in Pl; exact Pl).
  assert (Pa : Forall put_ok fs) by (apply Forall_forall; intros; apply put_all).
  assert (Sa : Forall safe_ok fs) by (apply Forall_forall; intros; apply safe_all).
  destruct (puts_ok fs Pa H vs q Pf Ty Gq) as (E1&X). pose proof (safes_ok fs Sa H (stor (host w)) vs q Pf Ty Gq) as Y. cbv zeta in X, Y.
  assert (Es : s_slot (puts H fs vs q) = fst (afters fs (k, 8))) by (change (k, 8) with (pos q); rewrite <- E1; reflexivity).
  rewrite Es in X, Y. change (pos q) with (k, 8) in X, Y. cbn [s_slot q start] in X, Y. change ((k, fst (afters fs (k, 8))) :: areas_of H fs vs (k, 8)) with (slots H fs vs (k, 8)) in X, Y.
  destruct (X (proj1 Se)) as (X1&X2&X3&X4).
  eapply wpf_conseq; [eapply save_object_put; try eassumption; apply Y; [exact Se|exact Ns|]|].
  - unfold clean. cbn [s_stor q start s_slot s_off]. auto.
  - intros o. destruct o; cbn [resq]; auto. intros (->&G&N&E). split; [reflexivity|]. split; [exact G|]. split; [exact N|]. rewrite E. fold H. fold q.
    cbn [s_stor cache]. fold (vst (puts H fs vs q)). split; [|split; [exact X3|split; [exact X4|]]].
    + cbn [s_off q start] in X2. change (2 ^ 64) with (256 ^ 8). fold q in X2. rewrite X2. change k with (s_slot q). rewrite vst_at. cbn [q start s_word]. apply Z.mod_small. change (256 ^ 8) with (256 ^ Z.of_nat 8). apply bswap_range.
    + intros y Hy. rewrite vst_other; [apply X1; exact Hy|]. intros ->. apply Hy. exists (k, fst (afters fs (k, 8))). split; [left; reflexivity|].
      cbn [fst snd]. rewrite Es. destruct (afters_ok fs (k, 8) Gq) as (_&B). apply before_fst in B. cbn [fst] in B. lia.
Qed.

Lemma save_object_spec : forall ep h fs w x p owner id vs F k, ready ep w p -> load_be 32 (mem w) 0 = 0 ->
  load_be 32 (mem w) p = k -> forallb storable fs = true -> 0 <= h < 2 ^ 64 ->
  object_at (mem w) fs owner id vs x F -> sub F (heap w) -> disj F (between p (p + 32)) ->
  let H := keccak (host w) in
  separate (slots H fs vs (k, 8)) -> no_shrinks H (stor (host w)) fs vs (k, 8) ->
  wpf (save_object ep h fs) [x; p] w (resq (fun r w' => r = [] /\ grows (slot_mem p) w w' /\ gnext w' <= gnext w + costs vs /\
     stor (host w') k mod 2 ^ 64 = bswap 8 h /\ helds H (stor (host w')) fs vs (k, 8) /\
     (forall y, ~ covers (slots H fs vs (k, 8)) y -> stor (host w') y = stor (host w) y)) (nomem w (costs vs))).
Proof.
  intros ep h fs w x p owner id vs F k Rd Z0 Lp Pl Hh Ob SF DF H Se Ns. eapply wpf_conseq; [eapply save_storable_spec; eauto|].
  intros o. destruct o; cbn [resq]; auto. intros (A&B&C&D&E&_&G). auto 8.
Qed.
