(** * Reading an object from storage *)

From Verif Require Import Tac RtAlloc RtErr RtInt RtInt2 RtEq RtMul RtDiv RtShift RtSwap RtAscii RtCopy Ops SpecAbi LemAbi SpecVal LemVal SpecStor SpecLayout RtStor RtStore LemStore RtSave RtLoad.
Ltac Zify.zify_post_hook ::= idtac.

(** The start of the function: the owner is copied in front of the object, the slot is read. *)
Definition load_start (w : world) (p ow k : Z) (w1 : world) : Prop :=
  seen (slot_mem p) w w1 /\ gnext w1 = gnext w + 32 /\ load_be 32 (mem w1) (gnext w) = load_be 32 (mem w) ow /\
  load_be 32 (mem w1) p = k /\ load_be 32 (mem w1) 64 = stor (host w) k mod 2 ^ 256.

Lemma low8 : forall m a, load_be 8 m (a + 24) = load_be 32 m a mod 2 ^ 64.
Proof.
  intros. change 32%nat with (24 + 8)%nat. rewrite load_be_split. change (256 ^ Z.of_nat 8) with (2 ^ 64).
  change (Z.of_nat 24) with 24. rewrite (Z.add_comm (_ * _)), Z_mod_plus_full. symmetry. apply Z.mod_small. exact (load_be_range 8 m (a + 24)).
Qed.

Lemma load_object_start : forall ep w p ow k (Q : outcome -> Prop) r l, ready ep w p -> 0 <= ow -> ow + 32 <= gnext w ->
  nth_error l 0 = Some p -> nth_error l 2 = Some ow -> load_be 32 (mem w) p = k ->
  (oom w 32 -> Q OTrap) ->
  (forall w1, load_start w p ow k w1 -> wp r Q [b2z (stor (host w) k mod 2 ^ 256 =? 0)] l w1) ->
  wp ([ Const 32; Call alloc; LocalGet 2; Const 32; MemCopy;
    LocalGet 0; Const A_SLOT_DATA; Host H_storage_load;
    Const A_SLOT_DATA; Const 32; Call is_zero ] ++ r) Q [] l w.
Proof.
  intros ep w p ow k Q r l Rd Ho Ho2 L0 L2 Lp T K. pose proof Rd as (Hw&He&H1&Hp&Hp2). pose proof Hw as (P1&P2&P3&P4&P5&P6). cbn [app]. unfold A_SLOT_DATA.
  ws1. wcall alloc_spec; [exact Hw|lia|exact T|].
  intros r1 w1 (->&Al). pose proof (alloc_extends w w1 32 Hw Al ltac:(lia)) as Ex. pose proof Al as (Hw1&Em1&_&_&Gn1&_).
  pose proof (seen_extends (slot_mem p) _ _ Ex) as S1. assert (Hh1 : host w1 = host w) by apply S1. pose proof Hw1 as (Q1&Q2&Q3&Q4&Q5&Q6).
  wc. eapply wp_lget; [exact L2|]. ws1. apply wp_mcopy; [lia|unfold page_size; lia|lia|unfold page_size; lia|]. set (w2 := set_mem w1 _).
  assert (Fm2 : forall a, ~ within (gnext w) 32 a -> rd (mem w2) a = rd (mem w) a).
  { intros a Ha. rewrite <- Em1. cbn [w2 mem set_mem]. apply rd_mcopy_out. unfold within in Ha. lia. }
  assert (Hw2 : wok w2).
  { apply wok_set_mem; [exact Hw1|]. intros a Ha. apply rd_mcopy_out. lia. }
  assert (Gn2 : gnext w2 = gnext w + 32) by exact Gn1. assert (Pg2 : pages w2 = pages w1) by reflexivity.
  assert (Lo : load_be 32 (mem w2) (gnext w) = load_be 32 (mem w) ow).
  { apply load_be_ext. intros i Hi. cbn [w2 mem set_mem]. rewrite rd_mcopy_in by lia. rewrite Em1. f_equal. lia. }
  eapply wp_lget; [exact L0|]. ws1. apply wp_sload; [exact Hw2|unfold live; lia|unfold live; lia|].
  replace (load_be 32 (mem w2) p) with k by (rewrite <- Lp; symmetry; apply load_be_ext; intros; apply Fm2; unfold within; lia).
  change (host w2) with (host w1). rewrite Hh1. set (w3 := set_mem w2 _).
  assert (Fm3 : forall a, ~ within 64 32 a -> rd (mem w3) a = rd (mem w2) a) by (intros a Ha; cbn [w3 mem set_mem]; apply rd_store_be_out; unfold within in Ha; lia).
  assert (Hw3 : wok w3) by (apply wok_set_mem; [exact Hw2|]; intros a Ha; apply Fm3; unfold within; lia).
  assert (V3 : load_be 32 (mem w3) 64 = stor (host w) k mod 2 ^ 256) by (cbn [w3 mem set_mem]; apply load_be_store32).
  ws1. ws1. eapply wp_call; [reflexivity|cbn [List.length]; lia|]. wc.
  eapply returns_wpf; [apply (is_zero_spec 8); [exact Hw3|unfold live; change (gnext w3) with (gnext w1); change (Z.of_nat (4 * 8)) with 32; lia]|]. wc.
  change (4 * 8)%nat with 32%nat. rewrite load_zero_iff, V3. apply K. split; [|split; [exact Gn2|split; [|split; [|exact V3]]]].
  - destruct S1 as ((_&B2&B3&B4&B5&B6&B7)&B8). split; [|exact B8]. split; [exact Hw3|]. split; [exact B2|]. split; [exact B3|]. split; [exact B4|]. split; [exact B5|]. split; [exact B6|].
    intros a Ha Na. rewrite Fm3, Fm2; [reflexivity| |]; unfold slot_mem, within in *; lia.
  - rewrite <- Lo. apply load_be_ext. intros. apply Fm3. unfold within. lia.
  - rewrite <- Lp. apply load_be_ext. intros. rewrite Fm3, Fm2; [reflexivity| |]; unfold within; lia.
Qed.

(** Whatever the storage: an empty slot and another type are reported. *)
Definition load_error (h word : Z) : option rt_error :=
  if word =? 0 then Some StorageObjectNotFound else if word mod 2 ^ 64 =? bswap 8 h then None else Some StorageObjectTypeMismatch.

Lemma load_object_err : forall ep h fs w p sid ow k e, ready ep w p -> 0 <= sid < 2 ^ 32 -> 0 <= ow -> ow + 32 <= gnext w -> load_be 32 (mem w) p = k ->
  0 <= h < 2 ^ 64 -> load_error h (stor (host w) k mod 2 ^ 256) = Some e ->
  wpf (load_object ep h fs) [p; sid; ow] w (resq (fun r w' => r = [BADF00D] /\ exists w1, seen (slot_mem p) w w1 /\ aborted ep e w1 w') (oom w 32)).
Proof.
  intros ep h fs w p sid ow k e Rd Hs Ho Ho2 Lp Hh E. pose proof Rd as (Hw&He&H1&Hp&Hp2). pose proof Hw as (P1&P2&P3&P4&P5&P6).
  apply wpf_intro; [reflexivity|]. wc. ws1. ws1. eapply (load_object_start ep w p ow k); try reflexivity; try assumption; [intros O; exact O|].
  intros w1 (S1&G1&Lo&Lk&L64). pose proof (proj1 (proj1 S1)) as Hw1. pose proof Hw1 as (Q1&Q2&Q3&Q4&Q5&Q6). unfold load_error in E.
  destruct (stor (host w) k mod 2 ^ 256 =? 0) eqn:Z0.
  - injection E as <-. apply wp_if; intros C; [|exfalso; cbn in C; lia]. eapply wp_return_error_end; [reflexivity|exact Hw1|]. wc. split; [reflexivity|].
    exists w1. split; [exact S1|apply aborted_store; exact He].
  - apply wp_if; intros C; [exfalso; cbn in C; lia|]. apply wp_nil. wc. unfold A_SLOT_DATA. ws1. apply wp_load; [lia|unfold page_size; lia|]. ws1. ws1.
    assert (El : bswap 8 (load 8 (mem w1) (64 + 24)) = stor (host w) k mod 2 ^ 256 mod 2 ^ 64) by (rewrite bswap_load, low8, L64; reflexivity).
    destruct (Z.eqb_spec (stor (host w) k mod 2 ^ 256 mod 2 ^ 64) (bswap 8 h)) as [X|X]; [discriminate|]. injection E as <-.
    apply wp_if; intros C2.
    + exfalso. apply X. rewrite <- El. f_equal. destruct (load 8 (mem w1) (64 + 24) =? h) eqn:Y; [lia|cbn in C2; lia].
    + eapply wp_return_error_end; [reflexivity|exact Hw1|]. wc. split; [reflexivity|]. exists w1. split; [exact S1|apply aborted_store; exact He].
Qed.

Lemma object_shell : forall w n sid (Q : outcome -> Prop) r p ow, wok w -> 0 <= n -> 4 + 4 * n < 2147483648 -> 0 <= sid < 2 ^ 32 ->
  let s := gnext w in let u := s + 8 + 4 * n in let c := u + 4 in
  (oom w (16 + 4 * n) -> Q OTrap) ->
  (forall w', extends w w' -> gnext w' = s + 16 + 4 * n -> load 4 (mem w') s = u -> load 4 (mem w') u = c -> load 4 (mem w') c = sid ->
     wp r Q [] [p; sid; ow; 8; s; u; sid; c; 0] w') ->
  wp ([ LocalGet 1; LocalSet 6;
    Const (4 + 4 * n); Call alloc; LocalSet 4;
    Const 4; Call alloc; LocalGet 4; Store 4 0;
    Const 4; Call alloc; LocalSet 5;
    Const 4; Call alloc; LocalSet 7;
    LocalGet 7; LocalGet 1; Store 4 0;
    LocalGet 5; LocalGet 7; Store 4 0;
    LocalGet 4; LocalGet 5; Store 4 0 ] ++ r) Q [] [p; sid; ow; 8; 0; 0; 0; 0; 0] w.
Proof.
  intros w n sid Q r p ow Hw Hn Hn2 Hsid s u c T K. cbn [app]. pose proof Hw as (P1&P2&P3&P4&P5&P6). ws1. ws1. ws1.
  wcall alloc_spec; [exact Hw|lia|intros O; apply T; eapply oom_mono; [exact O|lia]|].
  intros r1 w1 (->&A1). pose proof (alloc_extends _ _ _ Hw A1 ltac:(lia)) as X1. destruct A1 as (Hw1&Em1&Mp1&Pg1&Gn1&_). wc. fold s. fold s in Gn1. ws1. ws1.
  wcall alloc_spec; [exact Hw1|lia|intros O; apply T; unfold oom in *; rewrite Mp1, Gn1 in O; fold s; lia|].
  intros r2 w2 (->&A2). pose proof (alloc_extends _ _ _ Hw1 A2 ltac:(lia)) as X2. destruct A2 as (Hw2&Em2&Mp2&Pg2&Gn2&_). rewrite Gn1 in *. wc. ws1.
  pose proof Hw2 as (Q1&Q2&Q3&Q4&Q5&Q6). apply wp_store; [lia|unfold page_size; lia|]. rewrite Z.add_0_r. set (w3 := set_mem w2 _).
  assert (X3 : extends w w3).
  { eapply (extends_write w w2 _ (s + (4 + 4 * n)) 4); [exact Hw|eapply extends_trans; eassumption| |fold s; lia|lia]. intros x Hx. apply rd_store_out. unfold within in Hx. lia. }
  assert (Hw3 : wok w3) by apply X3. assert (Gn3 : gnext w3 = s + 8 + 4 * n) by (change (gnext w3) with (gnext w2); lia). assert (Mp3 : maxpages w3 = maxpages w) by apply X3. ws1.
  wcall alloc_spec; [exact Hw3|lia|intros O; apply T; unfold oom in *; fold s; lia|].
  intros r4 w4 (->&A4). pose proof (alloc_extends _ _ _ Hw3 A4 ltac:(lia)) as X4. destruct A4 as (Hw4&Em4&Mp4&Pg4&Gn4&_). rewrite Gn3 in *. wc. ws1. ws1. fold u. fold u in Gn4, Gn3.
  wcall alloc_spec; [exact Hw4|lia|intros O; apply T; unfold oom in *; fold s; unfold u in *; lia|].
  intros r5 w5 (->&A5). pose proof (alloc_extends _ _ _ Hw4 A5 ltac:(lia)) as X5. destruct A5 as (Hw5&Em5&Mp5&Pg5&Gn5&_). rewrite Gn4 in *. wc. fold c. fold c in Gn5. ws1. ws1. ws1.
  pose proof Hw5 as (R1&R2&R3&R4&R5&R6). assert (Gs : s = gnext w) by reflexivity. assert (Eu : u = s + 8 + 4 * n) by reflexivity. assert (Ec : c = u + 4) by reflexivity. clearbody s u c.
  apply wp_store; [lia|unfold page_size; lia|]. rewrite Z.add_0_r. ws1. ws1.
  apply wp_store; [lia|unfold page_size; cbn [pages set_mem]; lia|]. rewrite Z.add_0_r. ws1. ws1.
  apply wp_store; [lia|unfold page_size; cbn [pages set_mem]; lia|]. rewrite Z.add_0_r. cbn [mem set_mem].
  change (set_mem (set_mem (set_mem w5 ?a) ?b) ?m) with (set_mem w5 m). set (m := store _ _ s u). change (Z.of_nat 4) with 4 in m.
  assert (X6 : extends w (set_mem w5 m)).
  { eapply (extends_write w w5 m s (16 + 4 * n)); [exact Hw| | |lia|lia].
    - eapply extends_trans; [exact X3|eapply extends_trans; eassumption].
    - intros x Hx. unfold within in Hx. unfold m. rewrite !rd_store_out by lia. reflexivity. }
  apply K; [exact X6|cbn [gnext set_mem]; lia| | |]; cbn [mem set_mem]; unfold m.
  - rewrite load_4_store. apply w32_small. lia.
  - rewrite load_store_other by lia. rewrite load_4_store. apply w32_small. lia.
  - rewrite !load_store_other by lia. rewrite load_4_store. apply w32_small. lia.
Qed.

Lemma load_storable_ok : forall ep h fs w p sid ow k vs, ready ep w p -> 468 <= sid -> sid + 32 <= gnext w -> (sid + 32 <= p \/ p + 32 <= sid) ->
  0 <= ow -> ow + 32 <= gnext w -> load_be 32 (mem w) p = k ->
  0 <= h < 2 ^ 64 -> load_error h (stor (host w) k mod 2 ^ 256) = None -> forallb storable fs = true ->
  let H := keccak (host w) in
  helds H (stor (host w)) fs vs (k, 8) -> fetcheds H fs vs (k, 8) true <> None -> Forall (fun a => snd a < 2 ^ 256) (slots H fs vs (k, 8)) -> object_memory fs vs < 2147483648 ->
  wpf (load_object ep h fs) [p; sid; ow] w (resq (fun r w' => exists x F, r = [x] /\ seen (slot_mem p) w w' /\ gnext w' <= gnext w + object_memory fs vs /\
     object_at (mem w') fs (load_be 32 (mem w) ow) (load_be 32 (mem w) sid) vs x F /\ sub F (union (between (gnext w) (gnext w')) (between sid (sid + 32))))
   (ctrap w (existsb narrow fs) (object_memory fs vs))).
Proof.
  intros ep h fs w p sid ow k vs Rd Hs Hs2 Hsp Ho Ho2 Lp Hh E Pl H Hd Nn Rg Mm. pose proof Rd as (Hw&He&H1&Hp&Hp2). pose proof Hw as (P1&P2&P3&P4&P5&P6).
  unfold object_memory in *. pose proof (memory_fors_nonneg fs vs) as Mn. set (n := Z.of_nat (List.length fs)) in *. assert (Hn : 0 <= n) by (unfold n; lia).
  apply wpf_intro; [reflexivity|]. wc. ws1. ws1. eapply (load_object_start ep w p ow k); try reflexivity; try assumption; [intros O; left; eapply oom_mono; [exact O|lia]|].
  intros w1 (S1&G1&Lo&Lk&L64). pose proof (proj1 (proj1 S1)) as Hw1. pose proof Hw1 as (Q1&Q2&Q3&Q4&Q5&Q6). unfold load_error in E.
  assert (Hh1 : host w1 = host w) by apply S1.
  assert (El : bswap 8 (load 8 (mem w1) (64 + 24)) = stor (host w) k mod 2 ^ 256 mod 2 ^ 64) by (rewrite bswap_load, low8, L64; reflexivity).
  destruct (stor (host w) k mod 2 ^ 256 =? 0) eqn:Z0; [discriminate|].
  destruct (Z.eqb_spec (stor (host w) k mod 2 ^ 256 mod 2 ^ 64) (bswap 8 h)) as [X|X]; [|discriminate]. clear E.
  apply wp_if; intros C; [exfalso; cbn in C; lia|]. apply wp_nil. wc. unfold A_SLOT_DATA. ws1. apply wp_load; [lia|unfold page_size; lia|]. ws1. ws1.
  assert (Eh : load 8 (mem w1) (64 + 24) = h).
  { rewrite <- (bswap_bswap 8 (load 8 (mem w1) (64 + 24))) by exact (load_range 8 _ _). rewrite El, X. apply bswap_bswap. change (256 ^ Z.of_nat 8) with (2 ^ 64). exact Hh. }
  rewrite Eh, Z.eqb_refl. clear C. apply wp_if; intros C; [|exfalso; cbn in C; lia]. clear C. ws1. ws1. apply wp_nil. wc. fold n.
  assert (Hi : 0 <= sid < 2 ^ 32) by (clear - Hs Hs2 P1 P2 P4 P5; lia).
  eapply (object_shell w1 n sid _ _ p ow Hw1 Hn); [lia|exact Hi| |].
  { intros O. left. unfold oom in *. destruct S1 as ((_&B2&_)&_). rewrite B2, G1 in O. lia. }
  rewrite G1. intros w2 X2 G2 La Lb Lc. pose proof (seen_extends (slot_mem p) _ _ X2) as S2. pose proof (seen_trans _ _ _ _ S1 S2) as S12. set (s := gnext w + 32) in *.
  pose proof X2 as (Hw2&_&_&_&_&Hh2&Fr2). rewrite G1 in Fr2. fold s in Fr2. rewrite Hh1 in Hh2.
  assert (Rd2 : ready ep w2 p) by (eapply ready_seen; [exact Rd|exact S12|]; intros x Hx; unfold slot_mem, within; lia).
  assert (Ft : fst (afters fs (k, 8)) < 2 ^ 256 /\ fits (areas_of H fs vs (k, 8))) by (unfold slots in Rg; inversion Rg; subst; split; assumption). destruct Ft as (Ft1&Ft2).
  destruct (fetcheds H fs vs (k, 8) true) as [b'|] eqn:Ff; [|congruence]. clear Nn.
  assert (Fd : forall t, In t fs -> reads t) by (intros t Ht; apply reads_storable; rewrite forallb_forall in Pl; auto).
  refine (decode_fields_wp fs (proj2 (Forall_forall _ _) Fd) ep 3%nat 6%nat 4%nat 5%nat (fun p o f => [p; sid; ow; o; s; f; sid; s + 8 + 4 * n + 4; 0]) sid s _ ltac:(lia) w2 p vs (k, 8) true b' 1 _ _ _ _ Rd2 _ _ _ Pl _ _ Ft1 _ _ _ _ _ _); rewrite ?Hh2; try assumption; try lia.
  - intros p' o f. repeat split.
  - unfold good. cbn. lia.
  - split; [cbn [fst]; rewrite <- Lk; apply load_be_ext; intros; apply Fr2; lia|]. intros _. right. unfold loaded. cbn [fst]. rewrite Hh2, <- L64. apply load_be_ext. intros. apply Fr2. lia.
  - intros Tr. wc. eapply ctrap_seen; [exact S12|exact Tr|fold n; lia|auto].
  - intros w3 p3 G f S3 G3 At3 Fl SG Mv3 DG3. ws1. ws1.
    pose proof S3 as ((Hw3&B2&B3&B4&B5&B6&B7)&Hh3). pose proof S12 as ((_&C2&C3&C4&C5&C6&C7)&_).
    assert (S13 : seen (slot_mem p) w w3).
    { split; [|congruence]. split; [exact Hw3|]. split; [congruence|]. split; [lia|]. split; [lia|]. split; [congruence|]. split; [rewrite Hh3, Hh2; symmetry; apply set_stor_same|].
      intros x Hx Nx. rewrite B7, C7; [reflexivity|exact Hx|exact Nx|lia|]. intros [Y|Y]; [exact (Nx Y)|unfold between in Y; lia]. }
    assert (Fw : forall y, s <= y < s + 4 \/ s + 4 + 4 * n <= y < s + 16 + 4 * n -> rd (mem w3) y = rd (mem w2) y).
    { intros y Hy. apply B7; [lia|]. intros [Y|Y]; unfold slot_mem, within, between in Y; fold n in Y; lia. }
    exists s, (union (between (gnext w) (gnext w3)) (between sid (sid + 32))). split; [reflexivity|]. split; [exact S13|]. split; [lia|]. split; [|apply sub_refl].
    exists (s + 8 + 4 * n), (s + 8 + 4 * n + 4), sid, G. fold n.
    split; [rewrite <- La; apply load_ext; intros; apply Fw; lia|]. split; [rewrite <- Lb; apply load_ext; intros; apply Fw; lia|]. split; [rewrite <- Lc; apply load_ext; intros; apply Fw; lia|].
    split; [apply load_be_ext; intros i Hi0; destruct S13 as ((_&_&_&_&_&_&D7)&_); apply D7; [lia|unfold slot_mem, within; lia]|].
    split; [rewrite <- Lo; replace (s - 32) with (gnext w) by lia; apply load_be_ext; intros; rewrite B7, Fr2; [reflexivity|lia|lia|unfold struct_mem, slot_mem, within, between; fold n; lia]|].
    repeat (split; [intros y Hy; first [left; unfold between in *; lia|right; exact Hy]|]).
    split; [intros y Hy; left; apply SG in Hy; unfold between in *; lia|]. split; [|exact Fl].
    intros y Y1 [Y2|Y2]; [apply SG in Y2|]; unfold union, between in *; lia.
Qed.

Lemma load_object_ok : forall ep h fs w p sid ow k vs, ready ep w p -> 468 <= sid -> sid + 32 <= gnext w -> (sid + 32 <= p \/ p + 32 <= sid) ->
  0 <= ow -> ow + 32 <= gnext w -> load_be 32 (mem w) p = k ->
  0 <= h < 2 ^ 64 -> load_error h (stor (host w) k mod 2 ^ 256) = None -> 
  let H := keccak (host w) in legible H fs vs k ->
  helds H (stor (host w)) fs vs (k, 8) -> Forall (fun a => snd a < 2 ^ 256) (slots H fs vs (k, 8)) -> object_memory fs vs < 2147483648 ->
  wpf (load_object ep h fs) [p; sid; ow] w (resq (fun r w' => exists x F, r = [x] /\ seen (slot_mem p) w w' /\ gnext w' <= gnext w + object_memory fs vs /\
     object_at (mem w') fs (load_be 32 (mem w) ow) (load_be 32 (mem w) sid) vs x F /\ sub F (union (between (gnext w) (gnext w')) (between sid (sid + 32))))
   (ctrap w (existsb narrow fs) (object_memory fs vs))).
Proof.
  intros. match goal with L : legible _ _ _ _ |- _ => destruct L as [Pl|(Pl&Nn)] end; eapply load_storable_ok; try eassumption; [apply plains_storable; assumption|eapply fetched_plain; eassumption].
Qed.
