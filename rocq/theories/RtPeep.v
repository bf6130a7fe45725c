(** * Reading objects of other accounts: native_functions/peep.rs. *)

From Verif Require Import Tac RtAlloc RtErr RtInt RtInt2 RtEq RtMul RtDiv RtShift RtSwap RtAscii RtCopy Ops SpecAbi LemAbi SpecVal LemVal SpecStor SpecLayout RtStor LemStor RtStore LemStore RtSave RtLoad RtLoadObj LemPlace LemObj SpecDyn RtChild.
Ltac Zify.zify_post_hook ::= idtac.

(** native_functions/peep.rs 27-158 [add_peep_fn].  Locals: 0 owner_address_ptr, 1 uid_ptr, 2 slot_ptr,
    3 ref_ptr, 4 encoded_error_ptr.  [h] and [fs]: type hash and fields (after the id) of the object. *)
Definition native_peep (ep : errtab) (h : Z) (fs : list ty) : func := Func 2 3 1
 [ LocalGet 1; Load 4 0; Load 4 0; LocalSet 1;
   Const 32; Call alloc; LocalSet 2;
   Block "exit" 0
     ([ LocalGet 0; LocalGet 1; LocalGet 2; Call write_object_slot;
        LocalGet 2; Const A_SLOT_DATA; Host H_storage_load;
        Const A_SLOT_DATA; Const 32; Call is_zero; Const 1; Bin I32 Ne; BrIf "exit" ] ++
      return_error ep StorageObjectNotFound 4 true);
   Const 4; Call alloc; LocalTee 3;
   LocalGet 2; LocalGet 1; LocalGet 0; Call (load_object ep h fs);
   Store 4 0; LocalGet 3 ].

(** The state after the slot was computed and read, and before the test. *)
Definition peeped (ep : errtab) (w w3 : world) (pa ca k : Z) : Prop :=
  grows (fun y => child_mem y \/ within 64 32 y) w w3 /\ host w3 = host w /\ ready ep w3 (gnext w) /\ abort_flag w3 = 0 /\ gnext w3 = gnext w + 32 /\
  load_be 32 (mem w3) (gnext w) = k /\ load_be 32 (mem w3) pa = load_be 32 (mem w) pa /\ load_be 32 (mem w3) ca = load_be 32 (mem w) ca.

Lemma peep_start : forall ep h fs w pa u ca (Q : list Z -> world -> Prop) (T : Prop), wok w -> errtab_ok ep -> statics w -> abort_flag w = 0 ->
  468 <= pa -> pa + 32 <= gnext w -> uid_at w u ca ->
  let k := slot_of (host w) (load_be 32 (mem w) pa) (load_be 32 (mem w) ca) in
  (oom w 32 -> T) ->
  (forall w3 w4, peeped ep w w3 pa ca k -> stor (host w) k mod 2 ^ 256 = 0 -> aborted ep StorageObjectNotFound w3 w4 -> Q [BADF00D] w4) ->
  (forall w3, peeped ep w w3 pa ca k -> stor (host w) k mod 2 ^ 256 <> 0 ->
     wp [ Const 4; Call alloc; LocalTee 3; LocalGet 2; LocalGet 1; LocalGet 0; Call (load_object ep h fs); Store 4 0; LocalGet 3 ]
        (fret 1 Q T) [] [pa; ca; gnext w; 0; 0] w3) ->
  wpf (native_peep ep h fs) [pa; u] w (resq Q T).
Proof.
  intros ep h fs w pa u ca Q T Hw He St Ab Hp1 Hp2 (U1&U2&U3&U4&U5&U6&U7) k Ho Er K. pose proof Hw as (P1&P2&P3&P4&P5&P6).
  apply wpf_intro; [reflexivity|]. cbn [app native_peep]. wc. ws1.
  apply wp_load; [lia|unfold page_size; lia|]. rewrite Z.add_0_r. apply wp_load; [lia|unfold page_size; lia|]. rewrite Z.add_0_r, U5. ws1. ws1.
  wcall alloc_spec; [exact Hw|lia|exact Ho|].
  intros rs w1 (->&Al). pose proof (alloc_extends _ _ _ Hw Al ltac:(lia)) as Ex. destruct Al as (Hw1&Em&A1&A2&A3&A4&A5). pose proof Hw1 as (Q1&Q2&Q3&Q4&Q5&Q6).
  wc. ws1. apply wp_block. cbn [app]. ws1. ws1. ws1.
  assert (Ab1 : abort_flag w1 = 0) by (unfold abort_flag in *; rewrite Em; exact Ab).
  destruct (slot_ready ep w1 (gnext w) pa ca Hw1 He (statics_extends _ _ Hw St Ex) Ab1) as (m2&R2&Rd&Ab2&Z2&K2&F2); try lia.
  eapply wp_call; [reflexivity|cbn [List.length]; lia|]. wc. eapply returns_wpf; [exact R2|]. wc. ws1. ws1.
  rewrite Em, A5 in K2. fold k in K2. set (w2 := set_mem w1 m2) in *. unfold A_SLOT_DATA.
  assert (Hw2 : wok w2) by apply Rd. assert (H2 : host w2 = host w) by exact A5. assert (N2 : gnext w2 = gnext w + 32) by exact A3. assert (Pg2 : pages w2 = pages w1) by reflexivity.
  apply wp_sload; [exact Hw2|unfold live; lia|unfold live; lia|]. change (mem w2) with m2. rewrite K2, H2.
  set (w3 := set_mem w2 (store_be 32 m2 64 (stor (host w) k))).
  assert (Hw3 : wok w3). { apply wok_set_mem; [exact Hw2|]. intros y Hy. apply rd_store_be_out. lia. }
  assert (Rg : forall y, ~ within 64 32 y -> rd (mem w3) y = rd m2 y) by (intros y Hy; unfold w3; cbn [mem set_mem]; apply rd_store_be_out; unfold within in Hy; lia).
  assert (V3 : load_be 32 (mem w3) 64 = stor (host w) k mod 2 ^ 256) by (unfold w3; cbn [mem set_mem]; apply load_be_store32).
  assert (L3 : forall a, 468 <= a -> a + 32 <= gnext w -> load_be 32 (mem w3) a = load_be 32 (mem w) a).
  { intros a Ha1 Ha2. rewrite <- Em. apply load_be_ext. intros j Hj. rewrite Rg by (unfold within; lia). apply F2; [lia|unfold within; lia]. }
  assert (Pp : peeped ep w w3 pa ca k).
  { unfold peeped. split.
    - destruct Ex as (E1&E2&E3&E4&E5&E6&E7). unfold grows. split; [exact Hw3|]. cbn [w3 w2 maxpages pages gnext gcd host set_mem].
      split; [congruence|]. split; [lia|]. split; [lia|]. split; [congruence|]. split; [rewrite A5; symmetry; apply set_stor_same|].
      intros y Hy Ny. unfold child_mem in Ny. change (rd (mem w3) y = rd (mem w) y). rewrite Rg by tauto. rewrite F2 by (try lia; tauto). apply E7. lia.
    - split; [exact H2|]. split; [|split; [|split; [exact N2|split; [|split; apply L3; lia]]]].
      + destruct Rd as (B1&B2&B3&B4&B5). split; [exact Hw3|]. split; [exact He|]. split; [|split; [exact B4|exact B5]].
        rewrite <- B3. apply load_ext. intros j Hj. apply Rg. unfold within. lia.
      + rewrite <- Ab2. unfold abort_flag. apply load_ext. intros j Hj. apply Rg. unfold within. lia.
      + rewrite <- K2. apply load_be_ext. intros j Hj. apply Rg. unfold within. lia. }
  ws1. ws1. eapply wp_call; [reflexivity|cbn [List.length]; lia|]. wc. eapply returns_wpf; [apply (is_zero_spec 8 w3 64 Hw3); unfold live; change (gnext w3) with (gnext w2); lia|]. wc. ws1. ws1.
  change (4 * 8)%nat with 32%nat.
  assert (Ez : load 32 (mem w3) 64 = 0 <-> stor (host w) k mod 2 ^ 256 = 0).
  { rewrite <- V3, <- bswap_load. split; [intros ->; reflexivity|]. intros E. eapply (bswap_zero 32); [apply load_range|exact E]. }
  apply wp_brif; intros C; cbn [blk String.eqb Ascii.eqb Bool.eqb firstn app].
  - apply K; [exact Pp|]. intros E. apply C. apply Ez in E. rewrite E. reflexivity.
  - assert (E : stor (host w) k mod 2 ^ 256 = 0). { apply Ez. destruct (load 32 (mem w3) 64 =? 0) eqn:X; [lia|]. cbn in C. lia. }
    eapply wp_return_error_end; [reflexivity|exact Hw3|]. wc. eapply Er; [exact Pp|exact E|apply aborted_store; exact He].
Qed.

Lemma peep_ok : forall ep h fs w pa u ca vs, wok w -> errtab_ok ep -> statics w -> abort_flag w = 0 ->
  468 <= pa -> pa + 32 <= gnext w -> uid_at w u ca ->
  let H := keccak (host w) in let st := stor (host w) in let owner := load_be 32 (mem w) pa in let id := load_be 32 (mem w) ca in
  let k := slot_of (host w) owner id in
  legible H fs vs k -> 0 <= h < 2 ^ 64 -> inspect (bswap 8 h) (st k) = Present -> helds H st fs vs (k, 8) ->
  Forall (fun a => snd a < 2 ^ 256) (slots H fs vs (k, 8)) -> object_memory fs vs < 2 ^ 31 ->
  wpf (native_peep ep h fs) [pa; u] w (resq (fun r w' => exists a F, r = [a] /\ host w' = host w /\ abort_flag w' = 0 /\
     grows (fun y => child_mem y \/ within 64 32 y) w w' /\ live w' a 4 /\ gnext w <= a /\
     object_at (mem w') fs owner id vs (load 4 (mem w') a) F /\ sub F (heap w'))
   (ctrap w (existsb narrow fs) (36 + object_memory fs vs))).
Proof.
  intros ep h fs w pa u ca vs Hw He St Ab Hp1 Hp2 U H st owner id k Pl Hh Pr Hd Sl Mm. pose proof U as (U1&U2&U3&U4&U5&U6&U7).
  assert (Om : 0 <= object_memory fs vs) by (unfold object_memory; pose proof (memory_fors_nonneg fs vs); lia).
  apply (peep_start ep h fs w pa u ca); try assumption.
  { intros O. left. eapply oom_mono; [exact O|lia]. }
  { intros w3 w4 _ Z0 _. exfalso. fold owner id k in Z0. unfold inspect in Pr. unfold st in Pr. rewrite Z0 in Pr. discriminate. }
  intros w3 (G3&H3&R3&Ab3&N3&K3&L1&L2) _. pose proof R3 as (Hw3&_&S3&_). pose proof Hw3 as (Q1&Q2&Q3&Q4&Q5&Q6). pose proof Hw as (P1&P2&P3&P4&P5&P6).
  assert (M3 : maxpages w3 = maxpages w) by apply G3. fold owner id k in K3, L1, L2.
  ws1. wcall alloc_spec; [exact Hw3|lia|intros O; left; unfold oom in *; lia|].
  intros rs w4 (->&Al). pose proof (alloc_extends _ _ _ Hw3 Al ltac:(lia)) as Ex. destruct Al as (Hw4&Em&A1&A2&A3&A4&A5). pose proof Hw4 as (B1&B2&B3&B4&B5&B6).
  wc. ws1. ws1. ws1. ws1.
  assert (R4 : ready ep w4 (gnext w)).
  { split; [exact Hw4|]. split; [exact He|]. split; [rewrite Em; exact S3|]. split; lia. }
  eapply wp_call_spec; [reflexivity|cbn [List.length]; lia| | |]; wc.
  { eapply (load_ok ep h fs w4 (gnext w) ca pa k vs); rewrite ?Em, ?A5, ?H3; try assumption; lia. }
  { intros [O|(N&y&Y1&Y2)]; [left; unfold oom in *; lia|right; split; [exact N|]]. exists y. lia. }
  intros rs w5 (x&F&->&Se&G5&Ob&SF). wc. rewrite Em, L1, L2 in Ob. destruct Se as (Gr&Eh). pose proof (proj1 Gr) as Hw5. pose proof Hw5 as (T1&T2&T3&T4&T5&T6).
  assert (G45 : gnext w4 <= gnext w5) by apply Gr. assert (Pg : pages w4 <= pages w5) by apply Gr.
  assert (SF5 : sub F (heap w5)). { intros y Hy. specialize (SF y Hy). unfold union, heap, between in *. lia. }
  assert (Ob' := Ob). destruct Ob' as (b1&b2&b3&G4&_&_&_&_&_&Sx&_).
  destruct (heap_block F w5 (x - 32) (36 + 4 * Z.of_nat (List.length fs)) SF5) as (X1&X2); [intros y Hy; apply Sx; unfold between in *; lia|lia|].
  apply wp_store; [lia|unfold page_size; change (Z.of_nat 4) with 4; lia|]. rewrite Z.add_0_r. change (Z.of_nat 4) with 4. set (w6 := set_mem w5 _). ws1. ws1.
  assert (Rg : forall y, ~ within (gnext w3) 4 y -> rd (mem w6) y = rd (mem w5) y).
  { intros y Hy. cbn [w6 mem set_mem]. apply rd_store_out. unfold within in Hy. lia. }
  assert (Rw : forall y, 0 <= y < gnext w -> ~ (child_mem y \/ within 64 32 y) -> rd (mem w6) y = rd (mem w) y).
  { intros y Hy Ny. rewrite Rg by (unfold within; lia). destruct Gr as (_&_&_&_&_&_&D7). rewrite D7; [|lia|unfold slot_mem; intros [Y|Y]; [unfold child_mem in Ny; clear - Y Ny; tauto|unfold within in Y; lia]].
    rewrite Em. apply G3; [exact Hy|exact Ny]. }
  exists (gnext w3), F. split; [reflexivity|]. split; [cbn [w6 host set_mem]; congruence|]. split.
  { rewrite <- Ab. unfold abort_flag. apply load_ext. intros j Hj. apply Rw; [lia|]. unfold child_mem, within. lia. }
  split; [|split; [unfold live; cbn [w6 gnext set_mem]; lia|split; [lia|split]]].
  - destruct G3 as (D1&D2&D3&D4&D5&D6&D7). destruct Gr as (J1&J2&J3&J4&J5&J6&J7). unfold grows.
    split; [apply wok_set_mem; [exact Hw5|intros y Hy; apply rd_store_out; lia]|]. cbn [w6 maxpages pages gnext gcd host set_mem].
    split; [congruence|]. split; [lia|]. split; [lia|]. split; [congruence|]. split; [rewrite Eh, A5, H3; symmetry; apply set_stor_same|]. exact Rw.
  - replace (load 4 (mem w6) (gnext w3)) with x by (symmetry; cbn [w6 mem set_mem]; rewrite (load_store_same 4); apply Z.mod_small; change (256 ^ Z.of_nat 4) with (2 ^ 32); lia).
    eapply object_agree; [|exact Ob]. intros y Hy. apply Rg. specialize (SF y Hy). unfold union, between, within in *. lia.
  - exact SF5.
Qed.

Lemma peep_err : forall ep h fs w pa u ca e, wok w -> errtab_ok ep -> statics w -> abort_flag w = 0 ->
  468 <= pa -> pa + 32 <= gnext w -> uid_at w u ca -> 0 <= h < 2 ^ 64 ->
  let k := slot_of (host w) (load_be 32 (mem w) pa) (load_be 32 (mem w) ca) in
  (inspect (bswap 8 h) (stor (host w) k), e) = (Missing, StorageObjectNotFound) \/
  (inspect (bswap 8 h) (stor (host w) k), e) = (Other_type, StorageObjectTypeMismatch) ->
  wpf (native_peep ep h fs) [pa; u] w (resq (fun r w' => exists a, r = [a] /\ abort_flag w' = ep e /\ host w' = host w) (oom w 68)).
Proof.
  intros ep h fs w pa u ca e Hw He St Ab Hp1 Hp2 U Hh k E. pose proof U as (U1&U2&U3&U4&U5&U6&U7).
  apply (peep_start ep h fs w pa u ca); try assumption.
  { intros O. eapply oom_mono; [exact O|lia]. }
  { intros w3 w4 (_&H3&_) Z0 (Fr&Af). fold k in Z0. exists BADF00D. split; [reflexivity|].
    assert (e = StorageObjectNotFound) as ->. { unfold inspect in E. rewrite Z0 in E. cbn in E. destruct E as [E|E]; congruence. }
    split; [exact Af|]. transitivity (host w3); [apply Fr|exact H3]. }
  intros w3 (G3&H3&R3&Ab3&N3&K3&L1&L2) Nz. pose proof R3 as (Hw3&_&S3&_). pose proof Hw3 as (Q1&Q2&Q3&Q4&Q5&Q6). pose proof Hw as (P1&P2&P3&P4&P5&P6).
  assert (M3 : maxpages w3 = maxpages w) by apply G3. fold k in K3, Nz.
  assert (E' : (inspect (bswap 8 h) (stor (host w) k), e) = (Other_type, StorageObjectTypeMismatch)).
  { destruct E as [E|E]; [|exact E]. exfalso. unfold inspect in E. destruct (stor (host w) k mod 2 ^ 256 =? 0) eqn:Z0; [lia|]. destruct (_ =? bswap 8 h) in E; congruence. }
  ws1. wcall alloc_spec; [exact Hw3|lia|intros O; unfold oom in *; lia|].
  intros rs w4 (->&Al). pose proof (alloc_extends _ _ _ Hw3 Al ltac:(lia)) as Ex. destruct Al as (Hw4&Em&A1&A2&A3&A4&A5). pose proof Hw4 as (B1&B2&B3&B4&B5&B6).
  wc. ws1. ws1. ws1. ws1.
  assert (R4 : ready ep w4 (gnext w)).
  { split; [exact Hw4|]. split; [exact He|]. split; [rewrite Em; exact S3|]. split; lia. }
  eapply wp_call_spec; [reflexivity|cbn [List.length]; lia| | |]; wc.
  { eapply (load_err ep h fs w4 (gnext w) ca pa k) with (e := e); rewrite ?Em, ?A5, ?H3; try eassumption; try lia. }
  { intros O. unfold oom in *. lia. }
  intros rs w5 (->&w6&(Gr&Eh)&(Fr&Af)). wc. pose proof (proj1 Gr) as Hw6. pose proof Hw6 as (T1&T2&T3&T4&T5&T6). pose proof Fr as (F1&F2&F3&F4&F5&F6).
  assert (G46 : gnext w4 <= gnext w6) by apply Gr. assert (Pg : pages w4 <= pages w6) by apply Gr.
  apply wp_store; [lia|unfold page_size; change (Z.of_nat 4) with 4; lia|]. rewrite Z.add_0_r. change (Z.of_nat 4) with 4. ws1. ws1.
  exists (gnext w3). split; [reflexivity|]. split.
  - rewrite <- Af. unfold abort_flag. cbn [mem set_mem]. apply load_ext. intros j Hj. change (Z.of_nat 4) with 4 in Hj. apply rd_store_out. lia.
  - cbn [host set_mem]. transitivity (host w6); [apply Fr|]. congruence.
Qed.
