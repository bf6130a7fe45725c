(** * Reading objects with objects inside: the objects inside, and the whole. *)

From Verif Require Import Tac RtAlloc RtErr RtInt RtInt2 RtEq RtMul RtDiv RtShift RtSwap RtAscii RtCopy RtCopy2 Ops SpecAbi LemAbi SpecVal LemVal SpecStor SpecLayout RtStor RtStore LemStore LemPos RtSave RtLoad RtLoadObj LemObj SpecWrap RtWrap RtWrapLoad.
Ltac Zify.zify_post_hook ::= idtac.

Lemma present_hash : forall h u, 0 < h < 2 ^ 64 -> u mod 2 ^ 64 = bswap 8 h -> load_error h (u mod 2 ^ 256) = None.
Proof.
  intros h u Hh E. unfold load_error. assert (E2 : (u mod 2 ^ 256) mod 2 ^ 64 = bswap 8 h) by (rewrite <- E; symmetry; apply Znumtheory.Zmod_div_mod; [lia|lia|exists (2 ^ 192); reflexivity]).
  destruct (Z.eqb_spec (u mod 2 ^ 256) 0) as [Z0|_].
  - rewrite Z0 in E2. symmetry in E2. apply (bswap_zero 8) in E2; [lia|]. change (256 ^ Z.of_nat 8) with (2 ^ 64). lia.
  - rewrite E2, Z.eqb_refl. reflexivity.
Qed.

Lemma treads_object : forall h fs, Forall treads fs -> treads (Object h fs).
Proof.
  intros h fs IH ep w p ow q v parent Pl Rd Zs Gq (Pa1&Pa2&Pa3&Pa4) sz At _ H Hd Rg Ft Mm. pose proof Rd as (Hw&He&H1&Hp&Hp2). pose proof Hw as (P1&P2&P3&P4&P5&P6).
  cbn [readable slot_ty contains thin decode_shape] in *. apply andb_true_iff in Pl. destruct Pl as (Hh&Pl). apply andb_true_iff in Hh. destruct Hh as (Hh1&Hh2). apply Z.ltb_lt in Hh1. apply Z.ltb_lt in Hh2.
  destruct Hd as (o&id&vs&->&Hi&Ht&Hd). cbv zeta in Ht, Hd. cbn [reach tmem adopt VObj] in *. fold (tmems fs vs) in *. set (kc := home H parent id) in *. cbv zeta in Ft. fold kc in Ft.
  change (gather _ vs (kc, 8)) with (reaches H fs id vs (kc, 8)) in Ft. change ((kc, fst (afters (map slot_ty fs) (kc, 8))) :: reaches H fs id vs (kc, 8)) with (tree_slots H fs id vs kc) in Ft.
  change (along _ vs (kc, 8)) with (contents H (stor (host w)) fs id vs (kc, 8)) in Hd. change (adopt_all _ vs) with (adopts fs id vs).
  change (field_size TU256) with 32 in sz. unfold sz in *. clear sz. change (after TU256 q) with (room q 32) in *. pose proof (room_part q 32 Gq ltac:(lia)) as Rp. pose proof (room_good q 32 Gq ltac:(lia)) as Rq.
  apply held_scalar in Hi; [|exact Logic.I]. destruct Hi as (n&Ei&Ri&Vi). injection Ei as <-. change (2 ^ vbits TU256) with (2 ^ 256) in Ri. cbn [width] in Vi.
  destruct (room q 32) as [k' o'] eqn:Er. unfold good in Rq. cbn [fst snd] in *. assert (o' = 32) as -> by lia. clear Rp Rq. change (32 - 32) with 0 in Vi.
  assert (Vk : stor (host w) k' mod 2 ^ 256 = id) by (rewrite <- Vi; unfold part; change (256 ^ 0) with 1; rewrite Z.div_1_r; reflexivity). clear Vi.
  pose proof (tmems_nonneg fs vs) as Mn. set (n := Z.of_nat (List.length fs)) in *. assert (Hn : 0 <= n) by (unfold n; lia). destruct At as (At&_). cbn [fst] in At.
  apply wpf_intro; [reflexivity|]. wc. ws1. wcall alloc_spec; [exact Hw|lia|intros O; left; eapply oom_mono; [exact O|lia]|].
  intros r1 w1 [-> Al]. wc. pose proof Al as (Hw1&Em1&Mp1&Pg1&Gn1&_&Hh1'). pose proof (alloc_extends w w1 32 Hw Al ltac:(lia)) as X1. set (c := gnext w) in *.
  pose proof Hw1 as (Q1&Q2&Q3&Q4&Q5&Q6). ws1. ws1. ws1. apply wp_sload; [exact Hw1|unfold live; lia|unfold live; lia|]. replace (load_be 32 (mem w1) p) with k' by (rewrite Em1; symmetry; exact At). rewrite Hh1'. set (w2 := set_mem w1 _).
  assert (X2 : extends w w2) by (eapply (extends_write w w1 _ c 32); [exact Hw|exact X1| |fold c; lia|lia]; intros x Hx; apply rd_store_be_out; unfold within in Hx; lia).
  assert (L2 : load_be 32 (mem w2) c = id) by (cbn [w2 mem set_mem]; rewrite load_be_store32; exact Vk).
  pose proof (proj1 X2) as Hw2. assert (Gn2 : gnext w2 = c + 32) by exact Gn1. clearbody w2.
  ws1. wcall alloc_spec; [exact Hw2|lia|intros O; left; destruct X2 as (_&Y&_); unfold oom in *; fold c; lia|].
  intros r3 w3 [-> Al3]. wc. pose proof Al3 as (Hw3&Em3&Mp3&Pg3&Gn3&_&_). pose proof (alloc_extends w2 w3 32 Hw2 Al3 ltac:(lia)) as X3'. rewrite Gn2 in *. set (e := c + 32) in *.
  pose proof (extends_trans _ _ _ X2 X3') as X3. pose proof Hw3 as (R1&R2&R3&R4&R5&R6). pose proof X3 as (_&_&_&_&_&Hh3&Fr3). fold c in Fr3.
  assert (L3 : load_be 32 (mem w3) c = id) by (rewrite Em3; exact L2).
  assert (P3w : load_be 32 (mem w3) ow = parent) by (rewrite <- Pa1; apply load_be_ext; intros i Hi; apply Fr3; lia).
  assert (Zs3 : zeros w3) by (destruct Zs as (Y0&Y1); split; [transitivity (load_be 32 (mem w) 0); [|exact Y0]|transitivity (load_be 32 (mem w) 96); [|exact Y1]]; apply load_be_ext; intros i Hi; apply Fr3; lia).
  destruct (write_object_slot_spec w3 ow c e Hw3 (proj2 Zs3)) as (m4&R4'&V4&F4); try (unfold live; lia). rewrite P3w, L3, Hh3 in V4. change (slot_of (host w) parent id) with kc in V4. set (w4 := set_mem w3 m4) in *.
  ws1. ws1. ws1. ws1. eapply wp_call; [reflexivity|cbn [List.length]; lia|]. wc. eapply returns_wpf; [exact R4'|]. wc.
  assert (S4 : seen (wmem e) w3 w4).
  { apply seen_set_mem; [exact Hw3| |unfold wmem, slot_mem, within; lia]. intros y Hy. apply F4; intros Y; apply Hy; [right; exact Y|left; right; exact Y]. }
  assert (S04 : seen (wmem e) w w4) by (eapply seen_trans; [apply seen_extends; exact X3|exact S4]).
  assert (Gn4 : gnext w4 = e + 32) by exact Gn3. assert (Hh4 : host w4 = host w) by exact (proj2 S04). assert (He0 : e = 128 \/ 468 <= e) by lia.
  assert (Rd4 : ready ep w4 e).
  { pose proof (ready_seen_wmem ep e w w4 p He0 Rd S04) as (Y1&Y2&Y3&_&_). split; [exact Y1|]. split; [exact Y2|]. split; [exact Y3|]. lia. }
  assert (Zs4 : zeros w4) by (eapply zeros_wmem; [exact (proj1 S4)|exact Hw3|exact He0|exact Zs3]).
  assert (L4 : load_be 32 (mem w4) c = id) by (rewrite <- L3; apply load_be_ext; intros i Hi; apply F4; unfold within; lia).
  assert (P4w : load_be 32 (mem w4) ow = parent) by (rewrite <- P3w; apply load_be_ext; intros i Hi; apply F4; unfold within; lia).
  assert (Ld : wpf (load_tree ep h fs) [e; c; ow] w4 (resq (fun r w' => exists x F, r = [x] /\ seen (wmem e) w4 w' /\ gnext w' <= gnext w4 + tree_memory fs vs /\ gnext w4 <= x <= gnext w' /\
     tree_at (mem w') fs (load_be 32 (mem w4) ow) (load_be 32 (mem w4) c) (adopts fs (load_be 32 (mem w4) c) vs) x F /\ sub F (union (between (gnext w4) (gnext w')) (between c (c + 32))))
   (ctrap w4 (existsb thin fs) (tree_memory fs vs)))).
  { apply (load_with_spec fs IH ep h w4 e c ow kc vs Rd4 Zs4); rewrite ?L4, ?Hh4; try assumption; try (clear - P3 Gn4 Pa3; lia).
    - clear - Pa2; lia.
    - clear - Hh1 Hh2; lia.
    - apply present_hash; [clear - Hh1 Hh2; lia|exact Ht].
    - unfold tree_memory. fold n. clear - Mm. lia. }
  rewrite L4, P4w in Ld. ws1. ws1. ws1. ws1. ws1. eapply wp_call_spec; [reflexivity|cbn [List.length]; lia|wc; exact Ld| |].
  { intros Tr. eapply ctrap_seen; [exact S04|exact Tr|unfold tree_memory; fold n; fold c; lia|auto]. }
  intros r5 w5 (x&F&->&S5&G5&Bx&Tr&SF). wc. ws1. ws1. ws1. ws1. ws1. ws1. ws1. pose proof (seen_trans _ _ _ _ S04 S5) as S05. pose proof S5 as ((_&_&_&B5&_)&_).
  unfold tree_memory in G5. fold n in G5. exists x, p, F. split; [reflexivity|]. split; [|split; [|split; [|split; [|split; [|split; [left; reflexivity|split]]]]]].
  - eapply seen_mono; [exact S05|]. intros y Hy [[Y|Y]|Y]; unfold within in Y; [left; left; exact Y|lia|right; exact Y].
  - fold c. lia.
  - split; [|left; reflexivity]. cbn [fst]. rewrite <- At. apply (load_be_grows 32 (wmem e) w w5 p (proj1 S05)); [lia|lia|]. intros y Hy [[Y|Y]|Y]; unfold within in Y; lia.
  - intros y Hy. apply SF in Hy. destruct Hy as [Y|Y]; unfold between in *; fold c; lia.
  - fold c. lia.
  - intros y Hy Y. apply SF in Hy. destruct Hy as [Z1|Z1]; unfold between in *; lia.
  - cbn [shape_at]. exists parent, id, (adopts fs id vs). split; [reflexivity|]. exact Tr.
Qed.

Lemma treads_all : forall s, treads s.
Proof. apply shape_rec'; [exact treads_value|exact treads_object|exact treads_group]. Qed.

(** Loading an object with all objects inside. *)
Lemma load_tree_spec : forall ep h fs w p sid ow k vs, ready ep w p -> zeros w -> 468 <= sid -> sid + 32 <= gnext w -> (sid + 32 <= p \/ p + 32 <= sid) ->
  0 <= ow -> ow + 32 <= gnext w -> load_be 32 (mem w) p = k -> 0 < h < 2 ^ 64 -> forallb readable fs = true ->
  let H := keccak (host w) in let id := load_be 32 (mem w) sid in
  stor (host w) k mod 2 ^ 64 = bswap 8 h -> contents H (stor (host w)) fs id vs (k, 8) -> Forall (fun a => snd a < 2 ^ 256) (tree_slots H fs id vs k) -> tree_memory fs vs < 2 ^ 31 ->
  wpf (load_tree ep h fs) [p; sid; ow] w (resq (fun r w' => exists x F, r = [x] /\ seen (wmem p) w w' /\ gnext w' <= gnext w + tree_memory fs vs /\
     tree_at (mem w') fs (load_be 32 (mem w) ow) id (adopts fs id vs) x F /\ sub F (union (between (gnext w) (gnext w')) (between sid (sid + 32))))
   (ctrap w (existsb thin fs) (tree_memory fs vs))).
Proof.
  intros ep h fs w p sid ow k vs Rd Zs Hs Hs2 Hsp Ho Ho2 Lp Hh Pl H id Ht Hd Rg Mm.
  eapply wpf_conseq; [apply (load_with_spec fs (proj2 (Forall_forall _ _) (fun s _ => treads_all s)) ep h w p sid ow k vs); try assumption; [lia|apply present_hash; assumption]|].
  intros o. destruct o; cbn [resq]; auto. intros (x&F&A&B&C&D&E). exists x, F. auto.
Qed.

Lemma readable_sound : forall s, readable s = true -> sound s = true.
Proof.
  apply (shape_rec' (fun s => readable s = true -> sound s = true)).
  - intros t. cbn [readable sound]. apply plain_storable.
  - intros h fs IH R. cbn [readable sound] in *. apply andb_true_iff in R. destruct R as (R1&R2). apply andb_true_iff in R1. destruct R1 as (R1&R3). apply andb_true_iff. split; [apply andb_true_iff; split; [apply Z.leb_le; apply Z.ltb_lt in R1; lia|exact R3]|].
    rewrite forallb_forall in *. rewrite Forall_forall in IH. intros s Hs. auto.
  - intros fs IH R. cbn [readable sound] in *. apply andb_true_iff in R. destruct R as (R1&R2). apply andb_true_iff. split; [exact R1|]. rewrite forallb_forall in *. rewrite Forall_forall in IH. intros s Hs. auto.
Qed.

(** Saving and then loading. *)
Lemma round_trip_tree : forall ep h fs w x p owner id vs F k, forallb readable fs = true -> 0 < h < 2 ^ 64 ->
  ready ep w p -> zeros w -> load_be 32 (mem w) p = k -> tree_at (mem w) fs owner id vs x F -> sub F (heap w) -> disj F (between p (p + 32)) ->
  let H := keccak (host w) in separate (tree_slots H fs id vs k) -> lastings H (stor (host w)) fs id vs (k, 8) -> tree_memory fs vs < 2 ^ 31 ->
  wpf (save_tree ep h fs) [x; p] w (resq (fun r w' => r = [] /\ (forall y, ~ covers (tree_slots H fs id vs k) y -> stor (host w') y = stor (host w) y) /\
     forall w2 p2 sid ow, ready ep w2 p2 -> zeros w2 -> keccak (host w2) = H -> stor (host w2) = stor (host w') -> load_be 32 (mem w2) p2 = k ->
       468 <= sid -> sid + 32 <= gnext w2 -> (sid + 32 <= p2 \/ p2 + 32 <= sid) -> load_be 32 (mem w2) sid = id -> 0 <= ow -> ow + 32 <= gnext w2 ->
       wpf (load_tree ep h fs) [p2; sid; ow] w2 (resq (fun r2 w3 => exists y G, r2 = [y] /\ host w3 = host w2 /\
          tree_at (mem w3) fs (load_be 32 (mem w2) ow) id (adopts fs id vs) y G /\ sub G (heap w3)) (ctrap w2 (existsb thin fs) (tree_memory fs vs))))
    (nomem w (wcosts fs vs))).
Proof.
  intros ep h fs w x p owner id vs F k Pl Hh Rd Zs Lp Tr SF DF H Se La Mm.
  eapply wpf_conseq; [apply (save_tree_spec ep h fs w x p owner id vs F k); try assumption; [|lia]; rewrite forallb_forall in *; intros s Hs; apply readable_sound; auto|].
  intros o. destruct o; cbn [resq]; auto. intros (->&Gr&_&Ht&Hd&U). split; [reflexivity|]. split; [exact U|].
  intros w2 p2 sid ow Rd2 Zs2 Ek Es Lp2 Hs Hs2 Hsp Ls Ho Ho2.
  eapply wpf_conseq; [apply (load_tree_spec ep h fs w2 p2 sid ow k vs); rewrite ?Ls, ?Ek, ?Es; try assumption|].
  - destruct Se as (_&Rg). eapply Forall_impl; [|exact Rg]. intros a (_&Y). exact Y.
  - intros o2. destruct o2 as [r2 w3| | |]; cbn [resq]; auto. intros (y&G&->&S&_&T&SG). rewrite Ls in T. exists y, G. split; [reflexivity|]. split; [exact (proj2 S)|]. split; [exact T|].
    intros z Hz. apply SG in Hz. pose proof S as ((W3&_&_&B&_)&_). pose proof Rd2 as ((_&_&P3&_)&_). destruct Hz as [Z1|Z1]; unfold heap, between in *; lia.
Qed.
