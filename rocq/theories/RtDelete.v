(** * Deleting values and objects from storage. *)

From Verif Require Import Tac RtAlloc RtErr RtInt RtInt2 RtEq RtMul RtDiv RtShift RtSwap RtAscii Ops SpecAbi LemAbi SpecVal LemVal RtCopy SpecStor RtStor SpecLayout LemPos RtEnumPos RtStore LemStore LemDelete.
Ltac Zify.zify_post_hook ::= idtac.

(** Slot numbers are in the heap, or at 128 for objects. *)
Definition ready0 (ep : errtab) (w : world) (p : Z) : Prop :=
  wok w /\ errtab_ok ep /\ load 32 (mem w) 32 = 1 /\ load_be 32 (mem w) 0 = 0 /\ (p = 128 \/ 468 <= p) /\ p + 32 <= gnext w.

Lemma ready0_grows : forall ep w w' p p', ready0 ep w p -> grows (slot_mem p') w w' -> p' = 128 \/ 468 <= p' -> ready0 ep w' p.
Proof.
  intros ep w w' p p' (R1&R2&R3&R0&R4&R5) G H. pose proof G as (G1&_&_&G4&_). pose proof R1 as (P1&P2&P3&P4&P5&P6).
  split; [exact G1|]. split; [exact R2|]. split; [|split; [|lia]].
  - rewrite <- R3. eapply load_grows; [exact G|lia|lia|]. intros x Hx [Y|Y]; unfold within in Y; lia.
  - transitivity (load_be 32 (mem w) 0); [|exact R0]. eapply load_be_grows; [exact G|lia|lia|]. intros x Hx [Y|Y]; unfold within in Y; lia.
Qed.

Lemma stor_set : forall w f, stor (host (set_host w (set_stor (host w) f))) = f.
Proof. reflexivity. Qed.

Lemma accumulate_delete_spec : forall ep w p k o sz, ready0 ep w p -> load_be 32 (mem w) p = k -> 0 <= o <= 32 -> 0 <= sz <= 32 ->
  fst (room (k, o) sz) < 2 ^ 256 ->
  wpf (accumulate_delete ep) [p; o; sz] w (resq (fun vs w' => vs = [snd (room (k, o) sz)] /\ grows (slot_mem p) w w' /\
    gnext w' = gnext w /\ load_be 32 (mem w') p = fst (room (k, o) sz) /\
    stor (host w') = if o + sz <=? 32 then stor (host w) else upd (stor (host w)) k 0) False).
Proof.
  intros ep w p k o sz (Hw&He&H1&H0&Hp&Hp2) A1 Ho Hs. unfold room. intros B. pose proof Hw as (P1&P2&P3&P4&P5&P6).
  apply wpf_intro; [reflexivity|]. wc. ws1. ws1. ws1. ws1. ws1. apply wp_if; intros C; unb C.
  - assert (E : o + sz <=? 32 = false) by lia.
    rewrite E in B |- *. clear C E. cbn [fst snd] in *. cbn [app].
    ws1. ws1. apply wp_scache; [exact Hw|unfold live; lia|unfold live; lia|].
    rewrite A1, H0. set (w1 := set_host _ _). assert (Pg : pages w1 = pages w) by reflexivity.
    assert (G2 : grows (slot_mem p) w w1) by exact (grows_stor (slot_mem p) w (upd (stor (host w)) k 0) Hw).
    assert (Hw2 : wok w1) by apply G2.
    destruct (storage_next_slot_spec ep w1 p Hw2 He H1) as (w3&R3&S3); [unfold live; cbn [w1 gnext set_host]; lia|lia|].
    change (mem w1) with (mem w) in R3, S3.
    rewrite A1 in R3, S3. destruct (Z.eqb_spec k (2 ^ 256 - 1)) as [X|X]; [exfalso; lia|]. destruct S3 as (F3&V3).
    ws1. eapply wp_call; [reflexivity|cbn [List.length]; lia|]. wc. eapply returns_wpf; [exact R3|].
    wc. do 6 (try ws1).
    split; [reflexivity|]. assert (G3 : grows (slot_mem p) w1 w3).
    { eapply grows_frame; [exact Hw2|exact F3|unfold sub, slot_mem; auto|]. intros a Ha. cbn [w1 gnext set_host]. unfold within in Ha. lia. }
    split; [eapply grows_trans; [exact G2|exact G3]|]. destruct F3 as (F31&F32&F33&F34&F35&F36&F37). split; [rewrite F33; reflexivity|].
    split; [exact V3|]. rewrite F36. reflexivity.
  - assert (E : o + sz <=? 32 = true) by lia.
    rewrite E in B |- *. cbn [fst snd]. ws1. ws1. ws1. ws1. ws1. ws1. ws1.
    split; [reflexivity|]. split; [apply grows_refl; exact Hw|]. split; [reflexivity|]. split; [exact A1|]. reflexivity.
Qed.

Lemma erased_step : forall st k o sz, 0 <= sz <= 32 -> 0 <= o <= 32 ->
  erased st (if o + sz <=? 32 then st else upd st k 0) k (fst (room (k, o) sz)) [].
Proof.
  intros. unfold room. destruct (o + sz <=? 32); cbn [fst]; [apply erased_refl|].
  unfold upd. split; [lia|]. split; [intros x Hx; rewrite (proj2 (Z.eqb_eq x k)) by lia; reflexivity|].
  split; [rewrite (proj2 (Z.eqb_neq (k + 1) k)) by lia; auto|]. split; [intros x C; destruct (covers_nil x C)|].
  intros x Hx _. rewrite (proj2 (Z.eqb_neq x k)) by lia. reflexivity.
Qed.

Definition del_post (w : world) (p : Z) (a : Z) (p' : position) (A : list (Z * Z)) (c : Z) (vs : list Z) (w' : world) : Prop :=
  vs = [snd p'] /\ grows (slot_mem p) w w' /\ gnext w' <= gnext w + c /\ load_be 32 (mem w') p = fst p' /\
  erased (stor (host w)) (stor (host w')) a (fst p') A /\
  (snd p' = 0 -> stor (host w') (fst p') = stor (host w) (fst p')).

Definition deletes (t : ty) : Prop := forall ep w p k o v, ready0 ep w p -> load_be 32 (mem w) p = k -> 0 <= o <= 32 ->
  erasable t = true -> typed t v ->
  separate ((k, fst (after t (k, o))) :: areas (keccak (host w)) t v (k, o)) -> shape (keccak (host w)) (stor (host w)) t v (k, o) ->
  wpf (delete_field ep t) [p; o] w (resq (del_post w p k (after t (k, o)) (areas (keccak (host w)) t v (k, o)) (cost v)) (nomem w (cost v))).

Lemma delete_field_shape : forall ep t, exists b, delete_field ep t = Func 2 0 1 b.
Proof. intros ep t. destruct t; eexists; reflexivity. Qed.

Lemma separate_part : forall a b a' b' A B C, separate ((a, b) :: A ++ B ++ C) -> a <= a' -> b' <= b -> separate ((a', b') :: B).
Proof. intros. eapply separate_sub; [eapply separate_sub2; eassumption|assumption]. Qed.

Lemma delete_fields_wp : forall fs, Forall deletes fs -> forall ep w p k o vs r (Q : outcome -> Prop) s,
  ready0 ep w p -> load_be 32 (mem w) p = k -> 0 <= o <= 32 -> Forall (fun t => erasable t = true) fs -> typeds fs vs ->
  separate (slots (keccak (host w)) fs vs (k, o)) -> shapes (keccak (host w)) (stor (host w)) fs vs (k, o) ->
  (nomem w (costs vs) -> Q OTrap) ->
  (forall w', grows (slot_mem p) w w' -> gnext w' <= gnext w + costs vs -> load_be 32 (mem w') p = fst (afters fs (k, o)) ->
     erased (stor (host w)) (stor (host w')) k (fst (afters fs (k, o))) (areas_of (keccak (host w)) fs vs (k, o)) ->
     wp r Q s [p; snd (afters fs (k, o))] w') ->
  wp (List.concat (map (fun t' => [ LocalGet 0; LocalGet 1; Call (delete_field ep t'); LocalSet 1 ]) fs) ++ r) Q s [p; o] w.
Proof.
  induction 1 as [|t fs Ht _ IH]; intros ep w p k o vs r Q s Rd L Ho Pl Ty Sp Sh T K.
  - inversion Ty; subst. cbn [map List.concat app]. apply K.
    + apply grows_refl. apply Rd.
    + cbn. lia.
    + reflexivity.
    + apply erased_refl.
  - inversion Ty as [|? v ? vs' Tv Tvs]; subst vs. inversion Pl as [|? ? Pt Pf]; subst.
    set (k := load_be 32 (mem w) p) in *. set (H := keccak (host w)) in *.
    unfold slots in Sp. cbn [areas_of shapes] in *. rewrite afters_cons in *. cbn [fst] in Sp. destruct Sh as (S1&S2). rewrite costs_cons in *.
    destruct (after_ok t (k, o)) as (G1&B1); [unfold good; cbn; lia|]. destruct (afters_ok fs (after t (k, o)) G1) as (G2&B2). apply before_fst in B1, B2. cbn [fst] in B1.
    cbn [map List.concat app]. ws1. ws1. destruct (delete_field_shape ep t) as (b&Ef).
    pose proof (cost_nonneg v). pose proof (costs_nonneg vs').
    eapply wp_call_spec; [exact Ef|cbn [List.length]; lia| | |].
    { wc. eapply (Ht ep w p k o v); [exact Rd|reflexivity|exact Ho|exact Pt|exact Tv| |exact S1]. eapply separate_sub; [exact Sp|exact B2]. }
    { intros (N1&N2). apply T. split; [lia|]. unfold oom in *. lia. }
    intros r1 w1 (->&G&N&L1&E1&Te). wc. fold H in E1. ws1. pose proof (keccak_grows _ _ _ G) as K1.
    pose proof Rd as (_&_&_&_&Hp&_). pose proof (ready0_grows ep w w1 p p Rd G Hp) as Rd1.
    destruct (after t (k, o)) as (k1&o1) eqn:Ea. cbn [fst snd] in *.
    eapply (IH ep w1 p k1 o1 vs'); [exact Rd1|exact L1|exact G1|exact Pf|exact Tvs| | | |].
    + rewrite K1. fold H. eapply separate_sub2; [exact Sp|cbn [fst]; lia].
    + rewrite K1. fold H. rewrite <- Ea. eapply (erased_shapes H (stor (host w)) _ t v fs vs' (k, o)); [exact Pt|unfold good; cbn; lia|exact Pf|exact Tvs| | | |].
      * rewrite Ea. exact E1.
      * rewrite Ea. exact Te.
      * rewrite Ea. exact Sp.
      * rewrite Ea. exact S2.
    + intros N'. apply T. eapply nomem_grows; [exact G|exact N'|lia|lia].
    + rewrite K1. fold H. intros w2 Gw N2 L2 E2. apply K; [eapply grows_trans; eassumption|lia|exact L2|].
      eapply erased_trans; [exact E1|exact E2|exact Sp].
Qed.

Lemma delete_loop : forall t, deletes t -> forall ep w e d vs p i0 r (Q : outcome -> Prop) s,
  ready0 ep w e -> load_be 32 (mem w) e = d -> erasable t = true -> Forall (typed t) vs -> vs <> [] -> Z.of_nat (List.length vs) < 2 ^ 32 ->
  separate (slots (keccak (host w)) (map (fun _ => t) vs) vs (d, 0)) -> shapes (keccak (host w)) (stor (host w)) (map (fun _ => t) vs) vs (d, 0) ->
  i0 = 0 -> (nomem w (costs vs) -> Q OTrap) ->
  (forall w' i o', grows (slot_mem e) w w' -> gnext w' <= gnext w + costs vs -> load_be 32 (mem w') e = fst (afters (map (fun _ => t) vs) (d, 0)) ->
     erased (stor (host w)) (stor (host w')) d (fst (afters (map (fun _ => t) vs) (d, 0))) (areas_of (keccak (host w)) (map (fun _ => t) vs) vs (d, 0)) ->
     wp r Q s [p; Z.of_nat (List.length vs); e; i; o'] w') ->
  wp (Block "inner" 0
         [ Loop "loop" 0
             [ LocalGet 2; LocalGet 4; Call (delete_field ep t); LocalSet 4;
               LocalGet 3; LocalGet 1; Const 1; Bin I32 Sub; Bin I32 Eq; BrIf "inner";
               LocalGet 3; Const 1; Bin I32 Add; LocalSet 3; Br "loop" ] ] :: r) Q s
    [p; Z.of_nat (List.length vs); e; i0; 0] w.
Proof.
  intros t Wt ep w e d vs p i0 r Q s Rd L Pt Ty Ne Ln Sp Sh -> T K.
  set (H := keccak (host w)) in *. set (n := Z.of_nat (List.length vs)) in *. pose proof Rd as (_&_&_&_&Hp&_).
  set (M := fun vs : list val => map (fun _ => t) vs). fold (M vs) in Sp, Sh, K.
  assert (ML : forall l, List.length (M l) = List.length l) by (intros; apply map_length).
  assert (MP : forall l, Forall (fun t => erasable t = true) (M l)) by (intros; apply Forall_forall; intros y Hy; apply in_map_iff in Hy; destruct Hy as (?&<-&_); exact Pt).
  apply wp_block.
  apply (wp_loop (fun k l w' => exists vs1 vs2, vs = vs1 ++ vs2 /\ List.length vs2 = k /\ vs2 <> [] /\
     l = [p; n; e; Z.of_nat (List.length vs1); snd (afters (M vs1) (d, 0))] /\
     grows (slot_mem e) w w' /\ gnext w' <= gnext w + costs vs1 /\ load_be 32 (mem w') e = fst (afters (M vs1) (d, 0)) /\
     erased (stor (host w)) (stor (host w')) d (fst (afters (M vs1) (d, 0))) (areas_of H (M vs1) vs1 (d, 0)) /\
     shapes H (stor (host w')) (M vs2) vs2 (afters (M vs1) (d, 0))) (List.length vs)).
  { exists [], vs. split; [reflexivity|]. split; [reflexivity|]. split; [exact Ne|]. split; [reflexivity|].
    split; [apply grows_refl; apply Rd|]. split; [cbn; lia|]. split; [exact L|]. split; [apply erased_refl|]. exact Sh. }
  intros k l w1 (vs1&vs2&E&Lk&Ne2&->&G1&N1&L1&E1&Sh1). destruct vs2 as [|v vs2]; [congruence|]. clear Ne2. cbn [List.length] in Lk.
  assert (En : n = Z.of_nat (List.length vs1) + 1 + Z.of_nat (List.length vs2)) by (unfold n; rewrite E, app_length; cbn [List.length]; lia).
  set (i := Z.of_nat (List.length vs1)) in *. assert (Hi : 0 <= i) by (unfold i; lia).
  pose proof (ready0_grows ep w w1 e e Rd G1 Hp) as Rd1. pose proof (keccak_grows _ _ _ G1) as K1.
  pose proof G1 as (_&_&_&N1'&_).
  destruct (afters_ok (M vs1) (d, 0)) as (Gd1&B1); [unfold good; cbn; lia|]. set (p1 := afters (M vs1) (d, 0)) in *.
  destruct (after_ok t p1 Gd1) as (Gd2&B2). destruct (afters_ok (M vs2) (after t p1) Gd2) as (Gd3&B3). apply before_fst in B1, B2, B3. cbn [fst] in B1.
  assert (Tv : typed t v /\ Forall (typed t) vs2) by (rewrite E in Ty; apply Forall_app in Ty; destruct Ty as (_&Ty); inversion Ty; auto).
  destruct Tv as (Tv&Tvs).
  assert (EA : areas_of H (M vs) vs (d, 0) = areas_of H (M vs1) vs1 (d, 0) ++ areas H t v p1 ++ areas_of H (M vs2) vs2 (after t p1)).
  { rewrite E. unfold M. rewrite map_app. rewrite areas_of_app by apply ML. reflexivity. }
  assert (EF : afters (M vs) (d, 0) = afters (M vs2) (after t p1)).
  { rewrite E. unfold M. rewrite map_app, afters_append. reflexivity. }
  unfold slots in Sp. rewrite EA, EF in Sp. cbn [fst] in Sp. cbn [M map shapes] in Sh1. fold (M vs2) in Sh1. destruct Sh1 as (Shv&Sh2).
  destruct (delete_field_shape ep t) as (b&Ef).
  pose proof (costs_nonneg vs1) as CN. pose proof (cost_nonneg v) as CN2. pose proof (costs_nonneg vs2) as CN3.
  assert (Ec : costs vs = costs vs1 + (cost v + costs vs2)) by (rewrite E, costs_app, costs_cons; reflexivity).
  ws1. ws1.
  eapply wp_call_spec; [exact Ef|cbn [List.length]; lia| | |].
  { wc. eapply (Wt ep w1 e (fst p1) (snd p1) v); [exact Rd1|exact L1|exact Gd1|exact Pt|exact Tv| |];
      rewrite K1; fold H; rewrite <- surjective_pairing; [|exact Shv]. eapply separate_part; [exact Sp|lia|lia]. }
  { intros N. apply T. eapply nomem_grows; [exact G1|exact N|lia|lia]. }
  rewrite K1, <- surjective_pairing. fold H. intros r2 w3 (->&G3&N3&L3&E3&Te). wc. pose proof (grows_trans _ _ _ _ G1 G3) as G13.
  pose proof G3 as (_&_&_&N3'&_).
  assert (Es : after t p1 = afters (M (vs1 ++ [v])) (d, 0)) by (unfold M; rewrite map_app, afters_append; reflexivity).
  assert (Ee : erased (stor (host w)) (stor (host w3)) d (fst (after t p1)) (areas_of H (M vs1) vs1 (d, 0) ++ areas H t v p1)).
  { eapply erased_trans; [exact E1|exact E3|]. rewrite app_assoc in Sp. eapply separate_sub; [exact Sp|lia]. }
  ws1. ws1. ws1. ws1. ws1. ws1. ws1.
  - assert (vs2 = []) by (destruct vs2; [reflexivity|cbn [List.length] in En; lia]). subst vs2. cbn [M map areas_of] in EA. rewrite app_nil_r in EA.
    cbn [M map afters fold_left] in EF. apply K; [exact G13|lia|rewrite EF; exact L3|rewrite EA, EF; exact Ee].
  - ws1. ws1. ws1. ws1. ws1. exists (List.length vs2). split; [lia|]. exists (vs1 ++ [v]), vs2.
    split; [rewrite <- app_assoc; exact E|]. split; [reflexivity|]. split; [intros ->; cbn in En; lia|].
    rewrite <- Es. split; [|split; [exact G13|split; [rewrite costs_app, costs_cons; cbn; lia|split; [exact L3|split]]]].
    + rewrite app_length. cbn [List.length]. do 4 f_equal. unfold i. lia.
    + replace (areas_of H (M (vs1 ++ [v])) (vs1 ++ [v]) (d, 0)) with (areas_of H (M vs1) vs1 (d, 0) ++ areas H t v p1); [exact Ee|].
      unfold M. rewrite map_app. rewrite areas_of_app by apply ML. cbn [map areas_of]. rewrite app_nil_r. reflexivity.
    + eapply (erased_shapes H (stor (host w1)) _ t v (M vs2) vs2 p1); [exact Pt|exact Gd1|apply MP|apply typeds_map; exact Tvs|exact E3|exact Te| |exact Sh2].
      eapply separate_sub2; [exact Sp|lia].
Qed.

Lemma separate_tail : forall a l, separate (a :: l) -> separate l.
Proof. intros a l (F&G). inversion F as [|? ? _ F2]. inversion G as [|? ? _ G2]. split; assumption. Qed.

Lemma delete_vector_spec : forall t, deletes t -> forall ep w p k vs, ready0 ep w p -> load_be 32 (mem w) p = k ->
  erasable t = true -> typed (TVec t) (VVec vs) -> let H := keccak (host w) in let d := data_slot H k in
  let A := match vs with [] => [] | _ => slots H (map (fun _ => t) vs) vs (d, 0) end in
  separate ((k, k) :: A) -> stor (host w) k mod 2 ^ 256 = Z.of_nat (List.length vs) ->
  shapes H (stor (host w)) (map (fun _ => t) vs) vs (d, 0) ->
  wpf (delete_vector (delete_field ep t)) [p] w (resq (fun r w' => r = [] /\ grows (slot_mem p) w w' /\
    gnext w' <= gnext w + cost (VVec vs) /\ load_be 32 (mem w') p = k /\ stor (host w') k = 0 /\
    erased (stor (host w)) (stor (host w')) k k A) (nomem w (cost (VVec vs)))).
Proof.
  intros t Wt ep w p k vs Rd L Pt Ty H d A Sp Sl Sh. destruct Ty as (vs0&E0&Lv&Ty). injection E0 as <-.
  pose proof Rd as (Hw&He&H1&H0&Hp&Hp2). pose proof Hw as (P1&P2&P3&P4&P5&P6). set (n := Z.of_nat (List.length vs)) in *.
  assert (Hn : 0 <= n) by (unfold n; lia).
  assert (Cn : cost (VVec vs) = 32 + costs vs) by reflexivity. pose proof (costs_nonneg vs) as Cp. rewrite Cn.
  apply wpf_intro; [reflexivity|]. wc.
  ws1. wcall alloc_spec; [exact Hw|lia|intros O; split; [lia|unfold oom in *; lia]|].
  intros r1 w2 (->&Al). pose proof (alloc_extends w w2 32 Hw Al ltac:(lia)) as Ex. pose proof Al as (Hw2&Em&_&_&Gn2&_).
  pose proof (grows_extends (slot_mem p) _ _ Ex) as G2. pose proof Ex as (_&_&_&_&_&Hh2&_).
  pose proof Hw2 as (P1'&P2'&P3'&P4'&P5'&P6'). wc. ws1. set (e := gnext w) in *.
  unfold A_SLOT_DATA. ws1. ws1. apply wp_sload; [exact Hw2|unfold live; lia|unfold live; lia|]. rewrite Em, L, Hh2. set (w3 := set_mem w2 _).
  assert (Fm3 : forall a, ~ within 64 32 a -> rd (mem w3) a = rd (mem w) a).
  { intros a Ha. cbn [w3 mem set_mem]. apply rd_store_be_out. unfold within in Ha. lia. }
  assert (V3 : load_be 32 (mem w3) 64 = n) by (cbn [w3 mem set_mem]; rewrite load_be_store32; exact Sl).
  assert (G3 : grows (slot_mem p) w w3).
  { eapply grows_trans; [exact G2|]. apply grows_set_mem; [exact Hw2| |]; unfold slot_mem, within; [|intros; lia].
    intros a Ha. rewrite Em. apply rd_store_be_out. lia. }
  assert (Hw3 : wok w3) by apply G3. assert (Pg3 : pages w3 = pages w2) by reflexivity. assert (Gn3 : gnext w3 = e + 32) by exact Gn2.
  assert (Hh3 : host w3 = host w) by exact Hh2.
  ws1. apply wp_load; [lia|unfold page_size; lia|].
  eapply wp_call; [reflexivity|cbn [List.length]; lia|]. wc. eapply returns_wpf; [apply swap_i32_spec; exact (load_range 4 (mem w3) (64 + 28))|]. wc.
  rewrite bswap_load, low4, V3, (Z.mod_small n) by lia.
  assert (Lp3 : load_be 32 (mem w3) p = k) by (rewrite <- L; apply load_be_ext; intros; apply Fm3; unfold within; lia).
  assert (L03 : load_be 32 (mem w3) 0 = 0) by (transitivity (load_be 32 (mem w) 0); [apply load_be_ext; intros; apply Fm3; unfold within; lia|exact H0]).
  ws1. ws1. ws1. apply wp_scache; [exact Hw3|unfold live; lia|unfold live; lia|]. rewrite Lp3, L03, Hh3. set (w4 := set_host w3 _).
  assert (G4 : grows (slot_mem p) w w4).
  { eapply grows_trans; [exact G3|]. unfold w4. rewrite <- Hh3 at 1. apply grows_stor. exact Hw3. }
  assert (St4 : stor (host w4) = upd (stor (host w)) k 0) by reflexivity.
  assert (Hw4 : wok w4) by apply G4. assert (Kk4 : keccak (host w4) = H) by reflexivity.
  apply wp_block. ws1. ws1. apply wp_brif; intros C; unb C; wc.
  - assert (vs = []) by (destruct vs; [reflexivity|unfold n in *; cbn [List.length] in *; lia]). subst vs.
    try (apply wp_nil). wc. split; [reflexivity|]. split; [exact G4|]. split; [change (gnext w4) with (gnext w3); lia|]. split; [exact Lp3|].
    rewrite St4. split; [unfold upd; rewrite Z.eqb_refl; reflexivity|]. apply erased_last; [apply erased_refl|exact Sp].
  - assert (Nv : vs <> []) by (intros ->; unfold n in C; cbn in C; lia).
    assert (EA : A = slots H (map (fun _ => t) vs) vs (d, 0)) by (unfold A; destruct vs; [congruence|reflexivity]). clearbody A. subst A.
    unfold slots in Sp. cbn [fst] in Sp. set (D := fst (afters (map (fun _ => t) vs) (d, 0))) in *. set (B := areas_of H (map (fun _ => t) vs) vs (d, 0)) in *.
    assert (Gn4 : gnext w4 = e + 32) by exact Gn3.
    ws1. ws1. ws1. apply wp_keccak; [exact Hw4|unfold live; lia|unfold live; lia|]. change (Z.to_nat 32) with 32%nat. rewrite Kk4.
    change (mem w4) with (mem w3). set (w5 := set_mem w4 _).
    assert (Fm5 : forall a, ~ within e 32 a -> rd (mem w5) a = rd (mem w3) a).
    { intros a Ha. cbn [w5 mem set_mem]. apply rd_store_be_out. unfold within in Ha. lia. }
    assert (G5 : grows (slot_mem e) w4 w5).
    { apply grows_set_mem; [exact Hw4| |]; unfold slot_mem; [intros a Ha; apply Fm5; tauto|]. intros a. unfold within. lia. }
    pose proof (grows_inner p e w w4 w5 G4 G5 ltac:(lia)) as G5'. assert (Gn5 : gnext w5 = e + 32) by exact Gn4.
    assert (Rd5 : ready0 ep w5 e).
    { split; [apply G5|]. split; [exact He|]. split; [|split; [|lia]].
      - rewrite <- H1. apply load_ext. intros. rewrite Fm5, Fm3; [reflexivity| |]; unfold within; lia.
      - transitivity (load_be 32 (mem w) 0); [|exact H0]. apply load_be_ext. intros. rewrite Fm5, Fm3; [reflexivity| |]; unfold within; lia. }
    assert (L5 : load_be 32 (mem w5) e = d).
    { cbn [w5 mem set_mem]. rewrite load_be_store32. symmetry. apply data_slot_bytes. exact Lp3. }
    assert (St5 : stor (host w5) = upd (stor (host w)) k 0) by exact St4. assert (Kk5 : keccak (host w5) = H) by exact Kk4.
    ws1. ws1. ws1. ws1. unfold n.
    eapply (delete_loop t Wt ep w5 e d vs p 0).
    + exact Rd5.
    + exact L5.
    + exact Pt.
    + exact Ty.
    + exact Nv.
    + exact Lv.
    + rewrite Kk5. exact (separate_tail _ _ Sp).
    + rewrite Kk5, St5. assert (Hk : forall x, covers ((d, D) :: B) x -> upd (stor (host w)) k 0 x = stor (host w) x).
      { intros x Hx. unfold upd. destruct (Z.eqb_spec x k) as [->|]; [|reflexivity]. exfalso. eapply separate_head; [exact Sp| |exact Hx]. lia. }
      destruct (afters_ok (map (fun _ => t) vs) (d, 0)) as (Gd&Bd); [unfold good; cbn; lia|]. apply before_fst in Bd. cbn [fst] in Bd. fold D in Bd.
      eapply shapes_all; [apply Forall_forall; intros y Hy; apply in_map_iff in Hy; destruct Hy as (?&<-&_); exact Pt|apply typeds_map; exact Ty|unfold good; cbn; lia| | | |exact Sh].
      * intros x Hx. apply Hk. apply covers_cons. auto.
      * cbn [fst]. fold D. intros x Hx. apply Hk. apply covers_cons. cbn [fst snd]. lia.
      * cbn [fst]. intros _. apply Hk. apply covers_cons. cbn [fst snd]. lia.
    + reflexivity.
    + intros N. eapply nomem_grows; [exact G5'|exact N|lia|lia].
    + rewrite Kk5. fold B. fold D. intros w6 i6 o6 G6 N6 L6 E6. pose proof (grows_inner p e w w5 w6 G5' G6 ltac:(lia)) as G6'.
      pose proof (ready0_grows ep w5 w6 e e Rd5 G6 ltac:(lia)) as (Hw6&_&_&L06&_&N6'). pose proof Hw6 as (Q1&Q2&Q3&Q4&Q5&Q6).
      ws1. ws1. apply wp_scache; [exact Hw6|unfold live; lia|unfold live; lia|]. rewrite L6, L06. set (w7 := set_host _ _).
      pose proof (grows_stor (slot_mem p) w6 (upd (stor (host w6)) D 0) Hw6) as G7. fold w7 in G7.
      apply wp_nil. wc. try (apply wp_nil). wc. split; [reflexivity|]. split; [eapply grows_trans; [exact G6'|exact G7]|].
      split; [change (gnext w7) with (gnext w6); lia|]. split.
      { change (mem w7) with (mem w6). rewrite (load_be_grows 32 (slot_mem e) w5 w6 p G6) by (first [lia|intros y Hy [Y|Y]; unfold within in Y; lia]).
        rewrite <- Lp3. apply load_be_ext. intros. apply Fm5. unfold within. lia. }
      assert (St7 : stor (host w7) = upd (stor (host w6)) D 0) by reflexivity. rewrite St7. rewrite St5 in E6.
      assert (Sp' : separate ((d, D) :: B)) by exact (separate_tail _ _ Sp).
      pose proof (erased_last _ _ _ _ _ E6 Sp') as (X1&X2&X3&X4&X5).
      assert (Ck : ~ covers ((d, D) :: B) k) by (intros C'; eapply separate_head; [exact Sp| |exact C']; lia).
      assert (Sk : upd (stor (host w6)) D 0 k = 0).
      { rewrite X5; [unfold upd; rewrite Z.eqb_refl; reflexivity| |]; intros C'; apply Ck; apply covers_cons; cbn [fst snd]; auto. }
      split; [exact Sk|]. split; [lia|]. split; [intros; lia|]. split; [auto|]. split.
      * intros x Cx. apply covers_cons in Cx. cbn [fst snd] in Cx. destruct Cx as [Cx|Cx]; [|auto]. destruct (Z.eq_dec x D) as [->|]; [unfold upd; rewrite Z.eqb_refl; reflexivity|apply X2; lia].
      * intros x Hx Cx. assert (Cx' : ~ (d <= x <= D) /\ ~ covers B x) by (split; intros C'; apply Cx; apply covers_cons; cbn [fst snd]; auto).
        rewrite X5 by apply Cx'. unfold upd. rewrite (proj2 (Z.eqb_neq x k)) by lia. reflexivity.
Qed.

Lemma separate_lt : forall a b A, separate ((a, b) :: A) -> b < 2 ^ 256.
Proof. intros a b A (_&G). inversion G as [|? ? (_&X) _]. exact X. Qed.

Lemma deletes_enum : forall vts, deletes (TEnum vts).
Proof.
  intros vts ep w p k o v Rd L Ho Pl Ty Sp _. cbn [erasable] in Pl. apply andb_true_iff in Pl. destruct Pl as (St&Vl).
  rewrite (areas_vecless _ Vl) in *. pose proof Rd as (Hw&He&H1&H0&Hp&Hp2). pose proof Hw as (P1&P2&P3&P4&P5&P6).
  destruct Ty as (tag&vs&->&_). pose proof (costs_nonneg vs) as Cp. assert (Cn : cost (VEnum tag vs) = 68 + costs vs) by reflexivity. rewrite Cn.
  destruct (after_ok (TEnum vts) (k, o)) as (_&B1); [unfold good; cbn; lia|]. apply before_fst in B1. cbn [fst] in B1.
  pose proof (separate_lt _ _ _ Sp) as Kr.
  apply wpf_intro; [reflexivity|]. wc. cbn [app field_size]. ws1. ws1. ws1.
  assert (Er : room (k, o) 0 = (k, o)) by (unfold room; rewrite Z.add_0_r, (proj2 (Z.leb_le o 32)) by lia; reflexivity).
  eapply wp_call_spec; [reflexivity|cbn [List.length]; lia|wc; eapply (accumulate_delete_spec ep w p k o 0); [exact Rd|exact L|exact Ho|lia|rewrite Er; cbn [fst]; lia]|intros []|].
  rewrite Er. intros r1 w1 (->&G1&N1&L1&St1). wc. cbn [fst snd] in *. rewrite (proj2 (Z.leb_le (o + 0) 32)) in St1 by lia. ws1.
  pose proof (ready0_grows ep w w1 p p Rd G1 Hp) as Rd1. pose proof Rd1 as (Hw1&_&_&_&_&Hp1).
  set (T := after (TEnum vts) (k, o)) in *.
  ws1. ws1. eapply wp_call_spec; [reflexivity|cbn [List.length]; lia| | |].
  { wc. instantiate (1 := nomem w (68 + costs vs)). instantiate (1 := fun r w' => r = [snd T] /\ grows (slot_mem p) w w' /\ gnext w' <= gnext w + 68 /\
      load_be 32 (mem w') p = fst T /\ stor (host w') = wipe (Z.to_nat (fst T - k)) (stor (host w)) k).
    apply wpf_intro; [reflexivity|]. wc. ws1. ws1.
    eapply wp_call_spec; [reflexivity|cbn [List.length]; lia|wc; apply (enum_tail_any ep vts w1 p o St Hw1 He Hp Hp1 Ho); rewrite L1; exact Kr| |].
    { intros O. split; [lia|]. pose proof G1 as (_&Mx&_). unfold oom in *. lia. }
    rewrite L1. fold T. intros r2 w2 (->&G2&N2&Hh2&Lt&Lo). wc. set (tp := gnext w1) in *. ws1.
    assert (G2' : grows (slot_mem p) w1 w2) by (eapply grows_mono; [exact G2|]; unfold table, slot_mem; tauto).
    pose proof (grows_trans _ _ _ _ G1 G2') as G12. pose proof (ready0_grows ep w w2 p p Rd G12 Hp) as Rd2.
    assert (L2 : load_be 32 (mem w2) p = k).
    { rewrite <- L1. apply (load_be_grows 32 table w1 w2 p G2); [lia|lia|]. intros a Ha Y. unfold table, within in Y. lia. }
    assert (St2 : stor (host w2) = stor (host w)) by (rewrite Hh2; exact St1).
    apply (wp_loop (fun n l w' => exists j, k + Z.of_nat j + Z.of_nat n = fst T /\ l = [p; o; tp] /\ grows (slot_mem p) w2 w' /\ gnext w' = gnext w2 /\
       load_be 32 (mem w') p = k + Z.of_nat j /\ stor (host w') = wipe j (stor (host w)) k) (Z.to_nat (fst T - k))).
    { exists 0%nat. split; [lia|]. split; [reflexivity|]. split; [apply grows_refl; apply Rd2|]. split; [reflexivity|]. split; [rewrite L2; lia|exact St2]. }
    intros n l w3 (j&Hj&->&G3&N3&L3&S3). pose proof (ready0_grows ep w2 w3 p p Rd2 G3 Hp) as Rd3. pose proof Rd3 as (Hw3&_&H13&H03&_&Hp3). pose proof Hw3 as (S1&S2&S3'&S4&S5&S6).
    assert (Tp : 468 <= tp /\ tp + 36 <= gnext w3 /\ p + 32 <= tp) by (pose proof Hw1 as (_&_&X&_); unfold tp in *; lia).
    assert (Lt3 : load_be 32 (mem w3) tp = fst T).
    { rewrite <- Lt. apply (load_be_grows 32 (slot_mem p) w2 w3 tp G3); [lia|lia|]. intros a Ha [Y|Y]; unfold within in Y; lia. }
    assert (Lo3 : load 4 (mem w3) (tp + 32) = snd T).
    { rewrite <- Lo. apply (load_grows 4 (slot_mem p) w2 w3 (tp + 32) G3); [lia|lia|]. intros a Ha [Y|Y]; unfold within in Y; lia. }
    ws1. ws1. ws1. eapply wp_call; [reflexivity|cbn [List.length]; lia|]. wc. eapply returns_wpf; [apply (a_equals_b_spec 32 w3 p tp Hw3); unfold live; lia|]. wc.
    rewrite eqb_be, L3, Lt3. destruct (Z.eqb_spec (k + Z.of_nat j) (fst T)) as [E|Ne].
    - apply wp_if; intros C5; [|exfalso; cbn in C5; lia]. ws1. ws1. wc. ws1. apply wp_load; [lia|unfold page_size; lia|]. ws1. ws1. ws1. wc.
      split; [rewrite Lo3; reflexivity|]. split; [eapply grows_trans; [exact G12|exact G3]|]. split; [lia|]. split; [rewrite L3; exact E|].
      rewrite S3. f_equal. lia.
    - apply wp_if; intros C5; [exfalso; cbn in C5; lia|]. ws1. ws1. apply wp_scache; [exact Hw3|unfold live; lia|unfold live; lia|]. rewrite L3, H03, S3. set (w4 := set_host _ _).
      ws1. destruct (storage_next_slot_spec ep w4 p Hw3 He H13) as (w5&R5&S5'); [unfold live; cbn [w4 gnext set_host]; lia|lia|].
      change (mem w4) with (mem w3) in R5, S5'. rewrite L3 in R5, S5'. destruct (Z.eqb_spec (k + Z.of_nat j) (2 ^ 256 - 1)) as [X|_]; [exfalso; lia|]. destruct S5' as (F5&V5).
      eapply wp_call; [reflexivity|cbn [List.length]; lia|]. wc. eapply returns_wpf; [exact R5|]. wc. ws1. ws1.
      exists (n - 1)%nat. split; [lia|]. exists (S j). split; [lia|]. split; [reflexivity|].
      assert (G4 : grows (slot_mem p) w3 w4) by (unfold w4; rewrite <- S3; apply (grows_stor (slot_mem p) w3); exact Hw3).
      assert (G5 : grows (slot_mem p) w4 w5).
      { eapply grows_frame; [exact Hw3|exact F5|unfold sub, slot_mem; auto|]. intros a Ha. cbn [w4 gnext set_host]. unfold within in Ha. lia. }
      destruct F5 as (F51&F52&F53&F54&F55&F56&F57).
      split; [eapply grows_trans; [exact G3|eapply grows_trans; [exact G4|exact G5]]|]. split; [rewrite F53; exact N3|]. split; [rewrite V5; lia|].
      rewrite F56, wipe_snoc. reflexivity. }
  { intros N. exact N. }
  intros r2 w2 (->&G2&N2&L2&S2). wc. ws1. ws1. ws1. split; [reflexivity|]. split; [exact G2|]. split; [lia|]. split; [exact L2|]. rewrite S2.
  assert (Wp : forall n st a x, wipe n st a x = if (a <=? x) && (x <? a + Z.of_nat n) then 0 else st x).
  { clear. induction n as [|n IH]; intros st a x; cbn [wipe]; [replace ((a <=? x) && (x <? a + Z.of_nat 0)) with false by lia; reflexivity|].
    rewrite IH. unfold upd. destruct (Z.eqb_spec x a) as [->|N].
    - replace ((a + 1 <=? a) && _) with false by lia. replace ((a <=? a) && _) with true by lia. reflexivity.
    - replace ((a <=? x) && (x <? a + Z.of_nat (S n))) with ((a + 1 <=? x) && (x <? a + 1 + Z.of_nat n)) by lia. reflexivity. }
  split; [split; [exact B1|]; split; [|split; [|split]]|].
  - intros x Hx. rewrite Wp. replace ((k <=? x) && _) with true by lia. reflexivity.
  - right. rewrite Wp. replace ((k <=? fst T) && _) with false by lia. reflexivity.
  - intros x C. destruct (covers_nil x C).
  - intros x Hx _. rewrite Wp. replace ((k <=? x) && _) with false by lia. reflexivity.
  - intros _. rewrite Wp. replace ((k <=? fst T) && _) with false by lia. reflexivity.
Qed.

Lemma deletes_all : forall t, deletes t.
Proof.
  intros t. refine (ty_rec' deletes _ _ _ _ _ _ _ t); clear t; unfold deletes.
  1: intros t St.
  1-4: (intros ep w p k o v Rd L Ho Pl Ty Sp Sh; try (assert (Pl' : plain t = true) by (destruct t; try discriminate; reflexivity); clear Pl; rename Pl' into Pl); pose proof (field_size_range TU256) as _;
    match goal with |- wpf (delete_field _ ?t) _ _ _ =>
      assert (Ea : after t (k, o) = room (k, o) (field_size t)) by first [reflexivity|destruct t; try discriminate; reflexivity];
      assert (Er : areas (keccak (host w)) t v (k, o) = []) by first [reflexivity|destruct t; try discriminate; reflexivity];
      assert (Ed : delete_field ep t = Func 2 0 1 ([ LocalGet 0; LocalGet 1; Const (field_size t); Call (accumulate_delete ep); LocalSet 1 ] ++ [LocalGet 1])) by first [reflexivity|destruct t; try discriminate; reflexivity];
      rewrite Ed; rewrite Ea, Er in *; apply wpf_intro; [reflexivity|]; wc; cbn [app]; ws1; ws1; ws1;
      assert (Kr : fst (room (k, o) (field_size t)) < 2 ^ 256) by exact (separate_lt _ _ _ Sp);
      (eapply wp_call_spec; [reflexivity|cbn [List.length]; lia|wc; eapply (accumulate_delete_spec ep w p k o (field_size t)); [exact Rd|exact L|exact Ho|apply field_size_range|exact Kr]|intros []|]);
      intros r1 w1 (->&G1&N1&L1&S1); wc; ws1; ws1; ws1;
      split; [reflexivity|]; split; [exact G1|]; split; [rewrite N1; pose proof (cost_nonneg v); lia|]; split; [exact L1|];
      split; [rewrite S1; apply erased_step; [apply field_size_range|exact Ho]|intros Z0; exfalso; rewrite <- Ea in Z0; pose proof (after_pos t (k, o) Pl ltac:(unfold good; cbn; lia)); lia]
    end).
  - intros t IH ep w p k o v Rd L Ho Pl Ty Sp Sh. cbn [erasable] in Pl. pose proof Ty as (vs&->&Lv&Tv). cbn [after] in *.
    rewrite areas_vec in *. cbv zeta in *. apply shape_vec in Sh. destruct Sh as (S1&S2). set (H := keccak (host w)) in *.
    set (k1 := fst (room (k, o) 32)) in *. set (d := data_slot H k1) in *. set (A := match vs with [] => [] | _ => _ end) in *.
    all: apply wpf_intro; [reflexivity|]; wc; cbn [app field_size]; ws1; ws1; ws1;
      assert (Kr : fst (room (k, o) 32) < 2 ^ 256) by exact (separate_lt _ _ _ Sp);
      (eapply wp_call_spec; [reflexivity|cbn [List.length]; lia|wc; eapply (accumulate_delete_spec ep w p k o 32); [exact Rd|exact L|exact Ho|lia|exact Kr]|intros []|]).
    all: intros r1 w1 (->&G1&N1&L1&St1); wc; fold k1 in L1; pose proof Rd as (_&_&_&_&Hp&_); pose proof (ready0_grows ep w w1 p p Rd G1 Hp) as Rd1;
      pose proof (keccak_grows _ _ _ G1) as K1; pose proof G1 as (_&_&_&N1'&_).
    all: assert (E1 : erased (stor (host w)) (stor (host w1)) k k1 []) by (rewrite St1; apply erased_step; lia).
    all: assert (Sk : stor (host w1) k1 = stor (host w) k1) by (rewrite St1; unfold k1, room, upd in *; destruct (o + 32 <=? 32); cbn [fst snd] in *; [reflexivity|]; rewrite (proj2 (Z.eqb_neq (k + 1) k)) by lia; reflexivity).
    all: assert (Hk : forall x, covers A x -> stor (host w1) x = stor (host w) x) by (intros x Hx; apply E1; [intros Hx'; eapply separate_head; [exact Sp|exact Hx'|exact Hx]|exact (covers_nil x)]).
    ws1. ws1. eapply wp_call_spec; [reflexivity|cbn [List.length]; lia| | |].
    { (wc; eapply (delete_vector_spec t IH ep w1 p k1 vs); [exact Rd1|exact L1|exact Pl|exact Ty| | |]; try rewrite K1; fold H; fold d; fold A;
      [eapply (separate_sub2 k k1 k1 [] A); [exact Sp|exact (proj1 E1)]|rewrite Sk; exact S1|];
      destruct vs as [|v0 vs0]; [exact Logic.I|]; set (vs := v0 :: vs0) in *;
      destruct (afters_ok (map (fun _ => t) vs) (d, 0)) as (Gd&Bd); [unfold good; cbn; lia|]; apply before_fst in Bd; cbn [fst] in Bd;
      eapply shapes_all; [apply Forall_forall; intros y Hy; apply in_map_iff in Hy; destruct Hy as (?&<-&_); exact Pl|apply typeds_map; exact Tv|unfold good; cbn; lia| | | |exact S2];
      [intros x Hx; apply Hk; apply covers_cons; auto|cbn [fst]; intros x Hx; apply Hk; apply covers_cons; cbn [fst snd]; lia|cbn [fst]; intros _; apply Hk; apply covers_cons; cbn [fst snd]; lia]). }
    { (intros N; eapply nomem_grows; [exact G1|exact N|lia|lia]). }
    rewrite K1; fold H; fold d; fold A; intros r2 w2 (->&G2&N2&L2&S0&E2); wc; ws1; ws1;
      (split; [reflexivity|]); (split; [eapply grows_trans; [exact G1|exact G2]|]); (split; [lia|]); (split; [exact L2|]);
      (split; [change A with ([] ++ A); eapply erased_trans; [exact E1|exact E2|exact Sp]|]).
    intros Z0. exfalso. unfold room in Z0. destruct (o + 32 <=? 32); cbn in Z0; lia.
  - intros key fs IH ep w p k o v Rd L Ho Pl Ty Sp Sh. destruct key; [discriminate|]. pose proof (after_pos _ (k, o) Pl ltac:(unfold good; cbn; lia)) as Ap. cbn [erasable plain] in Pl. apply andb_true_iff in Pl. destruct Pl as (_&Pl).
    apply typed_struct in Ty. destruct Ty as (ow&vs&->&_&Ty). apply shape_struct in Sh. rewrite areas_struct in *. cbn [after] in *. fold (afters fs (k, o)) in *.
    assert (Pf : Forall (fun t => erasable t = true) fs) by (apply plain_erasables; apply Forall_forall; rewrite forallb_forall in Pl; exact Pl).
    assert (Er : room (k, o) 0 = (k, o)) by (unfold room; rewrite Z.add_0_r, (proj2 (Z.leb_le o 32)) by lia; reflexivity).
    set (H := keccak (host w)) in *. change (cost (VStruct ow vs)) with (costs vs).
    destruct (afters_ok fs (k, o)) as (Gd&Bd); [unfold good; cbn; lia|]. apply before_fst in Bd. cbn [fst] in Bd.
    apply wpf_intro; [reflexivity|]. wc. cbn [app field_size]. ws1. ws1. ws1.
    assert (Kr : fst (room (k, o) 0) < 2 ^ 256) by (rewrite Er; cbn [fst]; pose proof (separate_lt _ _ _ Sp); lia).
    eapply wp_call_spec; [reflexivity|cbn [List.length]; lia|wc; eapply (accumulate_delete_spec ep w p k o 0); [exact Rd|exact L|exact Ho|lia|exact Kr]|intros []|].
    rewrite Er. intros r1 w1 (->&G1&N1&L1&St1). wc. cbn [fst snd] in *. rewrite (proj2 (Z.leb_le (o + 0) 32)) in St1 by lia. ws1.
    pose proof Rd as (_&_&_&_&Hp&_). pose proof (ready0_grows ep w w1 p p Rd G1 Hp) as Rd1. pose proof (keccak_grows _ _ _ G1) as K1. pose proof G1 as (_&_&_&N1'&_).
    rewrite <- app_assoc.
    eapply (delete_fields_wp fs IH ep w1 p k o vs).
    + exact Rd1.
    + exact L1.
    + exact Ho.
    + exact Pf.
    + exact Ty.
    + rewrite K1. exact Sp.
    + rewrite K1, St1. exact Sh.
    + intros N. eapply nomem_grows; [exact G1|exact N|lia|lia].
    + rewrite K1, St1. fold H. intros w2 G2 N2 L2 E2. pose proof (ready0_grows ep w1 w2 p p Rd1 G2 Hp) as (Hw2&_&_&L02&_&N2'). pose proof Hw2 as (Q1&Q2&Q3&Q4&Q5&Q6).
      cbn [app]. ws1. ws1. apply wp_scache; [exact Hw2|unfold live; lia|unfold live; lia|]. rewrite L2, L02. set (w3 := set_host _ _).
      ws1. ws1. split; [reflexivity|]. split; [eapply grows_trans; [exact G1|eapply grows_trans; [exact G2|apply grows_stor; exact Hw2]]|].
      split; [change (gnext w3) with (gnext w2); lia|]. split; [exact L2|]. change (stor (host w3)) with (upd (stor (host w2)) (fst (afters fs (k, o))) 0).
      split; [apply erased_last; [exact E2|exact Sp]|]. intros Z0. exfalso. cbn [after] in Ap. fold (afters fs (k, o)) in Ap. lia.
  - intros vts _ ep w p k o v. apply (deletes_enum vts ep w p k o v).
Qed.

(** ** Objects *)

(** storage/common.rs 30-68 [add_delete_storage_struct_instructions] for the fields [fs] of an object (its
    id is skipped); inlined into its caller in the code.  Locals: 0 slot_ptr, 1 slot_offset. *)
Definition delete_fields (ep : errtab) (fs : list ty) : func := Func 2 0 0
 (List.concat (map (fun t' => [ LocalGet 0; LocalGet 1; Call (delete_field ep t'); LocalSet 1 ]) fs) ++
  [ LocalGet 0; Const 0; Host H_storage_cache ]).

(** runtime/storage.rs 945-1030 [add_delete_struct_from_storage_fn] for an object with the fields [fs]
    after its id.  Locals: 0 struct_ptr, 1 slot_ptr, 2 slot_offset, 3 the error. *)
Definition delete_object (ep : errtab) (fs : list ty) : func := Func 1 3 0
 [ Block "block" 0
     ([ LocalGet 0; Call get_struct_owner; Const A_FROZEN; Const 32; Call a_equals_b; Un Eqz; BrIf "block" ] ++
      return_error ep FrozenObjectsCannotBeDeleted 3 false);
   Const A_SLOT_DATA; Const 0; Const 32; MemFill;
   LocalGet 0; Call locate_struct_slot; Const A_OBJ_SLOT; LocalSet 1;
   Const 8; LocalSet 2;
   LocalGet 1; LocalGet 2; Call (delete_fields ep fs);
   LocalGet 0; Call get_struct_owner; Const 0; Const 32; MemFill ].

Lemma eqb_be : forall m a b, (load 32 m a =? load 32 m b) = (load_be 32 m a =? load_be 32 m b).
Proof.
  intros m a b. destruct (Z.eqb_spec (load 32 m a) (load 32 m b)) as [E|E]; destruct (Z.eqb_spec (load_be 32 m a) (load_be 32 m b)) as [F|F]; try reflexivity; exfalso.
  - apply F. apply load_be_ext. apply load_inj. exact E.
  - apply E. apply load_ext. apply load_be_inj. exact F.
Qed.

Definition zeros : memory := fun _ => 0.
Lemma zero_be : forall m a, (load 32 m a =? 0) = (load_be 32 m a =? 0).
Proof.
  intros m a. assert (Z0 : load 32 zeros 0 = 0) by reflexivity. assert (Z1 : load_be 32 zeros 0 = 0) by reflexivity.
  destruct (Z.eqb_spec (load 32 m a) 0) as [E|E]; destruct (Z.eqb_spec (load_be 32 m a) 0) as [F|F]; try reflexivity; exfalso.
  - apply F. transitivity (load_be 32 zeros 0); [|exact Z1]. apply load_be_ext. apply load_inj. rewrite Z0. exact E.
  - apply E. transitivity (load 32 zeros 0); [|exact Z0]. apply load_ext. apply load_be_inj. rewrite Z1. exact F.
Qed.

Lemma returns_intro : forall f args w vs w', wpf f args w (resq (fun r u => r = vs /\ u = w') False) -> returns f args w vs w'.
Proof. intros. apply wpf_returns in H. destruct H as (?&?&?&->&->). auto. Qed.

Lemma owner_spec : forall w x, 32 <= x < 2 ^ 32 -> returns get_struct_owner [x] w [x - 32] w.
Proof. intros w x Hx. apply pure_intro. apply wpf_intro; [reflexivity|]. wc. ws1. ws1. ws1. ws1. auto. Qed.

(** The memory deleting the object at [x] works in. *)
Definition del_mem (x : Z) : mset := fun y => slot_mem 128 y \/ within 404 64 y \/ within (x - 32) 32 y.

(** Where an object at [x] is in memory: its owner, pointer to the id and id. *)
Definition placed_at (w : world) (x : Z) (owner id : Z) : Prop :=
  500 <= x /\ x + 4 <= gnext w /\ load_be 32 (mem w) (x - 32) = owner /\
  (let a := load 4 (mem w) x in 468 <= a /\ a + 4 <= gnext w /\
   let b := load 4 (mem w) a in 468 <= b /\ b + 4 <= gnext w /\
   let c := load 4 (mem w) b in 468 <= c /\ c + 32 <= gnext w /\ load_be 32 (mem w) c = id).

Lemma object_placed : forall w fs owner id vs x F, object_at (mem w) fs owner id vs x F -> sub F (heap w) -> placed_at w x owner id.
Proof.
  intros w fs owner id vs x F (a&b&c&G&La&Lb&Lc&Li&Lo&Sx&Sa&Sb&Sc&_) SF. unfold placed_at.
  destruct (heap_block F w (x - 32) (36 + 4 * Z.of_nat (List.length fs)) SF) as (X1&X2); [replace (x - 32 + (36 + 4 * Z.of_nat (List.length fs))) with (x + 4 + 4 * Z.of_nat (List.length fs)) by lia; exact Sx|lia|].
  destruct (heap_block F w a 4 SF Sa) as (A1&A2); [lia|]. destruct (heap_block F w b 4 SF Sb) as (B1&B2); [lia|]. destruct (heap_block F w c 32 SF Sc) as (C1&C2); [lia|].
  split; [lia|]. split; [lia|]. split; [exact Lo|]. cbv zeta. rewrite La, Lb, Lc. auto 10.
Qed.

(** A frozen object is refused; nothing but the error changes. *)
Lemma delete_object_frozen : forall ep fs w x id, wok w -> statics w -> placed_at w x frozen_owner id ->
  returns (delete_object ep fs) [x] w [] (set_mem w (store 4 (mem w) 256 (ep FrozenObjectsCannotBeDeleted))).
Proof.
  intros ep fs w x id Hw (Z0&Z1&Z2&Z3&Z4) (X1&X2&Lo&_). pose proof Hw as (P1&P2&P3&P4&P5&P6).
  apply returns_intro. apply wpf_intro; [reflexivity|]. wc. unfold A_FROZEN. apply wp_block. cbn [app].
  ws1. eapply wp_call; [reflexivity|cbn [List.length]; lia|]. wc. eapply returns_wpf; [apply owner_spec; lia|]. wc.
  ws1. ws1. eapply wp_call; [reflexivity|cbn [List.length]; lia|]. wc.
  eapply returns_wpf; [apply (a_equals_b_spec 32); [exact Hw|unfold live; lia|unfold live; lia]|]. wc.
  rewrite eqb_be, Lo, Z4, Z.eqb_refl. cbn [b2z]. ws1. apply wp_brif; intros C; unb C; [exfalso; lia|]. wc.
  werr; [exact Hw|]. auto.
Qed.

Lemma deletes_list : forall fs, Forall deletes fs.
Proof. intros. apply Forall_forall. intros t _. apply deletes_all. Qed.

(** Any other object: what storage holds for it is erased, and so is the owner in memory. *)
Lemma delete_object_spec : forall ep fs w x owner id vs, wok w -> errtab_ok ep -> statics w -> placed_at w x owner id -> owner <> frozen_owner ->
  Forall (fun t => erasable t = true) fs -> typeds fs vs ->
  let H := keccak (host w) in let k := slot_of (host w) owner id in
  separate (slots H fs vs (k, 8)) -> shapes H (stor (host w)) fs vs (k, 8) ->
  wpf (delete_object ep fs) [x] w (resq (fun r w' => r = [] /\ grows (del_mem x) w w' /\ gnext w' <= gnext w + costs vs /\
     load_be 32 (mem w') (x - 32) = 0 /\
     (forall y, covers (slots H fs vs (k, 8)) y -> stor (host w') y = 0) /\
     (forall y, ~ covers (slots H fs vs (k, 8)) y -> stor (host w') y = stor (host w) y)) (nomem w (costs vs))).
Proof.
  intros ep fs w x owner id vs Hw He (Z0&Z1&Z2&Z3&Z4) (X1&X2&Lo&Pt) No Pl Ty H k Sp Sh. pose proof Hw as (P1&P2&P3&P4&P5&P6).
  cbv zeta in Pt. destruct Pt as (A1&A2&B1&B2&C1&C2&Li).
  apply wpf_intro; [reflexivity|]. wc. unfold A_FROZEN. apply wp_block. cbn [app].
  ws1. eapply wp_call; [reflexivity|cbn [List.length]; lia|]. wc. eapply returns_wpf; [apply owner_spec; lia|]. wc.
  ws1. ws1. eapply wp_call; [reflexivity|cbn [List.length]; lia|]. wc.
  eapply returns_wpf; [apply (a_equals_b_spec 32); [exact Hw|unfold live; lia|unfold live; lia]|]. wc.
  rewrite eqb_be, Lo, Z4, (proj2 (Z.eqb_neq owner frozen_owner)) by exact No. cbn [b2z]. ws1. apply wp_brif; intros C; unb C; [|exfalso; lia]. wc. clear C.
  unfold A_SLOT_DATA, A_OBJ_SLOT. ws1. ws1. ws1. ws1. set (w1 := set_mem w _). assert (Pg1 : pages w1 = pages w) by reflexivity. assert (Gn1 : gnext w1 = gnext w) by reflexivity.
  assert (F1 : forall a, ~ within 64 32 a -> rd (mem w1) a = rd (mem w) a).
  { intros a Ha. unfold within in Ha. cbn [w1 mem set_mem]. apply rd_mfill_out. lia. }
  assert (G1 : grows (del_mem x) w w1).
  { apply grows_set_mem; [exact Hw| |]; unfold del_mem, slot_mem, within; [|intros; lia]. intros a Ha. apply F1. unfold within. lia. }
  assert (Hw1 : wok w1) by apply G1.
  assert (Ld : forall y n, 96 <= y -> load n (mem w1) y = load n (mem w) y) by (intros; apply load_ext; intros; apply F1; unfold within; lia).
  assert (Lb : forall y n, 96 <= y -> load_be n (mem w1) y = load_be n (mem w) y) by (intros; apply load_be_ext; intros; apply F1; unfold within; lia).
  assert (Ei : id_ptr (mem w1) x = load 4 (mem w) (load 4 (mem w) (load 4 (mem w) x))) by (unfold id_ptr; rewrite (Ld x), (Ld (load 4 (mem w) x)), (Ld (load 4 (mem w) (load 4 (mem w) x))) by lia; reflexivity).
  destruct (locate_struct_slot_spec w1 x Hw1) as (m2&R2&V2&F2).
  { rewrite Lb by lia. exact Z2. }
  { lia. }
  { unfold live. lia. }
  { rewrite Ld by lia. unfold live. lia. }
  { rewrite (Ld x), (Ld (load 4 (mem w) x)) by lia. unfold live. lia. }
  { rewrite Ei. unfold live. lia. }
  { rewrite Ei. lia. }
  rewrite Ei, !Lb, Lo, Li in V2 by lia. change (host w1) with (host w) in V2. fold k in V2. set (w2 := set_mem w1 m2) in *.
  assert (G2 : grows (del_mem x) w w2).
  { eapply grows_trans; [exact G1|]. apply grows_set_mem; [exact Hw1| |]; unfold del_mem, slot_mem, within; [|cbn [w1 gnext set_mem]; intros; lia].
    intros a Ha. apply F2; unfold within; lia. }
  assert (Hw2 : wok w2) by apply G2. assert (Gn2 : gnext w2 = gnext w) by reflexivity. assert (Hh2 : host w2 = host w) by reflexivity.
  assert (F12 : forall a, ~ within 64 32 a -> ~ within 128 32 a -> ~ within 404 64 a -> rd (mem w2) a = rd (mem w) a).
  { intros a Ha Hb Hc. cbn [w2 mem set_mem]. rewrite F2 by assumption. apply F1. exact Ha. }
  ws1. eapply wp_call; [reflexivity|cbn [List.length]; lia|]. wc. eapply returns_wpf; [exact R2|]. wc. ws1. ws1. ws1. ws1. ws1. ws1.
  assert (Rd2 : ready0 ep w2 128).
  { split; [exact Hw2|]. split; [exact He|]. split; [|split; [|lia]].
    - rewrite <- Z1. apply load_ext. intros. apply F12; unfold within; lia.
    - transitivity (load_be 32 (mem w) 0); [|exact Z0]. apply load_be_ext. intros. apply F12; unfold within; lia. }
  destruct (afters_ok fs (k, 8)) as (Gd&Bd); [unfold good; cbn; lia|]. apply before_fst in Bd. cbn [fst] in Bd.
  set (D := fst (afters fs (k, 8))) in *. set (A := areas_of H fs vs (k, 8)) in *.
  eapply wp_call_spec; [reflexivity|cbn [List.length]; lia| | |].
  { wc. instantiate (1 := nomem w (costs vs)). instantiate (1 := fun r w' => r = [] /\ grows (slot_mem 128) w2 w' /\ gnext w' <= gnext w2 + costs vs /\
      (forall y, covers (slots H fs vs (k, 8)) y -> stor (host w') y = 0) /\ (forall y, ~ covers (slots H fs vs (k, 8)) y -> stor (host w') y = stor (host w) y)).
    apply wpf_intro; [reflexivity|]. wc.
    eapply (delete_fields_wp fs (deletes_list fs) ep w2 128 k 8 vs).
    - exact Rd2.
    - exact V2.
    - lia.
    - exact Pl.
    - exact Ty.
    - exact Sp.
    - exact Sh.
    - intros N. eapply nomem_grows; [exact G2|exact N|lia|lia].
    - rewrite Hh2. fold H. fold D. fold A. intros w3 G3 N3 L3 E3. pose proof (ready0_grows ep w2 w3 128 128 Rd2 G3 ltac:(lia)) as (Hw3&_&_&L03&_&N3').
      pose proof Hw3 as (Q1&Q2&Q3&Q4&Q5&Q6). ws1. ws1. apply wp_scache; [exact Hw3|unfold live; lia|unfold live; lia|]. rewrite L3, L03. set (w4 := set_host _ _). apply wp_nil. wc.
      split; [reflexivity|]. split; [eapply grows_trans; [exact G3|apply grows_stor; exact Hw3]|]. split; [exact N3|].
      change (stor (host w4)) with (upd (stor (host w3)) D 0). pose proof (erased_last _ _ _ _ _ E3 Sp) as (Y1&Y2&Y3&Y4&Y5). unfold slots. fold D. fold A. cbn [fst]. split.
      + intros y Cy. apply covers_cons in Cy. cbn [fst snd] in Cy. destruct Cy as [Cy|Cy]; [|apply Y4; exact Cy].
        destruct (Z.eq_dec y D) as [->|]; [unfold upd; rewrite Z.eqb_refl; reflexivity|apply Y2; lia].
      + intros y Cy. apply Y5; intros C'; apply Cy; apply covers_cons; cbn [fst snd]; auto. }
  { intros N. exact N. }
  intros r3 w3 (->&G3&N3&S1&S2). wc. pose proof G3 as (Hw3&_&_&N3'&_). pose proof Hw3 as (Q1&Q2&Q3&Q4&Q5&Q6).
  assert (G3' : grows (del_mem x) w w3).
  { eapply grows_trans; [exact G2|]. eapply grows_mono; [exact G3|]. intros y _ Hy. left. exact Hy. }
  ws1. eapply wp_call; [reflexivity|cbn [List.length]; lia|]. wc. eapply returns_wpf; [apply owner_spec; lia|]. wc. ws1. ws1. ws1. set (w4 := set_mem w3 _). ws1.
  split; [reflexivity|]. split; [|split; [change (gnext w4) with (gnext w3); lia|split; [|split; [exact S1|exact S2]]]].
  - eapply grows_trans; [exact G3'|]. apply grows_set_mem; [exact Hw3| |]; unfold del_mem, slot_mem, within; [|intros; lia].
    intros a Ha. apply rd_mfill_out. lia.
  - apply load_be_zero. intros y Hy. cbn [w4 mem set_mem]. rewrite rd_mfill_in by lia. reflexivity.
Qed.
