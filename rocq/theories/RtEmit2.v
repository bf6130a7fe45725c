(** * Events: the data of the log, and the whole function. *)

From Verif Require Import Tac RtAlloc RtErr RtEq RtDiv RtShift RtSwap RtAscii Ops SpecVal LemVal SpecAbi LemAbi RtCopy RtStor SpecSol RtAbi RtPack RtPack2 SpecEvent RtEvent RtEmit.
Ltac Zify.zify_post_hook ::= idtac.

Lemma wp_mcopy_trap : forall r (Q : outcome -> Prop) n src dst s l w, page_size * pages w < src + n -> Q OTrap ->
  wp (MemCopy :: r) Q (n :: src :: dst :: s) l w.
Proof.
  intros. apply wp_basic_stop; [reflexivity|]. cbn [step]. replace (inb w src n) with false; [assumption|]. symmetry. unfold inb. lia.
Qed.

(** The copy that drops the offset of dynamic data also copies [32 * c] bytes beyond the heap: those
    must not cross the end of a page. *)
Definition spills (w : world) (n c : Z) : Prop := exists k, gnext w + n <= 65536 * k < gnext w + n + 32 * c.

Lemma data_ok : forall ep n ts r (Q : outcome -> Prop) s l w0 w ds X F B c,
  nth_error l 0 = Some X -> nth_error l 3 = Some B -> (10 <= List.length l)%nat -> wok w0 -> extends w0 w -> abort_flag w0 = 0 ->
  (ts = [] \/ wf_aty (AStruct ts)) -> vrep (mem w0) (mty (AStruct ts)) (VStruct 0 ds) (X + 4 * Z.of_nat n) F -> sub F (heap w0) -> (ts = [] \/ 0 <= X) ->
  468 <= B -> 0 <= c -> gnext w = B + 32 * c -> lenz (enc_args ts ds) < 2147483648 ->
  (oom w ((if existsb dynamic ts then 32 else 0) + lenz (enc_args ts ds)) -> Q OTrap) ->
  (existsb dynamic ts = true -> spills w (32 + lenz (enc_args ts ds)) c -> Q OTrap) ->
  (forall l' w', nth_error l' 3 = Some B -> nth_error l' 7 = Some (32 * c + lenz (enc_args ts ds)) -> extends w w' ->
     gnext w' = gnext w + (if existsb dynamic ts then 32 else 0) + lenz (enc_args ts ds) ->
     bytes_at (mem w') (gnext w) (enc_args ts ds) -> wp r Q s l' w') ->
  wp (data_code ep n ts ++ r) Q s l w.
Proof.
  intros ep n ts r Q s l w0 w ds X F B c NX NB Hl Hw0 E0 Fl0 Wf V SF HX HB Hc GB Hlen T TS K.
  pose proof E0 as (Hw&M1&M2&M3&M4&M5&Ow). pose proof Hw as (J1&J2&J3&J4&J5&J6). pose proof Hw0 as (P1&P2&P3&P4&P5&P6).
  assert (Fl : abort_flag w = 0).
  { rewrite <- Fl0. unfold abort_flag. apply load_ext. change (Z.of_nat 4) with 4. intros. apply Ow. lia. }
  pose proof (lenz_nonneg (enc_args ts ds)) as Ln.
  pose proof (enc_struct ts 0 ds) as Ee. change (tuple (field_parts ts ds)) with (enc_args ts ds) in Ee.
  assert (Hd : dynamic (AStruct ts) = existsb dynamic ts) by reflexivity.
  assert (He : existsb is_dynamic ts = existsb dynamic ts) by apply existsb_dynamic_eq.
  destruct ts as [|t0 ts0].
  - (* no data *)
    cbn [data_code]. cbn [app]. apply wp_pos; [exact Hw|intros O; apply T; eapply oom_mono; [exact O|cbn [existsb]; lia]|]. intros w1 E1 G1 Em.
    eapply wp_lget; [exact NB|]. ws1. ls.
    assert (ds = []) as -> by (cbn [mty vrep map fields] in V; destruct V as (o&vs&G&Ev&_&_&_&_&N); injection Ev as _ <-; destruct ds; [reflexivity|contradiction]).
    assert (En : enc_args [] [] = []) by reflexivity. rewrite En in *.
    apply K; [rewrite set_nth_other by lia; exact NB| |exact E1|cbn [existsb]; unfold lenz; cbn [List.length]; lia|reflexivity].
    rewrite set_nth_same by lia. f_equal. unfold lenz. cbn [List.length]. lia.
  - destruct HX as [HX|HX]; [discriminate HX|]. destruct Wf as [Wf|Wf]; [discriminate Wf|]. pose proof (vrep_has (AStruct (t0 :: ts0)) _ _ _ _ Wf V) as Hv.
    assert (HXl : 468 <= X + 4 * Z.of_nat n /\ X + 4 * Z.of_nat n < gnext w0).
    { cbn [mty vrep] in V. destruct V as (o&vs&G&_&_&S1&_). destruct (sub_live (X + 4 * Z.of_nat n) 4 F w0) as [A1 A2]; [|exact SF|lia|lia].
      eapply sub_trans; [|exact S1]. apply between_sub; cbn [map List.length]; lia. }
    cbn [data_code]. set (ts := t0 :: ts0) in *. rewrite He.
    set (dyn := existsb dynamic ts) in *.
    assert (Hh : dyn = false -> head_size (AStruct ts) = lenz (enc_args ts ds)).
    { intros D. rewrite <- Ee. symmetry. apply static_len; [exact Hv|]. rewrite Hd. exact D. }
    assert (Hh2 : dyn = true -> head_size (AStruct ts) = 32).
    { intros D. cbn [head_size]. fold dyn. rewrite D. reflexivity. }
    set (hz := if dyn then 32 else encoded_size (AStruct ts)) in *.
    assert (Hze : hz = if dyn then 32 else head_size (AStruct ts)) by (unfold hz; rewrite encoded_size_eq; cbn [head_size]; fold dyn; destruct dyn; reflexivity).
    clearbody hz.
    assert (Hz : hz = head_size (AStruct ts) /\ 0 <= hz < 2147483648).
    { rewrite Hze. destruct dyn; [rewrite Hh2 by reflexivity; lia|]. rewrite Hh by reflexivity. lia. }
    destruct Hz as [Hz Hzr].
    assert (Hg : X + 4 * Z.of_nat n < 4294967296) by lia.
    assert (Hn0 : 0 <= 4 * Z.of_nat n < 4294967296) by lia.
    cbn [app]. eapply wp_lget; [exact NX|]. ws1. ws1. ls.
    match goal with |- wp _ _ _ ?L _ => remember L as l1 eqn:El1 end.
    assert (L1 : List.length l1 = List.length l) by (rewrite El1; apply set_nth_length).
    assert (N9 : nth_error l1 9 = Some (X + 4 * Z.of_nat n)) by (rewrite El1; apply set_nth_same; lia).
    assert (N3 : nth_error l1 3 = Some B) by (rewrite El1, set_nth_other by lia; exact NB). clear El1.
    ws1. wcall alloc_spec; [exact Hw|lia|intros O; apply T; eapply oom_mono; [exact O|rewrite Hze; destruct dyn; [lia|rewrite Hh by reflexivity; lia]]|].
    intros rs w1 [-> Al]. wc.
    pose proof Al as (Hw1&Em&B1&B2&B3&B4&B5). pose proof Hw1 as (R1&R2&R3&R4&R5&R6). set (p := gnext w) in *.
    assert (E1 : extends w w1) by (apply (alloc_extends _ _ _ Hw Al); lia).
    lt. ls. match goal with |- wp _ _ _ ?L _ => remember L as l2 eqn:El2 end.
    assert (L2 : List.length l2 = List.length l) by (rewrite El2, !set_nth_length; exact L1).
    assert (N29 : nth_error l2 9 = Some (X + 4 * Z.of_nat n)) by (rewrite El2, !set_nth_other by lia; exact N9).
    assert (N23 : nth_error l2 3 = Some B) by (rewrite El2, !set_nth_other by lia; exact N3).
    assert (N21 : nth_error l2 1 = Some p) by (rewrite El2, set_nth_other by lia; apply set_nth_same; lia).
    assert (N28 : nth_error l2 8 = Some p) by (rewrite El2; apply set_nth_same; rewrite set_nth_length; lia). clear El2.
    eapply wp_lget; [exact N29|]. eapply wp_lget; [exact N21|]. eapply wp_lget; [exact N28|]. ws1.
    change (map (fun f => (mty f, slot_size f, pack_code ep f (propagate false) (propagate false) (val_local (mty f)) 7 8)) ts) with (map (field_code ep) ts).
    replace (if dyn then 1 else 0) with (if dynamic (AStruct ts) then 1 else 0) by (rewrite Hd; reflexivity).
    assert (PS : wpf (pack_struct (encoded_size (AStruct ts)) (map (field_code ep) ts)) [X + 4 * Z.of_nat n; p; p; if dynamic (AStruct ts) then 1 else 0] w1
       (resq (fun vs w' => vs = [] /\ packs w1 w' p (hpart (AStruct ts) (gnext w1 - p) (VStruct 0 ds)) (tpart (AStruct ts) (VStruct 0 ds)))
          (oom w1 (lenz (tpart (AStruct ts) (VStruct 0 ds)))))).
    { apply (pack_struct_spec ts ep w1 (VStruct 0 ds) (X + 4 * Z.of_nat n) p p F).
      - apply Forall_forall. intros. apply pack_all.
      - exact Wf.
      - exact Hw1.
      - rewrite <- Fl. unfold abort_flag. rewrite Em. reflexivity.
      - eapply vrep_ext; [|exact V]. intros a Fa. rewrite Em. apply Ow. apply SF in Fa. unfold heap, between in Fa. lia.
      - eapply sub_trans; [exact SF|]. unfold heap. apply between_sub; lia.
      - lia.
      - rewrite <- Hz. lia.
      - rewrite <- Hz. apply (zeroed_fresh _ _ _ Hw Al).
      - intros a Fa Ka. apply SF in Fa. unfold heap, between in *. lia.
      - lia.
      - rewrite Ee. exact Hlen. }
    assert (Lt : lenz (tpart (AStruct ts) (VStruct 0 ds)) = if dyn then lenz (enc_args ts ds) else 0).
    { unfold tpart. rewrite Hd. destruct dyn; [rewrite Ee; reflexivity|reflexivity]. }
    wcall PS.
    { intros O. apply T. eapply extends_oom; [exact E1|exact O|]. rewrite Lt. fold p. destruct dyn; [lia|rewrite <- Hh by reflexivity; lia]. }
    intros rs w2 [-> Pk]. wc. unfold hpart, tpart in *. rewrite Hd in *. destruct dyn eqn:Dy.
    + (* dynamic *)
      rewrite Ee in *. pose proof Pk as (C1&C2&C3&C4&C5&C6&C7&C8&C9). pose proof C1 as (Q1&Q2&Q3&Q4&Q5&Q6).
      rewrite Hze in *. rewrite B3 in C7, C6, C8. rewrite lenz_word in C9.
      assert (E2 : extends w w2).
      { unfold extends. split; [exact C1|]. repeat (split; [first [congruence|lia]|]). intros a Ha. rewrite C9 by (unfold within; lia). rewrite Em. reflexivity. }
      cbn [app]. eapply wp_lget; [exact N28|]. eapply wp_lget; [exact N28|]. ws1. ws1.
      apply wp_pos; [exact C1|intros O; apply T; eapply extends_oom; [exact E2|exact O|lia]|].
      intros w3 E3 G3 Em3. pose proof E3 as (Hw3&V1&V2&_&_&V5&_). pose proof Hw3 as (S1&S2&S3&S4&S5&S6).
      eapply wp_lget; [exact N23|]. ws1. ws1. ws1.
      lt. set (e := enc_args ts ds) in *.
      replace (gnext w2 - (B + 32)) with (32 * c + lenz e) by lia.
      destruct (Z_le_gt_dec (p + 32 + (32 * c + lenz e)) (page_size * pages w3)) as [Hok|Hbad].
      2:{ apply wp_mcopy_trap; [lia|]. apply TS; [reflexivity|]. exists (pages w3). unfold page_size in *. fold p. lia. }
      apply wp_mcopy; [lia|lia|lia|lia|].
      set (m := mcopy (mem w3) p (p + 32) (32 * c + lenz e)).
      assert (Z3 : forall a, gnext w3 <= a -> rd m a = 0).
      { intros a Ha. unfold m. destruct (Z_lt_ge_dec a (p + (32 * c + lenz e))).
        - rewrite rd_mcopy_in by lia. apply S6. lia.
        - rewrite rd_mcopy_out by lia. apply S6. lia. }
      apply K.
      * rewrite set_nth_other by lia. exact N23.
      * apply set_nth_same. lia.
      * assert (W4 : wok (set_mem w3 m)) by (apply wok_set_mem; [exact Hw3|]; intros x Hx; rewrite Z3, S6 by lia; reflexivity).
        unfold extends. split; [exact W4|]. cbn [maxpages pages gnext gcd host set_mem mem].
        destruct E2 as (_&F1&F2&F3&F4&F5&F6). destruct E3 as (_&F1'&F2'&F3'&F4'&F5'&F6').
        repeat (split; [first [congruence|lia]|]). intros a Ha. unfold m. rewrite rd_mcopy_out by lia. rewrite Em3. apply F6. exact Ha.
      * cbn [gnext set_mem]. fold p. lia.
      * cbn [mem set_mem]. fold p. unfold bytes_at in *. etransitivity; [|exact C8]. apply bytes_ext. intros x Hx.
        unfold m. unfold lenz in *. rewrite rd_mcopy_in by lia. rewrite Em3. f_equal. lia.
    + (* static *)
      rewrite Ee in *. rewrite Hh in Hze, Hz by reflexivity. rewrite Hze in *.
      assert (Ap : appended w w2 (enc_args ts ds)) by (eapply packs_appended; [exact Hw|exact Al|exact Pk]).
      destruct Ap as (E2&G2&Bs). pose proof E2 as (Hw2&_). pose proof Hw2 as (S1&S2&S3&S4&S5&S6). fold p in G2, Bs.
      cbn [app]. apply wp_pos; [exact Hw2|intros O; apply T; eapply extends_oom; [exact E2|exact O|fold p; lia]|].
      intros w3 E3 G3 Em3. eapply wp_lget; [exact N23|]. ws1. ls. replace (gnext w2 - B) with (32 * c + lenz (enc_args ts ds)) by lia.
      apply K.
      * rewrite set_nth_other by lia. exact N23.
      * apply set_nth_same. lia.
      * eapply extends_trans; eauto.
      * fold p. lia.
      * fold p. rewrite Em3. exact Bs.
Qed.

(** ** The whole function *)

Lemma fields_app : forall Rs1 Rs2 m vs ds a G, List.length vs = List.length Rs1 -> fields (Rs1 ++ Rs2) m (vs ++ ds) a G ->
  exists G1 G2, fields Rs1 m vs a G1 /\ fields Rs2 m ds (a + 4 * Z.of_nat (List.length Rs1)) G2 /\ sub G1 G /\ sub G2 G.
Proof.
  induction Rs1 as [|R Rs IH]; intros Rs2 m [|v vs] ds a G L H; cbn [List.length] in L; try discriminate L.
  - exists G, G. cbn [app] in H. split; [exact Logic.I|]. split; [rewrite Z.add_0_r; exact H|]. split; apply sub_refl.
  - cbn [app fields] in H. destruct H as (F1&F2&V1&V2&D&S1&S2). injection L as L.
    destruct (IH Rs2 m vs ds (a + 4) F2 L V2) as (G1&G2&H1&H2&S3&S4).
    exists G, G2. split; [|split; [|split; [apply sub_refl|eapply sub_trans; eauto]]].
    + cbn [fields]. exists F1, G1. split; [exact V1|]. split; [exact H1|]. split; [eapply disj_sub; [exact D|apply sub_refl|exact S3]|]. split; [exact S1|eapply sub_trans; eauto].
    + cbn [List.length]. replace (a + 4 * Z.of_nat (Datatypes.S (List.length Rs))) with (a + 4 + 4 * Z.of_nat (List.length Rs)) by lia. exact H2.
Qed.

(** What emitting an event takes from the heap. *)
Definition event_cost (e : event) (vs ds : list val) : Z :=
  index_costs (e_indexed e) vs + 32 * topic_count e + (if existsb dynamic (e_data e) then 32 else 0) + lenz (enc_args (e_data e) ds).

Definition emit_traps (w : world) (e : event) (n : Z) : Prop :=
  oom w n \/ existsb istr (e_indexed e) = true /\ crosses w n \/ existsb dynamic (e_data e) = true /\ spills w n (topic_count e).

Lemma crosses_mono : forall w n k, crosses w n -> n <= k -> crosses w k.
Proof. intros w n k (j&H1&H2) H. exists j. lia. Qed.

Theorem emit_spec : forall ep e w X vs ds, event_ok e -> wok w -> abort_flag w = 0 -> List.length vs = List.length (e_indexed e) ->
  vrep (mem w) (event_ty e) (VStruct 0 (vs ++ ds)) X (heap w) -> fold_right and True (map nonempty vs) -> event_cost e vs ds < 2147483648 ->
  wpf (emit ep e) [X] w (resq (fun rs w' => rs = [] /\ exists w1, extends w w1 /\ gnext w1 = gnext w + event_cost e vs ds /\
      w' = set_host w1 (set_logs (host w) (log_of (keccak (host w)) e vs ds :: h_logs (host w))))
    (emit_traps w e (event_cost e vs ds))).
Proof.
  intros ep e w X vs ds (Sok&Iok&Dok&Tc&Dl) Hw Fl Lv V Ne Hn. pose proof Hw as (P1&P2&P3&P4&P5&P6).
  unfold event_ty in V. cbn [vrep] in V. destruct V as (o&vs'&G&Ev&_&S1&S2&D1&V). injection Ev as _ <-.
  rewrite app_length, !map_length in *. rewrite map_app in V.
  apply fields_app in V; [|rewrite !map_length; exact Lv]. destruct V as (G1&G2&V1&V2&SG1&SG2). rewrite !map_length in V2.
  set (idx := e_indexed e) in *. set (dat := e_data e) in *. set (n := List.length idx) in *.
  assert (HXi : idx = [] \/ 468 <= X).
  { destruct idx as [|i0 idx0]; [left; reflexivity|right]. destruct (sub_live X 4 (heap w) w) as [A1 A2]; [|apply sub_refl|lia|exact A1].
    eapply sub_trans; [|exact S1]. apply between_sub; unfold n; cbn [List.length]; lia. }
  assert (HXd : dat = [] \/ 0 <= X).
  { destruct dat as [|i0 idx0]; [left; reflexivity|right]. destruct (sub_live X 4 (heap w) w) as [A1 A2]; [|apply sub_refl|lia|lia].
    eapply sub_trans; [|exact S1]. apply between_sub; cbn [List.length]; lia. }
  assert (SX1 : sub (between (X + 4 * Z.of_nat 0) (X + 4 * Z.of_nat 0 + 4 * Z.of_nat n)) (heap w)).
  { eapply sub_trans; [|exact S1]. apply between_sub; lia. }
  assert (SGw1 : sub G1 (heap w)) by (eapply sub_trans; eauto).
  assert (Vd : vrep (mem w) (mty (AStruct dat)) (VStruct 0 ds) (X + 4 * Z.of_nat n) (heap w)).
  { cbn [mty vrep]. exists 0, ds, G2. rewrite map_length. split; [reflexivity|]. split; [reflexivity|].
    split; [eapply sub_trans; [|exact S1]; apply between_sub; lia|]. split; [eapply sub_trans; eauto|].
    split; [|exact V2]. eapply disj_sub; [exact D1| |exact SG2]. apply between_sub; lia. }
  assert (Wd : dat = [] \/ wf_aty (AStruct dat)).
  { destruct dat as [|d0 dat0]; [left; reflexivity|right]. split; [unfold lenz in Dl; cbn [List.length] in *; lia|exact Dok]. }
  set (sig := sig_topic e). set (tops := List.concat (zip_with (topic (keccak (host w))) idx vs)).
  unfold event_cost, emit_traps in *. fold idx dat in Hn |- *.
  set (ic := index_costs idx vs) in *. pose proof (index_costs_nonneg idx vs) as Ic. fold ic in Ic.
  assert (Lsig : lenz sig = 32 * match e_sig e with Some _ => 1 | None => 0 end).
  { unfold sig, sig_topic. destruct (e_sig e) as [sg|]; [destruct Sok as [Sl _]; unfold lenz; lia|reflexivity]. }
  set (c := topic_count e) in *.
  assert (Hc : c = match e_sig e with Some _ => 1 | None => 0 end + lenz idx) by reflexivity.
  pose proof (lenz_nonneg idx) as Li. pose proof (lenz_nonneg sig) as Lsn. pose proof (lenz_nonneg (enc_args dat ds)) as Ld.
  set (dy := if existsb dynamic dat then 32 else 0) in *. assert (Hdy : 0 <= dy <= 32) by (unfold dy; destruct (existsb dynamic dat); lia).
  set (N := ic + 32 * c + dy + lenz (enc_args dat ds)) in *.
  apply wpf_intro; [reflexivity|]. unfold emit. fold idx dat n.
  set (l0 := [X] ++ repeat 0 (9 + 2 * n + 1 + fold_right Nat.max 0%nat (map index_need idx))).
  assert (L0 : List.length l0 = (10 + 2 * n + 1 + fold_right Nat.max 0%nat (map index_need idx))%nat).
  { unfold l0. rewrite app_length, repeat_length. cbn [List.length]. lia. }
  assert (N0 : nth_error l0 0 = Some X) by reflexivity.
  clearbody l0.
  eapply (encode_fields_ok (10 + 2 * n) idx Iok 0%nat _ _ [] l0 w w vs X G1 (heap w));
    [exact N0|unfold n; lia|rewrite L0; lia|exact Hw|apply extends_refl; exact Hw|rewrite Z.mul_0_r, Z.add_0_r; exact V1|exact SGw1|exact HXi|exact SX1|apply sub_refl|exact Ne|fold ic; lia| |].
  { fold ic. intros [O|[Hs O]]; cbn [resq]; [left; eapply oom_mono; [exact O|lia]|right; left]. split; [exact Hs|eapply crosses_mono; [exact O|lia]]. }
  intros l1 w1 L1 N1 E1 Gn1 St1. fold ic in Gn1. pose proof E1 as (Hw1&A1&A2&A3&A4&A5&A6).
  eapply (signature_ok (e_sig e) _ _ [] l1 w1); [exact Sok|lia|exact Hw1| |].
  { fold (sig_topic e). fold sig. intros O. cbn [resq]. left. eapply extends_oom; [exact E1|exact O|lia]. }
  intros l2 w2 L2 N2 N23 Ap2. fold (sig_topic e) in Ap2. fold sig in Ap2. pose proof Ap2 as (E2&Gn2&B2). pose proof E2 as (Hw2&_&_&Ge2&_).
  assert (E02 : extends w w2) by (eapply extends_trans; eauto).
  eapply (topic_fields_ok ep idx Iok 0%nat _ _ [] l2 w w2 vs X G1 (heap w) (gnext w));
    [rewrite N2, N1 by lia; exact N0|unfold n in *; lia|exact Hw|exact E02|exact Fl|rewrite Z.mul_0_r, Z.add_0_r; exact V1|exact SGw1|exact HXi|exact SX1|apply sub_refl|lia| | |].
  { eapply stored_ext; [|exact E2| |exact St1]; [lia|]. intros i Hi. apply N2; lia. }
  { intros O. cbn [resq]. left. eapply extends_oom; [exact E02|exact O|lia]. }
  fold tops. intros l3 w3 (L3&N30&N33&N3i) Ap3 Lt. pose proof Ap3 as (E3&Gn3&B3).
  assert (E03 : extends w w3) by (eapply extends_trans; eauto).
  assert (Ap : appended w1 w3 (sig ++ tops)) by (eapply appended_app; eauto).
  destruct Ap as (E13&Gn13&B13). rewrite lenz_app in Gn13.
  eapply (data_ok ep n dat _ _ [] l3 w w3 ds X (heap w) (gnext w1) c);
    [rewrite N30, N2, N1 by lia; exact N0|congruence|lia|exact Hw|exact E03|exact Fl|exact Wd|exact Vd|apply sub_refl|exact HXd|lia|lia|lia|lia| | |].
  { fold dy. intros O. cbn [resq]. left. eapply extends_oom; [exact E03|exact O|lia]. }
  { intros Dy (k&K1&K2). cbn [resq]. right. right. split; [exact Dy|]. exists k. unfold N, dy. rewrite Dy. lia. }
  fold dy. intros l4 w4 N43 N47 E4 Gn4 B4.
  assert (E04 : extends w w4) by (eapply extends_trans; eauto). pose proof E04 as (Hw4&_&_&_&_&H4&_). pose proof Hw4 as (R1&R2&R3&R4&R5&R6).
  assert (B14 : bytes_at (mem w4) (gnext w1) (topics (keccak (host w)) e vs ++ enc_args dat ds)).
  { unfold topics. fold sig idx tops. apply bytes_at_app. split.
    - eapply bytes_at_ext; [|exact B13]. intros x Hx. rewrite lenz_app in Hx. destruct E4 as (_&_&_&_&_&_&O4). apply O4. pose proof (lenz_nonneg tops). lia.
    - rewrite lenz_app. replace (gnext w1 + (lenz sig + lenz tops)) with (gnext w3) by lia. exact B4. }
  eapply wp_lget; [exact N43|]. eapply wp_lget; [exact N47|]. ws1.
  replace (match e_sig e with Some _ => 1 + lenz idx | None => lenz idx end) with c by (rewrite Hc; destruct (e_sig e); lia).
  eapply wp_host.
  { cbn [hostcall]. rewrite inb_true by (unfold page_size; lia). replace (c <=? 4) with true by lia. replace (32 * c <=? 32 * c + lenz (enc_args dat ds)) with true by lia. cbn [andb]. reflexivity. }
  apply wp_nil. cbn [resq fret]. split; [reflexivity|]. exists w4. split; [exact E04|]. split; [lia|].
  rewrite H4. unfold log_of. fold dat c. f_equal. f_equal. f_equal. f_equal.
  rewrite <- B14. f_equal. unfold bytes_at, topics. fold sig idx tops. unfold lenz in *. rewrite !app_length. lia.
Qed.
