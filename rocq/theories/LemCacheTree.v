(** * Saving changed objects with objects inside at the end of a function: translation.rs 3372-3423. *)

From Verif Require Import SpecInt Spec Tac RtAlloc RtErr RtInt RtInt2 RtEq RtMul RtDiv RtShift RtSwap RtAscii RtCopy RtCopy2 Ops SpecAbi LemAbi SpecVal LemVal SpecStor SpecLayout RtStor LemStor RtEnumPos RtStore LemStore RtSave RtLoad RtLoadObj LemPlace LemObj RtChild LemDelete RtDelete SpecMove RtCall RtTransfer SpecCache RtCache LemFlow LemCache LemMove SpecWrap RtWrap RtWrapLoad RtWrapObj SpecTto RtTto LemTto SpecTake RtTake LemTake LemTakeTree SpecCacheTree.
Ltac Zify.zify_post_hook ::= idtac.

(** translation.rs 3372-3423 [add_cache_storage_object_instructions], as [cache_args], for objects with objects inside. *)
Definition cache_trees (ep : errtab) (rt : bool) (l : list (nat * Z * list shape)) : list instr :=
  List.concat (map (fun a => [ LocalGet (fst (fst a)); Call (cache_tree ep (snd (fst a)) (snd a)) ] ++ propagate rt) l).
Lemma cache_trees_flat : forall ep rt l, cache_trees ep rt (map (fun a => (fst a, map Value (snd a))) l) = cache_args ep rt l.
Proof.
  intros. unfold cache_trees, cache_args. rewrite map_map. f_equal. apply map_ext. intros a. cbn [fst snd]. rewrite cache_tree_flat. reflexivity.
Qed.
Definition tree_code (a : held_tree) : nat * Z * list shape := (t_local a, t_hash a, t_shapes a).

(** ** Storage that agrees on the slots of a tree *)

Definition lext_ok (s : shape) : Prop := forall H st st' parent v p, good p -> suits s v -> pos_cond st st' p (after (slot_ty s) p) ->
  (forall x, covers (reach H s parent v p) x -> st x = st' x) -> lasting H st s parent v p -> lasting H st' s parent v p.
Lemma lastings_ext : forall fs, Forall lext_ok fs -> forall H st st' parent vs p, good p -> suit fs vs -> pos_cond st st' p (afters (map slot_ty fs) p) ->
  (forall x, covers (reaches H fs parent vs p) x -> st x = st' x) -> lastings H st fs parent vs p -> lastings H st' fs parent vs p.
Proof.
  unfold lastings, reaches. intros fs F. induction F as [|s fs Hs _ IH]; intros H st st' parent vs p Gp Ty Pc Ar Hd; destruct vs as [|v vs]; cbn [map along] in *; auto.
  destruct Hd as (Hv&Hd). apply suit_cons in Ty. destruct Ty as (Tv&Ty). destruct (after_ok (slot_ty s) p Gp) as (G1&B1). destruct (afters_ok (map slot_ty fs) (after (slot_ty s) p) G1) as (G2&B2).
  cbn [gather] in Ar. rewrite afters_cons in Pc. split.
  - apply (Hs H st st' parent v p Gp); auto.
    + apply (pos_cond_l st st' p _ (afters (map slot_ty fs) (after (slot_ty s) p))); auto.
    + intros x Hx. apply Ar. apply covers_app. auto.
  - apply (IH H st st'); auto.
    + eapply pos_cond_r; eassumption.
    + intros x Hx. apply Ar. apply covers_app. auto.
Qed.
Lemma lasting_ext : forall s, lext_ok s.
Proof.
  apply (shape_rec' lext_ok).
  - intros t H st st' parent v p Gp Ty Pc Ar Hd. cbn [lasting reach slot_ty suits] in *. eapply no_shrink_ext; eassumption.
  - intros h fs IH H st st' parent v p Gp Ty Pc Ar Hd. cbn [slot_ty suits] in *. destruct Ty as (o&id&vs&->&_&Ty). unfold VObj in *. cbn [lasting reach] in *. cbv zeta in *. set (k := home H parent id) in *.
    assert (Gk : good (k, 8)) by (unfold good; cbn; lia). destruct (afters_ok (map slot_ty fs) (k, 8) Gk) as (_&Bk). apply before_fst in Bk. cbn [fst] in Bk.
    assert (Ek : forall y, k <= y <= fst (afters (map slot_ty fs) (k, 8)) -> st y = st' y) by (intros y Hy; apply Ar, covers_cons; left; cbn [fst snd]; exact Hy).
    apply (lastings_ext fs IH H st st' id vs (k, 8) Gk Ty); [|intros y Hy; apply Ar, covers_cons; right; exact Hy|exact Hd].
    split; [intros y Hy; apply Ek; cbn [fst] in Hy; lia|f_equal; apply Ek; lia].
  - intros fs IH H st st' parent v p Gp Ty Pc Ar Hd. cbn [slot_ty suits] in *. destruct Ty as (vs&->&Ty). cbn [lasting reach] in *.
    apply (lastings_ext fs IH H st st' parent vs p Gp Ty); [exact Pc|exact Ar|exact Hd].
Qed.

Lemma tree_slots_cond : forall H fs id vs k st st', (forall y, covers (tree_slots H fs id vs k) y -> st y = st' y) ->
  good (k, 8) /\ pos_cond st st' (k, 8) (afters (map slot_ty fs) (k, 8)) /\ (forall x, covers (reaches H fs id vs (k, 8)) x -> st x = st' x) /\ st k = st' k.
Proof.
  intros H fs id vs k st st' A. assert (G : good (k, 8)) by (unfold good; cbn; lia). split; [exact G|]. destruct (afters_ok (map slot_ty fs) (k, 8) G) as (_&B). apply before_fst in B. cbn [fst] in B.
  split; [split|split].
  - intros x Hx. apply A. apply covers_cons. left. cbn [fst snd] in *. lia.
  - f_equal. apply A. apply covers_cons. left. cbn [fst snd]. lia.
  - intros x Hx. apply A. apply covers_cons. right. exact Hx.
  - apply A. apply covers_cons. left. cbn [fst snd]. lia.
Qed.
Lemma contents_same : forall H fs id vs k st st', suit fs vs -> (forall y, covers (tree_slots H fs id vs k) y -> st y = st' y) ->
  contents H st fs id vs (k, 8) -> contents H st' fs id vs (k, 8).
Proof.
  intros H fs id vs k st st' Ty A Hd. destruct (tree_slots_cond H fs id vs k st st' A) as (G&P&Q&_).
  eapply (contents_ext fs); try eassumption. apply Forall_forall. intros. apply contains_ext.
Qed.
Lemma lastings_same : forall H fs id vs k st st', suit fs vs -> (forall y, covers (tree_slots H fs id vs k) y -> st y = st' y) ->
  lastings H st fs id vs (k, 8) -> lastings H st' fs id vs (k, 8).
Proof.
  intros H fs id vs k st st' Ty A Hd. destruct (tree_slots_cond H fs id vs k st st' A) as (G&P&Q&_).
  eapply (lastings_ext fs); try eassumption. apply Forall_forall. intros. apply lasting_ext.
Qed.
Lemma was_there_same : forall H D uss st st', (forall y, covers (formers H D uss) y -> st y = st' y) -> Forall2 (was_there H st) D uss -> Forall2 (was_there H st') D uss.
Proof.
  intros H D uss st st' A F. induction F as [|a us D uss X F IH]; [constructor|]. cbn [formers] in A. constructor; [|apply IH; intros y Hy; apply A, covers_app; right; exact Hy].
  destruct a as ((ts&o)&id). destruct X as (X1&X2&X3&X4). split; [exact X1|]. split; [exact X2|]. split; [exact X3|].
  eapply helds_same; [exact X3| |exact X4]. intros y Hy. apply A, covers_app. left. exact Hy.
Qed.

(** ** One object *)

Lemma tree_suit : forall w fs owner id vs x F, forallb sound fs = true -> tree_at (mem w) fs owner id vs x F -> suit fs vs.
Proof.
  intros w fs owner id vs x F So (a&b&c&G&_&_&_&_&_&_&_&_&_&_&_&_&Fl). eapply fields_suit; [|exact So|exact Fl]. apply Forall_forall. intros s _. apply shape_suits.
Qed.

(** A deleted object is not saved. *)
Lemma cache_tree_gone : forall ep h fs w q id vs F, wok w -> statics w -> 468 <= q -> q + 4 <= gnext w ->
  tree_at (mem w) fs 0 id vs (load 4 (mem w) q) F -> sub F (heap w) ->
  wpf (cache_tree ep h fs) [q] w (resq (fun r w' => r = [] /\ grows (tto_mem F) w w' /\ gnext w' = gnext w /\ host w' = host w) False).
Proof.
  intros ep h fs w q id vs F Hw St Hq Hq2 Ob SF. pose proof Hw as (P1&P2&P3&P4&P5&P6). pose proof St as (Z0&Z1&Z2&Z3&Z4).
  set (x := load 4 (mem w) q) in *. pose proof (tree_placed w fs 0 id vs x F Ob SF) as (X1&X2&Lo&Pt). cbv zeta in Pt. destruct Pt as (A1&A2&B1&B2&C1&C2&Li).
  assert (Rx : 0 <= x < 2 ^ 32) by (apply (load_range 4)).
  destruct (locate_struct_slot_spec w x Hw Z2) as (m1&R1&V1&F1); try (unfold live, id_ptr; lia). set (w1 := set_mem w m1) in *.
  assert (G1 : grows (tto_mem F) w w1).
  { apply grows_set_mem; [exact Hw| |]; unfold tto_mem, slot_mem, within; [|intros a [Y|[Y|Y]]; try lia; apply SF in Y; unfold heap, between in Y; lia]. intros a Ha. apply F1; unfold within; intros Y; apply Ha; lia. }
  assert (Lo1 : load_be 32 (mem w1) (x - 32) = 0).
  { transitivity (load_be 32 (mem w) (x - 32)); [|exact Lo]. apply load_be_ext. intros i Hi. change (Z.of_nat 32) with 32 in Hi. cbn [w1 mem set_mem]. apply F1; unfold within; lia. }
  assert (Hw1 : wok w1) by apply G1.
  apply wpf_intro; [reflexivity|]. wc. ws1. ws1. fold x. ws1.
  eapply wp_call; [reflexivity|cbn [List.length]; lia|]. wc. eapply returns_wpf; [exact R1|]. wc. fold w1.
  ws1. eapply wp_call; [reflexivity|cbn [List.length]; lia|]. wc. eapply returns_wpf; [apply owner_spec; lia|]. wc. ws1.
  assert (Gn1 : gnext w1 = gnext w) by reflexivity. assert (Pg1 : pages w1 = pages w) by reflexivity.
  eapply wp_call; [reflexivity|cbn [List.length]; lia|]. wc. eapply returns_wpf; [apply is_zero_be; [exact Hw1|unfold live; lia]|]. wc. rewrite Lo1. cbn [Z.eqb].
  apply wp_if; intros Cb; unb Cb; [|discriminate Cb]. apply wp_nil. wc. ws. split; [reflexivity|]. split; [exact G1|]. split; reflexivity.
Qed.

Definition tree_memory_for (a : held_tree) : Z := 32 + weigh (t_before a) + wcosts (t_shapes a) (t_vals a).
Definition trees_memory (l : list held_tree) : Z := fold_right (fun a n => tree_memory_for a + n) 0 l.
Lemma tree_memory_for_pos : forall a, 0 < tree_memory_for a.
Proof. intros a. unfold tree_memory_for. pose proof (weigh_nonneg (t_before a)). pose proof (wcosts_nonneg (t_shapes a) (t_vals a)). lia. Qed.
Lemma trees_memory_nonneg : forall l, 0 <= trees_memory l.
Proof. induction l as [|a l IH]; cbn [trees_memory fold_right]; [lia|]. pose proof (tree_memory_for_pos a). unfold trees_memory in IH. lia. Qed.

Lemma cache_one : forall ep w l a, wok w -> errtab_ok ep -> statics w -> tree_in_hand w l a -> tree_savable w a ->
  wpf (cache_tree ep (t_hash a) (t_shapes a)) [t_ref a] w (resq (fun r w' => r = [] /\ grows (tto_mem (t_area a)) w w' /\ gnext w' <= gnext w + tree_memory_for a /\
     tree_up_to_date (host w) (stor (host w')) a /\ (forall y, ~ covers (t_touched (host w) a) y -> stor (host w') y = stor (host w) y)) (oom w (tree_memory_for a))).
Proof.
  intros ep w l a Hw He St (Q0&Q1&Q2&Ob&SF) (So&Di&Hh&Sv). pose proof (tree_memory_for_pos a) as Mp. unfold tree_up_to_date, t_touched. destruct (Z.eqb_spec (t_owner a) 0) as [E|E].
  - rewrite E in Ob. eapply wpf_conseq; [apply (cache_tree_gone ep (t_hash a) (t_shapes a) w (t_ref a) (t_id a) (t_vals a) (t_area a)); assumption|].
    intros o. destruct o; cbn [resq]; try tauto. intros (->&G&N&->). split; [reflexivity|]. split; [exact G|]. split; [lia|]. split; [contradiction|reflexivity].
  - destruct (Sv E) as (Was&S1&S2&La).
    eapply wpf_conseq; [apply (cache_tree_spec ep (t_hash a) (t_shapes a) w (t_ref a) (t_owner a) (t_id a) (t_vals a) (t_area a) (t_before a)); assumption|].
    intros o. destruct o; cbn [resq]; try tauto; [|intros (_&O); exact O]. intros (->&G&N&T1&T2&T3&T4). split; [reflexivity|]. split; [exact G|]. split; [exact N|].
    split; [intros _; split; [exact T1|split; [exact T2|exact T3]]|]. intros y Hy. apply T4; intros Y; apply Hy, covers_app; [left|right]; exact Y.
Qed.

(** ** All objects *)

Lemma tree_grows_host : forall M w w', grows M w w' -> keccak (host w') = keccak (host w) /\ (forall a, t_slot (host w') a = t_slot (host w) a) /\
  (forall a, t_slots (host w') a = t_slots (host w) a) /\ (forall a, t_left (host w') a = t_left (host w) a) /\ (forall a, t_touched (host w') a = t_touched (host w) a).
Proof. intros M w w' (_&_&_&_&_&E&_). rewrite E. repeat split. Qed.

Lemma tree_in_hand_next : forall w w' l F a, grows (tto_mem F) w w' -> disj F (union (t_area a) (between (t_ref a) (t_ref a + 4))) -> tree_in_hand w l a -> tree_in_hand w' l a.
Proof.
  intros w w' l F a G D (Q0&Q1&Q2&Ob&SF). pose proof G as (_&_&_&N&_&_&U). split; [exact Q0|]. split; [exact Q1|]. split; [lia|].
  replace (load 4 (mem w') (t_ref a)) with (load 4 (mem w) (t_ref a)).
  - split; [|eapply heap_grows; eassumption]. eapply tree_ext; [|exact Ob]. eapply agree_tto; [exact G|exact SF|]. intros y Y1 Y2. eapply D; [exact Y2|left; exact Y1].
  - apply load_ext. intros y Hy. change (Z.of_nat 4) with 4 in Hy. symmetry. apply U; [lia|]. intros [Y|[Y|Y]]; [unfold slot_mem, within in Y; lia|unfold within in Y; lia|]. eapply D; [exact Y|]. right. unfold between. lia.
Qed.
Lemma tree_savable_next : forall M w w' a, grows M w w' -> suit (t_shapes a) (t_vals a) -> (forall y, covers (t_touched (host w) a) y -> stor (host w') y = stor (host w) y) ->
  tree_savable w a -> tree_savable w' a.
Proof.
  intros M w w' a G Ty A (P0&P1&P2&P3). destruct (tree_grows_host M w w' G) as (Ek&Es&El&Ef&_). split; [exact P0|]. split; [exact P1|]. split; [exact P2|]. intros N. destruct (P3 N) as (R1&R2&R3&R4). rewrite Ek, Es, El, Ef.
  unfold t_touched in A. rewrite (proj2 (Z.eqb_neq _ 0) N) in A.
  split; [eapply was_there_same; [|exact R1]; intros y Hy; symmetry; apply A, covers_app; left; exact Hy|]. split; [exact R2|]. split; [exact R3|].
  eapply lastings_same; [exact Ty| |exact R4]. intros y Hy. symmetry. apply A, covers_app. right. exact Hy.
Qed.
Lemma tree_up_to_date_next : forall h st st' a, suit (t_shapes a) (t_vals a) -> (forall y, covers (t_touched h a) y -> st' y = st y) -> tree_up_to_date h st a -> tree_up_to_date h st' a.
Proof.
  intros h st st' a Ty A U N. destruct (U N) as (U1&U2&U3). unfold t_touched in A. rewrite (proj2 (Z.eqb_neq _ 0) N) in A.
  assert (B : forall y, covers (t_slots h a) y -> st y = st' y) by (intros y Hy; symmetry; apply A, covers_app; right; exact Hy).
  destruct (tree_slots_cond _ _ _ _ _ st st' B) as (_&_&_&Ek). split; [rewrite <- Ek; exact U1|]. split; [eapply contents_same; eassumption|].
  intros y Y1 Y2. rewrite A by (apply covers_app; left; exact Y1). apply U3; assumption.
Qed.

(** The memory that saving all of them may change. *)
Definition trees_mem (l : list held_tree) : mset := fun y => cache_mem y \/ exists a, In a l /\ t_area a y.

Lemma cache_trees_wp : forall ep rt l as_ w r (Q : outcome -> Prop) s, wok w -> errtab_ok ep -> abort_flag w = 0 -> statics w ->
  Forall (tree_in_hand w l) as_ -> Forall (tree_savable w) as_ -> distinct_trees (host w) as_ ->
  (oom w (trees_memory as_) -> Q OTrap) ->
  (forall w', grows (trees_mem as_) w w' -> abort_flag w' = 0 -> gnext w' <= gnext w + trees_memory as_ -> Forall (tree_up_to_date (host w) (stor (host w'))) as_ ->
     (forall y, (forall a, In a as_ -> ~ covers (t_touched (host w) a) y) -> stor (host w') y = stor (host w) y) -> wp r Q s l w') ->
  wp (cache_trees ep rt (map tree_code as_) ++ r) Q s l w.
Proof.
  intros ep rt l as_. induction as_ as [|a as_ IH]; intros w r Q s Hw He Ab St Hi Hs Hd T K.
  - cbn [cache_trees map List.concat app]. apply (K w); [apply grows_refl; exact Hw|exact Ab|cbn; lia|constructor|auto].
  - inversion Hi as [|? ? Ha Hi']; subst. inversion Hs as [|? ? Sa Hs']; subst. inversion Hd as [|? ? Da Hd']; subst. cbn [trees_memory fold_right] in *. fold (trees_memory as_) in *.
    pose proof (trees_memory_nonneg as_) as Sn. pose proof (tree_memory_for_pos a) as Cn. pose proof Ha as (Q0&Q1&Q2&Ob&SF). pose proof Sa as (So&_).
    unfold cache_trees. cbn [map List.concat tree_code fst snd]. rewrite <- !app_assoc. cbn [app]. eapply wp_lget; [exact Q0|].
    eapply wp_call_spec; [reflexivity|cbn [List.length]; lia|wc; eapply (cache_one ep w l a); eassumption| |].
    { intros N2. apply T. unfold oom in *. lia. }
    intros rs w1 (->&G1&N1&U1&U2). wc. pose proof G1 as (Hw1&M1&_&N1'&_&_&G1u). destruct (tree_grows_host _ _ _ G1) as (Ek&Es&El&Ef&Et).
    pose proof Hw as (_&_&P3&_).
    assert (Ab1 : abort_flag w1 = 0).
    { unfold abort_flag in *. rewrite <- Ab. apply load_ext. intros y Hy. change (Z.of_nat 4) with 4 in Hy. apply G1u; [lia|]. intros [Y|[Y|Y]]; [unfold slot_mem, within in Y; lia|unfold within in Y; lia|]. apply SF in Y. unfold heap, between in Y. lia. }
    apply wp_propagate_ok; [exact Hw1|exact Ab1|]. fold (cache_trees ep rt (map tree_code as_)).
    assert (Ty : Forall (fun b => suit (t_shapes b) (t_vals b)) as_).
    { clear - Hi' Hs'. induction Hi' as [|b l0 Hb Hl IH]; [constructor|]. inversion Hs' as [|? ? (Pb&_) Hs2]; subst. destruct Hb as (_&_&_&Ob&_). constructor; [eapply tree_suit; eassumption|apply IH; assumption]. }
    assert (Ta : suit (t_shapes a) (t_vals a)) by (eapply tree_suit; eassumption).
    rewrite Forall_forall in Da.
    apply (IH w1); [exact Hw1|exact He|exact Ab1|eapply statics_tto; eassumption| | | | |].
    + rewrite Forall_forall in *. intros b Hb. eapply (tree_in_hand_next w w1); [exact G1|apply (proj2 (Da b Hb))|apply Hi'; exact Hb].
    + rewrite Forall_forall in *. intros b Hb. eapply tree_savable_next; [exact G1|apply Ty; exact Hb| |apply Hs'; exact Hb].
      intros y Hy. apply U2. intros Y. eapply (proj1 (Da b Hb)); eassumption.
    + unfold distinct_trees in *. clear - Hd' Et. induction Hd' as [|b l0 Hb Hl IH]; [constructor|]. constructor; [|exact IH].
      eapply Forall_impl; [|exact Hb]. intros c Hc. rewrite !Et. exact Hc.
    + intros N3. apply T. unfold oom in *. rewrite M1 in N3. lia.
    + intros w2 G2 Ab2 N2 Up Un. apply K; [|exact Ab2|lia| |].
      * eapply grows_trans; [eapply grows_mono; [exact G1|]|eapply grows_mono; [exact G2|]].
        -- intros y _ [Y|[Y|Y]]; [left; left; exact Y|left; right; exact Y|right; exists a; split; [left; reflexivity|exact Y]].
        -- intros y _ [Y|(b&Hb&Y)]; [left; exact Y|right; exists b; split; [right; exact Hb|exact Y]].
      * constructor.
        -- eapply tree_up_to_date_next; [exact Ta| |exact U1]. intros y Hy. apply Un. intros b Hb. rewrite Et. intros Y. eapply (proj1 (Da b Hb)); eassumption.
        -- eapply Forall_impl; [|exact Up]. intros b Hb N. specialize (Hb N). rewrite Ek, Es, El, Ef in Hb. exact Hb.
      * intros y Hy. rewrite Un; [apply U2; apply Hy; left; reflexivity|]. intros b Hb. rewrite Et. apply Hy. right. exact Hb.
Qed.

Lemma cache_trees_exec : forall ep rt l s w as_, running ep w -> statics w ->
  Forall (tree_in_hand w l) as_ -> Forall (tree_savable w) as_ -> distinct_trees (host w) as_ ->
  (exists n w', exec n (cache_trees ep rt (map tree_code as_)) s l w = ONormal s l w' /\ wok w' /\ abort_flag w' = 0 /\ maxpages w' = maxpages w /\ gnext w' <= gnext w + trees_memory as_ /\
     Forall (tree_up_to_date (host w) (stor (host w'))) as_ /\
     (forall y, (forall a, In a as_ -> ~ covers (t_touched (host w) a) y) -> stor (host w') y = stor (host w) y)) \/
  (exists n, exec n (cache_trees ep rt (map tree_code as_)) s l w = OTrap) /\ oom w (trees_memory as_).
Proof.
  intros ep rt l s w as_ (Hw&He&Ab) St Hi Hs Hd.
  assert (W : wp (cache_trees ep rt (map tree_code as_) ++ []) (fun o => match o with
     | ONormal s2 l2 w' => s2 = s /\ l2 = l /\ wok w' /\ abort_flag w' = 0 /\ maxpages w' = maxpages w /\ gnext w' <= gnext w + trees_memory as_ /\
         Forall (tree_up_to_date (host w) (stor (host w'))) as_ /\
         (forall y, (forall a, In a as_ -> ~ covers (t_touched (host w) a) y) -> stor (host w') y = stor (host w) y)
     | OTrap => oom w (trees_memory as_) | _ => False end) s l w).
  { apply cache_trees_wp; try assumption; [intros O; exact O|]. intros w' G Ab' N Up Un. apply wp_nil.
    pose proof G as (Hw'&M'&_). split; [reflexivity|]. split; [reflexivity|]. split; [exact Hw'|].
    split; [exact Ab'|split; [exact M'|split; [exact N|split; [exact Up|exact Un]]]]. }
  rewrite app_nil_r in W. destruct W as (n&_&W). destruct (exec n _ _ l w) eqn:E; try contradiction.
  - left. destruct W as (->&->&W). exists n, w0. split; [exact E|exact W].
  - right. split; [exists n; exact E|exact W].
Qed.

(** A whole entry function, whichever Ret it reaches. *)
Lemma entry_saves_trees : forall ep rt np nl r b body ts args w k lbs s l w1 vs as_, List.length args = np ->
  at_point (cache_trees ep rt (map tree_code as_) ++ prepare_return r b ts ++ k) (rev vs ++ s) l w1 lbs body [] (args ++ repeat 0 nl) w -> ~ In "result"%string lbs ->
  (r < b)%nat -> (b + List.length ts <= np + nl)%nat -> words_of ts vs -> total_size ts < 2147483648 ->
  running ep w1 -> statics w1 -> Forall (tree_in_hand w1 l) as_ -> Forall (tree_savable w1) as_ -> distinct_trees (host w1) as_ ->
  (exists rs w2, returns (move_function np nl r body ts) args w rs w2 /\ abort_flag w2 = 0 /\
     Forall (tree_up_to_date (host w1) (stor (host w2))) as_ /\
     (forall y, (forall a, In a as_ -> ~ covers (t_touched (host w1) a) y) -> stor (host w2) y = stor (host w1) y)) \/
  traps (move_function np nl r body ts) args w /\ oom w1 (trees_memory as_ + total_size ts).
Proof.
  intros ep rt np nl r b body ts args w k lbs s l w1 vs as_ La A Hl Hr Hn Ws Ht Rn St Hi Hs Hd. pose proof (trees_memory_nonneg as_) as Sn. pose proof (total_nonneg ts) as Tn.
  destruct (cache_trees_exec ep rt l (rev vs ++ s) w1 as_ Rn St Hi Hs Hd) as [(n&w2&E&Hw2&Ab2&M2&N2&Up&Un)|((n&E)&O)].
  - pose proof (at_point_trans _ _ _ _ (prepare_return r b ts ++ k) (rev vs ++ s) l w2 _ _ _ _ _ A (at_seq _ _ _ _ _ _ _ _ _ _ _ _ _ _ E (at_here _ _ _ _ _))) as A2.
    pose proof (return_spec np nl r b body ts args w k lbs s l w2 vs La A2 Hl Hr Hn Hw2 Ws Ht) as W. apply wpf_cases in W. destruct W as [(rs&w3&R&P)|(T&O)].
    + left. exists rs, w3. split; [exact R|].
      assert (X : extends w2 w3) by (destruct ts; [destruct P as (_&->); apply extends_refl; exact Hw2|apply P]).
      pose proof X as (_&_&_&_&_&X6&X7). pose proof Hw2 as (_&_&P3&_). rewrite X6. split; [|split; [exact Up|exact Un]].
      unfold abort_flag in *. rewrite <- Ab2. apply load_ext. intros y Hy. apply X7. lia.
    + right. split; [exact T|]. unfold oom in *. lia.
  - right. split; [|unfold oom in *; lia]. eapply at_point_traps; [exact A|exact La|].
    assert (W : wp (cache_trees ep rt (map tree_code as_) ++ prepare_return r b ts ++ k) (fun o => o = OTrap) (rev vs ++ s) l w1).
    { apply wp_app. apply (wp_exec n); rewrite E; [discriminate|reflexivity]. }
    destruct W as (m&_&W). exists m. exact W.
Qed.

(** The next transaction. *)
Lemma tree_seen_later : forall ep h st a kind imm, tree_up_to_date h st a -> t_owner a <> 0 -> 0 < t_hash a < 2 ^ 64 -> forallb readable (t_shapes a) = true ->
  separate (t_slots h a) -> tree_memory (t_shapes a) (t_vals a) < 2 ^ 31 ->
  forall w r, wok w -> errtab_ok ep -> statics w -> abort_flag w = 0 -> live w r 32 -> load_be 32 (mem w) r = t_id a ->
  keccak (host w) = keccak h -> stor (host w) = st -> In (t_owner a) (searched (host w) kind imm) ->
  (forall o', In o' (searched (host w) kind imm) -> o' <> t_owner a -> stored (host w) o' (t_id a) = 0) ->
  wpf (take_tree ep (t_hash a) (t_shapes a) kind imm) [r] w (resq (fun rs w' => exists x F, rs = [x] /\ host w' = host w /\ abort_flag w' = 0 /\ gcd w' = r + 32 /\
     (forall y, 468 <= y < gnext w -> rd (mem w') y = rd (mem w) y) /\ tree_at (mem w') (t_shapes a) (t_owner a) (t_id a) (adopts (t_shapes a) (t_id a) (t_vals a)) x F /\ sub F (heap w'))
   (ctrap w (existsb thin (t_shapes a)) (64 + tree_memory (t_shapes a) (t_vals a)))).
Proof.
  intros ep h st a kind imm U N Hh Rd Sp Mm w r Hw He St Ab Lr Er Ek Es I Un. destruct (U N) as (U1&U2&_).
  rewrite <- Er in U2, Un |- *. unfold t_slots, t_slot in Sp. unfold t_slot in U1, U2. rewrite <- Ek, <- Er in Sp, U2. rewrite <- Ek, <- Er in U1. subst st.
  apply take_tree_seen; try assumption.
  destruct Sp as (_&Rg). eapply Forall_impl; [|exact Rg]. intros y (_&Y). exact Y.
Qed.
