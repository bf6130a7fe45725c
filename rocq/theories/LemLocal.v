(** * Packing, unpacking and locals: proofs (C81). *)

From Verif Require Import SpecInt Spec Tac RtAlloc RtErr RtInt RtDiv RtShift RtAscii Ops SpecVal LemVal RtCopy RtCopy2 RtVec SpecVec SpecStor SpecLayout RtStore RtCall SpecRef RtRef LemRef RtLocal.
Ltac Zify.zify_post_hook ::= idtac.

(** ** Structs *)

Lemma pack_struct_ok : forall key fs p d v xs vs F s l w, NoDup [p; d; v] -> (forall k, In k [p; d; v] -> (k < List.length l)%nat) ->
  Z.of_nat (List.length fs) < 65536 -> wok w -> words (mem w) fs vs xs F -> sub F (heap w) ->
  (exists x w' l', runs (pack_struct key fs p d v) (rev xs ++ s) l w (x :: s) l' w' /\ same_locals [p; d; v] l l' /\
     evolves w w' (id_cells fs xs) /\ owns w' (TStruct key (map snd fs)) (VStruct 0 vs) x (union F (fresh w w')) /\ x = gnext w + (if key then 32 else 0) /\ x < 2 ^ 32 /\ held_by (mem w') x 0 fs xs) \/
  (crashes (pack_struct key fs p d v) (rev xs ++ s) l w /\ oom w (struct_memory key (map snd fs))).
Proof.
  intros key fs p d v xs vs F s l w Nd Ll Hn Hw H Sf.
  inversion Nd as [|? ? N1 Nd']; subst. inversion Nd' as [|? ? N2 Nd'']; subst.
  assert (W : wp (pack_struct key fs p d v ++ []) (fun o => (o = OTrap /\ oom w (struct_memory key (map snd fs))) \/ exists x w' l', o = ONormal (x :: s) l' w' /\ same_locals [p; d; v] l l' /\
     evolves w w' (id_cells fs xs) /\ owns w' (TStruct key (map snd fs)) (VStruct 0 vs) x (union F (fresh w w')) /\ x = gnext w + (if key then 32 else 0) /\ x < 2 ^ 32 /\ held_by (mem w') x 0 fs xs) (rev xs ++ s) l w).
  { eapply wp_pack_struct with (F := F) (vs := vs); try assumption; try (apply Ll; cbn; tauto); try (intros ->; cbn in *; tauto).
    - intros O. left. auto.
    - intros x w' l' E L G Ex Bx V Hb. apply wp_nil. right. exists x, w', l'. split; [reflexivity|]. split; [exact L|]. split; [exact E|]. split; [|auto].
      split; [exact V|]. intros y [Y|Y]; [eapply evolves_heap; eassumption|]. destruct Hw as (_&_&P3&_). unfold fresh, heap, between in *. lia. }
  rewrite app_nil_r in W. destruct W as (n&_&W). destruct W as [(E&O)|(x&w'&l'&E&R)].
  - right. split; [exists n; exact E|exact O].
  - left. exists x, w', l'. split; [exists n; exact E|exact R].
Qed.

Lemma wp_unpack_fields : forall ts p off vs F P r (Q : outcome -> Prop) s l w, nth_error l p = Some P -> wok w -> flds (mem w) ts vs (P + off) F -> sub F (heap w) ->
  0 <= P -> 0 <= off -> P + off + 4 * Z.of_nat (List.length ts) <= gnext w ->
  (forall xs, words (mem w) (plain_fields ts) vs xs F -> wp r Q (rev xs ++ s) l w) ->
  wp (unpack_fields p off ts ++ r) Q s l w.
Proof.
  induction ts as [|t ts IH]; intros p off vs F P r Q s l w Hp Hw H Sf P0 O0 Pn K; unfold flds in H; destruct vs as [|v vs]; cbn [map fields] in H; try contradiction.
  - apply (K []). exact Logic.I.
  - destruct H as (F1&F2&H1&H2&D&S1&S2). cbn [List.length] in Pn. pose proof Hw as (P1&P2&P3&P4&P5&P6). cbn [unpack_fields]. rewrite <- !app_assoc. cbn [app].
    eapply wp_lget; [exact Hp|]. eapply wp_load; [lia|unfold page_size; lia|]. set (q := load 4 (mem w) (P + off)) in *.
    assert (Kx : forall x, vrep (mem w) t v x F1 -> 0 <= x < 256 ^ Z.of_nat (esize t) -> wp (unpack_fields p (off + 4) ts ++ r) Q (x :: s) l w).
    { intros x Vx Bx. eapply IH with (P := P) (F := F2) (vs := vs); [exact Hp|exact Hw|replace (P + (off + 4)) with (P + off + 4) by lia; exact H2|eapply sub_trans; eassumption|exact P0|lia|lia|].
      intros xs Hxs. specialize (K (x :: xs)). cbn [rev] in K. rewrite <- app_assoc in K. apply K. cbn [plain_fields map words]. exists F1, F2. split; [exact Vx|]. split; [exact Bx|]. split; [exact Hxs|]. auto. }
    unfold field_of in H1. destruct (is_stack t) eqn:St.
    + cbn [app]. destruct H1 as (S3&V). pose proof (esize_range t) as Es. destruct (sub_pos F w q (q + Z.of_nat (esize t))) as (X1&X2); [eapply sub_trans; eassumption|exact Sf|lia|].
      eapply wp_load; [lia|unfold page_size; lia|]. rewrite Z.add_0_r. apply Kx; [apply vrep_stack; [exact St|exact V]|apply load_range].
    + cbn [app]. apply Kx; [exact H1|]. assert (Es : esize t = 4%nat) by (destruct t; try discriminate; reflexivity). rewrite Es. apply load_range.
Qed.

Lemma unpack_struct_ok : forall key ts p o vs x F s l w, (p < List.length l)%nat -> wok w -> owns w (TStruct key ts) (VStruct o vs) x F -> 0 <= x ->
  exists xs l', runs (unpack_struct ts p) (x :: s) l w (rev xs ++ s) l' w /\ same_locals [p] l l' /\ words (mem w) (plain_fields ts) vs xs F.
Proof.
  intros key ts p o vs x F s l w Lp Hw (V&Sf) X0. cbn [vrep] in V. destruct V as (o'&vs'&G&E&_&S1&S2&D&H). injection E as <- <-.
  assert (X : sub (between x (x + 4 * Z.of_nat (List.length ts))) F) by (intros y Y; apply S1; unfold between in *; destruct key; lia).
  assert (Xn : x + 4 * Z.of_nat (List.length ts) <= gnext w \/ ts = []) by (destruct ts; [auto|left; apply (sub_pos F w x _ X Sf); cbn [List.length]; lia]).
  assert (W : exists xs, wp (unpack_struct ts p ++ []) (fun o => o = ONormal (rev xs ++ s) (set_nth p x l) w) (x :: s) l w /\ words (mem w) (plain_fields ts) vs xs F).
  2:{ destruct W as (xs&W&Hx). rewrite app_nil_r in W. exists xs, (set_nth p x l). split; [apply wp_runs; exact W|]. split; [|exact Hx].
      apply same_locals_set; [left; reflexivity|apply same_locals_refl]. }
  destruct Xn as [Xn|Xn].
  - assert (C : exists xs, words (mem w) (plain_fields ts) vs xs G /\ wp (unpack_fields p 0 ts ++ []) (fun o => o = ONormal (rev xs ++ s) (set_nth p x l) w) s (set_nth p x l) w).
    { pose proof (wp_unpack_fields ts p 0 vs G x [] (fun o => exists xs, words (mem w) (plain_fields ts) vs xs G /\ o = ONormal (rev xs ++ s) (set_nth p x l) w) s (set_nth p x l) w) as W.
      destruct W as (n&N&xs&Hx&Ho); [apply set_nth_same; exact Lp|exact Hw|rewrite Z.add_0_r; exact H|eapply sub_trans; eassumption|exact X0|lia|lia| |].
      - intros xs Hx. apply wp_nil. exists xs. auto.
      - exists xs. split; [exact Hx|]. exists n. auto. }
    destruct C as (xs&Hx&C). exists xs. split; [unfold unpack_struct; cbn [app]; apply wp_lset'; [exact Lp|exact C]|].
    clear - Hx S2. revert vs xs G S2 Hx. induction ts as [|t ts IH]; intros [|v vs] [|x xs] G S2 H; cbn [plain_fields map words] in *; auto.
    destruct H as (F1&F2&H1&H2&H3&H4&H5&H6). exists F1, F2. repeat (split; [first [assumption|eapply sub_trans; eassumption]|]). eapply sub_trans; eassumption.
  - subst ts. destruct vs; cbn [map fields] in H; try contradiction. exists []. split; [|exact Logic.I]. unfold unpack_struct. cbn [app unpack_fields rev].
    apply wp_lset'; [exact Lp|]. apply wp_nil. reflexivity.
Qed.

(** ** Enums *)

Lemma pack_variant_ok : forall vts g ts p d v xs vs F s l w, NoDup [p; d; v] -> (forall k, In k [p; d; v] -> (k < List.length l)%nat) ->
  wf_ty (TEnum vts) -> nth_error vts g = Some ts -> wok w -> words (mem w) (plain_fields ts) vs xs F -> sub F (heap w) ->
  (exists x w' l', runs (pack_variant vts g ts p d v) (rev xs ++ s) l w (x :: s) l' w' /\ same_locals [p; d; v] l l' /\
     extends w w' /\ owns w' (TEnum vts) (VEnum g vs) x (union F (fresh w w')) /\ gnext w <= x < 2 ^ 32) \/
  (crashes (pack_variant vts g ts p d v) (rev xs ++ s) l w /\ oom w (enum_size vts + boxes ts)).
Proof.
  intros vts g ts p d v xs vs F s l w Nd Ll Wt Hg Hw H Sf. inversion Nd as [|? ? N1 Nd']; subst. inversion Nd' as [|? ? N2 Nd'']; subst.
  assert (Npd : p <> d) by (intros ->; cbn in *; tauto). assert (Npv : p <> v) by (intros ->; cbn in *; tauto). assert (Ndv : d <> v) by (intros ->; cbn in *; tauto).
  assert (Lp : (p < List.length l)%nat) by (apply Ll; cbn; tauto). assert (Ld : (d < List.length l)%nat) by (apply Ll; cbn; tauto). assert (Lv : (v < List.length l)%nat) by (apply Ll; cbn; tauto).
  cbn [wf_ty] in Wt. destruct Wt as (Wg&Wf). destruct (wf_variants vts Wf) as (Wb&Wn). destruct (Wn g ts Hg) as (Wl&_). pose proof (enum_size_ge _ _ _ Hg) as Eg. pose proof (enum_size_pos vts) as Ep.
  assert (Gl : (g < List.length vts)%nat) by (apply nth_error_Some; congruence).
  assert (Ms : map snd (plain_fields ts) = ts) by (unfold plain_fields; rewrite map_map; cbn [snd]; apply map_id).
  assert (Ml : List.length (plain_fields ts) = List.length ts) by (unfold plain_fields; apply map_length).
  assert (Ids : forall y, ~ id_cells (plain_fields ts) xs y).
  { clear. revert xs. induction ts as [|t ts IH]; intros [|x xs] y; cbn [plain_fields map id_cells]; try (intros []; fail). intros [[]|Y]. exact (IH xs y Y). }
  assert (W : wp (pack_variant vts g ts p d v ++ []) (fun o => (o = OTrap /\ oom w (enum_size vts + boxes ts)) \/ exists x w' l', o = ONormal (x :: s) l' w' /\ same_locals [p; d; v] l l' /\
     extends w w' /\ owns w' (TEnum vts) (VEnum g vs) x (union F (fresh w w')) /\ gnext w <= x < 2 ^ 32) (rev xs ++ s) l w).
  { unfold pack_variant. rewrite <- !app_assoc. cbn [app]. pose proof (boxes_nonneg ts) as B. ws1.
    eapply wp_call_spec; [reflexivity|cbn [List.length]; lia|cbn [firstn rev app]; apply alloc_spec; [exact Hw|lia]|intros O; left; split; [reflexivity|eapply oom_mono; [exact O|lia]]|].
    intros rs w1 (->&Al). cbn [app skipn]. pose proof (alloc_extends _ _ _ Hw Al ltac:(lia)) as Ex. destruct Al as (Hw1&Em&Mx&Pg&Gn&Gc&Ho).
    pose proof Hw as (P1&P2&P3&P4&P5&P6). pose proof Hw1 as (Q1&Q2&Q3&Q4&Q5&Q6). set (x := gnext w) in *.
    apply wp_lset'; [exact Lp|]. eapply wp_lget; [apply set_nth_same; exact Lp|]. ws1. eapply wp_store; [lia|unfold page_size; lia|]. rewrite Z.add_0_r, Em. change (Z.of_nat 4) with 4.
    set (m1 := store 4 (mem w) x (Z.of_nat g)). set (w2 := set_mem w1 m1).
    assert (Ex2 : evolves w w2 empty).
    { eapply evolves_write with (p := x) (n := 4); [exact Hw|apply evolves_extends; exact Ex| |lia|lia|unfold within; intros; lia].
      intros y Y. rewrite Em. unfold m1. apply rd_store_out. unfold within in Y. lia. }
    assert (Lt : load 4 m1 x = Z.of_nat g) by (unfold m1; change 4 with (Z.of_nat 4); rewrite load_store_same, Z.mod_small; lia).
    replace (pack_rev_enum p d v (4 * Z.of_nat (List.length ts)) (rev ts)) with (pack_fwd p d v 4 (plain_fields ts)) by (symmetry; exact (pack_rev_enum_fwd ts p d v 0)).
    pose proof Ex2 as (Hw2&_). assert (G2 : gnext w2 = x + enum_size vts) by exact Gn.
    assert (Sf2 : sub F (heap w2)) by (eapply evolves_heap; eassumption).
    eapply wp_pack_fwd with (P := x) (F := F) (vs := vs); [exact Npd|exact Npv|exact Ndv|apply set_nth_same; exact Lp|rewrite set_nth_length; exact Ld|rewrite set_nth_length; exact Lv|
      exact Hw2| |exact Sf2|lia|lia|rewrite Ml; lia| | |].
    { eapply words_agree; [|exact H]. eapply evolves_agree; [exact Ex2|exact Sf|intros y []]. }
    { rewrite Ml. intros y Y Z. apply Sf in Z. unfold heap, between in *. lia. }
    { rewrite Ms. intros O. left. split; [reflexivity|]. unfold oom in *. cbn [w2 gnext maxpages set_mem] in O. lia. }
    rewrite Ms, Ml. intros w3 l3 E3 L3 G3 Fl _. pose proof E3 as (Hw3&_&_&Gm3&_). pose proof Hw3 as (R1&R2&R3&R4&R5&R6).
    eapply wp_lget; [destruct L3 as (_&L3); rewrite L3; [apply set_nth_same; exact Lp|intros [I|[I|[]]]; congruence]|]. apply wp_nil. right.
    exists x, w3, l3. split; [reflexivity|]. split; [|split; [|split; [split|]]].
    - split; [destruct L3 as (L3&_); rewrite L3; apply set_nth_length|]. intros j N. destruct L3 as (_&L3). rewrite L3, set_nth_other; [reflexivity| |]; intros I; apply N; [left; congruence|].
      destruct I as [I|[I|[]]]; [right; left; exact I|right; right; left; exact I].
    - destruct Ex2 as (A1&A2&A3&A4&A5&A6&A7). destruct E3 as (_&E2&E4&E5&E6&E7&E8). split; [exact Hw3|]. repeat (split; [first [assumption|lia|congruence]|]).
      intros y Y. rewrite E8; [apply A7; [exact Y|intros []]|lia|]. intros [V|V]; [unfold between in V; lia|exact (Ids y V)].
    - cbn [vrep]. exists g, vs, (union F (fresh w2 w3)). split; [reflexivity|]. split; [|split; [|split; [|split]]].
      + rewrite <- Lt. destruct E3 as (_&_&_&_&_&_&E8). apply load_ext. intros i Hi. apply E8; [lia|]. intros [V|V]; [unfold between in V; lia|exact (Ids _ V)].
      + intros y Y. right. unfold fresh, between in *. lia.
      + intros y [Y|Y]; [left; exact Y|right; unfold fresh, between in *; lia].
      + intros y Y [Z|Z]; [apply Sf in Z; unfold heap, between in *; lia|unfold fresh, between in *; lia].
      + rewrite (map_nth_error _ _ _ Hg). exact Fl.
    - intros y [Y|Y]; [eapply evolves_heap; [exact E3|exact Sf2|exact Y]|]. unfold fresh, heap, between in *. lia.
    - lia. }
  rewrite app_nil_r in W. destruct W as (n&_&W). destruct W as [(E&O)|(x&w'&l'&E&R)].
  - right. split; [exists n; exact E|exact O].
  - left. exists x, w', l'. split; [exists n; exact E|exact R].
Qed.

Lemma words_mono : forall fs m vs xs F F', sub F F' -> words m fs vs xs F -> words m fs vs xs F'.
Proof.
  intros [|f fs] m [|v vs] [|x xs] F F' S H; cbn [words] in *; auto. destruct H as (F1&F2&H1&H2&H3&H4&H5&H6). exists F1, F2.
  repeat (split; [first [assumption|eapply sub_trans; eassumption]|]). eapply sub_trans; eassumption.
Qed.

Lemma unpack_variant_ok : forall vts g ts p vs x F s l w, (p < List.length l)%nat -> wok w -> owns w (TEnum vts) (VEnum g vs) x F -> nth_error vts g = Some ts ->
  exists xs l', runs (unpack_variant ts p) (x :: s) l w (rev xs ++ s) l' w /\ same_locals [p] l l' /\ words (mem w) (plain_fields ts) vs xs F.
Proof.
  intros vts g ts p vs x F s l w Lp Hw (V&Sf) Hg. cbn [vrep] in V. destruct V as (g'&vs'&G&E&_&S1&S2&D&H). injection E as <- <-. rewrite (map_nth_error _ _ _ Hg) in H.
  pose proof (enum_size_ge _ _ _ Hg) as Eg. pose proof (enum_size_pos vts) as Ep. destruct (sub_pos F w x _ S1 Sf ltac:(lia)) as (X1&X2). pose proof Hw as (P1&P2&P3&P4&P5&P6).
  assert (Xw : w32 (x + 4) = x + 4) by (apply w32_small; lia).
  pose proof (wp_unpack_fields ts p 0 vs G (x + 4) [] (fun o => exists xs, words (mem w) (plain_fields ts) vs xs G /\ o = ONormal (rev xs ++ s) (set_nth p (x + 4) l) w) s (set_nth p (x + 4) l) w) as W.
  assert (W' : wp (unpack_variant ts p) (fun o => exists xs, words (mem w) (plain_fields ts) vs xs G /\ o = ONormal (rev xs ++ s) (set_nth p (x + 4) l) w) (x :: s) l w).
  { unfold unpack_variant. cbn [app]. rewrite <- (app_nil_r (unpack_fields p 0 ts)). ws1. ws1. apply wp_lset'; [exact Lp|].
    apply W; [apply set_nth_same; exact Lp|exact Hw|rewrite Z.add_0_r; exact H|eapply sub_trans; eassumption|lia|lia|lia|]. intros xs Hx. apply wp_nil. exists xs. auto. }
  destruct W' as (n&_&xs&Hx&Ho). exists xs, (set_nth p (x + 4) l). split; [exists n; exact Ho|]. split; [apply same_locals_set; [left; reflexivity|apply same_locals_refl]|].
  eapply words_mono; eassumption.
Qed.

(** ** Locals *)

Definition box_memory (t : ty) : Z := 4 + boxes [t].

Lemma box_local_ok : forall t k v q x u F s l w, NoDup [k; v; q] -> (forall j, In j [k; v; q] -> (j < List.length l)%nat) ->
  wok w -> owns w t u x F -> 0 <= x < 256 ^ Z.of_nat (esize t) ->
  (exists r w' l', runs (box_local t k v q) (x :: s) l w s l' w' /\ same_locals [k; v; q] l l' /\ nth_error l' k = Some r /\
     extends w w' /\ r = gnext w /\ ref_to w' t r u (union F (between (r + 4) (gnext w')))) \/
  (crashes (box_local t k v q) (x :: s) l w /\ oom w (box_memory t)).
Proof.
  intros t k v q x u F s l w Nd Ll Hw (V&Sf) Bx. inversion Nd as [|? ? N1 Nd']; subst. inversion Nd' as [|? ? N2 Nd'']; subst.
  assert (Nkv : k <> v) by (intros ->; cbn in *; tauto). assert (Nkq : k <> q) by (intros ->; cbn in *; tauto). assert (Nvq : v <> q) by (intros ->; cbn in *; tauto).
  assert (Lk : (k < List.length l)%nat) by (apply Ll; cbn; tauto). assert (Lv : (v < List.length l)%nat) by (apply Ll; cbn; tauto). assert (Lq : (q < List.length l)%nat) by (apply Ll; cbn; tauto).
  pose proof Hw as (P1&P2&P3&P4&P5&P6). pose proof (esize_range t) as Es.
  assert (Bm : box_memory t = 4 + (if is_stack t then Z.of_nat (esize t) else 0)) by (unfold box_memory, boxes; cbn [fold_right]; lia).
  assert (W : wp (box_local t k v q) (fun o => (o = OTrap /\ oom w (box_memory t)) \/ exists r w' l', o = ONormal s l' w' /\ same_locals [k; v; q] l l' /\ nth_error l' k = Some r /\
     extends w w' /\ r = gnext w /\ ref_to w' t r u (union F (between (r + 4) (gnext w')))) (x :: s) l w).
  2:{ destruct W as (n&_&[(E&O)|(r&w'&l'&E&R)]); [right; split; [exists n; exact E|exact O]|left; exists r, w', l'; split; [exists n; exact E|exact R]]. }
  assert (Ec : cell (gnext w) = between (gnext w) (gnext w + 4)) by reflexivity.
  unfold box_local. destruct (is_stack t) eqn:St.
  - apply vrep_stack in V; [|exact St]. apply wp_lset'; [exact Lv|]. ws1.
    eapply wp_call_spec; [reflexivity|cbn [List.length]; lia|cbn [firstn rev app]; apply alloc_spec; [exact Hw|lia]|intros O; left; split; [reflexivity|eapply oom_mono; [exact O|lia]]|].
    intros rs w1 (->&Al). cbn [app skipn]. pose proof (alloc_extends _ _ _ Hw Al ltac:(lia)) as Ex1. destruct Al as (Hw1&Em1&Mx1&Pg1&Gn1&Gc1&Ho1). pose proof Hw1 as (Q1&Q2&Q3&Q4&Q5&Q6).
    apply wp_ltee'; [rewrite set_nth_length; exact Lk|]. ws1.
    eapply wp_call_spec; [reflexivity|cbn [List.length]; lia|cbn [firstn rev app]; apply alloc_spec; [exact Hw1|lia]|intros O; left; split; [reflexivity|unfold oom in *; lia]|].
    intros rs w2 (->&Al). cbn [app skipn]. pose proof (alloc_extends _ _ _ Hw1 Al ltac:(lia)) as Ex2. destruct Al as (Hw2&Em2&Mx2&Pg2&Gn2&Gc2&Ho2). pose proof Hw2 as (R1&R2&R3&R4&R5&R6).
    apply wp_ltee'; [rewrite !set_nth_length; exact Lq|]. eapply wp_store; [lia|unfold page_size; lia|]. rewrite Z.add_0_r, Em2, Em1. change (Z.of_nat 4) with 4.
    eapply wp_lget; [apply set_nth_same; rewrite !set_nth_length; exact Lq|]. eapply wp_lget; [rewrite !set_nth_other by congruence; apply set_nth_same; exact Lv|].
    set (m1 := store 4 (mem w) (gnext w) (gnext w1)). eapply wp_store; [lia|cbn [pages set_mem]; unfold page_size; lia|]. rewrite Z.add_0_r. cbn [mem set_mem].
    set (m2 := store (Z.of_nat (esize t)) m1 (gnext w1) x). change (set_mem (set_mem w2 m1) m2) with (set_mem w2 m2). apply wp_nil. right.
    assert (Out : forall y, y < gnext w \/ gnext w2 <= y -> rd m2 y = rd (mem w) y) by (intros y Y; unfold m2, m1; rewrite !rd_store_out by lia; reflexivity).
    exists (gnext w), (set_mem w2 m2), (set_nth q (gnext w1) (set_nth k (gnext w) (set_nth v x l))). split; [reflexivity|]. split; [|split; [|split; [|split; [reflexivity|]]]].
    + apply same_locals_set; [cbn; tauto|]. apply same_locals_set; [cbn; tauto|]. apply same_locals_set; [cbn; tauto|]. apply same_locals_refl.
    + rewrite set_nth_other by congruence. apply set_nth_same. rewrite set_nth_length. exact Lk.
    + split; [|cbn [maxpages pages gnext gcd host mem set_mem]; repeat (split; [first [lia|congruence]|]); intros y Y; apply Out; lia].
      unfold wok. cbn [maxpages pages gnext gavail mem set_mem]. repeat (split; [lia|]). intros y Y. rewrite Out by lia. apply P6. lia.
    + unfold ref_to. cbn [mem set_mem]. assert (Lr : load 4 m2 (gnext w) = gnext w1).
      { unfold m2. rewrite load_store_other by lia. unfold m1. change 4 with (Z.of_nat 4) at 1. rewrite load_store_same, Z.mod_small; lia. }
      split; [intros y Y; unfold heap, cell, between in *; cbn [gnext set_mem]; lia|]. cbn [gnext set_mem]. split; [|split].
      * intros y Y [Z|Z]; [apply Sf in Z|]; unfold heap, cell, between in *; lia.
      * intros y [Y|Y]; [apply Sf in Y|]; unfold heap, between in *; cbn [gnext set_mem]; lia.
      * rewrite Lr. unfold field_of. rewrite St. split; [intros y Y; right; unfold between in *; lia|]. unfold m2. rewrite load_store_same, Z.mod_small by exact Bx. exact V.
  - assert (Es4 : esize t = 4%nat) by (destruct t; try discriminate; reflexivity). rewrite Es4 in Bx. apply wp_lset'; [exact Lq|]. ws1.
    eapply wp_call_spec; [reflexivity|cbn [List.length]; lia|cbn [firstn rev app]; apply alloc_spec; [exact Hw|lia]|intros O; left; split; [reflexivity|eapply oom_mono; [exact O|lia]]|].
    intros rs w1 (->&Al). cbn [app skipn]. pose proof (alloc_extends _ _ _ Hw Al ltac:(lia)) as Ex1. destruct Al as (Hw1&Em1&Mx1&Pg1&Gn1&Gc1&Ho1). pose proof Hw1 as (Q1&Q2&Q3&Q4&Q5&Q6).
    apply wp_ltee'; [rewrite set_nth_length; exact Lk|]. eapply wp_lget; [rewrite set_nth_other by congruence; apply set_nth_same; exact Lq|].
    eapply wp_store; [lia|unfold page_size; lia|]. rewrite Z.add_0_r, Em1. change (Z.of_nat 4) with 4. set (m2 := store 4 (mem w) (gnext w) x). apply wp_nil. right.
    assert (Out : forall y, y < gnext w \/ gnext w1 <= y -> rd m2 y = rd (mem w) y) by (intros y Y; unfold m2; rewrite rd_store_out by lia; reflexivity).
    exists (gnext w), (set_mem w1 m2), (set_nth k (gnext w) (set_nth q x l)). split; [reflexivity|]. split; [|split; [|split; [|split; [reflexivity|]]]].
    + apply same_locals_set; [cbn; tauto|]. apply same_locals_set; [cbn; tauto|]. apply same_locals_refl.
    + apply set_nth_same. rewrite set_nth_length. exact Lk.
    + split; [|cbn [maxpages pages gnext gcd host mem set_mem]; repeat (split; [first [lia|congruence]|]); intros y Y; apply Out; lia].
      unfold wok. cbn [maxpages pages gnext gavail mem set_mem]. repeat (split; [lia|]). intros y Y. rewrite Out by lia. apply P6. lia.
    + unfold ref_to. cbn [mem set_mem]. assert (Lr : load 4 m2 (gnext w) = x) by (unfold m2; change 4 with (Z.of_nat 4) at 1; rewrite load_store_same, Z.mod_small; lia).
      split; [intros y Y; unfold heap, cell, between in *; cbn [gnext set_mem]; lia|]. cbn [gnext set_mem]. split; [|split].
      * intros y Y [Z|Z]; [apply Sf in Z|]; unfold heap, cell, between in *; lia.
      * intros y [Y|Y]; [apply Sf in Y|]; unfold heap, between in *; cbn [gnext set_mem]; lia.
      * rewrite Lr. unfold field_of. rewrite St. eapply vrep_mono; [|eapply vrep_ext; [|exact V]]; [intros y Y; left; exact Y|]. intros y Y. apply Out. apply Sf in Y. unfold heap, between in Y. lia.
Qed.

Lemma move_local_ok : forall t k r u F s l w, nth_error l k = Some r -> wok w -> ref_to w t r u F ->
  exists x, runs (move_local t k) s l w (x :: s) l w /\ owns w t u x F /\ 0 <= x < 256 ^ Z.of_nat (esize t).
Proof.
  intros t k r u F s l w Hk Hw (C&D&S&R). destruct (cell_heap w r Hw C) as (B1&B2&B3). pose proof Hw as (P1&P2&P3&P4&P5&P6).
  set (q := load 4 (mem w) r) in *. unfold field_of in R. destruct (is_stack t) eqn:St.
  - destruct R as (S1&V). pose proof (esize_range t) as Es. destruct (sub_pos F w q _ S1 S ltac:(lia)) as (X1&X2).
    exists (load (esize t) (mem w) q). split; [|split; [split; [apply vrep_stack; [exact St|exact V]|exact S]|apply load_range]].
    apply wp_runs. unfold move_local. rewrite St. cbn [app]. eapply wp_lget; [exact Hk|]. eapply wp_load; [lia|unfold page_size; lia|]. rewrite Z.add_0_r. fold q.
    eapply wp_load; [lia|unfold page_size; lia|]. rewrite Z.add_0_r. apply wp_nil. reflexivity.
  - exists q. split; [|split; [split; [exact R|exact S]|assert (Es : esize t = 4%nat) by (destruct t; try discriminate; reflexivity); rewrite Es; apply load_range]].
    apply wp_runs. unfold move_local. rewrite St. cbn [app]. eapply wp_lget; [exact Hk|]. eapply wp_load; [lia|unfold page_size; lia|]. rewrite Z.add_0_r. apply wp_nil. reflexivity.
Qed.

Lemma copy_local_ok : forall ep t k r u F s l w, wf_ty t -> nth_error l k = Some r -> wok w -> ref_to w t r u F ->
  (exists x w', runs (copy_local ep t k) s l w (x :: s) l w' /\ extends w w' /\ owns w' t u x (fresh w w') /\ 0 <= x < 256 ^ Z.of_nat (esize t) /\ ref_to w' t r u F) \/
  (crashes (copy_local ep t k) s l w /\ is_stack t = false /\ ctrap w (has_small t) (csize t u)).
Proof.
  intros ep t k r u F s l w Wt Hk Hw R. destruct (read_ok ep w t r u F [] t u s l Wt Hw R (part_here t u)) as [(x&w'&(n&Rn)&H)|((n&Rn)&H)]; cbn [cell_of] in Rn.
  - left. exists x, w'. split; [|exact H]. apply wp_runs. unfold copy_local. cbn [app]. eapply wp_lget; [exact Hk|]. exists n. rewrite Rn. split; [discriminate|reflexivity].
  - right. split; [|exact H]. unfold copy_local. cbn [app]. destruct (wp_lget k r (read_ref ep t) (fun o => o = OTrap) s l w Hk) as (n'&_&E); [exists n; rewrite Rn; split; [discriminate|reflexivity]|]. exists n'. exact E.
Qed.

(** ** Objects *)

Lemma pack_id_ok : forall t p d v x u F s l w, NoDup [p; d; v] -> (forall k, In k [p; d; v] -> (k < List.length l)%nat) ->
  wok w -> owns w t u x F -> 0 <= x < 256 ^ Z.of_nat (esize t) ->
  (exists y w' l', runs (pack_id t p d v) (x :: s) l w (y :: s) l' w' /\ same_locals [p; d; v] l l' /\ extends w w' /\
     word (mem w') (true, TStruct false [t]) (VStruct 0 [u]) y (union F (fresh w w')) /\ sub (union F (fresh w w')) (heap w') /\ 0 <= y < 2 ^ 32) \/
  (crashes (pack_id t p d v) (x :: s) l w /\ oom w (4 + struct_memory false [t])).
Proof.
  intros t p d v x u F s l w Nd Ll Hw (V&Sf) Bx. inversion Nd as [|? ? N1 Nd']; subst. inversion Nd' as [|? ? N2 Nd'']; subst.
  pose proof Hw as (P1&P2&P3&P4&P5&P6).
  assert (W : wp (pack_id t p d v) (fun o => (o = OTrap /\ oom w (4 + struct_memory false [t])) \/ exists y w' l', o = ONormal (y :: s) l' w' /\ same_locals [p; d; v] l l' /\ extends w w' /\
     word (mem w') (true, TStruct false [t]) (VStruct 0 [u]) y (union F (fresh w w')) /\ sub (union F (fresh w w')) (heap w') /\ 0 <= y < 2 ^ 32) (x :: s) l w).
  2:{ destruct W as (n&_&[(E&O)|(r&w'&l'&E&R)]); [right; split; [exists n; exact E|exact O]|left; exists r, w', l'; split; [exists n; exact E|exact R]]. }
  unfold pack_id. cbn [app]. ws1. assert (Sm : 0 <= struct_memory false [t]) by (unfold struct_memory; pose proof (boxes_nonneg [t]); cbn [List.length]; lia).
  eapply wp_call_spec; [reflexivity|cbn [List.length]; lia|cbn [firstn rev app]; apply alloc_spec; [exact Hw|lia]|intros O; left; split; [reflexivity|eapply oom_mono; [exact O|lia]]|].
  intros rs w1 (->&Al). cbn [app skipn]. pose proof (alloc_extends _ _ _ Hw Al ltac:(lia)) as Ex1. destruct Al as (Hw1&Em1&Mx1&Pg1&Gn1&Gc1&Ho1). apply wp_drop.
  rewrite <- (app_nil_r (pack_struct _ _ _ _ _)). change (x :: s) with (rev [x] ++ s).
  eapply wp_pack_struct with (F := F) (vs := [u]); try (apply Ll; cbn; tauto); try (intros ->; cbn in *; tauto); [cbn; lia|exact Hw1| | | |].
  - cbn [words]. exists F, empty. rewrite Em1. split; [exact V|]. split; [exact Bx|]. split; [exact Logic.I|]. split; [intros y _ []|]. split; [intros y Y; exact Y|intros y []].
  - intros y Y. apply Sf in Y. unfold heap, between in *. lia.
  - intros O. left. split; [reflexivity|]. cbn [map snd] in O. unfold oom in *. lia.
  - cbn [map snd id_cells]. intros y w' l' E L G Ey By Vy _. rewrite Z.add_0_r in Ey. apply wp_nil. right. exists y, w', l'. split; [reflexivity|]. split; [exact L|].
    assert (E' : extends w w').
    { destruct E as (A1&A2&A3&A4&A5&A6&A7). split; [exact A1|]. repeat (split; [first [lia|congruence]|]). intros a Ha. rewrite A7; [rewrite Em1; reflexivity|lia|]. intros [[]|[]]. }
    split; [exact E'|]. destruct E' as (Hw'&_). pose proof Hw' as (Q1&Q2&Q3&Q4&Q5&Q6). destruct E as (_&_&_&Gm&_). split; [|split; [|lia]].
    + split; [reflexivity|]. exists (union F (fresh w1 w')). split; [exact Vy|]. split; [intros z [Z|Z]; [left; exact Z|right; unfold fresh, between in *; lia]|].
      split; [intros z Z; right; unfold fresh, between in *; lia|]. intros z Z [Y|Y]; [apply Sf in Y; unfold heap, between in *; lia|unfold fresh, between in *; lia].
    + intros z [Z|Z]; [apply Sf in Z|]; unfold fresh, heap, between in *; lia.
Qed.

Lemma struct_object : forall m fs o o1 o2 id vs x F, vrep m (TStruct true (T_uid :: fs)) (VStruct o (VStruct o1 [VStruct o2 [VInt id]] :: vs)) x F -> object_at m fs o id vs x F.
Proof.
  intros m fs o o1 o2 id vs x F H. cbn [vrep] in H. destruct H as (o'&vs'&G&E&Eo&S1&S2&D&H). injection E as <- <-. cbn [map fields] in H.
  destruct H as (F1&F2&H1&H2&D12&S3&S4). unfold field_of at 1 in H1. cbn [is_stack T_uid vrep] in H1. destruct H1 as (o3&vs3&G3&E3&_&S5&S6&D3&H3). injection E3 as <- <-.
  cbn [map fields] in H3. destruct H3 as (F4&F5&H4&_&_&S7&_). unfold field_of in H4. cbn [is_stack T_id vrep] in H4. destruct H4 as (o6&vs6&G6&E6&_&S8&S9&D6&H6). injection E6 as <- <-.
  cbn [map fields] in H6. destruct H6 as (F7&F8&H7&_&_&S10&_). unfold field_of in H7. cbn [is_stack vrep] in H7. destruct H7 as (H7&S11). cbn [List.length] in *.
  exists (load 4 m x), (load 4 m (load 4 m x)), (load 4 m (load 4 m (load 4 m x))), F2. do 3 (split; [reflexivity|]).
  destruct H7 as (H7&_). apply (f_equal (fun v => match v with VInt n => n | _ => 0 end)) in H7. cbv beta iota in H7. split; [symmetry; exact H7|]. split; [symmetry; exact Eo|].
  replace (4 * Z.of_nat 1) with 4 in * by reflexivity.
  assert (Fa : sub (between (load 4 m x) (load 4 m x + 4)) G) by (eapply sub_trans; [exact S5|exact S3]).
  assert (Fb : sub (between (load 4 m (load 4 m x)) (load 4 m (load 4 m x) + 4)) G).
  { eapply sub_trans; [exact S8|]. eapply sub_trans; [exact S7|]. eapply sub_trans; [exact S6|]. exact S3. }
  assert (Fc : sub (between (load 4 m (load 4 m (load 4 m x))) (load 4 m (load 4 m (load 4 m x)) + 32)) G).
  { eapply sub_trans; [exact S11|]. eapply sub_trans; [exact S10|]. eapply sub_trans; [exact S9|]. eapply sub_trans; [exact S7|]. eapply sub_trans; [exact S6|]. exact S3. }
  assert (Bl : forall y, between (x - 32) (x + 4 + 4 * Z.of_nat (List.length fs)) y -> between (x - 32) (x + 4 * Z.of_nat (S (List.length fs))) y) by (intros y; unfold between; lia).
  split; [intros y Y; apply S1, Bl; exact Y|]. split; [eapply sub_trans; [exact Fa|exact S2]|]. split; [eapply sub_trans; [exact Fb|exact S2]|]. split; [eapply sub_trans; [exact Fc|exact S2]|].
  split; [eapply sub_trans; [exact S4|exact S2]|]. split; [|exact H2].
  intros y Y Z. apply (D y (Bl y Y)). destruct Z as [Z|[Z|[Z|Z]]]; [apply S4|apply Fa|apply Fb|apply Fc]; exact Z.
Qed.

(** Packing an object: the id, then the fields; it has no owner yet. *)
Lemma pack_object_ok : forall fs id p d v x xs vs F F0 s l w, NoDup [p; d; v] -> (forall k, In k [p; d; v] -> (k < List.length l)%nat) ->
  Z.of_nat (List.length fs) < 65535 -> wok w -> word (mem w) (true, T_uid) (v_uid id) x F0 -> 0 <= x < 2 ^ 32 -> words (mem w) (plain_fields fs) vs xs F -> sub F (heap w) -> sub F0 (heap w) -> disj F0 F ->
  (exists y w' l', runs (pack_struct true ((true, T_uid) :: plain_fields fs) p d v) (rev xs ++ x :: s) l w (y :: s) l' w' /\ same_locals [p; d; v] l l' /\
     evolves w w' (between (x - 4) x) /\ object_at (mem w') fs 0 id vs y (union (union F0 F) (fresh w w')) /\ gnext w <= y < 2 ^ 32 /\ load 4 (mem w') y = x /\ load 4 (mem w') (x - 4) = y) \/
  (crashes (pack_struct true ((true, T_uid) :: plain_fields fs) p d v) (rev xs ++ x :: s) l w /\ oom w (struct_memory true (T_uid :: fs))).
Proof.
  intros fs id p d v x xs vs F F0 s l w Nd Ll Hn Hw Hx Bx H Sf Sf0 D.
  assert (Hws : words (mem w) ((true, T_uid) :: plain_fields fs) (v_uid id :: vs) (x :: xs) (union F0 F)).
  { cbn [words]. exists F0, F. split; [exact Hx|]. split; [exact Bx|]. split; [exact H|]. split; [exact D|]. split; intros y Y; [left|right]; exact Y. }
  assert (Ms : map snd (plain_fields fs) = fs) by (unfold plain_fields; rewrite map_map; cbn [snd]; apply map_id).
  assert (Ids : forall y, ~ id_cells (plain_fields fs) xs y).
  { clear. revert xs. induction fs as [|t fs IH]; intros [|z xs] y; cbn [plain_fields map id_cells]; try (intros []; fail). intros [[]|Y]. exact (IH xs y Y). }
  destruct (pack_struct_ok true ((true, T_uid) :: plain_fields fs) p d v (x :: xs) (v_uid id :: vs) (union F0 F) s l w Nd Ll) as [(y&w'&l'&R&L&E&(V&_)&Ey&By&Hb)|(C&O)];
    [unfold plain_fields; cbn [List.length]; rewrite map_length; lia|exact Hw|exact Hws|intros y [Y|Y]; [apply Sf0|apply Sf]; exact Y| |].
  - left. exists y, w', l'. cbn [rev] in R. rewrite <- app_assoc in R. split; [exact R|]. split; [exact L|]. split; [eapply evolves_sub; [exact E|]; cbn [id_cells]; intros z [Z|Z]; [exact Z|destruct (Ids z Z)]|].
    cbn [map snd] in V. rewrite Ms in V. split; [eapply struct_object; exact V|]. split; [lia|]. cbn [held_by] in Hb. destruct Hb as (Hb&_). rewrite Z.add_0_r in Hb. apply Hb. reflexivity.
  - right. cbn [rev] in C. rewrite <- app_assoc in C. split; [exact C|]. cbn [map snd] in O. rewrite Ms in O. exact O.
Qed.
