(** * Lemmas behind PropsCache.v. *)

From Verif Require Import SpecInt Spec Tac RtAlloc RtErr RtInt RtInt2 RtEq RtMul RtDiv RtShift RtSwap RtAscii RtCopy RtCopy2 Ops SpecAbi LemAbi SpecVal LemVal SpecStor SpecLayout RtStor LemStor RtStore LemStore RtSave RtLoad RtLoadObj LemPlace LemObj RtChild LemDelete RtDelete SpecMove RtCall RtTransfer SpecCache RtCache LemFlow.
Ltac Zify.zify_post_hook ::= idtac.

Lemma at_point_trans : forall k1 s1 l1 w1 k2 s2 l2 w2 lbs c s l w, at_point k1 s1 l1 w1 lbs c s l w ->
  at_point k2 s2 l2 w2 lbs k1 s1 l1 w1 -> at_point k2 s2 l2 w2 lbs c s l w.
Proof.
  intros k1 s1 l1 w1 k2 s2 l2 w2 lbs c s l w A B.
  induction A as [|n a b s l w sa la wa E A IH|lb ar b r s l w Hl A IH|ar t e r c s l w A IH|lb ar b r j s l w la wa Hl It A IH].
  - exact B.
  - eapply at_seq; [exact E|exact IH].
  - apply at_block; [exact Hl|exact IH].
  - apply at_if. exact IH.
  - eapply at_loop; [exact Hl|exact It|exact IH].
Qed.

Lemma at_point_traps : forall k s' l' w' lbs np nl nr lb ar code r args w, at_point k s' l' w' lbs code [] (args ++ repeat 0 nl) w -> List.length args = np ->
  (exists n, exec n k s' l' w' = OTrap) -> traps (Func np nl nr (Block lb ar code :: r)) args w.
Proof.
  intros k s' l' w' lbs np nl nr lb ar code r args w A La (n&E).
  assert (W : wpf (Func np nl nr (Block lb ar code :: r)) args w (resq (fun _ _ => False) True)).
  { apply wpf_intro; [exact La|]. apply wp_block.
    apply wp_conseq with (Q := fun o => match o with OTrap => True | _ => False end).
    - eapply at_point_wp; [exact A| |].
      + intros o Ho. destruct o; cbn [escapes]; try contradiction. exact Logic.I.
      + apply (wp_exec n); rewrite E; [discriminate|exact Logic.I].
    - intros o Ho. destruct o; try contradiction. exact Logic.I. }
  apply wpf_cases in W. destruct W as [(rs&w''&_&[])|(T&_)]. exact T.
Qed.

Lemma save_memory_nonneg : forall l, 0 <= save_memory l.
Proof. induction l as [|a l IH]; cbn [save_memory fold_right]; [lia|]. pose proof (costs_nonneg (a_vals a)). unfold save_memory in IH. lia. Qed.

(** What the code before a Ret does. *)
Lemma cache_args_exec : forall ep rt l s w as_, running ep w -> statics w ->
  Forall (in_hand w l) as_ -> Forall (savable w) as_ -> distinct_objects (host w) as_ ->
  (exists n w', exec n (cache_args ep rt (map arg_code as_)) s l w = ONormal s l w' /\ wok w' /\ abort_flag w' = 0 /\ maxpages w' = maxpages w /\ gnext w' <= gnext w + save_memory as_ /\
     Forall (up_to_date (host w) (stor (host w'))) as_ /\ committed (host w') = committed (host w) /\
     (forall y, (forall a, In a as_ -> ~ covers (a_slots (host w) a) y) -> stor (host w') y = stor (host w) y)) \/
  (exists n, exec n (cache_args ep rt (map arg_code as_)) s l w = OTrap) /\ oom w (save_memory as_).
Proof.
  intros ep rt l s w as_ (Hw&He&Ab) St Hi Hs Hd.
  assert (W : wp (cache_args ep rt (map arg_code as_) ++ []) (fun o => match o with
     | ONormal s2 l2 w' => s2 = s /\ l2 = l /\ wok w' /\ abort_flag w' = 0 /\ maxpages w' = maxpages w /\ gnext w' <= gnext w + save_memory as_ /\
         Forall (up_to_date (host w) (stor (host w'))) as_ /\ committed (host w') = committed (host w) /\
         (forall y, (forall a, In a as_ -> ~ covers (a_slots (host w) a) y) -> stor (host w') y = stor (host w) y)
     | OTrap => oom w (save_memory as_) | _ => False end) s l w).
  { apply cache_args_wp; try assumption; [intros (_&O); exact O|]. intros w' G N Up Un. apply wp_nil.
    pose proof G as (Hw'&M'&_&_&_&E&U). pose proof Hw as (_&_&P3&_). split; [reflexivity|]. split; [reflexivity|]. split; [exact Hw'|].
    split; [|split; [exact M'|split; [exact N|split; [exact Up|split; [rewrite E; reflexivity|exact Un]]]]].
    unfold abort_flag in *. rewrite <- Ab. apply load_ext. intros y Hy. apply U; [lia|]. unfold cache_mem, slot_mem, within. lia. }
  rewrite app_nil_r in W. destruct W as (n&_&W). destruct (exec n _ _ l w) eqn:E; try contradiction.
  - left. destruct W as (->&->&W). exists n, w0. split; [exact E|exact W].
  - right. split; [exists n; exact E|exact W].
Qed.

(** A whole entry function, whichever Ret it reaches. *)
Lemma entry_saves : forall ep rt np nl r b body ts args w k lbs s l w1 vs as_, List.length args = np ->
  at_point (cache_args ep rt (map arg_code as_) ++ prepare_return r b ts ++ k) (rev vs ++ s) l w1 lbs body [] (args ++ repeat 0 nl) w -> ~ In "result"%string lbs ->
  (r < b)%nat -> (b + List.length ts <= np + nl)%nat -> words_of ts vs -> total_size ts < 2147483648 ->
  running ep w1 -> statics w1 -> Forall (in_hand w1 l) as_ -> Forall (savable w1) as_ -> distinct_objects (host w1) as_ ->
  (exists rs w2, returns (move_function np nl r body ts) args w rs w2 /\ abort_flag w2 = 0 /\
     Forall (up_to_date (host w1) (stor (host w2))) as_ /\
     (forall y, (forall a, In a as_ -> ~ covers (a_slots (host w1) a) y) -> stor (host w2) y = stor (host w1) y)) \/
  traps (move_function np nl r body ts) args w /\ oom w1 (save_memory as_ + total_size ts).
Proof.
  intros ep rt np nl r b body ts args w k lbs s l w1 vs as_ La A Hl Hr Hn Ws Ht Rn St Hi Hs Hd. pose proof (save_memory_nonneg as_) as Sn. pose proof (total_nonneg ts) as Tn.
  destruct (cache_args_exec ep rt l (rev vs ++ s) w1 as_ Rn St Hi Hs Hd) as [(n&w2&E&Hw2&Ab2&M2&N2&Up&_&Un)|((n&E)&O)].
  - pose proof (at_point_trans _ _ _ _ (prepare_return r b ts ++ k) (rev vs ++ s) l w2 _ _ _ _ _ A (at_seq _ _ _ _ _ _ _ _ _ _ _ _ _ _ E (at_here _ _ _ _ _))) as A2.
    pose proof (return_spec np nl r b body ts args w k lbs s l w2 vs La A2 Hl Hr Hn Hw2 Ws Ht) as W. apply wpf_cases in W. destruct W as [(rs&w3&R&P)|(T&O)].
    + left. exists rs, w3. split; [exact R|].
      assert (X : extends w2 w3) by (destruct ts; [destruct P as (_&->); apply extends_refl; exact Hw2|apply P]).
      pose proof X as (_&_&_&_&_&X6&X7). pose proof Hw2 as (_&_&P3&_). rewrite X6. split; [|split; [exact Up|exact Un]].
      unfold abort_flag in *. rewrite <- Ab2. apply load_ext. intros y Hy. apply X7. lia.
    + right. split; [exact T|]. unfold oom in *. lia.
  - right. split; [|unfold oom in *; lia]. eapply at_point_traps; [exact A|exact La|].
    assert (W : wp (cache_args ep rt (map arg_code as_) ++ prepare_return r b ts ++ k) (fun o => o = OTrap) (rev vs ++ s) l w1).
    { apply wp_app. apply (wp_exec n); rewrite E; [discriminate|reflexivity]. }
    destruct W as (m&_&W). exists m. exact W.
Qed.

(** ** What storage has determines the value *)

Definition held_one_ok (t : ty) : Prop := forall H st v v' p, held H st t v p -> held H st t v' p -> v = v'.
Lemma helds_fun : forall fs, Forall held_one_ok fs -> forall H st vs vs' p, helds H st fs vs p -> helds H st fs vs' p -> vs = vs'.
Proof.
  intros fs F. induction F as [|t fs Ht _ IH]; intros H st vs vs' p A B; destruct vs as [|v vs], vs' as [|v' vs']; cbn [helds] in *; try contradiction; [reflexivity|].
  destruct A as (A1&A2), B as (B1&B2). f_equal; [eapply Ht; eassumption|eapply IH; eassumption].
Qed.
Lemma held_fun : forall t, held_one_ok t.
Proof.
  assert (Sc : forall t, match t with TVec _ | TStruct _ _ | TEnum _ => False | _ => True end -> held_one_ok t).
  { intros t Ht H st v v' p A B. apply (held_scalar H st t v p Ht) in A. apply (held_scalar H st t v' p Ht) in B. cbv zeta in *.
    destruct A as (n&->&_&A), B as (n'&->&_&B). congruence. }
  apply ty_rec'.
  - intros t Ht. apply Sc. destruct t; try discriminate; exact Logic.I.
  - apply Sc. exact Logic.I.
  - apply Sc. exact Logic.I.
  - apply Sc. exact Logic.I.
  - intros t IH H st v v' p A B. apply held_vec in A. apply held_vec in B. cbv zeta in *. destruct A as (vs&->&L1&A), B as (vs'&->&L2&B). f_equal.
    assert (E : map (fun _ : val => t) vs' = map (fun _ => t) vs).
    { assert (L : List.length vs' = List.length vs) by lia. clear - L. revert vs L. induction vs' as [|x l IH]; intros [|y m] L; try discriminate; [reflexivity|]. cbn [map]. f_equal. apply IH. cbn [List.length] in L. lia. }
    rewrite E in B. eapply (helds_fun (map (fun _ => t) vs)); [|exact A|exact B]. apply Forall_map. apply Forall_forall. intros; exact IH.
  - intros k fs IH H st v v' p A B. apply held_struct in A. apply held_struct in B. destruct A as (vs&->&A), B as (vs'&->&B). f_equal. eapply helds_fun; eassumption.
  - intros vts IH H st v v' p A B. apply held_enum in A. apply held_enum in B. destruct A as (tag&vs&fs&->&E1&A), B as (tag'&vs'&fs'&->&E2&B).
    assert (E : tag = tag').
    { cbn [helds] in A, B. destruct A as (A&_), B as (B&_). pose proof (Sc TU8 Logic.I H st _ _ p A B) as X. injection X as X. lia. }
    subst tag'. rewrite E1 in E2. injection E2 as <-. f_equal. assert (X : VInt (Z.of_nat tag) :: vs = VInt (Z.of_nat tag) :: vs'); [|congruence].
    eapply (helds_fun (TU8 :: fs)); [|exact A|exact B]. constructor; [apply Sc; exact Logic.I|exact (nth_error_Forall _ _ _ _ IH E1)].
Qed.
Lemma up_to_date_fun : forall h st a b, a_owner a = a_owner b -> a_id a = a_id b -> a_types a = a_types b -> a_owner b <> 0 -> up_to_date h st b -> up_to_date h st a -> a_vals a = a_vals b.
Proof.
  intros h st a b Eo Ei Et N B A. unfold up_to_date, a_slot in *. rewrite Eo, Ei, Et in A. destruct (A N) as (_&A'), (B N) as (_&B').
  eapply helds_fun; [|exact A'|exact B']. apply Forall_forall. intros t _. apply held_fun.
Qed.

Lemma flat_no_shrink : forall t, flat t = true -> forall H st v p, no_shrink H st t v p.
Proof.
  fix IH 1. intros t Ft H st v p. destruct t as [ | | | | | | | |t'|k fs|vts]; cbn [flat] in Ft; try discriminate; destruct v as [n|l|o l|g l]; try exact Logic.I.
  destruct k; try discriminate. apply no_shrink_struct. apply andb_prop in Ft. destruct Ft as (_&Ff). revert l p. induction fs as [|t fs IHl]; intros [|v vs] p; try exact Logic.I.
  cbn [forallb] in Ff. apply andb_prop in Ff. destruct Ff as (F1&F2). cbn [no_shrinks]. split; [apply IH; exact F1|apply IHl; exact F2].
Qed.
Lemma flat_no_shrinks : forall fs, forallb flat fs = true -> forall H st vs p, no_shrinks H st fs vs p.
Proof.
  induction fs as [|t fs IHl]; intros Ff H st [|v vs] p; try exact Logic.I.
  cbn [forallb] in Ff. apply andb_prop in Ff. destruct Ff as (F1&F2). cbn [no_shrinks]. split; [apply flat_no_shrink; exact F1|apply IHl; exact F2].
Qed.

(** ** The same object twice among the arguments *)

Lemma same_object_twice : forall ep rt l s w a b, running ep w -> statics w -> in_hand w l a -> in_hand w l b -> savable w a -> savable w b ->
  a_owner a = a_owner b -> a_id a = a_id b -> a_types a = a_types b -> a_owner b <> 0 -> forallb flat (a_types b) = true ->
  (exists n w', exec n (cache_args ep rt (map arg_code [a; b])) s l w = ONormal s l w' /\ up_to_date (host w) (stor (host w')) b /\
     (a_vals a <> a_vals b -> ~ up_to_date (host w) (stor (host w')) a)) \/
  (exists n, exec n (cache_args ep rt (map arg_code [a; b])) s l w = OTrap) /\ oom w (save_memory [a; b]).
Proof.
  intros ep rt l s w a b (Hw&He&Ab) St Ia Ib Sa Sb Eo Ei Et N Fl.
  assert (W : wp (cache_args ep rt (map arg_code [a]) ++ cache_args ep rt (map arg_code [b]) ++ []) (fun o => match o with
     | ONormal s2 l2 w' => s2 = s /\ l2 = l /\ up_to_date (host w) (stor (host w')) b
     | OTrap => oom w (save_memory [a; b]) | _ => False end) s l w).
  { pose proof (save_memory_nonneg [a]) as Na. pose proof (save_memory_nonneg [b]) as Nb.
    assert (Es2 : save_memory [a; b] = save_memory [a] + save_memory [b]) by (unfold save_memory; cbn [fold_right]; lia).
    apply cache_args_wp; try assumption; [constructor; [exact Ia|constructor]|constructor; [exact Sa|constructor]|constructor; constructor|intros (_&O); unfold oom in *; lia|].
    intros w1 G N1 Up1 Un1. pose proof G as (Hw1&M1&_&_&_&_&U). pose proof Hw as (_&_&P3&_). destruct (grows_host _ _ _ G) as (Ek&Es&El).
    apply cache_args_wp; try assumption.
    - unfold abort_flag in *. rewrite <- Ab. apply load_ext. intros y Hy. apply U; [lia|]. unfold cache_mem, slot_mem, within. lia.
    - eapply statics_cache; eassumption.
    - constructor; [|constructor]. eapply (in_hand_next w w1); eassumption.
    - constructor; [|constructor]. destruct Sb as (P1&P2&R). split; [exact P1|]. split; [exact P2|]. intros _. rewrite Ek, Es. split; [apply R; exact N|apply flat_no_shrinks; exact Fl].
    - constructor; constructor.
    - intros (_&O). unfold oom in *. lia.
    - intros w2 G2 N2 Up2 Un2. apply wp_nil. split; [reflexivity|]. split; [reflexivity|]. inversion Up2 as [|? ? U2 _]; subst. intros Nb'. specialize (U2 Nb'). rewrite Ek, Es in U2. exact U2. }
  rewrite app_nil_r in W. change (cache_args ep rt (map arg_code [a; b])) with (cache_args ep rt (map arg_code [a]) ++ cache_args ep rt (map arg_code [b])).
  destruct W as (n&_&W). destruct (exec n _ _ l w) eqn:E; try contradiction.
  - left. destruct W as (->&->&W). exists n, w0. split; [exact E|]. split; [exact W|]. intros D A. apply D. eapply up_to_date_fun; eassumption.
  - right. split; [exists n; exact E|exact W].
Qed.

(** ** Dynamic fields *)

Lemma fields_saved : forall ep ts ds gs w, wok w -> errtab_ok ep -> statics w ->
  Forall2 (field_in_hand w) gs ds -> Forall2 field_type ds ts -> Forall (savable w) (somes ds) -> distinct_objects (host w) (somes ds) ->
  (exists w', returns (commit_changes ep ts) gs w [] w' /\ committed (host w') = stor (host w') /\
     Forall (up_to_date (host w) (committed (host w'))) (somes ds) /\
     (forall y, (forall a, In a (somes ds) -> ~ covers (a_slots (host w) a) y) -> committed (host w') y = stor (host w) y)) \/
  traps (commit_changes ep ts) gs w /\ oom w (fields_memory ds).
Proof.
  intros ep ts ds gs w Hw He St Hf Ht Hs Hd. pose proof (commit_changes_spec ep ts ds gs w Hw He St Hf Ht Hs Hd) as W. apply wpf_cases in W.
  destruct W as [(rs&w'&R&(->&P))|(T&(_&O))]; [left; exists w'; split; [exact R|exact P]|right; split; assumption].
Qed.

(** One place that borrows a dynamic field runs twice; then the transaction ends. *)
Definition run_twice (ep : errtab) (g v : nat) (x1 x2 h : Z) (fs : list ty) : list instr :=
  [ Const (x1 + 8) ] ++ borrowed_field g v ++ [ Drop; Const (x2 + 8) ] ++ borrowed_field g v ++ [ Drop; LocalGet g; Call (commit_changes ep [(h, fs)]) ].

Lemma borrowed_wp : forall g v x r (Q : outcome -> Prop) s l w, 0 <= x -> x + 8 < 2 ^ 32 -> (g < List.length l)%nat -> (v < List.length l)%nat -> g <> v ->
  (forall l', List.length l' = List.length l -> nth_error l' g = Some x -> wp r Q (x + 8 :: s) l' w) -> wp (borrowed_field g v ++ r) Q (x + 8 :: s) l w.
Proof.
  intros g v x r Q s l w Hx Hx2 Hg Hv D K. unfold borrowed_field. cbn [app]. apply wp_ltee'; [exact Hv|].
  pose proof (set_nth_same v (x + 8) l Hv) as E1. pose proof (set_nth_length v (x + 8) l) as L1. remember (set_nth v (x + 8) l) as l1. clear Heql1.
  ws1. ws1. replace (x + 8 - 8) with x by lia.
  apply wp_lset'; [lia|]. pose proof (set_nth_same g x l1 ltac:(lia)) as E2. pose proof (set_nth_length g x l1) as L2. pose proof (set_nth_other g v x l1 D) as E3. remember (set_nth g x l1) as l2. clear Heql2.
  eapply wp_lget; [rewrite E3; exact E1|]. apply K; [lia|exact E2].
Qed.

Lemma site_twice : forall ep g v x1 x2 a b l s w, running ep w -> statics w -> (g < List.length l)%nat -> (v < List.length l)%nat -> g <> v ->
  field_in_hand w x1 (Some a) -> field_in_hand w x2 (Some b) -> a_hash a = a_hash b -> a_types a = a_types b -> forallb storable (a_types b) = true -> savable w b ->
  distinct_objects (host w) [a; b] -> 0 <= x1 < 2 ^ 31 -> 0 <= x2 < 2 ^ 31 ->
  (exists n l' w', exec n (run_twice ep g v x1 x2 (a_hash b) (a_types b)) s l w = ONormal s l' w' /\
     up_to_date (host w) (committed (host w')) b /\
     (~ up_to_date (host w) (stor (host w)) a -> ~ up_to_date (host w) (committed (host w')) a)) \/
  (exists n, exec n (run_twice ep g v x1 x2 (a_hash b) (a_types b)) s l w = OTrap) /\ oom w (fields_memory [Some b]).
Proof.
  intros ep g v x1 x2 a b l s w (Hw&He&Ab) St Lg Lv D Fa Fb Eh Et Pl Sb Ds X1 X2.
  assert (W : wp (run_twice ep g v x1 x2 (a_hash b) (a_types b)) (fun o => match o with
     | ONormal s2 l2 w' => s2 = s /\ up_to_date (host w) (committed (host w')) b /\ (~ up_to_date (host w) (stor (host w)) a -> ~ up_to_date (host w) (committed (host w')) a)
     | OTrap => oom w (fields_memory [Some b]) | _ => False end) s l w).
  { unfold run_twice. cbn [app]. ws1. replace ((x1 + 8) mod 2 ^ 32) with (x1 + 8) by (rewrite Z.mod_small by lia; lia).
    apply borrowed_wp; try lia. intros l1 L1 G1. ws1. ws1. replace ((x2 + 8) mod 2 ^ 32) with (x2 + 8) by (rewrite Z.mod_small by lia; lia).
    apply borrowed_wp; try lia. intros l2 L2 G2. ws1. eapply wp_lget; [exact G2|].
    eapply wp_call_spec; [reflexivity|cbn [List.length]; lia|cbn [firstn rev app List.length]|..].
    - apply (commit_changes_spec ep [(a_hash b, a_types b)] [Some b] [x2] w Hw He St).
      + constructor; [exact Fb|constructor].
      + constructor; [split; reflexivity|constructor].
      + constructor; [exact Sb|constructor].
      + constructor; constructor.
    - intros (_&O). exact O.
    - intros rs w1 (->&_&Up&Un). cbn [skipn app]. apply wp_nil. split; [reflexivity|]. inversion Up as [|? ? U _]; subst. split; [exact U|].
      intros Na Ua. apply Na. destruct Fa as (_&F&Ob&_). eapply (up_to_date_next (host w) (committed (host w1))); [eapply object_typed; [rewrite Et; exact Pl|exact Ob]| |exact Ua].
      intros y Hy. symmetry. apply Un. intros c [<-|[]] Y. inversion Ds as [|? ? Da _]; subst. inversion Da as [|? ? Dab _]; subst. eapply Dab; eassumption. }
  destruct W as (n&_&W). destruct (exec n _ _ l w) eqn:E; try contradiction.
  - left. destruct W as (->&W). exists n, l0, w0. split; [exact E|exact W].
  - right. split; [exists n; exact E|exact W].
Qed.

Lemma seen_later : forall ep h st a, up_to_date h st a -> a_owner a <> 0 -> 0 < a_hash a < 2 ^ 64 -> legible (keccak h) (a_types a) (a_vals a) (a_slot h a) ->
  Forall (fun s => snd s < 2 ^ 256) (a_slots h a) -> object_memory (a_types a) (a_vals a) < 2 ^ 31 ->
  reloads ep (a_hash a) (a_types a) (a_vals a) (a_slot h a) (keccak h) st.
Proof.
  intros ep h st a U N Hh Pl Sl Mm. destruct (U N) as (U1&U2). apply reloads_ok; try assumption.
  unfold a_slots, slots_under in Sl. rewrite (proj2 (Z.eqb_neq _ _) N) in Sl. exact Sl.
Qed.
