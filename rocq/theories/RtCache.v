(** * Saving changed objects at the end of a transaction: runtime/storage.rs 1332-1418 and 1618-1708, translation.rs 3372-3423. *)

From Verif Require Import Tac RtAlloc RtErr RtInt RtInt2 RtEq RtMul RtDiv RtShift RtSwap RtAscii RtCopy RtCopy2 Ops SpecAbi LemAbi SpecVal LemVal SpecStor SpecLayout RtStor LemStor RtStore LemStore RtSave RtLoad RtLoadObj LemPlace LemObj RtChild LemDelete RtDelete SpecMove RtCall RtTransfer SpecCache.
Ltac Zify.zify_post_hook ::= idtac.

(** runtime/storage.rs 1618-1708 [cache_storage_object_changes] for an object with type hash [h] and the fields [fs]
    after its id.  Locals: 0 struct_ptr_ref, 1 struct_ptr, 2 slot_ptr. *)
Definition cache_object (ep : errtab) (h : Z) (fs : list ty) : func := Func 1 2 0
 [ LocalGet 0; Load 4 0; LocalTee 1; Call locate_struct_slot;
   LocalGet 1; Call get_struct_owner; Const 32; Call is_zero;
   If 0 []
     [ Const 32; Call alloc; LocalTee 2; Const A_OBJ_SLOT; Const 32; MemCopy;
       LocalGet 1; Call (check_tto ep (TStruct true (uid_ty :: fs)));
       LocalGet 1; LocalGet 2; Call (save_object ep h fs) ] ].

(** translation.rs 3372-3423 [add_cache_storage_object_instructions] for the arguments that are objects, by value or by
    mutable reference: the local, the type hash and the fields of each.  [rt]: whether the function has a result. *)
Definition cache_args (ep : errtab) (rt : bool) (l : list (nat * Z * list ty)) : list instr :=
  List.concat (map (fun a => [ LocalGet (fst (fst a)); Call (cache_object ep (snd (fst a)) (snd a)) ] ++ propagate rt) l).

(** runtime/storage.rs 1363-1412, for one dynamic field: the [i]-th of the globals, which are parameters here.
    Locals: [o] owner_ptr, [o + 1] slot_ptr (in the code each field has its own one). *)
Definition commit_field (ep : errtab) (o i : nat) (h : Z) (fs : list ty) : list instr :=
 [ Block "block" 0
     [ LocalGet i; Const 4294967295; Bin I32 Eq; BrIf "block";
       LocalGet i; Call get_struct_owner; LocalTee o;
       Const 32; Call is_zero; BrIf "block";
       Const 32; Call alloc; LocalSet (S o);
       LocalGet o; LocalGet i; Call get_id_bytes_ptr; LocalGet (S o); Call write_object_slot;
       LocalGet i; LocalGet (S o); Call (save_object ep h fs) ] ].
Fixpoint commit_fields (ep : errtab) (o i : nat) (l : list (Z * list ty)) : list instr :=
  match l with [] => [] | d :: l' => commit_field ep o i (fst d) (snd d) ++ commit_fields ep o (S i) l' end.
(** runtime/storage.rs 1332-1418 [add_commit_changes_to_storage_fn]. *)
Definition commit_changes (ep : errtab) (l : list (Z * list ty)) : func := Func (List.length l) 2 0
  (commit_fields ep (List.length l) 0 l ++ [ Const 1; Host H_storage_flush ]).

(** ** Storage that agrees on the slots of a value *)

Definition noshrink_ext_ok (t : ty) : Prop := forall H st st' v p, good p -> typed t v -> pos_cond st st' p (after t p) ->
  (forall x, covers (areas H t v p) x -> st x = st' x) -> no_shrink H st t v p -> no_shrink H st' t v p.

Lemma no_shrinks_ext : forall fs, Forall noshrink_ext_ok fs -> forall H st st' vs p, good p -> typeds fs vs -> pos_cond st st' p (afters fs p) ->
  (forall x, covers (areas_of H fs vs p) x -> st x = st' x) -> no_shrinks H st fs vs p -> no_shrinks H st' fs vs p.
Proof.
  intros fs F. induction F as [|t fs Ht _ IH]; intros H st st' vs p Gp Ty Pc Ar Hd; destruct vs as [|v vs]; cbn [no_shrinks] in *; auto.
  destruct Hd as (Hv&Hd). inversion Ty; subst. destruct (after_ok t p Gp) as (G1&B1). destruct (afters_ok fs (after t p) G1) as (G2&B2).
  cbn [areas_of] in Ar. rewrite afters_cons in Pc. split.
  - apply (Ht H st st' v p Gp); auto.
    + apply (pos_cond_l st st' p _ (afters fs (after t p))); auto.
    + intros x Hx. apply Ar. apply covers_app. auto.
  - apply (IH H st st'); auto.
    + eapply pos_cond_r; eassumption.
    + intros x Hx. apply Ar. apply covers_app. auto.
Qed.

Lemma no_shrink_ext : forall t, noshrink_ext_ok t.
Proof.
  apply ty_rec'; try (intros H st st' v p Gp Ty Pc Ar Hd; destruct v; exact Logic.I).
  - intros t Ht H st st' v p Gp Ty Pc Ar Hd. destruct t; try discriminate; destruct v; exact Logic.I.
  - intros t IH H st st' v p Gp Ty (Pc1&Pc2) Ar Hd. cbn [typed] in Ty. destruct Ty as (vs&->&_&Ty). apply no_shrink_vec. apply no_shrink_vec in Hd. cbv zeta in *. destruct Hd as (L&Hd).
    rewrite areas_vec in Ar. cbn [after] in Pc1, Pc2. set (k := fst (room p 32)) in *.
    assert (E32 : snd (room p 32) = 32) by (pose proof (room_part p 32 Gp ltac:(lia)); pose proof (room_good p 32 Gp ltac:(lia)) as G; unfold good in G; lia).
    rewrite E32 in Pc2. split; [change (2 ^ 32) with (256 ^ 4) in *; rewrite <- (mod_le (st k) (st' k) 4 32 ltac:(lia) Pc2); exact L|].
    destruct vs as [|v vs]; [exact Logic.I|]. remember (v :: vs) as l. assert (Ar' : forall x, covers (slots H (map (fun _ => t) l) l (data_slot H k, 0)) x -> st x = st' x) by (subst l; exact Ar).
    clear Ar Heql v vs. unfold slots in Ar'. set (d := (data_slot H k, 0) : position) in *.
    assert (Gd : good d) by (unfold good, d; cbn; lia). destruct (afters_ok (map (fun _ => t) l) d Gd) as (_&B).
    apply (no_shrinks_ext (map (fun _ => t) l)) with (st := st); auto.
    + apply Forall_map. apply Forall_forall. intros; exact IH.
    + apply typeds_map. exact Ty.
    + split; [intros x Hx; apply Ar'|f_equal; apply Ar']; apply covers_cons; left; cbn [fst snd]; unfold before in B; lia.
    + intros x Hx. apply Ar'. apply covers_cons. right. exact Hx.
  - intros k fs IH H st st' v p Gp Ty Pc Ar Hd. apply typed_struct in Ty. destruct Ty as (o&vs&->&_&Ty). apply no_shrink_struct. apply no_shrink_struct in Hd. rewrite areas_struct in Ar.
    apply (no_shrinks_ext fs IH H st st'); auto.
  - intros vts IH H st st' v p Gp Ty Pc Ar Hd. apply typed_enum in Ty. destruct Ty as (tag&vs&fs&->&En&Ty). apply (no_shrink_enum H st' vts tag fs vs p 0 En).
    apply (no_shrink_enum H st vts tag fs vs p 0 En) in Hd. rewrite (areas_enum H vts tag fs vs p 0 En) in Ar.
    apply (no_shrinks_ext (TU8 :: fs)) with (st := st); auto.
    + constructor; [intros ? ? ? v ? ? ? ? ? ?; destruct v; exact Logic.I|exact (nth_error_Forall _ _ _ _ IH En)].
    + constructor; [exists 0; split; [reflexivity|cbn; lia]|exact Ty].
    + rewrite afters_cons. cbn [after width]. pose proof (room_good p 1 Gp ltac:(lia)) as Gr. destruct (afters_ok fs (room p 1) Gr) as (Ga&Ba). pose proof (room_before p 1 Gp ltac:(lia)) as Br.
      apply (pos_cond_l st st' p (afters fs (room p 1)) (after (TEnum vts) p)); [exact Ga|eapply before_trans; eassumption| |exact Pc].
      apply variant_before; [eapply nth_error_In; exact En|exact Gp].
Qed.

Lemma slots_cond : forall H fs vs k st st', (forall y, covers (slots H fs vs (k, 8)) y -> st y = st' y) ->
  good (k, 8) /\ pos_cond st st' (k, 8) (afters fs (k, 8)) /\ (forall x, covers (areas_of H fs vs (k, 8)) x -> st x = st' x).
Proof.
  intros H fs vs k st st' A. assert (G : good (k, 8)) by (unfold good; cbn; lia). split; [exact G|]. destruct (afters_ok fs (k, 8) G) as (_&B). apply before_fst in B. cbn [fst] in B.
  split; [split|].
  - intros x Hx. apply A. apply covers_cons. left. cbn [fst snd] in *. lia.
  - f_equal. apply A. apply covers_cons. left. cbn [fst snd]. lia.
  - intros x Hx. apply A. apply covers_cons. right. exact Hx.
Qed.

Lemma helds_same : forall H fs vs k st st', typeds fs vs -> (forall y, covers (slots H fs vs (k, 8)) y -> st y = st' y) ->
  helds H st fs vs (k, 8) -> helds H st' fs vs (k, 8).
Proof.
  intros H fs vs k st st' Ty A Hd. destruct (slots_cond H fs vs k st st' A) as (G&P&Q).
  eapply (helds_ext fs); try eassumption. apply Forall_forall. intros. apply held_ext.
Qed.
Lemma no_shrinks_same : forall H fs vs k st st', typeds fs vs -> (forall y, covers (slots H fs vs (k, 8)) y -> st y = st' y) ->
  no_shrinks H st fs vs (k, 8) -> no_shrinks H st' fs vs (k, 8).
Proof.
  intros H fs vs k st st' Ty A Hd. destruct (slots_cond H fs vs k st st' A) as (G&P&Q).
  eapply (no_shrinks_ext fs); try eassumption. apply Forall_forall. intros. apply no_shrink_ext.
Qed.

(** ** One object *)

(** The memory outside of the heap that saving uses. *)
Definition cache_mem : mset := fun y => slot_mem 128 y \/ within 404 64 y.

Lemma statics_cache : forall w w', statics w -> wok w -> grows cache_mem w w' -> statics w'.
Proof.
  intros w w' S Hw G. apply (statics_grows 500 w w' S Hw); [lia|]. eapply grows_mono; [exact G|]. intros y _ [Y|Y]; unfold del_mem; auto.
Qed.

Lemma object_cache : forall w w' fs owner id vs x F, wok w -> grows cache_mem w w' -> object_at (mem w) fs owner id vs x F -> sub F (heap w) ->
  object_at (mem w') fs owner id vs x F /\ sub F (heap w').
Proof.
  intros w w' fs owner id vs x F Hw G Ob SF. split; [|eapply heap_grows; eassumption].
  eapply object_agree; [|exact Ob]. intros y Hy. apply SF in Hy. unfold heap, between in Hy. destruct G as (_&_&_&_&_&_&G). apply G; [lia|].
  unfold cache_mem, slot_mem, within. lia.
Qed.

(** What saving the object comes to. *)
Definition saved (h : Z) (fs : list ty) (owner id : Z) (vs : list val) (w w' : world) : Prop :=
  let H := keccak (host w) in let k := slot_of (host w) owner id in
  (owner <> 0 -> stor (host w') k mod 2 ^ 64 = bswap 8 h /\ helds H (stor (host w')) fs vs (k, 8)) /\
  (forall y, ~ covers (slots_under H fs vs owner k) y -> stor (host w') y = stor (host w) y).

Lemma cache_object_spec : forall ep h fs w q owner id vs F, wok w -> errtab_ok ep -> statics w -> 468 <= q -> q + 4 <= gnext w ->
  object_at (mem w) fs owner id vs (load 4 (mem w) q) F -> sub F (heap w) -> forallb storable fs = true -> 0 <= h < 2 ^ 64 ->
  (owner <> 0 -> room_for (keccak (host w)) (stor (host w)) fs vs (slot_of (host w) owner id)) ->
  wpf (cache_object ep h fs) [q] w (resq (fun r w' => r = [] /\ grows cache_mem w w' /\ gnext w' <= gnext w + 32 + costs vs /\ saved h fs owner id vs w w')
    (owner <> 0 /\ nomem w (32 + costs vs))).
Proof.
  intros ep h fs w q owner id vs F Hw He St Hq Hq2 Ob SF Pl Hh Rm. pose proof Hw as (P1&P2&P3&P4&P5&P6). pose proof St as (Z0&Z1&Z2&Z3&Z4).
  set (x := load 4 (mem w) q) in *. pose proof (object_placed w fs owner id vs x F Ob SF) as (X1&X2&Lo&Pt). cbv zeta in Pt. destruct Pt as (A1&A2&B1&B2&C1&C2&Li).
  pose proof (costs_nonneg vs) as Cn.
  assert (Rx : 0 <= x < 2 ^ 32) by (apply (load_range 4)).
  destruct (locate_struct_slot_spec w x Hw Z2) as (m1&R1&V1&F1); try (unfold live, id_ptr; lia). unfold id_ptr in V1. rewrite Lo, Li in V1.
  set (k := slot_of (host w) owner id) in *. set (w1 := set_mem w m1) in *.
  assert (G1 : grows cache_mem w w1).
  { apply grows_set_mem; [exact Hw| |]; unfold cache_mem, slot_mem, within; [|intros; lia]. intros a Ha. apply F1; unfold within; lia. }
  assert (Hw1 : wok w1) by apply G1. destruct (object_cache w w1 fs owner id vs x F Hw G1 Ob SF) as (Ob1&SF1).
  assert (Lo1 : load_be 32 (mem w1) (x - 32) = owner).
  { pose proof (object_placed w1 fs owner id vs x F Ob1 SF1) as (_&_&L&_). exact L. }
  apply wpf_intro; [reflexivity|]. wc. ws1. ws1. fold x. ws1.
  eapply wp_call; [reflexivity|cbn [List.length]; lia|]. wc. eapply returns_wpf; [exact R1|]. wc. fold w1.
  ws1. eapply wp_call; [reflexivity|cbn [List.length]; lia|]. wc. eapply returns_wpf; [apply owner_spec; lia|]. wc. ws1.
  assert (Gn1 : gnext w1 = gnext w) by reflexivity. assert (Pg1 : pages w1 = pages w) by reflexivity.
  eapply wp_call; [reflexivity|cbn [List.length]; lia|]. wc. eapply returns_wpf; [apply is_zero_be; [exact Hw1|unfold live; lia]|]. wc. rewrite Lo1.
  apply wp_if; intros C; unb C.
  - apply wp_nil. wc. ws1. destruct (Z.eqb_spec owner 0) as [E0|E0]; [|discriminate C].
    split; [reflexivity|]. split; [exact G1|]. split; [lia|]. unfold saved. cbv zeta. split; [intros N; contradiction|intros; reflexivity].
  - destruct (Z.eqb_spec owner 0) as [E0|E0]; [discriminate|]. destruct (Rm E0) as (Se&Ns).
    ws1. eapply wp_call_spec; [reflexivity|cbn [List.length]; lia|wc; apply alloc_spec; [exact Hw1|lia]| |].
    { intros O. wc. split; [exact E0|]. unfold nomem, oom in *. change (maxpages w1) with (maxpages w) in O. lia. }
    intros rs w2 (->&(Hw2&M2&X2'&Pg2&Gn2&Gc2&Hh2)). wc. rewrite Gn1 in *. set (p := gnext w). unfold A_OBJ_SLOT. ws1. ws1. ws1.
    pose proof Hw2 as (Y1&Y2&Y3&Y4&Y5&Y6). ws1.
    set (w3 := set_mem w2 _).
    assert (O3 : forall y, ~ within p 32 y -> rd (mem w3) y = rd (mem w1) y).
    { intros y Hy. cbn [w3 mem set_mem]. rewrite rd_mcopy_frame by exact Hy. rewrite M2. reflexivity. }
    assert (G3 : grows cache_mem w w3).
    { eapply grows_trans; [exact G1|]. split; [|split; [exact X2'|split; [exact Pg2|split; [cbn [w3 gnext set_mem]; lia|split; [exact Gc2|split; [cbn [w3 host set_mem]; rewrite Hh2; symmetry; apply set_stor_same|]]]]]].
      - apply wok_set_mem; [exact Hw2|]. intros y Hy. apply rd_mcopy_frame. unfold within. lia.
      - intros a Ha _. apply O3. unfold within. lia. }
    assert (Hw3 : wok w3) by apply G3. destruct (object_cache w w3 fs owner id vs x F Hw G3 Ob SF) as (Ob3&SF3).
    pose proof (statics_cache w w3 St Hw G3) as (S0&S1&_).
    assert (Gn3 : gnext w3 = p + 32) by (cbn [w3 gnext set_mem]; lia).
    assert (Vp : load_be 32 (mem w3) p = k).
    { rewrite <- V1. change m1 with (mem w1). rewrite <- M2. apply load_be_ext. intros i Hi. change (Z.of_nat 32) with 32 in Hi. cbn [w3 mem set_mem]. rewrite rd_mcopy_in by lia. f_equal. lia. }
    ws1. eapply wp_call; [reflexivity|cbn [List.length]; lia|]. wc. eapply returns_wpf; [eapply check_tto_object; eassumption|]. wc. ws1. ws1.
    assert (Hs3 : host w3 = host w) by (cbn [w3 host set_mem]; rewrite Hh2; reflexivity).
    eapply wp_call_spec; [reflexivity|cbn [List.length]; lia| | |].
    + wc. eapply (save_object_spec ep h fs w3 x p owner id vs F k).
      * split; [exact Hw3|]. split; [exact He|]. split; [exact S1|]. unfold p. lia.
      * exact S0.
      * exact Vp.
      * exact Pl.
      * exact Hh.
      * exact Ob3.
      * exact SF3.
      * intros y Hy Y. apply SF in Hy. unfold heap, between in *. unfold p in Y. lia.
      * rewrite Hs3. exact Se.
      * rewrite Hs3. exact Ns.
    + intros (N1&N2). split; [exact E0|]. unfold nomem, oom in *. change (maxpages w3) with (maxpages w2) in N2. change (maxpages w1) with (maxpages w) in X2'. unfold p in Gn3. lia.
    + intros rs w4 (->&G4&N4&T4&H4&U4). wc. apply wp_nil. wc. ws1. rewrite Hs3 in *.
      split; [reflexivity|]. split; [|split; [unfold p in *; lia|]].
      * eapply grows_trans; [exact G1|]. assert (G13 : grows (slot_mem p) w1 w3).
        { split; [exact Hw3|split; [exact X2'|split; [exact Pg2|split; [lia|split; [exact Gc2|split; [cbn [w3 host set_mem]; rewrite Hh2; symmetry; apply set_stor_same|]]]]]].
          intros a Ha Na. apply O3. intros Y. apply Na. right. exact Y. }
        eapply grows_mono; [eapply grows_trans; [exact G13|exact G4]|]. intros y Hy [Y|Y]; [left; left; exact Y|]. unfold within, p in Y. lia.
      * unfold saved. fold k. cbv zeta. split; [intros _; split; assumption|]. unfold slots_under. rewrite (proj2 (Z.eqb_neq owner 0) E0). exact U4.
Qed.

(** ** All objects *)

Definition save_memory (l : list held_arg) : Z := fold_right (fun a n => 32 + costs (a_vals a) + n) 0 l.

Lemma grows_host : forall M w w', grows M w w' -> keccak (host w') = keccak (host w) /\
  (forall a, a_slot (host w') a = a_slot (host w) a) /\ (forall a, a_slots (host w') a = a_slots (host w) a).
Proof.
  intros M w w' (_&_&_&_&_&E&_). rewrite E. repeat split.
Qed.

Lemma in_hand_next : forall w w' l a, wok w -> grows cache_mem w w' -> in_hand w l a -> in_hand w' l a.
Proof.
  intros w w' l a Hw G (q&F&Hq&Q1&Q2&Ob&SF). exists q, F. destruct (object_cache w w' _ _ _ _ _ F Hw G Ob SF) as (Ob'&SF').
  pose proof G as (_&_&_&N&_&_&U). split; [exact Hq|]. split; [exact Q1|]. split; [lia|]. split; [|exact SF'].
  replace (load 4 (mem w') q) with (load 4 (mem w) q); [exact Ob'|]. apply load_ext. intros y Hy. symmetry. apply U; [lia|]. unfold cache_mem, slot_mem, within. lia.
Qed.

Lemma savable_next : forall M w w' a, grows M w w' -> typeds (a_types a) (a_vals a) -> (forall y, covers (a_slots (host w) a) y -> stor (host w') y = stor (host w) y) ->
  savable w a -> savable w' a.
Proof.
  intros M w w' a G Ty A (P1&P2&P3). destruct (grows_host M w w' G) as (Ek&Es&_). split; [exact P1|]. split; [exact P2|]. intros N. destruct (P3 N) as (R1&R2). rewrite Ek, Es.
  split; [exact R1|]. eapply no_shrinks_same; [exact Ty| |exact R2]. intros y Hy. symmetry. apply A. unfold a_slots, slots_under. rewrite (proj2 (Z.eqb_neq (a_owner a) 0) N). exact Hy.
Qed.

Lemma up_to_date_next : forall h st st' a, typeds (a_types a) (a_vals a) -> (forall y, covers (a_slots h a) y -> st' y = st y) -> up_to_date h st a -> up_to_date h st' a.
Proof.
  intros h st st' a Ty A U N. destruct (U N) as (U1&U2). unfold a_slots, slots_under in A. rewrite (proj2 (Z.eqb_neq (a_owner a) 0) N) in A. split.
  - rewrite A; [exact U1|]. apply covers_cons. left. cbn [fst snd]. destruct (afters_ok (a_types a) (a_slot h a, 8)) as (_&B); [unfold good; cbn; lia|]. apply before_fst in B. cbn [fst] in B. lia.
  - eapply helds_same; [exact Ty| |exact U2]. intros y Hy. symmetry. apply A. exact Hy.
Qed.

Lemma in_hand_typed : forall w l a, forallb storable (a_types a) = true -> in_hand w l a -> typeds (a_types a) (a_vals a).
Proof. intros w l a Pl (q&F&_&_&_&Ob&_). eapply object_typed; eassumption. Qed.

Definition arg_code (a : held_arg) : nat * Z * list ty := (a_local a, a_hash a, a_types a).

Lemma cache_args_wp : forall ep rt l as_ w r (Q : outcome -> Prop) s, wok w -> errtab_ok ep -> abort_flag w = 0 -> statics w ->
  Forall (in_hand w l) as_ -> Forall (savable w) as_ -> distinct_objects (host w) as_ ->
  (nomem w (save_memory as_) -> Q OTrap) ->
  (forall w', grows cache_mem w w' -> gnext w' <= gnext w + save_memory as_ -> Forall (up_to_date (host w) (stor (host w'))) as_ ->
     (forall y, (forall a, In a as_ -> ~ covers (a_slots (host w) a) y) -> stor (host w') y = stor (host w) y) -> wp r Q s l w') ->
  wp (cache_args ep rt (map arg_code as_) ++ r) Q s l w.
Proof.
  intros ep rt l as_. induction as_ as [|a as_ IH]; intros w r Q s Hw He Ab St Hi Hs Hd T K.
  - cbn [cache_args map List.concat app]. apply (K w); [apply grows_refl; exact Hw|cbn; lia|constructor|auto].
  - inversion Hi as [|? ? Ha Hi']; subst. inversion Hs as [|? ? Sa Hs']; subst. inversion Hd as [|? ? Da Hd']; subst. cbn [save_memory fold_right] in *. fold (save_memory as_) in *.
    assert (Sn : 0 <= save_memory as_) by (clear; induction as_ as [|a l IH]; cbn [save_memory fold_right]; [lia|pose proof (costs_nonneg (a_vals a)); unfold save_memory in IH; lia]).
    pose proof (costs_nonneg (a_vals a)) as Cn. pose proof Ha as (q&F&Hq&Q1&Q2&Ob&SF). pose proof Sa as (Pl&Hh&Rm).
    unfold cache_args. cbn [map List.concat arg_code fst snd]. rewrite <- !app_assoc. cbn [app]. eapply wp_lget; [exact Hq|].
    eapply wp_call_spec; [reflexivity|cbn [List.length]; lia|wc; eapply (cache_object_spec ep (a_hash a) (a_types a) w q); eassumption| |].
    { intros (_&N1&N2). apply T. unfold nomem, oom in *. lia. }
    intros rs w1 (->&G1&N1&(U1&U2)). wc. pose proof G1 as (Hw1&M1&_&N1'&_&_&G1u). destruct (grows_host _ _ _ G1) as (Ek&Es&El).
    fold (a_slot (host w) a) in U1, U2. fold (a_slots (host w) a) in U2.
    assert (Ab1 : abort_flag w1 = 0).
    { unfold abort_flag in *. rewrite <- Ab. apply load_ext. intros y Hy. pose proof Hw as (_&_&P3&_). apply G1u; [lia|]. unfold cache_mem, slot_mem, within. lia. }
    apply wp_propagate_ok; [exact Hw1|exact Ab1|]. fold (cache_args ep rt (map arg_code as_)).
    assert (Ty : Forall (fun b => typeds (a_types b) (a_vals b)) as_).
    { clear - Hi' Hs'. induction Hi' as [|b l0 Hb Hl IH]; [constructor|]. inversion Hs' as [|? ? (Pb&_) Hs2]; subst. constructor; [eapply (in_hand_typed w l); eassumption|apply IH; assumption]. }
    assert (Ta : typeds (a_types a) (a_vals a)) by (eapply in_hand_typed; eassumption).
    apply (IH w1); [exact Hw1|exact He|exact Ab1|eapply statics_cache; eassumption| | | | |].
    + eapply Forall_impl; [|exact Hi']. intros b Hb. eapply (in_hand_next w w1); eassumption.
    + rewrite Forall_forall in *. intros b Hb. eapply savable_next; [exact G1|apply Ty; exact Hb| |apply Hs'; exact Hb].
      intros y Hy. apply U2. intros Y. eapply Da; eassumption.
    + unfold distinct_objects in *. clear - Hd' El. induction Hd' as [|b l0 Hb Hl IH]; [constructor|]. constructor; [|exact IH].
      eapply Forall_impl; [|exact Hb]. intros c Hc y. rewrite !El. apply Hc.
    + intros (N2&N3). apply T. unfold nomem, oom in *. rewrite M1 in N3. lia.
    + intros w2 G2 N2 Up Un. apply K; [eapply grows_trans; eassumption|lia| |].
      * constructor.
        -- eapply up_to_date_next; [exact Ta| |exact U1]. intros y Hy. apply Un. intros b Hb. rewrite El. rewrite Forall_forall in Da. intros Y. eapply (Da b Hb); eassumption.
        -- eapply Forall_impl; [|exact Up]. intros b Hb N. specialize (Hb N). rewrite Ek, Es in Hb. exact Hb.
      * intros y Hy. rewrite Un; [apply U2; apply Hy; left; reflexivity|]. intros b Hb. rewrite El. apply Hy. right. exact Hb.
Qed.

(** ** Dynamic fields *)


Lemma last_two : forall (gs : list Z) u v x, nth_error (gs ++ [u; v]) (List.length gs) = Some u /\ nth_error (gs ++ [u; v]) (S (List.length gs)) = Some v /\
  set_nth (List.length gs) x (gs ++ [u; v]) = gs ++ [x; v] /\ set_nth (S (List.length gs)) x (gs ++ [u; v]) = gs ++ [u; x].
Proof.
  intros gs u v x. split; [rewrite nth_error_app2, Nat.sub_diag by lia; reflexivity|]. split; [rewrite nth_error_app2 by lia; replace (S (List.length gs) - List.length gs)%nat with 1%nat by lia; reflexivity|].
  split; [apply set_nth_app|]. replace (gs ++ [u; v]) with ((gs ++ [u]) ++ [v]) by (rewrite <- app_assoc; reflexivity).
  replace (S (List.length gs)) with (List.length (gs ++ [u])) by (rewrite app_length; cbn; lia). rewrite set_nth_app, <- app_assoc. reflexivity.
Qed.

Definition field_memory (d : option held_arg) : Z := match d with Some a => 32 + costs (a_vals a) | None => 0 end.

Lemma commit_field_wp : forall ep gs i h fs w x d u v r (Q : outcome -> Prop) s, wok w -> errtab_ok ep -> statics w ->
  nth_error gs i = Some x -> field_in_hand w x d ->
  match d with Some a => a_hash a = h /\ a_types a = fs /\ savable w a | None => True end ->
  (nomem w (field_memory d) -> Q OTrap) ->
  (forall w' u v, grows cache_mem w w' -> gnext w' <= gnext w + field_memory d ->
     match d with Some a => up_to_date (host w) (stor (host w')) a | None => True end ->
     (forall y, match d with Some a => ~ covers (a_slots (host w) a) y | None => True end -> stor (host w') y = stor (host w) y) -> wp r Q s (gs ++ [u; v]) w') ->
  wp (commit_field ep (List.length gs) i h fs ++ r) Q s (gs ++ [u; v]) w.
Proof.
  intros ep gs i h fs w x d u v r Q s Hw He St Hi Hf Hd T K. pose proof Hw as (P1&P2&P3&P4&P5&P6).
  assert (Hx : forall e, nth_error (gs ++ e) i = Some x) by (intros e; rewrite nth_error_app1; [exact Hi|apply nth_error_Some; congruence]).
  unfold commit_field. cbn [app]. apply wp_block. eapply wp_lget; [apply Hx|]. ws1. ws1.
  destruct d as [a|]; cbn [field_in_hand field_memory] in *.
  2:{ subst x. change (4294967295 =? 4294967295) with true. apply wp_brif; intros C; unb C; [|exfalso; lia]. wc. apply (K w); [apply grows_refl; exact Hw|lia|exact Logic.I|reflexivity]. }
  destruct Hf as (Nx&F&Ob&SF). destruct Hd as (Eh&Ef&(Pl&Hh&Rm)). subst h fs. pose proof (costs_nonneg (a_vals a)) as Cn.
  destruct (id_bytes_ok w (mem w) _ _ _ _ x F Ob SF Hw eq_refl) as (c&Ri&Li&C1&C2&X1&X2&_).
  pose proof (object_placed w _ _ _ _ x F Ob SF) as (_&_&Lo&_).
  apply wp_brif; intros C; unb C; [exfalso; lia|]. clear C. wc.
  destruct (last_two gs u v (x - 32)) as (L1&L2&S1&S2). set (o := List.length gs) in *.
  eapply wp_lget; [apply Hx|]. eapply wp_call; [reflexivity|cbn [List.length]; lia|]. wc. eapply returns_wpf; [apply owner_spec; lia|]. wc.
  eapply wp_ltee; [exact L1|]. rewrite S1. ws1. eapply wp_call; [reflexivity|cbn [List.length]; lia|]. wc. eapply returns_wpf; [apply is_zero_be; [exact Hw|unfold live; lia]|]. wc. rewrite Lo.
  apply wp_brif; intros C; unb C; wc.
  - destruct (Z.eqb_spec (a_owner a) 0) as [E0|E0]; [|discriminate C]. apply (K w); [apply grows_refl; exact Hw|lia|intros N; contradiction|reflexivity].
  - destruct (Z.eqb_spec (a_owner a) 0) as [E0|E0]; [discriminate C|]. destruct (Rm E0) as (Se&Ns). clear C.
    ws1. eapply wp_call_spec; [reflexivity|cbn [List.length]; lia|wc; apply alloc_spec; [exact Hw|lia]| |].
    { intros O. wc. apply T. unfold nomem, oom in *. lia. }
    intros rs w1 (->&(Hw1&M1&X1'&Pg1&Gn1&Gc1&Hh1)). wc. set (p := gnext w) in *.
    destruct (last_two gs (x - 32) v p) as (L3&L4&S3&S4). fold o in L3, L4, S3, S4. eapply wp_lset; [exact L4|]. rewrite S4.
    destruct (last_two gs (x - 32) p 0) as (L5&L6&_). fold o in L5, L6.
    eapply wp_lget; [exact L5|]. eapply wp_lget; [apply Hx|].
    assert (G1 : grows cache_mem w w1).
    { split; [exact Hw1|]. split; [exact X1'|]. split; [exact Pg1|]. split; [lia|]. split; [exact Gc1|]. split; [rewrite Hh1; symmetry; apply set_stor_same|]. intros y _ _. rewrite M1. reflexivity. }
    destruct (object_cache w w1 _ _ _ _ x F Hw G1 Ob SF) as (Ob1&SF1).
    destruct (id_bytes_ok w1 (mem w1) _ _ _ _ x F Ob1 SF1 Hw1 eq_refl) as (c1&Ri1&Li1&D1&D2&_&_&Sc&_).
    eapply wp_call; [reflexivity|cbn [List.length]; lia|]. wc. eapply returns_wpf; [exact Ri1|]. wc. eapply wp_lget; [exact L6|].
    assert (Hc1 : c1 + 32 <= p). { pose proof (SF (c1 + 31)) as B. assert (F (c1 + 31)) as B' by (apply Sc; unfold between; lia). specialize (B B'). unfold heap, between in B. fold p in B. lia. }
    fold p in X2.
    eapply (arrive_at_wp ep (a_hash a) (a_types a) i (S o) w1 x (a_owner a) (a_id a) (a_vals a) F (x - 32) c1 p); try assumption; try lia.
    + eapply statics_cache; eassumption.
    + rewrite M1. exact Lo.
    + rewrite Hh1. exact Se.
    + rewrite Hh1. exact Ns.
    + apply Hx.
    + intros (N1&N2). apply T. unfold nomem, oom in *. rewrite X1' in N2. lia.
    + rewrite Hh1. fold (a_slot (host w) a). intros w2 G2 N2 _ T2 H2 U2. apply wp_nil. wc.
      apply (K w2 (x - 32) p).
      * assert (G1' : grows (fun y => (within 64 32 y \/ within 260 128 y) \/ within 404 64 y \/ within p 32 y) w w1).
        { destruct G1 as (B1&B2&B3&B4&B5&B6&B7). repeat (split; [assumption|]). intros y _ _. rewrite M1. reflexivity. }
        eapply grows_mono; [eapply grows_trans; [exact G1'|exact G2]|]. fold p. unfold cache_mem, slot_mem, within. intros. lia.
      * lia.
      * intros _. split; assumption.
      * unfold a_slots, slots_under. rewrite (proj2 (Z.eqb_neq (a_owner a) 0) E0). exact U2.
Qed.

Definition fields_memory (ds : list (option held_arg)) : Z := fold_right (fun d n => field_memory d + n) 0 ds.
Lemma fields_memory_nonneg : forall ds, 0 <= fields_memory ds.
Proof. induction ds as [|[a|] ds IH]; cbn [fields_memory fold_right field_memory] in *; [lia|pose proof (costs_nonneg (a_vals a)); unfold fields_memory in IH; lia|unfold fields_memory in IH; lia]. Qed.

Lemma commit_fields_wp : forall ep ts ds gs1 gs2 w u v r (Q : outcome -> Prop) s, wok w -> errtab_ok ep -> statics w ->
  Forall2 (field_in_hand w) gs2 ds -> Forall2 field_type ds ts -> Forall (savable w) (somes ds) -> distinct_objects (host w) (somes ds) ->
  (nomem w (fields_memory ds) -> Q OTrap) ->
  (forall w' u v, grows cache_mem w w' -> gnext w' <= gnext w + fields_memory ds -> Forall (up_to_date (host w) (stor (host w'))) (somes ds) ->
     (forall y, (forall a, In a (somes ds) -> ~ covers (a_slots (host w) a) y) -> stor (host w') y = stor (host w) y) -> wp r Q s ((gs1 ++ gs2) ++ [u; v]) w') ->
  wp (commit_fields ep (List.length (gs1 ++ gs2)) (List.length gs1) ts ++ r) Q s ((gs1 ++ gs2) ++ [u; v]) w.
Proof.
  intros ep ts ds. revert ts. induction ds as [|d ds IH]; intros ts gs1 gs2 w u v r Q s Hw He St Hf Ht Hs Hd T K.
  - inversion Hf; inversion Ht; subst. cbn [commit_fields app]. apply (K w); [apply grows_refl; exact Hw|cbn; lia|constructor|auto].
  - inversion Hf as [|x ? gs2' ? Fx Hf']; inversion Ht as [|? t ? ts' Tx Ht']; subst. cbn [commit_fields fields_memory fold_right] in *. fold (fields_memory ds) in *. pose proof (fields_memory_nonneg ds) as Nn.
    rewrite <- app_assoc.
    assert (Dn : 0 <= field_memory d) by (destruct d as [a|]; cbn [field_memory]; [pose proof (costs_nonneg (a_vals a)); lia|lia]).
    assert (Sd : match d with Some a => a_hash a = fst t /\ a_types a = snd t /\ savable w a | None => True end).
    { destruct d as [a|]; [|exact Logic.I]. destruct Tx as (T1&T2). split; [exact T1|]. split; [exact T2|]. inversion Hs; assumption. }
    eapply (commit_field_wp ep (gs1 ++ x :: gs2') (List.length gs1) (fst t) (snd t) w x d); try assumption.
    + rewrite nth_error_app2, Nat.sub_diag by lia. reflexivity.
    + intros (N1&N2). apply T. unfold nomem, oom in *. lia.
    + intros w1 u1 v1 G1 N1 U1 U2. pose proof G1 as (Hw1&M1&_&N1'&_&_&G1u). destruct (grows_host _ _ _ G1) as (Ek&Es&El).
      replace (gs1 ++ x :: gs2') with ((gs1 ++ [x]) ++ gs2') by (rewrite <- app_assoc; reflexivity).
      replace (S (List.length gs1)) with (List.length (gs1 ++ [x])) by (rewrite app_length; cbn; lia).
      assert (Typ : forall b, In b (somes ds) -> typeds (a_types b) (a_vals b)).
      { assert (Hs2 : Forall (savable w) (somes ds)) by (destruct d; cbn [somes map List.concat app] in Hs; [inversion Hs; assumption|exact Hs]).
        clear - Hf' Hs2. induction Hf' as [|y e ys es Hy Hf IH]; intros b Hb; [destruct Hb|]. destruct e as [e|]; cbn [somes map List.concat app] in Hs2, Hb.
        - inversion Hs2 as [|? ? (Pe&_) Hs3]; subst. destruct Hb as [<-|Hb]; [|apply IH; assumption]. destruct Hy as (_&F&Ob&_). eapply object_typed; eassumption.
        - apply IH; assumption. }
      assert (Fr : forall b, In b (somes ds) -> forall y, covers (a_slots (host w) b) y -> stor (host w1) y = stor (host w) y).
      { intros b Hb y Hy. apply U2. destruct d as [a|]; [|exact Logic.I]. intros Y. cbn [somes map List.concat app] in Hd. inversion Hd as [|? ? Da _]; subst. rewrite Forall_forall in Da. eapply (Da b Hb); eassumption. }
      apply (IH ts' (gs1 ++ [x]) gs2' w1); [exact Hw1|exact He|eapply statics_cache; eassumption| |exact Ht'| | | |].
      * clear - Hf' Hw G1. induction Hf' as [|y e ys es Hy Hf IH]; [constructor|]. constructor; [|exact IH]. destruct e as [e|]; [|exact Hy].
        destruct Hy as (Y1&F&Ob&SF). split; [exact Y1|]. exists F. eapply (object_cache w w1); eassumption.
      * assert (Hs2 : Forall (savable w) (somes ds)) by (destruct d; cbn [somes map List.concat app] in Hs; [inversion Hs; assumption|exact Hs]).
        rewrite Forall_forall in *. intros b Hb. eapply savable_next; [exact G1|apply Typ; exact Hb|apply Fr; exact Hb|apply Hs2; exact Hb].
      * assert (Hd2 : distinct_objects (host w) (somes ds)) by (destruct d; cbn [somes map List.concat app] in Hd; [inversion Hd; assumption|exact Hd]).
        unfold distinct_objects in *. clear - Hd2 El. induction Hd2 as [|b l0 Hb Hl IH]; [constructor|]. constructor; [|exact IH].
        eapply Forall_impl; [|exact Hb]. intros c Hc y. rewrite !El. apply Hc.
      * intros (N2&N3). apply T. unfold nomem, oom in *. rewrite M1 in N3. lia.
      * intros w2 u2 v2 G2 N2 Up Un. replace ((gs1 ++ [x]) ++ gs2') with (gs1 ++ x :: gs2') by (rewrite <- app_assoc; reflexivity). apply K; [eapply grows_trans; eassumption|lia| |].
        -- assert (Up2 : Forall (up_to_date (host w) (stor (host w2))) (somes ds)).
           { eapply Forall_impl; [|exact Up]. intros b Hb N. specialize (Hb N). rewrite Ek, Es in Hb. exact Hb. }
           destruct d as [a|]; [|exact Up2]. cbn [somes map List.concat app]. constructor; [|exact Up2].
           destruct Fx as (_&F&Ob&_). inversion Hs as [|? ? (Pa&_) _]; subst. inversion Hd as [|? ? Da _]; subst. rewrite Forall_forall in Da.
           eapply up_to_date_next; [eapply object_typed; eassumption| |exact U1]. intros y Hy. apply Un. intros b Hb. rewrite El. intros Y. eapply (Da b Hb); eassumption.
        -- intros y Hy. rewrite Un.
           ++ apply U2. destruct d as [a|]; [|exact Logic.I]. apply Hy. left. reflexivity.
           ++ intros b Hb. rewrite El. apply Hy. destruct d; [right|]; exact Hb.
Qed.

Lemma F2_length : forall (A B : Type) (R : A -> B -> Prop) l m, Forall2 R l m -> List.length l = List.length m.
Proof. intros A B R l m F. induction F; cbn [List.length]; congruence. Qed.
Arguments F2_length {A B R l m}.

Lemma commit_changes_spec : forall ep ts ds gs w, wok w -> errtab_ok ep -> statics w ->
  Forall2 (field_in_hand w) gs ds -> Forall2 field_type ds ts -> Forall (savable w) (somes ds) -> distinct_objects (host w) (somes ds) ->
  wpf (commit_changes ep ts) gs w (resq (fun r w' => r = [] /\ committed (host w') = stor (host w') /\
     Forall (up_to_date (host w) (committed (host w'))) (somes ds) /\
     (forall y, (forall a, In a (somes ds) -> ~ covers (a_slots (host w) a) y) -> committed (host w') y = stor (host w) y)) (nomem w (fields_memory ds))).
Proof.
  intros ep ts ds gs w Hw He St Hf Ht Hs Hd.
  assert (L : List.length gs = List.length ts) by (rewrite (F2_length Hf); exact (F2_length Ht)).
  apply wpf_intro; [exact L|]. rewrite <- L. cbn [repeat].
  apply (commit_fields_wp ep ts ds [] gs w 0 0); try assumption.
  { auto. }
  intros w1 u v G1 N1 Up Un. cbn [app]. ws1. eapply wp_basic; [reflexivity|reflexivity|]. apply wp_nil. wc.
  split; [reflexivity|]. split; [reflexivity|]. split; [exact Up|exact Un].
Qed.

(** ** A call of dynamic_field::borrow_mut *)

(** translation/bytecodes/dynamic_fields.rs 22-81 [add_field_borrow_mut_global_var_instructions]: the code behind each call,
    with a global of its own (local [g] here).  [v]: field_value_ref_ptr.  The value is the third field, 8 bytes into the object. *)
Definition borrowed_field (g v : nat) : list instr :=
  [ LocalTee v; Const 8; Bin I32 Sub; LocalSet g; LocalGet v ].
