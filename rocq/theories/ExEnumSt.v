(** * Concrete objects with enums for the examples of PropsEnumSt.v, and the counterexamples. *)

From Verif Require Import SpecInt Spec Tac RtAlloc RtErr RtSwap RtCopy SpecAbi SpecVal LemVal SpecVec LemVec ExVec SpecStor SpecLayout RtStor RtStore LemStore RtSave RtLoad RtLoadObj LemPlace LemObj ExObj RtChild LemDelete RtDelete SpecMove RtTransfer LemMove ExMove.
Ltac Zify.zify_post_hook ::= idtac.

Ltac ptrs := repeat match goal with |- context [load 4 ?m ?a] =>
  let v := eval vm_compute in (load 4 m a) in replace (load 4 m a) with v by (vm_compute; reflexivity) end.

(** An object at 564 with id 9 (at 620) and owner 161, an enum (at 652) and a u8 (at 668); slot number 7 at 500. *)
Definition fs_en : list ty := [TEnum [[]; [TU128; TU256; TU64]]; TU8].
Definition m_en0 : memory :=
  store_be 32 (store_be 32 (store_be 32 (store 1
   (store 4 (store 4 (store 4 (store 4 (store 4 (store 32 zmem 32 1)
   564 612) 612 616) 616 620) 568 652) 572 668)
   668 8) 620 9) 532 161) 500 7.
Definition m_en1 : memory :=
  store 8 (store 32 (store 16 (store 4 (store 4 (store 4 (store 4 m_en0
   652 1) 656 680) 660 696) 664 728) 680 5) 696 6) 728 7.
Definition v_none : list val := [VEnum 0 []; VInt 8].
Definition v_some : list val := [VEnum 1 [VInt 5; VInt 6; VInt 7]; VInt 8].

Lemma en_ready : forall m st, m = m_en0 \/ m = m_en1 -> ready ep0 (wh m 740 st) 500.
Proof.
  intros m st E. split; [|split; [exact ep0_ok|split; [destruct E as [->| ->]; vm_compute; reflexivity|cbn; lia]]]. apply wh_ok.
  destruct E as [->| ->]; unfold m_en1, m_en0; repeat first [apply wm_store_be_ok; [|cbn; lia]|apply wm_store_ok; [|lia]]; apply wm_ok; lia.
Qed.
Lemma en_object0 : object_at m_en0 fs_en 161 9 v_none 564 (between 532 740).
Proof.
  exists 612, 616, 620, (between 652 740). do 5 (split; [vm_compute; reflexivity|]). unfold fs_en. cbn [List.length].
  do 5 (split; [nums|]). split; [unfold disj, union, between; intros; lia|]. cbn [map fields v_none].
  exists (between 652 668), (between 668 740). split.
  { unfold field_of. cbn [is_stack vrep]. exists 0%nat, [], empty. cbn [nth_error map fields]. nums. }
  split; [|nums]. exists (between 668 740), empty. split; [unfold field_of; cbn [is_stack vrep]; nums|]. split; [exact I|nums].
Qed.
Lemma en_object1 : object_at m_en1 fs_en 161 9 v_some 564 (between 532 740).
Proof.
  exists 612, 616, 620, (between 652 740). do 5 (split; [vm_compute; reflexivity|]). unfold fs_en. cbn [List.length].
  do 5 (split; [nums|]). split; [unfold disj, union, between; intros; lia|]. cbn [map fields v_some].
  exists (union (between 652 668) (between 680 740)), (between 668 680). split.
  { unfold field_of. cbn [is_stack vrep]. exists 1%nat, [VInt 5; VInt 6; VInt 7], (between 680 740). cbn [nth_error map].
    split; [reflexivity|]. split; [vm_compute; reflexivity|]. change (enum_size [[]; [TU128; TU256; TU64]]) with 16. do 3 (split; [ptrs; unfold sub, disj, union, between; intros; lia|]). cbn [fields].
    exists (between 680 696), (between 696 740). split; [unfold field_of; cbn [is_stack vrep]; nums|]. split; [|nums].
    exists (between 696 728), (between 728 740). split; [unfold field_of; cbn [is_stack vrep]; nums|]. split; [|nums].
    exists (between 728 740), empty. split; [unfold field_of; cbn [is_stack vrep]; nums|]. split; [exact I|nums]. }
  split; [|nums; unfold disj, sub, union, between; intros; lia]. exists (between 668 680), empty. split; [unfold field_of; cbn [is_stack vrep]; nums|]. split; [exact I|nums].
Qed.

Lemma en_storable : forallb storable fs_en = true.
Proof. vm_compute. reflexivity. Qed.
Lemma en_separate : forall vs, vs = v_none \/ vs = v_some -> separate (slots hash0 fs_en vs (7, 8)).
Proof.
  intros vs E. assert (S : slots hash0 fs_en vs (7, 8) = [(7, 9)]) by (destruct E as [->| ->]; vm_compute; reflexivity). rewrite S.
  split; [constructor; [constructor|constructor]|]. constructor; [cbn; lia|constructor].
Qed.
Lemma en_no_shrinks : forall vs st, vs = v_none \/ vs = v_some -> no_shrinks hash0 st fs_en vs (7, 8).
Proof. intros vs st [->| ->]; cbn; auto 10. Qed.

(** The u8 after the enum is taken from the slot with the variant's number. *)
Lemma field_after_enum : exists ep h fs w x p F owner id vs k w1 w2 sid ow x' w3, let H := keccak (host w) in
  ready ep w p /\ load_be 32 (mem w) 0 = 0 /\ load_be 32 (mem w) p = k /\ forallb storable fs = true /\ 0 < h < 2 ^ 64 /\
  object_at (mem w) fs owner id vs x F /\ sub F (heap w) /\ disj F (between p (p + 32)) /\
  separate (slots H fs vs (k, 8)) /\ no_shrinks H (stor (host w)) fs vs (k, 8) /\ object_memory fs vs < 2 ^ 31 /\
  returns (save_object ep h fs) [x; p] w [] w1 /\
  ready ep w2 p /\ keccak (host w2) = H /\ stor (host w2) = stor (host w1) /\ load_be 32 (mem w2) p = k /\
  468 <= sid /\ sid + 32 <= gnext w2 /\ (sid + 32 <= p \/ p + 32 <= sid) /\ 0 <= ow /\ ow + 32 <= gnext w2 /\
  returns (load_object ep h fs) [p; sid; ow] w2 [x'] w3 /\
  forall owner' id' F', ~ object_at (mem w3) fs owner' id' vs x' F'.
Proof.
  set (w := wh m_en0 740 (fun _ => 12345)).
  destruct (runs_to_vals 2000 (save_object ep0 5 fs_en) [564; 500] w [] (fun w1 =>
    runs_to 2000 (load_object ep0 5 fs_en) [500; 620; 532] (wh m_en0 740 (stor (host w1))) (fun r w3 => 
      match r with [x] => (x =? 772) && (load 1 (mem w3) (load 4 (mem w3) (x + 8)) =? 0) | _ => false end))) as (w1&R&E); [vm_compute; reflexivity|].
  apply runs_to_ok in E. destruct E as (r&w3&R3&E). destruct r as [|x' [|? ?]]; try discriminate. apply andb_true_iff in E. destruct E as (E1&E2). apply Z.eqb_eq in E1, E2. subst x'.
  exists ep0, 5, fs_en, w, 564, 500, (between 532 740), 161, 9, v_none, 7, w1, (wh m_en0 740 (stor (host w1))), 620, 532, 772, w3. cbv zeta.
  split; [apply en_ready; auto|]. do 2 (split; [vm_compute; reflexivity|]). split; [exact en_storable|]. split; [lia|]. split; [exact en_object0|].
  split; [intros y; unfold heap, between; change (gnext w) with 740; lia|]. split; [intros y; unfold between; lia|].
  split; [exact (en_separate _ (or_introl eq_refl))|]. split; [exact (en_no_shrinks _ _ (or_introl eq_refl))|]. split; [vm_compute; reflexivity|].
  split; [exact R|]. split; [apply en_ready; auto|]. split; [reflexivity|]. split; [reflexivity|]. split; [vm_compute; reflexivity|].
  change (gnext (wh m_en0 740 (stor (host w1)))) with 740. do 5 (split; [lia|]). split; [exact R3|].
  intros owner' id' F' (a&b&c&G&_&_&_&_&_&_&_&_&_&_&_&Fl). unfold fs_en, v_none in Fl. cbn [map fields] in Fl.
  destruct Fl as (G1&G2&_&(G3&G4&Fi&_)&_). unfold field_of in Fi. cbn [is_stack vrep] in Fi. destruct Fi as (_&X).
  replace (772 + 4 + 4) with (772 + 8) in X by lia. destruct X as (X&_). change (VInt 8 = VInt (load 1 (mem w3) (load 4 (mem w3) (772 + 8)))) in X. rewrite E2 in X. discriminate.
Qed.

(** An enum whose only variant holds a vector of u64; in memory (at 652) the vector has 11 and 22. *)
Definition fs_ev : list ty := [TEnum [[TVec TU64]]].
Definition vs_ev : list val := [VEnum 0 [VVec [VInt 11; VInt 22]]].
Definition m_ev : memory :=
  store 8 (store 8 (store 4 (store 4 (store_be 32 (store_be 32 (store_be 32 (store_be 32
   (store 4 (store 4 (store 4 (store 4 (store 4 (store 32 zmem 32 1)
   564 612) 612 616) 616 576) 568 640) 644 652)
   576 9) 532 161) 160 1) 192 2) 652 2) 656 2) 660 11) 668 22.
Definition k_ev : Z := k_move 161.
Definition d_ev : Z := data_slot hash2 (k_ev + 1).
Definition st_ev (y : Z) : Z :=
  if y =? k_ev then bswap 8 5 else if y =? k_ev + 1 then 2 else if y =? d_ev then 11 + 22 * 2 ^ 64 else 0.
Definition w_ev : world := mkW m_ev 1 100 740 (65536 - 740) 0 (mkHost hash2 st_ev st_ev [] 161 162 0 1 1 0 0 [] [] ext0).
Lemma w_ev_ok : wok w_ev.
Proof.
  apply (wh_ok m_ev 740 st_ev). unfold m_ev. repeat first [apply wm_store_be_ok; [|cbn; lia]|apply wm_store_ok; [|lia]]. apply wm_ok. lia.
Qed.
Lemma w_ev_object : object_at (mem w_ev) fs_ev 161 9 vs_ev 564 (between 532 740).
Proof.
  exists 612, 616, 576, (between 640 740). do 5 (split; [vm_compute; reflexivity|]). unfold fs_ev. cbn [List.length].
  do 5 (split; [nums|]). split; [unfold disj, union, between; intros; lia|]. cbn [map fields vs_ev].
  exists (between 640 740), empty. split; [|split; [exact I|nums]].
  unfold field_of. cbn [is_stack vrep]. exists 0%nat, [VVec [VInt 11; VInt 22]], (between 652 740). cbn [nth_error map].
  split; [reflexivity|]. split; [vm_compute; reflexivity|]. change (enum_size [[TVec TU64]]) with 8. do 3 (split; [ptrs; unfold sub, disj, union, between; intros; lia|]). cbn [fields].
  exists (between 652 740), empty. split; [|split; [exact I|nums]]. unfold field_of. cbn [is_stack vrep]. exists [VInt 11; VInt 22], 2, empty. nums.
  cbn [elems vrep]. exists empty, empty. nums. exists empty, empty. nums.
Qed.
Lemma st_ev_held : helds hash2 st_ev fs_ev vs_ev (k_ev, 8).
Proof.
  assert (K : forall t p n, match t with TU8 | TU64 => True | _ => False end ->
    (let (k, o) := room p (width t) in part (st_ev k) (o - width t) (width t) = n) -> 0 <= n < 2 ^ vbits t -> held hash2 st_ev t (VInt n) p).
  { intros t p n St E B. destruct t; try destruct St; cbn [held width] in *; destruct (room p _); exists n; auto. }
  unfold fs_ev, vs_ev. cbn [helds]. split; [|exact I]. apply held_enum. exists 0%nat, [VVec [VInt 11; VInt 22]], [TVec TU64]. split; [reflexivity|]. split; [reflexivity|].
  cbn [helds]. split; [apply K; [exact I|vm_compute; reflexivity|cbn; lia]|]. split; [|exact I].
  apply held_vec. eexists. split; [reflexivity|]. split; [vm_compute; reflexivity|]. cbn [map helds].
  split; [apply K; [exact I|vm_compute; reflexivity|cbn; lia]|]. split; [apply K; [exact I|vm_compute; reflexivity|cbn; lia]|exact I].
Qed.
Lemma covers_second : forall a b d, covers [(a, b); (d, d)] d.
Proof. intros a b d. exists (d, d). split; [right; left; reflexivity|cbn; lia]. Qed.
Lemma ev_slots : slots hash2 fs_ev vs_ev (k_ev, 8) = [(k_ev, k_ev + 2); (d_ev, d_ev)].
Proof. vm_compute. reflexivity. Qed.
Lemma st_ev_kept : kept hash2 st_ev fs_ev vs_ev 161 k_ev.
Proof.
  intros _. split; [|split; [exact st_ev_held|]].
  - constructor; [|constructor]. exists 0%nat, [VVec [VInt 11; VInt 22]]. split; [reflexivity|]. cbn [map nth_error]. split; [|exact I].
    exists [VInt 11; VInt 22]. split; [reflexivity|]. split; [cbn; lia|]. repeat constructor; eexists; (split; [reflexivity|cbn; lia]).
  - rewrite ev_slots. split.
    + constructor; [|constructor; [constructor|constructor]]. constructor; [|constructor]. first [left; vm_compute; reflexivity|right; vm_compute; reflexivity].
    + repeat constructor; try (vm_compute; discriminate); vm_compute; reflexivity.
Qed.

(** The elements stay. *)
Lemma vector_in_enum_stays : exists ep fs w x owner id vs F, let H := keccak (host w) in let k := slot_of (host w) owner id in
  wok w /\ errtab_ok ep /\ statics w /\ object_at (mem w) fs owner id vs x F /\ sub F (heap w) /\ forallb storable fs = true /\
  owner <> 0 /\ owner <> frozen_owner /\ kept H (stor (host w)) fs vs owner k /\
  exists w', returns (delete_object ep fs) [x] w [] w' /\ abort_flag w' = abort_flag w /\ stor (host w') k = 0 /\
    exists y, covers (slots H fs vs (k, 8)) y /\ stor (host w') y <> 0.
Proof.
  exists ep0, fs_ev, w_ev, 564, 161, 9, vs_ev, (between 532 740). cbv zeta. assert (Ek : slot_of (host w_ev) 161 9 = k_ev) by (apply slot_of_keccak; reflexivity). rewrite Ek.
  split; [exact w_ev_ok|]. split; [exact ep0_ok|]. split; [repeat split; vm_compute; reflexivity|]. split; [exact w_ev_object|].
  split; [intros y; unfold heap, between; change (gnext w_ev) with 740; lia|]. split; [vm_compute; reflexivity|]. split; [lia|]. split; [vm_compute; discriminate|]. split; [exact st_ev_kept|].
  destruct (runs_to_vals 3000 (delete_object ep0 fs_ev) [564] w_ev [] (fun w' => (abort_flag w' =? abort_flag w_ev) && (stor (host w') k_ev =? 0) && (stor (host w') d_ev =? 11 + 22 * 2 ^ 64))) as (w'&R&E); [vm_compute; reflexivity|].
  exists w'. split; [exact R|]. rewrite !andb_true_iff in E. destruct E as ((E1&E2)&E3). apply Z.eqb_eq in E1, E2, E3. split; [exact E1|]. split; [exact E2|].
  exists d_ev. split; [|rewrite E3; lia]. change (keccak (host w_ev)) with hash2. rewrite ev_slots. apply covers_second.
Qed.

(** A struct with an enum that fills its slot to the end, and a vector. *)
Definition fs_es : list ty := [TStruct false [TEnum [[TU128; TU32; TU16; TU8]]]; TVec TU64].
Definition vs_es : list val := [VStruct 0 [VEnum 0 [VInt 1; VInt 2; VInt 3; VInt 4]]; VVec [VInt 11]].
Definition m_es : memory :=
  store 8 (store 4 (store 4 (store 1 (store 2 (store 4 (store 16 (store_be 32 (store_be 32 (store_be 32 (store_be 32
   (store 4 (store 4 (store 4 (store 4 (store 4 (store 4 (store 4 (store 4 (store 4 (store 4 (store 32 zmem 32 1)
   564 612) 612 616) 616 576) 568 640) 572 708) 640 644) 648 680) 652 696) 656 700) 660 704)
   576 9) 532 161) 160 1) 192 2) 680 1) 696 2) 700 3) 704 4) 708 1) 712 1) 716 11.
Definition st_es (y : Z) : Z :=
  if y =? k_ev then bswap 8 5 + 2 ^ 72 + 2 * 2 ^ 200 + 3 * 2 ^ 232 + 4 * 2 ^ 248 else if y =? k_ev + 1 then 1 else if y =? d_ev then 11 else 0.
Definition w_es : world := mkW m_es 1 100 740 (65536 - 740) 0 (mkHost hash2 st_es st_es [] 161 162 0 1 1 0 0 [] [] ext0).
Lemma w_es_ok : wok w_es.
Proof.
  apply (wh_ok m_es 740 st_es). unfold m_es. repeat first [apply wm_store_be_ok; [|cbn; lia]|apply wm_store_ok; [|lia]]. apply wm_ok. lia.
Qed.
Lemma w_es_object : object_at (mem w_es) fs_es 161 9 vs_es 564 (between 532 740).
Proof.
  exists 612, 616, 576, (between 640 740). do 5 (split; [vm_compute; reflexivity|]). unfold fs_es. cbn [List.length].
  do 5 (split; [nums|]). split; [unfold disj, union, between; intros; lia|]. cbn [map fields vs_es].
  exists (between 640 708), (between 708 740). split.
  { unfold field_of. cbn [is_stack vrep]. exists 0, [VEnum 0 [VInt 1; VInt 2; VInt 3; VInt 4]], (between 644 708). nums. cbn [map fields].
    exists (between 644 708), empty. split; [|split; [exact I|nums]].
    unfold field_of. cbn [is_stack vrep]. exists 0%nat, [VInt 1; VInt 2; VInt 3; VInt 4], (between 680 708). cbn [nth_error map].
    split; [reflexivity|]. split; [vm_compute; reflexivity|]. change (enum_size [[TU128; TU32; TU16; TU8]]) with 20. do 3 (split; [ptrs; unfold sub, disj, union, between; intros; lia|]). cbn [fields].
    exists (between 680 696), (between 696 708). split; [unfold field_of; cbn [is_stack vrep]; nums|]. split; [|nums].
    exists (between 696 700), (between 700 708). split; [unfold field_of; cbn [is_stack vrep]; nums|]. split; [|nums].
    exists (between 700 704), (between 704 708). split; [unfold field_of; cbn [is_stack vrep]; nums|]. split; [|nums].
    exists (between 704 708), empty. split; [unfold field_of; cbn [is_stack vrep]; nums|]. split; [exact I|nums]. }
  split; [|nums]. exists (between 708 740), empty. split; [|split; [exact I|nums]]. unfold field_of. cbn [is_stack vrep]. exists [VInt 11], 1, empty. nums.
  cbn [elems vrep]. exists empty, empty. nums.
Qed.
Lemma st_es_held : helds hash2 st_es fs_es vs_es (k_ev, 8).
Proof.
  assert (K : forall t p n, match t with TU8 | TU16 | TU32 | TU64 | TU128 => True | _ => False end ->
    (let (k, o) := room p (width t) in part (st_es k) (o - width t) (width t) = n) -> 0 <= n < 2 ^ vbits t -> held hash2 st_es t (VInt n) p).
  { intros t p n St E B. destruct t; try destruct St; cbn [held width] in *; destruct (room p _); exists n; auto. }
  unfold fs_es, vs_es. cbn [helds]. split; [|split; [|exact I]].
  - apply held_struct. eexists. split; [reflexivity|]. cbn [helds]. split; [|exact I].
    apply held_enum. exists 0%nat, [VInt 1; VInt 2; VInt 3; VInt 4], [TU128; TU32; TU16; TU8]. split; [reflexivity|]. split; [reflexivity|].
    cbn [helds]. do 5 (split; [apply K; [exact I|vm_compute; reflexivity|cbn; lia]|]). exact I.
  - apply held_vec. eexists. split; [reflexivity|]. split; [vm_compute; reflexivity|]. cbn [map helds].
    split; [apply K; [exact I|vm_compute; reflexivity|cbn; lia]|exact I].
Qed.
Lemma es_slots : slots hash2 fs_es vs_es (k_ev, 8) = [(k_ev, k_ev + 1); (d_ev, d_ev)].
Proof. vm_compute. reflexivity. Qed.
Lemma st_es_kept : kept hash2 st_es fs_es vs_es 161 k_ev.
Proof.
  intros _. split; [|split; [exact st_es_held|]].
  - constructor; [|constructor; [|constructor]].
    + exists 0, [VEnum 0 [VInt 1; VInt 2; VInt 3; VInt 4]]. split; [reflexivity|]. split; [reflexivity|]. split; [|exact I].
      exists 0%nat, [VInt 1; VInt 2; VInt 3; VInt 4]. split; [reflexivity|]. cbn [map nth_error].
      repeat split; eexists; (split; [reflexivity|cbn; lia]).
    + exists [VInt 11]. split; [reflexivity|]. split; [cbn; lia|]. repeat constructor; eexists; (split; [reflexivity|cbn; lia]).
  - rewrite es_slots. split.
    + constructor; [|constructor; [constructor|constructor]]. constructor; [|constructor]. first [left; vm_compute; reflexivity|right; vm_compute; reflexivity].
    + repeat constructor; try (vm_compute; discriminate); vm_compute; reflexivity.
Qed.

(** Deleting the struct clears the slot with the vector's length. *)
Lemma vector_after_enum_stays : exists ep fs1 t w x owner id vs F, let fs := [TStruct false fs1; TVec t] in
  let H := keccak (host w) in let k := slot_of (host w) owner id in
  forallb vecless fs1 = true /\ plain t = true /\
  wok w /\ errtab_ok ep /\ statics w /\ object_at (mem w) fs owner id vs x F /\ sub F (heap w) /\ forallb storable fs = true /\
  owner <> 0 /\ owner <> frozen_owner /\ kept H (stor (host w)) fs vs owner k /\
  exists w', returns (delete_object ep fs) [x] w [] w' /\ abort_flag w' = abort_flag w /\ stor (host w') k = 0 /\
    exists y, covers (slots H fs vs (k, 8)) y /\ stor (host w') y <> 0.
Proof.
  exists ep0, [TEnum [[TU128; TU32; TU16; TU8]]], TU64, w_es, 564, 161, 9, vs_es, (between 532 740). cbv zeta. fold fs_es.
  assert (Ek : slot_of (host w_es) 161 9 = k_ev) by (apply slot_of_keccak; reflexivity). rewrite Ek.
  split; [reflexivity|]. split; [reflexivity|].
  split; [exact w_es_ok|]. split; [exact ep0_ok|]. split; [repeat split; vm_compute; reflexivity|]. split; [exact w_es_object|].
  split; [intros y; unfold heap, between; change (gnext w_es) with 740; lia|]. split; [vm_compute; reflexivity|]. split; [lia|]. split; [vm_compute; discriminate|]. split; [exact st_es_kept|].
  destruct (runs_to_vals 3000 (delete_object ep0 fs_es) [564] w_es [] (fun w' => (abort_flag w' =? abort_flag w_es) && (stor (host w') k_ev =? 0) && (stor (host w') d_ev =? 11))) as (w'&R&E); [vm_compute; reflexivity|].
  exists w'. split; [exact R|]. rewrite !andb_true_iff in E. destruct E as ((E1&E2)&E3). apply Z.eqb_eq in E1, E2, E3. split; [exact E1|]. split; [exact E2|].
  exists d_ev. split; [|rewrite E3; lia]. change (keccak (host w_es)) with hash2. rewrite es_slots. apply covers_second.
Qed.

(** The object of the first example (with its second variant) kept under owner 161. *)
Definition m_ek : memory := store_be 32 (store_be 32 m_en1 160 1) 192 2.
Definition st_ek (y : Z) : Z :=
  if y =? k_ev then bswap 8 5 + 2 ^ 64 + 5 * 2 ^ 72 else if y =? k_ev + 1 then 6 else if y =? k_ev + 2 then 7 + 8 * 2 ^ 64 else 0.
Definition w_ek : world := mkW m_ek 1 100 740 (65536 - 740) 0 (mkHost hash2 st_ek st_ek [] 161 162 0 1 1 0 0 [] [] ext0).
Lemma w_ek_ok : wok w_ek.
Proof.
  apply (wh_ok m_ek 740 st_ek). unfold m_ek. do 2 (apply wm_store_be_ok; [|cbn; lia]). destruct (en_ready m_en1 (fun _ => 0)) as (A&_); [auto|exact A].
Qed.
Lemma w_ek_object : object_at (mem w_ek) fs_en 161 9 v_some 564 (between 532 740).
Proof.
  exists 612, 616, 620, (between 652 740). do 5 (split; [vm_compute; reflexivity|]). unfold fs_en. cbn [List.length].
  do 5 (split; [nums|]). split; [unfold disj, union, between; intros; lia|]. cbn [map fields v_some].
  exists (union (between 652 668) (between 680 740)), (between 668 680). split.
  { unfold field_of. cbn [is_stack vrep]. exists 1%nat, [VInt 5; VInt 6; VInt 7], (between 680 740). cbn [nth_error map].
    split; [reflexivity|]. split; [vm_compute; reflexivity|]. change (enum_size [[]; [TU128; TU256; TU64]]) with 16. do 3 (split; [ptrs; unfold sub, disj, union, between; intros; lia|]). cbn [fields].
    exists (between 680 696), (between 696 740). split; [unfold field_of; cbn [is_stack vrep]; nums|]. split; [|nums].
    exists (between 696 728), (between 728 740). split; [unfold field_of; cbn [is_stack vrep]; nums|]. split; [|nums].
    exists (between 728 740), empty. split; [unfold field_of; cbn [is_stack vrep]; nums|]. split; [exact I|nums]. }
  split; [|nums; unfold disj, sub, union, between; intros; lia]. exists (between 668 680), empty. split; [unfold field_of; cbn [is_stack vrep]; nums|]. split; [exact I|nums].
Qed.
Lemma st_ek_kept : kept hash2 st_ek fs_en v_some 161 k_ev.
Proof.
  assert (K : forall t p n, match t with TU8 | TU64 | TU128 | TU256 => True | _ => False end ->
    (let (k, o) := room p (width t) in part (st_ek k) (o - width t) (width t) = n) -> 0 <= n < 2 ^ vbits t -> held hash2 st_ek t (VInt n) p).
  { intros t p n St E B. destruct t; try destruct St; cbn [held width] in *; destruct (room p _); exists n; auto. }
  intros _. split; [|split].
  - constructor; [|constructor; [|constructor]]; [|exists 8; split; [reflexivity|cbn; lia]].
    exists 1%nat, [VInt 5; VInt 6; VInt 7]. split; [reflexivity|]. cbn [map nth_error]. repeat split; eexists; (split; [reflexivity|cbn [vbits]; lia]).
  - unfold fs_en, v_some. cbn [helds]. split; [|split; [|exact I]].
    + apply held_enum. exists 1%nat, [VInt 5; VInt 6; VInt 7], [TU128; TU256; TU64]. split; [reflexivity|]. split; [reflexivity|].
      cbn [helds]. do 4 (split; [apply K; [exact I|vm_compute; reflexivity|cbn [vbits]; lia]|]). exact I.
    + apply K; [exact I|vm_compute; reflexivity|cbn [vbits]; lia].
  - assert (S : slots hash2 fs_en v_some (k_ev, 8) = [(k_ev, k_ev + 2)]) by (vm_compute; reflexivity). rewrite S. split; [repeat constructor|].
    pose proof (k_move_small 161) as B. constructor; [|constructor]. unfold k_ev. cbn [fst snd]. lia.
Qed.
