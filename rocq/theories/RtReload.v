(** * Objects reloaded after delegate calls: native_functions/contract_calls.rs 547-812. *)

From Verif Require Import Tac RtAlloc RtErr RtInt RtInt2 RtEq RtMul RtDiv RtShift RtSwap RtAscii RtCopy Ops SpecAbi LemAbi SpecVal LemVal SpecSol RtAbi SpecStor SpecLayout RtStor LemStor RtStore LemStore RtSave RtLoad RtLoadObj LemPlace LemObj RtChild SpecMove SpecCache SpecExt RtExt SpecTake RtTake LemTake SpecReload.
Ltac Zify.zify_post_hook ::= idtac.

(** contract_calls.rs 674-806: one object.  [u]: the local with the pointer to its UID; from [b] on: 0 uid_ptr, 1 owner_ptr,
    2 original_struct_ptr, 3 new_struct_ptr.  [h] and [fs]: type hash and fields (after the id) of the object; the
    struct takes 4 bytes for each field. *)
Definition reload_one (ep : errtab) (b u : nat) (h : Z) (fs : list ty) : list instr :=
  [ LocalGet u; Const 4; Bin I32 Sub; Load 4 0; LocalSet (b + 2);
    LocalGet u; Load 4 0; Load 4 0; LocalTee (b + 0); Const 0; Call (locate_storage_data ep) ] ++ propagate true ++
  [ LocalSet (b + 1);
    Const A_OBJ_SLOT; LocalGet (b + 0); LocalGet (b + 1); Call (load_object ep h fs) ] ++ propagate true ++
  [ LocalSet (b + 3);
    LocalGet (b + 2); LocalGet (b + 3); Const (4 + 4 * Z.of_nat (List.length fs)); MemCopy ].

(** contract_calls.rs 654-808: all objects whose ids were passed, in the locals from [u] on; nothing happens unless the local
    [d] (is_delegate_call) is set.  The code is emitted only if there are objects. *)
Fixpoint reload_each (ep : errtab) (b u : nat) (os : list (Z * list ty)) : list instr :=
  match os with
  | [] => []
  | (h, fs) :: os => reload_one ep b u h fs ++ reload_each ep b (S u) os
  end.
Definition reload_objects (ep : errtab) (d b u : nat) (os : list (Z * list ty)) : list instr :=
  match os with
  | [] => []
  | _ => [ Block "reload" 0 ([ LocalGet d; Const 0; Bin I32 Eq; BrIf "reload" ] ++ reload_each ep b u os) ]
  end.

(** The end of the function for an external call (contract_calls.rs 547-812) as a function of its own.  Locals: 0 call_result,
    1 is_delegate_call, then the UIDs of the objects. *)
Definition reload_tail (ep : errtab) (os : list (Z * list ty)) : func :=
  let n := (2 + List.length os)%nat in
  Func n 4 1 (reload_objects ep 1 n 2 os ++ [ LocalGet 0 ]).

(** contract_calls.rs 45-812 for a function with parameters [ts] (as in RtExt.v), called by a function that has objects with
    named ids, of the types [os]: their UIDs are passed after the other arguments (lines 76-79, 643-650). *)
Definition external_call_named (ep : errtab) (static payable : bool) (sel : list Z) (ts : list aty) (res : option aty) (os : list (Z * list ty)) : func :=
  let n := (S (List.length ts) + List.length os)%nat in
  Func n 20 1
   (read_config n payable ++ call_data ep n sel ts ++ make_call n static ++
    call_status n (match res with Some _ => 8 | None => 4 end) ++
    (match res with Some t => call_value ep n t | None => [] end) ++
    reload_objects ep (n + 1) (n + 16) (S (List.length ts)) os ++
    [ LocalGet (n + 10) ]).

(** ** Proofs *)

(** The words of the struct. *)

Definition reloaded (w w' : world) (s : shown) : Prop :=
  wok w' /\ maxpages w' = maxpages w /\ host w' = host w /\ abort_flag w' = 0 /\ statics w' /\
  gnext w <= gnext w' <= gnext w + object_memory (a_types (s_now s)) (a_vals (s_now s)) /\
  (forall y, 468 <= y < gnext w -> ~ cells s y -> rd (mem w') y = rd (mem w) y) /\
  exists F, object_at (mem w') (a_types (s_now s)) (a_owner (s_now s)) (a_id (s_now s)) (a_vals (s_now s)) (s_at s) F /\
    sub F (union (s_mem s) (between (gnext w) (gnext w'))).

Lemma statics_outside : forall (w w' : world), (forall y, 0 <= y < 64 \/ 96 <= y < 128 \/ 160 <= y < 224 -> rd (mem w') y = rd (mem w) y) -> statics w -> statics w'.
Proof.
  intros w w' E (S0&S1&S2&S3&S4). unfold statics.
  assert (B : forall a, 0 <= a <= 32 \/ a = 96 \/ 160 <= a <= 192 -> load_be 32 (mem w') a = load_be 32 (mem w) a) by (intros a A; apply load_be_ext; intros i Hi; change (Z.of_nat 32) with 32 in Hi; apply E; lia).
  assert (B' : load 32 (mem w') 32 = load 32 (mem w) 32) by (apply load_ext; intros i Hi; change (Z.of_nat 32) with 32 in Hi; apply E; lia).
  rewrite B'. rewrite (B 0), (B 96), (B 160), (B 192) by lia. tauto.
Qed.

Lemma nth_pre : forall (pre : list Z) rest u v, nth_error pre u = Some v -> nth_error (pre ++ rest) u = Some v.
Proof. intros pre rest u v E. rewrite nth_error_app1; [exact E|]. apply nth_error_Some. congruence. Qed.

Lemma fields_moved : forall fs m m' vs a a' (F : mset), (forall z, F z -> rd m' z = rd m z) -> (forall j, 0 <= j < 4 * Z.of_nat (List.length fs) -> rd m' (a' + j) = rd m (a + j)) ->
  fields (map (fun t => field_of m t (vrep m t)) fs) m vs a F -> fields (map (fun t => field_of m' t (vrep m' t)) fs) m' vs a' F.
Proof.
  induction fs as [|t fs IH]; intros m m' vs a a' F HF HC Fl; destruct vs as [|v vs]; cbn [map fields] in *; try contradiction; [exact Logic.I|].
  destruct Fl as (F1&F2&R1&R2&D&S1&S2). cbn [List.length] in HC. exists F1, F2.
  assert (E : load 4 m' a' = load 4 m a) by (apply load_ext; intros j Hj; change (Z.of_nat 4) with 4 in Hj; apply HC; lia). rewrite E.
  split; [eapply field_of_ext; [apply vrep_ext| |exact R1]; intros z Hz; apply HF, S1, Hz|]. split; [|tauto].
  eapply IH; [| |exact R2].
  - intros z Hz. apply HF, S2, Hz.
  - intros j Hj. replace (a' + 4 + j) with (a' + (4 + j)) by lia. replace (a + 4 + j) with (a + (4 + j)) by lia. apply HC. lia.
Qed.

Lemma reload_one_ok : forall ep b u pre t0 t1 t2 t3 s w sh r (Q : outcome -> Prop), List.length pre = b -> nth_error pre u = Some (s_uid sh) ->
  wok w -> errtab_ok ep -> statics w -> abort_flag w = 0 -> in_memory w sh -> in_storage (host w) sh ->
  (ctrap w (existsb narrow (a_types (s_now sh))) (object_memory (a_types (s_now sh)) (a_vals (s_now sh))) -> Q OTrap) ->
  (forall w' t0' t1' t2' t3', reloaded w w' sh -> wp r Q s (pre ++ [t0'; t1'; t2'; t3']) w') ->
  wp (reload_one ep b u (a_hash (s_now sh)) (a_types (s_now sh)) ++ r) Q s (pre ++ [t0; t1; t2; t3]) w.
Proof.
  intros ep b u pre t0 t1 t2 t3 s w [a old x U F0] r Q Lp Nu Hw He St Ab (Ob&Ux&Xu&SU&SF) Is T K. cbn [s_now s_old s_at s_uid s_mem] in *.
  destruct Is as (Ud&Hh&Pl&Sl&Mm&Ow&On&Un). cbn [s_now] in *.
  destruct Ob as (a0&i&c&G&E1&E2&E3&Ei&Eo&S1&S2&S3&S4&S5&Dj&Fl). rewrite Ux in E1. subst a0.
  pose proof Hw as (P1&P2&P3&P4&P5&P6). set (n := Z.of_nat (List.length (a_types a))) in *. assert (Hn : 0 <= n) by (unfold n; lia).
  assert (Bd : forall p q, sub (between p q) F0 -> p < q -> 468 <= p /\ q <= gnext w).
  { intros p q S Hpq. pose proof (SF p (S p ltac:(unfold between; lia))) as A. pose proof (SF (q - 1) (S (q - 1) ltac:(unfold between; lia))) as B. unfold heap, between in A, B. lia. }
  destruct (Bd _ _ S1 ltac:(lia)) as (X1&X2). destruct (Bd _ _ S2 ltac:(lia)) as (U1&U2). destruct (Bd _ _ S3 ltac:(lia)) as (I1&I2). destruct (Bd _ _ S4 ltac:(lia)) as (C1&C2). destruct (Bd _ _ SU ltac:(lia)) as (V1&V2).
  unfold reload_one. cbn [app].
  eapply wp_lget; [apply nth_pre; exact Nu|]. ws1. ws1. apply wp_load; [lia|unfold page_size; lia|]. rewrite Z.add_0_r, Xu. sm.
  eapply wp_lget; [apply nth_pre; exact Nu|]. apply wp_load; [lia|unfold page_size; lia|]. rewrite Z.add_0_r, E2. apply wp_load; [lia|unfold page_size; lia|]. rewrite Z.add_0_r, E3. tm. ws1.
  destruct (locate_storage_data_spec ep w c 0 Hw He St ltac:(unfold live; lia) ltac:(lia) ltac:(lia)) as (vs&w1&R&L).
  eapply wp_call; [reflexivity|cbn [List.length]; lia|]. wc. eapply returns_wpf; [exact R|]. cbn [skipn]. clear R. rewrite <- !app_assoc.
  destruct (Ud On) as (D1&D2). unfold a_slots, slots_under in Sl. rewrite (proj2 (Z.eqb_neq _ _) On) in Sl. unfold a_slot in *.
  assert (In' : inspect (bswap 8 (a_hash a)) (stor (host w) (slot_of (host w) (a_owner a) (a_id a))) = Present) by (apply inspect_saved; assumption).
  assert (Nz : stored (host w) (a_owner a) (a_id a) <> 0).
  { unfold stored. intros C. unfold inspect in In'. rewrite C in In'. discriminate. }
  assert (Hd : holder (host w) ([h_origin (host w) mod 2 ^ 160; 1] ++ []) (a_id a) = Some (a_owner a)).
  { apply holder_only; [unfold originator, shared_owner in Ow; cbn [app In]; destruct Ow; auto|exact Nz|]. intros o' [<-|[<-|[]]] N; apply Un; auto. }
  unfold lookup_post in L. cbn [Z.eqb] in L. rewrite Ei, Hd in L. destruct L as (po&->&Po1&Po2&Lo&Fr&Ls&_).
  assert (Hw1 : wok w1).
  { eapply wok_frame; [exact Hw|exact Fr|]. intros y X; apply (scratch_live w) in X; [lia|exact Hw]. }
  pose proof Hw1 as (A1&A2&A3&A4&A5&A6). pose proof Fr as (F1&F2&F3&F4&F5&F6&F7).
  assert (Ab1 : abort_flag w1 = 0).
  { rewrite <- Ab. unfold abort_flag. apply load_ext. intros j Hj. change (Z.of_nat 4) with 4 in Hj. apply F7. unfold scratch, within. lia. }
  cbn [app]. apply wp_propagate_ok; [exact Hw1|exact Ab1|]. cbn [app]. sm. ws1. gm. gm.
  assert (Rd1 : ready ep w1 A_OBJ_SLOT).
  { split; [exact Hw1|]. split; [exact He|]. split; [|unfold A_OBJ_SLOT; lia]. destruct St as (_&S'&_). rewrite <- S'. apply load_ext. intros j Hj. change (Z.of_nat 32) with 32 in Hj. apply F7. unfold scratch, within. lia. }
  assert (Lc1 : load_be 32 (mem w1) c = a_id a).
  { rewrite <- Ei. apply load_be_ext. intros j Hj. change (Z.of_nat 32) with 32 in Hj. apply F7. unfold scratch, within. lia. }
  eapply wp_call_spec; [reflexivity|cbn [List.length]; lia|wc; eapply (load_ok ep (a_hash a) (a_types a) w1 A_OBJ_SLOT c po _ (a_vals a)); try assumption; rewrite ?F6; try (unfold A_OBJ_SLOT; lia); [exact Ls|exact In'|exact Pl|exact D2|exact Sl]| |].
  { intros [O|(N&y&Y1&Y2)]; apply T; [left; unfold oom in *; lia|right; split; [exact N|]]. exists y. lia. }
  intros rs w2 (y&F&->&Se&G2&Ob2&SF2). rewrite Lo, Lc1 in Ob2. cbn [app]. destruct Se as (Gr&Eh).
  pose proof (proj1 Gr) as Hw2. pose proof Hw2 as (B1&B2&B3&B4&B5&B6).
  assert (O2 : forall z, 0 <= z < gnext w -> ~ scratch z -> ~ within 260 128 z -> rd (mem w2) z = rd (mem w) z).
  { intros z Z1 Z2 Z3. destruct Gr as (_&_&_&_&_&_&Gr7). rewrite Gr7; [apply F7; exact Z2|lia|]. unfold slot_mem, A_OBJ_SLOT, scratch, within in *. lia. }
  assert (Ab2 : abort_flag w2 = 0).
  { rewrite <- Ab. unfold abort_flag. apply load_ext. intros j Hj. change (Z.of_nat 4) with 4 in Hj. apply O2; unfold scratch, within; lia. }
  apply wp_propagate_ok; [exact Hw2|exact Ab2|]. cbn [app]. sm. gm. gm. ws1.
  cbn [skipn]. fold n in Ob2 |- *.
  destruct Ob2 as (a'&b'&c'&G'&Z1&Z2&Z3&Zi&Zo&R1&R2&R3&R4&R5&RD&RF). fold n in R1, RD.
  assert (FN : forall z, F z -> ~ between (x - 32) (x + 4 + 4 * n) z /\ 468 <= z < gnext w2).
  { intros z Hz. apply SF2 in Hz. destruct Hz as [Hz|Hz]; unfold between in Hz; [unfold between; lia|]. split; [|assert (gnext w1 <= gnext w2) by apply Gr; lia].
    intros X. apply (Dj z X). right. right. right. unfold between. lia. }
  assert (N2 : gnext w1 <= gnext w2) by apply Gr.
  pose proof (FN y (R1 y ltac:(unfold between; lia))) as (_&Y1). pose proof (FN (y + 3 + 4 * n) (R1 (y + 3 + 4 * n) ltac:(unfold between; lia))) as (_&Y2).
  apply wp_mcopy; try lia; try (unfold page_size; lia). set (w3 := set_mem w2 _).
  assert (M3 : forall z, ~ between x (x + 4 + 4 * n) z -> rd (mem w3) z = rd (mem w2) z) by (intros z Hz; cbn [w3 mem set_mem]; apply rd_mcopy_frame; unfold within, between in *; lia).
  assert (M3' : forall j, 0 <= j < 4 + 4 * n -> rd (mem w3) (x + j) = rd (mem w2) (y + j)) by (intros j Hj; cbn [w3 mem set_mem]; rewrite rd_mcopy_in by lia; f_equal; lia).
  assert (M3F : forall z, F z -> rd (mem w3) z = rd (mem w2) z).
  { intros z Hz. apply M3. destruct (FN z Hz) as (N&_). unfold between in *. lia. }
  assert (Hw3 : wok w3) by (apply wok_set_mem; [exact Hw2|]; intros z Hz; apply M3; unfold between; lia).
  assert (M3L : forall p, sub (between p (p + 4)) F -> load 4 (mem w3) p = load 4 (mem w2) p) by (intros p S; apply load_ext; intros j Hj; change (Z.of_nat 4) with 4 in Hj; apply M3F, S; unfold between; lia).
  apply K. split; [exact Hw3|]. split; [transitivity (maxpages w1); [apply Gr|exact F1]|]. split; [change (host w3) with (host w2); congruence|].
  split; [|split; [|split; [|split; [|exists (union (between (x - 32) (x + 4 + 4 * n)) F); split]]]]; cbn [s_now s_at s_mem].
  - rewrite <- Ab2. unfold abort_flag. apply load_ext. intros j Hj. change (Z.of_nat 4) with 4 in Hj. apply M3. unfold between. lia.
  - apply (statics_outside w); [|exact St]. intros z Hz. rewrite M3 by (unfold between; lia). apply O2; unfold scratch, within; lia.
  - change (gnext w3) with (gnext w2). rewrite <- F3. split; [exact N2|exact G2].
  - intros z Hz Nz'. unfold cells in Nz'. cbn [s_at s_now] in Nz'. fold n in Nz'. rewrite M3 by exact Nz'. apply O2; unfold scratch, within; lia.
  - exists a', b', c', G'. fold n. split; [rewrite <- Z1; apply load_ext; intros j Hj; change (Z.of_nat 4) with 4 in Hj; apply M3'; lia|].
    split; [rewrite M3L by exact R2; exact Z2|]. split; [rewrite M3L by exact R3; exact Z3|].
    split; [rewrite <- Zi; apply load_be_ext; intros j Hj; change (Z.of_nat 32) with 32 in Hj; apply M3F, R4; unfold between; lia|].
    split; [rewrite <- Eo; apply load_be_ext; intros j Hj; change (Z.of_nat 32) with 32 in Hj; rewrite M3 by (unfold between; lia); apply O2; unfold scratch, within; lia|].
    split; [intros z Hz; left; exact Hz|]. split; [intros z Hz; right; exact (R2 z Hz)|]. split; [intros z Hz; right; exact (R3 z Hz)|]. split; [intros z Hz; right; exact (R4 z Hz)|]. split; [intros z Hz; right; exact (R5 z Hz)|].
    split.
    + intros z Hz Hz2. assert (Fz : F z) by (destruct Hz2 as [X|[X|[X|X]]]; [exact (R5 z X)|exact (R2 z X)|exact (R3 z X)|exact (R4 z X)]). destruct (FN z Fz) as (N&_). exact (N Hz).
    + eapply fields_moved; [| |exact RF].
      * intros z Hz. apply M3F, R5, Hz.
      * intros j Hj. fold n in Hj. replace (x + 4 + j) with (x + (4 + j)) by lia. replace (y + 4 + j) with (y + (4 + j)) by lia. apply M3'. lia.
  - intros z [Hz|Hz]; [left; exact (S1 z Hz)|]. apply SF2 in Hz. change (gnext w3) with (gnext w2). destruct Hz as [Hz|Hz]; [right; rewrite <- F3; exact Hz|left; exact (S4 z Hz)].
Qed.

Lemma object_at_same : forall m m' fs o id vs x (F : mset), (forall z, F z -> rd m' z = rd m z) -> object_at m fs o id vs x F -> object_at m' fs o id vs x F.
Proof.
  intros m m' fs o id vs x F HF (a&b&c&G&E1&E2&E3&Ei&Eo&S1&S2&S3&S4&S5&Dj&Fl). exists a, b, c, G.
  assert (L4 : forall p, sub (between p (p + 4)) F -> load 4 m' p = load 4 m p) by (intros p S; apply load_ext; intros j Hj; change (Z.of_nat 4) with 4 in Hj; apply HF, S; unfold between; lia).
  assert (L32 : forall p, sub (between p (p + 32)) F -> load_be 32 m' p = load_be 32 m p) by (intros p S; apply load_be_ext; intros j Hj; change (Z.of_nat 32) with 32 in Hj; apply HF, S; unfold between; lia).
  split; [rewrite L4; [exact E1|]; intros z Hz; apply S1; unfold between in *; lia|]. split; [rewrite L4; assumption|]. split; [rewrite L4; assumption|].
  split; [rewrite L32; assumption|]. split; [rewrite L32; [exact Eo|]; intros z Hz; apply S1; unfold between in *; lia|].
  do 6 (split; [assumption|]). eapply fields_moved; [| |exact Fl].
  - intros z Hz. apply HF, S5, Hz.
  - intros j Hj. apply HF, S1. unfold between. lia.
Qed.

(** What the objects take in memory, and whether reading one can run into the end of memory (C35). *)
Definition shown_narrow (l : list shown) : bool := existsb (fun s => existsb narrow (a_types (s_now s))) l.

Lemma shown_memory_nonneg : forall l, 0 <= shown_memory l.
Proof.
  unfold shown_memory. induction l as [|s l IH]; cbn [map fold_right]; [lia|]. unfold object_memory in *. pose proof (memory_fors_nonneg (a_types (s_now s)) (a_vals (s_now s))). lia.
Qed.

Lemma cells_in : forall w s, in_memory w s -> sub (cells s) (s_mem s).
Proof.
  intros w s ((a&b&c&G&E1&E2&E3&Ei&Eo&S1&_)&_) z Hz. apply S1. unfold cells, between in *. lia.
Qed.

Lemma in_memory_same : forall w w' s, (forall y, s_mem s y -> rd (mem w') y = rd (mem w) y) -> gnext w <= gnext w' -> in_memory w s -> in_memory w' s.
Proof.
  intros w w' s HF N I. pose proof (cells_in w s I) as C. destruct I as (Ob&Ux&Xu&SU&SF). split; [eapply object_at_same; eassumption|].
  split; [rewrite <- Ux; apply load_ext; intros j Hj; change (Z.of_nat 4) with 4 in Hj; apply HF, C; unfold cells, between; lia|].
  split; [rewrite <- Xu; apply load_ext; intros j Hj; change (Z.of_nat 4) with 4 in Hj; apply HF, SU; unfold between; lia|].
  split; [exact SU|]. intros z Hz. apply SF in Hz. unfold heap, between in *. lia.
Qed.

Lemma reload_each_ok : forall l ep b u pre t0 t1 t2 t3 s w r (Q : outcome -> Prop), List.length pre = b ->
  (forall j sh, nth_error l j = Some sh -> nth_error pre (u + j) = Some (s_uid sh)) ->
  wok w -> errtab_ok ep -> statics w -> abort_flag w = 0 -> Forall (in_memory w) l -> Forall (in_storage (host w)) l ->
  ForallOrdPairs (fun s1 s2 => disj (s_mem s1) (s_mem s2)) l ->
  (ctrap w (shown_narrow l) (shown_memory l) -> Q OTrap) ->
  (forall w' t0' t1' t2' t3', all_reloaded w w' l -> wp r Q s (pre ++ [t0'; t1'; t2'; t3']) w') ->
  wp (reload_each ep b u (shown_types l) ++ r) Q s (pre ++ [t0; t1; t2; t3]) w.
Proof.
  induction l as [|sh l IH]; intros ep b u pre t0 t1 t2 t3 s w r Q Lp Nu Hw He St Ab Im Is Dj T K.
  { cbn [shown_types map reload_each app]. apply K. split; [exact Hw|]. split; [reflexivity|]. split; [reflexivity|]. split; [exact Ab|]. split; [exact St|]. split; [cbn; lia|]. split; [reflexivity|constructor]. }
  cbn [shown_types map reload_each]. rewrite <- app_assoc. inversion Im as [|? ? Im1 Im2]; subst. inversion Is as [|? ? Is1 Is2]; subst. inversion Dj as [|? ? Dj1 Dj2]; subst.
  pose proof (shown_memory_nonneg l) as Nn. assert (On : 0 <= object_memory (a_types (s_now sh)) (a_vals (s_now sh))) by (unfold object_memory; pose proof (memory_fors_nonneg (a_types (s_now sh)) (a_vals (s_now sh))); lia).
  assert (Sm : shown_memory (sh :: l) = object_memory (a_types (s_now sh)) (a_vals (s_now sh)) + shown_memory l) by reflexivity.
  eapply reload_one_ok; try eassumption; [reflexivity|rewrite <- (Nat.add_0_r u); apply (Nu 0%nat); reflexivity| |].
  { intros [O|(N&y&Y1&Y2)]; apply T; [left; unfold oom in *; lia|right; split; [unfold shown_narrow; cbn [existsb]; rewrite N; reflexivity|]]. exists y. lia. }
  intros w1 q0 q1 q2 q3 (Hw1&M1&Eh1&Ab1&St1&N1&Fr1&F&Ob1&SF1).
  pose proof (cells_in w sh Im1) as C1. pose proof Hw as (_&_&P3&_).
  assert (Im' : Forall (in_memory w1) l).
  { rewrite Forall_forall in *. intros s' Hs'. specialize (Im2 s' Hs'). specialize (Dj1 s' Hs'). apply (in_memory_same w w1 s'); [|lia|exact Im2].
    intros y Hy. assert (Hh : heap w y) by (apply Im2; exact Hy). apply Fr1; [unfold heap, between in Hh; lia|]. intros X. apply (Dj1 y); [apply C1; exact X|exact Hy]. }
  eapply IH; try eassumption; [reflexivity| |rewrite Eh1; exact Is2| |].
  { intros j s' E. replace (S u + j)%nat with (u + S j)%nat by lia. apply Nu. exact E. }
  { intros C. apply T. eapply (ctrap_grown w w1); [exact M1|lia|exact C|lia|]. intros N. unfold shown_narrow in *. cbn [existsb]. rewrite N. apply orb_true_r. }
  intros w2 v0 v1 v2 v3 (Hw2&M2&Eh2&Ab2&St2&N2&Fr2&Al). apply K.
  split; [exact Hw2|]. split; [congruence|]. split; [congruence|]. split; [exact Ab2|]. split; [exact St2|]. split; [lia|]. split.
  - intros y Hy Nc. rewrite Fr2; [apply Fr1; [exact Hy|apply Nc; left; reflexivity]|lia|]. intros s' Hs'. apply Nc. right. exact Hs'.
  - constructor.
    + exists F. split; [|intros z Hz; destruct (SF1 z Hz) as [X|X]; [left; exact X|right; unfold between in *; lia]].
      eapply object_at_same; [|exact Ob1]. intros z Hz. apply Fr2.
      * destruct (SF1 z Hz) as [X|X]; [apply Im1 in X; unfold heap, between in X; lia|unfold between in X; lia].
      * intros s' Hs' X. rewrite Forall_forall in *. specialize (Im2 s' Hs'). pose proof (cells_in w s' Im2 z X) as X'.
        destruct (SF1 z Hz) as [Y|Y]; [exact (Dj1 s' Hs' z Y X')|]. apply Im2 in X'. unfold heap, between in *. lia.
    + eapply Forall_impl; [|exact Al]. intros s' (F'&O'&S'). exists F'. split; [exact O'|]. intros z Hz. destruct (S' z Hz) as [X|X]; [left; exact X|right; unfold between in *; lia].
Qed.

Lemma reload_one_err : forall ep b u pre t0 t1 t2 t3 s w sh h fs r (Q : outcome -> Prop), List.length pre = b -> nth_error pre u = Some (s_uid sh) ->
  wok w -> errtab_ok ep -> statics w -> in_memory w sh ->
  (forall o, o = originator (host w) \/ o = shared_owner -> stored (host w) o (a_id (s_now sh)) = 0) ->
  (forall l w', wok w' -> host w' = host w -> abort_flag w' = ep StorageObjectNotFound -> Q (ORet [BADF00D] l w')) ->
  wp (reload_one ep b u h fs ++ r) Q s (pre ++ [t0; t1; t2; t3]) w.
Proof.
  intros ep b u pre t0 t1 t2 t3 s w [a old x U F0] h fs r Q Lp Nu Hw He St (Ob&Ux&Xu&SU&SF) No K. cbn [s_now s_old s_at s_uid s_mem] in *.
  destruct Ob as (a0&i&c&G&E1&E2&E3&Ei&Eo&S1&S2&S3&S4&S5&Dj&Fl). rewrite Ux in E1. subst a0.
  pose proof Hw as (P1&P2&P3&P4&P5&P6).
  assert (Bd : forall p q, sub (between p q) F0 -> p < q -> 468 <= p /\ q <= gnext w).
  { intros p q S Hpq. pose proof (SF p (S p ltac:(unfold between; lia))) as A. pose proof (SF (q - 1) (S (q - 1) ltac:(unfold between; lia))) as B. unfold heap, between in A, B. lia. }
  destruct (Bd _ _ S2 ltac:(lia)) as (U1&U2). destruct (Bd _ _ S3 ltac:(lia)) as (I1&I2). destruct (Bd _ _ S4 ltac:(lia)) as (C1&C2). destruct (Bd _ _ SU ltac:(lia)) as (V1&V2).
  unfold reload_one. cbn [app].
  eapply wp_lget; [apply nth_pre; exact Nu|]. ws1. ws1. apply wp_load; [lia|unfold page_size; lia|]. rewrite Z.add_0_r, Xu. sm.
  eapply wp_lget; [apply nth_pre; exact Nu|]. apply wp_load; [lia|unfold page_size; lia|]. rewrite Z.add_0_r, E2. apply wp_load; [lia|unfold page_size; lia|]. rewrite Z.add_0_r, E3. tm. ws1.
  destruct (locate_storage_data_spec ep w c 0 Hw He St ltac:(unfold live; lia) ltac:(lia) ltac:(lia)) as (vs&w1&R&L).
  eapply wp_call; [reflexivity|cbn [List.length]; lia|]. wc. eapply returns_wpf; [exact R|]. cbn [skipn]. clear R. rewrite <- !app_assoc.
  assert (Hd : holder (host w) ([h_origin (host w) mod 2 ^ 160; 1] ++ []) (a_id a) = None).
  { apply holder_none. intros o' [<-|[<-|[]]]; apply No; auto. }
  unfold lookup_post in L. cbn [Z.eqb] in L. rewrite Ei, Hd in L. destruct L as (->&Fr&Af).
  assert (Hw1 : wok w1).
  { eapply wok_frame; [exact Hw|exact Fr|]. intros y [X|X]; [apply (scratch_live w) in X; [lia|exact Hw]|unfold within in X; lia]. }
  cbn [app]. apply wp_propagate_err; [exact Hw1|rewrite Af; specialize (He StorageObjectNotFound); lia|]. apply K; [exact Hw1|apply Fr|exact Af].
Qed.

Lemma nth_map_uid : forall (l : list shown) j sh, nth_error l j = Some sh -> nth_error (map s_uid l) j = Some (s_uid sh).
Proof. intros l j sh E. rewrite nth_error_map, E. reflexivity. Qed.

Lemma reload_objects_some : forall ep d b u os, os <> [] ->
  reload_objects ep d b u os = [ Block "reload" 0 ([ LocalGet d; Const 0; Bin I32 Eq; BrIf "reload" ] ++ reload_each ep b u os) ].
Proof. intros ep d b u [|o os] N; [congruence|reflexivity]. Qed.

Lemma reload_start : forall ep l w cr d (Q : list Z -> world -> Prop) (T : Prop), l <> [] ->
  (d = 0 -> Q [cr] w) ->
  (d <> 0 -> wp (reload_each ep (2 + List.length (shown_types l)) 2 (shown_types l) ++ []) (blk "reload" 0 [] [LocalGet 0] (fret 1 Q T)) [] ((cr :: d :: map s_uid l) ++ [0; 0; 0; 0]) w) ->
  wpf (reload_tail ep (shown_types l)) (cr :: d :: map s_uid l) w (resq Q T).
Proof.
  intros ep l w cr d Q T Ne K0 K1. apply wpf_intro; [cbn [List.length]; unfold shown_types; rewrite !map_length; reflexivity|].
  rewrite reload_objects_some by (destruct l; [congruence|discriminate]). cbn [app repeat]. apply wp_block. ws1. ws1. eapply wp_bin; [reflexivity|].
  apply wp_brif; intros C; unb C; wc.
  - ws. apply K0. lia.
  - rewrite <- (app_nil_r (reload_each _ _ _ _)). apply K1. lia.
Qed.

(** The objects after a delegate call. *)
Lemma reload_tail_ok : forall ep l w cr d, l <> [] -> wok w -> errtab_ok ep -> statics w -> abort_flag w = 0 -> d <> 0 ->
  Forall (in_memory w) l -> Forall (in_storage (host w)) l -> ForallOrdPairs (fun s1 s2 => disj (s_mem s1) (s_mem s2)) l ->
  wpf (reload_tail ep (shown_types l)) (cr :: d :: map s_uid l) w (resq (fun rs w' => rs = [cr] /\ all_reloaded w w' l) (ctrap w (shown_narrow l) (shown_memory l))).
Proof.
  intros ep l w cr d Ne Hw He St Ab Hd Im Is Dj. apply reload_start; [exact Ne|contradiction|]. intros _.
  eapply reload_each_ok; try eassumption.
  - cbn [List.length]. unfold shown_types. rewrite !map_length. reflexivity.
  - intros j sh E. cbn [Nat.add nth_error]. apply nth_map_uid. exact E.
  - intros C. exact C.
  - intros w' q0 q1 q2 q3 R. ws. auto.
Qed.

(** After another call nothing is reloaded. *)
Lemma reload_tail_other : forall ep l w cr, l <> [] -> wpf (reload_tail ep (shown_types l)) (cr :: 0 :: map s_uid l) w (resq (fun rs w' => rs = [cr] /\ w' = w) False).
Proof. intros ep l w cr Ne. apply reload_start; [exact Ne|auto|congruence]. Qed.

Lemma reload_each_app : forall ep b l1 l2 u, reload_each ep b u (l1 ++ l2) = reload_each ep b u l1 ++ reload_each ep b (u + List.length l1) l2.
Proof.
  intros ep b. induction l1 as [|[h fs] l1 IH]; intros l2 u; cbn [app reload_each List.length]; [rewrite Nat.add_0_r; reflexivity|].
  rewrite IH, <- app_assoc. replace (S u + List.length l1)%nat with (u + S (List.length l1))%nat by lia. reflexivity.
Qed.

(** An object that is no longer where its owner's objects are. *)
Lemma reload_tail_err : forall ep l sh l2 w cr d, wok w -> errtab_ok ep -> statics w -> abort_flag w = 0 -> d <> 0 ->
  Forall (in_memory w) (l ++ [sh]) -> Forall (in_storage (host w)) l -> ForallOrdPairs (fun s1 s2 => disj (s_mem s1) (s_mem s2)) (l ++ [sh]) ->
  (forall o, o = originator (host w) \/ o = shared_owner -> stored (host w) o (a_id (s_now sh)) = 0) ->
  wpf (reload_tail ep (shown_types (l ++ sh :: l2))) (cr :: d :: map s_uid (l ++ sh :: l2)) w
    (resq (fun rs w' => abort_flag w' = ep StorageObjectNotFound /\ host w' = host w) (ctrap w (shown_narrow l) (shown_memory l))).
Proof.
  intros ep l sh l2 w cr d Hw He St Ab Hd Im Is Dj No. apply reload_start; [destruct l; discriminate|contradiction|]. intros _.
  set (pre := cr :: d :: map s_uid (l ++ sh :: l2)). assert (Lp : List.length pre = (2 + List.length (shown_types (l ++ sh :: l2)))%nat) by (unfold pre, shown_types; cbn [List.length]; rewrite !map_length; reflexivity).
  assert (Np : forall j s', nth_error (l ++ sh :: l2) j = Some s' -> nth_error pre (2 + j) = Some (s_uid s')) by (intros j s' E; unfold pre; cbn [Nat.add nth_error]; apply nth_map_uid; exact E).
  unfold shown_types at 2. rewrite map_app, reload_each_app, <- app_assoc. cbn [app].
  assert (Dl : ForallOrdPairs (fun s1 s2 => disj (s_mem s1) (s_mem s2)) l /\ Forall (fun s1 => disj (s_mem s1) (s_mem sh)) l).
  { clear - Dj. induction l as [|s l IH]; [split; constructor|]. cbn [app] in Dj. inversion Dj as [|? ? D1 D2]; subst. destruct (IH D2) as (A&B). apply Forall_app in D1. destruct D1 as (D1&D3). inversion D3; subst. split; constructor; assumption. }
  destruct Dl as (Dl&Ds). apply Forall_app in Im. destruct Im as (Im&Im1). inversion Im1 as [|? ? Is' _]; subst.
  eapply (reload_each_ok l); try eassumption.
  - intros j s' E. apply Np. rewrite nth_error_app1; [exact E|]. apply nth_error_Some. congruence.
  - intros C. exact C.
  - intros w' q0 q1 q2 q3 (Hw'&M'&Eh&Ab'&St'&N'&Fr&_). cbn [map reload_each]. rewrite <- app_assoc. rewrite map_length.
    eapply (reload_one_err ep _ _ pre _ _ _ _ _ w' sh); try eassumption.
    + apply Np. rewrite nth_error_app2, Nat.sub_diag by lia. reflexivity.
    + apply (in_memory_same w); [|lia|exact Is']. intros y Hy. assert (Hh : heap w y) by (apply Is'; exact Hy). apply Fr; [unfold heap, between in Hh; lia|].
      intros s' Hs' X. rewrite Forall_forall in *. apply (Ds s' Hs' y); [|exact Hy]. apply (cells_in w s' (Im s' Hs')). exact X.
    + rewrite Eh. exact No.
    + intros l' w2 _ E2 A2. cbn [blk fret]. split; [exact A2|congruence].
Qed.
