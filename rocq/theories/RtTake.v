(** * Objects as arguments of entry functions: runtime/unpacking/structs.rs 248-388, abi_types/unpacking.rs 271-312. *)

From Verif Require Import Tac RtAlloc RtErr RtInt RtInt2 RtEq RtMul RtDiv RtShift RtSwap RtAscii RtCopy Ops SpecAbi RtAbi SpecVal LemVal SpecStor SpecLayout RtStor LemStor RtStore LemStore RtSave RtLoad RtLoadObj LemPlace LemObj RtChild SpecWrap RtWrap RtWrapLoad SpecTake.
Ltac Zify.zify_post_hook ::= idtac.

(** structs.rs 301-356: the lookup for the declared kind.  Local 0: uid_ptr, local 1: unpack_frozen if no kind is declared. *)
Definition locate_for (ep : errtab) (kind : option object_kind) : list instr :=
  match kind with
  | Some Owned => [ LocalGet 0; Call (locate_storage_owned_data ep) ]
  | Some Shared => [ LocalGet 0; Call (locate_storage_shared_data ep) ]
  | Some Frozen => [ LocalGet 0; Call (locate_storage_frozen_data ep) ]
  | None => [ LocalGet 0; LocalGet 1; Call (locate_storage_data ep) ]
  end.
Definition take_params (kind : option object_kind) : nat := match kind with None => 2 | Some _ => 1 end.

(** structs.rs 262-388 [unpack_storage_struct_function].  Locals: 0 uid_ptr, 1 unpack_frozen (without a kind), then
    owner_id_ptr, slot_ptr.  [ld]: the function that reads the object. *)
Definition unpack_storage_with (ep : errtab) (ld : func) (kind : option object_kind) : func :=
  let n := take_params kind in
  Func n 2 1 (locate_for ep kind ++ propagate true ++
    [ LocalSet n; Const 32; Call alloc; LocalTee (S n); Const A_OBJ_SLOT; Const 32; MemCopy;
      LocalGet (S n); LocalGet 0; LocalGet n; Call ld ]).
(** For an object without objects inside; [h] and [fs]: its type hash and fields (after the id). *)
Definition unpack_storage_struct (ep : errtab) (h : Z) (fs : list ty) (kind : option object_kind) : func :=
  unpack_storage_with ep (load_object ep h fs) kind.

(** abi_types/unpacking.rs 271-312 and 363-388: the instructions that read an object argument, for an object with a UID; as
    a function of its own.  In the entry point they are inline, and an error leaves through the block around them.
    Local 0: reader_pointer.  [imm]: the parameter is an immutable reference (for references the inner type is unpacked,
    lines 198-222). *)
Definition take_with (ep : errtab) (ld : func) (kind : option object_kind) (imm : bool) : func :=
  Func 1 0 1 ([ LocalGet 0; Call unpack_address ] ++ (match kind with None => [ Const (if imm then 1 else 0) ] | Some _ => [] end) ++
    [ Call (unpack_storage_with ep ld kind) ] ++ propagate true).
Definition take_object (ep : errtab) (h : Z) (fs : list ty) (kind : option object_kind) (imm : bool) : func :=
  take_with ep (load_object ep h fs) kind imm.
(** The same for an object with objects inside (RtWrapLoad.v). *)
Definition take_tree (ep : errtab) (h : Z) (fs : list shape) (kind : option object_kind) (imm : bool) : func :=
  take_with ep (load_tree ep h fs) kind imm.
Lemma take_tree_flat : forall ep h fs kind imm, take_tree ep h (map Value fs) kind imm = take_object ep h fs kind imm.
Proof. intros. unfold take_tree, take_object. rewrite load_tree_flat. reflexivity. Qed.

(** ** Proofs *)

(** Memory that reading an object may change. *)
Definition take_mem : mset := fun y => scratch y \/ within 260 128 y.

Lemma locate_for_wp : forall ep kind fz w uid l r Q, wok w -> errtab_ok ep -> statics w -> live w uid 32 -> 468 <= uid ->
  nth_error l 0 = Some uid -> (kind = None -> nth_error l 1 = Some (if fz : bool then 1 else 0)) ->
  (forall vs w', lookup_post ep w (searched (host w) kind fz) (load_be 32 (mem w) uid) vs w' -> wp r Q vs l w') ->
  wp (locate_for ep kind ++ r) Q [] l w.
Proof.
  intros ep kind fz w uid l r Q Hw He St Lu Hu L0 L1 K. unfold locate_for.
  assert (G : forall f o, (f = locate_storage_owned_data ep /\ o = originator (host w)) \/ (f = locate_storage_shared_data ep /\ o = shared_owner) \/ (f = locate_storage_frozen_data ep /\ o = frozen_owner) ->
    exists vs w', returns f [uid] w vs w' /\ lookup_post ep w [o] (load_be 32 (mem w) uid) vs w').
  { intros f o C. assert (A : forall pre a, (pre = load_origin /\ a = A_OWNER \/ pre = [] /\ (a = A_SHARED \/ a = A_FROZEN)) -> _) by (intros pre a; exact (locate_in_spec ep w uid pre a Hw He St Lu Hu)).
    destruct St as (_&_&_&S3&S4). destruct C as [(->& ->)|[(->& ->)|(->& ->)]].
    - apply (A load_origin A_OWNER). tauto.
    - unfold shared_owner in *. rewrite <- S3. apply (A [] A_SHARED). tauto.
    - unfold frozen_owner in *. rewrite <- S4. apply (A [] A_FROZEN). tauto. }
  destruct kind as [[]|]; cbn [app searched] in *.
  - destruct (G _ _ (or_introl (conj eq_refl eq_refl))) as (vs&w'&R&P). eapply wp_lget; [exact L0|]. eapply wp_call; [reflexivity|cbn [List.length]; lia|]. wc. eapply returns_wpf; [exact R|]. cbn [skipn]. rewrite app_nil_r. apply K. exact P.
  - destruct (G _ _ (or_intror (or_introl (conj eq_refl eq_refl)))) as (vs&w'&R&P). eapply wp_lget; [exact L0|]. eapply wp_call; [reflexivity|cbn [List.length]; lia|]. wc. eapply returns_wpf; [exact R|]. cbn [skipn]. rewrite app_nil_r. apply K. exact P.
  - destruct (G _ _ (or_intror (or_intror (conj eq_refl eq_refl)))) as (vs&w'&R&P). eapply wp_lget; [exact L0|]. eapply wp_call; [reflexivity|cbn [List.length]; lia|]. wc. eapply returns_wpf; [exact R|]. cbn [skipn]. rewrite app_nil_r. apply K. exact P.
  - destruct (locate_storage_data_spec ep w uid (if fz then 1 else 0) Hw He St Lu Hu) as (vs&w'&R&P); [destruct fz; lia|].
    eapply wp_lget; [exact L0|]. eapply wp_lget; [apply L1; reflexivity|]. eapply wp_call; [reflexivity|cbn [List.length]; lia|]. wc. eapply returns_wpf; [exact R|]. cbn [skipn]. rewrite app_nil_r. apply K.
    destruct fz; exact P.
Qed.

Lemma take_start : forall ep ld nl b kind imm w uid (Q : list Z -> world -> Prop) (T : Prop), ld = Func 3 nl 1 b -> wok w -> errtab_ok ep -> statics w -> abort_flag w = 0 ->
  468 <= uid -> uid + 32 <= gnext w ->
  let id := load_be 32 (mem w) uid in let os := searched (host w) kind imm in
  (oom w 32 -> T) ->
  (forall w', holder (host w) os id = None -> wok w' -> abort_flag w' = ep StorageObjectNotFound -> host w' = host w -> Q [BADF00D] w') ->
  (forall o w3 po, holder (host w) os id = Some o -> grows take_mem w w3 -> host w3 = host w -> ready ep w3 (gnext w) -> abort_flag w3 = 0 -> gnext w3 = gnext w + 32 ->
     load_be 32 (mem w3) (gnext w) = slot_of (host w) o id -> 0 <= po -> po + 32 <= 256 -> load_be 32 (mem w3) po = o -> load_be 32 (mem w3) uid = id ->
     wpf ld [gnext w; uid; po] w3 (resq (fun r w' => exists x, r = [x] /\ Q r w') T)) ->
  wpf (unpack_storage_with ep ld kind) (uid :: match kind with None => [if imm then 1 else 0] | Some _ => [] end) w (resq Q T).
Proof.
  intros ep ld nl b kind imm w uid Q T Ld Hw He St Ab Hu1 Hu2 id os Ho Er K. pose proof Hw as (P1&P2&P3&P4&P5&P6). pose proof St as (S0&S1&_).
  unfold unpack_storage_with. set (args := uid :: _). set (n := take_params kind).
  assert (Ln : List.length args = n) by (unfold args, n; destruct kind; reflexivity).
  apply wpf_intro; [rewrite Ln; reflexivity|]. cbn [repeat].
  assert (NI : forall j v, nth_error (args ++ [v; j]) n = Some v) by (intros; rewrite nth_error_app2 by lia; rewrite Ln, Nat.sub_diag; reflexivity).
  assert (NS : forall j v, nth_error (args ++ [v; j]) (S n) = Some j) by (intros; rewrite nth_error_app2 by lia; replace (S n - List.length args)%nat with 1%nat by lia; reflexivity).
  assert (SI : forall j v u, set_nth n u (args ++ [v; j]) = args ++ [u; j]) by (intros; rewrite <- Ln; unfold args; destruct kind; reflexivity).
  assert (SS : forall j v u, set_nth (S n) u (args ++ [v; j]) = args ++ [v; u]) by (intros; rewrite <- Ln; unfold args; destruct kind; reflexivity).
  assert (N0 : forall v j, nth_error (args ++ [v; j]) 0 = Some uid) by (intros; unfold args; destruct kind; reflexivity).
  apply (locate_for_wp ep kind imm w uid); try assumption; [unfold live; lia|apply N0|intros ->; reflexivity|].
  intros vs w1 L. unfold lookup_post in L. fold os id in L. destruct (holder (host w) os id) as [o|] eqn:Hd.
  2:{ destruct L as (->&Fr&Af). assert (Hw1 : wok w1).
      { eapply wok_frame; [exact Hw|exact Fr|]. intros a [X|X]; [apply (scratch_live w) in X; [lia|exact Hw]|unfold within in X; lia]. }
      apply wp_propagate_err; [exact Hw1|rewrite Af; specialize (He StorageObjectNotFound); lia|]. apply Er; [reflexivity|exact Hw1|exact Af|apply Fr]. }
  destruct L as (po&->&Po1&Po2&Lo&Fr&Ls&_).
  assert (Hw1 : wok w1).
  { eapply wok_frame; [exact Hw|exact Fr|]. intros a X; apply (scratch_live w) in X; [lia|exact Hw]. }
  pose proof Hw1 as (A1&A2&A3&A4&A5&A6). pose proof Fr as (F1&F2&F3&F4&F5&F6&F7).
  assert (Fl : forall k a, (forall i, 0 <= i < Z.of_nat k -> ~ scratch (a + i)) -> load k (mem w1) a = load k (mem w) a) by (intros k a X; apply load_ext; intros i Hi; apply F7, X, Hi).
  assert (Ab1 : abort_flag w1 = 0).
  { rewrite <- Ab. unfold abort_flag. apply Fl. unfold scratch, within. lia. }
  apply wp_propagate_ok; [exact Hw1|exact Ab1|].
  eapply wp_lset; [apply NI|]. rewrite SI. ws1.
  eapply wp_call_spec; [reflexivity|cbn [List.length]; lia|wc; apply alloc_spec; [exact Hw1|lia]| |].
  { intros O. apply Ho. unfold oom in *. rewrite F1, F3 in O. exact O. }
  intros rs w2 (->&(Hw2&M2&X2&Pg2&Gn2&Gc2&Hh2)). wc. rewrite F3 in *. eapply wp_ltee; [apply NS|]. rewrite SS. ws1. ws1. unfold A_OBJ_SLOT. pose proof Hw2 as (B1&B2&B3&B4&B5&B6).
  apply wp_mcopy; try lia; try (unfold page_size; lia). set (w3 := set_mem w2 _).
  assert (O3 : forall y, ~ within (gnext w) 32 y -> rd (mem w3) y = rd (mem w1) y).
  { intros y Hy. cbn [w3 mem set_mem]. rewrite rd_mcopy_frame by exact Hy. rewrite M2. reflexivity. }
  assert (Hw3 : wok w3) by (apply wok_set_mem; [exact Hw2|]; intros y Hy; apply rd_mcopy_frame; unfold within; lia).
  assert (G3 : grows take_mem w w3).
  { split; [exact Hw3|]. cbn [w3 maxpages pages gnext gcd host set_mem]. split; [congruence|]. split; [lia|]. split; [lia|]. split; [congruence|].
    split; [rewrite Hh2, F6; symmetry; apply set_stor_same|]. intros a Ha Na. change (rd (mem w3) a = rd (mem w) a). rewrite O3 by (unfold within; lia). apply F7. intros X. apply Na. left. exact X. }
  assert (Vs : load_be 32 (mem w3) (gnext w) = slot_of (host w) o id).
  { rewrite <- Ls, <- M2. apply load_be_ext. intros i Hi. change (Z.of_nat 32) with 32 in Hi. cbn [w3 mem set_mem]. rewrite rd_mcopy_in by lia. f_equal. lia. }
  assert (W3 : forall k a, a + Z.of_nat k <= gnext w -> load k (mem w3) a = load k (mem w1) a) by (intros k a X; apply load_ext; intros i Hi; apply O3; unfold within; lia).
  assert (W3b : forall a, a + 32 <= gnext w -> load_be 32 (mem w3) a = load_be 32 (mem w1) a) by (intros a X; apply load_be_ext; intros i Hi; apply O3; unfold within; lia).
  eapply wp_lget; [apply NS|]. eapply wp_lget; [apply N0|]. eapply wp_lget; [apply NI|].
  eapply wp_call; [exact Ld|cbn [List.length]; lia|]. wc.
  eapply wpf_conseq; [apply (K o w3 po)|]; try reflexivity; try assumption.
  - cbn [w3 host set_mem]. congruence.
  - split; [exact Hw3|]. split; [exact He|]. split; [|cbn [w3 gnext set_mem]; lia]. rewrite W3 by (change (Z.of_nat 32) with 32; lia). rewrite <- S1. apply Fl. unfold scratch, within. lia.
  - rewrite <- Ab1. unfold abort_flag. apply W3. lia.
  - rewrite W3b by lia. exact Lo.
  - rewrite W3b by lia. unfold id. apply load_be_ext. intros i Hi. apply F7. unfold scratch, within. lia.
  - intros o'. destruct o'; cbn [resq]; try tauto. intros (x&->&Qx). ws. exact Qx.
Qed.

Lemma holder_in : forall h os id o, holder h os id = Some o -> In o os /\ stored h o id <> 0.
Proof.
  unfold holder. intros h os id o E. apply find_some in E. destruct E as (I&N). split; [exact I|]. destruct (Z.eqb_spec (stored h o id) 0); [discriminate|assumption].
Qed.

Lemma take_call : forall ep ld kind (imm : bool) w r (Q : list Z -> world -> Prop) (T : Prop), wok w -> statics w -> abort_flag w = 0 -> live w r 32 -> (oom w 32 -> T) ->
  (forall w1, extends (set_gcd w (r + 32)) w1 -> gnext w1 = gnext w + 32 -> load_be 32 (mem w1) (gnext w) = load_be 32 (mem w) r -> statics w1 -> abort_flag w1 = 0 ->
    wpf (unpack_storage_with ep ld kind) (gnext w :: match kind with None => [if imm then 1 else 0] | Some _ => [] end) w1
      (resq (fun rs w' => exists x, rs = [x] /\ wok w' /\ (if abort_flag w' =? 0 then Q [x] w' else Q [BADF00D] w')) T)) ->
  wpf (take_with ep ld kind imm) [r] w (resq Q T).
Proof.
  intros ep ld kind imm w r Q T Hw St Ab Lr Ho K. pose proof Hw as (P1&P2&P3&P4&P5&P6).
  apply wpf_intro; [reflexivity|]. wc. ws1. eapply wp_call_spec; [reflexivity|cbn [List.length]; lia|wc; apply unpack_address_spec; [exact Hw|exact Lr]|exact Ho|].
  intros rs w1 (->&Ex&Gn&Lb). wc. pose proof Ex as (E1&E2&E3&E4&E5&E6&E7). change (gnext (set_gcd w (r + 32))) with (gnext w) in *.
  assert (St1 : statics w1).
  { destruct St as (S0&S1&S2&S3&S4). unfold statics.
    assert (B : forall a, 0 <= a -> a + 32 <= 468 -> load_be 32 (mem w1) a = load_be 32 (mem w) a) .
    { intros a A1 A2. apply load_be_ext. intros i Hi. change (Z.of_nat 32) with 32 in Hi. apply E7. cbn [gnext set_gcd]. lia. }
    assert (B' : load 32 (mem w1) 32 = load 32 (mem w) 32).
    { apply load_ext. intros i Hi. change (Z.of_nat 32) with 32 in Hi. apply E7. cbn [gnext set_gcd]. lia. }
    rewrite B'. rewrite (B 0), (B 96), (B 160), (B 192) by lia. tauto. }
  assert (Ab1 : abort_flag w1 = 0).
  { rewrite <- Ab. unfold abort_flag. apply load_ext; intros i Hi; change (Z.of_nat 4) with 4 in Hi. apply E7; cbn [gnext set_gcd]; lia. }
  specialize (K w1 Ex Gn Lb St1 Ab1).
  assert (F : forall vs w', (exists x, vs = [x] /\ wok w' /\ (if abort_flag w' =? 0 then Q [x] w' else Q [BADF00D] w')) -> wp (propagate true) (fret 1 Q T) (vs ++ []) [r] w').
  { intros vs w' (x&->&Hw'&HQ). rewrite <- (app_nil_r (propagate true)). destruct (Z.eqb_spec (abort_flag w') 0).
    - apply wp_propagate_ok; try assumption. ws. exact HQ.
    - apply wp_propagate_err; try assumption. }
  destruct kind as [kd|]; cbn [app].
  - eapply wp_call_spec; [reflexivity|cbn [List.length take_params]; lia|exact K|auto|]. intros vs w' HQ. apply F. exact HQ.
  - ws1. eapply wp_call_spec; [reflexivity|cbn [List.length take_params]; lia|cbn [take_params firstn rev app]; exact K|auto|]. intros vs w' HQ. apply F. exact HQ.
Qed.

(** Reading an object argument. *)
Lemma take_ok : forall ep h fs kind imm w r vs o, wok w -> errtab_ok ep -> statics w -> abort_flag w = 0 -> live w r 32 ->
  let H := keccak (host w) in let st := stor (host w) in let id := load_be 32 (mem w) r in let k := slot_of (host w) o id in
  holder (host w) (searched (host w) kind imm) id = Some o -> 0 <= h < 2 ^ 64 -> inspect (bswap 8 h) (st k) = Present ->
  legible H fs vs k -> helds H st fs vs (k, 8) -> Forall (fun a => snd a < 2 ^ 256) (slots H fs vs (k, 8)) -> object_memory fs vs < 2 ^ 31 ->
  wpf (take_object ep h fs kind imm) [r] w (resq (fun rs w' => exists x F, rs = [x] /\ host w' = host w /\ abort_flag w' = 0 /\ gcd w' = r + 32 /\
     grows take_mem (set_gcd w (r + 32)) w' /\ object_at (mem w') fs o id vs x F /\ sub F (heap w'))
   (ctrap w (existsb narrow fs) (64 + object_memory fs vs))).
Proof.
  intros ep h fs kind imm w r vs o Hw He St Ab Lr H st id k Hd Hh In Pl Hs Sl Mm. pose proof Hw as (P1&P2&P3&P4&P5&P6).
  assert (Om : 0 <= object_memory fs vs) by (unfold object_memory; pose proof (memory_fors_nonneg fs vs); lia).
  apply take_call; try assumption.
  { intros O. left. eapply oom_mono; [exact O|lia]. }
  intros w1 Ex Gn Lb St1 Ab1. fold id in Lb. pose proof Ex as (E1&E2&E3&E4&E5&E6&E7). change (gnext (set_gcd w (r + 32))) with (gnext w) in *. change (host (set_gcd w (r + 32))) with (host w) in *. change (maxpages (set_gcd w (r + 32))) with (maxpages w) in *. change (gcd (set_gcd w (r + 32))) with (r + 32) in *.
  pose proof E1 as (A1&A2&A3&A4&A5&A6).
  eapply take_start; [reflexivity|..]; try assumption; try lia.
  - intros O. left. unfold oom in *. lia.
  - intros w' C. rewrite E6, Lb in C. fold id in C. congruence.
  - rewrite E6, Lb. intros o' w3 po C G3 H3 R3 Ab3 N3 K3 Po1 Po2 Lo Lu. rewrite Hd in C. injection C as <-.
    pose proof R3 as (Hw3&_). pose proof Hw3 as (B1&B2&B3&B4&B5&B6). assert (M3 : maxpages w3 = maxpages w1) by apply G3.
    eapply wpf_conseq; [eapply (load_ok ep h fs w3 (gnext w1) (gnext w) po k vs); try assumption; rewrite ?H3, ?E6; try assumption; lia|].
    intros oo. destruct oo as [rs w4| | |]; cbn [resq]; try tauto.
    + intros (x&F&->&Se&G4&Ob&SF). exists x. split; [reflexivity|]. exists x. split; [reflexivity|]. rewrite Lo, Lu in Ob. destruct Se as (Gr&Eh). split; [apply Gr|].
      assert (G14 : grows take_mem w1 w4).
      { apply (grows_mono (fun y => take_mem y \/ gnext w1 <= y)); [|intros y Hy [X|X]; [exact X|lia]].
        eapply grows_trans; [eapply grows_mono; [exact G3|auto]|]. eapply grows_mono; [exact Gr|]. intros y Hy. unfold slot_mem, take_mem, scratch, within. lia. }
      assert (Ab4 : abort_flag w4 = 0).
      { rewrite <- Ab1. unfold abort_flag. apply load_ext. intros j Hj. change (Z.of_nat 4) with 4 in Hj. apply G14; [lia|]. unfold take_mem, scratch, within. lia. }
      rewrite Ab4. exists x, F. split; [reflexivity|]. split; [congruence|]. split; [reflexivity|]. split; [|split; [|split; [exact Ob|]]].
      * assert (gcd w4 = gcd w1) by apply G14. lia.
      * eapply grows_trans; [apply grows_extends; exact Ex|exact G14].
      * intros y Hy. apply SF in Hy. assert (gnext w3 <= gnext w4) by apply Gr. unfold heap, union, between in *. lia.
    + intros [O|(N&y&Y1&Y2)]; [left; unfold oom in *; lia|right; split; [exact N|]]. exists y. lia.
Qed.

(** Refusing an object argument. *)
Lemma take_err : forall ep h fs kind imm w r e, wok w -> errtab_ok ep -> statics w -> abort_flag w = 0 -> live w r 32 ->
  let st := stor (host w) in let id := load_be 32 (mem w) r in 0 <= h < 2 ^ 64 ->
  match holder (host w) (searched (host w) kind imm) id with
  | None => e = StorageObjectNotFound
  | Some o => inspect (bswap 8 h) (st (slot_of (host w) o id)) = Other_type /\ e = StorageObjectTypeMismatch
  end ->
  wpf (take_object ep h fs kind imm) [r] w (resq (fun rs w' => rs = [BADF00D] /\ abort_flag w' = ep e /\ host w' = host w) (oom w 96)).
Proof.
  intros ep h fs kind imm w r e Hw He St Ab Lr st id Hh C. pose proof Hw as (P1&P2&P3&P4&P5&P6).
  apply take_call; try assumption.
  { intros O. eapply oom_mono; [exact O|lia]. }
  intros w1 Ex Gn Lb St1 Ab1. fold id in Lb. pose proof Ex as (E1&E2&E3&E4&E5&E6&E7). change (gnext (set_gcd w (r + 32))) with (gnext w) in *. change (host (set_gcd w (r + 32))) with (host w) in *. change (maxpages (set_gcd w (r + 32))) with (maxpages w) in *. change (gcd (set_gcd w (r + 32))) with (r + 32) in *.
  assert (Nz : ep e <> 0) by (specialize (He e); lia).
  eapply take_start; [reflexivity|..]; try assumption; try lia.
  - unfold oom. lia.
  - rewrite E6, Lb. intros w' D Hw' Af Eh. rewrite D in C. subst e. exists BADF00D. split; [reflexivity|]. split; [exact Hw'|]. rewrite Af. destruct (Z.eqb_spec (ep StorageObjectNotFound) 0); [contradiction|]. tauto.
  - rewrite E6, Lb. intros o' w3 po D G3 H3 R3 Ab3 N3 K3 Po1 Po2 Lo Lu. rewrite D in C. destruct C as (In&->).
    pose proof R3 as (Hw3&_). pose proof Hw3 as (B1&B2&B3&B4&B5&B6). assert (M3 : maxpages w3 = maxpages w1) by apply G3.
    eapply wpf_conseq; [eapply (load_err ep h fs w3 (gnext w1) (gnext w) po (slot_of (host w) o' id)); try assumption; rewrite ?H3, ?E6; try assumption; try lia; right; rewrite <- In; reflexivity|].
    intros oo. destruct oo as [rs w4| | |]; cbn [resq]; try tauto.
    + intros (->&w2&Se&Fr&Af). exists BADF00D. split; [reflexivity|]. exists BADF00D. split; [reflexivity|]. split; [|].
      * eapply wok_frame; [apply Se|exact Fr|]. intros a X. assert (468 <= gnext w2) by apply Se. unfold within in X. lia.
      * rewrite Af. destruct (Z.eqb_spec (ep StorageObjectTypeMismatch) 0); [contradiction|]. split; [reflexivity|]. split; [reflexivity|].
        transitivity (host w2); [apply Fr|]. transitivity (host w3); [apply Se|congruence].
    + unfold oom. lia.
Qed.
