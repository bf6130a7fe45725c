(** * Clearing the former places of objects that have been put into other objects: runtime/storage.rs 1032-1313, 1618-1708. *)

From Verif Require Import Tac RtAlloc RtErr RtInt RtInt2 RtEq RtMul RtDiv RtShift RtSwap RtAscii RtCopy RtCopy2 Ops SpecAbi LemAbi SpecVal LemVal SpecStor SpecLayout RtStor LemStor RtEnumPos RtStore LemStore RtSave RtLoad RtLoadObj LemPlace LemObj RtChild LemDelete RtDelete SpecMove RtTransfer RtCache LemMove SpecWrap RtWrap SpecTto.
Ltac Zify.zify_post_hook ::= idtac.

(** runtime/storage.rs 1241-1313 [add_delete_tto_object_fn] for a child with [key] and the fields [fs] after its id; an
    object among them is a 32-byte field for deletion (storage/common.rs 299-327).  Locals: 0 parent_struct_ptr,
    1 child_struct_ptr, 2 child_struct_owner_ptr. *)
Definition delete_inner (ep : errtab) (fs : list shape) : func := Func 2 1 0
 [ Block "block" 0
     [ LocalGet 1; Call get_struct_owner; LocalSet 2;
       LocalGet 2; Const 32; Call is_zero; BrIf "block";
       LocalGet 0; Call get_id_bytes_ptr; LocalGet 2; Const 32; Call a_equals_b; BrIf "block";
       LocalGet 1; Call (delete_object ep (map slot_ty fs)) ] ].

(** runtime/storage.rs 1059-1234 [add_check_and_delete_struct_tto_fields_fn] for an object (whose first field is its id) or a
    struct without [key]; for fields without objects inside see [check_tto].  Locals as there.  For a child without
    [key], [add_delete_tto_object_fn] has an empty body. *)
Fixpoint check_shape (ep : errtab) (s : shape) : func :=
  let go := fix go (fs : list shape) (off : Z) : list instr :=
    match fs with
    | [] => []
    | f :: fs' =>
        match f with
        | Value t => check_tto_fields ep [t] off
        | Object _ gs =>
            [ LocalGet 0; Load 4 off; LocalSet 1;
              LocalGet 1; Call (check_shape ep f);
              LocalGet 0; LocalGet 1; Call (delete_inner ep gs) ]
        | Group _ =>
            [ LocalGet 0; Load 4 off; LocalSet 1;
              LocalGet 1; Call (check_shape ep f);
              LocalGet 0; LocalGet 1; Call (Func 2 1 0 []) ]
        end ++ go fs' (off + 4)
    end in
  match s with
  | Value t => check_tto ep t
  | Object _ fs => Func 1 5 0 (check_tto_fields ep [uid_ty] 0 ++ go fs 4)
  | Group fs => Func 1 5 0 (go fs 0)
  end.
(** The same for an object with the fields [fs]. *)
Definition check_tree (ep : errtab) (fs : list shape) : func := check_shape ep (Object 0 fs).

Definition check_field (ep : errtab) (f : shape) (off : Z) : list instr :=
  match f with
  | Value t => check_tto_fields ep [t] off
  | Object _ gs =>
      [ LocalGet 0; Load 4 off; LocalSet 1;
        LocalGet 1; Call (check_shape ep f);
        LocalGet 0; LocalGet 1; Call (delete_inner ep gs) ]
  | Group _ =>
      [ LocalGet 0; Load 4 off; LocalSet 1;
        LocalGet 1; Call (check_shape ep f);
        LocalGet 0; LocalGet 1; Call (Func 2 1 0 []) ]
  end.
Fixpoint check_fields (ep : errtab) (fs : list shape) (off : Z) : list instr :=
  match fs with [] => [] | f :: fs' => check_field ep f off ++ check_fields ep fs' (off + 4) end.

Lemma check_shape_object : forall ep h fs, check_shape ep (Object h fs) = Func 1 5 0 (check_tto_fields ep [uid_ty] 0 ++ check_fields ep fs 4).
Proof.
  intros ep h fs. cbn [check_shape]. do 2 f_equal.
  match goal with |- ?f _ _ = _ => enough (E : forall o, f fs o = check_fields ep fs o) by apply E end. induction fs as [|f fs IH]; intros off; [reflexivity|].
  cbn [check_fields]. rewrite <- IH. destruct f; reflexivity.
Qed.
(** For an object without objects inside, this is the function of RtTransfer.v. *)
Lemma check_tree_flat : forall ep fs, check_tree ep (map Value fs) = check_tto ep (TStruct true (uid_ty :: fs)).
Proof.
  intros ep fs. unfold check_tree. rewrite check_shape_object, check_tto_struct. f_equal. cbn [check_tto_fields app uid_ty]. fold (check_tto_fields ep).
  do 8 f_equal. change (0 + 4) with 4. enough (E : forall o, check_fields ep (map Value fs) o = check_tto_fields ep fs o) by apply E. induction fs as [|f fs IH]; intros off; [reflexivity|]. cbn [map check_fields check_field]. rewrite IH. cbn [check_tto_fields]. fold (check_tto_fields ep). rewrite app_nil_r. reflexivity.
Qed.

(** ** What is changed *)

Definition tto_mem (F : mset) : mset := fun y => slot_mem 128 y \/ within 404 64 y \/ F y.

Definition cleared (w w' : world) (F : mset) (C : list (Z * Z)) (n : Z) : Prop :=
  grows (tto_mem F) w w' /\ gnext w' <= gnext w + n /\
  (forall y, covers C y -> stor (host w') y = 0) /\ (forall y, ~ covers C y -> stor (host w') y = stor (host w) y).

Lemma cleared_refl : forall w F, wok w -> cleared w w F [] 0.
Proof. intros w F Hw. split; [apply grows_refl; exact Hw|]. split; [lia|]. split; [intros y (a&[]&_)|reflexivity]. Qed.
Lemma cleared_trans : forall w w1 w2 F C1 C2 n1 n2, cleared w w1 F C1 n1 -> cleared w1 w2 F C2 n2 -> cleared w w2 F (C1 ++ C2) (n1 + n2).
Proof.
  intros w w1 w2 F C1 C2 n1 n2 (A1&A2&A3&A4) (B1&B2&B3&B4). split; [eapply grows_trans; eassumption|]. split; [lia|]. split; intros y Hy.
  - destruct (covers_dec C2 y) as [Y|Y]; [auto|]. rewrite B4 by exact Y. apply A3. apply covers_app in Hy. tauto.
  - rewrite covers_app in Hy. rewrite B4, A4 by tauto. reflexivity.
Qed.
Lemma cleared_mono : forall w w' (F F' : mset) C n, cleared w w' F C n -> sub F F' -> cleared w w' F' C n.
Proof.
  intros w w' F F' C n (A&B) S. split; [|exact B]. eapply grows_mono; [exact A|]. intros y _ [Y|[Y|Y]]; unfold tto_mem; auto.
Qed.

Lemma agree_tto : forall w w' F I, grows (tto_mem F) w w' -> sub I (heap w) -> disj I F -> agree (mem w) (mem w') I.
Proof.
  intros w w' F I (_&_&_&_&_&_&G) S D y Hy. pose proof (S y Hy) as B. unfold heap, between in B. apply G; [lia|]. intros [Y|[Y|Y]]; [unfold slot_mem, within in Y; lia|unfold within in Y; lia|exact (D y Hy Y)].
Qed.
Lemma statics_tto : forall w w' F, statics w -> wok w -> sub F (heap w) -> grows (tto_mem F) w w' -> statics w'.
Proof.
  intros w w' F (S0&S1&S2&S3&S4) Hw SF G. pose proof Hw as (P1&P2&P3&P4&P5&P6).
  assert (N : forall a n, 0 <= a -> a + Z.of_nat n <= 64 \/ 96 <= a /\ a + Z.of_nat n <= 128 \/ 160 <= a /\ a + Z.of_nat n <= 260 -> forall y, a <= y < a + Z.of_nat n -> ~ tto_mem F y).
  { intros a n Ha B y Hy [D|[D|D]]; [unfold slot_mem, within in D; lia|unfold within in D; lia|]. apply SF in D. unfold heap, between in D. lia. }
  unfold statics. split; [|split; [|split; [|split]]];
    [transitivity (load_be 32 (mem w) 0)|transitivity (load 32 (mem w) 32)|transitivity (load_be 32 (mem w) 96)|transitivity (load_be 32 (mem w) 160)|transitivity (load_be 32 (mem w) 192)];
    try assumption; first [eapply load_grows|eapply load_be_grows]; try exact G; try lia; apply N; lia.
Qed.

(** The id of the object at [x]; [I]: memory that has its cells. *)
Definition id_at (m : memory) (x id : Z) (I : mset) : Prop :=
  exists a b c, load 4 m x = a /\ load 4 m a = b /\ load 4 m b = c /\ load_be 32 m c = id /\
    sub (between x (x + 4)) I /\ sub (between a (a + 4)) I /\ sub (between b (b + 4)) I /\ sub (between c (c + 32)) I.
Lemma id_ext : forall (m m' : memory) x id I, agree m m' I -> id_at m x id I -> id_at m' x id I.
Proof.
  intros m m' x id I A (a&b&c&La&Lb&Lc&Li&Sx&Sa&Sb&Sc). exists a, b, c.
  split; [rewrite <- La; eapply load4_sub; eassumption|]. split; [rewrite <- Lb; eapply load4_sub; eassumption|]. split; [rewrite <- Lc; eapply load4_sub; eassumption|].
  split; [rewrite <- Li; apply load_be_ext; intros i Hi; apply A, Sc; unfold between; lia|]. auto.
Qed.

(** ** The places of several objects *)

Lemma formers_app : forall H l1 l2 u1 u2, List.length l1 = List.length u1 -> formers H (l1 ++ l2) (u1 ++ u2) = formers H l1 u1 ++ formers H l2 u2.
Proof. intros H l1. induction l1 as [|a l1 IH]; intros l2 [|u u1] u2 E; try discriminate; [reflexivity|]. cbn [formers app]. rewrite IH by (cbn in E; lia). apply app_assoc. Qed.
Lemma separate_parts : forall A B, separate (A ++ B) -> separate A /\ separate B /\ (forall y, covers A y -> covers B y -> False).
Proof.
  induction A as [|a A IH]; intros B S; cbn [app] in S.
  - split; [split; constructor|]. split; [exact S|]. intros y (b&[]&_).
  - destruct S as (S1&S2). inversion S1 as [|? ? E1 E2]; subst. inversion S2 as [|? ? E3 E4]; subst. destruct (IH B (conj E2 E4)) as ((I1&I2)&I3&I4). rewrite Forall_app in E1. destruct E1 as (E1a&E1b). split; [split; constructor; assumption|]. split; [exact I3|].
    intros y Ya Yb. destruct Ya as (r&[<-|Hr]&Yr); [|exact (I4 y (ex_intro _ r (conj Hr Yr)) Yb)]. destruct Yb as (q&Hq&Yq). rewrite Forall_forall in E1b. specialize (E1b q Hq). unfold apart in E1b. lia.
Qed.

Definition weigh (uss : list (list val)) : Z := fold_right (fun us c => costs us + c) 0 uss.
Lemma weigh_nonneg : forall uss, 0 <= weigh uss.
Proof. induction uss; cbn [weigh fold_right]; [lia|]. fold (weigh uss). pose proof (costs_nonneg a). lia. Qed.
Lemma weigh_app : forall u1 u2, weigh (u1 ++ u2) = weigh u1 + weigh u2.
Proof. induction u1; intros; cbn [app weigh fold_right]; [reflexivity|]. fold (weigh (u1 ++ u2)) (weigh u1). rewrite IHu1. lia. Qed.

Lemma was_there_kept : forall H st st' l uss, Forall2 (was_there H st) l uss -> (forall y, covers (formers H l uss) y -> st' y = st y) -> Forall2 (was_there H st') l uss.
Proof.
  intros H st st' l uss F. induction F as [|((ts&o)&id) us l uss (W1&W2&W3&W4) F IH]; intros A; constructor.
  - split; [exact W1|]. split; [exact W2|]. split; [exact W3|]. apply (helds_same H ts us (home H o id) st st'); [exact W3| |exact W4]. intros y Hy. symmetry. apply A. cbn [formers former]. apply covers_app. auto.
  - apply IH. intros y Hy. apply A. cbn [formers]. apply covers_app. auto.
Qed.

(** ** One object *)

Lemma tree_reown : forall (m m' : memory) fs o o' id vs x (F : mset), tree_at m fs o id vs x F ->
  (forall y, F y -> ~ within (x - 32) 32 y -> rd m' y = rd m y) -> load_be 32 m' (x - 32) = o' -> tree_at m' fs o' id vs x F.
Proof.
  intros m m' fs o o' id vs x F (a&b&c&G&La&Lb&Lc&Li&Lo&Sx&Sa&Sb&Sc&SG&DJ&DG&Fl) A Eo.
  set (n := Z.of_nat (List.length fs)) in *. assert (Hn : 0 <= n) by (unfold n; lia).
  assert (R : forall p k, sub (between p (p + k)) F -> (forall y, p <= y < p + k -> ~ within (x - 32) 32 y) -> forall y, p <= y < p + k -> rd m' y = rd m y).
  { intros p k S N y Hy. apply A; [apply S; unfold between; lia|apply N; lia]. }
  assert (N : forall p k, (forall y, between p (p + k) y -> union G (union (between a (a + 4)) (union (between b (b + 4)) (between c (c + 32)))) y) -> forall y, p <= y < p + k -> ~ within (x - 32) 32 y).
  { intros p k S y Hy W. apply (DJ y); [unfold within, between in *; lia|apply S; unfold between; lia]. }
  exists a, b, c, G. fold n.
  split; [rewrite <- La; apply load_ext; intros i Hi; apply (R x 4); [intros y Hy; apply Sx; unfold between in *; lia|unfold within; intros; lia|lia]|].
  split; [rewrite <- Lb; apply load_ext; intros i Hi; apply (R a 4); [exact Sa|apply N; intros y Hy; right; left; exact Hy|lia]|].
  split; [rewrite <- Lc; apply load_ext; intros i Hi; apply (R b 4); [exact Sb|apply N; intros y Hy; right; right; left; exact Hy|lia]|].
  split; [rewrite <- Li; apply load_be_ext; intros i Hi; apply (R c 32); [exact Sc|apply N; intros y Hy; right; right; right; exact Hy|lia]|].
  split; [exact Eo|]. do 7 (split; [assumption|]).
  apply (shape_ext_fields fs m m' G vs (x + 4)); [apply Forall_forall; intros s _; apply shape_ext| | |exact Fl].
  - intros y Hy. apply A; [apply SG; exact Hy|]. intros W. apply (DJ y); [unfold within, between in *; lia|left; exact Hy].
  - intros y Hy. apply A; [apply Sx; unfold between; lia|unfold within; lia].
Qed.

Lemma tree_placed : forall w fs owner id vs x F, tree_at (mem w) fs owner id vs x F -> sub F (heap w) -> placed_at w x owner id.
Proof.
  intros w fs owner id vs x F (a&b&c&G&La&Lb&Lc&Li&Lo&Sx&Sa&Sb&Sc&_) SF. unfold placed_at.
  destruct (heap_block F w (x - 32) (36 + 4 * Z.of_nat (List.length fs)) SF) as (X1&X2); [replace (x - 32 + (36 + 4 * Z.of_nat (List.length fs))) with (x + 4 + 4 * Z.of_nat (List.length fs)) by lia; exact Sx|lia|].
  destruct (heap_block F w a 4 SF Sa) as (A1&A2); [lia|]. destruct (heap_block F w b 4 SF Sb) as (B1&B2); [lia|]. destruct (heap_block F w c 32 SF Sc) as (C1&C2); [lia|].
  split; [lia|]. split; [lia|]. split; [exact Lo|]. cbv zeta. rewrite La, Lb, Lc. auto 10.
Qed.

Lemma id_cells : forall w x id J, id_at (mem w) x id J -> sub J (heap w) -> 468 <= x /\ x + 4 <= gnext w /\ (let a := load 4 (mem w) x in 468 <= a /\ a + 4 <= gnext w /\
   let b := load 4 (mem w) a in 468 <= b /\ b + 4 <= gnext w /\ let c := load 4 (mem w) b in 468 <= c /\ c + 32 <= gnext w /\ load_be 32 (mem w) c = id).
Proof.
  intros w x id J (a&b&c&La&Lb&Lc&Li&Sx&Sa&Sb&Sc) SJ. destruct (heap_block J w x 4 SJ Sx) as (X1&X2); [lia|].
  destruct (heap_block J w a 4 SJ Sa) as (A1&A2); [lia|]. destruct (heap_block J w b 4 SJ Sb) as (B1&B2); [lia|]. destruct (heap_block J w c 32 SJ Sc) as (C1&C2); [lia|].
  cbv zeta. rewrite La, Lb, Lc. auto 10.
Qed.

(** The object [x], which is inside the object [parent] at [xp]: if it comes from another place, it is deleted there. *)
Lemma delete_inner_spec : forall ep fs w xp x o id vs F parent J uss, wok w -> errtab_ok ep -> statics w ->
  tree_at (mem w) fs o id vs x F -> sub F (heap w) -> id_at (mem w) xp parent J -> sub J (heap w) ->
  let H := keccak (host w) in let l := if (o =? 0) || (o =? parent) then [] else [(map slot_ty fs, o, id)] in
  Forall2 (was_there H (stor (host w))) l uss -> separate (formers H l uss) ->
  wpf (delete_inner ep fs) [xp; x] w (resq (fun r w' => r = [] /\ cleared w w' F (formers H l uss) (weigh uss) /\
     tree_at (mem w') fs (if o =? parent then o else 0) id vs x F) (nomem w (weigh uss))).
Proof.
  intros ep fs w xp x o id vs F parent J uss Hw He St Tr SF Id SJ H l Was Se. pose proof Hw as (P1&P2&P3&P4&P5&P6).
  pose proof (tree_placed w fs o id vs x F Tr SF) as Pt. pose proof Pt as (X1&X2&Lo&_). destruct (id_cells w xp parent J Id SJ) as (Y1&Y2&Y3&Y4&Y5&Y6&Y7&Y8&Y9).
  apply wpf_intro; [reflexivity|]. wc. apply wp_block. ws1. eapply wp_call; [reflexivity|cbn [List.length]; lia|]. wc. eapply returns_wpf; [apply owner_spec; lia|]. wc.
  ws1. ws1. ws1. eapply wp_call; [reflexivity|cbn [List.length]; lia|]. wc. eapply returns_wpf; [apply is_zero_be; [exact Hw|unfold live; lia]|]. wc. rewrite Lo.
  assert (Stay : l = [] -> (if o =? parent then o else 0) = o -> @nil Z = [] /\ cleared w w F (formers H l uss) (weigh uss) /\ tree_at (mem w) fs (if o =? parent then o else 0) id vs x F).
  { intros El Eo. rewrite Eo. rewrite El in *. destruct uss as [|us uss]; [|inversion Was]. split; [reflexivity|]. split; [apply cleared_refl; exact Hw|exact Tr]. }
  assert (Lz : o = 0 -> l = []) by (intros ->; reflexivity). assert (Lp : o = parent -> l = []) by (intros ->; unfold l; rewrite Z.eqb_refl, orb_true_r; reflexivity).
  assert (Ln : o <> 0 -> o <> parent -> l = [(map slot_ty fs, o, id)]) by (intros A B; unfold l; rewrite (proj2 (Z.eqb_neq _ _) A), (proj2 (Z.eqb_neq _ _) B); reflexivity). clearbody l.
  apply wp_brif; intros C; unb C; wc.
  { destruct (Z.eqb_spec o 0) as [E|E]; [|discriminate]. ws1. apply Stay; [auto|]. destruct (o =? parent); [reflexivity|symmetry; exact E]. }
  destruct (Z.eqb_spec o 0) as [E|E]; [discriminate|]. clear C.
  ws1. eapply wp_call; [reflexivity|cbn [List.length]; lia|]. wc. apply wpf_intro; [reflexivity|]. wc. ws1. ws1. ws1. ws1. ws1. ws1. ws1.
  eapply wp_call; [reflexivity|cbn [List.length]; lia|]. wc. eapply returns_wpf; [apply (a_equals_b_spec 32); [exact Hw|unfold live; lia|unfold live; lia]|]. wc. rewrite eqb_be, Y9, Lo.
  apply wp_brif; intros C; unb C; wc.
  { destruct (Z.eqb_spec parent o) as [E1|E1]; [|discriminate]. ws1. apply Stay; [auto|]. rewrite <- E1, Z.eqb_refl. reflexivity. }
  destruct (Z.eqb_spec parent o) as [E1|E1]; [discriminate|]. clear C.
  assert (El : l = [(map slot_ty fs, o, id)]) by (apply Ln; congruence).
  rewrite (proj2 (Z.eqb_neq o parent)) by congruence. clear Stay Lz Lp Ln. rewrite El in Was, Se |- *. clear El l.
  destruct uss as [|us [|us2 uss]]; [inversion Was| |inversion Was as [|? ? ? ? _ W']; inversion W'].
  assert (W : was_there H (stor (host w)) (map slot_ty fs, o, id) us) by (inversion Was; assumption). clear Was. destruct W as (W1&W2&W3&W4).
  cbn [formers former weigh fold_right] in *. rewrite app_nil_r in *. fold H in Se. rewrite Z.add_0_r.
  ws1. eapply wp_call_spec; [reflexivity|cbn [List.length]; lia| | |].
  - wc. eapply (delete_object_spec ep (map slot_ty fs) w x o id us); try assumption. destruct (kept_shapes H (stor (host w)) (map slot_ty fs) us o (home H o id)) as (_&_&Sh); [|exact E|exact Sh]. intros _. split; [exact W3|]. split; [exact W4|exact Se].
  - intros N. exact N.
  - intros rs w1 (->&G1&N1&Z1&C1&C2). wc. apply wp_nil. wc. ws1. split; [reflexivity|].
    assert (Sx : forall y, within (x - 32) 32 y -> F y).
    { intros y Hy. destruct Tr as (a&b&c&G&_&_&_&_&_&Sx&_). apply Sx. unfold within, between in *. lia. }
    split.
    + split; [|split; [exact N1|split; [exact C1|exact C2]]]. eapply grows_mono; [exact G1|]. intros y _ [Y|[Y|Y]]; unfold tto_mem; auto.
    + eapply tree_reown; [exact Tr| |exact Z1]. intros y Hy Ny. pose proof (SF y Hy) as B. unfold heap, between in B. destruct G1 as (_&_&_&_&_&_&G1). apply G1; [lia|].
      unfold del_mem, slot_mem, within in *. lia.
Qed.

(** ** All objects inside *)

Lemma uid_quiet : forall ep w x id J l1 l2 l3 l4 l5 r (Q : outcome -> Prop) s, wok w -> id_at (mem w) x id J -> sub J (heap w) ->
  (forall l1, wp r Q s [x; l1; l2; l3; l4; l5] w) -> wp (check_tto_fields ep [uid_ty] 0 ++ r) Q s [x; l1; l2; l3; l4; l5] w.
Proof.
  intros ep w x id J l1 l2 l3 l4 l5 r Q s Hw Id SJ K. pose proof Hw as (P1&P2&P3&P4&P5&P6). destruct (id_cells w x id J Id SJ) as (Y1&Y2&Y3&Y4&Y5&Y6&_).
  assert (RI : forall ep' b, returns (check_tto ep' (TStruct false [TAddress])) [b] w [] w).
  { intros ep' b. apply RtDelete.returns_intro. rewrite check_tto_struct. apply wpf_intro; [reflexivity|]. wc. cbn [check_tto_fields app]. ws1. auto. }
  assert (RU : returns (check_tto ep uid_ty) [load 4 (mem w) x] w [] w).
  { apply RtDelete.returns_intro. unfold uid_ty. rewrite check_tto_struct. apply wpf_intro; [reflexivity|]. wc. cbn [check_tto_fields app].
    ws1. ws1. ws1. ws1. eapply wp_call; [reflexivity|cbn [List.length]; lia|]. wc. eapply returns_wpf; [apply RI|]. wc. ws1. ws1. apply quiet_call2. ws1. auto. }
  cbn [check_tto_fields app uid_ty]. fold (check_tto_fields ep). fold uid_ty. ws1. ws1. ws1. ws1.
  eapply wp_call; [reflexivity|cbn [List.length]; lia|]. wc. eapply returns_wpf; [exact RU|]. wc. ws1. ws1. unfold uid_ty. apply quiet_call2. apply K.
Qed.

Definition clears (s : shape) : Prop := forall ep w xp off v F J parent uss l1 l2 l3 l4 l5 r (Q : outcome -> Prop) st,
  wok w -> errtab_ok ep -> statics w -> direct s = true -> 0 <= off ->
  shape_at (mem w) s v (load 4 (mem w) (xp + off)) F -> sub F (heap w) ->
  id_at (mem w) xp parent J -> sub (between (xp + off) (xp + off + 4)) J -> sub J (heap w) -> disj J F ->
  let H := keccak (host w) in let C := formers H (arrivals s parent v) uss in
  Forall2 (was_there H (stor (host w))) (arrivals s parent v) uss -> separate C ->
  (nomem w (weigh uss) -> Q OTrap) ->
  (forall w' l1 l2 l3 l4 l5, cleared w w' F C (weigh uss) -> shape_at (mem w') s (settled s parent v) (load 4 (mem w) (xp + off)) F -> wp r Q st [xp; l1; l2; l3; l4; l5] w') ->
  wp (check_field ep s off ++ r) Q st [xp; l1; l2; l3; l4; l5] w.

Lemma keccak_grows : forall M w w', grows M w w' -> keccak (host w') = keccak (host w).
Proof. intros M w w' (_&_&_&_&_&E&_). rewrite E. reflexivity. Qed.

Lemma cleared_next : forall w w1 F C1 C2 n1 n2, cleared w w1 F C1 n1 -> nomem w1 n2 -> 0 <= n1 -> C2 = C1 -> nomem w (n1 + n2).
Proof.
  intros w w1 F C1 C2 n1 n2 (G&N&_) (A&O) Hn _. destruct G as (_&G2&_). unfold nomem, oom in *. rewrite G2 in O. lia.
Qed.

Lemma clears_fields : forall fs, Forall clears fs -> forall ep w xp off vs G J parent uss l1 l2 l3 l4 l5 r (Q : outcome -> Prop) st,
  wok w -> errtab_ok ep -> statics w -> forallb direct fs = true -> 0 <= off ->
  fields (map (shape_at (mem w)) fs) (mem w) vs (xp + off) G -> sub G (heap w) ->
  id_at (mem w) xp parent J -> sub (between (xp + off) (xp + off + 4 * Z.of_nat (List.length fs))) J -> sub J (heap w) -> disj J G ->
  let H := keccak (host w) in let C := formers H (all_arrivals fs parent vs) uss in
  Forall2 (was_there H (stor (host w))) (all_arrivals fs parent vs) uss -> separate C ->
  (nomem w (weigh uss) -> Q OTrap) ->
  (forall w' l1 l2 l3 l4 l5, cleared w w' G C (weigh uss) -> fields (map (shape_at (mem w')) fs) (mem w') (all_settled fs parent vs) (xp + off) G -> wp r Q st [xp; l1; l2; l3; l4; l5] w') ->
  wp (check_fields ep fs off ++ r) Q st [xp; l1; l2; l3; l4; l5] w.
Proof.
  intros fs IH. induction IH as [|s fs Hs _ IHf]; intros ep w xp off vs G J parent uss l1 l2 l3 l4 l5 r Q st Hw He Stc Di Ho Fl SG Id Sp SJ DJ H C Was Se T K; destruct vs as [|v vs]; cbn [map fields] in Fl; try contradiction; cbn [check_fields].
  - cbn [all_arrivals map collect] in *. inversion Was; subst. apply K; [apply cleared_refl; exact Hw|exact Logic.I].
  - destruct Fl as (F1&F2&R1&R2&D12&S1&S2). cbn [forallb] in Di. apply andb_true_iff in Di. destruct Di as (Ds&Df). cbn [List.length] in Sp.
    unfold C, all_arrivals in *. cbn [map collect] in *. fold (all_arrivals fs parent vs) in *. apply Forall2_app_inv_l in Was. destruct Was as (u1&u2&W1&W2&->).
    rewrite formers_app in Se, K by (eapply F2_length; exact W1). apply separate_parts in Se. destruct Se as (Se1&Se2&Se3). rewrite weigh_app in T, K.
    pose proof (weigh_nonneg u1) as N1. pose proof (weigh_nonneg u2) as N2.
    rewrite <- app_assoc. eapply (Hs ep w xp off v F1 J parent u1); try assumption.
    + eapply sub_trans; eassumption.
    + intros y Hy. apply Sp. unfold between in *. lia.
    + intros y Y1 Y2. exact (DJ y Y1 (S1 y Y2)).
    + intros (A&O). apply T. unfold nomem, oom in *. lia.
    + intros w1 m1 m2 m3 m4 m5 Cl1 Sh1. pose proof Cl1 as (G1&Gn1&Cz1&Cs1). pose proof (keccak_grows _ _ _ G1) as EH. fold H in EH.
      assert (SJF : sub F1 (heap w)) by (eapply sub_trans; eassumption).
      assert (AJ : agree (mem w) (mem w1) J) by (apply (agree_tto w w1 F1); [exact G1|exact SJ|intros y Y1 Y2; exact (DJ y Y1 (S1 y Y2))]).
      assert (A2 : agree (mem w) (mem w1) F2) by (apply (agree_tto w w1 F1); [exact G1|eapply sub_trans; eassumption|intros y Y1 Y2; exact (D12 y Y2 Y1)]).
      assert (Fl1 : fields (map (shape_at (mem w1)) fs) (mem w1) vs (xp + (off + 4)) F2).
      { rewrite Z.add_assoc. apply (shape_ext_fields fs (mem w) (mem w1) F2 vs (xp + off + 4)); [apply Forall_forall; intros s' _; apply shape_ext|exact A2| |exact R2].
        intros y Hy. apply AJ, Sp. unfold between. lia. }
      eapply (IHf ep w1 xp (off + 4) vs F2 J parent u2); try assumption; try lia.
      * apply G1.
      * eapply statics_tto; eassumption.
      * eapply heap_grows; [exact G1|]. eapply sub_trans; eassumption.
      * eapply id_ext; eassumption.
      * intros y Hy. apply Sp. unfold between in *. lia.
      * eapply heap_grows; eassumption.
      * intros y Y1 Y2. exact (DJ y Y1 (S2 y Y2)).
      * rewrite EH. apply (was_there_kept H (stor (host w))); [exact W2|]. intros y Hy. apply Cs1. intros Y. exact (Se3 y Y Hy).
      * rewrite EH. exact Se2.
      * intros O. apply T. eapply cleared_next; [exact Cl1|exact O|exact N1|reflexivity].
      * rewrite EH. intros w2 k1 k2 k3 k4 k5 Cl2 Fl2. apply K.
        -- eapply cleared_trans; [eapply cleared_mono; [exact Cl1|exact S1]|eapply cleared_mono; [exact Cl2|exact S2]].
        -- unfold all_settled. cbn [map adopt_all fields]. fold (all_settled fs parent vs). pose proof Cl2 as (G2&_).
           assert (AJ2 : agree (mem w1) (mem w2) J) by (apply (agree_tto w1 w2 F2); [exact G2|eapply heap_grows; eassumption|intros y Y1 Y2; exact (DJ y Y1 (S2 y Y2))]).
           assert (E : load 4 (mem w2) (xp + off) = load 4 (mem w) (xp + off)).
           { transitivity (load 4 (mem w1) (xp + off)); [eapply (load4_sub (mem w1) (mem w2)); [exact AJ2|]|eapply (load4_sub (mem w) (mem w1)); [exact AJ|]]; intros y Hy; apply Sp; unfold between in *; lia. }
           exists F1, F2. rewrite E. split; [|split; [rewrite <- Z.add_assoc; exact Fl2|auto]].
           apply (shape_ext s (mem w1) (mem w2)); [|exact Sh1]. apply (agree_tto w1 w2 F2); [exact G2|eapply heap_grows; eassumption|exact D12].
Qed.

Lemma check_object_spec : forall h fs, Forall clears fs -> forall ep w x o id vs F uss, wok w -> errtab_ok ep -> statics w -> forallb direct fs = true ->
  tree_at (mem w) fs o id vs x F -> sub F (heap w) ->
  let H := keccak (host w) in let C := formers H (all_arrivals fs id vs) uss in
  Forall2 (was_there H (stor (host w))) (all_arrivals fs id vs) uss -> separate C ->
  wpf (check_shape ep (Object h fs)) [x] w (resq (fun r w' => r = [] /\ cleared w w' F C (weigh uss) /\ tree_at (mem w') fs o id (all_settled fs id vs) x F) (nomem w (weigh uss))).
Proof.
  intros h fs IH ep w x o id vs F uss Hw He Stc Di Tr SF H C Was Se. pose proof Tr as (a&b&c&G&La&Lb&Lc&Li&Lo&Sx&Sa&Sb&Sc&SG&DJ&DG&Fl).
  set (n := Z.of_nat (List.length fs)) in *. assert (Hn : 0 <= n) by (unfold n; lia).
  set (J := union (between (x - 32) (x + 4 + 4 * n)) (union (between a (a + 4)) (union (between b (b + 4)) (between c (c + 32))))).
  assert (SJ : sub J (heap w)) by (intros y [Y|[Y|[Y|Y]]]; apply SF; auto).
  assert (Id : id_at (mem w) x id J).
  { exists a, b, c. do 4 (split; [assumption|]). unfold J. repeat split; intros y Hy; [left; unfold between in *; lia|right; left; exact Hy|right; right; left; exact Hy|right; right; right; exact Hy]. }
  assert (DJG : disj J G) by (intros y [Y|Y] Z; [exact (DJ y Y (or_introl Z))|exact (DG y Z Y)]).
  rewrite check_shape_object. apply wpf_intro; [reflexivity|]. wc. eapply uid_quiet; [exact Hw|exact Id|exact SJ|]. intros l1. rewrite <- (app_nil_r (check_fields ep fs 4)).
  eapply (clears_fields fs IH ep w x 4 vs G J id uss); try assumption; try lia.
  - eapply sub_trans; eassumption.
  - intros y Hy. left. unfold between in *. fold n in Hy. lia.
  - intros N. exact N.
  - intros w' m1 m2 m3 m4 m5 Cl Fl'. apply wp_nil. wc. split; [reflexivity|]. split; [eapply cleared_mono; eassumption|]. pose proof Cl as (Gr&_).
    assert (A : agree (mem w) (mem w') J) by (apply (agree_tto w w' G); [exact Gr|exact SJ|exact DJG]).
    exists a, b, c, G. fold n.
    split; [rewrite <- La; eapply load4_sub; [exact A|]; intros y Hy; left; unfold between in *; lia|].
    split; [rewrite <- Lb; eapply load4_sub; [exact A|]; intros y Hy; right; left; exact Hy|].
    split; [rewrite <- Lc; eapply load4_sub; [exact A|]; intros y Hy; right; right; left; exact Hy|].
    split; [rewrite <- Li; apply load_be_ext; intros i Hi; apply A; right; right; right; unfold between; lia|].
    split; [rewrite <- Lo; apply load_be_ext; intros i Hi; apply A; left; unfold between; lia|].
    do 7 (split; [assumption|]). exact Fl'.
Qed.

Lemma clears_all : forall s, clears s.
Proof.
  apply shape_rec'.
  - intros t ep w xp off v F J parent uss l1 l2 l3 l4 l5 r Q st Hw He Stc Di Ho Sh SF Id Sp SJ DJ H C Was Se T K. cbn [direct shape_at check_field arrivals settled] in *.
    destruct (heap_block J w (xp + off) 4 SJ Sp) as (X1&X2); [lia|]. destruct (id_cells w xp parent J Id SJ) as (Y1&_). destruct uss; [|inversion Was].
    eapply (quiet_fields [t] ltac:(constructor; [apply quiet_plain|constructor]) ep w xp off [v] F F); try assumption.
    + cbn [forallb]. rewrite Di. reflexivity.
    + cbn [map fields]. exists F, empty. split; [exact Sh|]. split; [exact Logic.I|]. unfold disj, sub, empty. repeat split; intros; tauto.
    + apply sub_refl.
    + intros. apply K; [apply cleared_refl; exact Hw|exact Sh].
  - intros h fs IH ep w xp off v F J parent uss l1 l2 l3 l4 l5 r Q st Hw He Stc Di Ho Sh SF Id Sp SJ DJ H C Was Se T K. cbn [direct shape_at] in Di, Sh.
    destruct Sh as (o&id&vs&->&Tr). fold (tree_at (mem w) fs o id vs (load 4 (mem w) (xp + off)) F) in Tr. pose proof Hw as (P1&P2&P3&P4&P5&P6).
    destruct (heap_block J w (xp + off) 4 SJ Sp) as (X1&X2); [lia|]. destruct (id_cells w xp parent J Id SJ) as (Y1&_).
    set (x := load 4 (mem w) (xp + off)) in *. unfold C in *. clear C. unfold VObj in *. cbn [arrivals settled] in *. fold (all_arrivals fs id vs) in *. fold (all_settled fs id vs) in *.
    set (own := if (o =? 0) || (o =? parent) then [] else [(map slot_ty fs, o, id)]) in *.
    apply Forall2_app_inv_l in Was. destruct Was as (u1&u2&W1&W2&->). rewrite formers_app in Se, K by (eapply F2_length; exact W1). apply separate_parts in Se. destruct Se as (Se1&Se2&Se3). rewrite weigh_app in T, K.
    pose proof (weigh_nonneg u1) as N1. pose proof (weigh_nonneg u2) as N2.
    cbn [check_field app]. ws1. ws1. fold x. ws1. ws1.
    eapply wp_call_spec; [rewrite check_shape_object; reflexivity|cbn [List.length]; lia|wc; eapply (check_object_spec h fs IH ep w x o id vs F u1); assumption| |].
    { intros (A&O). apply T. unfold nomem, oom in *. lia. }
    intros r1 w1 (->&Cl1&Tr1). wc. pose proof Cl1 as (G1&_&Cz1&Cs1). pose proof (keccak_grows _ _ _ G1) as EH. fold H in EH.
    assert (AJ : agree (mem w) (mem w1) J) by (apply (agree_tto w w1 F); assumption).
    ws1. ws1. eapply wp_call_spec; [reflexivity|cbn [List.length]; lia|wc; eapply (delete_inner_spec ep fs w1 xp x o id (all_settled fs id vs) F parent J u2)| |].
    + apply G1.
    + exact He.
    + exact (statics_tto w w1 F Stc Hw SF G1).
    + exact Tr1.
    + eapply heap_grows; eassumption.
    + eapply id_ext; eassumption.
    + eapply heap_grows; eassumption.
    + rewrite EH. apply (was_there_kept H (stor (host w))); [exact W2|]. intros y Hy. apply Cs1. intros Y. exact (Se3 y Y Hy).
    + rewrite EH. exact Se2.
    + intros O. apply T. eapply cleared_next; [exact Cl1|exact O|exact N1|reflexivity].
    + intros r2 w2 (->&Cl2&Tr2). wc. rewrite EH in Cl2. apply K; [eapply cleared_trans; eassumption|]. cbn [shape_at]. eexists _, id, (all_settled fs id vs). split; [reflexivity|]. exact Tr2.
  - intros fs IH ep w xp off v F J parent uss l1 l2 l3 l4 l5 r Q st Hw He Stc Di. discriminate Di.
Qed.

(** All objects inside an object that come from other places are deleted there, and nothing else changes in storage. *)
Lemma check_tree_spec : forall ep fs w x o id vs F uss, wok w -> errtab_ok ep -> statics w -> forallb direct fs = true ->
  tree_at (mem w) fs o id vs x F -> sub F (heap w) ->
  let H := keccak (host w) in let C := formers H (all_arrivals fs id vs) uss in
  Forall2 (was_there H (stor (host w))) (all_arrivals fs id vs) uss -> separate C ->
  wpf (check_tree ep fs) [x] w (resq (fun r w' => r = [] /\ cleared w w' F C (weigh uss) /\ tree_at (mem w') fs o id (all_settled fs id vs) x F) (nomem w (weigh uss))).
Proof. intros ep fs. apply check_object_spec. apply Forall_forall. intros. apply clears_all. Qed.
