(** * The structured code goes where the blocks go. *)

From Coq Require Import ZArith List String Ascii Bool Arith Lia.
From Verif Require Import Wasm Mem Logic Tac Ops RtCall SpecFlow RtFlow SpecShape.
Import ListNotations.
Open Scope Z_scope.

(** ** The expectations of SpecShape, for the flow built from the shape *)

(** The block at which a piece of text starts, if [K] is the block at which
    what follows it starts. *)
Fixpoint start (f : flow) (K : option label) : option label :=
  match f with
  | FEmpty => K
  | FSimple x _ _ _ _ => Some x
  | FLoop _ inner next => start inner (start next K)
  | FIfElse _ _ | FSwitch _ => None
  end.

(** The two arms of an if/else start at [a] and [b], the lower one first. *)
Definition arms (f : flow) (K : option label) (a b : label) : Prop :=
  match f with
  | FIfElse th el =>
      a <> b /\ start th K = Some (Nat.min a b) /\ start el K = Some (Nat.max a b)
  | _ => False
  end.

(** A block left by [t] is followed by the right text [imm] (and [K] after it). *)
Definition followed (A : around) (br : list (label * mode)) (t : term) (imm : flow) (K : option label) : Prop :=
  match t with
  | TEnd => True
  | TFall n => start imm K = Some n
  | TBr a => match lookup a br with Some m => arrives A m a | None => start imm K = Some a end
  | TBrTrue a b | TBrFalse a b =>
      match lookup a br with
      | Some m => arrives A m a /\ start imm K = Some b
      | None => arms imm K a b
      end
  | TSwitch offs =>
      match imm with
      | FIfElse _ _ => match offs with [a; b] => arms imm K a b | _ => False end
      | FSwitch _ => True
      | _ => False
      end
  end.

Fixpoint shaped (A : around) (K : option label) (f : flow) {struct f} : Prop :=
  match f with
  | FEmpty => True
  | FSimple x (_, t) imm next br =>
      let A1 := mkA (get_label next :: after A) (heads A) in
      let K1 := start next K in
      followed A1 br t imm K1 /\ shaped A1 K1 imm /\ shaped A K next
  | FLoop id inner next =>
      let K1 := start next K in
      shaped (mkA (after A) ((id, (K1, start inner K1)) :: heads A)) K1 inner /\ shaped A K next
  | FIfElse th el => shaped A K th /\ shaped A K el
  | FSwitch cs =>
      (fix chain (cs : list flow) : Prop :=
         match cs with
         | [] => True
         | c :: r => shaped A (match r with [] => K | c' :: _ => start c' K end) c /\ chain r
         end) cs
  end.

(** Every two-armed BrFalse jumps forward, over the block that follows it, and
    every two-armed BrTrue jumps back. *)
Fixpoint ordered (f : flow) : Prop :=
  match f with
  | FEmpty => True
  | FSimple x (_, t) imm next br =>
      match t, imm with
      | TBrFalse a b, FIfElse _ _ => (b < a)%nat
      | TBrTrue a b, FIfElse _ _ => (a < b)%nat
      | _, _ => True
      end /\ ordered imm /\ ordered next
  | FLoop _ inner next => ordered inner /\ ordered next
  | FIfElse th el => ordered th /\ ordered el
  | FSwitch cs => (fix all (cs : list flow) : Prop := match cs with [] => True | c :: r => ordered c /\ all r end) cs
  end.

(** ** Extra locals do not matter *)

Definition lift (e : list Z) (o : outcome) : outcome :=
  match o with
  | ONormal s l w => ONormal s (l ++ e) w
  | OBr lb s l w => OBr lb s (l ++ e) w
  | ORet s l w => ORet s (l ++ e) w
  | o => o
  end.

Lemma set_nth_ext : forall x v (l e : list Z) u, nth_error l x = Some u -> set_nth x v (l ++ e) = set_nth x v l ++ e.
Proof. intros. apply set_nth_app_l. apply nth_error_Some. congruence. Qed.
Lemma nth_ext : forall x (l e : list Z) u, nth_error l x = Some u -> nth_error (l ++ e) x = Some u.
Proof. intros. rewrite nth_error_app1; [assumption|]. apply nth_error_Some. congruence. Qed.

Lemma step_lift : forall e i s l w, step i s l w <> OStuck -> step i s (l ++ e) w = lift e (step i s l w).
Proof.
  intros e i s l w H. destruct i; cbn [step] in *; try reflexivity; try congruence.
  - destruct s as [|b [|a s]]; try congruence. destruct (binop t o a b); reflexivity.
  - destruct s; [congruence|reflexivity].
  - destruct (nth_error l x) eqn:E; [|congruence]. rewrite (nth_ext _ _ e _ E). reflexivity.
  - destruct s; [congruence|]. destruct (nth_error l x) eqn:E; [|congruence]. rewrite (nth_ext _ _ e _ E).
    cbn [lift]. rewrite (set_nth_ext _ _ _ _ _ E). reflexivity.
  - destruct s; [congruence|]. destruct (nth_error l x) eqn:E; [|congruence]. rewrite (nth_ext _ _ e _ E).
    cbn [lift]. rewrite (set_nth_ext _ _ _ _ _ E). reflexivity.
  - destruct s; [congruence|reflexivity].
  - destruct s; [congruence|]. destruct (inb _ _ _); reflexivity.
  - destruct s as [|b [|a s]]; try congruence. destruct (inb _ _ _); reflexivity.
  - destruct s as [|? [|? [|? s]]]; try congruence; try (destruct (_ && _); reflexivity).
  - destruct s as [|? [|? [|? s]]]; try congruence; try (destruct (inb _ _ _); reflexivity).
  - destruct s as [|? s]; try congruence. destruct (_ && _); reflexivity.
  - destruct s; [congruence|reflexivity].
  - destruct s; [congruence|]. destruct (_ =? _); reflexivity.
  - destruct h; cbn [hostcall] in *; try reflexivity;
      repeat match goal with |- context[match ?s with [] => _ | _ => _ end] => destruct s; try congruence end;
      try (match goal with |- context[if ?b then _ else _] => destruct b; reflexivity end); reflexivity.
Qed.

Lemma exec_lift : forall e n is s l w, exec n is s l w <> OStuck -> exec n is s (l ++ e) w = lift e (exec n is s l w).
Proof.
  intros e. induction n as [|n IH]; intros is s l w H; [reflexivity|].
  destruct is as [|i r]; [reflexivity|].
  assert (K : forall o, bindo o (fun s' l' w' => exec n r s' l' w') <> OStuck ->
     bindo (lift e o) (fun s' l' w' => exec n r s' l' w') = lift e (bindo o (fun s' l' w' => exec n r s' l' w'))).
  { intros o Ho. destruct o; cbn [bindo lift] in *; auto. }
  destruct (is_basic i) eqn:B.
  { rewrite exec_basic in * by exact B. rewrite exec_basic by exact B. rewrite step_lift; [apply K; exact H|].
    intros E. rewrite E in H. apply H. reflexivity. }
  destruct i; try discriminate B.
  - rewrite exec_block in *. rewrite exec_block. rewrite IH by (intros E; rewrite E in H; apply H; reflexivity).
    rewrite <- K by exact H. f_equal. destruct (exec n b [] l w); cbn [lift]; try reflexivity. destruct (String.eqb _ _); reflexivity.
  - rewrite exec_loop in *. rewrite exec_loop. rewrite IH by (intros E; rewrite E in H; apply H; reflexivity).
    rewrite <- K by exact H. f_equal. destruct (exec n b [] l w); cbn [lift]; try reflexivity. destruct (String.eqb _ _); [|reflexivity].
    apply IH. intros E. rewrite E in H. apply H. reflexivity.
  - destruct s as [|c s0]; [exfalso; apply H; reflexivity|]. rewrite exec_if in *. rewrite exec_if.
    rewrite IH by (intros E; rewrite E in H; apply H; reflexivity).
    rewrite <- K by exact H. f_equal. destruct (exec n _ [] l w); cbn [lift bindo]; reflexivity.
  - destruct f as [np nl nr b]. rewrite exec_call in *. rewrite exec_call. rewrite <- K by exact H. f_equal.
    destruct (_ <? _)%nat; [reflexivity|]. destruct (exec n b [] _ w); reflexivity.
Qed.

(** ** Small facts *)

Lemma wp_app : forall a b (Q : outcome -> Prop) s l w, wp a (andthen b Q) s l w -> wp (a ++ b) Q s l w.
Proof.
  intros a b Q s l w (n&H1&H2). destruct (exec n a s l w) as [s' l' w'|lb s' l' w'|s' l' w'| | |] eqn:E.
  - eapply wp_seq; [exact E|]. exact H2.
  - cbn [andthen] in H2.
    assert (G : forall n a s l w, exec n a s l w = OBr lb s' l' w' -> wp (a ++ b) Q s l w).
    { clear - H2. intros n a. revert n. induction a as [|i a IH]; intros n s l w E; [destruct n; discriminate E|].
      cbn [app]. apply wp_cons. destruct n as [|n]; [discriminate E|]. exists (S n). cbn [exec] in E |- *. revert E.
      match goal with |- context[bindo ?o (fun s' l' w' => exec n a s' l' w')] => set (oo := o) end. clearbody oo. intros E.
      destruct oo; cbn [bindo] in *; try discriminate E.
      - destruct n as [|n]; [discriminate E|]. cbn [exec]. split; [discriminate|]. cbn [andthen]. eapply IH. exact E.
      - injection E as -> -> -> ->. split; [discriminate|]. exact H2. }
    eapply G. exact E.
  - cbn [andthen] in H2.
    assert (G : forall n a s l w, exec n a s l w = ORet s' l' w' -> wp (a ++ b) Q s l w).
    { clear - H2. intros n a. revert n. induction a as [|i a IH]; intros n s l w E; [destruct n; discriminate E|].
      cbn [app]. apply wp_cons. destruct n as [|n]; [discriminate E|]. exists (S n). cbn [exec] in E |- *. revert E.
      match goal with |- context[bindo ?o (fun s' l' w' => exec n a s' l' w')] => set (oo := o) end. clearbody oo. intros E.
      destruct oo; cbn [bindo] in *; try discriminate E.
      - destruct n as [|n]; [discriminate E|]. cbn [exec]. split; [discriminate|]. cbn [andthen]. eapply IH. exact E.
      - injection E as -> -> ->. split; [discriminate|]. exact H2. }
    eapply G. exact E.
  - cbn [andthen] in H2.
    assert (G : forall n a s l w, exec n a s l w = OTrap -> wp (a ++ b) Q s l w).
    { clear - H2. intros n a. revert n. induction a as [|i a IH]; intros n s l w E; [destruct n; discriminate E|].
      cbn [app]. apply wp_cons. destruct n as [|n]; [discriminate E|]. exists (S n). cbn [exec] in E |- *. revert E.
      match goal with |- context[bindo ?o (fun s' l' w' => exec n a s' l' w')] => set (oo := o) end. clearbody oo. intros E.
      destruct oo; cbn [bindo] in *; try discriminate E.
      - destruct n as [|n]; [discriminate E|]. cbn [exec]. split; [discriminate|]. cbn [andthen]. eapply IH. exact E.
      - split; [discriminate|]. exact H2. }
    eapply G. exact E.
  - cbn [andthen] in H2.
    assert (G : forall n a s l w, exec n a s l w = OStuck -> wp (a ++ b) Q s l w).
    { clear - H2. intros n a. revert n. induction a as [|i a IH]; intros n s l w E; [destruct n; discriminate E|].
      cbn [app]. apply wp_cons. destruct n as [|n]; [discriminate E|]. exists (S n). cbn [exec] in E |- *. revert E.
      match goal with |- context[bindo ?o (fun s' l' w' => exec n a s' l' w')] => set (oo := o) end. clearbody oo. intros E.
      destruct oo; cbn [bindo] in *; try discriminate E.
      - destruct n as [|n]; [discriminate E|]. cbn [exec]. split; [discriminate|]. cbn [andthen]. eapply IH. exact E.
      - split; [discriminate|]. exact H2. }
    eapply G. exact E.
  - exfalso. apply H1. reflexivity.
Qed.

Lemma ticks_inj : forall a b, ticks a = ticks b -> a = b.
Proof. induction a; destruct b; cbn; intros H; try discriminate H; [reflexivity|]. injection H as H. f_equal. auto. Qed.
Lemma lab_inj : forall a b, lab a = lab b -> a = b.
Proof. unfold lab. intros a b H. injection H as H. apply ticks_inj. exact H. Qed.
Lemma lab_result : forall d, lab d <> "result"%string.
Proof. intros d H. discriminate H. Qed.

Lemma flow_ind' : forall (Q : flow -> Prop),
  (forall x c imm next br, Q imm -> Q next -> Q (FSimple x c imm next br)) ->
  (forall id inner next, Q inner -> Q next -> Q (FLoop id inner next)) ->
  (forall th el, Q th -> Q el -> Q (FIfElse th el)) ->
  (forall cs, Forall Q cs -> Q (FSwitch cs)) ->
  Q FEmpty -> forall f, Q f.
Proof.
  intros Q H1 H2 H3 H4 H5. fix IH 1. intros [x c imm next br|id inner next|th el|cs|].
  - apply H1; apply IH.
  - apply H2; apply IH.
  - apply H3; apply IH.
  - apply H4. induction cs as [|c cs IHc]; constructor; [apply IH|exact IHc].
  - exact H5.
Qed.

(** ** The simulation *)

Section Sim.
Variables (P : graph) (cl : nat).

(** The blocks of [f] are those of the graph. *)
Fixpoint drawn (f : flow) : Prop :=
  match f with
  | FEmpty => True
  | FSimple x c imm next _ => P x = Some c /\ drawn imm /\ drawn next
  | FLoop _ inner next => drawn inner /\ drawn next
  | FIfElse th el => drawn th /\ drawn el
  | FSwitch cs => (fix all (cs : list flow) : Prop := match cs with [] => True | c :: r => drawn c /\ all r end) cs
  end.

(** Where the text [f] starts when entered with operands [s] and jump table [jt]. *)
Definition entry (f : flow) (K : option label) (jt : option (list label)) (s : list Z) : option label :=
  match f with
  | FIfElse th el =>
      match s, jt with
      | [c], None => if c =? 0 then start el K else start th K
      | [c], Some [a; b] => if c =? (if (a <=? b)%nat then 0 else 1) then start th K else start el K
      | _, _ => None
      end
  | FSwitch _ =>
      match s, jt with [c], Some offs => if 0 <=? c then nth_error offs (Z.to_nat c) else None | _, _ => None end
  | _ => match s, jt with [], None => start f K | _, _ => None end
  end.

Definition dests := list (string * option label).

(** The run goes on at [y] in a later state, at most (less than) [m] jumps before its end. *)
Definition post (m : nat) (o : outcome) (D : dests) (K : option label) (r : outcome) : Prop :=
  match r with
  | ONormal s' le w' => exists l' c m' y, le = l' ++ [c] /\ List.length l' = cl /\ K = Some y /\ (m' <= m)%nat /\ runs P m' y l' w' o
  | OBr lb s' le w' => (exists c, r = lift [c] o /\ lb = "result"%string) \/
      exists l' c m' y, le = l' ++ [c] /\ List.length l' = cl /\ In (lb, Some y) D /\ (m' < m)%nat /\ runs P m' y l' w' o
  | _ => exists c, r = lift [c] o
  end.

Lemma post_mono : forall m m' o D K r, (m' <= m)%nat -> post m' o D K r -> post m o D K r.
Proof.
  intros m m' o D K r H. destruct r; cbn; auto.
  - intros (l'&c&k&y&A&B&C&E&F). exists l', c, k, y. repeat split; auto; lia.
  - intros [G|(l'&c&k&y&A&B&C&E&F)]; [left; exact G|]. right. exists l', c, k, y. repeat split; auto; lia.
Qed.

(** Targets, what is around, and where the labels lead. *)
Definition agree (T : targets) (A : around) (D : dests) (d : nat) : Prop :=
  map snd (scopes T) = after A /\
  (forall lb a, In (lb, Some a) (scopes T) -> In (lb, Some a) D) /\
  Forall2 (fun p q => fst p = fst q /\ In (fst (snd p), fst (snd q)) D /\ In (snd (snd p), snd (snd q)) D) (loops T) (heads A) /\
  (forall lb y, In (lb, y) D -> exists k, (k < d)%nat /\ lb = lab k).

Lemma resolve_merged_in : forall sc a lb, resolve_merged sc a = Some lb -> In (lb, Some a) sc.
Proof.
  induction sc as [|[lb0 [b|]] sc IH]; cbn; intros a lb H; try discriminate H; auto.
  destruct (Nat.eqb a b) eqn:E; [|auto]. apply Nat.eqb_eq in E. injection H as <-. subst. auto.
Qed.
Lemma resolve_merged_some : forall sc a, In (Some a) (map snd sc) -> resolve_merged sc a <> None.
Proof.
  induction sc as [|[lb0 [b|]] sc IH]; cbn; intros a H; [destruct H| |].
  - destruct (Nat.eqb a b) eqn:E; [discriminate|]. destruct H as [H|H]; [|auto]. injection H as ->. rewrite Nat.eqb_refl in E. discriminate.
  - destruct H as [H|H]; [discriminate H|auto].
Qed.

Lemma resolve_leads : forall T A D d m a lb, agree T A D d -> arrives A m a -> resolve T m a = Some lb -> In (lb, Some a) D.
Proof.
  intros T A D d m a lb (G1&G2&G3&G4) Ha Hr.
  assert (LK : forall id b c, lookup id (heads A) = Some (b, c) ->
     exists bl kl, lookup id (loops T) = Some (bl, kl) /\ In (bl, b) D /\ In (kl, c) D).
  { revert G3. generalize (loops T) (heads A). intros L H F id b c. induction F as [|[i [x y]] [j [u v]] L H (E&I1&I2) F IH]; cbn; [discriminate|].
    cbn in E, I1, I2. subst j. destruct (Nat.eqb id i); [|apply IH]. intros Q. injection Q as -> ->. eauto. }
  destruct m; cbn in Ha, Hr.
  - apply G2. apply resolve_merged_in. exact Hr.
  - apply G2. apply resolve_merged_in. exact Hr.
  - destruct (resolve_merged (scopes T) a) eqn:E; [injection Hr as <-; apply G2, resolve_merged_in, E|].
    destruct Ha as [Ha|[c Ha]]; [rewrite <- G1 in Ha; exfalso; exact (resolve_merged_some _ _ Ha E)|].
    destruct (LK _ _ _ Ha) as (bl&kl&E1&I1&_). rewrite E1 in Hr. injection Hr as <-. exact I1.
  - destruct (resolve_merged (scopes T) a) eqn:E; [injection Hr as <-; apply G2, resolve_merged_in, E|].
    destruct Ha as [Ha|[c Ha]]; [rewrite <- G1 in Ha; exfalso; exact (resolve_merged_some _ _ Ha E)|].
    destruct (LK _ _ _ Ha) as (bl&kl&E1&I1&_). rewrite E1 in Hr. injection Hr as <-. exact I1.
  - destruct Ha as [b Ha]. destruct (LK _ _ _ Ha) as (bl&kl&E1&_&I1). rewrite E1 in Hr. injection Hr as <-. exact I1.
  - destruct Ha as [b Ha]. destruct (LK _ _ _ Ha) as (bl&kl&E1&_&I1). rewrite E1 in Hr. injection Hr as <-. exact I1.
  - destruct Ha.
Qed.

Lemma agree_weaken : forall T A D d D' d', agree T A D d -> (d <= d')%nat -> incl D D' ->
  (forall lb y, In (lb, y) D' -> exists k, (k < d')%nat /\ lb = lab k) -> agree T A D' d'.
Proof.
  intros T A D d D' d' (G1&G2&G3&G4) Hd Hi Hl. split; [exact G1|]. split; [intros; apply Hi; auto|]. split; [|exact Hl].
  clear - G3 Hi. induction G3 as [|p q L H (E1&E2&E3) F IH]; constructor; auto.
Qed.

(** Falling out of, or branching to the end of, a block at depth [d] goes on with what follows it. *)
Definition leave (m : nat) (o : outcome) (d : nat) (K : option label) (r : outcome) : Prop :=
  exists s' l' c w' y m', r = OBr (lab d) s' (l' ++ [c]) w' /\ List.length l' = cl /\ K = Some y /\ (m' <= m)%nat /\ runs P m' y l' w' o.

Lemma block_post : forall D d m o b r K1 (Q : outcome -> Prop) l w,
  (forall lb y, In (lb, y) D -> exists k, (k < d)%nat /\ lb = lab k) ->
  ends o ->
  wp b (fun x => post m o ((lab d, K1) :: D) K1 x \/ leave m o d K1 x) [] l w ->
  (forall l' c w' y m', List.length l' = cl -> K1 = Some y -> (m' <= m)%nat -> runs P m' y l' w' o -> wp r Q [] (l' ++ [c]) w') ->
  (forall x, (forall s l' w', x <> ONormal s l' w') -> post m o D K1 x -> Q x) ->
  wp (Block (lab d) 0 b :: r) Q [] l w.
Proof.
  intros D d m o b r K1 Q l w HD Ho Hb Hr HQ. apply wp_block. eapply wp_conseq; [exact Hb|]. intros x [Hx|Hx].
  2: { destruct Hx as (s'&l'&c&w'&y&m'&->&L&E&M&R). cbn [blk]. rewrite String.eqb_refl. cbn [firstn app]. eapply Hr; eauto. }
  destruct x as [s' l' w'|lb s' l' w'|s' l' w'| | |]; cbn [blk firstn app].
  - destruct Hx as (l0&c&m'&y&->&L&E&M&R). eapply Hr; eassumption.
  - destruct (String.eqb (lab d) lb) eqn:E.
    + apply String.eqb_eq in E. subst lb. destruct Hx as [(c&_&E)|(l0&c&m'&y&->&L&I&M&R)]; [destruct (lab_result _ E)|].
      destruct I as [I|I].
      * injection I as ->. eapply Hr; [exact L|reflexivity| |exact R]. lia.
      * destruct (HD _ _ I) as (k&Hk&E). apply lab_inj in E. lia.
    + apply HQ; [discriminate|]. destruct Hx as [G|(l0&c&m'&y&->&L&I&M&R)]; [left; exact G|]. right.
      destruct I as [I|I]; [injection I as E1 E2; rewrite E1, String.eqb_refl in E; discriminate E|]. exists l0, c, m', y. auto.
  - apply HQ; [discriminate|exact Hx].
  - apply HQ; [discriminate|exact Hx].
  - apply HQ; [discriminate|exact Hx].
  - apply HQ; [discriminate|exact Hx].
Qed.

Lemma runs_ends : forall m x l w o, runs P m x l w o -> ends o.
Proof. intros m x l w o H. induction H; assumption. Qed.

Definition uses_table (f : flow) : bool := match f with FIfElse _ _ | FSwitch _ => true | _ => false end.

Definition sim (f : flow) : Prop := forall T d A K D jt code jt',
  tr cl T d f jt = Some (code, jt') -> shaped A K f -> ordered f -> drawn f -> agree T A D d ->
  (uses_table f = false -> jt = None) ->
  jt' = None /\
  forall m s l c w o y, List.length l = cl -> entry f K jt s = Some y -> runs P m y l w o ->
    wp code (post m o D K) s (l ++ [c]) w.

Lemma sim_empty : sim FEmpty.
Proof.
  intros T d A K D jt code jt' E _ _ _ _ Hj. cbn in E. injection E as <- <-. rewrite (Hj eq_refl). split; [reflexivity|].
  intros m s l c w o y L En R. cbn in En. destruct s; [|discriminate En]. apply wp_nil. exists l, c, m, y. auto.
Qed.

(** The end of a block: the branch, then the text inside it. *)
Lemma sim_term : forall imm, sim imm ->
  forall T d A K D br t jt b jt1 i jt', tr_term T br t jt = Some (b, jt1) -> jt = None ->
  tr cl T d imm jt1 = Some (i, jt') -> followed A br t imm K ->
  match t, imm with TBrFalse a b, FIfElse _ _ => (b < a)%nat | TBrTrue a b, FIfElse _ _ => (a < b)%nat | _, _ => True end ->
  shaped A K imm -> ordered imm -> drawn imm -> agree T A D d ->
  jt' = None /\
  forall m s l c w o y, List.length l = cl -> goes t s = Some y -> runs P m y l w o ->
    wp (b ++ i) (post (S m) o D K) s (l ++ [c]) w.
Proof.
  intros imm IH T d A K D br t jt b jt1 i jt' Et -> Ei Hf Ho Hs Hr Hd Hg.
  assert (Hj : jt' = None).
  { eapply IH; eauto. intros Hu. destruct t; cbn in Et; try (injection Et as <- <-; reflexivity);
      try (destruct (lookup _ br); [destruct (resolve _ _ _)|]; try discriminate Et; injection Et as <- <-; reflexivity).
    cbn in Hf. destruct imm; try discriminate Hu; destruct Hf. }
  split; [exact Hj|]. intros m s l c w o y L G R.
  assert (Go : forall s, entry imm K jt1 s = Some y -> wp i (post (S m) o D K) s (l ++ [c]) w).
  { intros s0 En. eapply wp_conseq; [eapply IH; eauto|].
    - intros Hu. destruct imm; try discriminate Hu; cbn in En; destruct s0; try discriminate En; destruct jt1; auto; discriminate En.
    - intros r. apply post_mono. lia. }
  assert (St : forall z, start imm K = Some z -> jt1 = None -> entry imm K jt1 [] = Some z).
  { intros z Hz ->. destruct imm; cbn in Hz |- *; auto; discriminate Hz. }
  assert (Jm : forall lb md a s, y = a -> arrives A md a -> resolve T md a = Some lb -> post (S m) o D K (OBr lb s (l ++ [c]) w)).
  { intros lb md a s0 -> Ha Hq. right. exists l, c, m, a. repeat split; auto. eapply resolve_leads; eauto. }
  destruct t as [n|a|a n|a n|offs|]; cbn [goes] in G; cbn [tr_term] in Et; cbn [followed] in Hf.
  - injection Et as <- <-. destruct s; [|discriminate G]. injection G as ->. cbn [app]. apply Go. apply St; auto.
  - destruct s; [|discriminate G]. injection G as ->. destruct (lookup y br) as [md|].
    + destruct (resolve T md y) as [lb|] eqn:Er; [|discriminate Et]. injection Et as <- <-. cbn [app]. apply wp_br. eapply Jm; eauto.
    + injection Et as <- <-. cbn [app]. apply Go. apply St; auto.
  - destruct s as [|v [|? ?]]; try discriminate G. injection G as <-. destruct (lookup a br) as [md|].
    + destruct (resolve T md a) as [lb|] eqn:Er; [|discriminate Et]. injection Et as <- <-. destruct Hf as [Ha Hs2]. cbn [app].
      apply wp_brif; intros Hv.
      * apply (Jm lb md a); auto. destruct (Z.eqb_spec v 0); [congruence|reflexivity].
      * apply Go. apply St; auto. rewrite Hs2. subst v. reflexivity.
    + injection Et as <- <-. cbn [app]. apply Go. destruct imm as [| |th el| |]; try destruct Hf as []. destruct H0 as [H1 H2].
      cbn [entry]. rewrite Nat.min_l in H1 by lia. rewrite Nat.max_r in H2 by lia. destruct (v =? 0); assumption.
  - destruct s as [|v [|? ?]]; try discriminate G. injection G as <-. destruct (lookup a br) as [md|].
    + destruct (resolve T md a) as [lb|] eqn:Er; [|discriminate Et]. injection Et as <- <-. destruct Hf as [Ha Hs2]. cbn [app].
      eapply wp_basic; [reflexivity|reflexivity|]. cbn [unop].
      apply wp_brif; intros Hv; destruct (Z.eqb_spec v 0) as [Ez|Ez]; cbn in Hv; try (destruct (v =? 0) eqn:Q; lia).
      * eapply Jm; eauto.
      * apply Go. apply St; auto.
    + injection Et as <- <-. cbn [app]. apply Go. destruct imm as [| |th el| |]; try destruct Hf as []. destruct H0 as [H1 H2].
      cbn [entry]. rewrite Nat.min_r in H1 by lia. rewrite Nat.max_l in H2 by lia. destruct (v =? 0); assumption.
  - injection Et as <- <-. cbn [app]. destruct s as [|v [|? ?]]; try discriminate G. apply Go.
    destruct imm as [| |th el|cs|]; try destruct Hf.
    + destruct offs as [|a [|b [|? ?]]]; try destruct Hf. destruct H0 as [H1 H2]. cbn [entry].
      destruct (Z.leb_spec 0 v); [|discriminate G]. destruct (Z.to_nat v) as [|[|?]] eqn:Ev; cbn in G; [| |destruct n; discriminate G];
        injection G as ->.
      * assert (v = 0) by lia. subst v. destruct (Nat.leb_spec y b); cbn.
        -- rewrite Nat.min_l in H1 by lia. exact H1.
        -- rewrite Nat.max_l in H2 by lia. exact H2.
      * assert (v = 1) by lia. subst v. destruct (Nat.leb_spec a y); cbn.
        -- rewrite Nat.max_r in H2 by lia. exact H2.
        -- rewrite Nat.min_r in H1 by lia. exact H1.
    + exact G.
  - discriminate G.
Qed.

Lemma ends_lift : forall c o D m K, ends o -> post m o D K (lift [c] o).
Proof. intros c o D m K H. destruct o; cbn in *; try destruct H; eauto. Qed.

Lemma post_K : forall m o D K K' r, (forall s l w, r <> ONormal s l w) -> post m o D K r -> post m o D K' r.
Proof. intros m o D K K' r H. destruct r; cbn; auto. exfalso. eapply H. reflexivity. Qed.

Lemma below : forall (D : dests) d d' lb y, (forall lb y, In (lb, y) D -> exists k, (k < d)%nat /\ lb = lab k) -> (d <= d')%nat ->
  In (lb, y) D -> exists k, (k < d')%nat /\ lb = lab k.
Proof. intros D d d' lb y H Hd I. destruct (H _ _ I) as (k&A&B). exists k. split; [lia|exact B]. Qed.

Lemma start_entry : forall f K z, start f K = Some z -> entry f K None [] = Some z.
Proof. intros f K z H. destruct f; cbn in *; auto; discriminate H. Qed.

Lemma sim_simple : forall x code imm next br, sim imm -> sim next -> sim (FSimple x code imm next br).
Proof.
  intros x [is t] imm next br I1 I2 T d A K D jt code jt' E Hs Ho Hd Hg Hj. rewrite (Hj eq_refl) in *. clear Hj jt.
  cbn [tr] in E. cbn [shaped] in Hs. cbn [ordered] in Ho. cbn [drawn] in Hd.
  destruct (tr_term _ br t None) as [[b jt1]|] eqn:Et; [|discriminate E].
  destruct (tr cl _ (S d) imm jt1) as [[i jt2]|] eqn:Ei; [|discriminate E].
  destruct (tr cl T d next jt2) as [[n jt3]|] eqn:En; [|discriminate E]. injection E as <- <-.
  destruct Hs as (S1&S2&S3). destruct Ho as (O1&O2&O3). destruct Hd as (D1&D2&D3). pose proof Hg as (G1&G2&G3&G4).
  set (K1 := start next K) in *.
  assert (Hg1 : agree (push_scope T (lab d) (get_label next)) (mkA (get_label next :: after A) (heads A)) ((lab d, K1) :: D) (S d)).
  { split; [cbn; rewrite G1; reflexivity|]. split; [|split].
    - intros lb a [H|H]; [|right; apply G2; exact H]. left. injection H as <- H. f_equal. subst K1. destruct next; cbn in H |- *; try discriminate H. congruence.
    - cbn. clear - G3. induction G3 as [|p q L H (E1&E2&E3) F IH]; constructor; auto; repeat split; cbn; auto.
    - intros lb y [H|H]; [injection H as <- <-; exists d; auto|]. eapply below; eauto. }
  destruct (sim_term imm I1 _ _ _ _ _ _ _ _ _ _ _ _ Et eq_refl Ei S1 O1 S2 O2 D2 Hg1) as (J2&W). subst jt2.
  destruct (I2 T d A K D None n jt3 En S3 O3 D3 Hg (fun _ => eq_refl)) as (J3&W3). split; [exact J3|].
  intros m s l c w o y L Hy R. cbn in Hy. destruct s; [|discriminate Hy]. injection Hy as <-.
  eapply (block_post D d m o _ n K1); auto.
  - eapply runs_ends; exact R.
  - eapply wp_conseq; [|intros r Hr; left; exact Hr]. destruct R as [x is' t' k l w o Px Ex Ee|x is' t' k m l w s l' w' y o Px Ex Gx R]; rewrite D1 in Px; injection Px as <- <-.
    + assert (Lf : exec k is [] (l ++ [c]) w = lift [c] o).
      { rewrite exec_lift, Ex; [reflexivity|]. intros Q. rewrite Ex in Q. rewrite Q in Ee. exact Ee. }
      apply wp_app. apply wp_exec with (n := k); rewrite Lf; [intros Q; destruct o; try discriminate Q; exact Ee|].
      pose proof (ends_lift c o ((lab d, K1) :: D) 0 K1 Ee) as Q. destruct o; cbn in *; try destruct Ee; auto.
    + eapply wp_seq; [rewrite exec_lift, Ex; [reflexivity|rewrite Ex; discriminate]|].
      eapply W; eauto. pose proof (exec_keeps k is [] l w l') as Kp. rewrite Ex in Kp. rewrite Kp; auto. 
  - intros l' c' w' y m' L' Ey M R'. eapply wp_conseq; [eapply W3; eauto; apply start_entry; exact Ey|]. intros r. apply post_mono. exact M.
  - intros r Hn Hr. eapply post_K; eauto.
Qed.

Lemma sim_loop : forall id inner next, sim inner -> sim next -> sim (FLoop id inner next).
Proof.
  intros id inner next I1 I2 T d A K D jt code jt' E Hs Ho Hd Hg Hj. rewrite (Hj eq_refl) in *. clear Hj jt.
  cbn [tr] in E. cbn [shaped] in Hs. cbn [ordered] in Ho. cbn [drawn] in Hd.
  destruct (tr cl _ (S (S d)) inner None) as [[i jt2]|] eqn:Ei; [|discriminate E].
  destruct (tr cl T d next jt2) as [[n jt3]|] eqn:En; [|discriminate E]. injection E as <- <-.
  destruct Hs as (S1&S3). destruct Ho as (O1&O3). destruct Hd as (D1&D3). pose proof Hg as (G1&G2&G3&G4).
  set (K1 := start next K) in *. set (h := start inner K1) in *.
  set (D1' := (lab (S d), h) :: (lab d, K1) :: D).
  assert (Hg1 : agree (set_loop T id (lab d) (lab (S d))) (mkA (after A) ((id, (K1, h)) :: heads A)) D1' (S (S d))).
  { split; [exact G1|]. split; [|split].
    - intros lb a H. right. right. apply G2. exact H.
    - cbn. constructor; [cbn; auto|]. subst D1'. clear - G3. induction G3 as [|p q L H (E1&E2&E3) F IH]; constructor; auto; repeat split; cbn; auto.
    - intros lb y [H|[H|H]]; [injection H as <- <-; exists (S d); auto|injection H as <- <-; exists d; auto|]. eapply below; eauto. }
  assert (Hj1 : inner = inner) by reflexivity.
  destruct (I1 _ _ _ _ _ None i jt2 Ei S1 O1 D1 Hg1 (fun _ => eq_refl)) as (J2&W1). subst jt2.
  destruct (I2 T d A K D None n jt3 En S3 O3 D3 Hg (fun _ => eq_refl)) as (J3&W3). split; [exact J3|].
  intros m s l c w o y L Hy R. cbn [entry start] in Hy. destruct s; [|discriminate Hy]. fold K1 in Hy. fold h in Hy.
  assert (Ee : ends o) by (eapply runs_ends; exact R).
  eapply (block_post D d m o _ n K1); auto.
  - eapply wp_conseq; [|intros r Hr; left; exact Hr]. apply wp_loop with (I := fun k le w => (k <= m)%nat /\ exists l c, le = l ++ [c] /\ List.length l = cl /\ runs P k y l w o) (k := m).
    { split; [lia|]. exists l, c. auto. }
    clear l c w L R. intros k le w (Hk&l&c&->&L&R). eapply wp_conseq; [eapply W1; [exact L| |exact R]|].
    { apply start_entry. exact Hy. }
    intros r Hr. destruct r as [s' l' w'|lb s' l' w'|s' l' w'| | |]; cbn [loopk firstn app].
    + apply wp_nil. eapply post_mono; [|exact Hr]. exact Hk.
    + destruct (String.eqb (lab (S d)) lb) eqn:El.
      * apply String.eqb_eq in El. subst lb. destruct Hr as [(c'&_&Q)|(l0&c'&m'&z&->&L0&I&M&R0)]; [destruct (lab_result _ Q)|].
        destruct I as [I|[I|I]].
        -- injection I as I. rewrite Hy in I. injection I as <-. exists m'. split; [exact M|]. split; [lia|]. exists l0, c'. auto.
        -- pose proof (f_equal fst I) as I2'. cbn [fst] in I2'. apply lab_inj in I2'. lia.
        -- destruct (G4 _ _ I) as (q&Hq&Q). apply lab_inj in Q. lia.
      * destruct Hr as [Hr|(l0&c'&m'&z&->&L0&I&M&R0)]; [left; exact Hr|]. right.
        destruct I as [I|I]; [injection I as Q _; rewrite <- Q, String.eqb_refl in El; discriminate El|].
        exists l0, c', m', z. repeat split; auto. lia.
    + exact Hr.
    + exact Hr.
    + exact Hr.
    + exact Hr.
  - intros l' c' w' z m' L' Ey M R'. eapply wp_conseq; [eapply W3; eauto; apply start_entry; exact Ey|]. intros r. apply post_mono. exact M.
  - intros r Hn Hr. eapply post_K; eauto.
Qed.

Lemma sim_ifelse : forall th el, sim th -> sim el -> sim (FIfElse th el).
Proof.
  intros th el I1 I2 T d A K D jt code jt' E Hs Ho Hd Hg _.
  cbn [tr] in E. cbn [shaped] in Hs. cbn [ordered] in Ho. cbn [drawn] in Hd.
  destruct Hs as (S1&S3). destruct Ho as (O1&O3). destruct Hd as (D1&D3). pose proof Hg as (G1&G2&G3&G4).
  match type of E with match ?cnd with _ => _ end = _ => destruct cnd as [cc|] eqn:Ec; [|discriminate E] end.
  destruct (tr cl T (S (S d)) el None) as [[e jt2]|] eqn:Ee; [|discriminate E].
  destruct (tr cl T (S d) th jt2) as [[t jt3]|] eqn:Et; [|discriminate E]. injection E as <- <-.
  set (D1' := (lab d, K) :: D).
  assert (Ge : agree T A ((lab (S d), start th K) :: D1') (S (S d))).
  { eapply agree_weaken; [exact Hg|lia|intros p Hp; right; right; exact Hp|].
    intros lb y [H|[H|H]]; [injection H as <- <-; exists (S d); auto|injection H as <- <-; exists d; auto|]. eapply below; eauto. }
  assert (Gt : agree T A D1' (S d)).
  { eapply agree_weaken; [exact Hg|lia|intros p Hp; right; exact Hp|].
    intros lb y [H|H]; [injection H as <- <-; exists d; auto|]. eapply below; eauto. }
  destruct (I2 _ _ _ _ _ None e jt2 Ee S3 O3 D3 Ge (fun _ => eq_refl)) as (J2&We). subst jt2.
  destruct (I1 _ _ _ _ _ None t jt3 Et S1 O1 D1 Gt (fun _ => eq_refl)) as (J3&Wt). split; [exact J3|].
  intros m s l c w o y L Hy R. assert (Eo : ends o) by (eapply runs_ends; exact R).
  assert (Main : forall v, (if v =? 0 then start el K else start th K) = Some y ->
    wp [LocalSet cl; Block (lab d) 0 (Block (lab (S d)) 0 ([LocalGet cl; BrIf (lab (S d))] ++ e ++ [Br (lab d)]) :: t)]
      (post m o D K) [v] (l ++ [c]) w).
  { intros v Hv. eapply wp_basic; [reflexivity| |].
    { cbn [step]. rewrite nth_error_app2 by lia. rewrite L, Nat.sub_diag. cbn [nth_error]. reflexivity. }
    assert (Es : set_nth cl v (l ++ [c]) = l ++ [v]).
    { clear - L. revert l L. induction cl; intros [|x l] L; cbn in *; try lia; [reflexivity|]. f_equal. apply IHn. lia. }
    rewrite Es. clear Es.
    eapply (block_post D d m o _ [] K); auto.
    - apply wp_block. cbn [app]. eapply wp_basic; [reflexivity| |].
      { cbn [step]. rewrite nth_error_app2 by lia. rewrite L, Nat.sub_diag. cbn [nth_error]. reflexivity. }
      apply wp_brif; intros Hz; cbn [blk].
      + rewrite String.eqb_refl. cbn [firstn app]. eapply wp_conseq; [eapply Wt; [exact L| |exact R]|intros r Hr; left; exact Hr]. apply start_entry. destruct (Z.eqb_spec v 0); [lia|exact Hv].
      + apply wp_app. eapply wp_conseq; [eapply We; [exact L| |exact R]|].
        { apply start_entry. subst v. exact Hv. }
        intros r Hr. destruct r as [s' l' w'|lb s' l' w'|s' l' w'| | |]; cbn [andthen].
        * apply wp_br. cbn [blk]. destruct (String.eqb (lab (S d)) (lab d)) eqn:Q; [apply String.eqb_eq, lab_inj in Q; lia|].
          destruct Hr as (l0&c'&m'&z&->&L0&Q1&M&R0). right. exists s', l0, c', w', z, m'. repeat split; auto.
        * cbn [blk]. destruct (String.eqb (lab (S d)) lb) eqn:Q.
          -- apply String.eqb_eq in Q. subst lb. destruct Hr as [(c'&_&Q)|(l0&c'&m'&z&->&L0&I&M&R0)]; [destruct (lab_result _ Q)|].
             destruct I as [I|[I|I]].
             ++ injection I as I. cbn [firstn app]. eapply wp_conseq; [eapply Wt; [exact L0| |exact R0]; apply start_entry; exact I|]. intros r Hr. left. revert Hr. apply post_mono. lia.
             ++ pose proof (f_equal fst I) as I2'. cbn [fst] in I2'. apply lab_inj in I2'. lia.
             ++ destruct (G4 _ _ I) as (q&Hq&Q). apply lab_inj in Q. lia.
          -- left. destruct Hr as [Hr|(l0&c'&m'&z&->&L0&I&M&R0)]; [left; exact Hr|]. right.
             destruct I as [I|I]; [injection I as Q1 _; rewrite <- Q1, String.eqb_refl in Q; discriminate Q|].
             exists l0, c', m', z. repeat split; auto.
        * left. exact Hr.
        * left. exact Hr.
        * left. exact Hr.
        * left. exact Hr.
    - intros l' c' w' z m' L' Ey M R'. apply wp_nil. exists l', c', m', z. auto. }
  cbn [entry] in Hy. destruct s as [|v [|? ?]]; try discriminate Hy. destruct jt as [[|a [|b [|? ?]]]|]; try discriminate Hy.
  - injection Ec as <-. cbn [app]. eapply wp_basic; [reflexivity|reflexivity|]. eapply wp_basic; [reflexivity| |].
    { cbn [step binop]. reflexivity. }
    apply Main. destruct (v =? (if (a <=? b)%nat then 0 else 1)); exact Hy.
  - injection Ec as <-. cbn [app]. apply Main. exact Hy.
Qed.

(** Where the labels of the cases of a switch lead. *)
Fixpoint case_dests (d : nat) (cs : list flow) : dests :=
  match cs with
  | [] => []
  | c :: r => (lab (d + List.length r), get_label c) :: case_dests d r
  end.

Definition leaves (m : nat) (o : outcome) (D : dests) (r : outcome) : Prop :=
  exists lb s' l' c w' y m', r = OBr lb s' (l' ++ [c]) w' /\ List.length l' = cl /\ In (lb, Some y) D /\ (m' <= m)%nat /\ runs P m' y l' w' o.

Definition first (cs : list flow) (K : option label) : option label :=
  match cs with [] => K | c :: _ => start c K end.

Lemma case_dests_below : forall d cs lb y, In (lb, y) (case_dests d cs) -> exists k, (k < d + List.length cs)%nat /\ lb = lab k.
Proof.
  intros d cs. induction cs as [|c r IH]; cbn [case_dests In List.length]; intros lb y H; [destruct H|].
  destruct H as [H|H]; [injection H as <- <-; exists (d + List.length r)%nat; split; [lia|reflexivity]|].
  destruct (IH _ _ H) as (k&A&B). exists k. split; [lia|exact B].
Qed.

Lemma get_label_start : forall c x K, get_label c = Some x -> start c K = Some x.
Proof. intros c x K H. destruct c; cbn in *; try discriminate H. exact H. Qed.

Lemma sim_cases : forall T A D K d, agree T A D d -> forall cs, Forall sim cs ->
  (fix chain (cs : list flow) : Prop :=
         match cs with
         | [] => True
         | c :: r => shaped A (match r with [] => K | c' :: _ => start c' K end) c /\ chain r
         end) cs ->
  (fix all (cs : list flow) : Prop := match cs with [] => True | c :: r => ordered c /\ all r end) cs ->
  (fix all (cs : list flow) : Prop := match cs with [] => True | c :: r => drawn c /\ all r end) cs ->
  Forall (fun c => get_label c <> None) cs ->
  forall k code jt', cases_code (fun d c jt => tr cl T d c jt) d cs k None = Some (code, jt') ->
  jt' = None /\
  forall m l c w o, ends o ->
    wp k (fun r => post m o D (first cs K) r \/ leaves m o (case_dests d cs) r) [] (l ++ [c]) w ->
    wp code (post m o D K) [] (l ++ [c]) w.
Proof.
  intros T A D K d Hg cs HF. induction HF as [|c r Hc HF IH]; intros Hs Ho Hd Hl k code jt' E.
  - cbn in E. injection E as <- <-. split; [reflexivity|]. intros m l c w o Eo W. eapply wp_conseq; [exact W|].
    intros x [H|H]; [exact H|]. destruct H as (?&?&?&?&?&?&?&_&_&[]&_).
  - destruct Hs as (S1&S2), Ho as (O1&O2), Hd as (D1&D2). inversion Hl as [|? ? L1 L2]; subst.
    cbn [cases_code] in E. set (dc := (d + List.length r)%nat) in *.
    destruct (tr cl T dc c None) as [[b jt1]|] eqn:Et; [|discriminate E].
    assert (Hg1 : agree T A D dc).
    { eapply agree_weaken; [exact Hg|subst dc; lia|intros p Hp; exact Hp|]. intros lb y H. destruct Hg as (_&_&_&G4). eapply below; eauto. subst dc. lia. }
    destruct (Hc T dc A _ D None b jt1 Et S1 O1 D1 Hg1) as (->&Wb).
    { intros _. reflexivity. }
    destruct (IH S2 O2 D2 L2 _ _ _ E) as (J&W). split; [exact J|].
    intros m l v w o Eo Wk. apply W; [exact Eo|]. clear W E J IH.
    assert (Ln : Forall sim r) by exact HF.
    destruct (get_label c) as [x|] eqn:Ex; [|congruence]. pose proof (get_label_start _ _ K Ex) as Sx.
    assert (Cont : forall l' c' w' y m', List.length l' = cl -> y = x -> (m' <= m)%nat -> runs P m' y l' w' o ->
      wp b (fun r0 => post m o D (first r K) r0 \/ leaves m o (case_dests d r) r0) [] (l' ++ [c']) w').
    { intros l' c' w' y m' L' -> M R. eapply wp_conseq; [eapply Wb; [exact L'| |exact R]; apply start_entry; destruct c; try discriminate Ex; exact Ex|].
      intros q Hq. left. eapply post_mono; [exact M|exact Hq]. }
    apply wp_block. eapply wp_conseq; [exact Wk|]. intros q [Hq|Hq].
    + cbn [first] in Hq. rewrite Sx in Hq. destruct q as [s' l' w'|lb s' l' w'|s' l' w'| | |]; cbn [blk firstn app].
      * destruct Hq as (l0&c'&m'&y&->&L0&Ey&M&R). injection Ey as <-. eapply Cont; eauto.
      * destruct (String.eqb (lab dc) lb) eqn:Q; [|left; exact Hq].
        apply String.eqb_eq in Q. subst lb. destruct Hq as [(c'&_&Q)|(l0&c'&m'&z&->&L0&I&M&R0)]; [destruct (lab_result _ Q)|].
        destruct Hg as (_&_&_&G4). destruct (G4 _ _ I) as (q&Hq&Q). apply lab_inj in Q. subst dc. lia.
      * left. exact Hq.
      * left. exact Hq.
      * left. exact Hq.
      * left. exact Hq.
    + destruct Hq as (lb&s'&l'&c'&w'&y&m'&->&L'&I&M&R). cbn [blk]. cbn [case_dests] in I. destruct I as [I|I].
      * injection I as I1 I2. fold dc in I1. subst lb. rewrite String.eqb_refl. cbn [firstn app]. rewrite Ex in I2. injection I2 as <-. eapply Cont; eauto.
      * destruct (String.eqb (lab dc) lb) eqn:Q.
        -- apply String.eqb_eq in Q. subst lb. destruct (case_dests_below _ _ _ _ I) as (q&Hq&Q). apply lab_inj in Q. subst dc. lia.
        -- right. exists lb, s', l', c', w', y, m'. auto 10.
Qed.

Lemma all_some_forall : forall {A} (l : list (option A)) r, all_some l = Some r -> Forall (fun o => o <> None) l.
Proof.
  intros A l. induction l as [|o l IH]; cbn; intros r H; constructor.
  - destruct o; [discriminate|discriminate H].
  - destruct o; [|discriminate H]. destruct (all_some l) eqn:E; [|discriminate H]. eapply IH. reflexivity.
Qed.

Lemma all_some_nth : forall {A} (l : list (option A)) r i x, all_some l = Some r -> nth_error l i = Some x -> exists v, x = Some v /\ nth_error r i = Some v.
Proof.
  intros A l. induction l as [|o l IH]; cbn; intros r i x H Hn; [destruct i; discriminate Hn|].
  destruct o as [a|]; [|discriminate H]. destruct (all_some l) eqn:E; [|discriminate H]. injection H as <-.
  destruct i; cbn in *; [injection Hn as <-; eauto|]. eapply IH; eauto.
Qed.

Lemma br_table_spec : forall ts i def (Q : outcome -> Prop) l v w lb, List.length l = cl -> i <= v ->
  nth_error ts (Z.to_nat (v - i)) = Some lb -> Q (OBr lb [] (l ++ [v]) w) -> wp (br_table cl i ts def) Q [] (l ++ [v]) w.
Proof.
  induction ts as [|t ts IH]; intros i def Q l v w lb L Hi Hn HQ; [destruct (Z.to_nat (v - i)); discriminate Hn|].
  cbn [br_table app]. eapply wp_basic; [reflexivity| |].
  { cbn [step]. rewrite nth_error_app2 by lia. rewrite L, Nat.sub_diag. cbn [nth_error]. reflexivity. }
  eapply wp_basic; [reflexivity|reflexivity|]. eapply wp_basic; [reflexivity|cbn [step binop]; reflexivity|].
  destruct (Z.eqb_spec v i) as [E|E]; apply wp_brif; intros Hz; cbn in Hz; try lia.
  - subst v. rewrite Z.sub_diag in Hn. injection Hn as ->. exact HQ.
  - eapply (IH (i + 1)); eauto; [lia|]. replace (Z.to_nat (v - i)) with (S (Z.to_nat (v - (i + 1)))) in Hn by lia. exact Hn.
Qed.

Lemma case_labels_dests : forall d cs y lb, Forall (fun c => get_label c <> None) cs ->
  lookup y (case_labels d cs) = Some lb -> In (lb, Some y) (case_dests d cs).
Proof.
  intros d cs y lb H. induction H as [|c r Hc H IH]; cbn [case_labels case_dests lookup]; [discriminate|].
  destruct (get_label c) as [x|]; [|congruence]. destruct (Nat.eqb y x) eqn:E; intros Hl; [|right; auto].
  apply Nat.eqb_eq in E. injection Hl as <-. left. subst. reflexivity.
Qed.

Lemma sim_switch : forall cs, Forall sim cs -> sim (FSwitch cs).
Proof.
  intros cs HF T d A K D jt code jt' E Hs Ho Hd Hg _. cbn [tr] in E. destruct jt as [offs|]; [|discriminate E].
  destruct (all_some (map (fun c => get_label c) cs)) as [lns|] eqn:El; [|discriminate E].
  destruct (table (case_labels d cs) offs) as [ts|] eqn:Et; [|discriminate E].
  destruct (cases_code _ _ _ _ _) as [[k jt1]|] eqn:Ek in E; [|discriminate E]. injection E as <- <-.
  assert (Hl : Forall (fun c => get_label c <> None) cs).
  { apply all_some_forall in El. clear - El. induction cs; cbn in *; constructor; inversion El; auto. }
  destruct (sim_cases T A D K d Hg cs HF Hs Ho Hd Hl _ _ _ Ek) as (J&W). split; [exact J|].
  intros m s l c w o y L Hy R. cbn [entry] in Hy. destruct s as [|v [|? ?]]; try discriminate Hy.
  destruct (Z.leb_spec 0 v) as [Hv|]; [|discriminate Hy].
  eapply wp_basic; [reflexivity| |].
  { cbn [step]. rewrite nth_error_app2 by lia. rewrite L, Nat.sub_diag. cbn [nth_error]. reflexivity. }
  assert (Es : set_nth cl v (l ++ [c]) = l ++ [v]).
  { clear - L. revert l L. induction cl; intros [|x l] L; cbn in *; try lia; [reflexivity|]. f_equal. apply IHn. lia. }
  rewrite Es. apply W; [eapply runs_ends; exact R|]. apply wp_block.
  destruct (all_some_nth _ _ (Z.to_nat v) (lookup y (case_labels d cs)) Et) as (lb&E1&E2).
  { apply map_nth_error with (f := fun a => lookup a (case_labels d cs)) in Hy. exact Hy. }
  pose proof (case_labels_dests _ _ _ _ Hl E1) as I.
  eapply (br_table_spec ts 0); [exact L|lia|rewrite Z.sub_0_r; exact E2|]. cbn [blk].
  destruct (String.eqb _ lb) eqn:Q.
  { apply String.eqb_eq in Q. destruct (case_dests_below _ _ _ _ I) as (q&Hq&Q2). rewrite <- Q in Q2. apply lab_inj in Q2. lia. }
  right. exists lb, [], l, v, w, y, m. auto 10.
Qed.

Theorem simulates : forall f, sim f.
Proof.
  apply flow_ind'; [apply sim_simple|apply sim_loop|apply sim_ifelse|apply sim_switch|apply sim_empty].
Qed.

Lemma build_drawn : forall sh f, build P sh = Some f -> drawn f.
Proof.
  fix IH 1. intros [x imm next br|id inner next|hs] f H; cbn [build] in H.
  - destruct (P x) as [c|] eqn:Px; [|discriminate H].
    assert (H1 : forall g, match imm with Some b => build P b | None => Some FEmpty end = Some g -> drawn g).
    { intros g Hg. destruct imm; [eapply IH; exact Hg|injection Hg as <-; exact Logic.I]. }
    assert (H2 : forall g, match next with Some b => build P b | None => Some FEmpty end = Some g -> drawn g).
    { intros g Hg. destruct next; [eapply IH; exact Hg|injection Hg as <-; exact Logic.I]. }
    destruct (match imm with Some b => build P b | None => Some FEmpty end); [|discriminate H].
    destruct (match next with Some b => build P b | None => Some FEmpty end); [|discriminate H]. injection H as <-. cbn. auto.
  - assert (H1 : forall g, build P inner = Some g -> drawn g) by (intros g Hg; eapply IH; exact Hg).
    assert (H2 : forall g, match next with Some b => build P b | None => Some FEmpty end = Some g -> drawn g).
    { intros g Hg. destruct next; [eapply IH; exact Hg|injection Hg as <-; exact Logic.I]. }
    destruct (build P inner); [|discriminate H].
    destruct (match next with Some b => build P b | None => Some FEmpty end); [|discriminate H]. injection H as <-. cbn. auto.
  - assert (A : forall fs, all_some (map (build P) hs) = Some fs -> Forall drawn fs).
    { clear H f. induction hs as [|h hs IHh]; cbn; intros fs Hf; [injection Hf as <-; constructor|].
      pose proof (IH h) as Hh. destruct (build P h) as [g|]; [|discriminate Hf]. destruct (all_some (map (build P) hs)); [|discriminate Hf].
      injection Hf as <-. constructor; [apply Hh; reflexivity|apply IHh; reflexivity]. }
    destruct (all_some (map (build P) hs)) as [fs|]; [|discriminate H]. specialize (A _ eq_refl). clear IH.
    assert (G : (if forallb is_simple fs then Some (FSwitch fs) else None) = Some f -> drawn f).
    { intros Hg. destruct (forallb is_simple fs); [|discriminate Hg]. injection Hg as <-. cbn. clear - A. induction A; [exact Logic.I|]. split; assumption. }
    destruct fs as [|f1 [|f2 [|f3 fs]]]; auto.
    + injection H as <-. inversion A; auto.
    + injection H as <-. inversion A as [|? ? A1 A2]; subst. inversion A2; subst. cbn. auto.
Qed.

End Sim.

Lemma shape_ind' : forall (Q : shape -> Prop),
  (forall x imm next br, match imm with Some i => Q i | None => True end -> match next with Some n => Q n | None => True end -> Q (ShSimple x imm next br)) ->
  (forall id inner next, Q inner -> match next with Some n => Q n | None => True end -> Q (ShLoop id inner next)) ->
  (forall hs, Forall Q hs -> Q (ShMultiple hs)) -> forall sh, Q sh.
Proof.
  intros Q H1 H2 H3. fix IH 1. intros [x imm next br|id inner next|hs].
  - apply H1; [destruct imm; [apply IH|exact Logic.I]|destruct next; [apply IH|exact Logic.I]].
  - apply H2; [apply IH|destruct next; [apply IH|exact Logic.I]].
  - apply H3. induction hs as [|h hs IHh]; constructor; [apply IH|exact IHh].
Qed.

Definition builds (P : graph) (sh : shape) : Prop := forall f, build P sh = Some f ->
  (forall K, start f K = starts sh K) /\ get_label f = simple_label sh /\
  match sh with
  | ShMultiple [th; el] => exists t e, f = FIfElse t e /\ (forall K, start t K = starts th K) /\ (forall K, start e K = starts el K)
  | ShMultiple (_ :: _ :: _ :: _) => exists cs, f = FSwitch cs
  | _ => True
  end /\
  (forall A K, right_shape P A K sh -> shaped A K f /\ (right_order P sh -> ordered f)).

Lemma build_opt : forall P o f, match o with Some i => builds P i | None => True end ->
  match o with Some b => build P b | None => Some FEmpty end = Some f ->
  (forall K, start f K = starts_opt o K) /\ get_label f = next_label o /\
  (forall A K, match o with Some i => right_shape P A K i | None => True end ->
     shaped A K f /\ (match o with Some i => right_order P i | None => True end -> ordered f)).
Proof.
  intros P [i|] f Hb H; cbn [starts_opt next_label].
  - destruct (Hb f H) as (A&B&_&C). auto.
  - injection H as <-. cbn. auto.
Qed.

Lemma all_some_builds : forall P hs fs, Forall (builds P) hs -> all_some (map (build P) hs) = Some fs ->
  Forall2 (fun h f => builds P h /\ build P h = Some f) hs fs.
Proof.
  intros P hs. induction hs as [|h hs IH]; cbn; intros fs HF H; [injection H as <-; constructor|].
  inversion HF; subst. destruct (build P h) eqn:E; [|discriminate H]. destruct (all_some (map (build P) hs)); [|discriminate H]. injection H as <-.
  constructor; auto.
Qed.

Lemma leads_followed : forall P A br t imm K f, match imm with Some b => build P b | None => Some FEmpty end = Some f ->
  match imm with Some i => builds P i | None => True end ->
  leads A br t imm K -> followed A br t f K /\
  (match t, imm with TBrFalse a b, Some (ShMultiple [_; _]) => (b < a)%nat | TBrTrue a b, Some (ShMultiple [_; _]) => (a < b)%nat | _, _ => True end ->
   match t, f with TBrFalse a b, FIfElse _ _ => (b < a)%nat | TBrTrue a b, FIfElse _ _ => (a < b)%nat | _, _ => True end).
Proof.
  intros P A br t imm K f Hf Hb Hl. destruct (build_opt P imm f Hb Hf) as (B1&_&_).
  assert (Two : forall a b, two_arms imm K a b -> arms f K a b /\ exists th el, imm = Some (ShMultiple [th; el])).
  { intros a b H. destruct imm as [[| |[|th [|el [|? ?]]]]|]; try destruct H. destruct H0 as (H1&H2). split; [|eauto].
    destruct (Hb f Hf) as (_&_&(t'&e'&->&S1&S2)&_). cbn. rewrite S1, S2. auto. }
  assert (NI : forall z, starts_opt imm K = Some z -> match f with FIfElse _ _ => False | _ => True end).
  { intros z Hz. rewrite <- B1 in Hz. destruct f; auto. discriminate Hz. }
  destruct t as [n|a|a n|a n|offs|]; cbn [leads followed] in *.
  - rewrite B1. auto.
  - destruct (lookup a br); [auto|]. rewrite B1. auto.
  - destruct (lookup a br).
    + destruct Hl as [H1 H2]. pose proof (NI _ H2) as H3. split; [rewrite B1; auto|]. intros _. destruct f; auto. destruct H3.
    + destruct (Two _ _ Hl) as (H1&th&el&->). split; [exact H1|]. intros Ho. destruct f; auto.
  - destruct (lookup a br).
    + destruct Hl as [H1 H2]. pose proof (NI _ H2) as H3. split; [rewrite B1; auto|]. intros _. destruct f; auto. destruct H3.
    + destruct (Two _ _ Hl) as (H1&th&el&->). split; [exact H1|]. intros Ho. destruct f; auto.
  - split; [|auto]. destruct imm as [[| |[|h1 [|h2 [|h3 hs]]]]|]; try destruct Hl.
    + destruct (Hb f Hf) as (_&_&(t'&e'&Ef&_)&_). subst f. destruct offs as [|a [|b [|? ?]]]; auto. apply Two. exact Hl.
    + destruct (Hb f Hf) as (_&_&(cs&Ef)&_). subst f. exact Logic.I.
  - auto.
Qed.

Lemma builds_ok : forall P sh, builds P sh.
Proof.
  intros P. apply shape_ind'.
  - intros x imm next br I1 I2 f H. cbn [build] in H. destruct (P x) as [[is t]|] eqn:Px; [|discriminate H].
    destruct (match imm with Some b => build P b | None => Some FEmpty end) as [fi|] eqn:Ei; [|discriminate H].
    destruct (match next with Some b => build P b | None => Some FEmpty end) as [fn|] eqn:En; [|discriminate H]. injection H as <-.
    destruct (build_opt P imm fi I1 Ei) as (A1&A2&A3). destruct (build_opt P next fn I2 En) as (N1&N2&N3).
    split; [reflexivity|]. split; [reflexivity|]. split; [exact Logic.I|]. intros A K Hs. cbn [right_shape] in Hs. rewrite Px in Hs.
    destruct Hs as (L1&L2&L3). destruct (leads_followed P _ _ _ _ _ _ Ei I1 L1) as (F1&F2).
    apply A3 in L2. apply N3 in L3. destruct L2 as [L2 L2'], L3 as [L3 L3'].
    split; [cbn [shaped]; rewrite N1, N2; auto|]. cbn [right_order ordered]. rewrite Px. intros (O1&O2&O3). split; [|auto]. apply F2. destruct t; auto.
  - intros id inner next I1 I2 f H. cbn [build] in H. destruct (build P inner) as [fi|] eqn:Ei; [|discriminate H].
    destruct (match next with Some b => build P b | None => Some FEmpty end) as [fn|] eqn:En; [|discriminate H]. injection H as <-.
    destruct (I1 fi Ei) as (A1&A2&_&A3). destruct (build_opt P next fn I2 En) as (N1&N2&N3).
    split; [intros K; cbn [start starts]; rewrite N1, A1; reflexivity|]. split; [reflexivity|]. split; [exact Logic.I|].
    intros A K Hs. cbn [right_shape] in Hs. destruct Hs as (L2&L3). apply A3 in L2. apply N3 in L3. destruct L2 as [L2 L2'], L3 as [L3 L3'].
    split; [cbn [shaped]; rewrite N1, A1; auto|]. cbn [right_order ordered]. intros (O2&O3). auto.
  - intros hs HF f H. cbn [build] in H. destruct (all_some (map (build P) hs)) as [fs|] eqn:E; [|discriminate H].
    pose proof (all_some_builds P hs fs HF E) as F2. clear HF E.
    assert (Sw : forall h1 h2 h3 hs' f1 f2 f3 fs', hs = h1 :: h2 :: h3 :: hs' -> fs = f1 :: f2 :: f3 :: fs' ->
      (if forallb is_simple fs then Some (FSwitch fs) else None) = Some f ->
      (forall K, start f K = None) /\ get_label f = None /\ (exists cs, f = FSwitch cs) /\
      (forall A K, right_shape P A K (ShMultiple hs) -> shaped A K f /\ (right_order P (ShMultiple hs) -> ordered f))).
    { intros h1 h2 h3 hs' f1 f2 f3 fs' Eh Ef Hf. destruct (forallb is_simple fs); [|discriminate Hf]. injection Hf as <-.
      split; [reflexivity|]. split; [reflexivity|]. split; [eauto|]. intros A K Hs0.
      assert (Hs : (fix chain (hs : list shape) : Prop :=
             match hs with
             | [] => True
             | h :: r => right_shape P A (match r with [] => K | h' :: _ => starts h' K end) h /\ chain r
             end) hs) by (rewrite Eh in Hs0 |- *; exact Hs0).
      cbn [shaped right_order ordered]. clear Eh Ef. clear - F2 Hs. induction F2 as [|h f hs fs (B&Eb) F2 IH]; [auto|]. destruct Hs as [S1 S2].
      destruct (B f Eb) as (B1&_&_&B2). apply B2 in S1. destruct (IH S2) as [Q1 Q2]. destruct S1 as [S1 S1'].
      split; [|intros (O1&O2); exact (conj (S1' O1) (Q2 O2))]. split; [|exact Q1]. inversion F2 as [|h' f' ? ? (B'&Eb')]; subst; [exact S1|].
      destruct (B' f' Eb') as (B1'&_). rewrite B1'. exact S1. }
    inversion F2 as [|h1 f1 hs1 fs1 (B1&Eb1) F3]; subst; [cbn in H; injection H as <-; cbn; auto 10|].
    inversion F3 as [|h2 f2 hs2 fs2 (B2&Eb2) F4]; subst.
    + injection H as <-. destruct (B1 f1 Eb1) as (C1&C2&_&C3). split; [exact C1|]. split; [exact C2|]. split; [exact Logic.I|].
      intros A K Hs. cbn [right_shape] in Hs. apply C3 in Hs. destruct Hs as [Hs Hs']. split; [exact Hs|]. cbn [right_order]. intros (O1&_). auto.
    + inversion F4 as [|h3 f3 hs3 fs3 (B3&Eb3) F5]; subst.
      * injection H as <-. destruct (B1 f1 Eb1) as (C1&_&_&C3). destruct (B2 f2 Eb2) as (C4&_&_&C5).
        split; [reflexivity|]. split; [reflexivity|]. split; [eauto|]. intros A K Hs. cbn [right_shape] in Hs. destruct Hs as (S1&S2).
        apply C3 in S1. apply C5 in S2. cbn. intuition.
      * destruct (Sw _ _ _ _ _ _ _ _ eq_refl eq_refl H) as (Q1&Q2&Q3&Q4). auto.
Qed.

Section Sim2.
Variables (P : graph) (cl : nat).

(** The code of a whole function body. *)
Lemma flow_code : forall f code, translate cl f = Some code -> shaped (mkA [] []) None f -> ordered f -> drawn P f ->
  forall m x l c w o, start f None = Some x -> List.length l = cl -> runs P m x l w o ->
  exists n c', exec n code [] (l ++ [c]) w = lift [c'] o.
Proof.
  intros f code Ht Hs Ho Hd m x l c w o Hx L R. unfold translate in Ht.
  destruct (tr cl (mkT [] []) 0 f None) as [[cd jt]|] eqn:E; [|discriminate Ht]. injection Ht as ->.
  destruct (simulates P cl f (mkT [] []) 0%nat (mkA [] []) None [] None code jt E Hs Ho Hd) as (_&W).
  { split; [reflexivity|]. split; [intros lb a []|]. split; [constructor|intros lb y []]. }
  { reflexivity. }
  destruct (W m [] l c w o x L (start_entry _ _ _ Hx) R) as (n&N&Q). exists n.
  destruct (exec n code [] (l ++ [c]) w) as [s' l' w'|lb s' l' w'|s' l' w'| | |]; cbn in Q; auto.
  - destruct Q as (?&?&?&?&_&_&Q&_). discriminate Q.
  - destruct Q as [(c'&Q&_)|(?&?&?&?&_&_&[]&_)]. exists c'. exact Q.
Qed.
End Sim2.

Lemma function_flow : forall P sh f np nl r ts code, build P sh = Some f -> right_shape P (mkA [] []) None sh -> right_order P sh ->
  translate (np + nl) f = Some code -> (r < np + nl)%nat ->
  forall m x args w o, starts sh None = Some x -> List.length args = np -> runs P m x (args ++ repeat 0 nl) w o ->
  evals (move_function np (S nl) r code ts) args w (result_of r (if ts then 0 else 1) o).
Proof.
  intros P sh f np nl r ts code Hb Hs Ho Ht Hr m x args w o Hx Ha R.
  destruct (builds_ok P sh f Hb) as (B1&_&_&B2). apply B2 in Hs. destruct Hs as [Hs B3]. apply B3 in Ho. rewrite <- B1 in Hx. clear B1 B2 B3.
  pose proof (build_drawn P sh f Hb) as Hd. pose proof (runs_ends P _ _ _ _ _ R) as Eo.
  assert (Ll : List.length (args ++ repeat 0 nl) = (np + nl)%nat) by (rewrite app_length, repeat_length, Ha; reflexivity).
  destruct (flow_code P (np + nl) f code Ht Hs Ho Hd m x (args ++ repeat 0 nl) 0 w o Hx Ll R) as (n&c'&E).
  assert (Ea : args ++ repeat 0 (S nl) = (args ++ repeat 0 nl) ++ [0]).
  { rewrite <- app_assoc. f_equal. rewrite <- repeat_cons. reflexivity. }
  assert (Ol : match o with OBr _ _ l' _ => List.length l' = (np + nl)%nat | _ => True end).
  { pose proof (exec_keeps n code [] ((args ++ repeat 0 nl) ++ [0]) w) as Kp. rewrite E in Kp. destruct o; auto.
    cbn in Kp. specialize (Kp _ eq_refl). rewrite !app_length in Kp. rewrite !app_length in Ll. cbn in Kp. lia. }
  exists (S (S n)). unfold runf, move_function. rewrite Ha, Nat.eqb_refl. cbn [negb]. rewrite Ea. cbn [app]. rewrite exec_block.
  assert (Nf : lift [c'] o <> OFuel) by (destruct o; try discriminate; destruct Eo).
  rewrite (exec_mono n (S n) code [] ((args ++ repeat 0 nl) ++ [0]) w) by (rewrite ?E; auto). rewrite E.
  destruct o as [s l w'|lb s l w'|s l w'| | |]; try destruct Eo; cbn [lift bindo result_of].
  - rewrite String.eqb_refl. cbn [firstn app bindo]. destruct ts; [split; [reflexivity|discriminate]|].
    cbn [exec step]. rewrite nth_error_app1 by lia. rewrite (nth_error_nth' l 0) by lia. cbn [bindo].
    destruct n; [discriminate E|]. cbn [exec]. split; [reflexivity|discriminate].
  - split; [reflexivity|discriminate].
  - split; [reflexivity|discriminate].
Qed.
