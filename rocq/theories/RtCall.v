(** * Calls between Move functions: translation/functions.rs. *)

From Verif Require Import SpecInt SpecVal Tac RtAlloc RtErr RtInt RtDiv Ops RtAscii LemAbi RtCopy RtStor RtRouter.
Ltac Zify.zify_post_hook ::= idtac.

(** functions.rs 203-207: pop [n] values into the locals [b .. b+n-1], the last value first
    (intermediate_types.rs [add_stack_to_local_instructions]: local.set of a new local). *)
Fixpoint spill (b n : nat) : list instr :=
  match n with O => [] | S n' => LocalSet (b + n') :: spill b n' end.
(** functions.rs 214-224: store the locals from [b] at the running offset. *)
Fixpoint store_returns (r b : nat) (ts : list ty) (off : Z) : list instr :=
  match ts with
  | [] => []
  | t :: ts' => [ LocalGet r; LocalGet b; Store (esize t) off ] ++ store_returns r (S b) ts' (off + Z.of_nat (esize t))
  end.
Definition total_size (ts : list ty) : Z := fold_right Z.add 0 (map (fun t => Z.of_nat (esize t)) ts).
(** functions.rs 192-230 [prepare_function_return].  [r]: result_local_id, [b]: first of the fresh
    locals, "result": result_block_id. *)
Definition prepare_return (r b : nat) (ts : list ty) : list instr :=
  (match ts with
   | [] => []
   | _ => spill b (List.length ts) ++ [ Const (total_size ts); Call alloc; LocalSet r ] ++ store_returns r b ts 0
   end) ++ [ Br "result" ].

(** functions.rs 165-186 [add_unpack_function_return_values_instructions].  [q]: pointer. *)
Fixpoint load_returns (q : nat) (ts : list ty) (off : Z) : list instr :=
  match ts with
  | [] => []
  | t :: ts' => [ LocalGet q; Load (esize t) off ] ++ load_returns q ts' (off + Z.of_nat (esize t))
  end.
Definition unpack_return (q : nat) (ts : list ty) : list instr :=
  match ts with [] => [] | _ => LocalSet q :: load_returns q ts 0 end.

(** translation.rs 251-289: a translated function runs its code inside the block "result" and
    then pushes the result local [r] if it has results.  The code [body] is any code; its Ret
    instructions (translation.rs 1910-1945) are [prepare_return r b ts] with fresh locals from [b]. *)
Definition move_function (np nl r : nat) (body : list instr) (ts : list ty) : func :=
  Func np nl (if ts then 0 else 1) ([ Block "result" 0 body ] ++ if ts then [] else [ LocalGet r ]).

(** translation.rs 3267-3290 [call_indirect] (a call through the function table: the callee is given
    by its body here): the code after the arguments were pushed.  [q]: the local of the return pointer;
    [rt]: whether the caller has a result. *)
Definition call_code (f : func) (ts : list ty) (rt : bool) (q : nat) : list instr :=
  [ Call f ] ++ propagate rt ++ unpack_return q ts.
(** ** Facts about the interpreter *)

Definition locals_of (o : outcome) : option (list Z) :=
  match o with ONormal _ l _ | OBr _ _ l _ | ORet _ l _ => Some l | _ => None end.
Definition keeps (k : nat) (o : outcome) : Prop := forall l, locals_of o = Some l -> List.length l = k.

Lemma keeps_bindo : forall k o f, keeps k o -> (forall s l w, List.length l = k -> keeps k (f s l w)) -> keeps k (bindo o f).
Proof. intros k o f H1 H2. destruct o; cbn [bindo]; try exact H1. apply H2. apply H1. reflexivity. Qed.

Lemma keeps_hostcall : forall h s l w, keeps (List.length l) (hostcall h s l w).
Proof.
  intros h s l w l' H. destruct h; cbn [hostcall] in H; unfold do_call in H; do 7 (try (destruct s as [|? s]; try discriminate H));
    repeat match type of H with context[if ?c then _ else _] => destruct c; try discriminate H end; injection H as <-; reflexivity.
Qed.

Lemma keeps_step : forall i s l w, keeps (List.length l) (step i s l w).
Proof.
  intros i s l w. destruct i; cbn [step]; try (intros l' H; discriminate H);
    try (intros l' H; injection H as <-; reflexivity).
  - intros l' H. destruct s as [|b [|a s]]; try discriminate H. destruct (binop t o a b); [injection H as <-; reflexivity|discriminate H].
  - intros l' H. destruct s; [discriminate H|]. injection H as <-; reflexivity.
  - intros l' H. destruct (nth_error l x); [injection H as <-; reflexivity|discriminate H].
  - intros l' H. destruct s; [discriminate H|]. destruct (nth_error l x); [|discriminate H]. injection H as <-. apply set_nth_length.
  - intros l' H. destruct s; [discriminate H|]. destruct (nth_error l x); [|discriminate H]. injection H as <-. apply set_nth_length.
  - intros l' H. destruct s; [discriminate H|]. injection H as <-; reflexivity.
  - intros l' H. destruct s; [discriminate H|]. destruct (inb _ _ _); [injection H as <-; reflexivity|discriminate H].
  - intros l' H. destruct s as [|b [|a s]]; try discriminate H. destruct (inb _ _ _); [injection H as <-; reflexivity|discriminate H].
  - intros l' H. destruct s as [|b [|a [|c s]]]; try discriminate H. destruct (_ && _); [injection H as <-; reflexivity|discriminate H].
  - intros l' H. destruct s as [|b [|a [|c s]]]; try discriminate H. destruct (inb _ _ _); [injection H as <-; reflexivity|discriminate H].
  - intros l' H. destruct s as [|a s]; try discriminate H. destruct (_ && _); injection H as <-; reflexivity.
  - intros l' H. destruct s; [discriminate H|]. injection H as <-; reflexivity.
  - intros l' H. destruct s; [discriminate H|]. destruct (_ =? _); injection H as <-; reflexivity.
  - apply keeps_hostcall.
Qed.

(** Running code does not change the number of locals. *)
Lemma exec_keeps : forall n is s l w, keeps (List.length l) (exec n is s l w).
Proof.
  induction n as [|n IH]; intros is s l w; [intros l' H; discriminate H|].
  destruct is as [|i r]; [intros l' H; injection H as <-; reflexivity|].
  assert (K : forall o, keeps (List.length l) o -> keeps (List.length l) (bindo o (fun s' l' w' => exec n r s' l' w'))).
  { intros o Ho. apply keeps_bindo; [exact Ho|]. intros s' l' w' E. rewrite <- E. apply IH. }
  destruct (is_basic i) eqn:B; [rewrite exec_basic by exact B; apply K, keeps_step|].
  destruct i; try discriminate B.
  - rewrite exec_block. apply K. pose proof (IH b [] l w) as H. destruct (exec n b [] l w); try exact H;
      try (intros l' E; injection E as <-; apply H; reflexivity).
    destruct (String.eqb _ _); intros l' E; injection E as <-; apply H; reflexivity.
  - rewrite exec_loop. apply K. pose proof (IH b [] l w) as H. destruct (exec n b [] l w) as [| lb' s' l0 w0| | | |]; try exact H;
      try (intros l' E; injection E as <-; apply H; reflexivity).
    destruct (String.eqb _ _); [|intros l' E; injection E as <-; apply H; reflexivity].
    assert (L : List.length l0 = List.length l) by (apply H; reflexivity). rewrite <- L. apply IH.
  - destruct s as [|c s0]; [intros l' H; discriminate H|]. rewrite exec_if. apply K. apply keeps_bindo; [apply IH|].
    intros s' l' w' E l2 H. injection H as <-. exact E.
  - destruct f as [np nl nr b]. rewrite exec_call. apply K. destruct (_ <? _)%nat; [intros l' H; discriminate H|].
    destruct (exec n b [] _ w); intros l' H; try discriminate H; injection H as <-; reflexivity.
Qed.

(** Sequencing after code that completes normally. *)
Lemma wp_seq : forall a n b (Q : outcome -> Prop) s l w s' l' w', exec n a s l w = ONormal s' l' w' ->
  wp b Q s' l' w' -> wp (a ++ b) Q s l w.
Proof.
  induction a as [|i a IH]; intros n b Q s l w s' l' w' H Hb.
  { destruct n; [discriminate H|]. cbn in H. injection H as <- <- <-. exact Hb. }
  cbn [app]. apply wp_cons. destruct n as [|n]; [discriminate H|].
  exists (S n). cbn [exec] in H |- *. revert H.
  match goal with |- context[bindo ?o (fun s' l' w' => exec n a s' l' w')] => set (oo := o) end. clearbody oo. intros H.
  destruct oo; cbn [bindo] in *; try discriminate H.
  destruct n as [|n]; [discriminate H|]. cbn [exec]. split; [discriminate|]. cbn [andthen].
  exact (IH _ _ _ _ _ _ _ _ _ H Hb).
Qed.

(** ** Program points

    [at_point k s' l' w' lbs c s l w]: execution of the code [c] from the operand stack [s], the
    locals [l] and the state [w] arrives, possibly inside nested blocks, branches and loops, at the
    code [k] with operand stack [s'], locals [l'] and state [w'].  [lbs] contains the labels of the
    blocks entered. *)
Inductive iterations (lb : string) (b : list instr) : nat -> list Z -> world -> list Z -> world -> Prop :=
| it_none : forall l w, iterations lb b 0 l w l w
| it_more : forall n j l w s1 l1 w1 l2 w2, exec n b [] l w = OBr lb s1 l1 w1 ->
    iterations lb b j l1 w1 l2 w2 -> iterations lb b (S j) l w l2 w2.
Inductive at_point (k : list instr) (s' l' : list Z) (w' : world) (lbs : list string) :
    list instr -> list Z -> list Z -> world -> Prop :=
| at_here : at_point k s' l' w' lbs k s' l' w'
| at_seq : forall n a b s l w s1 l1 w1, exec n a s l w = ONormal s1 l1 w1 ->
    at_point k s' l' w' lbs b s1 l1 w1 -> at_point k s' l' w' lbs (a ++ b) s l w
| at_block : forall lb ar b r s l w, In lb lbs ->
    at_point k s' l' w' lbs b [] l w -> at_point k s' l' w' lbs (Block lb ar b :: r) s l w
| at_if : forall ar t e r c s l w,
    at_point k s' l' w' lbs (if c =? 0 then e else t) [] l w -> at_point k s' l' w' lbs (If ar t e :: r) (c :: s) l w
| at_loop : forall lb ar b r j s l w l1 w1, In lb lbs -> iterations lb b j l w l1 w1 ->
    at_point k s' l' w' lbs b [] l1 w1 -> at_point k s' l' w' lbs (Loop lb ar b :: r) s l w.

Definition escapes (lbs : list string) (o : outcome) : Prop :=
  match o with OBr lb _ _ _ => ~ In lb lbs | ORet _ _ _ | OTrap => True | _ => False end.

Lemma wp_exec : forall n is (Q : outcome -> Prop) s l w, exec n is s l w <> OFuel -> Q (exec n is s l w) -> wp is Q s l w.
Proof. intros. exists n. auto. Qed.

Lemma at_point_wp : forall k s' l' w' lbs c s l w (Q : outcome -> Prop), at_point k s' l' w' lbs c s l w ->
  (forall o, Q o -> escapes lbs o) -> wp k Q s' l' w' -> wp c Q s l w.
Proof.
  intros k s' l' w' lbs c s l w Q A HQ K. induction A as [|n a b s l w s1 l1 w1 E A IH|lb ar b r s l w Hl A IH|ar t e r c s l w A IH|lb ar b r j s l w l1 w1 Hl It A IH].
  - exact K.
  - eapply wp_seq; [exact E|exact IH].
  - apply wp_block. eapply wp_conseq; [exact IH|]. intros o Ho. pose proof (HQ o Ho) as Ex.
    destruct o; cbn [blk escapes] in *; try contradiction; auto. destruct (String.eqb lb lb0) eqn:E; [|exact Ho].
    apply String.eqb_eq in E. subst lb0. contradiction.
  - apply wp_if; intros C.
    + destruct (c =? 0) eqn:E; [lia|]. eapply wp_conseq; [exact IH|]. intros o Ho. pose proof (HQ o Ho) as Ex.
      destruct o; cbn [ifk escapes] in *; try contradiction; auto.
    + subst c. eapply wp_conseq; [exact IH|]. intros o Ho. pose proof (HQ o Ho) as Ex.
      destruct o; cbn [ifk escapes] in *; try contradiction; auto.
  - eapply (wp_loop (fun i la wa => iterations lb b i la wa l1 w1)); [exact It|]. intros i la wa Hi.
    destruct Hi as [la wa|n i la wa sb l2 wb l3 wc E Hi].
    + eapply wp_conseq; [exact IH|]. intros o Ho. pose proof (HQ o Ho) as Ex.
      destruct o; cbn [loopk escapes] in *; try contradiction; auto. destruct (String.eqb lb lb0) eqn:E; [|exact Ho].
      apply String.eqb_eq in E. subst lb0. contradiction.
    + apply (wp_exec n); rewrite E; [discriminate|]. cbn [loopk]. rewrite String.eqb_refl. exists i. split; [lia|exact Hi].
Qed.

(** ** The return convention *)

(** The words [vs] have the widths of the types [ts]. *)
Definition words_of (ts : list ty) (vs : list Z) : Prop := Forall2 (fun t v => 0 <= v < 256 ^ Z.of_nat (esize t)) ts vs.

Lemma words_len : forall ts vs, words_of ts vs -> List.length ts = List.length vs.
Proof. intros ts vs H. induction H; cbn; congruence. Qed.
Lemma total_cons : forall t ts, total_size (t :: ts) = Z.of_nat (esize t) + total_size ts.
Proof. reflexivity. Qed.
Lemma total_nonneg : forall ts, 0 <= total_size ts.
Proof. induction ts; [cbn; lia|]. rewrite total_cons. lia. Qed.

Lemma set_nth_app : forall (l1 : list Z) v x l2, set_nth (List.length l1) v (l1 ++ x :: l2) = l1 ++ v :: l2.
Proof. induction l1; cbn; intros; [reflexivity|]. f_equal. apply IHl1. Qed.
Lemma nth_error_mid : forall (l1 : list Z) x l2, nth_error (l1 ++ x :: l2) (List.length l1) = Some x.
Proof. induction l1; cbn; auto. Qed.

Lemma wp_spill : forall n vs l1 ys l2 r (Q : outcome -> Prop) s w, List.length vs = n -> List.length ys = n ->
  wp r Q s (l1 ++ vs ++ l2) w -> wp (spill (List.length l1) n ++ r) Q (rev vs ++ s) (l1 ++ ys ++ l2) w.
Proof.
  induction n as [|n IH]; intros vs l1 ys l2 r Q s w Lv Ly H.
  { destruct vs; [|discriminate Lv]. destruct ys; [|discriminate Ly]. exact H. }
  destruct (exists_last (l := vs)) as (vs'&v&->); [intros ->; discriminate Lv|].
  destruct (exists_last (l := ys)) as (ys'&y&->); [intros ->; discriminate Ly|].
  rewrite app_length in Lv, Ly. cbn [List.length] in Lv, Ly.
  cbn [spill app]. rewrite rev_app_distr. cbn [rev app].
  replace (List.length l1 + n)%nat with (List.length (l1 ++ ys')) by (rewrite app_length; lia).
  rewrite <- app_assoc. cbn [app]. rewrite app_assoc.
  eapply wp_lset; [apply nth_error_mid|]. rewrite set_nth_app, <- app_assoc.
  apply IH; [lia|lia|]. rewrite <- app_assoc in H. exact H.
Qed.

(** [values m p ts vs]: the words [vs] lie one after the other from [p]. *)
Fixpoint values (m : memory) (p : Z) (ts : list ty) (vs : list Z) : Prop :=
  match ts, vs with
  | [], [] => True
  | t :: ts, v :: vs => load (esize t) m p = v /\ values m (p + Z.of_nat (esize t)) ts vs
  | _, _ => False
  end.

Lemma values_ext : forall ts vs m m' p, (forall x, p <= x < p + total_size ts -> rd m' x = rd m x) -> values m p ts vs -> values m' p ts vs.
Proof.
  induction ts as [|t ts IH]; intros [|v vs] m m' p E H; cbn [values] in *; try tauto. rewrite total_cons in E. pose proof (total_nonneg ts).
  destruct H as [H1 H2]. split; [rewrite <- H1; apply load_ext; intros; apply E; lia|]. eapply IH; [|exact H2]. intros; apply E; lia.
Qed.

Lemma wp_store_returns : forall ts vs r la x lb lc (Q : outcome -> Prop) s w rest p off,
  words_of ts vs -> nth_error (la ++ lb ++ vs ++ lc) r = Some p -> x = List.length (la ++ lb) ->
  wok w -> 0 <= off -> 0 <= p -> p + off + total_size ts <= gnext w ->
  (forall m', (forall a, ~ within (p + off) (total_size ts) a -> rd m' a = rd (mem w) a) -> values m' (p + off) ts vs ->
     wp rest Q s (la ++ lb ++ vs ++ lc) (set_mem w m')) ->
  wp (store_returns r x ts off ++ rest) Q s (la ++ lb ++ vs ++ lc) w.
Proof.
  intros ts. induction ts as [|t ts IH]; intros vs r la x lb lc Q s w rest p off Ws Np -> Hw Ho Hp Hg K.
  - inversion Ws; subst. cbn [store_returns app]. destruct w. apply (K mem); [reflexivity|exact Logic.I].
  - inversion Ws as [|t' v ts' vs' Hv Ws']; subst. rewrite total_cons in *. pose proof (total_nonneg ts) as Ht. pose proof Hw as (P1&P2&P3&P4&P5&P6).
    cbn [store_returns app]. eapply wp_lget; [exact Np|]. eapply wp_lget; [rewrite app_assoc; cbn [app]; apply nth_error_mid|].
    assert (He : 0 < Z.of_nat (esize t)) by (destruct t; cbn; lia).
    eapply wp_store; [lia|unfold page_size; lia|].
    set (w1 := set_mem w (store (Z.of_nat (esize t)) (mem w) (p + off) v)).
    assert (Hw1 : wok w1).
    { apply wok_set_mem; [exact Hw|]. intros y Hy. apply rd_store_out. lia. }
    replace (la ++ lb ++ v :: vs' ++ lc) with (la ++ (lb ++ [v]) ++ vs' ++ lc) by (rewrite <- !app_assoc; reflexivity).
    apply (IH vs' r la _ (lb ++ [v]) lc Q s w1 rest p (off + Z.of_nat (esize t))); [exact Ws'| | |exact Hw1|lia|exact Hp|cbn [gnext w1 set_mem]; lia|].
    + rewrite <- app_assoc. exact Np.
    + rewrite !app_length. cbn [List.length]. lia.
    + intros m' F V. rewrite <- app_assoc. cbn [app]. change (set_mem w1 m') with (set_mem w m'). apply K.
      * intros a Ha. rewrite F by (unfold within in *; lia). cbn [mem w1 set_mem]. apply rd_store_out. unfold within in Ha. lia.
      * cbn [values]. rewrite Z.add_assoc in V. split; [|exact V].
        transitivity (load (esize t) (mem w1) (p + off)).
        { apply load_ext. intros a Ha. apply F. unfold within. lia. }
        cbn [mem w1 set_mem]. rewrite load_store_same. apply Z.mod_small. exact Hv.
Qed.

Lemma wp_load_returns : forall ts vs q (Q : outcome -> Prop) s l w rest p off,
  nth_error l q = Some p -> wok w -> 0 <= p -> 0 <= off -> p + off + total_size ts <= gnext w ->
  values (mem w) (p + off) ts vs -> wp rest Q (rev vs ++ s) l w -> wp (load_returns q ts off ++ rest) Q s l w.
Proof.
  induction ts as [|t ts IH]; intros vs q Q s l w rest p off Nq Hw Hp Ho Hg V K; destruct vs as [|v vs]; cbn [values] in V; try contradiction.
  - exact K.
  - rewrite total_cons in Hg. destruct V as [V1 V2]. pose proof (total_nonneg ts). pose proof Hw as (P1&P2&P3&P4&P5&P6).
    cbn [load_returns app]. eapply wp_lget; [exact Nq|].
    eapply wp_load; [lia|unfold page_size; lia|]. rewrite V1.
    eapply (IH vs); [exact Nq|exact Hw|exact Hp|lia|lia|rewrite Z.add_assoc; exact V2|].
    cbn [rev] in K. rewrite <- app_assoc in K. exact K.
Qed.

Lemma prepare_some : forall r b ts, ts <> [] -> prepare_return r b ts =
  spill b (List.length ts) ++ [ Const (total_size ts); Call alloc; LocalSet r ] ++ store_returns r b ts 0 ++ [ Br "result" ].
Proof. intros r b [|t ts] H; [congruence|]. unfold prepare_return. rewrite <- !app_assoc. reflexivity. Qed.


Lemma split3 : forall (l : list Z) b n, (b + n <= List.length l)%nat ->
  exists l1 ys l2, l = l1 ++ ys ++ l2 /\ List.length l1 = b /\ List.length ys = n.
Proof.
  intros l b n H. exists (firstn b l), (firstn n (skipn b l)), (skipn n (skipn b l)).
  rewrite !firstn_skipn. rewrite !firstn_length, skipn_length. repeat split; lia.
Qed.

Lemma at_point_keeps : forall k s' l' w' lbs c s l w, at_point k s' l' w' lbs c s l w -> List.length l' = List.length l.
Proof.
  intros k s' l' w' lbs c s l w A. induction A as [|n a b s l w s1 l1 w1 E A IH|lb ar b r s l w Hl A IH|ar t e r c s l w A IH|lb ar b r j s l w l1 w1 Hl It A IH]; auto.
  - rewrite IH. pose proof (exec_keeps n a s l w l1) as K. rewrite E in K. apply K. reflexivity.
  - rewrite IH. clear - It. induction It; [reflexivity|]. rewrite IHIt. pose proof (exec_keeps n b [] l w l1) as K. rewrite H in K. apply K. reflexivity.
Qed.

Lemma set_nth_app_l : forall r v (l1 l2 : list Z), (r < List.length l1)%nat -> set_nth r v (l1 ++ l2) = set_nth r v l1 ++ l2.
Proof. induction r; intros v [|x l1] l2 H; cbn in *; try lia; [reflexivity|]. f_equal. apply IHr. lia. Qed.
Lemma nth_set_nth_same : forall r v (l : list Z), (r < List.length l)%nat -> nth_error (set_nth r v l) r = Some v.
Proof. induction r; intros v [|x l] H; cbn in *; try lia; [reflexivity|]. apply IHr. lia. Qed.

(** What a Ret does, wherever in the body it is. *)
Lemma return_spec : forall np nl r b body ts args w k lbs s l' w1 vs, List.length args = np ->
  at_point (prepare_return r b ts ++ k) (rev vs ++ s) l' w1 lbs body [] (args ++ repeat 0 nl) w -> ~ In "result"%string lbs ->
  (r < b)%nat -> (b + List.length ts <= np + nl)%nat ->
  wok w1 -> words_of ts vs -> total_size ts < 2147483648 ->
  wpf (move_function np nl r body ts) args w (resq (fun rs w2 =>
      if ts then rs = [] /\ w2 = w1
      else rs = [gnext w1] /\ extends w1 w2 /\ gnext w2 = gnext w1 + total_size ts /\ values (mem w2) (gnext w1) ts vs)
    (oom w1 (total_size ts))).
Proof.
  intros np nl r b body ts args w k lbs s l' w1 vs Ha Hb Hl Hr Hn Hw Ws Ht. unfold move_function.
  pose proof (at_point_keeps _ _ _ _ _ _ _ _ _ Hb) as Ll. rewrite app_length, repeat_length, Ha in Ll.
  assert (Lv : List.length vs = List.length ts) by (symmetry; eapply words_len; exact Ws).
  pose proof Hw as (P1&P2&P3&P4&P5&P6). pose proof (total_nonneg ts) as Tn.
  apply wpf_intro; [exact Ha|]. cbn [app]. apply wp_block.
  set (P := fun rs w2 => if ts then rs = [] /\ w2 = w1
      else rs = [gnext w1] /\ extends w1 w2 /\ gnext w2 = gnext w1 + total_size ts /\ values (mem w2) (gnext w1) ts vs).
  apply wp_conseq with (Q := fun o => match o with
    | OTrap => oom w1 (total_size ts)
    | OBr lb _ l2 w2 => lb = "result"%string /\ (ts <> [] -> nth_error l2 r = Some (gnext w1)) /\ P (if ts then [] else [gnext w1]) w2
    | _ => False end).
  2:{ intros o Ho. destruct o; cbn [blk fret]; try contradiction; [|exact Ho]. destruct Ho as (->&N&HP). rewrite String.eqb_refl. cbn [firstn app].
      destruct ts; [apply wp_nil; exact HP|]. eapply wp_lget; [apply N; discriminate|]. apply wp_nil. exact HP. }
  eapply at_point_wp; [exact Hb| |].
  { intros o Ho. destruct o; cbn [escapes]; try contradiction; [|exact Logic.I]. destruct Ho as (->&_). exact Hl. }
  assert (D : ts = [] \/ ts <> []) by (destruct ts; [left; reflexivity|right; discriminate]). destruct D as [->|Hts].
  { destruct vs; [|discriminate Lv]. unfold prepare_return. cbn [app]. apply wp_br. split; [reflexivity|]. split; [congruence|]. split; reflexivity. }
  rewrite prepare_some by exact Hts.
  destruct (split3 l' b (List.length ts)) as (l1&ys&l2&->&L1&Ly); [lia|].
  rewrite <- !app_assoc. rewrite <- L1 at 1. apply wp_spill; [exact Lv|exact Ly|].
  cbn [app]. apply wp_const.
  wcall alloc_spec; [exact Hw|lia|auto|]. intros rs w2 (->&A). pose proof (alloc_extends _ _ _ Hw A ltac:(lia)) as X.
  pose proof A as (Hw2&Em&A1&A2&A3&A4&A5). cbn [app].
  destruct (nth_error (l1 ++ vs ++ l2) r) as [r0|] eqn:Er; [|apply nth_error_None in Er; rewrite app_length in Er; lia].
  eapply wp_lset; [exact Er|]. rewrite set_nth_app_l by lia.
  set (l3 := set_nth r (gnext w1) l1).
  assert (L3 : List.length l3 = b) by (unfold l3; rewrite set_nth_length; exact L1).
  assert (N3 : forall z, nth_error (l3 ++ z) r = Some (gnext w1)).
  { intros z. rewrite nth_error_app1 by lia. apply nth_set_nth_same. lia. }
  pose proof (wp_store_returns ts vs r l3 b [] l2) as ST. cbn [app] in ST.
  eapply (ST _ _ _ _ (gnext w1) 0); [exact Ws|apply N3|rewrite app_nil_r; lia|exact Hw2|lia|lia|lia|].
  intros m' F V. rewrite Z.add_0_r in *. cbn [app]. apply wp_br. split; [reflexivity|]. split; [intros _; apply N3|].
  unfold P. destruct ts; [congruence|]. split; [reflexivity|]. split; [|split; [exact A3|exact V]].
  eapply extends_write; [exact Hw|exact X|exact F|lia|lia].
Qed.

(** ** The caller's side *)

Lemma wp_call_code : forall f np nl nr fb ts rt q k (Q : outcome -> Prop) s l w args w1 vs u, f = Func np nl nr fb -> List.length args = np ->
  nth_error l q = Some u -> abort_flag w1 = 0 -> wok w1 -> total_size ts < 2147483648 ->
  wpf f args w (resq (fun rs w2 =>
      if ts then rs = [] /\ w2 = w1
      else rs = [gnext w1] /\ extends w1 w2 /\ gnext w2 = gnext w1 + total_size ts /\ values (mem w2) (gnext w1) ts vs)
    (oom w1 (total_size ts))) ->
  (oom w1 (total_size ts) -> Q OTrap) -> List.length vs = List.length ts ->
  (forall w2, extends w1 w2 -> (ts = [] -> w2 = w1) -> wp k Q (rev vs ++ s) (if ts then l else set_nth q (gnext w1) l) w2) ->
  wp (call_code f ts rt q ++ k) Q (rev args ++ s) l w.
Proof.
  intros f np nl nr fb ts rt q k Q s l w args w1 vs u Ef La Nq Hf Hw Ht S T Lv K. unfold call_code. cbn [app]. rewrite <- app_assoc.
  eapply wp_call_spec; [exact Ef|rewrite app_length, rev_length; lia| |exact T|].
  { rewrite firstn_app, rev_length, La, Nat.sub_diag, firstn_O, app_nil_r, firstn_all2 by (rewrite rev_length; lia). rewrite rev_involutive. exact S. }
  intros rs w2 H. rewrite skipn_app, rev_length, La, Nat.sub_diag, skipn_O, skipn_all2 by (rewrite rev_length; lia). cbn [app].
  pose proof Hw as (P1&P2&P3&P4&P5&P6).
  destruct ts as [|t ts0].
  - destruct H as [-> ->]. apply wp_propagate_ok; [exact Hw|exact Hf|]. destruct vs; [|discriminate Lv]. cbn [unpack_return app].
    apply (K w1); [apply extends_refl; exact Hw|reflexivity].
  - set (ts := t :: ts0) in *. destruct H as (->&X&G&V). pose proof X as (Hw2&_).
    apply wp_propagate_ok; [exact Hw2| |].
    { rewrite <- Hf. unfold abort_flag. apply load_ext. intros a Ha. apply X. lia. }
    change (unpack_return q ts) with (LocalSet q :: load_returns q ts 0). cbn [app].
    eapply wp_lset; [exact Nq|]. pose proof (total_nonneg ts).
    eapply (wp_load_returns ts vs q _ _ _ _ _ (gnext w1) 0); [apply nth_set_nth_same; apply nth_error_Some; congruence|exact Hw2|lia|lia|lia|rewrite Z.add_0_r; exact V|].
    apply K; [exact X|discriminate].
Qed.

Lemma nth_set_nth_other : forall q v (l : list Z) i, i <> q -> nth_error (set_nth q v l) i = nth_error l i.
Proof. induction q; intros v [|x l] [|i] H; cbn; try reflexivity; try congruence. apply IHq. congruence. Qed.

Lemma call_results : forall np nl r b body ts rt q k lbs args vs s sc l l' w w1,
  List.length args = np ->
  at_point (prepare_return r b ts ++ k) (rev vs ++ s) l' w1 lbs body [] (args ++ repeat 0 nl) w -> ~ In "result"%string lbs ->
  (r < b)%nat -> (b + List.length ts <= np + nl)%nat -> wok w1 -> abort_flag w1 = 0 ->
  words_of ts vs -> total_size ts < 2147483648 -> (q < List.length l)%nat ->
  (exists n l2 w2, exec n (call_code (move_function np nl r body ts) ts rt q) (rev args ++ sc) l w = ONormal (rev vs ++ sc) l2 w2 /\
     extends w1 w2 /\ (ts = [] -> w2 = w1) /\ List.length l2 = List.length l /\ forall i, i <> q -> nth_error l2 i = nth_error l i) \/
  (exists n, exec n (call_code (move_function np nl r body ts) ts rt q) (rev args ++ sc) l w = OTrap) /\ oom w1 (total_size ts).
Proof.
  intros np nl r b body ts rt q k lbs args vs s sc l l' w w1 La Hb Hl Hr Hn Hw Hf Ws Ht Hq.
  destruct (nth_error l q) as [u|] eqn:Nq; [|apply nth_error_None in Nq; lia].
  assert (W : wp (call_code (move_function np nl r body ts) ts rt q ++ []) (fun o => match o with
     | ONormal s2 l2 w2 => s2 = rev vs ++ sc /\ extends w1 w2 /\ (ts = [] -> w2 = w1) /\ l2 = (if ts then l else set_nth q (gnext w1) l)
     | OTrap => oom w1 (total_size ts) | _ => False end) (rev args ++ sc) l w).
  { eapply wp_call_code; [reflexivity|exact La|exact Nq|exact Hf|exact Hw|exact Ht| |auto|symmetry; eapply words_len; exact Ws|].
    - eapply return_spec; eassumption.
    - intros w2 X E. apply wp_nil. auto. }
  rewrite app_nil_r in W. destruct W as (n&_&W). destruct (exec n _ _ l w) eqn:E; try contradiction.
  - left. destruct W as (->&X&E0&->). exists n, (if ts then l else set_nth q (gnext w1) l), w0. split; [exact E|]. split; [exact X|]. split; [exact E0|].
    destruct ts; [split; reflexivity|]. split; [apply set_nth_length|]. intros. apply nth_set_nth_other. assumption.
  - right. split; [exists n; exact E|exact W].
Qed.

(** ** Aborts *)

Lemma returns_params : forall f args w rs w', returns f args w rs w' -> exists nl nr b, f = Func (List.length args) nl nr b.
Proof.
  intros [np nl nr b] args w rs w' (n&H&_). unfold runf in H. destruct (List.length args =? np)%nat eqn:E; [|discriminate H].
  apply Nat.eqb_eq in E. subst np. eauto.
Qed.

Lemma caller_aborts : forall f ts rt q k s' l' w0 lbs np nl nr code args args' w rs w1, List.length args = np ->
  at_point (call_code f ts rt q ++ k) (rev args' ++ s') l' w0 lbs code [] (args ++ repeat 0 nl) w ->
  returns f args' w0 rs w1 -> wok w1 -> abort_flag w1 <> 0 ->
  returns (Func np nl nr code) args w (firstn nr (if rt then [BADF00D] else [])) w1.
Proof.
  intros f ts rt q k s' l' w0 lbs np nl nr code args args' w rs w1 La A R Hw Hf.
  cut (wpf (Func np nl nr code) args w (resq (fun vs w2 => vs = firstn nr (if rt then [BADF00D] else []) /\ w2 = w1) False)).
  { intros X. destruct (wpf_returns _ _ _ _ X) as (vs&w2&X1&->&->). exact X1. }
  apply wpf_intro; [exact La|].
  apply wp_conseq with (Q := fun o => match o with ORet s _ w2 => s = (if rt then [BADF00D] else []) /\ w2 = w1 | _ => False end).
  2:{ intros o Ho. destruct o; cbn [fret]; try contradiction. destruct Ho as [-> ->]. auto. }
  eapply at_point_wp; [exact A| |].
  { intros o Ho. destruct o; cbn [escapes]; try contradiction; exact Logic.I. }
  destruct (returns_params _ _ _ _ _ R) as (fl&fr&fb&Ef).
  unfold call_code. cbn [app]. rewrite <- app_assoc.
  eapply (wp_call_spec f (List.length args') fl fr fb _ _ _ _ _ (fun vs w2 => vs = rs /\ w2 = w1) False); [exact Ef|rewrite app_length, rev_length; lia| |contradiction|].
  { rewrite firstn_app, rev_length, Nat.sub_diag, firstn_O, app_nil_r, firstn_all2 by (rewrite rev_length; lia). rewrite rev_involutive.
    exists (FRet rs w1). split; [exact R|]. split; reflexivity. }
  intros vs w2 [-> ->]. apply wp_propagate_err; [exact Hw|exact Hf|]. split; reflexivity.
Qed.

(** [calls f args w g args' w']: when [f] runs on [args] from [w], after some number of nested
    calls the function [g] is called on [args'] in the state [w']. *)
Inductive calls : func -> list Z -> world -> func -> list Z -> world -> Prop :=
| calls_here : forall f args w, calls f args w f args w
| calls_next : forall np nl nr code args w lbs g ts rt q k s' l' args' w' h args2 w2, List.length args = np ->
    at_point (call_code g ts rt q ++ k) (rev args' ++ s') l' w' lbs code [] (args ++ repeat 0 nl) w ->
    calls g args' w' h args2 w2 -> calls (Func np nl nr code) args w h args2 w2.

Lemma chain_aborts : forall f args w g args' w', calls f args w g args' w' ->
  forall rs w1, returns g args' w' rs w1 -> wok w1 -> abort_flag w1 <> 0 -> exists rs', returns f args w rs' w1.
Proof.
  intros f args w g args' w' C. induction C as [f args w|np nl nr code args w lbs g ts rt q k s' l' args' w' h args2 w2 La A C IH]; intros rs w1 R Hw Hf.
  - exists rs. exact R.
  - destruct (IH _ _ R Hw Hf) as (rs'&R'). eexists. eapply caller_aborts; eassumption.
Qed.
