(** * A total-correctness weakest-precondition calculus for [Wasm].

    Everything here is derived from the interpreter; nothing is assumed. *)

From Coq Require Import ZArith List String Bool Lia Wf_nat ZifyBool ZifyNat.
From Verif Require Import Wasm Mem.
Import ListNotations.
Open Scope Z_scope.

(** ** Unfolding equations of the interpreter *)

Definition is_basic (i : instr) : bool :=
  match i with Block _ _ _ | Loop _ _ _ | If _ _ _ | Call _ => false | _ => true end.

Lemma exec_basic : forall n i r s l w, is_basic i = true ->
  exec (S n) (i :: r) s l w =
  bindo (step i s l w) (fun s' l' w' => exec n r s' l' w').
Proof. intros. destruct i; try discriminate; reflexivity. Qed.

Lemma exec_block : forall n lb ar b r s l w,
  exec (S n) (Block lb ar b :: r) s l w =
  bindo (match exec n b [] l w with
         | ONormal s' l' w' => ONormal (firstn ar s' ++ s) l' w'
         | OBr lb' s' l' w' => if String.eqb lb lb' then ONormal (firstn ar s' ++ s) l' w' else OBr lb' s' l' w'
         | o => o end)
    (fun s' l' w' => exec n r s' l' w').
Proof. reflexivity. Qed.

Lemma exec_loop : forall n lb ar b r s l w,
  exec (S n) (Loop lb ar b :: r) s l w =
  bindo (match exec n b [] l w with
         | ONormal s' l' w' => ONormal (firstn ar s' ++ s) l' w'
         | OBr lb' s' l' w' => if String.eqb lb lb' then exec n [Loop lb ar b] s l' w' else OBr lb' s' l' w'
         | o => o end)
    (fun s' l' w' => exec n r s' l' w').
Proof. reflexivity. Qed.

Lemma exec_if : forall n ar t e r c s l w,
  exec (S n) (If ar t e :: r) (c :: s) l w =
  bindo (bindo (exec n (if c =? 0 then e else t) [] l w)
           (fun s' l' w' => ONormal (firstn ar s' ++ s) l' w'))
    (fun s' l' w' => exec n r s' l' w').
Proof. reflexivity. Qed.

Lemma exec_call : forall n np nl nr b r s l w,
  exec (S n) (Call (Func np nl nr b) :: r) s l w =
  bindo (if (List.length s <? np)%nat then OStuck else
         match exec n b [] (rev (firstn np s) ++ repeat 0 nl) w with
         | ONormal s' _ w' | ORet s' _ w' => ONormal (firstn nr s' ++ skipn np s) l w'
         | OBr _ _ _ _ => OStuck
         | o => o end)
    (fun s' l' w' => exec n r s' l' w').
Proof. reflexivity. Qed.

(** ** Fuel monotonicity and determinism *)

Lemma exec_S : forall n is s l w,
  exec n is s l w <> OFuel -> exec (S n) is s l w = exec n is s l w.
Proof.
  induction n as [|n IH]; intros is s l w H; [exfalso; apply H; reflexivity|].
  destruct is as [|i r]; [reflexivity|].
  assert (K : forall o, bindo o (fun s' l' w' => exec n r s' l' w') <> OFuel ->
     bindo o (fun s' l' w' => exec (S n) r s' l' w') = bindo o (fun s' l' w' => exec n r s' l' w')).
  { intros o Ho. destruct o; cbn [bindo] in *; auto. }
  destruct (is_basic i) eqn:B.
  { rewrite exec_basic in * by exact B. rewrite exec_basic by exact B. apply K; exact H. }
  destruct i; try discriminate B.
  - rewrite exec_block in *. rewrite exec_block.
    assert (E : exec n b [] l w <> OFuel) by (intros E; rewrite E in H; apply H; reflexivity).
    rewrite (IH _ _ _ _ E). apply K; exact H.
  - rewrite exec_loop in *. rewrite exec_loop.
    assert (E : exec n b [] l w <> OFuel) by (intros E; rewrite E in H; apply H; reflexivity).
    rewrite (IH _ _ _ _ E).
    destruct (exec n b [] l w) eqn:EE; try (apply K; exact H).
    destruct (String.eqb lb lb0); [|apply K; exact H].
    assert (E2 : exec n [Loop lb ar b] s l0 w0 <> OFuel).
    { intros E2. rewrite E2 in H. apply H; reflexivity. }
    rewrite (IH _ _ _ _ E2). apply K; exact H.
  - destruct s as [|c s0]; [reflexivity|].
    rewrite exec_if in *. rewrite exec_if.
    assert (E : exec n (if c =? 0 then e else t) [] l w <> OFuel)
      by (intros E; rewrite E in H; apply H; reflexivity).
    rewrite (IH _ _ _ _ E). apply K; exact H.
  - destruct f as [np nl nr b]. rewrite exec_call in *. rewrite exec_call.
    destruct (List.length s <? np)%nat; [reflexivity|].
    assert (E : exec n b [] (rev (firstn np s) ++ repeat 0 nl) w <> OFuel)
      by (intros E; rewrite E in H; apply H; reflexivity).
    rewrite (IH _ _ _ _ E). apply K; exact H.
Qed.

Lemma exec_mono : forall n k is s l w,
  exec n is s l w <> OFuel -> (n <= k)%nat -> exec k is s l w = exec n is s l w.
Proof.
  intros n k is s l w H Hle. induction Hle; [reflexivity|].
  rewrite <- IHHle. apply exec_S. rewrite IHHle. exact H.
Qed.

Lemma runf_mono : forall n k f args w,
  runf n f args w <> FFuel -> (n <= k)%nat -> runf k f args w = runf n f args w.
Proof.
  intros n k [np nl nr b] args w H Hle. unfold runf in *.
  destruct (negb _); [reflexivity|].
  rewrite (exec_mono n k); auto.
  intros E. rewrite E in H. apply H; reflexivity.
Qed.

(** Execution is deterministic: there is at most one result. *)
Lemma evals_unique : forall f args w r r', evals f args w r -> evals f args w r' -> r = r'.
Proof.
  intros f args w r r' [n [H Hn]] [k [H' Hk]]. subst.
  destruct (Nat.le_ge_cases n k).
  - symmetry. apply runf_mono; auto.
  - apply runf_mono; auto.
Qed.

Lemma returns_unique : forall f args w vs vs' w1 w2,
  returns f args w vs w1 -> returns f args w vs' w2 -> vs = vs' /\ w1 = w2.
Proof.
  intros. pose proof (evals_unique _ _ _ _ _ H H0) as E. inversion E; auto.
Qed.

(** ** Weakest preconditions *)

Definition wp (is : list instr) (Q : outcome -> Prop) (s l : list Z) (w : world) : Prop :=
  exists n, exec n is s l w <> OFuel /\ Q (exec n is s l w).

(** [wpf f args w Q]: calling [f] terminates with a result satisfying [Q]. *)
Definition wpf (f : func) (args : list Z) (w : world) (Q : fresult -> Prop) : Prop :=
  exists r, evals f args w r /\ Q r.

Lemma wp_nil : forall (Q : outcome -> Prop) s l w, Q (ONormal s l w) -> wp [] Q s l w.
Proof. intros. exists 1%nat. split; [discriminate|exact H]. Qed.

Lemma wp_conseq : forall is (Q Q' : outcome -> Prop) s l w,
  wp is Q s l w -> (forall o, Q o -> Q' o) -> wp is Q' s l w.
Proof. intros is Q Q' s l w [n [H1 H2]] H. exists n. auto. Qed.

(** Sequencing through an instruction whose effect is known. *)
Lemma wp_basic : forall i r (Q : outcome -> Prop) s l w s' l' w',
  is_basic i = true -> step i s l w = ONormal s' l' w' ->
  wp r Q s' l' w' -> wp (i :: r) Q s l w.
Proof.
  intros i r Q s l w s' l' w' Hb Hs [n [H1 H2]].
  exists (S n). rewrite exec_basic by exact Hb. rewrite Hs. auto.
Qed.

Lemma wp_basic_stop : forall i r (Q : outcome -> Prop) s l w,
  is_basic i = true ->
  (match step i s l w with ONormal _ _ _ | OFuel => False | o => Q o end) ->
  wp (i :: r) Q s l w.
Proof.
  intros i r Q s l w Hb Hq. exists 1%nat.
  rewrite exec_basic by exact Hb.
  destruct (step i s l w); try tauto; split; auto; discriminate.
Qed.

(** ** One rule per instruction *)

Lemma wp_const : forall z r Q s l w, wp r Q (z :: s) l w -> wp (Const z :: r) Q s l w.
Proof. intros; eapply wp_basic; [reflexivity|reflexivity|auto]. Qed.

Lemma wp_bin : forall t o r Q a b s l w c,
  binop t o a b = Some c -> wp r Q (c :: s) l w -> wp (Bin t o :: r) Q (b :: a :: s) l w.
Proof. intros; eapply wp_basic; [reflexivity|cbn [step]; rewrite H; reflexivity|auto]. Qed.

Lemma wp_bin_trap : forall t o r (Q : outcome -> Prop) a b s l w,
  binop t o a b = None -> Q OTrap -> wp (Bin t o :: r) Q (b :: a :: s) l w.
Proof. intros; apply wp_basic_stop; [reflexivity|cbn [step]; rewrite H; auto]. Qed.

Lemma wp_un : forall o r Q a s l w, wp r Q (unop o a :: s) l w -> wp (Un o :: r) Q (a :: s) l w.
Proof. intros; eapply wp_basic; [reflexivity|reflexivity|auto]. Qed.

Lemma wp_lget : forall x v r Q s l w,
  nth_error l x = Some v -> wp r Q (v :: s) l w -> wp (LocalGet x :: r) Q s l w.
Proof. intros; eapply wp_basic; [reflexivity|cbn [step]; rewrite H; reflexivity|auto]. Qed.

Lemma wp_lset : forall x u v r Q s l w,
  nth_error l x = Some u -> wp r Q s (set_nth x v l) w -> wp (LocalSet x :: r) Q (v :: s) l w.
Proof. intros; eapply wp_basic; [reflexivity|cbn [step]; rewrite H; reflexivity|auto]. Qed.

Lemma wp_ltee : forall x u v r Q s l w,
  nth_error l x = Some u -> wp r Q (v :: s) (set_nth x v l) w -> wp (LocalTee x :: r) Q (v :: s) l w.
Proof. intros; eapply wp_basic; [reflexivity|cbn [step]; rewrite H; reflexivity|auto]. Qed.

Lemma wp_gget : forall g r Q s l w,
  wp r Q (get_glob g w :: s) l w -> wp (GlobalGet g :: r) Q s l w.
Proof. intros; eapply wp_basic; [reflexivity|reflexivity|auto]. Qed.

Lemma wp_gset : forall g r Q v s l w,
  wp r Q s l (set_glob g w v) -> wp (GlobalSet g :: r) Q (v :: s) l w.
Proof. intros; eapply wp_basic; [reflexivity|reflexivity|auto]. Qed.

Lemma inb_true : forall w a n, 0 <= a -> a + n <= page_size * pages w -> inb w a n = true.
Proof. intros. unfold inb. lia. Qed.

Lemma wp_load : forall n off r Q a s l w,
  0 <= a + off -> a + off + Z.of_nat n <= page_size * pages w ->
  wp r Q (load n (mem w) (a + off) :: s) l w -> wp (Load n off :: r) Q (a :: s) l w.
Proof.
  intros; eapply wp_basic; [reflexivity|cbn [step]; rewrite inb_true by auto; reflexivity|auto].
Qed.

Lemma wp_store : forall n off r Q v a s l w,
  0 <= a + off -> a + off + Z.of_nat n <= page_size * pages w ->
  wp r Q s l (set_mem w (store (Z.of_nat n) (mem w) (a + off) v)) ->
  wp (Store n off :: r) Q (v :: a :: s) l w.
Proof.
  intros; eapply wp_basic; [reflexivity|cbn [step]; rewrite inb_true by auto; reflexivity|auto].
Qed.

Lemma wp_mcopy : forall r Q n src dst s l w,
  0 <= src -> src + n <= page_size * pages w ->
  0 <= dst -> dst + n <= page_size * pages w ->
  wp r Q s l (set_mem w (mcopy (mem w) dst src n)) ->
  wp (MemCopy :: r) Q (n :: src :: dst :: s) l w.
Proof.
  intros; eapply wp_basic; [reflexivity|cbn [step]; rewrite !inb_true by auto; reflexivity|auto].
Qed.

Lemma wp_mfill : forall r Q n v dst s l w,
  0 <= dst -> dst + n <= page_size * pages w ->
  wp r Q s l (set_mem w (mfill (mem w) dst v n)) ->
  wp (MemFill :: r) Q (n :: v :: dst :: s) l w.
Proof.
  intros; eapply wp_basic; [reflexivity|cbn [step]; rewrite !inb_true by auto; reflexivity|auto].
Qed.

Lemma wp_mgrow : forall r Q n s l w,
  (pages w + n <= maxpages w -> pages w + n <= 65536 ->
     wp r Q (pages w :: s) l (set_pages w (pages w + n))) ->
  (~ (pages w + n <= maxpages w /\ pages w + n <= 65536) ->
     wp r Q (4294967295 :: s) l w) ->
  wp (MemGrow :: r) Q (n :: s) l w.
Proof.
  intros. destruct ((pages w + n <=? maxpages w) && (pages w + n <=? 65536)) eqn:E.
  - eapply wp_basic; [reflexivity|cbn [step]; rewrite E; reflexivity|]. apply H; lia.
  - eapply wp_basic; [reflexivity|cbn [step]; rewrite E; reflexivity|]. apply H0; lia.
Qed.

Lemma wp_drop : forall r Q v s l w, wp r Q s l w -> wp (Drop :: r) Q (v :: s) l w.
Proof. intros; eapply wp_basic; [reflexivity|reflexivity|auto]. Qed.

Lemma wp_unreachable : forall r (Q : outcome -> Prop) s l w, Q OTrap -> wp (Unreachable :: r) Q s l w.
Proof. intros; apply wp_basic_stop; [reflexivity|exact H]. Qed.

Lemma wp_br : forall lb r (Q : outcome -> Prop) s l w, Q (OBr lb s l w) -> wp (Br lb :: r) Q s l w.
Proof. intros; apply wp_basic_stop; [reflexivity|exact H]. Qed.

Lemma wp_brif : forall lb r (Q : outcome -> Prop) c s l w,
  (c <> 0 -> Q (OBr lb s l w)) -> (c = 0 -> wp r Q s l w) -> wp (BrIf lb :: r) Q (c :: s) l w.
Proof.
  intros. destruct (c =? 0) eqn:E.
  - eapply wp_basic; [reflexivity|cbn [step]; rewrite E; reflexivity|]. apply H0; lia.
  - apply wp_basic_stop; [reflexivity|]. cbn [step]. rewrite E. apply H; lia.
Qed.

Lemma wp_ret : forall r (Q : outcome -> Prop) s l w, Q (ORet s l w) -> wp (Return :: r) Q s l w.
Proof. intros; apply wp_basic_stop; [reflexivity|exact H]. Qed.

(** Host calls: the effect is given by [hostcall]. *)
Lemma wp_host : forall h r Q s l w s' l' w',
  hostcall h s l w = ONormal s' l' w' -> wp r Q s' l' w' -> wp (Host h :: r) Q s l w.
Proof. intros; eapply wp_basic; [reflexivity|exact H|auto]. Qed.

(** ** Structured instructions *)

(** What a sequence does after its first instruction ended in [o]. *)
Definition andthen (r : list instr) (Q : outcome -> Prop) (o : outcome) : Prop :=
  match o with ONormal s l w => wp r Q s l w | o => Q o end.

Lemma wp_cons : forall i r (Q : outcome -> Prop) s l w,
  wp [i] (andthen r Q) s l w -> wp (i :: r) Q s l w.
Proof.
  intros i r Q s l w [n [H1 H2]].
  destruct n as [|n]; [exfalso; apply H1; reflexivity|].
  assert (G : forall o, bindo o (fun s' l' w' => exec n [] s' l' w') <> OFuel ->
     andthen r Q (bindo o (fun s' l' w' => exec n [] s' l' w')) ->
     exists k, bindo o (fun s' l' w' => exec k r s' l' w') <> OFuel
            /\ (n <= k)%nat
            /\ Q (bindo o (fun s' l' w' => exec k r s' l' w'))).
  { intros o Ho Ha. destruct o; cbn [bindo] in *; try (exists n; repeat split; auto; fail).
    destruct n as [|n0]; [exfalso; apply Ho; reflexivity|].
    cbn [bindo exec andthen] in Ha. destruct Ha as [k [K1 K2]].
    exists (Nat.max (S n0) k). rewrite (exec_mono k) by (auto; lia). repeat split; auto; lia. }
  assert (MM : forall k is s l w, (n <= k)%nat -> exec n is s l w <> OFuel ->
             exec k is s l w = exec n is s l w) by (intros; apply exec_mono; auto).
  destruct (is_basic i) eqn:B.
  { rewrite exec_basic in H1, H2 by exact B.
    destruct (G _ H1 H2) as [k [K1 [K2 K3]]]. exists (S k).
    rewrite exec_basic by exact B. split; [exact K1|exact K3]. }
  destruct i; try discriminate B.
  - rewrite exec_block in H1, H2.
    destruct (G _ H1 H2) as [k [K1 [K2 K3]]]. exists (S k). rewrite exec_block.
    assert (E : exec n b [] l w <> OFuel) by (intros E; rewrite E in H1; apply H1; reflexivity).
    rewrite (MM k b) by auto. split; [exact K1|exact K3].
  - rewrite exec_loop in H1, H2.
    destruct (G _ H1 H2) as [k [K1 [K2 K3]]]. exists (S k). rewrite exec_loop.
    assert (E : exec n b [] l w <> OFuel) by (intros E; rewrite E in H1; apply H1; reflexivity).
    rewrite (MM k b) by auto.
    destruct (exec n b [] l w) eqn:EE; try (split; [exact K1|exact K3]).
    destruct (String.eqb lb lb0) eqn:EL; try (split; [exact K1|exact K3]).
    assert (E2 : exec n [Loop lb ar b] s l0 w0 <> OFuel).
    { intros E2. rewrite E2 in H1. apply H1; reflexivity. }
    rewrite (MM k [Loop lb ar b]) by auto. split; [exact K1|exact K3].
  - destruct s as [|c s0].
    { destruct (G OStuck) as [k [K1 [K2 K3]]]; [discriminate|exact H2|].
      exists (S k). split; [exact K1|exact K3]. }
    rewrite exec_if in H1, H2.
    destruct (G _ H1 H2) as [k [K1 [K2 K3]]]. exists (S k). rewrite exec_if.
    assert (E : exec n (if c =? 0 then e else t) [] l w <> OFuel)
      by (intros E; rewrite E in H1; apply H1; reflexivity).
    rewrite (MM k (if c =? 0 then e else t)) by auto. split; [exact K1|exact K3].
  - destruct f as [np nl nr b]. rewrite exec_call in H1, H2.
    destruct (G _ H1 H2) as [k [K1 [K2 K3]]]. exists (S k). rewrite exec_call.
    destruct (List.length s <? np)%nat; [split; [exact K1|exact K3]|].
    assert (E : exec n b [] (rev (firstn np s) ++ repeat 0 nl) w <> OFuel)
      by (intros E; rewrite E in H1; apply H1; reflexivity).
    rewrite (MM k b) by auto. split; [exact K1|exact K3].
Qed.

(** Continuation of a block (or of an [if] arm, with no label to catch). *)
Definition blk (lb : string) (ar : nat) (s : list Z) (r : list instr) (Q : outcome -> Prop)
  (o : outcome) : Prop :=
  match o with
  | ONormal s' l' w' => wp r Q (firstn ar s' ++ s) l' w'
  | OBr lb' s' l' w' =>
      if String.eqb lb lb' then wp r Q (firstn ar s' ++ s) l' w' else Q o
  | o => Q o
  end.

Lemma wp_block : forall lb ar b r (Q : outcome -> Prop) s l w,
  wp b (blk lb ar s r Q) [] l w -> wp (Block lb ar b :: r) Q s l w.
Proof.
  intros lb ar b r Q s l w [n [H1 H2]]. apply wp_cons.
  exists (S (S n)).
  rewrite exec_block.
  rewrite exec_S by auto.
  destruct (exec n b [] l w); cbn [blk] in H2; cbn [bindo exec andthen];
    try (split; [discriminate|assumption]); try tauto.
  destruct (String.eqb lb lb0); cbn [bindo exec andthen]; split; auto; discriminate.
Qed.

Definition ifk (ar : nat) (s : list Z) (r : list instr) (Q : outcome -> Prop) (o : outcome) : Prop :=
  match o with
  | ONormal s' l' w' => wp r Q (firstn ar s' ++ s) l' w'
  | o => Q o
  end.

Lemma wp_if : forall ar t e r (Q : outcome -> Prop) c s l w,
  (c <> 0 -> wp t (ifk ar s r Q) [] l w) -> (c = 0 -> wp e (ifk ar s r Q) [] l w) ->
  wp (If ar t e :: r) Q (c :: s) l w.
Proof.
  intros ar t e r Q c s l w Ht He.
  assert (H : wp (if c =? 0 then e else t) (ifk ar s r Q) [] l w).
  { destruct (c =? 0) eqn:E; [apply He|apply Ht]; lia. }
  destruct H as [n [H1 H2]]. apply wp_cons. exists (S (S n)).
  rewrite exec_if.
  rewrite exec_S by auto.
  destruct (exec n (if c =? 0 then e else t) [] l w); cbn [ifk] in H2; cbn [bindo exec andthen];
    split; auto; try discriminate.
Qed.

(** Loops, with an invariant indexed by a decreasing measure. *)
Definition loopk (lb : string) (ar : nat) (s : list Z) (r : list instr) (Q : outcome -> Prop)
  (again : list Z -> world -> Prop) (o : outcome) : Prop :=
  match o with
  | ONormal s' l' w' => wp r Q (firstn ar s' ++ s) l' w'
  | OBr lb' s' l' w' => if String.eqb lb lb' then again l' w' else Q o
  | o => Q o
  end.

Lemma wp_loop : forall (I : nat -> list Z -> world -> Prop) k lb ar b r (Q : outcome -> Prop) s l w,
  I k l w ->
  (forall k l w, I k l w ->
     wp b (loopk lb ar s r Q (fun l' w' => exists k', (k' < k)%nat /\ I k' l' w')) [] l w) ->
  wp (Loop lb ar b :: r) Q s l w.
Proof.
  intros I k lb ar b r Q s l w HI Hb. apply wp_cons.
  revert l w HI. induction k as [k IH] using lt_wf_ind. intros l w HI.
  destruct (Hb k l w HI) as [n [H1 H2]].
  assert (Done : forall o, exec n b [] l w = o ->
     (match o with OBr lb' _ _ _ => String.eqb lb lb' = false | _ => True end) ->
     wp [Loop lb ar b] (andthen r Q) s l w).
  { intros o Ho Hnb. exists (S (S n)).
    rewrite exec_loop.
    rewrite exec_S by auto. rewrite Ho in *.
    destruct o; cbn [loopk] in H2; try rewrite Hnb in *; cbn [bindo exec andthen];
      split; auto; try discriminate. }
  destruct (exec n b [] l w) as [s' l' w'|lb' s' l' w'|s' l' w'| | |] eqn:EE;
    try (eapply Done; [reflexivity|exact Logic.I]).
  destruct (String.eqb lb lb') eqn:EL; [|eapply Done; [reflexivity|exact EL]].
  cbn [loopk] in H2. rewrite EL in H2. destruct H2 as [k' [Hk' HI']].
  destruct (IH k' Hk' l' w' HI') as [n' [N1 N2]].
  set (N := Nat.max n n').
  exists (S N).
  rewrite exec_loop.
  rewrite (exec_mono n N) by (rewrite ?EE; auto; unfold N; lia). rewrite EE, EL.
  rewrite (exec_mono n' N) by (auto; unfold N; lia).
  destruct N as [|N'] eqn:EN.
  { exfalso. apply N1. assert (n' = 0%nat) by (unfold N in EN; lia). subst n'. reflexivity. }
  destruct (exec n' [Loop lb ar b] s l' w') eqn:E3; cbn [bindo exec]; split; auto; try discriminate.
Qed.

(** Calls: use a proved specification of the callee. *)
Lemma wp_call : forall f np nl nr b r (Q : outcome -> Prop) s l w,
  f = Func np nl nr b ->
  (np <= List.length s)%nat ->
  wpf f (rev (firstn np s)) w (fun res =>
    match res with
    | FRet vs w' => wp r Q (vs ++ skipn np s) l w'
    | FTrap => Q OTrap
    | FStuck | FFuel => False
    end) ->
  wp (Call f :: r) Q s l w.
Proof.
  intros f np nl nr b r Q s l w -> Hlen [res [[n [Hr Hnf]] Hres]]. apply wp_cons.
  exists (S (S n)).
  rewrite exec_call.
  replace (List.length s <? np)%nat with false by lia.
  unfold runf in Hr.
  replace (negb (List.length (rev (firstn np s)) =? np)%nat) with false in Hr
    by (rewrite rev_length, firstn_length; lia).
  rewrite exec_S.
  2:{ intros E. rewrite E in Hr. subst res. apply Hnf; reflexivity. }
  destruct (exec n b [] (rev (firstn np s) ++ repeat 0 nl) w); subst res; cbn [bindo exec andthen];
    try tauto; split; auto; discriminate.
Qed.

(** ** From [wp] of a body to a statement about the function *)

Definition fret (nr : nat) (Q : list Z -> world -> Prop) (T : Prop) (o : outcome) : Prop :=
  match o with
  | ONormal s _ w | ORet s _ w => Q (firstn nr s) w
  | OTrap => T
  | _ => False
  end.

Definition resq (Q : list Z -> world -> Prop) (T : Prop) (r : fresult) : Prop :=
  match r with FRet vs w => Q vs w | FTrap => T | _ => False end.

Lemma wpf_intro : forall np nl nr b args w Q T,
  List.length args = np ->
  wp b (fret nr Q T) [] (args ++ repeat 0 nl) w ->
  wpf (Func np nl nr b) args w (resq Q T).
Proof.
  intros np nl nr b args w Q T Hl [n [H1 H2]].
  exists (runf n (Func np nl nr b) args w). unfold evals, runf.
  replace (negb (List.length args =? np)%nat) with false by lia.
  destruct (exec n b [] (args ++ repeat 0 nl) w) eqn:E; cbn [fret] in H2; try tauto;
    (split; [exists n; rewrite E; split; [reflexivity|discriminate]|exact H2]).
Qed.

Lemma wpf_conseq : forall f args w (Q Q' : fresult -> Prop),
  wpf f args w Q -> (forall r, Q r -> Q' r) -> wpf f args w Q'.
Proof. intros f args w Q Q' [r [H1 H2]] H. exists r. auto. Qed.

Lemma wpf_returns : forall f args w Q,
  wpf f args w (resq Q False) -> exists vs w', returns f args w vs w' /\ Q vs w'.
Proof.
  intros f args w Q [r [H1 H2]]. destruct r; cbn [resq] in H2; try tauto. exists vs, w0. auto.
Qed.

Lemma returns_wpf : forall f args w vs w' (Q : fresult -> Prop),
  returns f args w vs w' -> Q (FRet vs w') -> wpf f args w Q.
Proof. intros. exists (FRet vs w'). auto. Qed.

Lemma wpf_cases : forall f args w Q T,
  wpf f args w (resq Q T) -> (exists vs w', returns f args w vs w' /\ Q vs w') \/ (traps f args w /\ T).
Proof.
  intros f args w Q T [r [H1 H2]]. destruct r; cbn [resq] in H2; try contradiction; [left|right]; eauto.
Qed.

Lemma runf_returns : forall n f args w vs w', runf n f args w = FRet vs w' -> returns f args w vs w'.
Proof. intros. exists n. split; [assumption|discriminate]. Qed.

(** Evaluating a concrete run without normalising the final machine state. *)
Definition runs_to (n : nat) (f : func) (args : list Z) (w : world) (P : list Z -> world -> bool) : bool :=
  match runf n f args w with FRet vs w' => P vs w' | _ => false end.

Lemma runs_to_ok : forall n f args w P, runs_to n f args w P = true ->
  exists vs w', returns f args w vs w' /\ P vs w' = true.
Proof.
  unfold runs_to; intros. destruct (runf n f args w) eqn:E; try discriminate.
  exists vs, w0. split; [eapply runf_returns; eassumption|assumption].
Qed.

Definition zs_eqb (a b : list Z) : bool := if list_eq_dec Z.eq_dec a b then true else false.

Lemma zs_eqb_eq : forall a b, zs_eqb a b = true -> a = b.
Proof. unfold zs_eqb; intros. destruct (list_eq_dec Z.eq_dec a b); [assumption|discriminate]. Qed.

Lemma runs_to_vals : forall n f args w vs P, runs_to n f args w (fun r w' => zs_eqb r vs && P w') = true ->
  exists w', returns f args w vs w' /\ P w' = true.
Proof.
  intros. apply runs_to_ok in H. destruct H as (r&w'&R&H). apply andb_prop in H. destruct H as [E H].
  apply zs_eqb_eq in E. subst. eauto.
Qed.

Definition traps_by (n : nat) (f : func) (args : list Z) (w : world) : bool :=
  match runf n f args w with FTrap => true | _ => false end.
Lemma traps_by_ok : forall n f args w, traps_by n f args w = true -> traps f args w.
Proof.
  unfold traps_by; intros. destruct (runf n f args w) eqn:E; try discriminate.
  exists n. split; [assumption|discriminate].
Qed.
