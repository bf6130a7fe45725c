(** * A function that appends to its caller's vector (C82). *)

From Verif Require Import SpecInt Spec Tac RtAlloc RtErr RtInt RtDiv RtShift RtAscii Ops SpecVal LemVal RtCopy RtCopy2 RtVec RtVec2 SpecVec LemVec RtStore RtCall SpecRef RtRef LemRef RtLocal LemLocal SpecArgs RtArgs LemArgs.
Ltac Zify.zify_post_hook ::= idtac.

(** The words [xs] are boxed in [lo, hi). *)
Fixpoint held (m : memory) (lo hi : Z) (t : ty) (i : nat) (xs l : list Z) : Prop :=
  match xs with
  | [] => True
  | x :: xs' => (exists rb, nth_error l i = Some rb /\ lo <= rb /\ rb + 4 <= hi /\
      if is_stack t then load 4 m rb = rb + 4 /\ load (esize t) m (rb + 4) = x /\ rb + 4 + Z.of_nat (esize t) <= hi else load 4 m rb = x) /\ held m lo hi t (S i) xs' l
  end.
Lemma held_agree : forall xs m m' lo hi t i l, agree m m' (between lo hi) -> held m lo hi t i xs l -> held m' lo hi t i xs l.
Proof.
  induction xs as [|x xs IH]; intros m m' lo hi t i l A H; cbn [held] in *; auto. destruct H as ((rb&H1&H2&H3&H4)&H). split; [|eapply IH; eassumption].
  exists rb. split; [exact H1|]. split; [exact H2|]. split; [exact H3|].
  assert (E : load 4 m' rb = load 4 m rb) by (apply load_ext; intros k Hk; apply A; unfold between; lia). rewrite E. destruct (is_stack t); [|exact H4].
  destruct H4 as (H4&H5&H6). split; [exact H4|]. split; [|exact H6]. rewrite <- H5. apply load_ext. intros k Hk. apply A. unfold between. lia.
Qed.
Lemma boxed_held : forall xs w w' t i l, boxed_all w w' i (repeat (AVal t) (List.length xs)) xs l -> held (mem w') (gnext w) (gnext w') t i xs l.
Proof.
  induction xs as [|x xs IH]; intros w w' t i l H; cbn [List.length repeat boxed_all held] in *; auto. destruct H as ((r&H1&H2&H3&H4)&H). split; [|apply IH; exact H].
  exists r. split; [exact H1|]. split; [lia|]. split; [lia|]. destruct (is_stack t); exact H4.
Qed.

Lemma wp_push_code : forall ep t r r2 us xs i w vs F D Fx lo hi k (Q : outcome -> Prop) l, wf_ty t -> wok w -> maxpages w <= 16384 -> abort_flag w = 0 ->
  follows w t r2 r vs F D -> words (mem w) (plain_fields (map (fun _ => t) us)) us xs Fx -> sub Fx (heap w) -> disj (cell r) Fx -> disj F Fx -> disj (cell r2) Fx -> disj D Fx ->
  nth_error l 0 = Some r -> held (mem w) lo hi t i xs l -> 468 <= lo -> hi <= gnext w -> disj (between lo hi) (cell r) -> disj (between lo hi) F -> disj (between lo hi) Fx ->
  (forall xs1 x xs2 w1 us1, xs = xs1 ++ x :: xs2 -> us1 = firstn (List.length xs1) us -> pushes ep t r xs1 w w1 ->
     no_memory (vec_push_back ep t) [r; x] w1 (has_small (TVec t)) (vec_bytes t (copy_cap 2 (List.length (vs ++ us1))) + sumz (map (csize t) (vs ++ us1))) -> Q OTrap) ->
  (forall w' F' D', wok w' -> maxpages w' = maxpages w -> abort_flag w' = 0 -> follows w' t r2 r (vs ++ us) F' D' -> wp k Q [] l w') ->
  wp (push_code ep t i (List.length xs) ++ k) Q [] l w.
Proof.
  intros ep t r r2. induction us as [|u us IH]; intros [|x xs] i w vs F D Fx lo hi k Q l Wf Hw Mp Hf Fo Ws Sx D1 D2 D3 D4 N0 Hh Lo Hi B1 B2 B3 T K; cbn [plain_fields map words] in Ws; try contradiction.
  { cbn [List.length push_code app]. apply (K w F D); auto. rewrite app_nil_r. exact Fo. }
  destruct Ws as (F1&F2&W1&W2&W3&W4&W5&W6). fold (plain_fields (map (fun _ => t) us)) in W3. unfold word in W1. cbn [fst snd] in W1, W2.
  assert (Sb : forall A, disj A Fx -> disj A F1 /\ disj A F2) by (intros A H; split; eapply disj_sub; try exact H; try apply sub_refl; assumption).
  destruct (Sb _ D1) as (D1a&D1b). destruct (Sb _ D2) as (D2a&D2b). destruct (Sb _ D3) as (D3a&D3b). destruct (Sb _ D4) as (D4a&D4b). destruct (Sb _ B3) as (B3a&B3b).
  cbn [held] in Hh. destruct Hh as ((rb&Nb&Rb1&Rb2&Rb3)&Hh). pose proof Hw as (P1&P2&P3&P4&P5&P6). pose proof (esize_range t) as Es.
  cbn [List.length push_code app]. rewrite <- !app_assoc. cbn [app]. eapply wp_lget; [exact N0|]. unfold move_local. rewrite <- !app_assoc. cbn [app]. eapply wp_lget; [exact Nb|].
  eapply wp_load; [lia|unfold page_size; lia|]. rewrite Z.add_0_r.
  assert (Go : wp (Call (vec_push_back ep t) :: propagate false ++ push_code ep t (S i) (List.length xs) ++ k) Q [x; r] l w).
  { destruct (follows_push ep t w r r2 x u vs F D F1 Wf Hw Mp Fo) as [(w1&F'&D'&R&Fo1&S1&S2&Ev)|N].
    - split; [exact W1|intros y Y; apply Sx, W5; exact Y].
    - exact W2.
    - exact D1a.
    - exact D2a.
    - exact D3a.
    - exact D4a.
    - eapply wp_call; [reflexivity|cbn [List.length]; lia|]. cbn [firstn rev app skipn]. eapply returns_wpf; [exact R|]. cbn [app].
      pose proof Ev as (Hw1&Mx&_&Gn&_&_&Em).
      assert (S2h : sub F2 (heap w)) by (intros y Y; apply Sx, W6; exact Y).
      assert (DF : disj F' F2).
      { intros y Y Z. destruct (S1 y Y) as [[Y1|Y1]|Y1]; [eapply D2b; eassumption|eapply W4; eassumption|]. apply S2h in Z. unfold heap, fresh, between in *. lia. }
      assert (Hf1 : abort_flag w1 = 0).
      { rewrite <- Hf. unfold abort_flag. apply load_ext. intros j Hj. apply Em; [lia|]. destruct Fo as ((Y1&Y2&Y3&_)&_). intros [Y|Y]; [apply Y1 in Y|apply Y3 in Y]; unfold heap, between in Y; lia. }
      apply wp_propagate_ok; [exact Hw1|exact Hf1|].
      eapply (IH xs (S i) w1 (vs ++ [u]) F' D' F2 lo hi k Q l Wf Hw1); [lia|exact Hf1|exact Fo1| | |exact D1b|exact DF|exact D3b| |exact N0| |exact Lo|lia|exact B1| |exact B3b| |].
      + eapply words_agree; [|exact W3]. eapply evolves_agree; [exact Ev|exact S2h|]. intros y [Y|Y] Z; [eapply D1b; eassumption|eapply D2b; eassumption].
      + eapply evolves_heap; [exact Ev|exact S2h].
      + intros y Y Z. destruct (S2 y Y) as [Y1|Y1]; [eapply D4b; eassumption|eapply D2b; eassumption].
      + eapply held_agree; [|exact Hh]. intros y Y. apply Em; [unfold between in Y; lia|]. intros [Z|Z]; [eapply B1; eassumption|eapply B2; eassumption].
      + intros y Y Z. destruct (S1 y Z) as [[Y1|Y1]|Y1]; [eapply B2; eassumption|eapply B3a; eassumption|]. unfold fresh, between in *. lia.
      + intros xs1 x1 xs2 w0 us1 E1 E2 P N. eapply (T (x :: xs1) x1 xs2 w0 (u :: us1)); [rewrite E1; reflexivity|cbn [firstn List.length]; f_equal; exact E2|exists w1; split; assumption|].
        rewrite <- app_assoc in N. exact N.
      + intros w' F3 D3' Hw' Mx' Hf' Fo'. rewrite <- app_assoc in Fo'. eapply K; [exact Hw'|congruence|exact Hf'|exact Fo'].
    - eapply wp_call; [reflexivity|cbn [List.length]; lia|]. cbn [firstn rev app skipn]. destruct N as (Tr&Ct). exists FTrap. split; [exact Tr|].
      eapply (T [] x xs w []); [reflexivity|reflexivity|reflexivity|]. rewrite app_nil_r. split; assumption. }
  destruct (is_stack t) eqn:St; cbn [app].
  - destruct Rb3 as (Rb3&Rb4&Rb5). rewrite Rb3. eapply wp_load; [lia|unfold page_size; lia|]. rewrite Z.add_0_r, Rb4. exact Go.
  - rewrite Rb3. exact Go.
Qed.

Lemma Forall2_repeat : forall (t : ty) us m xs Fx, words m (plain_fields (map (fun _ => t) us)) us xs Fx -> Forall2 word_ok (repeat (AVal t) (List.length xs)) xs.
Proof.
  intros t. induction us as [|u us IH]; intros m [|x xs] Fx H; cbn [plain_fields map words List.length repeat] in *; try contradiction; constructor.
  - destruct H as (F1&F2&_&H&_). exact H.
  - destruct H as (F1&F2&_&_&H&_). eapply IH. exact H.
Qed.

(** The callee: [p] is the address of the vector, which the reference [r2] leads to. *)
Lemma extend_spec : forall ep t r2 us xs w vs F Fx, wf_ty t -> wok w -> maxpages w <= 16384 -> abort_flag w = 0 ->
  vec_ref w t r2 vs F -> words (mem w) (plain_fields (map (fun _ => t) us)) us xs Fx -> sub Fx (heap w) -> disj (cell r2) Fx -> disj F Fx ->
  wpf (extend_fn ep t (List.length xs)) (load 4 (mem w) r2 :: xs) w
    (resq (fun rs w' => rs = [] /\ wok w' /\ abort_flag w' = 0 /\ exists r F' D', follows w' t r2 r (vs ++ us) F' D')
      (oom w (args_memory (extend_args t (List.length xs))) \/
       exists w0 r xs1 x xs2 w1 us1, extends w w0 /\ gnext w0 = gnext w + args_memory (extend_args t (List.length xs)) /\ xs = xs1 ++ x :: xs2 /\ us1 = firstn (List.length xs1) us /\ pushes ep t r xs1 w0 w1 /\
         no_memory (vec_push_back ep t) [r; x] w1 (has_small (TVec t)) (vec_bytes t (copy_cap 2 (List.length (vs ++ us1))) + sumz (map (csize t) (vs ++ us1))))).
Proof.
  intros ep t r2 us xs w vs F Fx Wf Hw Mp Hf V Ws Sx D1 D2. set (n := List.length xs). pose proof (Forall2_repeat t us (mem w) xs Fx Ws) as Fw.
  assert (Np : 0 <= args_memory (repeat (AVal t) n)) by apply args_memory_nonneg.
  assert (Am : args_memory (extend_args t n) = 4 + args_memory (repeat (AVal t) n)) by reflexivity.
  apply wpf_intro; [reflexivity|]. apply wp_block. cbn [extend_args box_args app repeat]. rewrite <- !app_assoc. cbn [app]. eapply wp_lget; [reflexivity|].
  set (l0 := load 4 (mem w) r2 :: xs ++ [0; 0; 0]). assert (Ll : List.length l0 = S (n + 3)) by (unfold l0; cbn [List.length]; rewrite app_length; reflexivity).
  change (box_ref 0 (S (S n))) with (box_local TAddress 0 (S n) (S (S n))). apply wp_box_local; try lia; try exact Hw.
  { cbn [esize]. apply load_4_range. }
  { intros O. cbn [blk fret]. left. rewrite Am. eapply oom_mono; [exact O|]. change (box_memory TAddress) with 4. lia. }
  intros w1 l1 Ex1 (Sl1&Slo1) N0 G1 C1. change (box_memory TAddress) with 4 in G1. cbn [is_stack] in C1. pose proof Ex1 as (Hw1&Mx1&_).
  apply (wp_box_args (repeat (AVal t) n) (S n) (S (S n)) 1 xs); rewrite ?repeat_length; try lia; [exact Fw|exact Hw1| | |].
  { eapply holds_ext; [|apply (holds_self xs 1 [load 4 (mem w) r2] [0; 0; 0]); reflexivity]. intros k Hk. fold n in Hk. change ([load 4 (mem w) r2] ++ xs ++ [0; 0; 0]) with l0. apply Slo1. cbn. lia. }
  { intros O. cbn [blk fret]. left. rewrite Am. eapply oom_more; [exact G1|congruence|lia|exact O]. }
  intros w2 l2 Ex2 (Sl2&Slo2) G2 Bx. pose proof Ex2 as (Hw2&Mx2&_). assert (Ex : extends w w2) by (eapply extends_trans; eassumption).
  pose proof (boxed_held _ _ _ _ _ _ Bx) as Hh. pose proof Hw as (P1&P2&P3&P4&P5&P6). pose proof Hw1 as (Q1&Q2&Q3&Q4&Q5&Q6). pose proof Hw2 as (U1&U2&U3&U4&U5&U6).
  pose proof V as (VA&VB&VC&VD). set (r := gnext w) in *.
  assert (Lr : load 4 (mem w2) r = load 4 (mem w) r2) by (rewrite (extends_load w1 w2 4 r Ex2) by lia; exact C1).
  assert (Cr : forall G, sub G (heap w) -> disj (cell r) G) by (intros G S y Y Z; apply S in Z; unfold heap, cell, between, r in *; lia).
  assert (Sh : forall G, sub G (heap w) -> sub G (heap w2)) by (intros G S y Y; apply S in Y; unfold heap, between in *; lia).
  assert (Fo : follows w2 t r2 r vs F empty).
  { pose proof (ref_to_extends _ _ _ _ _ _ Ex V) as (V1&V2&V3&V4). assert (L2 : load 4 (mem w2) r2 = load 4 (mem w) r2) by (destruct (sub_block _ _ _ _ VA) as [Y1 Y2]; [lia|]; apply (extends_load w w2 4 r2 Ex); lia).
    split; [|split; [exact V1|split; [apply disj_sym, Cr; exact VA|split; [exact V2|]]]].
    - split; [intros y Y; unfold heap, cell, between, r in *; lia|]. split; [apply Cr; exact VC|]. split; [exact V3|]. rewrite Lr, <- L2. exact V4.
    - repeat (split; [intros y; unfold empty; tauto|]). rewrite L2, Lr. constructor. }
  apply (wp_push_code ep t r r2 us xs 1 w2 vs F empty Fx (gnext w1) (gnext w2)); try assumption; try lia.
  - rewrite (extends_flag w w2 Hw Ex). exact Hf.
  - eapply words_agree; [apply extends_agree; [exact Ex|exact Sx]|exact Ws].
  - apply Sh. exact Sx.
  - apply Cr. exact Sx.
  - intros y [].
  - rewrite Slo2; [exact N0|]. cbn. rewrite in_seq. lia.
  - intros y Y Z. unfold cell, between, r in *. lia.
  - intros y Y Z. apply VC in Z. unfold heap, between in *. lia.
  - intros y Y Z. apply Sx in Z. unfold heap, between in *. lia.
  - intros xs1 x xs2 w3 us1 E1 E2 P N. cbn [blk fret]. right. exists w2, r, xs1, x, xs2, w3, us1. split; [exact Ex|]. split; [lia|]. auto.
  - intros w' F' D' Hw' Mx' Hf' Fo'. cbn [prepare_return app]. apply wp_br. cbn [blk String.eqb Ascii.eqb Bool.eqb]. apply wp_nil. cbn [fret firstn app]. split; [reflexivity|]. split; [exact Hw'|]. split; [exact Hf'|]. eauto.
Qed.

Lemma extend_ok : forall ep t rt q b c r us xs vs F Fx s l w, wf_ty t -> wok w -> maxpages w <= 16384 -> abort_flag w = 0 ->
  (b + S (List.length xs) <= c)%nat -> (c + S (List.length xs) <= List.length l)%nat ->
  vec_ref w t r vs F -> words (mem w) (plain_fields (map (fun _ => t) us)) us xs Fx -> sub Fx (heap w) -> disj (cell r) Fx -> disj F Fx ->
  (exists w' l' F', runs (call_with (extend_fn ep t (List.length xs)) (extend_args t (List.length xs)) [] rt q b c) (rev (r :: xs) ++ s) l w s l' w' /\ vec_ref w' t r (vs ++ us) F') \/
  (crashes (call_with (extend_fn ep t (List.length xs)) (extend_args t (List.length xs)) [] rt q b c) (rev (r :: xs) ++ s) l w /\
    (oom w (args_memory (extend_args t (List.length xs))) \/
     exists w0 r' xs1 x xs2 w1 us1, extends w w0 /\ gnext w0 = gnext w + args_memory (extend_args t (List.length xs)) /\ xs = xs1 ++ x :: xs2 /\ us1 = firstn (List.length xs1) us /\ pushes ep t r' xs1 w0 w1 /\
       no_memory (vec_push_back ep t) [r'; x] w1 (has_small (TVec t)) (vec_bytes t (copy_cap 2 (List.length (vs ++ us1))) + sumz (map (csize t) (vs ++ us1))))).
Proof.
  intros ep t rt q b c r us xs vs F Fx s l w Wf Hw Mp Hf L1 L2 V Ws Sx D1 D2. set (n := List.length xs) in *.
  set (T := oom w (args_memory (extend_args t n)) \/ _).
  assert (W : wp (call_with (extend_fn ep t n) (extend_args t n) [] rt q b c) (fun o => (o = OTrap /\ T) \/ exists w' l' F', o = ONormal s l' w' /\ vec_ref w' t r (vs ++ us) F') (rev (r :: xs) ++ s) l w).
  2:{ destruct W as (k&_&[(E&O)|(w'&l'&F'&E&K)]); [right; split; [exists k; exact E|exact O]|left; exists w', l', F'; split; [exists k; exact E|exact K]]. }
  assert (Le : List.length (extend_args t n) = S n) by (cbn [extend_args List.length]; rewrite repeat_length; reflexivity).
  pose proof (Forall2_repeat t us (mem w) xs Fx Ws) as Fw.
  unfold call_with. apply wp_prepare_arguments; rewrite ?Le; [|exact Hw|exact L1|exact L2|].
  { unfold extend_args. constructor; [exact (proj1 V)|]. fold n in Fw. clear -Fw. remember (repeat (AVal t) n) as A. assert (H : forall a, In a A -> a = AVal t) by (intros a Ha; rewrite HeqA in Ha; exact (repeat_spec _ _ _ Ha)). clear HeqA.
    induction Fw as [|a x A xs H1 H2 IH]; constructor; [rewrite (H a (or_introl eq_refl)) in *; exact H1|apply IH; intros a' Ha; apply H; right; exact Ha]. }
  intros l' (Sl&_) Rec. cbn [extend_args recorded] in Rec. destruct Rec as (Rec&_).
  assert (Gv : givens (mem w) (extend_args t n) (r :: xs) = load 4 (mem w) r :: xs).
  { cbn [extend_args givens given by_ref]. f_equal. apply givens_values; [|rewrite repeat_length; reflexivity]. clear. induction n; [reflexivity|exact IHn]. }
  rewrite Gv. unfold call_code. rewrite <- !app_assoc. cbn [app].
  assert (Lr : List.length (rev (load 4 (mem w) r :: xs)) = S n) by (rewrite rev_length; reflexivity).
  eapply wp_call_spec; [reflexivity|rewrite app_length; lia| | |].
  { rewrite firstn_app, Lr, Nat.sub_diag, firstn_all2, firstn_O, app_nil_r, rev_involutive by lia. eapply extend_spec; eassumption. }
  { intros O. left. split; [reflexivity|exact O]. }
  intros rs w1 (->&Hw1&Hf1&r'&F'&D'&Fo). rewrite skipn_app, Lr, Nat.sub_diag, skipn_all2 by lia. cbn [app skipn].
  apply wp_propagate_ok; [exact Hw1|exact Hf1|]. cbn [unpack_return app].
  assert (Up : update_refs c (extend_args t n) = [LocalGet c; Call vec_update_mut_ref]).
  { unfold extend_args. cbn [update_refs]. replace (update_refs (S c) (repeat (AVal t) n)) with (@nil instr); [reflexivity|]. clear. generalize (S c). induction n as [|n IH]; intros k; [reflexivity|]. cbn [repeat update_refs]. rewrite <- IH. reflexivity. }
  rewrite Up. eapply wp_lget; [exact Rec|].
  destruct (follows_update _ _ _ _ _ _ _ Hw1 Fo) as (w2&R&Fr&Vr&_). eapply wp_call; [reflexivity|cbn [List.length]; lia|]. cbn [firstn rev app skipn]. eapply returns_wpf; [exact R|]. cbn [app].
  apply wp_nil. right. exists w2, l', F'. auto.
Qed.
