(** * References in the ABI: runtime/{packing,unpacking}/reference.rs and their callers in abi_types. *)

From Verif Require Import Tac RtAlloc RtVec RtVec2 RtErr RtEq RtDiv RtShift RtSwap RtAscii Ops SpecVal LemVal SpecAbi LemAbi RtCopy RtCopy2 SpecSol RtAbi RtPack RtPack2 RtUnpack RtUnpack2 LemSol SpecAbiRef.
Ltac Zify.zify_post_hook ::= idtac.

(** runtime/unpacking/reference.rs 11-105: called for bool, u8, u16, u32 and u64 only (abi_types/unpacking.rs 198-240).
    Locals: 0 reader_pointer, 1 calldata_reader_pointer, 2 ptr_local. *)
Definition unpack_reference (ep : errtab) (t : aty) : func := Func 2 1 1
 ([ Const (Z.of_nat (esize (mty t))); Call alloc; LocalTee 2 ] ++ unpack_code ep t (propagate true) 0 1 ++
  [ Store (esize (mty t)) 0; LocalGet 2 ]).

(** abi_types/unpacking.rs 198-240 and 355-358: the arm of [add_unpack_instructions] for references. *)
Definition unpack_ref_code (ep : errtab) (t : aty) (pv : list instr) (r b : nat) : list instr :=
  (if is_stack (mty t) then [ LocalGet r; LocalGet b; Call (unpack_reference ep t) ] ++ pv
   else unpack_code ep t pv r b) ++ [ GlobalGet GCalldata; LocalSet r ].
Definition unpack_param (ep : errtab) (p : param) (pv : list instr) (r b : nat) : list instr :=
  if fst p then unpack_ref_code ep (snd p) pv r b else unpack_code ep (snd p) pv r b.

(** abi_types/unpacking.rs 71-116, as [build_unpack], with references. *)
Definition build_unpack_params (ep : errtab) (pv : list instr) (ps : list param) : func :=
  Func 1 2 (List.length ps)
   ([ LocalGet 0; LocalTee 1; LocalSet 2; LocalGet 1; GlobalSet GCalldata ] ++
    List.concat (map (fun p => unpack_param ep p pv 1 2) ps)).

(** runtime/packing/reference.rs 31-151.  Locals: 0 reference_pointer, 1 writer_pointer,
    2 calldata_reference_pointer, 3 value_local. *)
Definition pack_reference (ep : errtab) (t : aty) : func :=
  if is_stack (mty t)
  then Func 3 1 0 ([ LocalGet 0; Load 4 0; LocalTee 0; Load (esize (mty t)) 0; LocalSet 3 ] ++
                   pack_code ep t (propagate false) (propagate false) 3 1 2)
  else Func 3 0 0 ([ LocalGet 0; Load 4 0; LocalSet 0 ] ++
                   pack_code ep t (propagate false) (propagate false) 0 1 2).

(** abi_types/packing.rs 298-317 and 387-413: the arms for references of [add_pack_instructions] and of
    [add_pack_instructions_dynamic], selected by [is_dynamic] (535-537: that of the value). *)
Definition pack_ref_code (ep : errtab) (t : aty) (pv ps : list instr) (x wr rf : nat) : list instr :=
  if is_dynamic t then [ LocalGet x; Load 4 0; LocalSet x ] ++ pack_code ep t pv ps x wr rf
  else [ LocalGet x; LocalGet wr; LocalGet rf; Call (pack_reference ep t) ] ++ pv.
Definition pack_param (ep : errtab) (p : param) (pv ps : list instr) (x wr rf : nat) : list instr :=
  if fst p then pack_ref_code ep (snd p) pv ps x wr rf else pack_code ep (snd p) pv ps x wr rf.

(** abi_types/packing.rs 108-210, as [pack_values] and [build_pack], with references (494-497: the encoded size of a
    reference is that of the value). *)
Fixpoint pack_params (ep : errtab) (pv ps : list instr) (i n : nat) (ts : list param) : list instr :=
  match ts with
  | [] => []
  | t :: ts => [ LocalGet n; LocalSet (n + 3) ] ++ pack_param ep t pv ps i (n + 2) (n + 3) ++
      [ LocalGet (n + 2); Const (slot_size (snd t)); Bin I32 Add; LocalSet (n + 2) ] ++ pack_params ep pv ps (S i) n ts
  end.
Definition build_pack_params (ep : errtab) (pv ps : list instr) (ts : list param) : func :=
  let n := List.length ts in
  Func n 4 2
   ([ Const (fold_right Z.add 0 (map (fun t => slot_size (snd t)) ts)); Call alloc; LocalTee n; LocalSet (n + 2) ] ++
    pack_params ep pv ps 0 n ts ++
    [ Const 0; Call alloc; LocalGet n; Bin I32 Sub; LocalSet (n + 1); LocalGet n; LocalGet (n + 1) ]).

(** Without references these are the functions of RtUnpack.v and RtPack.v. *)
Lemma build_unpack_params_values : forall ep pv ts, build_unpack_params ep pv (map by_value ts) = build_unpack ep pv ts.
Proof. intros. unfold build_unpack_params, build_unpack. rewrite map_length, map_map. reflexivity. Qed.
Lemma build_pack_params_values : forall ep pv ps ts, build_pack_params ep pv ps (map by_value ts) = build_pack ep pv ps ts.
Proof.
  intros. unfold build_pack_params, build_pack. rewrite map_length, map_map. cbn [snd by_value].
  assert (E : forall ts i n, pack_params ep pv ps i n (map by_value ts) = pack_values ep pv ps i n ts).
  { clear. induction ts as [|t ts IH]; intros i n; cbn [map pack_params pack_values]; [reflexivity|]. rewrite IH. reflexivity. }
  rewrite E. reflexivity.
Qed.

(** ** Unpacking *)
Definition need_param (p : param) (v : val) : Z := if fst p then fsize (mty (snd p)) (need (snd p)) v else need (snd p) v.
Definition need_params (ps : list param) (vs : list val) : Z := zip_sum (map need_param ps) vs.

Lemma need_param_nonneg : forall p v, 0 <= need_param p v.
Proof. intros [[|] t] v; unfold need_param, fsize; cbn [fst snd]; [destruct (is_stack (mty t)); [lia|]|]; apply need_nonneg. Qed.
Lemma need_params_nonneg : forall ps vs, 0 <= need_params ps vs.
Proof.
  unfold need_params. induction ps as [|t ts IH]; intros [|v vs]; cbn [map zip_sum]; try lia. pose proof (need_param_nonneg t v). specialize (IH vs). lia.
Qed.

Lemma given_ext : forall p m m' v x F, agree m m' F -> given m p v x F -> given m' p v x F.
Proof.
  intros [[|] t] m m' v x F A; unfold given; cbn [fst snd]; [apply (field_of_ext (mty t) (vrep_ext (mty t))); exact A|apply vrep_ext; exact A].
Qed.

Lemma given_all_length : forall ps m vs xs F, given_all m ps vs xs F -> List.length xs = List.length ps.
Proof.
  induction ps as [|t ts IH]; intros m [|v vs] [|x xs] F H; cbn [given_all List.length] in *; try tauto. destruct H as (F1&F2&V&H&_). f_equal. eauto.
Qed.

Definition unpacked_ref (t : aty) (v : val) (w w' : world) (g x : Z) : Prop :=
  extends (set_gcd w g) w' /\ gnext w' = gnext w + fsize (mty t) (need t) v /\
  field_of (mem w') (mty t) (vrep (mem w') (mty t)) v x (between (gnext w) (gnext w')).

Lemma unpack_reference_spec : forall ep t w v R B hi, is_stack (mty t) = true -> errtab_ok ep ->
  wok w -> abort_flag w = 0 -> wf_aty t -> 0 <= R -> 0 <= B -> hi <= gnext w -> hi <= 2147483648 ->
  decodes (mem w) hi t v R B ->
  wpf (unpack_reference ep t) [R; B] w (resq (fun vs w' => exists x, vs = [x] /\ unpacked_ref t v w w' (R + head_size t) x)
    (oom w (fsize (mty t) (need t) v))).
Proof.
  intros ep t w v R B hi St He Hw Fl Wf HR HB Hhi Hhi2 D. pose proof Hw as (P1&P2&P3&P4&P5&P6). pose proof (esize_range (mty t)) as Hsz.
  unfold unpack_reference. apply wpf_intro; [reflexivity|]. cbn [app repeat List.length Nat.sub].
  assert (Fs : fsize (mty t) (need t) v = Z.of_nat (esize (mty t))) by (unfold fsize; rewrite St; reflexivity). rewrite Fs in *.
  ws1. wcall (alloc_spec w (Z.of_nat (esize (mty t)))); [exact Hw|lia|intros O; exact O|].
  intros rs w1 [-> Al]. wc. pose proof Al as (Hw1&Em&B1&B2&B3&B4&B5). pose proof Hw1 as (R1&R2&R3&R4&R5&R6).
  eapply wp_ltee; [reflexivity|]. cbn [set_nth].
  eapply (unpack_all t ep (propagate true) 0%nat 1%nat _ _ _ _ w1 v R B hi);
    [apply skips_propagate|exact He|reflexivity|reflexivity|exact Hw1|unfold abort_flag; rewrite Em; exact Fl|exact Wf|exact HR|exact HB|lia|exact Hhi2|rewrite Em; exact D| |].
  { intros X. rewrite (need_stack t v St) in X. destruct X as [O|[Y _]].
    - cbn [fret resq]. unfold oom in *. lia.
    - exfalso. destruct t; cbn [has_string mty is_stack] in *; discriminate. }
  intros w2 x (E1&G1&Rx&Px&Vx). cbn [set_nth]. pose proof E1 as (Hw2&Mp&Pg&_). pose proof Hw2 as (Q1&Q2&Q3&Q4&Q5&Q6).
  hide Rx. rewrite (need_stack t v St) in G1. rewrite Z.add_0_r in G1.
  assert (Vi : int_val (mty t) v x) by (destruct (mty t); try discriminate; exact Vx).
  apply wp_store; [lia|unfold page_size; lia|]. eapply wp_lget; [reflexivity|]. apply wp_nil. wc.
  rewrite Z.add_0_r. exists (gnext w). split; [reflexivity|]. unfold unpacked_ref. rewrite Fs. cbn [gnext set_mem mem].
  set (m := store _ _ _ _). split; [|split; [lia|]].
  - destruct E1 as (_&E2&E3&E4&E5&E6&E7). unfold extends. unfold set_gcd, set_glob in E2, E3, E4, E5, E6, E7 |- *.
    cbn [gnext set_mem mem maxpages pages gcd host] in E2, E3, E4, E5, E6, E7 |- *.
    split; [apply (wok_frame w2 _ (within (gnext w) (Z.of_nat (esize (mty t))))); [exact Hw2|apply frame_set_mem; intros y Hy; unfold m; apply rd_store_out; unfold within in Hy; lia|unfold within; intros; lia]|].
    repeat (split; [first [congruence|lia]|]). intros y Hy. unfold m. rewrite rd_store_out by lia. rewrite E7 by lia. rewrite Em. reflexivity.
  - unfold field_of. rewrite St. split; [apply between_sub; lia|]. unfold m. rewrite load_store_same. unhide Rx. rewrite Z.mod_small by exact Rx. exact Vi.
Qed.

Lemma set_set_same : forall i a b (l : list Z), set_nth i b (set_nth i a l) = set_nth i b l.
Proof. induction i as [|i IH]; intros a b [|x l]; cbn [set_nth]; try reflexivity. f_equal. apply IH. Qed.

Lemma unpack_ref_ok : forall t ep pv r b k (Q : outcome -> Prop) s l w v R B hi,
  skips pv -> errtab_ok ep -> nth_error l r = Some R -> nth_error l b = Some B ->
  wok w -> abort_flag w = 0 -> wf_aty t -> 0 <= R -> 0 <= B -> hi <= gnext w -> hi <= 2147483648 ->
  decodes (mem w) hi t v R B ->
  (ctrap w (has_string t) (fsize (mty t) (need t) v) -> Q OTrap) ->
  (forall w' x, unpacked_ref t v w w' (R + head_size t) x -> wp k Q (x :: s) (set_nth r (R + head_size t) l) w') ->
  wp (unpack_ref_code ep t pv r b ++ k) Q s l w.
Proof.
  intros t ep pv r b k Q s l w v R B hi Sv He Nr Nb Hw Fl Wf HR HB Hhi Hhi2 D T K. pose proof Hw as (P1&P2&P3&P4&P5&P6).
  unfold unpack_ref_code. rewrite <- app_assoc. cbn [app]. destruct (is_stack (mty t)) eqn:St.
  - cbn [app]. eapply wp_lget; [exact Nr|]. eapply wp_lget; [exact Nb|].
    eapply wp_call_spec; [reflexivity|cbn [List.length]; lia|apply (unpack_reference_spec ep t w v R B hi); assumption|intros O; apply T; left; exact O|].
    intros vs w' (x&->&U). pose proof U as (E&G&V). pose proof E as (Hw'&_&_&_&Eg&_). cbn [skipn app].
    apply Sv; [exact Hw'|rewrite <- Fl; unfold abort_flag; apply load_ext; change (Z.of_nat 4) with 4; intros j Hj; destruct E as (_&_&_&_&_&_&Oe); apply Oe; change (gnext (set_gcd w (R + head_size t))) with (gnext w); lia|].
    eapply wp_sync; [exact Nr|]. rewrite Eg. apply K. exact U.
  - eapply (unpack_all t ep pv r b _ _ _ _ w v R B hi); try eassumption.
    { intros X. apply T. unfold fsize. rewrite St. exact X. }
    intros w' x (E&G&Rx&Px&Vx). pose proof E as (Hw'&_&_&_&Eg&_).
    eapply wp_sync; [rewrite set_nth_same; [reflexivity|apply nth_error_Some; rewrite Nr; discriminate]|]. rewrite Eg.
    rewrite set_set_same. apply K. unfold unpacked_ref, fsize, field_of. rewrite St. auto.
Qed.

Lemma unpack_param_ok : forall p ep pv r b k (Q : outcome -> Prop) s l w v R B hi,
  skips pv -> errtab_ok ep -> nth_error l r = Some R -> nth_error l b = Some B ->
  wok w -> abort_flag w = 0 -> wf_aty (snd p) -> 0 <= R -> 0 <= B -> hi <= gnext w -> hi <= 2147483648 ->
  decodes (mem w) hi (snd p) v R B ->
  (ctrap w (has_string (snd p)) (need_param p v) -> Q OTrap) ->
  (forall w' x, extends (set_gcd w (R + head_size (snd p))) w' -> gnext w' = gnext w + need_param p v ->
     given (mem w') p v x (between (gnext w) (gnext w')) -> wp k Q (x :: s) (set_nth r (R + head_size (snd p)) l) w') ->
  wp (unpack_param ep p pv r b ++ k) Q s l w.
Proof.
  intros [[|] t] ep pv r b k Q s l w v R B hi Sv He Nr Nb Hw Fl Wf HR HB Hhi Hhi2 D T K; unfold unpack_param, need_param, given in *; cbn [fst snd] in *.
  - eapply (unpack_ref_ok t ep pv r b k Q s l w v R B hi); try eassumption. intros w' x (E&G&V). apply K; assumption.
  - eapply (unpack_all t ep pv r b k Q s l w v R B hi); try eassumption. intros w' x (E&G&_&_&V). apply K; assumption.
Qed.

Lemma unpack_params_ok : forall ep pv ps, skips pv -> errtab_ok ep -> fold_right and True (map (fun p => wf_aty (snd p)) ps) ->
  forall w0 w g vs R A0 B hi (Q : outcome -> Prop) s, wok w0 -> abort_flag w0 = 0 -> extends (set_gcd w0 g) w ->
  0 <= R -> 0 <= B -> hi <= gnext w0 -> hi <= 2147483648 ->
  dec_fields (map (fun t => (fun v r => decodes (mem w0) hi t v r B, head_size t)) (map snd ps)) vs R ->
  (ctrap w (existsb has_string (map snd ps)) (need_params ps vs) -> Q OTrap) ->
  (forall w' g xs a, extends (set_gcd w0 g) w' -> gnext w' = gnext w + need_params ps vs ->
     (forall x, 0 <= x < gnext w -> rd (mem w') x = rd (mem w) x) ->
     given_all (mem w') ps vs xs (between (gnext w) (gnext w')) -> Q (ONormal (rev xs ++ s) [A0; a; B] w')) ->
  wp (List.concat (map (fun p => unpack_param ep p pv 1 2) ps)) Q s [A0; R; B] w.
Proof.
  intros ep pv ps Sv He. induction ps as [|p ps IH]; intros Wf w0 w g vs R A0 B hi Q s Hw0 Fl Ex HR HB Hhi Hhi2 D T K.
  { destruct vs; [|destruct D]. cbn [map List.concat]. apply wp_nil. apply (K w g [] R); [exact Ex|cbn; lia|reflexivity|exact I]. }
  destruct vs as [|v vs]; [destruct D|]. cbn [map dec_fields] in D. destruct D as [Dv Ds]. cbn [map fold_right] in Wf. destruct Wf as [Wt Wr].
  cbn [map List.concat]. pose proof Ex as (Hw&Ea&_&Gw&_&_&Ow). change (gnext (set_gcd w0 g)) with (gnext w0) in *. change (mem (set_gcd w0 g)) with (mem w0) in *. change (maxpages (set_gcd w0 g)) with (maxpages w0) in Ea. pose proof Hw0 as (_&_&P3&_).
  pose proof (need_param_nonneg p v) as Hcv. pose proof (head_size_nonneg (snd p)) as Hh. pose proof (need_params_nonneg ps vs) as Hzs.
  assert (Na : need_params (p :: ps) (v :: vs) = need_param p v + need_params ps vs) by reflexivity. rewrite Na in T, K. cbn [map existsb] in T.
  eapply (unpack_param_ok p ep pv 1%nat 2%nat _ _ _ _ w v R B hi); [exact Sv|exact He|reflexivity|reflexivity|exact Hw| |exact Wt|exact HR|exact HB|lia|exact Hhi2| | |].
  { rewrite <- Fl. unfold abort_flag. apply load_ext. change (Z.of_nat 4) with 4. intros. apply Ow. lia. }
  { eapply decodes_ext; [|exact Wt|exact HR|exact HB|exact Dv]. intros x Hx. apply Ow. lia. }
  { intros X. apply T. eapply ctrap_extends; [apply extends_refl; exact Hw|exact X|lia|]. intros ->. reflexivity. }
  intros w1 x E1 G1 Vx. cbn [set_nth]. pose proof E1 as (Hw1&_&_&_&_&_&O1).
  change (gnext (set_gcd w (R + head_size (snd p)))) with (gnext w) in *. change (mem (set_gcd w (R + head_size (snd p)))) with (mem w) in *.
  pose proof (extends_gcd_trans _ _ _ _ _ Ex E1) as E2.
  eapply (IH Wr w0 w1 (R + head_size (snd p)) vs (R + head_size (snd p)) A0 B hi); [exact Hw0|exact Fl|exact E2|lia|exact HB|exact Hhi|exact Hhi2|exact Ds| |].
  { intros X. apply T. pose proof E2 as (_&Eb&_). change (maxpages (set_gcd w0 (R + head_size (snd p)))) with (maxpages w0) in Eb. destruct X as [O|[Y [j [C1 C2]]]]; [left|right].
    - unfold oom in *. rewrite Eb in O. rewrite Ea. lia.
    - split; [rewrite Y; apply orb_true_r|]. exists j. lia. }
  intros w2 g2 xs a E3 G3 O3 H3. cbn [rev app]. specialize (K w2 g2 (x :: xs) a E3). cbn [rev] in K. rewrite <- app_assoc in K. cbn [app] in K.
  apply K; [lia| |].
  - intros y Hy. rewrite O3 by lia. apply O1. exact Hy.
  - exists (between (gnext w) (gnext w1)), (between (gnext w1) (gnext w2)). split; [|split; [exact H3|split; [apply between_disj; lia|split; apply between_sub; lia]]].
    eapply given_ext; [|exact Vx]. intros y Hy. unfold between in Hy. apply O3. pose proof Hw as (_&_&Y&_). lia.
Qed.

Lemma build_unpack_params_spec : forall ep pv ps w vs a hi, skips pv -> errtab_ok ep -> wok w -> abort_flag w = 0 ->
  fold_right and True (map (fun p => wf_aty (snd p)) ps) -> 0 <= a -> hi <= gnext w -> hi <= 2147483648 -> decodes_args (mem w) hi (map snd ps) vs a ->
  wpf (build_unpack_params ep pv ps) [a] w (resq (fun rs w' => exists xs g, rs = rev xs /\ extends (set_gcd w g) w' /\
      gnext w' = gnext w + need_params ps vs /\ given_all (mem w') ps vs xs (between (gnext w) (gnext w')))
    (ctrap w (existsb has_string (map snd ps)) (need_params ps vs))).
Proof.
  intros ep pv ps w vs a hi Sv He Hw Fl Wf Ha Hhi Hhi2 D. apply wpf_intro; [reflexivity|]. unfold build_unpack_params. cbn [app repeat List.length Nat.sub].
  ws1. ws1. ws1. ws1. ws1. 
  eapply (unpack_params_ok ep pv ps Sv He Wf w _ a vs a a a hi); [exact Hw|exact Fl| |exact Ha|exact Ha|exact Hhi|exact Hhi2|exact D|intros X; exact X|].
  { apply (extends_gcd w w a). apply extends_refl. exact Hw. }
  intros w' g xs a' E G O H. cbn [fret]. exists xs, g. rewrite app_nil_r. split; [|auto].
  pose proof (given_all_length _ _ _ _ _ H) as L. rewrite <- L, <- rev_length. apply firstn_all.
Qed.

(** ** Packing *)
Lemma field_value : forall w t v p, wok w -> field_of (mem w) t (vrep (mem w) t) v p (heap w) -> is_stack t = true ->
  468 <= p /\ p + Z.of_nat (esize t) <= gnext w /\ vrep (mem w) t v (load (esize t) (mem w) p) (heap w).
Proof.
  intros w t v p Hw V St. unfold field_of in V. rewrite St in V. destruct V as [S V]. pose proof (esize_range t).
  destruct (sub_live p (Z.of_nat (esize t)) (heap w) w S (sub_refl _) ltac:(lia)) as [B1 B2]. repeat (split; [assumption|]).
  destruct t; try discriminate; exact V.
Qed.

(** [F] is the part of the memory where the values and the cells are. *)
Lemma pack_reference_spec : forall t ep w v X p W R F, wok w -> abort_flag w = 0 -> wf_aty t ->
  468 <= X -> X + 4 <= gnext w -> load 4 (mem w) X = p ->
  field_of (mem w) (mty t) (vrep (mem w) (mty t)) v p F -> sub F (heap w) ->
  468 <= W -> W + head_size t <= gnext w -> zeroed w W (head_size t) -> disj F (between W (W + head_size t)) ->
  0 <= R <= gnext w -> lenz (enc t v) < 2147483648 ->
  wpf (pack_reference ep t) [X; W; R] w (resq (fun vs w' => vs = [] /\ packs w w' W (hpart t (gnext w - R) v) (tpart t v)) (oom w (lenz (tpart t v)))).
Proof.
  intros t ep w v X p W R F Hw Fl Wf HX1 HX2 Ep V S H1 H2 Z D HR HL. pose proof Hw as (P1&P2&P3&P4&P5&P6).
  pose proof (esize_range (mty t)) as Hsz. unfold pack_reference. unfold field_of in V. destruct (is_stack (mty t)) eqn:St.
  - destruct V as [Sp V]. destruct (sub_live p _ F w Sp S ltac:(lia)) as [B1 B2].
    assert (Vr : vrep (mem w) (mty t) v (load (esize (mty t)) (mem w) p) F) by (destruct (mty t); try discriminate; exact V).
    apply wpf_intro; [reflexivity|]. cbn [app repeat List.length Nat.sub].
    ws1. apply wp_load; [lia|unfold page_size; change (Z.of_nat 4) with 4; lia|]. rewrite Z.add_0_r, Ep. eapply wp_ltee; [reflexivity|]. cbn [set_nth].
    apply wp_load; [lia|unfold page_size; lia|]. rewrite Z.add_0_r. eapply wp_lset; [reflexivity|]. cbn [set_nth].
    rewrite <- (app_nil_r (pack_code _ _ _ _ _ _ _)).
    eapply (pack_all t ep _ _ 3%nat 1%nat 2%nat _ _ _ _ w v _ W R F); try apply skips_propagate; try reflexivity; try eassumption; [cbn [fret]; auto|].
    intros w' Pk. apply wp_nil. cbn [fret resq]. split; [reflexivity|exact Pk].
  - apply wpf_intro; [reflexivity|]. cbn [app repeat List.length Nat.sub].
    ws1. apply wp_load; [lia|unfold page_size; change (Z.of_nat 4) with 4; lia|]. rewrite Z.add_0_r, Ep. eapply wp_lset; [reflexivity|]. cbn [set_nth].
    rewrite <- (app_nil_r (pack_code _ _ _ _ _ _ _)).
    eapply (pack_all t ep _ _ 0%nat 1%nat 2%nat _ _ _ _ w v _ W R F); try apply skips_propagate; try reflexivity; try eassumption; [cbn [fret]; auto|].
    intros w' Pk. apply wp_nil. cbn [fret resq]. split; [reflexivity|exact Pk].
Qed.

(** The local [x] may be overwritten. *)
Lemma pack_param_ok : forall q ep pv ps x wr rf r (Q : outcome -> Prop) s l w0 w v X W R,
  skips pv -> skips ps -> nth_error l x = Some X -> nth_error l wr = Some W -> nth_error l rf = Some R -> x <> wr -> x <> rf ->
  wok w0 -> wok w -> abort_flag w = 0 -> wf_aty (snd q) -> given_back w0 q v X -> gnext w0 <= gnext w ->
  (forall a, 0 <= a < gnext w0 -> rd (mem w) a = rd (mem w0) a) ->
  gnext w0 <= W -> W + head_size (snd q) <= gnext w -> zeroed w W (head_size (snd q)) ->
  0 <= R <= gnext w -> lenz (enc (snd q) v) < 2147483648 ->
  (oom w (lenz (tpart (snd q) v)) -> Q OTrap) ->
  (forall w' y, packs w w' W (hpart (snd q) (gnext w - R) v) (tpart (snd q) v) -> wp r Q s (set_nth x y l) w') ->
  wp (pack_param ep q pv ps x wr rf ++ r) Q s l w.
Proof.
  intros [[|] t] ep pv ps x wr rf r Q s l w0 w v X W R Sv Ss N1 N2 N3 Nw Nr Hw0 Hw Fl Wf V Hg Ow HW1 HW2 Z HR HL T K.
  all: pose proof Hw as (P1&P2&P3&P4&P5&P6); pose proof Hw0 as (P1'&P2'&P3'&P4'&P5'&P6').
  all: assert (Sx : set_nth x X l = l) by (clear - N1; revert x N1; induction l as [|z l IH]; intros [|x] N; cbn [nth_error set_nth] in *; try discriminate; [congruence|]; f_equal; auto).
  all: assert (Sh : sub (heap w0) (heap w)) by (unfold heap; apply between_sub; lia).
  all: assert (Dj : disj (heap w0) (between W (W + head_size t))) by (intros a Fa Ka; unfold heap, between in *; lia).
  all: assert (Ag : agree (mem w0) (mem w) (heap w0)) by (intros a Ha; unfold heap, between in Ha; apply Ow; lia).
  all: unfold pack_param, given_back in *; cbn [fst snd] in *.
  - destruct V as [Sc V]. destruct (sub_live X 4 (heap w0) w0 Sc (sub_refl _) ltac:(lia)) as [B1 B2].
    assert (Ep : load 4 (mem w) X = load 4 (mem w0) X) by (apply load_ext; change (Z.of_nat 4) with 4; intros; apply Ow; lia).
    pose proof (field_of_ext (mty t) (vrep_ext (mty t)) _ _ _ _ _ Ag V) as V'.
    unfold pack_ref_code. destruct (is_dynamic t) eqn:Dy.
    + assert (St : is_stack (mty t) = false) by (destruct t as [u|n| |u|fs]; cbn [is_dynamic mty is_stack] in *; try discriminate; reflexivity).
      unfold field_of in V'. rewrite St in V'.
      cbn [app]. eapply wp_lget; [exact N1|]. apply wp_load; [lia|unfold page_size; change (Z.of_nat 4) with 4; lia|]. rewrite Z.add_0_r, Ep.
      eapply wp_lset; [exact N1|].
      eapply (pack_all t ep pv ps x wr rf _ _ _ _ w v _ W R (heap w0)); [exact Sv|exact Ss|apply set_nth_same; apply nth_error_Some; rewrite N1; discriminate|
        rewrite set_nth_other by exact Nw; exact N2|rewrite set_nth_other by exact Nr; exact N3|exact Hw|exact Fl|exact Wf|exact V'|exact Sh|lia|exact HW2|exact Z|exact Dj|exact HR|exact HL|exact T|].
      intros w' Pk. apply K. exact Pk.
    + cbn [app]. eapply wp_lget; [exact N1|]. eapply wp_lget; [exact N2|]. eapply wp_lget; [exact N3|].
      assert (Ef : exists nl b, pack_reference ep t = Func 3 nl 0 b) by (unfold pack_reference; destruct (is_stack (mty t)); eexists; eexists; reflexivity).
      destruct Ef as (nl&b&Ef).
      eapply wp_call_spec; [exact Ef|cbn [List.length]; lia|cbn [firstn rev app]; apply (pack_reference_spec t ep w v X (load 4 (mem w0) X) W R (heap w0)); try assumption; lia|exact T|].
      intros vs w' (->&Pk). cbn [skipn app]. apply Sv; [apply Pk|rewrite (packs_flag w w' W _ _ Hw Pk) by lia; exact Fl|].
      rewrite <- Sx. apply K. exact Pk.
  - pose proof (vrep_ext (mty t) _ _ _ _ _ Ag V) as V'.
    eapply (pack_all t ep pv ps x wr rf _ _ _ _ w v X W R (heap w0)); try eassumption; [lia|]. intros w' Pk. rewrite <- Sx. apply K. exact Pk.
Qed.

Lemma set_front : forall i y (l k : list Z), (i < List.length l)%nat -> set_nth i y (l ++ k) = set_nth i y l ++ k.
Proof. induction i as [|i IH]; intros y [|x l] k H; cbn [List.length] in H; try lia; cbn [app set_nth]; [reflexivity|]. f_equal. apply IH. lia. Qed.
Lemma skipn_set : forall i y (l : list Z), skipn (S i) (set_nth i y l) = skipn (S i) l.
Proof. induction i as [|i IH]; intros y [|x l]; try reflexivity. cbn [set_nth]. change (skipn (S (S i)) (x :: set_nth i y l)) with (skipn (S i) (set_nth i y l)). rewrite IH. reflexivity. Qed.

Lemma given_back_has : forall w p v x, wf_aty (snd p) -> given_back w p v x -> has_aty (snd p) v.
Proof.
  intros w [[|] t] v x Wf V; unfold given_back in V; cbn [fst snd] in *; [|eapply vrep_has; eassumption].
  destruct V as [_ V]. unfold field_of in V. destruct (is_stack (mty t)) eqn:St; [|eapply vrep_has; eassumption].
  destruct V as [_ V]. eapply (vrep_has t (mem w) v (load (esize (mty t)) (mem w) (load 4 (mem w) x)) (heap w) Wf). destruct (mty t); try discriminate; exact V.
Qed.
Lemma given_back_all_has : forall w ps vs xs, fold_right and True (map (fun p => wf_aty (snd p)) ps) -> given_back_all w ps vs xs ->
  all_fields (map has_aty (map snd ps)) vs.
Proof.
  induction ps as [|t ts IH]; intros [|v vs] [|x xs] Wf H; cbn [given_back_all map all_fields fold_right] in *; try tauto.
  destruct H as [H1 H2]. destruct Wf as [W1 W2]. split; [eapply given_back_has; eauto|eapply IH; eauto].
Qed.
Lemma given_back_all_length : forall w ts vs xs, given_back_all w ts vs xs -> List.length xs = List.length ts.
Proof. induction ts as [|t ts IH]; intros [|v vs] [|x xs] H; cbn [given_back_all List.length] in *; try tauto. destruct H. f_equal. eauto. Qed.

Lemma pack_params_ok : forall ep pv ps, skips pv -> skips ps -> forall w0 w B n N, wok w0 -> wok w -> B = gnext w0 -> B + n = gnext w -> 0 <= n < 2147483648 ->
  (forall a, 0 <= a < B -> rd (mem w) a = rd (mem w0) a) -> abort_flag w = 0 ->
  forall ts vs xs i full wi qs r (Q : outcome -> Prop) s len rf, List.length full = N -> xs = skipn i full ->
  fold_right and True (map (fun p => wf_aty (snd p)) ts) -> given_back_all w0 ts vs xs ->
  built w wi B n B qs ->
  head_lens qs + fold_right Z.add 0 (map head_size (map snd ts)) = n ->
  lenz (tails qs) + lenz (tails (field_parts (map snd ts) vs)) < 2147483648 ->
  (oom w (lenz (tails qs) + lenz (tails (field_parts (map snd ts) vs))) -> Q OTrap) ->
  (forall w' rf full', List.length full' = N -> built w w' B n B (qs ++ field_parts (map snd ts) vs) -> wp r Q s (full' ++ [B; len; B + n; rf]) w') ->
  wp (pack_params ep pv ps i N ts ++ r) Q s (full ++ [B; len; B + head_lens qs; rf]) wi.
Proof.
  intros ep pv ps Sv Ss w0 w B n N Hw0 Hw HB HBn Hn Ow Fl.
  induction ts as [|t ts IH]; intros vs xs i full wi qs r Q s len rf HN Hxs Wf V Bi Hq Ht T K.
  - destruct vs, xs; try contradiction V. cbn [pack_params app map fold_right] in *. replace (head_lens qs) with n by lia. apply K; [exact HN|].
    rewrite app_nil_r. exact Bi.
  - destruct vs as [|v vs]; [contradiction V|]. destruct xs as [|x xs]; [contradiction V|]. destruct V as [V1 V2].
    symmetry in Hxs. apply skipn_cons in Hxs. destruct Hxs as [Nx Hxs]. symmetry in Hxs.
    assert (Hi : (i < List.length full)%nat) by (apply nth_error_Some; rewrite Nx; discriminate).
    cbn [map fold_right] in Wf, Hq. destruct Wf as [Wf1 Wf2]. cbn [map] in *. rewrite field_parts_cons in *.
    change ((dynamic (snd t), enc (snd t) v) :: field_parts (map snd ts) vs) with ([(dynamic (snd t), enc (snd t) v)] ++ field_parts (map snd ts) vs) in Ht, T.
    rewrite tails_app, lenz_app, tails_one in Ht, T.
    pose proof (given_back_has _ _ _ _ Wf1 V1) as Hv.
    pose proof Bi as (I1&I2&I3&I4&I5&I6&I7&I8&I9&I10). pose proof I1 as (J1&J2&J3&J4&J5&J6). pose proof Hw as (P1&P2&P3&P4&P5&P6). pose proof Hw0 as (P1'&P2'&P3'&P4'&P5'&P6').
    pose proof (lenz_nonneg (tails qs)) as Tn. pose proof (lenz_nonneg (tpart (snd t) v)) as Tn2. pose proof (lenz_nonneg (tails (field_parts (map snd ts) vs))) as Tn3.
    pose proof (head_size_nonneg (snd t)) as Hh. pose proof (sum_head_nonneg (map snd ts)) as Hh2. pose proof (head_lens_nonneg qs) as Hh3.
    assert (Oi : forall a, 0 <= a < B -> rd (mem wi) a = rd (mem w0) a).
    { intros a Ha. rewrite I10; [apply Ow; exact Ha|lia|unfold within; lia]. }
    cbn [pack_params]. rewrite <- !app_assoc. cbn [app]. rewrite <- HN.
    eapply wp_lget; [apply nth_mid0|].
    eapply wp_lset; [rewrite nth_mid; reflexivity|]. rewrite set_mid. cbn [set_nth].
    eapply (pack_param_ok t ep pv ps i (List.length full + 2)%nat (List.length full + 3)%nat _ _ _ _ w0 wi v x (B + head_lens qs) B);
      [exact Sv|exact Ss|apply nth_front; exact Nx|rewrite nth_mid; reflexivity|rewrite nth_mid; reflexivity|lia|lia|exact Hw0|exact I1| |exact Wf1|exact V1|lia| | | | | | | |].
    + rewrite <- Fl. unfold abort_flag. apply load_ext. change (Z.of_nat 4) with 4. intros j Hj. apply I10; [lia|unfold within; lia].
    + intros a Ha. apply Oi. lia.
    + lia.
    + lia.
    + intros a Ha. apply I9. lia.
    + lia.
    + pose proof (hpart_len (snd t) 0 v Hv) as Hp. unfold hpart in Hp. unfold tpart in *. destruct (dynamic (snd t)); lia.
    + intros O. apply T. unfold oom in *. lia.
    + intros w' y Pk.
      assert (Bs : built w w' B n B (qs ++ [(dynamic (snd t), enc (snd t) v)])).
      { eapply built_step; [exact Bi|lia|lia|rewrite head_len_part by exact Hv; lia|exact Pk]. }
      assert (Hq1 : head_lens (qs ++ [(dynamic (snd t), enc (snd t) v)]) = head_lens qs + head_size (snd t)).
      { rewrite head_lens_app. unfold head_lens at 2. cbn [map fold_right]. rewrite head_len_part by exact Hv. lia. }
      pose proof Bs as ((J1'&J2'&J3'&J4'&J5'&J6')&_).
      rewrite set_front by exact Hi. rewrite slot_size_eq. pose proof (set_nth_length i y full) as Hsl. rewrite <- Hsl.
      eapply wp_lget; [rewrite nth_mid; reflexivity|]. ws1. ws1. eapply wp_lset; [rewrite nth_mid; reflexivity|]. rewrite set_mid. cbn [set_nth].
      replace (B + head_lens qs + head_size (snd t)) with (B + head_lens (qs ++ [(dynamic (snd t), enc (snd t) v)])) by lia.
      rewrite Hsl, HN.
      eapply (IH vs xs); [lia|rewrite skipn_set; exact Hxs|exact Wf2|exact V2|exact Bs|lia| | |].
      * rewrite tails_app, lenz_app, tails_one. lia.
      * rewrite tails_app, lenz_app, tails_one. intros O. apply T. unfold oom in *. lia.
      * intros w2 rf' full' HN' Bf. rewrite <- app_assoc in Bf. apply K; assumption.
Qed.

Lemma build_pack_params_spec : forall ep pv ps ts w vs xs, skips pv -> skips ps -> wok w -> abort_flag w = 0 ->
  fold_right and True (map (fun p => wf_aty (snd p)) ts) -> given_back_all w ts vs xs ->
  lenz (tuple (field_parts (map snd ts) vs)) < 2147483648 ->
  wpf (build_pack_params ep pv ps ts) xs w (resq (fun rs w' => let e := tuple (field_parts (map snd ts) vs) in
     rs = [lenz e; gnext w] /\ extends w w' /\ gnext w' = gnext w + lenz e /\ bytes_at (mem w') (gnext w) e)
     (oom w (lenz (tuple (field_parts (map snd ts) vs))))).
Proof.
  intros ep pv ps ts w vs xs Sv Ss Hw Fl Wf V Hl. pose proof (given_back_all_length _ _ _ _ V) as Lx.
  pose proof (given_back_all_has _ _ _ _ Wf V) as Hvs. pose proof (field_parts_heads (map snd ts) vs Hvs) as HL.
  pose proof Hw as (P1&P2&P3&P4&P5&P6). set (qs := field_parts (map snd ts) vs) in *. rewrite tuple_len, HL in *.
  pose proof (lenz_nonneg (tails qs)) as Tn. pose proof (sum_head_nonneg (map snd ts)) as Hn. 
  assert (Hsl : fold_right Z.add 0 (map (fun t => slot_size (snd t)) ts) = fold_right Z.add 0 (map head_size (map snd ts))).
  { clear. induction ts as [|t ts IH]; [reflexivity|]. cbn [map fold_right]. rewrite IH, slot_size_eq. reflexivity. }
  set (n := fold_right Z.add 0 (map head_size (map snd ts))) in *.
  unfold build_pack_params. apply wpf_intro; [exact Lx|]. rewrite Hsl. rewrite <- Lx. cbn [app].
  ws1. wcall alloc_spec; [exact Hw|lia|intros O; eapply oom_mono; [exact O|lia]|].
  intros rs w1 [-> Al]. wc. pose proof Al as (Hw1&Em&B1&B2&B3&B4&B5). pose proof Hw1 as (R1&R2&R3&R4&R5&R6).
  set (B := gnext w) in *. pose proof (zeroed_fresh _ _ _ Hw Al) as ZT. fold B in ZT.
  eapply wp_ltee; [apply nth_mid0|]. rewrite set_mid0.
  eapply wp_lset; [rewrite nth_mid; reflexivity|]. rewrite set_mid. cbn [set_nth].
  replace B with (B + head_lens []) at 2 by (cbn; lia).
  eapply (pack_params_ok ep pv ps Sv Ss w w1 B n (List.length xs) Hw Hw1); try reflexivity; try assumption; try lia.
  - intros. rewrite Em. reflexivity.
  - unfold abort_flag. rewrite Em. exact Fl.
  - exact V.
  - apply built_nil; [exact Hw1|exact ZT].
  - fold qs. change (lenz (tails [])) with 0. lia.
  - fold qs. change (lenz (tails [])) with 0. cbn [fret]. intros O. unfold oom in *. fold B. lia.
  - cbn [app]. fold qs. intros w2 rf full' HN' (I1&I2&I3&I4&I5&I6&I7&I8&I9&I10). pose proof I1 as (J1&J2&J3&J4&J5&J6).
    ws1. wcall alloc_spec; [exact I1|lia|intros O; unfold oom in *; fold B; lia|].
    intros rs w3 [-> Al3]. wc. pose proof Al3 as (Hw3&Em3&C1&C2&C3&C4&C5). pose proof Hw3 as (R1'&R2'&R3'&R4'&R5'&R6').
    rewrite <- HN'. eapply wp_lget; [apply nth_mid0|]. ws1.
    eapply wp_lset; [rewrite nth_mid; reflexivity|]. rewrite set_mid. cbn [set_nth].
    eapply wp_lget; [apply nth_mid0|].
    eapply wp_lget; [rewrite nth_mid; reflexivity|]. apply wp_nil. wc. cbv zeta.
    replace (gnext w2 - B) with (n + lenz (tails qs)) by lia. rewrite tuple_len, HL.
    split; [reflexivity|]. split; [|split; [lia|]].
    + unfold extends. split; [exact Hw3|]. repeat (split; [first [congruence|lia]|]). intros a Ha. fold B in Ha. rewrite Em3. rewrite I10; [rewrite Em; reflexivity|lia|unfold within; lia].
    + rewrite Em3. unfold tuple. apply bytes_at_app. rewrite heads_len, HL. split.
      * replace (gnext w1 - B) with (head_lens qs) in I7 by lia. rewrite <- HL. exact I7.
      * replace (B + n) with (gnext w1) by lia. exact I8.
Qed.
