(** * Decoding vectors, structs and argument lists. *)

From Verif Require Import Tac RtAlloc RtVec RtVec2 RtErr RtEq RtDiv RtShift RtSwap RtAscii Ops SpecVal LemVal SpecAbi LemAbi RtCopy RtCopy2 SpecSol RtAbi RtPack RtUnpack.
Ltac Zify.zify_post_hook ::= idtac.

(** Decoding depends on the message only. *)
Lemma dec_elems_imp : forall (D D' : val -> Z -> Prop) sz vs r, 0 <= sz -> 0 <= r -> (forall v r, 0 <= r -> D v r -> D' v r) ->
  dec_elems D sz vs r -> dec_elems D' sz vs r.
Proof.
  induction vs as [|v vs IH]; intros r Hs Hr H; cbn [dec_elems]; [auto|]. intros [A B]. split; [apply H; assumption|].
  apply IH; [exact Hs|lia|exact H|exact B].
Qed.

Lemma decodes_ext : forall t m m' hi, (forall x, 0 <= x < hi -> rd m' x = rd m x) -> forall v r b, wf_aty t -> 0 <= r -> 0 <= b ->
  decodes m hi t v r b -> decodes m' hi t v r b.
Proof.
  intros t m m' hi Hm.
  assert (Lb : forall r, 0 <= r -> r + 32 <= hi -> load_be 32 m' r = load_be 32 m r).
  { intros r H0 H1. apply load_be_ext. intros. apply Hm. lia. }
  assert (Ln : forall r, 0 <= load_be 32 m r) by (intros; apply load_be_range).
  revert t. refine (aty_rec' _ _ _ _ _ _).
  - intros t v r b _ Hr Hb [D1 D2]. split; [exact D1|]. rewrite Lb by lia. exact D2.
  - intros n v r b _ Hr Hb [D1 (tag&E&D2&D3)]. split; [exact D1|]. rewrite Lb by lia. eauto.
  - intros v r b _ Hr Hb [D1 (bs&E&D2&D3&D4)]. split; [exact D1|]. exists bs. rewrite (Lb r) by lia. specialize (Ln r).
    split; [exact E|]. rewrite (Lb (b + load_be 32 m r)) by lia. split; [exact D2|]. split; [exact D3|]. etransitivity; [|exact D4]. apply bytes_ext.
    intros. apply Hm. lia.
  - intros t IH v r b Wf Hr Hb [D1 (vs&E&D2&D3&D4)]. split; [exact D1|]. exists vs. rewrite (Lb r) by lia. specialize (Ln r).
    split; [exact E|]. rewrite (Lb (b + load_be 32 m r)) by lia. split; [exact D2|]. split; [exact D3|].
    eapply dec_elems_imp; [| | |exact D4]; [pose proof (head_size_nonneg t); lia|lia|]. intros. apply IH; auto. lia.
  - intros fs IH v r b [_ Wf] Hr Hb D. cbn [decodes] in *. destruct D as (vs&E&D). exists vs. split; [exact E|].
    assert (F : forall b r vs, 0 <= b -> 0 <= r -> dec_fields (map (fun t => (fun v r => decodes m hi t v r b, head_size t)) fs) vs r ->
      dec_fields (map (fun t => (fun v r => decodes m' hi t v r b, head_size t)) fs) vs r).
    { clear - IH Wf. intros b r vs Hb Hr. revert r vs Hr Wf. induction IH as [|f fs Hf H IHf]; intros r [|v vs] Hr Wf; cbn [map dec_fields fold_right] in *; try tauto.
      intros [A B]. destruct Wf as [W1 W2]. split; [apply Hf; assumption|]. apply IHf; [pose proof (head_size_nonneg f); lia|exact W2|exact B]. }
    destruct (existsb dynamic fs); [|apply F; assumption]. destruct D as [D1 D2]. split; [exact D1|]. rewrite Lb by lia. specialize (Ln r). apply F; [lia|lia|exact D2].
Qed.

Lemma dec_elems_nth : forall D sz vs r i v, dec_elems D sz vs r -> nth_error vs i = Some v -> D v (r + Z.of_nat i * sz).
Proof.
  induction vs as [|u vs IH]; intros r [|i] v; cbn [dec_elems nth_error]; try discriminate.
  - intros [A _] E. injection E as ->. rewrite Z.add_0_r. exact A.
  - intros [_ A] E. replace (r + Z.of_nat (S i) * sz) with (r + sz + Z.of_nat i * sz) by lia. eauto.
Qed.

Lemma unpacked_vector : forall t w w' g V vs, wok w -> V = gnext w -> extends (set_gcd w g) w' ->
  let n := Z.of_nat (List.length vs) in let sz := Z.of_nat (esize (mty t)) in let E := V + 8 + n * sz in
  gnext w' = E + sumz (map (need t) vs) -> 8 + n * sz < 2147483648 ->
  load 4 (mem w') V = n -> load 4 (mem w') (V + 4) = n ->
  elems (vrep (mem w') (mty t)) (esize (mty t)) (mem w') vs (V + 8) (between E (gnext w')) ->
  unpacked (AVec t) (VVec vs) w w' g V.
Proof.
  intros t w w' g V vs (_&_&H3&_) HV Ex n sz E G Hn H1 H2 El. pose proof Ex as ((P1&P2&P3&P4&P5&P6)&_&_&Eg&_).
  change (gnext (set_gcd w g)) with (gnext w) in Eg. pose proof (esize_range (mty t)) as Hs. fold sz in Hs.
  assert (0 <= n) by (unfold n; lia). assert (0 <= n * sz) by (apply Z.mul_nonneg_nonneg; lia).
  assert (0 <= sumz (map (need t) vs)) by (apply sumz_nonneg, Forall_map, Forall_forall; intros; apply need_nonneg).
  unfold unpacked. cbn [need mty esize is_stack]. fold n sz. change (256 ^ Z.of_nat 4) with 4294967296.
  split; [exact Ex|]. split; [lia|]. split; [lia|]. split; [intros _; lia|]. cbn [vrep].
  exists vs, n, (between E (gnext w')). fold n sz. split; [reflexivity|]. split; [exact H1|]. split; [exact H2|]. split; [lia|]. split; [exact Hn|].
  split; [apply between_sub; lia|]. split; [apply between_sub; lia|]. split; [apply between_disj; lia|]. exact El.
Qed.

Lemma ctrap_gcd : forall w w1 b b' n k g, extends (set_gcd w g) w1 -> ctrap w1 b n -> gnext w1 + n <= gnext w + k ->
  (b = true -> b' = true) -> ctrap w b' k.
Proof. intros w w1 b b' n k g E T H I. exact (ctrap_extends (set_gcd w g) w1 b b' n k E T H I). Qed.

Lemma unpack_vector_spec : forall t, unpack_ok t -> forall ep w R B hi v, errtab_ok ep -> wok w -> abort_flag w = 0 -> wf_aty t -> 0 <= R -> 0 <= B ->
  hi <= gnext w -> hi <= 2147483648 -> decodes (mem w) hi (AVec t) v R B ->
  wpf (unpack_vector ep (esize (mty t)) (unpack_code ep t (propagate true) 2 7)) [R; B] w
    (resq (fun rs w' => exists x, rs = [x] /\ unpacked (AVec t) v w w' (R + 32) x)
    (ctrap w (has_string t) (need (AVec t) v))).
Proof.
  intros t IH ep w R B hi v He Hw Fl Wf HR HB Hhi Hhi2 [D1 (vs&->&D2&D3&D4)]. pose proof Hw as (P1&P2&P3&P4&P5&P6).
  pose proof (load_be_range 32 (mem w) R) as Ro. set (off := load_be 32 (mem w) R) in *. set (D := B + off) in *.
  assert (Ro1 : 0 <= off < 2147483648) by (split; [lia|unfold D in *; lia]). clear Ro.
  set (len := List.length vs) in *. pose proof (esize_range (mty t)) as Hsz. set (sz := Z.of_nat (esize (mty t))) in *.
  pose proof (head_size_ge t Wf) as Hh. set (hs := head_size t) in *. set (n := need (AVec t) (VVec vs)).
  assert (Hn : n = 8 + Z.of_nat len * sz + sumz (map (need t) vs)) by reflexivity. clearbody n.
  assert (Hel : forall i v, nth_error vs i = Some v -> decodes (mem w) hi t v (D + 32 + Z.of_nat i * hs) (D + 32) /\ D + 32 + Z.of_nat i * hs + hs <= hi).
  { intros i v Ev. pose proof (dec_elems_nth _ _ _ _ _ _ D4 Ev) as De. split; [exact De|]. apply decodes_bound in De; [|exact Wf]. exact De. }
  assert (Hlen : D + 32 + Z.of_nat len * hs <= hi).
  { destruct len as [|k] eqn:El; [lia|]. destruct (nth_error vs k) as [v|] eqn:Ev; [|apply nth_error_None in Ev; fold len in Ev; lia].
    destruct (Hel _ _ Ev) as [_ Hb]. lia. }
  assert (Hl32 : Z.of_nat len * 32 <= Z.of_nat len * hs) by (apply Z.mul_le_mono_nonneg_l; lia).
  assert (Hl8 : Z.of_nat len * sz <= Z.of_nat len * 8) by (apply Z.mul_le_mono_nonneg_l; lia).
  assert (Hl0 : 0 <= Z.of_nat len * sz) by (apply Z.mul_nonneg_nonneg; lia).
  assert (Hsum : forall j, 0 <= sumz (map (need t) (firstn j vs)) <= sumz (map (need t) vs)).
  { intros j. assert (NN : forall l, 0 <= sumz (map (need t) l)) by (intros; apply sumz_nonneg, Forall_map, Forall_forall; intros; apply need_nonneg).
    split; [apply NN|]. rewrite <- (firstn_skipn j vs) at 2. rewrite map_app, sumz_app. specialize (NN (skipn j vs)). lia. }
  apply wpf_intro; [reflexivity|]. unfold unpack_vector. cbn [app repeat List.length Nat.sub]. fold sz.
  apply (read_word_ok ep 0 _ _ _ _ w R); [reflexivity|exact Hw|exact He|exact Fl|unfold live; lia|fold off; lia|]. fold off. cbn [app].
  ws1. ws1. replace (off + B) with D by (unfold D; lia). assert (HD : 0 <= D) by (unfold D; lia). clearbody D.
  ws1. ws1. ws1. ws1. ws1. change (set_glob GCalldata w (R + 32)) with (set_gcd w (R + 32)).
  set (wg := set_gcd w (R + 32)). assert (Hwg : wok wg) by exact Hw.
  apply (read_word_ok ep 2 _ _ _ _ wg D); [reflexivity|exact Hw|exact He|exact Fl|unfold live; change (gnext wg) with (gnext w); lia|change (mem wg) with (mem w); lia|].
  change (mem wg) with (mem w). rewrite D2. cbn [app]. ws1. ws1. ws1. ws1. ws1. ws1. ws1. ws1. set (H := D + 32) in *.
  wcall (allocate_vector_spec wg (Z.of_nat len) (Z.of_nat len) sz); [exact Hwg|lia|lia|lia|lia| |].
  { intros O. left. eapply oom_mono; [exact O|]. specialize (Hsum len). lia. }
  intros rs w1 (->&E1&G1&H1&H2&Z1). wc. change (gnext wg) with (gnext w) in *. set (V := gnext w) in *.
  set (E := V + 8 + Z.of_nat len * sz) in *.
  ws1. ws1. ws1. ws1. ws1. apply wp_block.
  match goal with |- wp _ (blk _ _ _ ?r ?Q) _ _ _ => assert (Fin : forall wi a b c d g, extends (set_gcd w g) wi -> gnext wi = E + sumz (map (need t) vs) ->
     load 4 (mem wi) V = Z.of_nat len -> load 4 (mem wi) (V + 4) = Z.of_nat len ->
     elems (vrep (mem wi) (mty t)) (esize (mty t)) (mem wi) vs (V + 8) (between E (gnext wi)) ->
     wp r Q [] [R;B;a;Z.of_nat len;V;b;c;d] wi) end.
  { intros wi a b c d g Ei Gi Hi1 Hi2 El. ws1. ws1. ws1. ws1. ws1. change (set_glob GCalldata wi (R + 32)) with (set_gcd wi (R + 32)).
    apply wp_nil. wc. exists V. split; [reflexivity|]. apply unpacked_vector; try assumption; try reflexivity; try exact Gi; fold len sz.
    - change (set_gcd w (R + 32)) with (set_gcd (set_gcd w g) (R + 32)). apply extends_gcd. exact Ei.
    - lia. }
  ws1. ws1. apply wp_brif; intros C; unb C; wc.
  { assert (vs = []) by (destruct vs; [reflexivity|cbn [List.length] in len; lia]). subst vs.
    apply Fin with (g := R + 32); [exact E1|cbn [map sumz fold_right]; lia|exact H1|exact H2|exact I]. }
  ws1. ws1. ws1. ws1.
  eapply (wp_loop (fun f l wi => exists i g, f = (len - i)%nat /\ (i < len)%nat /\ l = [R;B;H + Z.of_nat i * hs;Z.of_nat len;V;V + 8 + Z.of_nat i * sz;Z.of_nat i;H] /\
     extends (set_gcd w g) wi /\ gnext wi = E + sumz (map (need t) (firstn i vs)) /\
     load 4 (mem wi) V = Z.of_nat len /\ load 4 (mem wi) (V + 4) = Z.of_nat len /\
     elems (vrep (mem wi) (mty t)) (esize (mty t)) (mem wi) (firstn i vs) (V + 8) (between E (gnext wi))) len).
  { exists 0%nat, (R + 32). split; [lia|]. split; [lia|]. split; [leq|]. split; [exact E1|]. split; [cbn [firstn map sumz fold_right]; lia|].
    split; [exact H1|]. split; [exact H2|exact I]. }
  intros f l wi (i&g&->&Hi&->&Ei&Gi&Hh1&Hh2&El).
  pose proof Ei as (Hwi&_&_&Gwi&_&_&Owi). pose proof Hwi as (Q1&Q2&Q3&Q4&Q5&Q6). change (gnext (set_gcd w g)) with V in *. change (mem (set_gcd w g)) with (mem w) in *.
  assert (Bi : (Z.of_nat i + 1) * sz <= Z.of_nat len * sz) by (apply Z.mul_le_mono_nonneg_r; lia).
  assert (Bs0 : 0 <= Z.of_nat i * sz) by (apply Z.mul_nonneg_nonneg; lia).
  assert (Bh0 : 0 <= Z.of_nat i * hs) by (apply Z.mul_nonneg_nonneg; lia).
  specialize (Hsum i) as Hsi. specialize (Hsum (S i)) as Hsi1.
  destruct (nth_error vs i) as [v|] eqn:Ev; [|apply nth_error_None in Ev; fold len in Ev; lia].
  destruct (Hel _ _ Ev) as [Dv Bv]. clear Hel.
  rewrite (firstn_snoc _ _ _ Ev) in Hsi1. rewrite sumz_snoc in Hsi1.
  rewrite Z.mul_add_distr_r, Z.mul_1_l in Bi. remember (Z.of_nat i * sz) as isz eqn:Hisz. hide Hisz. remember (Z.of_nat i * hs) as ihs eqn:Hihs. hide Hihs.
  ws1. cbn [app]. eapply (IH ep (propagate true) 2%nat 7%nat _ _ _ _ wi v (H + ihs) H hi);
    [apply skips_propagate|exact He|reflexivity|reflexivity|exact Hwi| |exact Wf|unfold H; lia|unfold H; lia|lia|exact Hhi2| | |].
  { rewrite <- Fl. unfold abort_flag. apply load_ext. change (Z.of_nat 4) with 4. intros. apply Owi. lia. }
  { eapply decodes_ext; [|exact Wf|unfold H; lia|unfold H; lia|exact Dv]. intros x Hx. apply Owi. lia. }
  { intros T. cbn [loopk blk fret]. eapply ctrap_gcd; [exact Ei|exact T| |auto]. fold V. lia. }
  intros w2 z (E2&G2&Rz&_&Vz). fold hs in E2. fold sz in Rz. hide Rz. cbn [set_nth]. fold hs.
  pose proof E2 as (Hw2&_&_&_&_&_&O2). pose proof Hw2 as (R1&R2&R3&R4&R5&R6).
  change (mem (set_gcd wi (H + ihs + hs))) with (mem wi) in O2. change (gnext (set_gcd wi (H + ihs + hs))) with (gnext wi) in O2.
  set (a := V + 8 + isz) in *. pose proof (need_nonneg t v) as Nv.
  assert (Bg : E <= gnext wi <= gnext w2) by lia.
  assert (Ba : a + sz <= E) by (unfold a, E; lia).
  apply wp_store; [lia|unfold page_size; fold sz; lia|]. rewrite Z.add_0_r. fold sz.
  set (w3 := set_mem w2 (store sz (mem w2) a z)).
  assert (E2w : extends (set_gcd w (H + ihs + hs)) w2) by (eapply extends_gcd_trans; [exact Ei|exact E2]).
  assert (O3 : forall x, x < a \/ a + sz <= x -> rd (mem w3) x = rd (mem w2) x) by (intros; unfold w3; cbn [mem set_mem]; apply rd_store_out; lia).
  assert (E3 : extends (set_gcd w (H + ihs + hs)) w3).
  { apply (extends_write (set_gcd w (H + ihs + hs)) w2 _ a sz Hw E2w); [|change (gnext (set_gcd w (H + ihs + hs))) with V; unfold a; lia|lia]. intros x0 Hx0. apply (O3 x0). unfold within in Hx0. lia. }
  assert (A23 : forall F, sub F (between E (gnext w2)) -> agree (mem w2) (mem w3) F).
  { intros F S x0 Hx0. apply S in Hx0. unfold between in Hx0. apply O3. lia. }
  assert (El3 : elems (vrep (mem w3) (mty t)) (esize (mty t)) (mem w3) (firstn (S i) vs) (V + 8) (between E (gnext w2))).
  { rewrite (firstn_snoc _ _ _ Ev). assert (Li : List.length (firstn i vs) = i) by (rewrite firstn_length; fold len; lia).
    eapply elems_app with (F := between E (gnext wi)) (F' := between (gnext wi) (gnext w2)).
    - eapply elems_ext; [| |exact El].
      + intros v0 x0 G0 S0 V0. eapply vrep_ext; [|eapply vrep_ext; [|exact V0]].
        * apply A23. eapply sub_trans; [exact S0|apply between_sub; lia].
        * intros x1 Hx1. apply S0 in Hx1. unfold between in Hx1. apply O2. unfold E in Hx1. lia.
      + rewrite Li. fold sz. intros x0 Hx0. unhide Hisz. rewrite (Z.mul_comm sz), <- Hisz in Hx0. hide Hisz. rewrite O3 by (unfold a; lia). apply O2. lia.
    - rewrite Li. fold sz. replace (V + 8 + sz * Z.of_nat i) with a by (unhide Hisz; unfold a; lia). cbn [elems].
      exists (between (gnext wi) (gnext w2)), empty. split; [|split; [exact I|split; [intros ? ? []|split; [apply sub_refl|intros ? []]]]].
      replace (load (esize (mty t)) (mem w3) a) with z.
      + eapply vrep_ext; [|exact Vz]. apply A23. apply between_sub; lia.
      + unfold w3, sz. cbn [mem set_mem]. rewrite load_store_same. symmetry. apply Z.mod_small. unhide Rz. exact Rz.
    - apply between_disj; lia.
    - apply between_sub; lia.
    - apply between_sub; lia. }
  assert (Hd1 : load 4 (mem w3) V = Z.of_nat len).
  { rewrite <- Hh1. apply load_ext. intros j Hj. change (Z.of_nat 4) with 4 in Hj. rewrite O3 by (unfold a; lia). apply O2. lia. }
  assert (Hd2 : load 4 (mem w3) (V + 4) = Z.of_nat len).
  { rewrite <- Hh2. apply load_ext. intros j Hj. change (Z.of_nat 4) with 4 in Hj. rewrite O3 by (unfold a; lia). apply O2. lia. }
  assert (G3 : gnext w3 = E + sumz (map (need t) (firstn (S i) vs))).
  { rewrite (firstn_snoc _ _ _ Ev), sumz_snoc. unfold w3. cbn [gnext set_mem]. lia. }
  change (gnext w2) with (gnext w3) in El3. clearbody w3.
  ws1. ws1. ws1. ws1. ws1. ws1. ws1. ws1. ws1. ws1. apply wp_brif; intros C'; unb C'; wc.
  - exists (len - S i)%nat. split; [lia|]. exists (S i), (H + ihs + hs). split; [reflexivity|]. split; [lia|].
    split; [unhide Hisz; unhide Hihs; rewrite Nat2Z.inj_succ, !Z.mul_succ_l, <- Hisz, <- Hihs; unfold a; leq|]. split; [exact E3|]. split; [exact G3|]. split; [exact Hd1|]. split; [exact Hd2|exact El3].
  - apply wp_nil. wc. replace (Z.of_nat i + 1) with (Z.of_nat len) by lia.
    assert (HS : firstn (S i) vs = vs) by (apply firstn_all2; fold len; lia). rewrite HS in *. apply wp_nil. wc.
    eapply Fin; eauto.
Qed.

Lemma unpack_vectors : forall t, unpack_ok t -> unpack_ok (AVec t).
Proof.
  intros t IH ep pv r b k Q s l w v R B hi Sv He Nr Nb Hw Fl Wf HR HB Hhi Hhi2 D T K.
  cbn [unpack_code]. rewrite <- !app_assoc. cbn [app]. eapply wp_lget; [exact Nr|]. eapply wp_lget; [exact Nb|].
  wcall (unpack_vector_spec t IH); [exact He|exact Hw|exact Fl|exact Wf|exact HR|exact HB|exact Hhi|exact Hhi2|exact D|exact T|].
  intros vs w' (x&->&U). wc. pose proof U as (Ex&_). pose proof Ex as (Hw'&_&_&_&Eg&_&Ow).
  apply Sv; [exact Hw'| |].
  { rewrite <- Fl. unfold abort_flag. apply load_ext. change (Z.of_nat 4) with 4. intros. apply Ow. destruct Hw as (_&_&P3&_). change (gnext (set_gcd w (R + 32))) with (gnext w). lia. }
  cbn [app]. eapply wp_sync; [exact Nr|]. rewrite Eg. apply K. exact U.
Qed.

(** ** Structs *)
Lemma need_stack : forall t v, is_stack (mty t) = true -> need t v = 0.
Proof. intros [t|n| |t|fs] v H; cbn [mty is_stack] in H; try discriminate. destruct t; try discriminate; reflexivity. Qed.

Lemma unpack_field_ok : forall t, unpack_ok t -> forall ep k (Q : outcome -> Prop) s w v R0 B0 R B Sp fp vl hi,
  errtab_ok ep -> wok w -> abort_flag w = 0 -> wf_aty t -> 0 <= R -> 0 <= B -> hi <= gnext w -> hi <= 2147483648 ->
  decodes (mem w) hi t v R B ->
  (ctrap w (has_string t) (fsize (mty t) (need t) v) -> Q OTrap) ->
  (forall w' q vl, extends (set_gcd w (R + head_size t)) w' -> gnext w' = gnext w + fsize (mty t) (need t) v -> 0 <= q < 4294967296 ->
     field_of (mem w') (mty t) (vrep (mem w') (mty t)) v q (between (gnext w) (gnext w')) ->
     wp k Q s [R0; B0; R + head_size t; B; Sp; q; vl] w') ->
  wp (unpack_code ep t (propagate true) 2 3 ++
      (if is_stack (mty t)
       then [ LocalSet 6; Const (Z.of_nat (esize (mty t))); Call alloc; LocalTee 5; LocalGet 6; Store (esize (mty t)) 0 ]
       else [ LocalSet 5 ]) ++ k) Q s [R0; B0; R; B; Sp; fp; vl] w.
Proof.
  intros t IH ep k Q s w v R0 B0 R B Sp fp vl hi He Hw Fl Wf HR HB Hhi Hhi2 D T K. pose proof Hw as (P1&P2&P3&P4&P5&P6).
  pose proof (esize_range (mty t)) as Hsz.
  eapply (IH ep (propagate true) 2%nat 3%nat _ _ _ _ w v R B hi);
    [apply skips_propagate|exact He|reflexivity|reflexivity|exact Hw|exact Fl|exact Wf|exact HR|exact HB|exact Hhi|exact Hhi2|exact D| |].
  { intros X. apply T. eapply ctrap_extends; [apply extends_refl; exact Hw|exact X| |auto]. unfold fsize. destruct (is_stack (mty t)) eqn:St; [rewrite need_stack by exact St|]; lia. }
  intros w1 x (E1&G1&Rx&Px&Vx). cbn [set_nth]. pose proof E1 as (Hw1&_). pose proof Hw1 as (Q1&Q2&Q3&Q4&Q5&Q6).
  unfold fsize, field_of in *. destruct (is_stack (mty t)) eqn:St.
  - hide Rx. rewrite (need_stack t v St) in G1. rewrite Z.add_0_r in G1. cbn [app].
    assert (Vi : int_val (mty t) v x) by (destruct (mty t); try discriminate; exact Vx).
    eapply wp_lset; [reflexivity|]. cbn [set_nth]. ws1.
    wcall (alloc_spec w1 (Z.of_nat (esize (mty t)))); [exact Hw1|lia| |].
    { intros O. apply T. left. eapply (oom_extends (set_gcd w (R + head_size t))); [exact E1|exact O|]. change (gnext (set_gcd w (R + head_size t))) with (gnext w). lia. }
    intros rs w2 [-> Al]. wc. pose proof Al as (Hw2&Em&B1&B2&B3&B4&B5). pose proof Hw2 as (R1&R2&R3&R4&R5&R6).
    eapply wp_ltee; [reflexivity|]. cbn [set_nth]. eapply wp_lget; [reflexivity|].
    apply wp_store; [lia|unfold page_size; lia|]. rewrite Z.add_0_r, Em. set (m := store _ _ _ _).
    destruct (extends_upd w1 w2 (Z.of_nat (esize (mty t))) m Hw1 Al ltac:(lia)) as (X1&X2&X3).
    { intros z Hz. unfold m. apply rd_store_out. unfold within in Hz. lia. }
    eapply K; [eapply extends_trans; [exact E1|exact X1]|cbn [gnext set_mem]; lia|lia|].
    cbn [gnext set_mem mem]. split; [apply between_sub; lia|]. unfold m. rewrite load_store_same. unhide Rx. rewrite Z.mod_small by exact Rx. exact Vi.
  - specialize (Px eq_refl). cbn [app]. eapply wp_lset; [reflexivity|]. cbn [set_nth]. eapply K; [exact E1|exact G1|lia|exact Vx].
Qed.

Lemma unpack_fields_ok : forall fs, Forall unpack_ok fs -> fold_right and True (map wf_aty fs) ->
  forall ep w0 w g vs R0 B0 R B Sp i E hi r (Q : outcome -> Prop) s fp vl, errtab_ok ep -> wok w0 -> abort_flag w0 = 0 ->
  extends (set_gcd w0 g) w -> 0 <= R -> 0 <= B -> hi <= gnext w0 -> hi <= 2147483648 -> 0 <= i -> i + Z.of_nat (List.length fs) < 65536 ->
  dec_fields (map (fun t => (fun v r => decodes (mem w0) hi t v r B, head_size t)) fs) vs R ->
  gnext w0 <= Sp -> Sp + 4 * i + 4 * Z.of_nat (List.length fs) <= E -> E <= gnext w ->
  (ctrap w (existsb has_string fs) (zip_sum (map (fun f => fsize (mty f) (need f)) fs) vs) -> Q OTrap) ->
  (forall w' g a fp vl, extends (set_gcd w0 g) w' -> gnext w' = gnext w + zip_sum (map (fun f => fsize (mty f) (need f)) fs) vs ->
     (forall x, 0 <= x < gnext w -> x < Sp + 4 * i \/ Sp + 4 * i + 4 * Z.of_nat (List.length fs) <= x -> rd (mem w') x = rd (mem w) x) ->
     fields (map (fun t => field_of (mem w') (mty t) (vrep (mem w') (mty t))) fs) (mem w') vs (Sp + 4 * i) (between (gnext w) (gnext w')) ->
     wp r Q s [R0; B0; a; B; Sp; fp; vl] w') ->
  wp (unpack_fields i (map (fun f => (mty f, unpack_code ep f (propagate true) 2 3)) fs) ++ r) Q s [R0; B0; R; B; Sp; fp; vl] w.
Proof.
  induction fs as [|t fs IHfs]; intros IH Wf ep w0 w g vs R0 B0 R B Sp i E hi r Q s fp vl He Hw0 Fl Ex HR HB Hhi Hhi2 Hi Hn D D1 D2 D3 T K.
  { cbn [map unpack_fields app]. destruct vs; [|destruct D]. cbn [map fields zip_sum] in *. eapply K; eauto. lia. }
  destruct vs as [|v vs]; [destruct D|]. cbn [map dec_fields] in D. destruct D as [Dv Ds].
  inversion IH as [|? ? IHt IHr]; subst. cbn [map fold_right] in Wf. destruct Wf as [Wt Wr].
  cbn [map unpack_fields]. rewrite <- !app_assoc. cbn [app]. cbn [List.length] in *. rewrite Nat2Z.inj_succ in *.
  pose proof Ex as (Hw&_&_&Gw&_&_&Ow). change (gnext (set_gcd w0 g)) with (gnext w0) in *. change (mem (set_gcd w0 g)) with (mem w0) in *. pose proof Hw0 as (_&_&P3&_).
  pose proof (need_nonneg t v) as Hcv. pose proof (esize_range (mty t)) as Hez. pose proof (head_size_nonneg t) as Hh.
  assert (Hf : 0 <= fsize (mty t) (need t) v) by (unfold fsize; destruct (is_stack (mty t)); lia).
  assert (Hzs : 0 <= zip_sum (map (fun f => fsize (mty f) (need f)) fs) vs) by (apply need_fields_nonneg, Forall_forall; intros; apply need_nonneg).
  cbn [map zip_sum existsb] in T, K.
  eapply (unpack_field_ok t IHt ep _ _ _ w v R0 B0 R B Sp fp vl hi); [exact He|exact Hw| |exact Wt|exact HR|exact HB|lia|exact Hhi2| | |].
  { rewrite <- Fl. unfold abort_flag. apply load_ext. change (Z.of_nat 4) with 4. intros. apply Ow. lia. }
  { eapply decodes_ext; [|exact Wt|exact HR|exact HB|exact Dv]. intros x Hx. apply Ow. lia. }
  { intros X. apply T. eapply ctrap_extends; [apply extends_refl; exact Hw|exact X|lia|]. intros ->. reflexivity. }
  intros w' q vl' E' G' Hq V'. pose proof E' as (Hw'&_&_&_&_&_&O'). pose proof Hw' as (Q1&Q2&Q3&Q4&Q5&Q6).
  change (gnext (set_gcd w (R + head_size t))) with (gnext w) in *. change (mem (set_gcd w (R + head_size t))) with (mem w) in *.
  ws1. ws1. apply wp_store; [lia|unfold page_size; lia|]. change (Z.of_nat 4) with 4.
  set (w2 := set_mem w' _). assert (O2 : forall x, x < Sp + 4 * i \/ Sp + 4 * i + 4 <= x -> rd (mem w2) x = rd (mem w') x).
  { intros x Hx. unfold w2. cbn [mem set_mem]. apply rd_store_out. lia. }
  assert (E2 : extends (set_gcd w0 (R + head_size t)) w2).
  { unfold w2. apply (extends_write (set_gcd w0 (R + head_size t)) w' _ (Sp + 4 * i) 4 Hw0); [eapply extends_gcd_trans; [exact Ex|exact E']| |change (gnext (set_gcd w0 (R + head_size t))) with (gnext w0); lia|lia].
    intros x Hx. apply O2. unfold within in Hx. lia. }
  assert (Lq : load 4 (mem w2) (Sp + 4 * i) = q) by (unfold w2; cbn [mem set_mem]; rewrite load_4_store; apply w32_small; lia).
  assert (G2 : gnext w2 = gnext w + fsize (mty t) (need t) v) by exact G'. clearbody w2.
  eapply (IHfs IHr Wr ep w0 w2 (R + head_size t) vs R0 B0 (R + head_size t) B Sp (i + 1) E hi); [exact He|exact Hw0|exact Fl|exact E2|lia|exact HB|exact Hhi|exact Hhi2|lia|lia|exact Ds|lia|lia|lia| |].
  { intros X. apply T. pose proof Ex as (_&Ea&_). pose proof E2 as (_&Eb&_). change (maxpages (set_gcd w0 g)) with (maxpages w0) in Ea. change (maxpages (set_gcd w0 (R + head_size t))) with (maxpages w0) in Eb. destruct X as [O|[Y [j [C1 C2]]]]; [left|right].
    - unfold oom in *. rewrite Eb in O. rewrite Ea. lia.
    - split; [rewrite Y; apply orb_true_r|]. exists j. lia. }
  intros w3 g3 a3 fp3 vl3 E3 G3 O3 V3. eapply K; [exact E3|lia| |].
  { intros x Hx Hx2. rewrite O3 by lia. rewrite O2 by lia. apply O'. exact Hx. }
  exists (between (gnext w) (gnext w2)), (between (gnext w2) (gnext w3)). split; [|split; [|split; [|split]]].
  - replace (load 4 (mem w3) (Sp + 4 * i)) with q.
    + eapply field_of_ext; [apply vrep_ext| |]; [|eapply field_of_mono; [|exact V']; apply between_sub; lia].
      intros x Hx. unfold between in Hx. rewrite O3 by lia. apply O2. lia.
    + rewrite <- Lq. apply load_ext. intros j Hj. symmetry. apply O3; lia.
  - replace (Sp + 4 * i + 4) with (Sp + 4 * (i + 1)) by lia. exact V3.
  - apply between_disj. lia.
  - apply between_sub; lia.
  - apply between_sub; lia.
Qed.

Lemma unpack_struct_spec : forall fs, Forall unpack_ok fs -> forall ep w R B hi v, errtab_ok ep -> wok w -> abort_flag w = 0 -> wf_aty (AStruct fs) -> 0 <= R -> 0 <= B ->
  hi <= gnext w -> hi <= 2147483648 -> decodes (mem w) hi (AStruct fs) v R B ->
  wpf (unpack_struct ep (is_dynamic (AStruct fs)) (encoded_size (AStruct fs)) (map (fun f => (mty f, unpack_code ep f (propagate true) 2 3)) fs)) [R; B] w
    (resq (fun rs w' => exists x, rs = [x] /\ unpacked (AStruct fs) v w w' (R + head_size (AStruct fs)) x)
    (ctrap w (has_string (AStruct fs)) (need (AStruct fs) v))).
Proof.
  intros fs IH ep w R B hi v He Hw Fl Wf HR HB Hhi Hhi2 D. pose proof Hw as (P1&P2&P3&P4&P5&P6).
  pose proof (decodes_bound _ _ _ _ _ _ Wf D) as Hb. pose proof (head_size_nonneg (AStruct fs)) as Hh. destruct Wf as [Wn Wf]. cbn [decodes] in D. destruct D as (vs&->&D).
  set (n := need (AStruct fs) (VStruct 0 vs)). 
  set (zs := zip_sum (map (fun f => fsize (mty f) (need f)) fs) vs).
  assert (Hn : n = 4 * Z.of_nat (List.length fs) + zs) by reflexivity.
  assert (Hzs : 0 <= zs) by (apply need_fields_nonneg, Forall_forall; intros; apply need_nonneg).
  assert (Hadv : (if is_dynamic (AStruct fs) then 32 else encoded_size (AStruct fs)) = head_size (AStruct fs)).
  { rewrite <- slot_size_eq. reflexivity. }
  set (hs := head_size (AStruct fs)) in *.
  match goal with |- wpf _ _ _ (resq ?Q ?T) => assert (Main : forall a b, 0 <= a -> 0 <= b ->
     dec_fields (map (fun t => (fun v r => decodes (mem w) hi t v r b, head_size t)) fs) vs a ->
     wp ([ Const (4 * Z.of_nat (List.length fs)); Call alloc; LocalSet 4 ] ++
         unpack_fields 0 (map (fun f => (mty f, unpack_code ep f (propagate true) 2 3)) fs) ++
         [ LocalGet 0; Const hs; Bin I32 Add; GlobalSet GCalldata; LocalGet 4 ]) (fret 1 Q T) [] [R; B; a; b; 0; 0; 0] w) end.
  { intros a b Ha Hb' Df. cbn [app]. ws1. wcall (alloc_spec w (4 * Z.of_nat (List.length fs))); [exact Hw|lia|intros O; left; eapply oom_mono; [exact O|lia]|].
    intros rs w1 [-> Al]. wc. pose proof (alloc_extends _ _ _ Hw Al ltac:(lia)) as E1. pose proof Al as (Hw1&Em&B1&B2&B3&B4&B5). ws1.
    assert (E1g : extends (set_gcd w (gcd w)) w1) by (destruct w; exact E1).
    eapply (unpack_fields_ok fs IH Wf ep w w1 (gcd w) vs R B a b (gnext w) 0 (gnext w1) hi); [exact He|exact Hw|exact Fl|exact E1g|exact Ha|exact Hb'|exact Hhi|exact Hhi2|lia|lia|exact Df|lia|lia|lia| |].
    { intros X. cbn [fret]. fold zs in X. eapply ctrap_extends; [exact E1|exact X|lia|auto]. }
    fold zs. intros w' g a' fp vl E' G' O' V'. pose proof E' as (Hw'&_). pose proof Hw' as (Q1&Q2&Q3&Q4&Q5&Q6).
    ws1. ws1. ws1. ws1. ws1. apply wp_nil. wc. exists (gnext w). split; [reflexivity|].
    unfold unpacked. cbn [mty esize is_stack]. fold n. change (256 ^ Z.of_nat 4) with 4294967296. cbn [gnext mem].
    split; [change (set_gcd w (R + hs)) with (set_gcd (set_gcd w g) (R + hs)); apply (extends_gcd _ _ (R + hs)); exact E'|].
    split; [lia|]. split; [lia|]. split; [intros _; lia|]. cbn [vrep]. rewrite map_length, map_map.
    exists 0, vs, (between (gnext w1) (gnext w')). split; [reflexivity|]. split; [reflexivity|]. split; [apply between_sub; lia|]. split; [apply between_sub; lia|].
    split; [apply between_disj; lia|]. rewrite Z.add_0_r in V'. exact V'. }
  apply wpf_intro; [reflexivity|]. unfold unpack_struct. rewrite Hadv, map_length. fold hs. cbn [app repeat List.length Nat.sub].
  cbn [is_dynamic] in *. rewrite existsb_dynamic_eq in *. destruct (existsb dynamic fs) eqn:Dy.
  - destruct D as [D1 D2]. pose proof (load_be_range 32 (mem w) R) as Ro. set (off := load_be 32 (mem w) R) in *.
    assert (Bo : B + off + 32 <= hi).
    { destruct fs as [|f fs']; [cbn in Wn; lia|]. cbn [map dec_fields] in D2. destruct vs as [|v0 vs']; [contradiction|]. destruct D2 as [D2 _].
      cbn [map fold_right] in Wf. destruct Wf as [Wf1 _]. pose proof (head_size_ge f Wf1). apply decodes_bound in D2; [|exact Wf1]. lia. }
    assert (Ro1 : 0 <= off < 2147483648) by lia. clear Ro. rewrite <- app_assoc.
    apply (read_word_ok ep 0 _ _ _ _ w R); [reflexivity|exact Hw|exact He|exact Fl|unfold live; lia|fold off; lia|]. fold off. cbn [app].
    ws1. ws1. replace (off + B) with (B + off) by lia. ws1. ws1. apply Main; [lia|lia|exact D2].
  - cbn [app]. ws1. ws1. ws1. ws1. apply Main; assumption.
Qed.

Lemma unpack_structs : forall fs, Forall unpack_ok fs -> unpack_ok (AStruct fs).
Proof.
  intros fs IH ep pv r b k Q s l w v R B hi Sv He Nr Nb Hw Fl Wf HR HB Hhi Hhi2 D T K.
  cbn [unpack_code]. rewrite <- !app_assoc. cbn [app]. eapply wp_lget; [exact Nr|]. eapply wp_lget; [exact Nb|].
  wcall (unpack_struct_spec fs IH); [exact He|exact Hw|exact Fl|exact Wf|exact HR|exact HB|exact Hhi|exact Hhi2|exact D|exact T|].
  intros vs w' (x&->&U). wc. pose proof U as (Ex&_). pose proof Ex as (Hw'&_&_&_&Eg&_&Ow).
  apply Sv; [exact Hw'| |].
  { rewrite <- Fl. unfold abort_flag. apply load_ext. change (Z.of_nat 4) with 4. intros. apply Ow. destruct Hw as (_&_&P3&_). change (gnext (set_gcd w (R + head_size (AStruct fs)))) with (gnext w). lia. }
  cbn [app]. eapply wp_sync; [exact Nr|]. rewrite Eg. apply K. exact U.
Qed.

Theorem unpack_all : forall t, unpack_ok t.
Proof. refine (aty_rec' _ unpack_ints unpack_enums unpack_strings unpack_vectors unpack_structs). Qed.

(** ** Argument lists *)
Definition need_args (ts : list aty) (vs : list val) : Z := zip_sum (map need ts) vs.

Lemma need_args_nonneg : forall ts vs, 0 <= need_args ts vs.
Proof.
  unfold need_args. induction ts as [|t ts IH]; intros [|v vs]; cbn [map zip_sum]; try lia. pose proof (need_nonneg t v). specialize (IH vs). lia.
Qed.

Lemma held_ext : forall ts m m' vs xs (F : mset), (forall x, F x -> rd m' x = rd m x) -> held m ts vs xs F -> held m' ts vs xs F.
Proof.
  induction ts as [|t ts IH]; intros m m' [|v vs] [|x xs] F A H; cbn [held] in *; try tauto.
  destruct H as (F1&F2&V&H&D&S1&S2). exists F1, F2. split; [eapply vrep_ext; [|exact V]; intros y Hy; apply A, S1, Hy|].
  split; [eapply IH; [|exact H]; intros y Hy; apply A, S2, Hy|auto].
Qed.

Lemma held_length : forall ts m vs xs F, held m ts vs xs F -> List.length xs = List.length ts.
Proof.
  induction ts as [|t ts IH]; intros m [|v vs] [|x xs] F H; cbn [held List.length] in *; try tauto. destruct H as (F1&F2&V&H&_). f_equal. eauto.
Qed.

Lemma unpack_args_ok : forall ep pv ts, skips pv -> errtab_ok ep -> fold_right and True (map wf_aty ts) ->
  forall w0 w g vs R A0 B hi (Q : outcome -> Prop) s, wok w0 -> abort_flag w0 = 0 -> extends (set_gcd w0 g) w ->
  0 <= R -> 0 <= B -> hi <= gnext w0 -> hi <= 2147483648 ->
  dec_fields (map (fun t => (fun v r => decodes (mem w0) hi t v r B, head_size t)) ts) vs R ->
  (ctrap w (existsb has_string ts) (need_args ts vs) -> Q OTrap) ->
  (forall w' g xs a, extends (set_gcd w0 g) w' -> gnext w' = gnext w + need_args ts vs ->
     (forall x, 0 <= x < gnext w -> rd (mem w') x = rd (mem w) x) ->
     held (mem w') ts vs xs (between (gnext w) (gnext w')) -> Q (ONormal (rev xs ++ s) [A0; a; B] w')) ->
  wp (List.concat (map (fun t => unpack_code ep t pv 1 2) ts)) Q s [A0; R; B] w.
Proof.
  intros ep pv ts Sv He. induction ts as [|t ts IH]; intros Wf w0 w g vs R A0 B hi Q s Hw0 Fl Ex HR HB Hhi Hhi2 D T K.
  { destruct vs; [|destruct D]. cbn [map List.concat]. apply wp_nil. apply (K w g [] R); [exact Ex|cbn; lia|reflexivity|exact I]. }
  destruct vs as [|v vs]; [destruct D|]. cbn [map dec_fields] in D. destruct D as [Dv Ds]. cbn [map fold_right] in Wf. destruct Wf as [Wt Wr].
  cbn [map List.concat]. pose proof Ex as (Hw&Ea&_&Gw&_&_&Ow). change (gnext (set_gcd w0 g)) with (gnext w0) in *. change (mem (set_gcd w0 g)) with (mem w0) in *. change (maxpages (set_gcd w0 g)) with (maxpages w0) in Ea. pose proof Hw0 as (_&_&P3&_).
  pose proof (need_nonneg t v) as Hcv. pose proof (head_size_nonneg t) as Hh. pose proof (need_args_nonneg ts vs) as Hzs.
  assert (Na : need_args (t :: ts) (v :: vs) = need t v + need_args ts vs) by reflexivity. rewrite Na in T, K. cbn [existsb] in T.
  eapply (unpack_all t ep pv 1%nat 2%nat _ _ _ _ w v R B hi); [exact Sv|exact He|reflexivity|reflexivity|exact Hw| |exact Wt|exact HR|exact HB|lia|exact Hhi2| | |].
  { rewrite <- Fl. unfold abort_flag. apply load_ext. change (Z.of_nat 4) with 4. intros. apply Ow. lia. }
  { eapply decodes_ext; [|exact Wt|exact HR|exact HB|exact Dv]. intros x Hx. apply Ow. lia. }
  { intros X. apply T. eapply ctrap_extends; [apply extends_refl; exact Hw|exact X|lia|]. intros ->. reflexivity. }
  intros w1 x (E1&G1&Rx&Px&Vx). cbn [set_nth]. pose proof E1 as (Hw1&_&_&_&_&_&O1).
  change (gnext (set_gcd w (R + head_size t))) with (gnext w) in *. change (mem (set_gcd w (R + head_size t))) with (mem w) in *.
  pose proof (extends_gcd_trans _ _ _ _ _ Ex E1) as E2. clear Rx.
  eapply (IH Wr w0 w1 (R + head_size t) vs (R + head_size t) A0 B hi); [exact Hw0|exact Fl|exact E2|lia|exact HB|exact Hhi|exact Hhi2|exact Ds| |].
  { intros X. apply T. pose proof E2 as (_&Eb&_). change (maxpages (set_gcd w0 (R + head_size t))) with (maxpages w0) in Eb. destruct X as [O|[Y [j [C1 C2]]]]; [left|right].
    - unfold oom in *. rewrite Eb in O. rewrite Ea. lia.
    - split; [rewrite Y; apply orb_true_r|]. exists j. lia. }
  intros w2 g2 xs a E3 G3 O3 H3. cbn [rev app]. specialize (K w2 g2 (x :: xs) a E3). cbn [rev] in K. rewrite <- app_assoc in K. cbn [app] in K.
  apply K; [lia| |].
  - intros y Hy. rewrite O3 by lia. apply O1. exact Hy.
  - exists (between (gnext w) (gnext w1)), (between (gnext w1) (gnext w2)). split; [|split; [exact H3|split; [apply between_disj; lia|split; apply between_sub; lia]]].
    eapply vrep_ext; [|exact Vx]. intros y Hy. unfold between in Hy. apply O3. pose proof Hw as (_&_&Y&_). lia.
Qed.

(** Decoding the arguments of a call: the results are the words of the values, the last argument on top
    of the stack, and the values lie in separate parts of freshly allocated memory. *)
Lemma build_unpack_spec : forall ep pv ts w vs a hi, skips pv -> errtab_ok ep -> wok w -> abort_flag w = 0 ->
  fold_right and True (map wf_aty ts) -> 0 <= a -> hi <= gnext w -> hi <= 2147483648 -> decodes_args (mem w) hi ts vs a ->
  wpf (build_unpack ep pv ts) [a] w (resq (fun rs w' => exists xs g, rs = rev xs /\ extends (set_gcd w g) w' /\
      gnext w' = gnext w + need_args ts vs /\ held (mem w') ts vs xs (between (gnext w) (gnext w')))
    (ctrap w (existsb has_string ts) (need_args ts vs))).
Proof.
  intros ep pv ts w vs a hi Sv He Hw Fl Wf Ha Hhi Hhi2 D. apply wpf_intro; [reflexivity|]. unfold build_unpack. cbn [app repeat List.length Nat.sub].
  ws1. ws1. ws1. ws1. ws1. 
  eapply (unpack_args_ok ep pv ts Sv He Wf w _ a vs a a a hi); [exact Hw|exact Fl| |exact Ha|exact Ha|exact Hhi|exact Hhi2|exact D|intros X; exact X|].
  { apply (extends_gcd w w a). apply extends_refl. exact Hw. }
  intros w' g xs a' E G O H. cbn [fret]. exists xs, g. rewrite app_nil_r. split; [|auto].
  pose proof (held_length _ _ _ _ _ H) as L. rewrite <- L, <- rev_length. apply firstn_all.
Qed.
