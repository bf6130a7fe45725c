(** * Properties of the ABI specification: an encoding decodes to the encoded value, and to no other. *)

From Verif Require Import Tac RtAlloc RtErr RtInt SpecInt Spec RtVec RtVec2 RtDiv RtAscii RtSwap Ops SpecVal LemVal RtCopy SpecAbi LemAbi SpecSol RtAbi RtPack RtPack2 RtUnpack RtUnpack2.
Ltac Zify.zify_post_hook ::= idtac.

Lemma word_load : forall m r n, 0 <= n < 2 ^ 256 -> bytes_at m r (word n) -> load_be 32 m r = n.
Proof.
  intros m r n Hn H. unfold bytes_at, word in H. rewrite be_bytes_length, <- be_bytes_load_be in H.
  pose proof (load_be_range 32 m r) as Rg. change (256 ^ Z.of_nat 32) with (2 ^ 256) in Rg.
  assert (J : forall k x y, 0 <= x < 256 ^ Z.of_nat k -> 0 <= y < 256 ^ Z.of_nat k -> be_bytes k x = be_bytes k y -> x = y).
  { clear. induction k as [|k IH]; intros x y Hx Hy E; [change (256 ^ Z.of_nat 0) with 1 in *; lia|]. cbn [be_bytes] in E. injection E as E1 E2.
    rewrite Nat2Z.inj_succ, Z.pow_succ_r in Hx, Hy by lia. set (p := 256 ^ Z.of_nat k) in *. assert (Hp : 0 < p) by (apply Z.pow_pos_nonneg; lia).
    assert (Bm : forall j z, be_bytes j (z mod 256 ^ Z.of_nat j) = be_bytes j z).
    { clear. induction j as [|j IHj]; intros z; [reflexivity|]. cbn [be_bytes]. f_equal.
      - rewrite Nat2Z.inj_succ, Z.pow_succ_r by lia. assert (0 < 256 ^ Z.of_nat j) by (apply Z.pow_pos_nonneg; lia).
        rewrite (Z.mul_comm 256), Z.rem_mul_r by lia. rewrite Z.mul_comm, Z.div_add by lia. rewrite Z.div_small by (apply Z.mod_pos_bound; lia).
        rewrite Z.add_0_l. apply Z.mod_mod. lia.
      - rewrite <- (IHj z), <- (IHj (z mod _)). f_equal. rewrite Nat2Z.inj_succ, Z.pow_succ_r by lia. assert (0 < 256 ^ Z.of_nat j) by (apply Z.pow_pos_nonneg; lia).
        rewrite (Z.mul_comm 256), Z.rem_mul_r by lia. rewrite Z.mul_comm, Z.mod_add by lia. apply Z.mod_mod. lia. }
    rewrite <- (Bm k x), <- (Bm k y) in E2. apply IH in E2; [|apply Z.mod_pos_bound; lia|apply Z.mod_pos_bound; lia]. fold p in E2.
    rewrite !Z.mod_small in E1 by (split; [apply Z.div_pos; lia|apply Z.div_lt_upper_bound; lia]).
    rewrite (Z.div_mod x p), (Z.div_mod y p) by lia. rewrite E1, E2. reflexivity. }
  apply (J 32%nat); [exact Rg|change (256 ^ Z.of_nat 32) with (2 ^ 256); exact Hn|exact H].
Qed.

(** The encoding of [v] sits at head [r] of a tuple at [b]. *)
Definition placed (m : memory) (hi : Z) (t : aty) (v : val) (r b : Z) : Prop :=
  if dynamic t then r + 32 <= hi /\ bytes_at m (b + load_be 32 m r) (enc t v) /\ b + load_be 32 m r + lenz (enc t v) <= hi
  else bytes_at m r (enc t v) /\ r + lenz (enc t v) <= hi.

Definition dec_ok (t : aty) : Prop := forall v m hi r b, wf_aty t -> has_aty t v -> 0 <= r -> 0 <= b -> hi < 2 ^ 256 ->
  placed m hi t v r b -> decodes m hi t v r b.

Lemma placed_part : forall t ps v m hi r b off, has_aty t v -> 0 <= r -> 0 <= b -> 0 <= off -> hi < 2 ^ 256 ->
  bytes_at m r (heads off ((dynamic t, enc t v) :: ps)) -> bytes_at m (b + off) (tails ((dynamic t, enc t v) :: ps)) ->
  b + off + lenz (tails ((dynamic t, enc t v) :: ps)) <= hi -> r + head_lens ((dynamic t, enc t v) :: ps) <= hi ->
  placed m hi t v r b /\
  exists off', 0 <= off' /\ bytes_at m (r + head_size t) (heads off' ps) /\ bytes_at m (b + off') (tails ps) /\
    b + off' + lenz (tails ps) <= hi /\ r + head_size t + head_lens ps <= hi.
Proof.
  intros t ps v m hi r b off Hv Hr Hb Ho Hhi H T L1 L2. pose proof (head_lens_nonneg ps) as Hp.
  pose proof (head_len_part t v Hv) as HL. unfold placed, head_lens, tails in *. cbn [map fold_right List.concat fst snd] in *.
  change (fold_right Z.add 0 (map head_len ps)) with (head_lens ps) in *.
  change (List.concat (map (fun p : part => if fst p then snd p else []) ps)) with (tails ps) in *.
  rewrite HL in L2. unfold head_len in HL. cbn [fst snd] in HL. pose proof (lenz_nonneg (tails ps)) as Ht. pose proof (lenz_nonneg (enc t v)) as Hen.
  destruct (dynamic t) eqn:Dy; cbn [heads] in H.
  - apply bytes_at_app in H. destruct H as [H1 H2]. apply bytes_at_app in T. destruct T as [T1 T2]. rewrite lenz_app in L1. rewrite lenz_word in H2.
    apply word_load in H1; [|lia]. rewrite H1. split; [split; [lia|split; [exact T1|lia]]|].
    exists (off + lenz (enc t v)). split; [lia|]. split; [rewrite <- HL; exact H2|]. split; [rewrite Z.add_assoc; exact T2|]. split; [lia|lia].
  - apply bytes_at_app in H. destruct H as [H1 H2]. change (lenz (enc t v)) with (Z.of_nat (List.length (enc t v))) in *. rewrite HL in *. cbn [app] in *.
    split; [split; [exact H1|lia]|]. exists off. repeat (split; [first [exact H2|exact T|lia]|]). lia.
Qed.

Lemma dec_ok_fields : forall fs m hi b, Forall dec_ok fs -> fold_right and True (map wf_aty fs) -> 0 <= b -> hi < 2 ^ 256 ->
  forall vs r off, all_fields (map has_aty fs) vs -> 0 <= r -> 0 <= off ->
  bytes_at m r (heads off (field_parts fs vs)) -> bytes_at m (b + off) (tails (field_parts fs vs)) ->
  b + off + lenz (tails (field_parts fs vs)) <= hi -> r + head_lens (field_parts fs vs) <= hi ->
  dec_fields (map (fun t => (fun v r => decodes m hi t v r b, head_size t)) fs) vs r.
Proof.
  intros fs m hi b H Wf Hb Hhi. induction H as [|t fs Ht H IH]; intros [|v vs] r off A Hr Ho B1 B2 L1 L2; cbn [map all_fields dec_fields] in *; try contradiction; [exact I|].
  destruct A as [A1 A2]. cbn [fold_right] in Wf. destruct Wf as [W1 W2]. rewrite field_parts_cons in *.
  destruct (placed_part t _ v m hi r b off A1 Hr Hb Ho Hhi B1 B2 L1 L2) as (P&off'&O1&O2&O3&O4&O5).
  split; [apply Ht; assumption|]. eapply (IH W2 vs (r + head_size t) off'); try assumption. pose proof (head_size_nonneg t). lia.
Qed.

Lemma dec_ok_elems : forall t m hi b, dec_ok t -> wf_aty t -> 0 <= b -> hi < 2 ^ 256 ->
  forall vs r off, Forall (has_aty t) vs -> 0 <= r -> 0 <= off ->
  bytes_at m r (heads off (elem_parts t vs)) -> bytes_at m (b + off) (tails (elem_parts t vs)) ->
  b + off + lenz (tails (elem_parts t vs)) <= hi -> r + head_lens (elem_parts t vs) <= hi ->
  dec_elems (fun v r => decodes m hi t v r b) (head_size t) vs r.
Proof.
  intros t m hi b Ht Wf Hb Hhi. induction vs as [|v vs IH]; intros r off A Hr Ho B1 B2 L1 L2; cbn [dec_elems]; [exact I|].
  inversion A as [|? ? A1 A2]; subst. unfold elem_parts in *. cbn [map] in *.
  destruct (placed_part t _ v m hi r b off A1 Hr Hb Ho Hhi B1 B2 L1 L2) as (P&off'&O1&O2&O3&O4&O5).
  split; [apply Ht; assumption|]. eapply (IH (r + head_size t) off'); try assumption. pose proof (head_size_nonneg t). lia.
Qed.

Lemma vbits_le : forall t, 0 <= vbits t <= 256.
Proof. destruct t; cbn [vbits]; lia. Qed.

Lemma dec_ok_all : forall t, dec_ok t.
Proof.
  refine (aty_rec' _ _ _ _ _ _).
  - intros t v m hi r b Wf [n Hn] Hr Hb Hhi P. pose proof Hn as [-> Rn]. unfold placed in P. cbn [dynamic enc] in P. destruct P as [P1 P2].
    pose proof (vbits_le t) as Vb. assert (Hp : 2 ^ vbits t <= 2 ^ 256) by (apply Z.pow_le_mono_r; lia).
    cbn [decodes]. rewrite lenz_word in P2. apply word_load in P1; [|lia]. rewrite P1. split; [lia|exact Hn].
  - intros n v m hi r b Wf [tag [-> Ht]] Hr Hb Hhi P. unfold placed in P. cbn [dynamic enc] in P. destruct P as [P1 P2]. cbn [wf_aty] in Wf.
    cbn [decodes]. rewrite lenz_word in P2. assert (256 <= 2 ^ 256) by (apply (Z.pow_le_mono_r 2 8 256); lia). apply word_load in P1; [|lia]. rewrite P1. split; [lia|]. exists tag. auto.
  - intros v m hi r b Wf (bs&->&Hbs) Hr Hb Hhi P. unfold placed in P. cbn [dynamic enc] in P. destruct P as (P1&P2&P3).
    assert (Eb : map int_of (map VInt bs) = bs) by (rewrite map_map; apply map_id). rewrite Eb in *. clear Eb.
    cbn [decodes]. split; [exact P1|]. exists bs. split; [reflexivity|]. pose proof (load_be_range 32 m r). set (d := b + load_be 32 m r) in *.
    unfold enc_bytes, padded in P2, P3. apply bytes_at_app in P2. destruct P2 as [P2 P4]. rewrite lenz_word in P4. apply bytes_at_app in P4. destruct P4 as [P4 P5].
    rewrite !lenz_app, lenz_word in P3. pose proof (lenz_nonneg (repeat 0 (pad32 (List.length bs)))) as N1. change (lenz bs) with (Z.of_nat (List.length bs)) in *.
    apply word_load in P2; [|lia]. split; [exact P2|]. split; [lia|]. exact P4.
  - intros t IH v m hi r b Wf (vs&->&Hvs) Hr Hb Hhi P. unfold placed in P. cbn [dynamic enc] in P. destruct P as (P1&P2&P3).
    cbn [decodes]. split; [exact P1|]. exists vs. split; [reflexivity|]. pose proof (load_be_range 32 m r). set (d := b + load_be 32 m r) in *.
    change (map (fun v => (dynamic t, enc t v)) vs) with (elem_parts t vs) in *.
    apply bytes_at_app in P2. destruct P2 as [P2 P4]. rewrite lenz_word in P4. rewrite !lenz_app, lenz_word, tuple_len in P3.
    pose proof (lenz_nonneg (tails (elem_parts t vs))) as N1. pose proof (head_lens_nonneg (elem_parts t vs)) as N2.
    pose proof (elem_parts_heads t vs Hvs) as N3. cbn [wf_aty] in Wf. pose proof (head_size_ge t Wf) as N4.
    assert (N5 : Z.of_nat (List.length vs) <= Z.of_nat (List.length vs) * head_size t) by (rewrite <- (Z.mul_1_r (Z.of_nat (List.length vs))) at 1; apply Z.mul_le_mono_nonneg_l; lia).
    apply word_load in P2; [|lia]. split; [exact P2|]. split; [lia|]. unfold tuple in P4. apply bytes_at_app in P4. destruct P4 as [P4 P5]. rewrite heads_len in P5.
    eapply (dec_ok_elems t m hi (d + 32) IH Wf ltac:(lia) Hhi vs (d + 32) (head_lens (elem_parts t vs)) Hvs); try assumption; lia.
  - intros fs IH v m hi r b [Wn Wf] (vs&->&Hvs) Hr Hb Hhi P. unfold placed in P. cbn [dynamic] in P. rewrite enc_struct, tuple_len in P.
    pose proof (lenz_nonneg (tails (field_parts fs vs))) as N1. pose proof (head_lens_nonneg (field_parts fs vs)) as N2.
    cbn [decodes]. exists vs. split; [reflexivity|]. destruct (existsb dynamic fs) eqn:Dy.
    + destruct P as (P1&P2&P3). split; [exact P1|]. pose proof (load_be_range 32 m r). set (d := b + load_be 32 m r) in *.
      unfold tuple in P2. apply bytes_at_app in P2. destruct P2 as [P4 P5]. rewrite heads_len in P5.
      eapply (dec_ok_fields fs m hi d IH Wf ltac:(lia) Hhi vs d (head_lens (field_parts fs vs)) Hvs); try assumption; lia.
    + destruct P as (P1&P2). unfold tuple in P1. apply bytes_at_app in P1. destruct P1 as [P4 P5]. rewrite heads_len in P5.
      pose proof (field_parts_static fs vs Dy) as St. rewrite (tails_static _ St) in *.
      rewrite (heads_static _ _ 0 St) in P4. change (lenz (@nil Z)) with 0 in *.
      assert (Hhi' : r + head_lens (field_parts fs vs) <= hi) by lia.
      assert (Dn : forall fs, existsb dynamic fs = false -> Forall dec_ok fs -> fold_right and True (map wf_aty fs) -> forall vs r, all_fields (map has_aty fs) vs -> 0 <= r ->
        bytes_at m r (heads 0 (field_parts fs vs)) -> r + head_lens (field_parts fs vs) <= hi ->
        dec_fields (map (fun t => (fun v r => decodes m hi t v r b, head_size t)) fs) vs r).
      { clear - Hb Hhi. intros fs Dy H. induction H as [|t fs Ht H IH]; intros Wf [|v vs] r A Hr B1 L2; cbn [map all_fields dec_fields existsb fold_right] in *; try contradiction; [exact I|].
        destruct A as [A1 A2]. destruct Wf as [W1 W2]. apply orb_false_iff in Dy. destruct Dy as [Dt Dy]. rewrite field_parts_cons in *.
        pose proof (head_len_part t v A1) as HL. unfold head_lens in L2. cbn [map fold_right] in L2. rewrite HL in L2. fold (head_lens (field_parts fs vs)) in L2. pose proof (head_lens_nonneg (field_parts fs vs)). pose proof (head_size_nonneg t).
        rewrite Dt in *. cbn [heads] in B1. apply bytes_at_app in B1. destruct B1 as [B1 B2]. unfold head_len in HL. cbn [fst snd] in HL. change (lenz (enc t v)) with (Z.of_nat (List.length (enc t v))) in *. rewrite HL in B2.
        split.
        - apply Ht; try assumption. unfold placed. rewrite Dt. split; [exact B1|]. change (lenz (enc t v)) with (Z.of_nat (List.length (enc t v))). lia.
        - apply (IH Dy W2); try assumption; lia. }
      apply (Dn fs Dy IH Wf); assumption.
Qed.

(** The encoding of an argument list, anywhere in memory, decodes to the arguments. *)
Lemma enc_args_decodes : forall ts vs m a hi, fold_right and True (map wf_aty ts) -> all_fields (map has_aty ts) vs -> 0 <= a ->
  bytes_at m a (enc_args ts vs) -> a + lenz (enc_args ts vs) <= hi -> hi < 2 ^ 256 -> decodes_args m hi ts vs a.
Proof.
  intros ts vs m a hi Wf Hv Ha B L Hhi. unfold enc_args in *. rewrite tuple_len in L. unfold tuple in B. apply bytes_at_app in B. destruct B as [B1 B2]. rewrite heads_len in B2.
  pose proof (lenz_nonneg (tails (field_parts ts vs))) as N1. pose proof (head_lens_nonneg (field_parts ts vs)) as N2.
  eapply (dec_ok_fields ts m hi a); try eassumption; try lia. apply Forall_forall. intros. apply dec_ok_all.
Qed.

(** A message denotes at most one value. *)
Lemma decodes_unique : forall t m hi v v' r b, wf_aty t -> decodes m hi t v r b -> decodes m hi t v' r b -> v = v'.
Proof.
  refine (aty_rec' _ _ _ _ _ _).
  - intros t m hi v v' r b _ [_ [-> _]] [_ [-> _]]. reflexivity.
  - intros n m hi v v' r b _ [_ (x&->&_&A)] [_ (y&->&_&B)]. do 2 f_equal. lia.
  - intros m hi v v' r b _ [_ (x&->&A1&_&A2)] [_ (y&->&B1&_&B2)]. rewrite <- A2, <- B2. do 4 f_equal. rewrite A1 in B1. apply Nat2Z.inj in B1. rewrite B1. reflexivity.
  - intros t IH m hi v v' r b Wf [_ (x&->&A1&_&A2)] [_ (y&->&B1&_&B2)]. f_equal. rewrite A1 in B1. apply Nat2Z.inj in B1. clear A1. revert A2 B2.
    generalize (b + load_be 32 m r + 32) at 2 4. revert y B1. induction x as [|u x IHx]; intros [|u' y] L q A B; cbn [List.length] in L; try discriminate; [reflexivity|].
    cbn [dec_elems] in A, B. destruct A as [A1 A2], B as [B1 B2]. f_equal; [eapply IH; eauto|]. eapply IHx; eauto.
  - intros fs IH m hi v v' r b [_ Wf] (x&->&A) (y&->&B). f_equal.
    assert (G : forall b vs vs' r, dec_fields (map (fun t => (fun v r => decodes m hi t v r b, head_size t)) fs) vs r ->
       dec_fields (map (fun t => (fun v r => decodes m hi t v r b, head_size t)) fs) vs' r -> vs = vs').
    { clear A B. intros b'. induction IH as [|t fs Ht H IHf]; intros [|v vs] [|v' vs'] r' A B; cbn [map dec_fields fold_right] in *; try contradiction; [reflexivity|].
      destruct A as [A1 A2], B as [B1 B2], Wf as [W1 W2]. f_equal; [eapply Ht; eauto|]. eapply IHf; eauto. }
    destruct (existsb dynamic fs); [destruct A as [_ A], B as [_ B]|]; eapply G; eauto.
Qed.

Lemma decodes_args_unique : forall ts m hi vs vs' a, fold_right and True (map wf_aty ts) ->
  decodes_args m hi ts vs a -> decodes_args m hi ts vs' a -> vs = vs'.
Proof.
  unfold decodes_args. intros ts m hi vs vs' a. generalize a at 2 4. revert vs vs'.
  induction ts as [|t ts IH]; intros [|v vs] [|v' vs'] r Wf A B; cbn [map dec_fields fold_right] in *; try contradiction; [reflexivity|].
  destruct A as [A1 A2], B as [B1 B2], Wf as [W1 W2]. f_equal; [eapply decodes_unique; eauto|]. eapply IH; eauto.
Qed.

(** ** Encoding results, decoding arguments *)
Definition encode_args (ep : errtab) (ts : list aty) : func := build_pack ep (propagate true) (propagate true) ts.
Definition decode_args (ep : errtab) (ts : list aty) : func := build_unpack ep (propagate true) ts.

Lemma encode_args_spec : forall ep ts vs xs w, running ep w -> fold_right and True (map wf_aty ts) -> represents w ts vs xs ->
  let e := enc_args ts vs in lenz e < 2147483648 ->
  (exists w', returns (encode_args ep ts) xs w [lenz e; gnext w] w' /\ extends w w' /\ gnext w' = gnext w + lenz e /\ bytes_at (mem w') (gnext w) e) \/
  (traps (encode_args ep ts) xs w /\ oom w (lenz e)).
Proof.
  intros ep ts vs xs w (Hw&He&Fl) Wf Rp e L.
  pose proof (build_pack_spec ep (propagate true) (propagate true) ts w vs xs (skips_propagate _) (skips_propagate _) Hw Fl Wf Rp L) as H.
  apply wpf_cases in H. destruct H as [(rs&w'&R&->&E&G&B)|[T O]]; [left|right; split; assumption].
  exists w'. split; [exact R|]. split; [exact E|]. split; [exact G|exact B].
Qed.

Lemma decode_args_spec : forall ep ts vs w a hi, running ep w -> fold_right and True (map wf_aty ts) ->
  0 <= a -> hi <= gnext w -> hi <= 2147483648 -> decodes_args (mem w) hi ts vs a ->
  (exists xs w', returns (decode_args ep ts) [a] w (rev xs) w' /\ held (mem w') ts vs xs (between (gnext w) (gnext w')) /\
     wok w' /\ maxpages w' = maxpages w /\ gnext w' = gnext w + need_args ts vs /\ host w' = host w /\ (forall x, 0 <= x < gnext w -> rd (mem w') x = rd (mem w) x)) \/
  (traps (decode_args ep ts) [a] w /\ (oom w (need_args ts vs) \/ existsb has_string ts = true /\ crosses w (need_args ts vs))).
Proof.
  intros ep ts vs w a hi (Hw&He&Fl) Wf Ha H1 H2 D.
  pose proof (build_unpack_spec ep (propagate true) ts w vs a hi (skips_propagate _) He Hw Fl Wf Ha H1 H2 D) as H.
  apply wpf_cases in H. destruct H as [(rs&w'&R&xs&g&->&E&G&B)|[T O]]; [left|right; split; [exact T|exact O]].
  exists xs, w'. destruct E as (E1&E0&_&_&_&E2&E3). repeat (split; [assumption|]). exact E3.
Qed.

(** Decoding what was encoded. *)
Lemma roundtrip : forall ep ts vs xs w p n w1, running ep w -> fold_right and True (map wf_aty ts) -> represents w ts vs xs ->
  gnext w + lenz (enc_args ts vs) <= 2147483648 -> returns (encode_args ep ts) xs w [n; p] w1 ->
  (exists xs' w2, returns (decode_args ep ts) [p] w1 (rev xs') w2 /\ held (mem w2) ts vs xs' (between (gnext w1) (gnext w2))) \/
  (traps (decode_args ep ts) [p] w1 /\ (oom w1 (need_args ts vs) \/ existsb has_string ts = true /\ crosses w1 (need_args ts vs))).
Proof.
  intros ep ts vs xs w p n w1 Hr Wf Rp L R. pose proof Hr as (Hw&He&Fl). pose proof Hw as (_&_&P3&_).
  destruct (encode_args_spec ep ts vs xs w Hr Wf Rp) as [(w'&R'&E&G&B)|[T _]]; [lia| |].
  2:{ exfalso. pose proof (evals_unique _ _ _ _ _ R T). discriminate. }
  destruct (returns_unique _ _ _ _ _ _ _ R R') as [Ev ->]. injection Ev as -> ->.
  pose proof E as (Hw'&_&_&_&_&_&O).
  assert (Hr' : running ep w').
  { split; [exact Hw'|]. split; [exact He|]. rewrite <- Fl. unfold abort_flag. apply load_ext. change (Z.of_nat 4) with 4. intros. apply O. lia. }
  destruct (decode_args_spec ep ts vs w' (gnext w) (gnext w') Hr' Wf) as [(xs'&w2&D1&D2&_)|T]; [lia|lia|lia| | |right; exact T].
  - apply enc_args_decodes; try assumption; try lia.
    eapply represents_has; eassumption.
  - left. exists xs', w2. split; assumption.
Qed.

(** ** Messages that are rejected, and messages that are not *)

(** The function called to decode a dynamic value. *)
Definition decoder (ep : errtab) (t : aty) : func :=
  match t with
  | AVec t => unpack_vector ep (esize (mty t)) (unpack_code ep t (propagate true) 2 7)
  | AStruct fs => unpack_struct ep (is_dynamic (AStruct fs)) (encoded_size (AStruct fs))
                    (map (fun f => (mty f, unpack_code ep f (propagate true) 2 3)) fs)
  | _ => unpack_string ep
  end.

Lemma returns_one : forall f args w vs (P : world -> Prop),
  wpf f args w (resq (fun rs w' => rs = vs /\ P w') False) -> exists w', returns f args w vs w' /\ P w'.
Proof. intros f args w vs P H. apply wpf_cases in H. destruct H as [(rs&w'&R&->&H)|[_ []]]. eauto. Qed.

Lemma big_offset : forall ep t w r b, dynamic t = true -> wok w -> errtab_ok ep -> live w r 32 -> 2 ^ 32 <= load_be 32 (mem w) r ->
  exists w', returns (decoder ep t) [r; b] w [BADF00D] w' /\ aborted ep MemoryAccessOutOfBounds w w'.
Proof.
  intros ep t w r b Dy Hw He L H. apply returns_one.
  destruct t as [t|n| |t|fs]; cbn [dynamic decoder] in *; try discriminate.
  - apply wpf_intro; [reflexivity|]. unfold unpack_string. cbn [app repeat List.length Nat.sub].
    apply (read_word_err ep 0 _ _ _ _ w r); [reflexivity|exact Hw|exact He|exact L|exact H|]. intros w' A. wc. auto.
  - apply wpf_intro; [reflexivity|]. unfold unpack_vector. cbn [app repeat List.length Nat.sub].
    apply (read_word_err ep 0 _ _ _ _ w r); [reflexivity|exact Hw|exact He|exact L|exact H|]. intros w' A. wc. auto.
  - apply wpf_intro; [reflexivity|]. unfold unpack_struct. cbn [is_dynamic]. rewrite existsb_dynamic_eq, Dy. rewrite <- !app_assoc. cbn [app repeat List.length Nat.sub].
    apply (read_word_err ep 0 _ _ _ _ w r); [reflexivity|exact Hw|exact He|exact L|exact H|]. intros w' A. wc. auto.
Qed.

Lemma big_length : forall ep t w r b, t = AString \/ (exists u, t = AVec u) -> running ep w -> live w r 32 -> 0 <= b ->
  load_be 32 (mem w) r < 2 ^ 32 -> let d := b + load_be 32 (mem w) r in live w d 32 -> 2 ^ 32 <= load_be 32 (mem w) d ->
  exists w', returns (decoder ep t) [r; b] w [BADF00D] w' /\ aborted ep MemoryAccessOutOfBounds (set_gcd w (r + 32)) w'.
Proof.
  intros ep t w r b Ht (Hw&He&Fl) L Hb H d Ld Hd. apply returns_one. pose proof Hw as (P1&P2&P3&P4&P5&P6). pose proof (load_be_range 32 (mem w) r) as Rn.
  unfold live in L, Ld. pose proof (proj1 Rn) as R0. clear Rn. fold d in Hd.
  assert (Go : forall c, wp (read_word ep 0 ++ [ LocalGet 1; Bin I32 Add; LocalSet 2; LocalGet 0; Const 32; Bin I32 Add; GlobalSet GCalldata ] ++ read_word ep 2 ++ c)
    (fret 1 (fun rs w' => rs = [BADF00D] /\ aborted ep MemoryAccessOutOfBounds (set_gcd w (r + 32)) w') False) [] [r; b; 0; 0; 0; 0; 0; 0] w).
  { intros c. apply (read_word_ok ep 0 _ _ _ _ w r); [reflexivity|exact Hw|exact He|exact Fl|unfold live; lia|exact H|]. cbn [app].
    ws1. ws1. replace (load_be 32 (mem w) r + b) with d by (unfold d; lia). ws1. ws1. ws1. ws1. ws1.
    apply (read_word_err ep 2 _ _ _ _ _ d); [reflexivity|apply (wok_gcd w (r + 32)); exact Hw|exact He|unfold live; cbn [gnext set_glob]; lia|exact Hd|]. intros w' A. wc. auto. }
  destruct Ht as [->|[u ->]]; cbn [decoder].
  - apply wpf_intro; [reflexivity|]. unfold unpack_string. cbn [repeat List.length Nat.sub]. apply Go.
  - apply wpf_intro; [reflexivity|]. unfold unpack_vector. cbn [repeat List.length Nat.sub]. apply Go.
Qed.

Lemma low_bits : forall m r k n, (n + k = 32)%nat -> load_be k m (r + Z.of_nat n) = load_be 32 m r mod 256 ^ Z.of_nat k.
Proof.
  intros m r k n E. rewrite <- E, load_be_split. rewrite (Z.add_comm (_ * _)), Z.mod_add by (pose proof (pow256_pos (Z.of_nat k)); lia).
  symmetry. apply Z.mod_small. apply load_be_range.
Qed.

Lemma narrow_unchecked : forall ep t w a, In t [TBool; TU8; TU16; TU32] -> wok w -> live w a 32 ->
  exists w', returns (decode_args ep [AInt t]) [a] w [load_be 32 (mem w) a mod 2 ^ 32] w' /\ mem w' = mem w.
Proof.
  intros ep t w a Ht Hw L. pose proof Hw as (P1&P2&P3&P4&P5&P6). unfold live in L. apply returns_one. apply wpf_intro; [reflexivity|]. cbn [map List.concat app repeat List.length Nat.sub].
  ws1. ws1. ws1. ws1. ws1. change (set_glob GCalldata w a) with (set_gcd w a). 
  assert (Eu : unpack_code ep (AInt t) (propagate true) 1 2 = [ LocalGet 1; Const 32; Call unpack_u32; GlobalGet GCalldata; LocalSet 1 ]).
  { cbn [In] in Ht. destruct Ht as [<-|[<-|[<-|[<-|[]]]]]; reflexivity. }
  rewrite Eu. cbn [app]. ws1. ws1.
  eapply wp_call; [reflexivity|cbn [List.length]; lia|]; cbn [rev firstn app].
  eapply returns_wpf; [apply unpack_u32_spec; [apply wok_gcd; exact Hw|unfold live; cbn; lia|lia|lia]|]. cbn [skipn app].
  ws1. ws1. apply wp_nil. wc. split; [|reflexivity]. f_equal. apply (low_bits _ _ 4 28). reflexivity.
Qed.

(** ** Special cases *)
Lemma enc_int : forall t n, enc_args [AInt t] [VInt n] = word n.
Proof. intros. unfold enc_args, tuple, field_parts. cbn [map zip_with dynamic enc heads tails List.concat fst snd app]. unfold tails. cbn [map List.concat fst app]. rewrite !app_nil_r. reflexivity. Qed.
Lemma enc_enum : forall k tag, enc_args [AEnum k] [VEnum tag []] = word (Z.of_nat tag).
Proof. intros. unfold enc_args, tuple, field_parts. cbn [map zip_with dynamic enc heads tails List.concat fst snd app]. unfold tails. cbn [map List.concat fst app]. rewrite !app_nil_r. reflexivity. Qed.
Lemma enc_string : forall bs, enc_args [AString] [VStruct 0 [VVec (map VInt bs)]] = word 32 ++ enc_bytes bs.
Proof.
  intros. unfold enc_args, tuple, field_parts, tails. cbn [map zip_with dynamic enc heads List.concat fst snd app].
  rewrite map_map. cbn [int_of]. rewrite map_id, !app_nil_r. reflexivity.
Qed.

Lemma held_one : forall m t v xs F, held m [t] [v] xs F -> exists x, xs = [x] /\ vrep m (mty t) v x F.
Proof. intros m t v [|x [|y xs]] F H; cbn [held] in H; try contradiction; destruct H as (F1&F2&V&H&_&S1&_); [|contradiction]. exists x. split; [reflexivity|eapply vrep_mono; eassumption]. Qed.

Lemma int_round_trip : forall ep t n x w p len w1, running ep w -> scalar t ->
  vrep (mem w) t (VInt n) x (heap w) -> gnext w + 32 <= 2 ^ 31 ->
  returns (encode_args ep [AInt t]) [x] w [len; p] w1 ->
  (exists x' w2, returns (decode_args ep [AInt t]) [p] w1 [x'] w2 /\
     vrep (mem w2) t (VInt n) x' (between (gnext w1) (gnext w2))) \/
  (traps (decode_args ep [AInt t]) [p] w1 /\ oom w1 (need_args [AInt t] [VInt n])).
Proof.
  intros ep t n x w p len w1 Hr Sc V L R.
  destruct (roundtrip ep [AInt t] [VInt n] [x] w p len w1 Hr) as [(xs'&w2&R2&H)|[T [O|[C _]]]];
    [cbn; auto|cbn [represents]; auto|rewrite enc_int, lenz_word; exact L|exact R| | |discriminate].
  - left. apply held_one in H. destruct H as (x'&->&V'). eauto.
  - right. auto.
Qed.

Lemma int_word : forall ep t n x w, running ep w -> scalar t -> vrep (mem w) t (VInt n) x (heap w) ->
  (exists p w', returns (encode_args ep [AInt t]) [x] w [32; p] w' /\ bytes 32 (mem w') p = word n /\
     load_be 32 (mem w') p = n /\ (forall a, 0 <= a < gnext w -> rd (mem w') a = rd (mem w) a)) \/
  (traps (encode_args ep [AInt t]) [x] w /\ oom w 32).
Proof.
  intros ep t n x w Hr Sc V. assert (Wf : wf_aty (AInt t)) by exact Sc.
  destruct (encode_args_spec ep [AInt t] [VInt n] [x] w Hr) as [(w'&R&E&G&B)|T]; [cbn; auto|cbn [represents]; auto|rewrite enc_int, lenz_word; reflexivity| |].
  - rewrite enc_int, ?lenz_word in *. left. exists (gnext w), w'. split; [exact R|]. split; [unfold bytes_at, word in B; rewrite be_bytes_length in B; exact B|].
    split; [|apply E]. apply word_load; [|exact B]. destruct (vrep_has (AInt t) (mem w) (VInt n) x (heap w) Wf V) as (k&Hk&Rk). injection Hk as <-.
    pose proof (vbits_le t). assert (2 ^ vbits t <= 2 ^ 256) by (apply Z.pow_le_mono_r; lia). lia.
  - rewrite enc_int, ?lenz_word in *. right. exact T.
Qed.

Lemma enum_word : forall ep k tag x w, running ep w -> 0 < Z.of_nat k <= 256 ->
  vrep (mem w) (mty (AEnum k)) (VEnum tag []) x (heap w) ->
  (exists p w', returns (encode_args ep [AEnum k]) [x] w [32; p] w' /\ bytes 32 (mem w') p = word (Z.of_nat tag)) \/
  (traps (encode_args ep [AEnum k]) [x] w /\ oom w 32).
Proof.
  intros ep k tag x w Hr Hk V.
  destruct (encode_args_spec ep [AEnum k] [VEnum tag []] [x] w Hr) as [(w'&R&E&G&B)|T]; [cbn; auto|cbn [represents]; auto|rewrite enc_enum, lenz_word; reflexivity| |].
  - rewrite enc_enum, ?lenz_word in *. left. exists (gnext w), w'. split; [exact R|]. unfold bytes_at, word in B; rewrite be_bytes_length in B; exact B.
  - rewrite enc_enum, ?lenz_word in *. right. exact T.
Qed.

Lemma need_string : forall bs, need_args [AString] [VStruct 0 [VVec (map VInt bs)]] = 12 + lenz bs.
Proof. intros. unfold need_args, need. cbn [map zip_sum]. unfold lenz. rewrite ?map_length. lia. Qed.

Lemma string_round_trip : forall ep bs x w p len w1, running ep w ->
  let v := VStruct 0 [VVec (map VInt bs)] in
  vrep (mem w) (mty AString) v x (heap w) -> gnext w + lenz (enc_args [AString] [v]) <= 2 ^ 31 ->
  returns (encode_args ep [AString]) [x] w [len; p] w1 ->
  bytes_at (mem w1) p (word 32 ++ enc_bytes bs) /\
  ((exists x' w2, returns (decode_args ep [AString]) [p] w1 [x'] w2 /\
      vrep (mem w2) (mty AString) v x' (between (gnext w1) (gnext w2))) \/
   (traps (decode_args ep [AString]) [p] w1 /\ (oom w1 (12 + lenz bs) \/ crosses w1 (12 + lenz bs)))).
Proof.
  intros ep bs x w p len w1 Hr v V L R. pose proof Hr as (Hw&_&_). pose proof Hw as (_&_&P3&_).
  split.
  - destruct (encode_args_spec ep [AString] [v] [x] w Hr) as [(w'&R'&E&G&B)|[T _]]; [cbn; auto|cbn [represents]; auto|change (2 ^ 31) with 2147483648 in L; lia| |pose proof (evals_unique _ _ _ _ _ R T); discriminate].
    destruct (returns_unique _ _ _ _ _ _ _ R R') as [Ev ->]. injection Ev as -> ->. rewrite <- enc_string. exact B.
  - destruct (roundtrip ep [AString] [v] [x] w p len w1 Hr) as [(xs'&w2&R2&H)|[T O]];
      [cbn; auto|cbn [represents]; auto|exact L|exact R| |].
    + left. apply held_one in H. destruct H as (x'&->&V'). eauto.
    + right. split; [exact T|]. unfold v in O. rewrite need_string in O. destruct O as [O|[_ O]]; auto.
Qed.

Lemma encoding : forall ep ts vs xs w, running ep w -> fold_right and True (map wf_aty ts) ->
  represents w ts vs xs -> let e := enc_args ts vs in lenz e < 2 ^ 31 ->
  (exists w', returns (encode_args ep ts) xs w [lenz e; gnext w] w' /\ bytes_at (mem w') (gnext w) e /\
     gnext w' = gnext w + lenz e /\ host w' = host w /\ (forall a, 0 <= a < gnext w -> rd (mem w') a = rd (mem w) a)) \/
  (traps (encode_args ep ts) xs w /\ oom w (lenz e)).
Proof.
  intros ep ts vs xs w Hr Wf Rp e L. destruct (encode_args_spec ep ts vs xs w Hr Wf Rp L) as [(w'&R&E&G&B)|T]; [left|right; exact T].
  exists w'. destruct E as (_&_&_&_&_&Eh&Eo). auto.
Qed.

Lemma vector_inside : forall ep t vs w a hi xs w', running ep w -> wf_aty t ->
  0 <= a -> hi <= gnext w -> hi <= 2 ^ 31 -> decodes_args (mem w) hi [AVec t] [VVec vs] a ->
  returns (decode_args ep [AVec t]) [a] w xs w' ->
  exists x, xs = [x] /\ gnext w <= x /\ load 4 (mem w') x = Z.of_nat (List.length vs) /\
    x + 8 + Z.of_nat (esize (mty t)) * Z.of_nat (List.length vs) <= gnext w'.
Proof.
  intros ep t vs w a hi xs w' Hr Wf Ha H1 H2 D R.
  destruct (decode_args_spec ep [AVec t] [VVec vs] w a hi Hr) as [(xs'&w2&R2&H&Hw2&_)|[T _]]; [cbn; auto|exact Ha|exact H1|exact H2|exact D| |pose proof (evals_unique _ _ _ _ _ R T); discriminate].
  destruct (returns_unique _ _ _ _ _ _ _ R R2) as [-> ->]. apply held_one in H. destruct H as (x&->&V). exists x. split; [reflexivity|].
  cbn [mty vrep] in V.
  pose proof (esize_range (mty t)) as Es. destruct V as (vs'&cap&G&Ev&V1&V2&V3&V4&V5&_). injection Ev as <-.
  assert (M : Z.of_nat (List.length vs) * Z.of_nat (esize (mty t)) <= cap * Z.of_nat (esize (mty t))) by (apply Z.mul_le_mono_nonneg_r; lia).
  rewrite (Z.mul_comm (Z.of_nat (esize (mty t)))). set (k := cap * _) in *. clearbody k. set (k' := Z.of_nat (List.length vs) * _) in *.
  assert (0 <= k') by (apply Z.mul_nonneg_nonneg; lia). clearbody k'.
  pose proof (V5 x ltac:(unfold between; lia)) as X1. pose proof (V5 (x + 8 + k - 1) ltac:(unfold between; lia)) as X2. unfold between in X1, X2. split; [lia|]. split; [exact V1|lia].
Qed.

(** ** A concrete message *)
Definition put (a : Z) (l : list Z) (m : memory) : memory := fun x => if (a <=? x) && (x <? a + lenz l) then nth (Z.to_nat (x - a)) l 0 else m x.
Lemma wm_put_ok : forall a l m next, wok (wm m next) -> a + lenz l <= next -> wok (wm (put a l m) next).
Proof.
  unfold wok, wm; cbn [pages maxpages gnext gavail mem]. intros a l m next (H1&H2&H3&H4&H5&H6) L. repeat (split; [lia|]).
  intros x Hx. unfold rd, put. destruct (_ && _) eqn:E; [lia|]. apply H6. exact Hx.
Qed.

Lemma string_at_page_end : exists w a bs, running ep0 w /\ bytes_at (mem w) a (enc_args [AString] [VStruct 0 [VVec (map VInt bs)]]) /\
  a + lenz (enc_args [AString] [VStruct 0 [VVec (map VInt bs)]]) <= gnext w /\ ~ oom w 1000000 /\
  traps (decode_args ep0 [AString]) [a] w.
Proof.
  exists (wm (put 500 (enc_args [AString] [VStruct 0 [VVec (map VInt [65])]]) zmem) (65536 - 9)), 500, [65].
  split; [split; [apply wm_put_ok; [apply wm_ok; lia|vm_compute; discriminate]|split; [exact ep0_ok|vm_compute; reflexivity]]|].
  split; [vm_compute; reflexivity|]. split; [vm_compute; discriminate|]. split; [unfold oom; cbn; lia|]. apply (traps_by_ok 1000). vm_compute. reflexivity.
Qed.

Lemma held_represents : forall ts m vs xs lo w, mem w = m -> 468 <= lo -> held m ts vs xs (between lo (gnext w)) -> represents w ts vs xs.
Proof.
  intros ts m vs xs lo w E Hlo H. assert (Sb : sub (between lo (gnext w)) (heap w)) by (apply between_sub; lia). revert vs xs H Sb. generalize (between lo (gnext w)).
  induction ts as [|t ts IH]; intros F [|v vs] [|x xs] H Sb; cbn [held represents] in *; try contradiction; [exact I|].
  destruct H as (F1&F2&V&H&_&S1&S2). split; [rewrite E; eapply vrep_mono; [|exact V]; intros y Hy; apply Sb, S1, Hy|]. eapply IH; [exact H|]. intros y Hy. apply Sb, S2, Hy.
Qed.

Lemma abi_example_holds :
  let ts := [AInt TU64; AString; AVec (AVec (AInt TU16)); AStruct [AInt TBool; AString]; AEnum 3] in
  let str bs := VStruct 0 [VVec (map VInt bs)] in
  let vs := [VInt 70000; str [104; 105]; VVec [VVec [VInt 1; VInt 65535]; VVec []]; VStruct 0 [VInt 1; str []]; VEnum 2 []] in
  let msg := enc_args ts vs in
  let w := wm (put 500 msg zmem) (500 + lenz msg) in
  running ep0 w /\ fold_right and True (map wf_aty ts) /\ all_fields (map has_aty ts) vs /\
  decodes_args (mem w) (gnext w) ts vs 500 /\ ~ oom w 100000 /\ ~ crosses w (need_args ts vs) /\
  exists xs w', returns (decode_args ep0 ts) [500] w (rev xs) w' /\ running ep0 w' /\ represents w' ts vs xs /\
  exists w'', returns (encode_args ep0 ts) xs w' [lenz msg; gnext w'] w'' /\ bytes_at (mem w'') (gnext w') msg.
Proof.
  intros ts str vs msg w.
  assert (Lm : lenz msg = 544) by (vm_compute; reflexivity).
  assert (Gw : gnext w = 1044) by (unfold w; cbn [gnext wm]; lia).
  assert (Hr : running ep0 w).
  { split; [apply wm_put_ok; [apply wm_ok; lia|lia]|split; [exact ep0_ok|vm_compute; reflexivity]]. }
  assert (Wf : fold_right and True (map wf_aty ts)) by (cbn; lia).
  assert (Hv : all_fields (map has_aty ts) vs).
  { assert (I1 : forall t n, 0 <= n < 2 ^ vbits t -> has_aty (AInt t) (VInt n)) by (intros t n Hn; exists n; split; [reflexivity|exact Hn]).
    cbn [ts vs map all_fields]. split; [apply I1; cbn; lia|]. split; [exists [104; 105]; split; [reflexivity|repeat constructor; lia]|].
    split; [eexists; split; [reflexivity|]; repeat constructor; (eexists; split; [reflexivity|]; repeat constructor); apply I1; cbn; lia|].
    split; [eexists; split; [reflexivity|]; cbn [map all_fields]; split; [apply I1; cbn; lia|]; split; [|exact I]; exists []; split; [reflexivity|constructor]|].
    split; [|exact I]. exists 2%nat. split; [reflexivity|lia]. }
  assert (D : decodes_args (mem w) (gnext w) ts vs 500).
  { apply enc_args_decodes; [exact Wf|exact Hv|lia|vm_compute; reflexivity|fold msg; lia|]. assert (1044 < 2 ^ 256) by reflexivity. lia. }
  assert (Nd : need_args ts vs = 75) by (vm_compute; reflexivity).
  assert (Oo : ~ oom w 100000) by (unfold oom; rewrite Gw; cbn [maxpages w wm]; lia).
  assert (Cr : ~ crosses w (need_args ts vs)) by (intros [k Hk]; lia).
  split; [exact Hr|]. split; [exact Wf|]. split; [exact Hv|]. split; [exact D|]. split; [exact Oo|]. split; [exact Cr|].
  destruct (decode_args_spec ep0 ts vs w 500 (gnext w) Hr Wf ltac:(lia) ltac:(lia) ltac:(lia) D) as [(xs&w'&R&H&Hw'&Em'&G&Eh&O)|[_ [X|[_ X]]]];
    [|exfalso; apply Oo; eapply oom_mono; [exact X|lia]|contradiction].
  exists xs, w'. split; [exact R|]. pose proof Hr as (_&_&Fl).
  assert (Hr' : running ep0 w').
  { split; [exact Hw'|]. split; [exact ep0_ok|]. rewrite <- Fl. unfold abort_flag. apply load_ext. change (Z.of_nat 4) with 4. intros. apply O. lia. }
  split; [exact Hr'|].
  assert (Rp : represents w' ts vs xs) by (eapply held_represents; [reflexivity| |exact H]; lia).
  split; [exact Rp|].
  destruct (encode_args_spec ep0 ts vs xs w' Hr' Wf Rp) as [(w''&R''&_&_&B)|[_ X]]; [fold msg; lia| |].
  - exists w''. split; [exact R''|exact B].
  - exfalso. fold msg in X. rewrite Lm in X. unfold oom in X. rewrite G, Nd, Gw in X.
    assert (Em : maxpages w' = 100) by (rewrite Em'; reflexivity). lia.
Qed.

Lemma enum_tags : forall ep w, running ep w ->
  (forall p wr, live w p 4 -> live w wr 32 -> 256 <= load 4 (mem w) p ->
     exists w', returns (pack_enum ep) [p; wr] w [] w' /\ aborted ep EnumSizeTooLarge w w') /\
  (forall n r, live w r 32 -> 0 < Z.of_nat n < 2 ^ 32 -> Z.of_nat n <= load_be 4 (mem w) (r + 28) ->
     exists w', returns (unpack_enum ep n) [r] w [BADF00D] w' /\ abort_flag w' = ep OutOfBounds).
Proof.
  intros ep w (Hw&He&Ha). pose proof Hw as (P1&P2&P3&P4&P5&P6). split.
  - intros p wr Lp Lw Hv. unfold live in *.
    assert (W : wpf (pack_enum ep) [p; wr] w (resq (fun vs w' => vs = [] /\ aborted ep EnumSizeTooLarge w w') False)).
    { apply wpf_intro; [reflexivity|]. wc. ws1. ws1. ws1. ws1. ws1. ws1. ws1; [|exfalso; lia].
      werr; [exact Hw|]. split; [reflexivity|]. apply aborted_store. exact He. }
    apply wpf_returns in W. destruct W as (vs&w'&R&->&A). eauto.
  - intros n r L Hn Hv. pose proof (unpack_enum_spec ep n w r Hw L He Hn) as W. cbv zeta in W. unfold live in L.
    assert (W' : wpf (unpack_enum ep n) [r] w (resq (fun vs w' => vs = [BADF00D] /\ abort_flag w' = ep OutOfBounds) False)).
    { apply wpf_intro; [reflexivity|]. wc. ws1. ws1.
      eapply wp_call; [reflexivity|cbn [List.length]; lia|]; cbn [rev firstn app].
      eapply returns_wpf; [apply unpack_u32_spec; [exact Hw|unfold live; lia|lia|lia]|]. cbn [skipn app].
      ws1. ws1. ws1. ws1; [|exfalso; lia]. werr; [exact Hw|]. split; [reflexivity|].
      destruct (aborted_store ep OutOfBounds (set_gcd w (r + 32)) He) as [_ F]. exact F. }
    apply wpf_returns in W'. destruct W' as (vs&w'&R&->&F). eauto.
Qed.
