(** * Lemmas about storage locations. *)

From Verif Require Import Tac RtAlloc RtErr RtInt RtInt2 RtEq RtMul RtDiv RtShift RtSwap SpecAbi LemAbi SpecStor RtStor.
Ltac Zify.zify_post_hook ::= idtac.

Lemma next_slot : forall ep w s, wok w -> errtab_ok ep -> load 32 (mem w) 32 = 1 ->
  live w s 32 -> (64 <= s /\ s + 32 <= 256 \/ 260 <= s) ->
  (load_be 32 (mem w) s < 2 ^ 256 - 1 ->
     exists w', returns (storage_next_slot ep) [s] w [s] w' /\ frame w w' (within s 32) /\
       load_be 32 (mem w') s = load_be 32 (mem w) s + 1) /\
  (load_be 32 (mem w) s = 2 ^ 256 - 1 ->
     exists w', returns (storage_next_slot ep) [s] w [BADF00D] w' /\ abort_flag w' = ep Overflow /\
       frame w w' (fun x => within s 32 x \/ within 256 4 x)).
Proof.
  intros ep w s Hw He H1 Ls A.
  destruct (storage_next_slot_spec ep w s Hw He H1 Ls A) as (w'&R&P). split; intros H.
  - replace (_ =? _) with false in R, P by lia. exists w'. tauto.
  - replace (_ =? _) with true in R, P by lia. exists w'. tauto.
Qed.

(** ** Injectivity of slot preimages *)

Lemma be_bytes_inj : forall n a b, be_bytes n a = be_bytes n b -> a mod 256 ^ Z.of_nat n = b mod 256 ^ Z.of_nat n.
Proof.
  intros n a b H.
  set (m := store_be (Z.of_nat n) (fun _ => 0) 0 a). set (m' := store_be (Z.of_nat n) (fun _ => 0) 0 b).
  assert (A : load_be n m 0 = a mod 256 ^ Z.of_nat n) by apply load_be_store_be_same.
  assert (B : load_be n m' 0 = b mod 256 ^ Z.of_nat n) by apply load_be_store_be_same.
  rewrite <- A, <- B.
  assert (M : forall v, be_bytes n v = be_bytes n (v mod 256 ^ Z.of_nat n)).
  { clear. intros v. set (m := store_be (Z.of_nat n) (fun _ => 0) 0 v).
    assert (A : load_be n m 0 = v mod 256 ^ Z.of_nat n) by apply load_be_store_be_same.
    rewrite <- A, be_bytes_load_be. clear A.
    revert v m. induction n; intros v m; [reflexivity|].
    cbn [be_bytes bytes]. f_equal.
    - unfold m. rewrite rd_store_be_in by lia. f_equal. f_equal. f_equal. lia.
    - rewrite (IHn v). apply bytes_ext. intros i Hi. unfold m. rewrite !rd_store_be_in by lia.
      do 3 f_equal; lia. }
  rewrite M, (M b), <- A, <- B, !be_bytes_load_be in H.
  apply load_be_ext. exact (bytes_inj n m m' 0 0 H).
Qed.

Lemma word_inj : forall a b, word a = word b -> 0 <= a < 2 ^ 256 -> 0 <= b < 2 ^ 256 -> a = b.
Proof.
  unfold word. intros a b H Ha Hb. apply be_bytes_inj in H. change (256 ^ Z.of_nat 32) with (2 ^ 256) in H.
  rewrite !Z.mod_small in H by assumption. exact H.
Qed.

Lemma hash_range : forall h bs, 0 <= hash h bs < 2 ^ 256.
Proof. intros. apply Z.mod_pos_bound. lia. Qed.

Lemma app_inj_len : forall (A : Type) (a b c d : list A), List.length a = List.length c ->
  a ++ b = c ++ d -> a = c /\ b = d.
Proof.
  induction a as [|x a IH]; intros b c d L H; destruct c as [|y c]; cbn [List.length] in L; try discriminate.
  - auto.
  - injection H as -> H. destruct (IH b c d) as [-> ->]; [lia|exact H|auto].
Qed.

Lemma word_app_inj : forall a b c d, word a ++ word b = word c ++ word d ->
  0 <= a < 2 ^ 256 -> 0 <= b < 2 ^ 256 -> 0 <= c < 2 ^ 256 -> 0 <= d < 2 ^ 256 -> a = c /\ b = d.
Proof.
  intros a b c d H Ha Hb Hc Hd.
  assert (E : word a = word c /\ word b = word d).
  { apply app_inj_len; [|exact H]. unfold word. rewrite !be_bytes_length. reflexivity. }
  destruct E. split; apply word_inj; assumption.
Qed.

Lemma slots_distinct : forall h o i o' i',
  0 <= o < 2 ^ 256 -> 0 <= i < 2 ^ 256 -> 0 <= o' < 2 ^ 256 -> 0 <= i' < 2 ^ 256 ->
  (o, i) <> (o', i') -> slot_of h o i = slot_of h o' i' ->
  collision h (word o ++ word 0) (word o' ++ word 0) \/
  collision h (word i ++ word (hash h (word o ++ word 0))) (word i' ++ word (hash h (word o' ++ word 0))).
Proof.
  intros h o i o' i' H1 H2 H3 H4 D E. unfold collision.
  destruct (Z.eq_dec (hash h (word o ++ word 0)) (hash h (word o' ++ word 0))) as [Eh|Nh].
  - destruct (Z.eq_dec o o') as [->|No].
    + right. split; [|exact E]. intros K. apply word_app_inj in K; try assumption; try apply hash_range.
      apply D. f_equal. tauto.
    + left. split; [|exact Eh]. intros K. apply word_app_inj in K; try assumption; try lia. 
  - right. split; [|exact E]. intros K. apply word_app_inj in K; try assumption; try apply hash_range. tauto.
Qed.

(** ** Element slots *)

Lemma bswap_carry_free : forall n a b, 0 <= a -> 0 <= b -> carry_free a b ->
  bswap n a + bswap n b = bswap n (a + b).
Proof.
  induction n; intros a b Ha Hb C; [reflexivity|]. cbn [bswap].
  pose proof (C 0 ltac:(lia)) as C0. change (256 ^ 0) with 1 in C0. rewrite !Z.div_1_r in C0.
  assert (E : (a + b) mod 256 = a mod 256 + b mod 256 /\ (a + b) / 256 = a / 256 + b / 256).
  { pose proof (Z.div_mod a 256 ltac:(lia)). pose proof (Z.div_mod b 256 ltac:(lia)).
    pose proof (Z.mod_pos_bound a 256 ltac:(lia)). pose proof (Z.mod_pos_bound b 256 ltac:(lia)).
    split.
    - symmetry. apply Z.mod_unique with (q := a / 256 + b / 256); lia.
    - symmetry. apply Z.div_unique with (r := a mod 256 + b mod 256); lia. }
  destruct E as [-> ->]. rewrite <- IHn; try (apply Z.div_pos; lia).
  - ring.
  - intros k Hk. rewrite !Z.div_div by (try lia; apply pow256_pos; lia).
    replace (256 * 256 ^ k) with (256 ^ (k + 1)) by (rewrite Z.pow_add_r by lia; ring).
    apply C. lia.
Qed.

Lemma elem_index_32 : forall i sz, 0 <= i -> 0 < sz -> elem_index i sz < 2 ^ 32 -> elem_slot_index i sz = elem_index i sz.
Proof.
  intros. unfold elem_slot_index, elem_index in *. destruct (sz <? 32); [reflexivity|].
  apply w32_small. assert (0 <= (sz + 31) / 32) by (apply Z.div_pos; lia). split; [nia|lia].
Qed.

Lemma element_slot : forall ep w p i sz d, wok w -> errtab_ok ep ->
  live w p 32 -> live w d 32 -> 0 <= i < 2 ^ 32 -> 0 < sz < 2 ^ 31 -> elem_index i sz < 2 ^ 32 ->
  let base := hash (host w) (word (load_be 32 (mem w) p)) in
  base + elem_index i sz < 2 ^ 256 -> carry_free base (elem_index i sz) ->
  (exists w', returns (derive_dyn_array_slot ep) [p; i; sz; d] w [] w' /\ 
     load_be 32 (mem w') d = base + elem_index i sz /\
     (forall a, 0 <= a < gnext w -> ~ within d 32 a -> rd (mem w') a = rd (mem w) a)) \/
  (traps (derive_dyn_array_slot ep) [p; i; sz; d] w /\ oom w 96).
Proof.
  intros ep w p i sz d Hw He Lp Ld Hi Hs Hx base Hb C.
  assert (E0 : 0 <= elem_index i sz).
  { unfold elem_index. destruct (sz <? 32) eqn:E.
    - apply Z.div_pos; [lia|]. apply Z.div_str_pos; lia.
    - assert (0 <= (sz + 31) / 32) by (apply Z.div_pos; lia). nia. }
  pose proof (derive_dyn_array_slot_spec ep w p i sz d Hw He Lp Ld Hi Hs) as D. cbv zeta in D.
  rewrite bytes_word, elem_index_32 in D by lia. fold base in D.
  assert (Hbase : 0 <= base < 2 ^ 256) by apply hash_range.
  rewrite bswap_carry_free in D by (try assumption; lia).
  pose proof (bswap_range 32 (base + elem_index i sz)) as R. change (256 ^ Z.of_nat 32) with (2 ^ 256) in R.
  replace (_ <? _) with true in D by lia.
  rewrite bswap_bswap in D by (change (256 ^ Z.of_nat 32) with (2 ^ 256); lia).
  apply wpf_cases in D. destruct D as [(vs&w'&R1&->&_&_&_&_&_&F&V)|[T [O|O]]].
  - left. exists w'. auto.
  - right. auto.
  - lia.
Qed.

(** Adding a small index overflows as soon as the last byte does. *)
Lemma small_index_overflow : forall ep w p d, wok w -> errtab_ok ep -> live w p 32 -> live w d 32 ->
  (d + 32 <= 256 \/ 260 <= d) ->
  let base := hash (host w) (word (load_be 32 (mem w) p)) in
  base mod 256 <> 0 ->
  exists i, 0 < i < 256 /\ forall vs w', returns (derive_dyn_array_slot ep) [p; i; 32; d] w vs w' ->
    abort_flag w' = ep Overflow.
Proof.
  intros ep w p d Hw He Lp Ld Hd base Hb.
  assert (Hbase : 0 <= base < 2 ^ 256) by apply hash_range.
  pose proof (Z.mod_pos_bound base 256 ltac:(lia)) as Rb.
  exists (256 - base mod 256). split; [lia|]. intros vs w' R.
  set (i := 256 - base mod 256) in *.
  pose proof (derive_dyn_array_slot_spec ep w p i 32 d Hw He Lp Ld ltac:(lia) ltac:(lia)) as D. cbv zeta in D.
  assert (EI : elem_index i 32 = i).
  { unfold elem_index. change (32 <? 32) with false. cbv iota. change ((32 + 31) / 32) with 1. lia. }
  rewrite bytes_word, elem_index_32 in D by (rewrite ?EI; lia). fold base in D. rewrite EI in D.
  assert (S : 2 ^ 256 <= bswap 32 base + bswap 32 i).
  { change 32%nat with (1 + 31)%nat. rewrite !bswap_add.
    pose proof (bswap_range 31 (base / 256 ^ Z.of_nat 1)). pose proof (bswap_range 31 (i / 256 ^ Z.of_nat 1)).
    assert (B1 : forall x, bswap 1 x = x mod 256).
    { intros. cbn [bswap]. change (256 ^ Z.of_nat 0) with 1. lia. }
    rewrite !B1, (Z.mod_small i) by lia.
    change (2 ^ 256) with (256 * 256 ^ Z.of_nat 31).
    generalize dependent (256 ^ Z.of_nat 31). intros P H H0. unfold i at 1.
    replace (256 * P) with (base mod 256 * P + (256 - base mod 256) * P) by ring.
    revert H H0. generalize (bswap 31 (base / 256 ^ Z.of_nat 1)) (bswap 31 (i / 256 ^ Z.of_nat 1)).
    generalize (base mod 256 * P) ((256 - base mod 256) * P). clear. intros. lia. }
  replace (_ <? _) with false in D by lia.
  apply wpf_cases in D. destruct D as [(vs2&w2&R2&->&_&F)|[T _]].
  - destruct (returns_unique _ _ _ _ _ _ _ R R2) as [_ ->]. auto.
  - pose proof (evals_unique _ _ _ _ _ R T) as K. discriminate K.
Qed.

(** Past index 255 the carry goes to the wrong byte. *)
Lemma wrong_element_slot : forall ep w p d, wok w -> errtab_ok ep -> live w p 32 -> live w d 32 ->
  let base := hash (host w) (word (load_be 32 (mem w) p)) in
  base mod 65536 = 65280 -> ~ oom w 96 ->
  exists w', returns (derive_dyn_array_slot ep) [p; 256; 32; d] w [] w' /\
    load_be 32 (mem w') d = base - 65279 /\
    (forall a, 0 <= a < gnext w -> ~ within d 32 a -> rd (mem w') a = rd (mem w) a).
Proof.
  intros ep w p d Hw He Lp Ld base Hb No.
  assert (Hbase : 0 <= base < 2 ^ 256) by apply hash_range.
  pose proof (derive_dyn_array_slot_spec ep w p 256 32 d Hw He Lp Ld ltac:(lia) ltac:(lia)) as D. cbv zeta in D.
  rewrite bytes_word in D. fold base in D. change (elem_slot_index 256 32) with 256 in D.
  assert (S : bswap 32 base + bswap 32 256 = bswap 32 (base - 65279)).
  { change 32%nat with (2 + 30)%nat. rewrite !bswap_add.
    rewrite <- (bswap_mod 2 base), <- (bswap_mod 2 (base - 65279)).
    change (256 ^ Z.of_nat 2) with 65536. rewrite Hb.
    pose proof (Z.div_mod base 65536 ltac:(lia)) as E. rewrite Hb in E.
    replace ((base - 65279) mod 65536) with 1 by (apply Z.mod_unique with (q := base / 65536); lia).
    replace ((base - 65279) / 65536) with (base / 65536) by (apply Z.div_unique with (r := 1); lia).
    change (bswap 2 65280) with 255. change (bswap 2 256) with 1. change (bswap 2 1) with 256.
    change (256 / 65536) with 0. rewrite bswap_0. lia. }
  rewrite S in D.
  pose proof (Z.div_mod base 65536 ltac:(lia)) as E. assert (0 <= base / 65536) by (apply Z.div_pos; lia).
  pose proof (bswap_range 32 (base - 65279)) as R. change (256 ^ Z.of_nat 32) with (2 ^ 256) in R.
  replace (_ <? _) with true in D by lia.
  rewrite bswap_bswap in D by (change (256 ^ Z.of_nat 32) with (2 ^ 256); lia).
  apply wpf_cases in D. destruct D as [(vs&w'&R1&->&_&_&_&_&_&F&V)|[T [O|O]]].
  - exists w'. auto.
  - contradiction.
  - lia.
Qed.
