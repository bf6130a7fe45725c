(** * Lemmas behind the string properties (C49-C52). *)

From Verif Require Import SpecInt Tac Spec RtCopy LemMem SpecSol LemSol RtStr SpecStr.
Ltac Zify.zify_post_hook ::= idtac.

Lemma tail_continuation : forall x k, modified_char x -> (0 < k < List.length x)%nat -> 0x80 <= nth k x 0 <= 0xBF.
Proof.
  intros x k [->|(c&Hc&->)] Hk.
  { cbn [List.length] in Hk. replace k with 1%nat by lia. cbn. lia. }
  assert (M : forall z, 0 <= z mod 64 < 64) by (intros; apply Z.mod_pos_bound; lia).
  pose proof (M c). pose proof (M (c / 64)). pose proof (M (c / 4096)).
  unfold utf8_char in *. destruct (c <? 0x80); [cbn in Hk; lia|].
  destruct (c <? 0x800); [|destruct (c <? 0x10000)]; cbn [List.length] in Hk;
    destruct k as [|[|[|[|k]]]]; cbn [nth]; lia.
Qed.

(** Only the last character can run past the end; it cannot if the next byte does not continue it. *)
Lemma no_overrun : forall s t, ~ 0x80 <= nth 0 t 0 <= 0xBF -> modified_utf8 (s ++ t) -> modified_utf8 s.
Proof.
  intros s t Ht (xs&F&E). revert s E. induction F as [|x xs Hx F IH]; intros s E.
  - cbn in E. destruct s; [|discriminate]. exists []. split; [constructor|reflexivity].
  - cbn [List.concat] in E. destruct (le_lt_dec (List.length x) (List.length s)) as [L|L].
    + assert (Ex : firstn (List.length x) s = x).
      { apply (f_equal (firstn (List.length x))) in E. rewrite !firstn_app in E.
        replace (List.length x - List.length s)%nat with O in E by lia. rewrite Nat.sub_diag, !firstn_O, !app_nil_r, firstn_all in E. exact E. }
      rewrite <- (firstn_skipn (List.length x) s), Ex, <- app_assoc in E. apply app_inv_head in E.
      destruct (IH _ E) as (ys&Fy&Ey). exists (x :: ys). split; [constructor; assumption|].
      cbn [List.concat]. rewrite <- Ey, <- Ex at 1. rewrite <- (firstn_skipn (List.length x) s) at 1. rewrite Ex. reflexivity.
    + destruct s as [|a s]; [exists []; split; [constructor|reflexivity]|]. exfalso. apply Ht.
      pose proof (tail_continuation x (List.length (a :: s)) Hx ltac:(cbn [List.length] in *; lia)) as C.
      assert (N : nth (List.length (a :: s)) ((a :: s) ++ t) 0 = nth 0 t 0).
      { rewrite app_nth2 by lia. f_equal. lia. }
      rewrite E, app_nth1 in N by exact L. rewrite <- N. exact C.
Qed.

Lemma utf8_modified : forall s, utf8 s <-> modified_utf8 s /\ ~ In 0xC0 s.
Proof.
  assert (D : forall z, 0 <= z mod 64 < 64) by (intros; apply Z.mod_pos_bound; lia).
  intros s. split.
  - intros (cs&F&->). split.
    + exists (map utf8_char cs). split; [|reflexivity]. induction F; cbn; constructor; [right; eauto|assumption].
    + induction F as [|c cs Hc F IH]; [intros []|]. cbn [map List.concat]. intros H. apply in_app_or in H. destruct H as [H|H]; [|auto].
      clear - D H Hc. pose proof (D c). pose proof (D (c / 64)). pose proof (D (c / 4096)). unfold utf8_char, scalar in *.
      destruct (c <? 0x80) eqn:C1; [destruct H as [H|[]]; lia|].
      destruct (c <? 0x800) eqn:C2.
      { assert (2 <= c / 64) by (apply Z.div_le_lower_bound; lia). destruct H as [H|[H|[]]]; lia. }
      destruct (c <? 0x10000) eqn:C3.
      { assert (0 <= c / 4096) by (apply Z.div_pos; lia). destruct H as [H|[H|[H|[]]]]; lia. }
      assert (0 <= c / 262144) by (apply Z.div_pos; lia). destruct H as [H|[H|[H|[H|[]]]]]; lia.
  - intros ((xs&F&->)&N). induction F as [|x xs [->|(c&Hc&->)] F IH].
    + exists []. split; [constructor|reflexivity].
    + exfalso. apply N. left. reflexivity.
    + cbn [List.concat] in N. destruct IH as (cs&Fc&E); [intros H; apply N, in_or_app; auto|].
      exists (c :: cs). split; [constructor; assumption|]. cbn [map List.concat]. rewrite E. reflexivity.
Qed.

Lemma check_result : forall w v s, wok w -> byte_vec w v s -> v + 8 + Z.of_nat (List.length s) + 3 <= 65536 * pages w ->
  exists r, returns check_utf8 [v] w [r] w /\ (r = 0 \/ r = 1) /\
    (r = 1 <-> exists k, (k <= 3)%nat /\ modified_utf8 (s ++ bytes k (mem w) (v + 8 + Z.of_nat (List.length s)))).
Proof.
  intros w v s Hw (Lv&Ln&Bs) Hp. unfold live in Lv.
  destruct (check_utf8_spec w v (Z.of_nat (List.length s)) Hw ltac:(lia) ltac:(lia) Ln Hp) as (r&R&C). exists r. split; [exact R|]. split; [tauto|].
  assert (X : scanned (mem w) (v + 8) (Z.of_nat (List.length s)) <->
    exists k, (k <= 3)%nat /\ modified_utf8 (s ++ bytes k (mem w) (v + 8 + Z.of_nat (List.length s)))).
  { rewrite scanned_iff. split; intros (k&Hk&H); exists k; (split; [exact Hk|]).
    - rewrite bytes_app, Bs in H. exact H.
    - rewrite bytes_app, Bs. exact H. }
  rewrite <- X. destruct C as [[-> S]|[-> S]]; split; try tauto; discriminate.
Qed.

Lemma check_accepts : forall w v s, wok w -> byte_vec w v s -> v + 8 + Z.of_nat (List.length s) + 3 <= 65536 * pages w ->
  utf8 s -> returns check_utf8 [v] w [1] w.
Proof.
  intros w v s Hw Bv Hp U. destruct (check_result w v s Hw Bv Hp) as (r&R&_&C).
  assert (r = 1) as ->; [|exact R]. apply C. exists O. split; [lia|]. cbn [bytes]. rewrite app_nil_r. apply utf8_modified. exact U.
Qed.

Lemma check_exact : forall w v s, wok w -> byte_vec w v s -> v + 8 + Z.of_nat (List.length s) + 3 <= 65536 * pages w ->
  ~ In 0xC0 s -> ~ 0x80 <= rd (mem w) (v + 8 + Z.of_nat (List.length s)) <= 0xBF ->
  exists r, returns check_utf8 [v] w [r] w /\ (r = 1 /\ utf8 s \/ r = 0 /\ ~ utf8 s).
Proof.
  intros w v s Hw Bv Hp N Hn. destruct (check_result w v s Hw Bv Hp) as (r&R&Hr&C). exists r. split; [exact R|].
  assert (X : r = 1 <-> utf8 s).
  { rewrite C. split.
    - intros (k&Hk&M). apply utf8_modified. split; [|exact N].
      destruct k as [|k]; [cbn [bytes] in M; rewrite app_nil_r in M; exact M|].
      eapply no_overrun; [|exact M]. cbn [bytes nth]. exact Hn.
    - intros U. exists O. split; [lia|]. cbn [bytes]. rewrite app_nil_r. apply utf8_modified. exact U. }
  destruct Hr as [->| ->]; [right|left]; (split; [reflexivity|]); [intros U; apply X in U; discriminate|apply X; reflexivity].
Qed.

Lemma substring_result : forall w v s i j, wok w -> byte_vec w v s -> 0 <= i <= j -> j <= Z.of_nat (List.length s) -> j - i < 2 ^ 31 - 8 ->
  (exists p w', returns sub_string [v; i; j] w [p] w' /\ extends w w' /\ gnext w <= p /\ byte_vec w' p (slice s i j)) \/
  out_of_memory sub_string [v; i; j] w (8 + (j - i)).
Proof.
  intros w v s i j Hw Bv Hi Hj Hs. pose proof (sub_string_spec w v s i j Hw Bv Hs Hi Hj) as W. apply wpf_cases in W.
  destruct W as [(vs&w'&R&->&X&B)|(Tr&O)]; [left|right; split; assumption].
  exists (gnext w), w'. split; [exact R|]. split; [exact X|]. split; [lia|exact B].
Qed.

Lemma slice_nth : forall s i j k, 0 <= i <= j -> j <= Z.of_nat (List.length s) ->
  Z.of_nat (List.length (slice s i j)) = j - i /\
  (0 <= k < j - i -> nth (Z.to_nat k) (slice s i j) 0 = nth (Z.to_nat (i + k)) s 0).
Proof.
  intros s i j k Hi Hj. unfold slice. split; [rewrite firstn_length, skipn_length; lia|].
  intros Hk. rewrite nth_firstn_lt by lia. rewrite nth_skipn. f_equal. lia.
Qed.

(** The world with the [vector<u8>] of content [s] at address 500, followed by the bytes [t]. *)
Definition str_world (s t : list Z) : world :=
  wm (put 500 ([Z.of_nat (List.length s); 0; 0; 0; Z.of_nat (List.length s); 0; 0; 0] ++ s ++ t) zmem) 600.
Lemma str_world_ok : forall s t, lenz s + lenz t <= 92 -> wok (str_world s t).
Proof.
  intros s t H. unfold str_world. apply wm_put_ok; [apply wm_ok; lia|]. unfold lenz in *. cbn [app List.length]. rewrite app_length. lia.
Qed.


Lemma overlong_accepted : exists w v s, wok w /\ byte_vec w v s /\ ~ utf8 s /\ returns check_utf8 [v] w [1] w.
Proof.
  set (s := [0xC0; 0x80]). set (w := str_world s []). exists w, 500, s.
  assert (Hw : wok w) by (apply str_world_ok; unfold lenz; cbn; lia).
  assert (B : byte_vec w 500 s) by (split; [unfold live; cbn; lia|split; reflexivity]).
  split; [exact Hw|]. split; [exact B|]. split; [intros U; apply utf8_modified in U; apply U; left; reflexivity|].
  destruct (check_result w 500 s Hw B ltac:(cbn; lia)) as (r&R&_&C). assert (r = 1) as <-; [|exact R].
  apply C. exists O. split; [lia|]. exists [s]. split; [|reflexivity]. constructor; [left; reflexivity|constructor].
Qed.

Lemma truncated_accepted : exists w v s, wok w /\ byte_vec w v s /\ ~ utf8 s /\ ~ In 0xC0 s /\ returns check_utf8 [v] w [1] w.
Proof.
  set (s := [0xC2]). set (w := str_world s [0x80]). exists w, 500, s.
  assert (Hw : wok w) by (apply str_world_ok; unfold lenz; cbn; lia).
  assert (B : byte_vec w 500 s) by (split; [unfold live; cbn; lia|split; reflexivity]).
  split; [exact Hw|]. split; [exact B|]. split; [|split; [cbn; lia|]].
  - intros (cs&F&E). destruct F as [|c cs Hc F]; [discriminate|]. cbn [map List.concat] in E. unfold utf8_char, s in E.
    destruct (c <? 0x80) eqn:C1; [injection E; intros; lia|]. destruct (c <? 0x800); [discriminate|]. destruct (c <? 0x10000); discriminate.
  - destruct (check_result w 500 s Hw B ltac:(cbn; lia)) as (r&R&_&C). assert (r = 1) as <-; [|exact R].
    apply C. exists 1%nat. split; [lia|]. exists [[0xC2; 0x80]]. split; [|reflexivity]. constructor; [|constructor].
    right. exists 0x80. split; [unfold scalar; lia|reflexivity].
Qed.

Lemma end_of_memory_traps : exists w v s, wok w /\ byte_vec w v s /\ utf8 s /\ traps check_utf8 [v] w.
Proof.
  set (w := wm (put 65525 [3; 0; 0; 0; 3; 0; 0; 0; 0xE2; 0x82; 0xAC] zmem) 65536). exists w, 65525, [0xE2; 0x82; 0xAC].
  split; [apply wm_put_ok; [apply wm_ok; lia|cbn; lia]|]. split; [split; [unfold live; cbn; lia|split; reflexivity]|].
  split; [exists [0x20AC]; split; [constructor; [unfold scalar; lia|constructor]|reflexivity]|].
  apply traps_by_ok with 200%nat. vm_compute. reflexivity.
Qed.

Lemma boundary_wraps : exists w v s i, wok w /\ byte_vec w v s /\ 0 <= i < 2 ^ 64 /\ ~ boundary s i /\
  exists w', returns is_char_boundary [v; i] w [1] w'.
Proof.
  set (s := [0x61]). set (w := str_world s []). exists w, 500, s, (2 ^ 32).
  assert (Hw : wok w) by (apply str_world_ok; unfold lenz; cbn; lia).
  assert (B : byte_vec w 500 s) by (split; [unfold live; cbn; lia|split; reflexivity]).
  split; [exact Hw|]. split; [exact B|]. split; [lia|]. split; [unfold boundary; cbn [List.length s]; lia|].
  runs 200%nat.
Qed.

Lemma head_not_continuation : forall c, scalar c -> ~ 0x80 <= nth 0 (utf8_char c) 0 <= 0xBF.
Proof.
  intros c Hc. unfold scalar, utf8_char in *. destruct (c <? 0x80) eqn:C1; [cbn [nth]; lia|].
  assert (0 <= c / 64) by (apply Z.div_pos; lia). assert (0 <= c / 4096) by (apply Z.div_pos; lia).
  assert (0 <= c / 262144) by (apply Z.div_pos; lia).
  destruct (c <? 0x800); [|destruct (c <? 0x10000)]; cbn [nth]; lia.
Qed.

Lemma boundary_between : forall s i, utf8 s -> 0 <= i ->
  (boundary s i <-> exists cs ds, Forall scalar cs /\ Forall scalar ds /\
     s = List.concat (map utf8_char cs) ++ List.concat (map utf8_char ds) /\ i = Z.of_nat (List.length (List.concat (map utf8_char cs)))).
Proof.
  intros s i (zs&F&->) Hi. split.
  - revert i Hi. induction F as [|z zs Hz F IH]; intros i Hi B.
    + exists [], []. split; [constructor|]. split; [constructor|]. split; [reflexivity|]. unfold boundary in B. cbn in *. lia.
    + assert (Mz : modified_char (utf8_char z)) by (right; eauto).
      pose proof (char_length _ Mz) as Lz. set (x := utf8_char z) in *. set (rest := List.concat (map utf8_char zs)) in *.
      cbn [map List.concat] in B. fold x rest in B.
      destruct (Z.eq_dec i 0) as [->|Ni].
      { exists [], (z :: zs). split; [constructor|]. split; [constructor; assumption|]. split; reflexivity. }
      unfold boundary in B. rewrite app_length, Nat2Z.inj_add in B.
      destruct (Z_lt_dec i (Z.of_nat (List.length x))) as [Lt|Ge].
      { exfalso. destruct B as [B|[B|[_ B]]]; [lia|lia|]. apply B. rewrite app_nth1 by lia. apply tail_continuation; [exact Mz|lia]. }
      destruct (IH (i - Z.of_nat (List.length x)) ltac:(lia)) as (cs&ds&Fc&Fd&E&Ei).
      { unfold boundary. destruct B as [B|[B|[B1 B]]]; [lia|lia|]. right. right. split; [lia|].
        rewrite app_nth2 in B by lia. intros H. apply B.
        replace (Z.to_nat i - List.length x)%nat with (Z.to_nat (i - Z.of_nat (List.length x))) by lia. exact H. }
      exists (z :: cs), ds. split; [constructor; assumption|]. split; [exact Fd|]. cbn [map List.concat]. fold x rest. rewrite E, app_assoc.
      split; [reflexivity|]. rewrite app_length. lia.
  - intros (cs&ds&Fc&Fd&E&Ei). rewrite E. unfold boundary. rewrite app_length.
    destruct Fd as [|d ds Hd Fd]; [right; left; cbn; lia|].
    assert (Md : modified_char (utf8_char d)) by (right; eauto). pose proof (char_length _ Md) as Ld.
    right. right. cbn [map List.concat]. rewrite app_length. split; [lia|].
    rewrite app_nth2 by lia. replace (Z.to_nat i - _)%nat with O by lia. rewrite app_nth1 by lia. apply head_not_continuation. exact Hd.
Qed.
