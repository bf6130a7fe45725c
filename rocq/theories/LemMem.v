(** * Lemmas behind PropsMem.v. *)

From Verif Require Import Spec Tac RtAlloc RtErr RtInt RtInt2 RtEq.

Lemma alloc_safe : forall w n, heap_ok w -> 0 <= n < 2147483648 ->
  (exists p w', returns alloc [n] w [p] w' /\ heap_ok w' /\ mem w' = mem w /\
     p = gnext w /\ gnext w' = p + n /\ p + n <= 65536 * pages w') \/
  (traps alloc [n] w /\ 65536 * maxpages w < gnext w + n + 65536).
Proof.
  intros w n H Hn. destruct (wpf_cases _ _ _ _ _ (alloc_spec0 w n H Hn)) as [(vs&w'&R&->&H1&H2&H3&H4&H5&H6&H7)|[T O]].
  - left. exists (gnext w), w'. repeat (split; [assumption || reflexivity|]). unfold heap_ok in *. lia.
  - right. auto.
Qed.

Lemma alloc_history_inv : forall w bl w', heap_ok w -> alloc_history w bl w' ->
  heap_ok w' /\ gnext w <= gnext w' /\
  Forall (fun b => gnext w <= fst b /\ fst b + snd b <= gnext w') bl /\ ForallOrdPairs disjoint bl.
Proof.
  intros w bl w' Hw H. induction H.
  - repeat split; auto; try apply Hw; try lia; constructor.
  - destruct IHalloc_history as (I1&I2&I3&I4). repeat split; auto; apply I1.
  - destruct IHalloc_history as (I1&I2&I3&I4).
    destruct (alloc_safe w' n I1 H0) as [(p'&w2&R&K1&K2&K3&K4&K5)|[T _]].
    2:{ pose proof (evals_unique _ _ _ _ _ H1 T). discriminate. }
    destruct (returns_unique _ _ _ _ _ _ _ H1 R) as [E ->]. injection E as ->. subst p'.
    split; [assumption|]. split; [lia|]. split.
    + constructor; [cbn; lia|]. eapply Forall_impl; [|exact I3]. cbn. intros. lia.
    + constructor; [|exact I4]. eapply Forall_impl; [|exact I3]. unfold disjoint; cbn. intros. lia.
Qed.

Lemma alloc_history_safe : forall w bl w',
  heap_ok w -> alloc_history w bl w' ->
  Forall (fun b => 468 <= gnext w <= fst b /\ fst b + snd b <= 65536 * pages w') bl /\
  ForallOrdPairs disjoint bl /\
  (forall n, 0 <= n < 2147483648 ->
     (exists p w'', returns alloc [n] w' [p] w'' /\ mem w'' = mem w' /\
        p + n <= 65536 * pages w'' /\ Forall (disjoint (p, n)) bl) \/
     (traps alloc [n] w' /\ 65536 * maxpages w' < gnext w' + n + 65536)).
Proof.
  intros w bl w' Hw H. destruct (alloc_history_inv w bl w' Hw H) as (I1&I2&I3&I4).
  split; [|split; [exact I4|]].
  - eapply Forall_impl; [|exact I3]. unfold heap_ok in *. cbn [fst snd]. intros. lia.
  - intros n Hn. destruct (alloc_safe w' n I1 Hn) as [(p'&w2&R&K1&K2&K3&K4&K5)|T]; [left|right; exact T].
    exists p', w2. repeat (split; [assumption|]).
    eapply Forall_impl; [|exact I3]. unfold disjoint; cbn. intros. lia.
Qed.

Lemma huge_alloc_refuted : exists w n p w1 q w2,
  heap_ok w /\ 0 <= n < 4294967296 /\
  returns alloc [n] w [p] w1 /\ 65536 * maxpages w1 < p + n /\
  returns alloc [8] w1 [q] w2 /\ ~ disjoint (p, n) (q, 8).
Proof.
  exists w0, 4294967295, 600.
  destruct (runs_to_vals 50 alloc [4294967295] w0 [600]
    (fun w1 => (65536 * maxpages w1 <? 600 + 4294967295) &&
               runs_to 50 alloc [8] w1 (fun r _ => zs_eqb r [599] && true))) as (w1&R&H); [vm_compute; reflexivity|].
  apply andb_prop in H. destruct H as [H1 H2]. apply runs_to_vals in H2. destruct H2 as (w2&R2&_).
  exists w1, 599, w2. split; [apply wok_heap_ok, w0_ok|]. split; [lia|]. split; [exact R|].
  split; [apply Z.ltb_lt; exact H1|]. split; [exact R2|]. unfold disjoint; cbn. lia.
Qed.

Lemma a_equals_b_bytes : forall n w a b, wok w ->
  live w a (Z.of_nat n) -> live w b (Z.of_nat n) ->
  exists r, returns a_equals_b [a; b; Z.of_nat n] w [r] w /\
    (r = 1 \/ r = 0) /\ (r = 1 <-> bytes n (mem w) a = bytes n (mem w) b).
Proof.
  intros. eexists. split; [apply a_equals_b_spec; assumption|].
  rewrite load_bytes_eq. destruct (_ =? _) eqn:E; cbn; lia.
Qed.

Lemma is_zero_bytes : forall N w p, wok w -> live w p (Z.of_nat (4 * N)) ->
  exists r, returns is_zero [p; Z.of_nat (4 * N)] w [r] w /\
    (r = 1 \/ r = 0) /\ (r = 1 <-> forall i, 0 <= i < Z.of_nat (4 * N) -> rd (mem w) (p + i) = 0).
Proof.
  intros. eexists. split; [apply is_zero_spec; assumption|].
  assert (K : load (4 * N) (mem w) p = 0 <-> forall i, 0 <= i < Z.of_nat (4 * N) -> rd (mem w) (p + i) = 0).
  { split; intros.
    - rewrite (load_byte (4 * N)) by lia. rewrite H1. rewrite Z.div_0_l by (pose proof (pow256_pos i); lia). reflexivity.
    - rewrite (load_of_digits (4 * N) (mem w) p 0).
      + apply Z.mod_0_l. pose proof (pow256_pos (Z.of_nat (4 * N))). lia.
      + intros. rewrite Z.div_0_l by (pose proof (pow256_pos i); lia). auto. }
  rewrite <- K. destruct (_ =? _) eqn:E; cbn [b2z]; lia.
Qed.
