(** * Ids along a history. *)

From Verif Require Import Tac RtAlloc RtErr SpecAbi LemAbi SpecSol RtPack SpecStor RtStor LemStor RtDyn SpecDyn LemDyn RtRouter SpecId RtFresh.
Ltac Zify.zify_post_hook ::= idtac.

Lemma id_preimage_inj : forall t n c t' n' c', 0 <= t < 2 ^ 64 -> 0 <= n < 2 ^ 64 -> 0 <= c < 2 ^ 32 ->
  0 <= t' < 2 ^ 64 -> 0 <= n' < 2 ^ 64 -> 0 <= c' < 2 ^ 32 -> id_preimage t n c = id_preimage t' n' c' -> t = t' /\ n = n' /\ c = c'.
Proof.
  intros t n c t' n' c' T N C T' N' C' E. unfold id_preimage in E.
  apply app_inj_length in E; [|rewrite !le_bytes_length; reflexivity]. destruct E as (E1&E).
  apply app_inj_length in E; [|rewrite !le_bytes_length; reflexivity]. destruct E as (E2&E3).
  apply le_bytes_inj in E1; [|assumption|assumption]. apply le_bytes_inj in E2; [|assumption|assumption]. apply le_bytes_inj in E3; [|assumption|assumption]. auto.
Qed.

Lemma counter_range : forall h k, 0 <= counter h k < 2 ^ 32.
Proof.
  intros. unfold counter. rewrite <- (load_be_store32 (fun _ => 0) 0). rewrite counter_load. apply (load_range 4).
Qed.

(** The preimage of the id generated as number [i]. *)
Definition pre_of (h : hostst) (k : Z) (i : nat) (b : Z * Z) : list Z :=
  id_preimage (fst b) (snd b) ((counter h k + Z.of_nat i + 1) mod 2 ^ 32).

Lemma history_ids : forall k w l w', 0 <= k < 2 ^ 256 -> id_history (fresh_id k) k w l w' ->
  wok w' /\ keccak (host w') = keccak (host w) /\ counter (host w') k = (counter (host w) k + Z.of_nat (List.length l)) mod 2 ^ 32 /\
  forall i b id, nth_error l i = Some (b, id) ->
    0 <= fst b < 2 ^ 64 /\ 0 <= snd b < 2 ^ 64 /\ id = hash (host w) (pre_of (host w) k i b).
Proof.
  intros k w l w' Hk H. induction H as [w Hw|w l w1 a w2 H (Hw1&Ek&Ec&Hi) R|w l w1 w2 H (Hw1&Ek&Ec&Hi) Hw2 E1 E2].
  - split; [exact Hw|]. split; [reflexivity|]. split; [cbn [List.length]; rewrite Z.add_0_r, Z.mod_small by apply counter_range; reflexivity|].
    intros [|i] b id E; discriminate E.
  - destruct (wpf_cases _ _ _ _ _ (fresh_id_spec k w1 Hw1 Hk)) as [(vs&w3&R'&a'&->&F)|(T&_)].
    2:{ exfalso. pose proof (evals_unique _ _ _ _ _ R T) as E; discriminate E. }
    destruct (returns_unique _ _ _ _ _ _ _ R R') as (E1&E2). injection E1 as <-. subst w3.
    destruct F as (F1&F2&F3&F4&F5&F6&F7&F8&F9&F10&F11).
    assert (Lc : forall x, ((counter (host w) k + x) mod 2 ^ 32 + 1) mod 2 ^ 32 = (counter (host w) k + x + 1) mod 2 ^ 32).
    { intros. rewrite Z.add_mod_idemp_l by lia. reflexivity. }
    split; [exact F1|]. split; [congruence|]. split.
    + rewrite F8, Ec, Lc, app_length. cbn [List.length]. f_equal. lia.
    + intros i b id E. destruct (Nat.lt_ge_cases i (List.length l)) as [C|C].
      * rewrite nth_error_app1 in E by exact C. exact (Hi i b id E).
      * rewrite nth_error_app2 in E by exact C. destruct (i - List.length l)%nat as [|x] eqn:Ex; [|destruct x; discriminate E].
        cbn [nth_error] in E. remember (block_of w1) as B eqn:EB. remember (load_be 32 (mem w2) a) as V eqn:EV. injection E as <- <-. subst B V. replace i with (List.length l) by lia.
        split; [apply Z.mod_pos_bound; lia|]. split; [apply Z.mod_pos_bound; lia|].
        rewrite F7. unfold hash. rewrite Ek. f_equal. f_equal. unfold next_preimage, pre_of. rewrite Ec, Lc. reflexivity.
  - split; [exact Hw2|]. split; [congruence|]. split; [|exact Hi].
    rewrite <- Ec. unfold counter. rewrite E2. reflexivity.
Qed.

Lemma fresh_ids : forall k w l w', 0 <= k < 2 ^ 256 -> id_history (fresh_id k) k w l w' ->
  exists pre : nat -> list Z, (forall i b id, nth_error l i = Some (b, id) -> id = hash (host w) (pre i)) /\
    (forall i j b b' id id', nth_error l i = Some (b, id) -> nth_error l j = Some (b', id') -> i <> j ->
       b <> b' \/ Z.abs (Z.of_nat i - Z.of_nat j) < 2 ^ 32 -> pre i <> pre j).
Proof.
  intros k w l w' Hk H. destruct (history_ids k w l w' Hk H) as (_&_&_&Hi).
  exists (fun i => match nth_error l i with Some (b, _) => pre_of (host w) k i b | None => [] end). split.
  - intros i b id E. rewrite E. apply Hi. exact E.
  - intros i j b b' id id' Ei Ej N D. rewrite Ei, Ej. intros E.
    destruct (Hi i b id Ei) as (B1&B2&_). destruct (Hi j b' id' Ej) as (B3&B4&_).
    apply id_preimage_inj in E; try assumption; try (apply Z.mod_pos_bound; lia). destruct E as (E1&E2&E3).
    destruct D as [D|D]; [destruct b, b'; cbn [fst snd] in *; congruence|].
    set (c := counter (host w) k) in *. clearbody c.
    assert (M : (Z.of_nat i - Z.of_nat j) mod 2 ^ 32 = 0).
    { replace (Z.of_nat i - Z.of_nat j) with ((c + Z.of_nat i + 1) - (c + Z.of_nat j + 1)) by lia.
      rewrite Zminus_mod, E3, Z.sub_diag. reflexivity. }
    apply Z.mod_divide in M; [|lia]. destruct M as (q&Eq). nia.
Qed.

(** A history of any length inside one block. *)
Lemma history_exists : forall k w n, wok w -> 0 <= k < 2 ^ 256 -> ~ oom w 116 ->
  exists l st, id_history (fresh_id k) k w l (set_host w (set_stor (host w) st)) /\ List.length l = n /\ Forall (fun x => fst x = block_of w) l.
Proof.
  intros k w n Hw Hk O. induction n as [|n (l&st&H&L&F)].
  - exists [], (stor (host w)). split; [|auto].
    eapply ih_other; [apply ih_start; exact Hw|exact Hw|reflexivity|reflexivity].
  - set (w1 := set_host w (set_stor (host w) st)) in *. assert (Hw1 : wok w1) by exact Hw.
    destruct (wpf_cases _ _ _ _ _ (fresh_id_spec k w1 Hw1 Hk)) as [(vs&w2&R&a&->&S)|(_&T)]; [|exfalso; exact (O T)].
    exists (l ++ [(block_of w1, load_be 32 (mem w2) a)]), (stor (host w2)). split.
    + eapply ih_other; [eapply ih_fresh; [exact H|exact R]|exact Hw| |reflexivity].
      destruct S as (_&S2&_). rewrite S2. reflexivity.
    + split; [rewrite app_length; cbn [List.length]; lia|]. apply Forall_app. split; [exact F|]. constructor; [reflexivity|constructor].
Qed.

Lemma fresh_wrap : forall k w, wok w -> 0 <= k < 2 ^ 256 -> ~ oom w 116 ->
  exists l w' b id i j, id_history (fresh_id k) k w l w' /\ i <> j /\ nth_error l i = Some (b, id) /\ nth_error l j = Some (b, id).
Proof.
  intros k w Hw Hk O. remember (Z.to_nat (2 ^ 32)) as n eqn:En. assert (Zn : Z.of_nat n = 2 ^ 32) by (subst n; apply Z2Nat.id; lia).
  clear En. destruct (history_exists k w (S n) Hw Hk O) as (l&st&H&L&F). set (w1 := set_host w (set_stor (host w) st)) in *.
  destruct (history_ids k w l w1 Hk H) as (_&_&_&Hi). rewrite Forall_forall in F.
  assert (G : forall i, (i < S n)%nat -> exists id, nth_error l i = Some (block_of w, id) /\ id = hash (host w) (pre_of (host w) k i (block_of w))).
  { intros i Li. destruct (nth_error l i) as [(b&id)|] eqn:E; [|apply nth_error_None in E; lia].
    assert (b = block_of w) by (apply (F (b, id)); eapply nth_error_In; exact E). subst b.
    exists id. split; [reflexivity|]. apply (Hi i _ _ E). }
  destruct (G 0%nat ltac:(lia)) as (x&Ex&Hx). destruct (G n ltac:(lia)) as (y&Ey&Hy).
  assert (E : x = y).
  { rewrite Hx, Hy. f_equal. unfold pre_of. f_equal. rewrite Zn. cbn [Z.of_nat]. rewrite Z.add_0_r.
    replace (counter (host w) k + 2 ^ 32 + 1) with (counter (host w) k + 1 + 1 * 2 ^ 32) by lia. rewrite Z.mod_add by lia. reflexivity. }
  rewrite <- E in Ey. exists l, w1, (block_of w), x, 0%nat, n. split; [exact H|]. split; [lia|]. auto.
Qed.

Lemma counter_changes : forall h h' k, counter h' k = (counter h k + 1) mod 2 ^ 32 -> stor h' k <> stor h k.
Proof.
  intros h h' k E F. assert (C : counter h' k = counter h k) by (unfold counter; rewrite F; reflexivity).
  pose proof (counter_range h k) as R. rewrite C in E. destruct (Z.eq_dec (counter h k) (2 ^ 32 - 1)) as [X|X].
  - rewrite X in E. discriminate E.
  - rewrite Z.mod_small in E by lia. lia.
Qed.
