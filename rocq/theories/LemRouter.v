(** * Lemmas about the entry point. *)

From Verif Require Import Tac RtAlloc RtErr RtInt RtInt2 RtEq RtMul RtDiv RtShift SpecInt Ops RtSwap RtAscii SpecAbi LemAbi RtAbort RtStor RtRouter SpecRouter.
Ltac Zify.zify_post_hook ::= idtac.

Lemma find_selected : forall c s f off, contract_ok c -> selector_ok s -> selected c s f off ->
  target c s = Some (f, off) /\ is_wrapper f.
Proof.
  intros c s f off (H1&_&H3&_) [Ls Bs] H. unfold target. destruct H as [l1 l2 f E N|f N E].
  - assert (F : find (fun e => le_value (fst e) =? le_value s) (c_funs c) = Some (s, f)).
    { rewrite E. assert (A : forall s0 f0, In (s0, f0) l1 -> selector_ok s0).
      { intros s0 f0 I0. apply (H1 s0 f0). rewrite E. apply in_or_app. left. exact I0. }
      clear E. induction l1 as [|[s0 f0] l1 IH]; cbn [app find].
      - cbn [fst]. rewrite Z.eqb_refl. reflexivity.
      - cbn [fst]. destruct (le_value s0 =? le_value s) eqn:E0.
        + exfalso. apply Z.eqb_eq in E0. destruct (A s0 f0 (or_introl eq_refl)) as [L0 B0].
          apply (N s0 f0 (or_introl eq_refl)). apply le_value_inj; auto. congruence.
        + apply IH; intros; [eapply N|eapply A]; right; eassumption. }
    rewrite F. cbn [snd]. split; [reflexivity|]. apply (H1 s f). rewrite E. apply in_or_app. right. left. reflexivity.
  - assert (F : find (fun e => le_value (fst e) =? le_value s) (c_funs c) = None).
    { clear E. revert H1 N. induction (c_funs c) as [|[s0 f0] l1 IH]; intros H1 N; [reflexivity|]. cbn [find fst].
      destruct (le_value s0 =? le_value s) eqn:E0.
      - exfalso. apply Z.eqb_eq in E0. destruct (H1 s0 f0 (or_introl eq_refl)) as [[L0 B0] _].
        apply (N s0 f0 (or_introl eq_refl)). apply le_value_inj; auto. congruence.
      - apply IH; intros; [eapply H1|eapply N]; right; eassumption. }
    rewrite F, E. split; [reflexivity|]. apply H3. exact E.
Qed.

Lemma find_none : forall c s, contract_ok c -> selector_ok s -> none_selected c s -> target c s = None.
Proof.
  intros c s (H1&_) [Ls Bs] [N E]. unfold target.
  assert (F : find (fun e => le_value (fst e) =? le_value s) (c_funs c) = None).
  { clear E. revert H1 N. induction (c_funs c) as [|[s0 f0] l1 IH]; intros H1 N; [reflexivity|]. cbn [find fst].
    destruct (le_value s0 =? le_value s) eqn:E0.
    - exfalso. apply Z.eqb_eq in E0. destruct (H1 s0 f0 (or_introl eq_refl)) as [[L0 B0] _].
      apply (N s0 f0 (or_introl eq_refl)). apply le_value_inj; auto. congruence.
    - apply IH; intros; [eapply H1|eapply N]; right; eassumption. }
  rewrite F, E. reflexivity.
Qed.

Lemma inb_in : forall w p n, in_memory w p n <-> inb w p n = true.
Proof. intros. unfold in_memory, inb, page_size. lia. Qed.

(** The commit step, given what the save function does. *)
Lemma commit_ok : forall c w w3 (Q : list Z -> world -> Prop) T, contract_ok c -> returns (c_save c) [] w [] w3 ->
  Q [0] (flushed w3) -> wpf (commit_changes c) [] w (resq (fun _ w' => Q [0] w') T).
Proof.
  intros c w w3 Q T (_&_&_&nl&b&E) R H. apply wpf_intro; [reflexivity|]. wc.
  eapply wp_call; [exact E|cbn [List.length]; lia|]. cbn [rev firstn app skipn]. eapply returns_wpf; [exact R|].
  cbn [app]. ws1. eapply wp_host; [cbn [hostcall]; reflexivity|]. ws1. exact H.
Qed.

Lemma commit_trap : forall c w (Q : list Z -> world -> Prop) (T : Prop), contract_ok c -> traps (c_save c) [] w ->
  T -> wpf (commit_changes c) [] w (resq (fun _ w' => Q [0] w') T).
Proof.
  intros c w Q T (_&_&_&nl&b&E) R H. apply wpf_intro; [reflexivity|]. wc.
  eapply wp_call; [exact E|cbn [List.length]; lia|]. cbn [rev firstn app skipn]. exists FTrap. split; [exact R|exact H].
Qed.

Lemma settle : forall c r res, contract_ok c -> answers c r res ->
  settles c (fun vs w' => res = FRet vs w') (res = FTrap) r.
Proof.
  intros c r res HC A. destruct A as [|vs w2 Hp Hf H4 H5 H6|len ptr w2 w3 Hp Hf I R|len ptr w2 Hp Hf I R|len ptr w2 Hp Hf N|vs w2 Hp Hf H4 H5 N]; cbn [settles].
  - reflexivity.
  - split; [exact Hp|]. split; [intros; congruence|]. intros _. apply inb_in in H4, H6. change (2 ^ 32) with 4294967296 in H5.
    split; [exact H4|]. split; [exact H5|]. split; [intros; congruence|]. intros _. reflexivity.
  - split; [exact Hp|]. split; [|intros; congruence]. intros _. exists len, ptr. split; [reflexivity|]. apply inb_in in I.
    split; [intros; congruence|]. intros _.
    eapply (commit_ok c _ w3 (fun vs w' => FRet [0] (flushed w3) = FRet vs w')); auto.
  - split; [exact Hp|]. split; [|intros; congruence]. intros _. exists len, ptr. split; [reflexivity|]. apply inb_in in I.
    split; [intros; congruence|]. intros _.
    eapply (commit_trap c _ (fun vs w' => FTrap = FRet vs w')); auto.
  - split; [exact Hp|]. split; [|intros; congruence]. intros _. exists len, ptr. split; [reflexivity|].
    split; [reflexivity|]. intros K. apply inb_in in K. contradiction.
  - split; [exact Hp|]. split; [intros; congruence|]. intros _. apply inb_in in H4. change (2 ^ 32) with 4294967296 in H5.
    split; [exact H4|]. split; [exact H5|]. split; [reflexivity|]. intros K. apply inb_in in K. contradiction.
Qed.

Lemma wpf_exact : forall f args w res, wpf f args w (resq (fun vs w' => res = FRet vs w') (res = FTrap)) -> evals f args w res.
Proof. intros f args w res [r [E H]]. destruct r; cbn [resq] in H; try tauto; subst res; exact E. Qed.

Lemma sel_ok : forall c w, contract_ok c -> fresh_call w -> selector_ok (sel_bytes c (h_args (host w))).
Proof.
  intros c w (_&H2&_) (_&_&HB&_). unfold sel_bytes. destruct (h_args (host w)) as [|a l] eqn:E.
  - destruct (c_receive c); [apply H2; reflexivity|]. split; [reflexivity|repeat constructor; lia].
  - rewrite <- E in *. split.
    + rewrite firstn_length, app_length, E. cbn [List.length]. lia.
    + apply Forall_forall. intros x Hx. assert (I : In x (h_args (host w) ++ [0; 0; 0])).
      { rewrite <- (firstn_skipn 4). apply in_or_app. left. exact Hx. }
      apply in_app_or in I. rewrite Forall_forall in HB. destruct I as [I|[<-|[<-|[<-|[]]]]]; [apply HB; exact I|lia..].
Qed.

(** The router as a whole. *)
Lemma route : forall c w, contract_ok c -> fresh_call w ->
  (h_args (host w) <> [] -> (List.length (h_args (host w)) < 4)%nat -> gnext w + 4 <= 65536 * pages w) ->
  let args := h_args (host w) in
  transaction c w FTrap /\ oom w (Z.of_nat (List.length (seen c args))) \/
  exists w1, begins w w1 (List.length args) (seen c args) /\
    (forall f off r res, selected c (sel_bytes c args) f off -> evals f [gnext w + off] w1 r -> answers c r res ->
       transaction c w res) /\
    (none_selected c (sel_bytes c args) ->
       transaction c w FTrap /\ oom w1 125 \/
       exists w', transaction c w (FRet [1] w') /\ host w' = set_result (host w) (error_string [49; 48; 48])).
Proof.
  intros c w HC HF Hshort args. pose proof (sel_ok c w HC HF) as HS. destruct HF as (Hw&Hf&HB&HL). change (2 ^ 31) with 2147483648 in HL.
  assert (HR : forall s, c_receive c = Some s -> byte_list s /\ List.length s = 4%nat).
  { intros s E. destruct HC as (_&H2&_). destruct (H2 s E). split; assumption. }
  destruct (router_run c w Hw HB HR Hshort HL) as [[T O]|(w1&L1&H1)]; [left; split; assumption|right].
  exists w1. unfold loaded in L1. fold args in L1, H1. destruct L1 as (B1&B2&B3&B4&B5&B6&B7&B8&B9&B10).
  split; [unfold begins; auto 12|]. split.
  - intros f off r res Hs Er Ha. apply wpf_exact. apply H1. unfold served.
    destruct (find_selected c _ f off HC HS Hs) as [E W]. fold args in E. rewrite E. split; [exact W|].
    exists r. split; [exact Er|]. apply settle; assumption.
  - intros Hn. pose proof Hw as (_&_&P3&_).
    assert (Fl : abort_flag w1 = 0).
    { rewrite <- Hf. apply load_ext. intros. apply B10; [lia|unfold within; lia]. }
    pose proof (H1 (fun vs w' => vs = [1] /\ host w' = set_result (host w) (error_string [49; 48; 48])) (oom w1 125)) as K.
    unfold served in K. pose proof (find_none c _ HC HS Hn) as N0. fold args in N0. rewrite N0 in K.
    destruct (wpf_cases _ _ _ _ _ (K (conj Fl (conj (fun o => o)
       (fun w2 _ _ => conj eq_refl (f_equal (fun h => set_result h (error_string [49; 48; 48])) B5))))))
      as [(vs&w'&R&->&E)|[R O]]; [right; exists w'; split; assumption|left; split; assumption].
Qed.

(** With a full selector. *)
Lemma seen_full : forall c s rest, selector_ok s ->
  seen c (s ++ rest) = s ++ rest /\ sel_bytes c (s ++ rest) = s.
Proof.
  intros c s rest [L _]. destruct s as [|a [|b [|d [|e [|]]]]]; try discriminate. split; reflexivity.
Qed.

Lemma dispatch : forall c w s rest, contract_ok c -> fresh_call w -> h_args (host w) = s ++ rest -> selector_ok s ->
  transaction c w FTrap /\ oom w (Z.of_nat (List.length (s ++ rest))) \/
  exists w1, begins w w1 (List.length (s ++ rest)) (s ++ rest) /\
    (forall f off r res, selected c s f off -> evals f [gnext w + off] w1 r -> answers c r res -> transaction c w res) /\
    (none_selected c s ->
       transaction c w FTrap /\ oom w1 125 \/
       exists w', transaction c w (FRet [1] w') /\ host w' = set_result (host w) (error_string [49; 48; 48])).
Proof.
  intros c w s rest HC HF E Hs. pose proof (route c w HC HF) as R. cbv zeta in R. rewrite E in R.
  destruct (seen_full c s rest Hs) as [E1 E2]. rewrite E1, E2 in R. apply R.
  intros _ K. exfalso. rewrite app_length in K. destruct Hs as [L _]. lia.
Qed.

Lemma dispatch_empty : forall c w, contract_ok c -> fresh_call w -> h_args (host w) = [] ->
  let s := match c_receive c with Some s => s | None => [0; 0; 0; 0] end in
  transaction c w FTrap /\ oom w (Z.of_nat (List.length s)) \/
  exists w1, begins w w1 0 s /\
    (forall f off r res, selected c s f off -> evals f [gnext w + off] w1 r -> answers c r res -> transaction c w res) /\
    (none_selected c s ->
       transaction c w FTrap /\ oom w1 125 \/
       exists w', transaction c w (FRet [1] w') /\ host w' = set_result (host w) (error_string [49; 48; 48])).
Proof.
  intros c w HC HF E s. pose proof (route c w HC HF) as R. cbv zeta in R. rewrite E in R. apply R. congruence.
Qed.

(** ** Atomicity *)

Lemma transaction_unique : forall c w r r', transaction c w r -> transaction c w r' -> r = r'.
Proof. intros. eapply evals_unique; eassumption. Qed.

Lemma answers_chain : forall c r res old, answers c r res ->
  (exists len ptr w2 w3, r = FRet [len; ptr] w2 /\ abort_flag w2 = 0 /\
     returns (c_save c) [] (with_result w2 ptr len) [] w3 /\
     (exists w', res = FRet [0] w' /\ h_result (host w') = h_result (host w3)) /\ chain_after old res = stor (host w3)) \/
  (forall w', res <> FRet [0] w') /\ chain_after old res = old.
Proof.
  intros c r res old A. destruct A; [right|right|left|right|right|right]; try (split; [discriminate|reflexivity]).
  exists len, ptr, w2, w3. repeat (split; [first [reflexivity|assumption]|]).
  split; [exists (flushed w3); split; reflexivity|]. reflexivity.
Qed.

Lemma commits : forall c w s rest, contract_ok c -> fresh_call w -> h_args (host w) = s ++ rest -> selector_ok s ->
  transaction c w FTrap /\ oom w (Z.of_nat (List.length (s ++ rest))) \/
  exists w1, begins w w1 (List.length (s ++ rest)) (s ++ rest) /\
    forall f off r res, selected c s f off -> evals f [gnext w + off] w1 r -> answers c r res ->
    transaction c w res /\ forall old,
      (exists len ptr w2 w3, r = FRet [len; ptr] w2 /\ abort_flag w2 = 0 /\
         returns (c_save c) [] (with_result w2 ptr len) [] w3 /\
         (exists w', res = FRet [0] w' /\ h_result (host w') = h_result (host w3)) /\ chain_after old res = stor (host w3)) \/
      (forall w', res <> FRet [0] w') /\ chain_after old res = old.
Proof.
  intros c w s rest HC HF E Hs. destruct (dispatch c w s rest HC HF E Hs) as [L|(w1&B&H&_)]; [left; exact L|right].
  exists w1. split; [exact B|]. intros f off r res S1 E1 A1. split; [eapply H; eassumption|]. intros old. apply (answers_chain c r res old A1).
Qed.

(** ** A function that executes [abort code] *)

(** The wrapper of a public function without parameters whose body is [abort code]. *)
Definition aborting (code : Z) : func := Func 1 0 2 [ Const code; Call abort_fn; Const 0 ].

Lemma aborting_run : forall w a code, wok w -> 0 <= code < 2 ^ 64 ->
  traps (aborting code) [a] w /\ oom w 125 \/
  exists vs w2 msg, returns (aborting code) [a] w vs w2 /\ is_decimal code msg /\ host w2 = host w /\
    1 <= pages w2 /\ abort_flag w2 <> 0 /\ in_memory w2 (abort_flag w2) 4 /\ abort_flag w2 + 4 < 2 ^ 32 /\
    in_memory w2 (abort_flag w2 + 4) (load 4 (mem w2) (abort_flag w2)) /\
    bytes (Z.to_nat (load 4 (mem w2) (abort_flag w2))) (mem w2) (abort_flag w2 + 4) = error_string msg.
Proof.
  intros w a code Hw Hc. change (2 ^ 64) with 18446744073709551616 in Hc.
  destruct (wpf_cases _ _ _ _ _ (abort_fn_spec w code Hw Hc)) as [(vs&w2&R&->&L&D&HL&Hw2&G&Hh&Lv&Gf&_&E1&E2)|[T O]].
  - right. exists [0; 1], w2, (digits L code). pose proof Hw as (_&_&P3&_). pose proof Hw2 as (Q1&Q2&Q3&Q4&Q5&Q6).
    unfold live in Lv.
    assert (EL : Z.of_nat (List.length (error_string (digits L code))) = 68 + Z.of_nat (L + pad32 L)).
    { unfold error_string, enc_bytes, padded, word. rewrite !app_length, !be_bytes_length, repeat_length, digits_length. cbn [List.length]. lia. }
    split.
    + apply wpf_exact. apply wpf_intro; [reflexivity|]. wc. ws1.
      eapply wp_call; [reflexivity|cbn [List.length]; lia|]. cbn [rev firstn app skipn].
      eapply returns_wpf; [exact R|]. cbn [app]. ws1. ws1. reflexivity.
    + split; [exact D|]. split; [exact Hh|]. split; [lia|]. split; [lia|].
      unfold in_memory. change (2 ^ 32) with 4294967296.
      split; [lia|]. split; [lia|]. split; [lia|]. rewrite E1, Nat2Z.id. exact E2.
  - left. split; [|exact O]. apply wpf_traps. apply wpf_intro; [reflexivity|]. wc. ws1.
    eapply wp_call; [reflexivity|cbn [List.length]; lia|]. cbn [rev firstn app skipn].
    exists FTrap. split; [exact T|exact Logic.I].
Qed.

Lemma abort_reverts : forall c w s rest code, contract_ok c -> fresh_call w -> h_args (host w) = s ++ rest -> selector_ok s ->
  0 <= code < 2 ^ 64 -> selected c s (aborting code) 4 ->
  transaction c w FTrap \/
  exists w' msg, transaction c w (FRet [1] w') /\ is_decimal code msg /\
    host w' = set_result (host w) (error_string msg).
Proof.
  intros c w s rest code HC HF E Hs Hc S1. destruct (dispatch c w s rest HC HF E Hs) as [[T _]|(w1&B&H&_)]; [left; exact T|].
  destruct B as (Hw1&Hh&_). destruct (aborting_run w1 (gnext w + 4) code Hw1 Hc) as [[T _]|(vs&w2&msg&R&D&Hh2&P&F&M1&M2&M3&M4)].
  - left. eapply H; [exact S1|exact T|constructor].
  - right. exists (with_result w2 (abort_flag w2 + 4) (load 4 (mem w2) (abort_flag w2))), msg.
    split; [eapply H; [exact S1|exact R|constructor; assumption]|]. split; [exact D|].
    unfold with_result. cbn [host set_host]. rewrite M4, Hh2, Hh. reflexivity.
Qed.

(** ** The constructor *)

Lemma later_calls : forall k init w, wok w -> 0 <= k < 2 ^ 256 -> stor (host w) k mod 2 ^ 256 <> 0 ->
  (exists w', returns (constructor k init) [] w [] w' /\ extends w w') \/ traps (constructor k init) [] w /\ oom w 64.
Proof.
  intros k init w Hw Hk Hs.
  destruct (wpf_cases _ _ _ _ _ (constructor_later k init w Hw Hk Hs)) as [(vs&w'&R&->&X)|[T O]];
    [left; exists w'; auto|right; auto].
Qed.

Lemma first_call : forall k init w w', wok w -> 0 <= k < 2 ^ 256 -> ordinary init ->
  stor (host w) k mod 2 ^ 256 = 0 -> returns (constructor k init) [] w [] w' ->
  exists w1 w2, extends w w1 /\ returns init [gnext w + 64] w1 [] w2 /\
    stor (host w') = upd (stor (host w2)) k (2 ^ 248) /\ committed (host w') = stor (host w').
Proof.
  intros k init w w' Hw Hk ((nl&b&E)&HK&HT) Hs R.
  assert (W : wpf (constructor k init) [] w (resq (fun _ w' => exists w1 w2, extends w w1 /\
    returns init [gnext w + 64] w1 [] w2 /\
    stor (host w') = upd (stor (host w2)) k (2 ^ 248) /\ committed (host w') = stor (host w')) True)).
  { eapply constructor_first; eauto. intros w1 X1 G1. pose proof X1 as (Hw1&_).
    destruct (HT (gnext w + 64) w1 Hw1) as (r&Er&Hr). exists r. split; [exact Er|].
    destruct r as [vs w2| | |]; [|exact Logic.I|tauto|destruct Er as (?&_&K); apply K; reflexivity].
    assert (vs = []) as ->.
    { destruct Er as (n&Er&_). rewrite E in Er. cbn [runf] in Er. cbn [List.length Nat.eqb negb] in Er.
      destruct (exec n b [] ([gnext w + 64] ++ repeat 0 nl) w1); try discriminate; injection Er as <- _; reflexivity. }
    split; [reflexivity|]. intros m Hm. exists w1, w2. cbn [host set_host stor committed set_committed set_stor].
    split; [exact X1|]. split; [exact Er|]. split; reflexivity. }
  destruct (wpf_cases _ _ _ _ _ W) as [(vs&w3&R3&H)|[T _]].
  - destruct (returns_unique _ _ _ _ _ _ _ R R3) as [_ <-]. exact H.
  - pose proof (evals_unique _ _ _ _ _ R T). discriminate.
Qed.

Lemma initialised_stays : forall k init s, 0 <= k < 2 ^ 256 -> ordinary init -> initialised k init s ->
  s k mod 2 ^ 256 <> 0.
Proof.
  intros k init s Hk HI H. induction H as [w w' Hw R|s w w' H IH Hw Es R|s s' H IH E].
  - destruct (Z.eq_dec (stor (host w) k mod 2 ^ 256) 0) as [E|E].
    + destruct (first_call k init w w' Hw Hk HI E R) as (w1&w2&_&_&->&_). unfold upd. rewrite Z.eqb_refl. discriminate.
    + destruct (later_calls k init w Hw Hk E) as [(w2&R2&X)|[T _]].
      * destruct (returns_unique _ _ _ _ _ _ _ R R2) as [_ <-]. destruct X as (_&_&_&_&_&->&_). exact E.
      * pose proof (evals_unique _ _ _ _ _ R T). discriminate.
  - subst s. destruct (later_calls k init w Hw Hk IH) as [(w2&R2&X)|[T _]].
    + destruct (returns_unique _ _ _ _ _ _ _ R R2) as [_ <-]. destruct X as (_&_&_&_&_&->&_). exact IH.
    + pose proof (evals_unique _ _ _ _ _ R T). discriminate.
  - congruence.
Qed.
