(** * Where an enum ends in storage: runtime/enums.rs. *)

From Verif Require Import Tac RtAlloc RtErr RtInt RtInt2 RtShift RtSwap Ops SpecAbi LemAbi SpecVal LemVal RtStor SpecLayout LemPos.
Ltac Zify.zify_post_hook ::= idtac.

(** ** Memory and frames *)

(** Storage, the memory in [M] and fresh memory may change, nothing else. *)
Definition grows (M : mset) (w w' : world) : Prop :=
  wok w' /\ maxpages w' = maxpages w /\ pages w <= pages w' /\ gnext w <= gnext w' /\
  gcd w' = gcd w /\ host w' = set_stor (host w) (stor (host w')) /\
  (forall a, 0 <= a < gnext w -> ~ M a -> rd (mem w') a = rd (mem w) a).

Lemma set_stor_same : forall h, set_stor h (stor h) = h.
Proof. intros []. reflexivity. Qed.

Lemma grows_refl : forall M w, wok w -> grows M w w.
Proof. intros. unfold grows. rewrite set_stor_same. repeat (split; [first [assumption|reflexivity|lia]|]). auto. Qed.

Lemma grows_trans : forall M a b c, grows M a b -> grows M b c -> grows M a c.
Proof.
  unfold grows. intros M a b c (A1&A2&A3&A4&A5&A6&A7) (B1&B2&B3&B4&B5&B6&B7).
  repeat (split; [first [assumption|congruence|lia]|]). split.
  - rewrite B6 at 1. rewrite A6 at 1. reflexivity.
  - intros x H1 H2. rewrite B7, A7; auto. lia.
Qed.

Lemma grows_mono : forall (M M' : mset) w w', grows M w w' -> (forall x, 0 <= x < gnext w -> M x -> M' x) -> grows M' w w'.
Proof. unfold grows. intros M M' w w' (A1&A2&A3&A4&A5&A6&A7) H. repeat (split; [assumption|]). auto. Qed.

Lemma grows_extends : forall M w w', extends w w' -> grows M w w'.
Proof.
  unfold grows, extends. intros M w w' (A1&A2&A3&A4&A5&A6&A7). rewrite A6, set_stor_same.
  repeat (split; [first [assumption|reflexivity]|]). auto.
Qed.

Lemma grows_frame : forall (M M' : mset) w w', wok w -> frame w w' M' -> sub M' M -> (forall a, M' a -> a < gnext w) -> grows M w w'.
Proof.
  intros M M' w w' Hw F S L. pose proof (wok_frame _ _ _ Hw F L) as Hw'. destruct F as (F1&F2&F3&F4&F5&F6&F7).
  unfold grows. rewrite F6, set_stor_same. repeat (split; [first [assumption|reflexivity|lia]|]). auto.
Qed.

(** A change of memory inside [M] alone. *)
Lemma grows_set_mem : forall (M : mset) w m, wok w -> (forall a, ~ M a -> rd m a = rd (mem w) a) -> (forall a, M a -> a < gnext w) ->
  grows M w (set_mem w m).
Proof. intros M w m Hw H L. eapply grows_frame; [exact Hw|apply frame_set_mem; exact H|unfold sub; auto|exact L]. Qed.

Lemma grows_stor : forall M w st, wok w -> grows M w (set_host w (set_stor (host w) st)).
Proof. intros M w st Hw. unfold grows. cbn. repeat (split; [first [exact Hw|reflexivity|lia]|]). auto. Qed.

Lemma load_grows : forall n (M : mset) w w' a, grows M w w' -> 0 <= a -> a + Z.of_nat n <= gnext w ->
  (forall x, a <= x < a + Z.of_nat n -> ~ M x) -> load n (mem w') a = load n (mem w) a.
Proof. intros n M w w' a (_&_&_&_&_&_&G) H1 H2 H3. apply load_ext. intros. apply G; [lia|apply H3; lia]. Qed.
Lemma load_be_grows : forall n (M : mset) w w' a, grows M w w' -> 0 <= a -> a + Z.of_nat n <= gnext w ->
  (forall x, a <= x < a + Z.of_nat n -> ~ M x) -> load_be n (mem w') a = load_be n (mem w) a.
Proof. intros n M w w' a (_&_&_&_&_&_&G) H1 H2 H3. apply load_be_ext. intros. apply G; [lia|apply H3; lia]. Qed.

(** ** Programs *)

(** intermediate_types/enums.rs 329-343 [storage_size_by_offset]. *)
Definition storage_size_by_offset (vts : list (list ty)) : list Z :=
  map (fun o => enum_storage_size vts (Z.of_nat o)) (seq 0 32).

(** runtime/enums.rs 43-56: the sizes from index [i] on go into the table. *)
Definition A_ENUM_SIZES : Z := 260.
Fixpoint store_sizes (sizes : list Z) (i : Z) : list instr :=
  match sizes with
  | [] => []
  | n :: r => [ Const A_ENUM_SIZES; Const n; Store 4 (4 * i) ] ++ store_sizes r (i + 1)
  end.

(** runtime/enums.rs 21-77 [get_storage_size_by_offset].  Local 0: slot_offset. *)
Definition get_storage_size_by_offset (vts : list (list ty)) : func := Func 1 0 1
 (store_sizes (storage_size_by_offset vts) 0 ++
  [ Const A_ENUM_SIZES; LocalGet 0; Const 32; Bin I32 RemU; Const 4; Bin I32 Mul; Bin I32 Wasm.Add; Load 4 0 ]).

(** runtime/enums.rs 92-248 [compute_enum_storage_tail_position].  Locals: 0 head_slot_ptr,
    1 head_slot_offset, 2 enum_size, 3 tail_slot_offset, 4 tail_slot_ptr, 5 free_bytes, 6 delta_slot_ptr. *)
Definition enum_tail (ep : errtab) (vts : list (list ty)) : func := Func 2 5 1
 [ LocalGet 1; Call (get_storage_size_by_offset vts); LocalSet 2;
   Const 36; Call alloc; LocalTee 4;
   LocalGet 0; Const 32; MemCopy;
   Const 32; LocalGet 1; Bin I32 Wasm.Sub; LocalSet 5;
   LocalGet 2; LocalGet 5; Bin I32 GeU;
   If 0
     [ Const 32; Call alloc; LocalTee 6;
       LocalGet 2; LocalGet 5; Bin I32 Wasm.Sub; Const 32; Bin I32 DivS; Const 1; Bin I32 Wasm.Add;
       Store 4 0;
       LocalGet 4; LocalGet 4; Call swap_i256_bytes;
       LocalGet 6; LocalGet 4; LocalGet 4; Const 32; Call (heap_integers_add ep); LocalSet 4;
       LocalGet 4; LocalGet 4; Call swap_i256_bytes;
       LocalGet 2; LocalGet 5; Bin I32 Wasm.Sub; Const 32; Bin I32 RemS; LocalSet 3 ]
     [ LocalGet 1; LocalGet 2; Bin I32 Wasm.Add; LocalSet 3 ];
   LocalGet 4; LocalGet 3; Store 4 32;
   LocalGet 4 ].

(** ** Specifications *)

Definition table : mset := within 260 128.

Lemma store_sizes_wp : forall l i r (Q : outcome -> Prop) s lc w, wok w -> 0 <= i -> i + Z.of_nat (List.length l) <= 32 ->
  Forall (fun n => 0 <= n < 2 ^ 31) l ->
  (forall m, (forall x, ~ within (260 + 4 * i) (4 * Z.of_nat (List.length l)) x -> rd m x = rd (mem w) x) ->
     (forall j n, nth_error l j = Some n -> load 4 m (260 + 4 * (i + Z.of_nat j)) = n) -> wp r Q s lc (set_mem w m)) ->
  wp (store_sizes l i ++ r) Q s lc w.
Proof.
  induction l as [|n l IH]; intros i r Q s lc w Hw Hi Hl Fl K; cbn [store_sizes app].
  - replace w with (set_mem w (mem w)) by (destruct w; reflexivity). apply K; [auto|]. intros [|j] n E; discriminate.
  - inversion Fl as [|? ? Hn Fl']; subst. cbn [List.length] in Hl, K. pose proof Hw as (P1&P2&P3&P4&P5&P6).
    unfold A_ENUM_SIZES. ws1. ws1. apply wp_store; [lia|unfold page_size; lia|]. change (Z.of_nat 4) with 4. set (w1 := set_mem w _).
    assert (F1 : forall x, ~ within (260 + 4 * i) 4 x -> rd (mem w1) x = rd (mem w) x).
    { intros x Hx. cbn [w1 mem set_mem]. apply rd_store_out. unfold within in Hx. lia. }
    assert (Hw1 : wok w1) by (apply wok_set_mem; [exact Hw|]; intros; apply F1; unfold within; lia).
    apply IH; [exact Hw1|lia|lia|exact Fl'|]. intros m Hm Hj. change (set_mem w1 m) with (set_mem w m). apply K.
    + intros x Hx. rewrite Hm, F1; [reflexivity| |]; unfold within in *; lia.
    + intros [|j] n' E; cbn [nth_error] in E.
      * injection E as <-. rewrite Z.add_0_r. transitivity (load 4 (mem w1) (260 + 4 * i)).
        -- apply load_ext. intros k Hk. apply Hm. unfold within. lia.
        -- cbn [w1 mem set_mem]. rewrite (load_store_same 4). apply Z.mod_small. change (256 ^ Z.of_nat 4) with (2 ^ 32). lia.
      * rewrite <- (Hj j n' E). f_equal. lia.
Qed.

Lemma storage_size_spec : forall vts w off, storable (TEnum vts) = true -> wok w -> 0 <= off <= 32 ->
  wpf (get_storage_size_by_offset vts) [off] w (resq (fun vs w' => vs = [enum_storage_size vts (off mod 32)] /\
    exists m, w' = set_mem w m /\ (forall x, ~ table x -> rd m x = rd (mem w) x)) False).
Proof.
  intros vts w off St Hw Ho. pose proof Hw as (P1&P2&P3&P4&P5&P6). apply wpf_intro; [reflexivity|]. wc. unfold get_storage_size_by_offset.
  assert (Le : List.length (storage_size_by_offset vts) = 32%nat) by (unfold storage_size_by_offset; rewrite map_length, seq_length; reflexivity).
  apply store_sizes_wp; [exact Hw|lia|rewrite Le; lia| |].
  { apply Forall_forall. intros n Hn. apply in_map_iff in Hn. destruct Hn as (o&<-&Ho'). apply in_seq in Ho'.
    pose proof (enum_storage_size_bound vts (Z.of_nat o) St). lia. }
  rewrite Le. change (4 * Z.of_nat 32) with 128. change (260 + 4 * 0) with 260. intros m Hm Hj. unfold A_ENUM_SIZES.
  ws1. ws1. ws1. eapply wp_bin; [cbn [binop]; reflexivity|]. pose proof (Z.mod_pos_bound off 32 ltac:(lia)) as Mb. set (c := off mod 32) in *. clearbody c.
  ws1. ws1. ws1. apply wp_load; [lia|unfold page_size; cbn [pages set_mem]; lia|]. ws1. split.
  - f_equal. cbn [mem set_mem]. rewrite Z.add_0_r. specialize (Hj (Z.to_nat c) (enum_storage_size vts c)).
    rewrite Z2Nat.id, Z.add_0_l, (Z.mul_comm 4) in Hj by lia. apply Hj. unfold storage_size_by_offset.
    transitivity (Some (enum_storage_size vts (Z.of_nat (Z.to_nat c)))); [|f_equal; f_equal; lia].
    assert (E : nth_error (seq 0 32) (Z.to_nat c) = Some (Z.to_nat c)) by (rewrite (nth_error_nth' _ 0%nat) by (rewrite seq_length; lia); rewrite seq_nth by lia; reflexivity).
    exact (map_nth_error _ _ _ E).
  - exists m. split; [reflexivity|]. exact Hm.
Qed.

(** The tail position is where the enum's room ends. *)
Lemma enum_tail_any : forall ep vts w p off, storable (TEnum vts) = true -> wok w -> errtab_ok ep -> p = 128 \/ 468 <= p -> p + 32 <= gnext w ->
  0 <= off <= 32 -> let T := after (TEnum vts) (load_be 32 (mem w) p, off) in fst T < 2 ^ 256 ->
  wpf (enum_tail ep vts) [p; off] w (resq (fun vs w' => vs = [gnext w] /\ grows table w w' /\ gnext w + 36 <= gnext w' <= gnext w + 68 /\
    host w' = host w /\ load_be 32 (mem w') (gnext w) = fst T /\ load 4 (mem w') (gnext w + 32) = snd T) (oom w 68)).
Proof.
  intros ep vts w p off St Hw He Hp Hp2 Ho T HT. pose proof Hw as (P1&P2&P3&P4&P5&P6).
  set (k := load_be 32 (mem w) p) in *. assert (Rk : 0 <= k < 2 ^ 256) by exact (load_be_range 32 (mem w) p).
  assert (Gp : good (k, off)) by (unfold good; cbn; lia).
  pose proof (Z.mod_pos_bound off 32 ltac:(lia)) as Mb.
  assert (Em : (off mod 32) mod 32 = lin (k, off) mod 32).
  { rewrite Z.mod_mod by lia. unfold lin. cbn [fst snd]. replace (32 * k + off) with (off + k * 32) by lia. rewrite Z_mod_plus_full. reflexivity. }
  pose proof (enum_storage_size_ok vts (k, off) (off mod 32) St Gp ltac:(lia) Em) as En. fold T in En.
  pose proof (enum_storage_size_bound vts (off mod 32) St Mb) as Bn. set (n := enum_storage_size vts (off mod 32)) in *.
  assert (El : lin T = 32 * k + off + n) by (rewrite En; unfold lin at 3; cbn [fst snd]; lia). clear En.
  assert (TT : T = at_byte (32 * k + off + n)).
  { rewrite <- El. unfold T. cbn [after]. rewrite lin_at_byte. reflexivity. }
  clear El. clearbody T. subst T. unfold at_byte in HT |- *. cbn [fst snd] in HT |- *.
  apply wpf_intro; [reflexivity|]. wc. ws1.
  eapply wp_call_spec; [reflexivity|cbn [List.length]; lia|wc; exact (storage_size_spec vts w off St Hw Ho)|intros []|].
  intros r0 w1 (->&m1&->&Fm1). fold n. clearbody n. wc. set (w1 := set_mem w m1).
  assert (G1 : grows table w w1).
  { apply grows_set_mem; [exact Hw|exact Fm1|]. intros a Ha. unfold table, within in Ha. lia. }
  assert (Hw1 : wok w1) by apply G1. ws1. ws1.
  wcall alloc_spec; [exact Hw1|lia|unfold oom; cbn [w1 gnext maxpages set_mem]; lia|].
  intros r1 w2 (->&Al). pose proof (alloc_extends w1 w2 36 Hw1 Al ltac:(lia)) as Ex. pose proof Al as (Hw2&Em2&Mx2&Pg2&Gn2&_&Hh2).
  change (gnext w1) with (gnext w) in *. change (maxpages w1) with (maxpages w) in *. change (host w1) with (host w) in *. change (mem w1) with m1 in *.
  set (e := gnext w) in *. pose proof (grows_trans _ _ _ _ G1 (grows_extends table _ _ Ex)) as G2. pose proof Hw2 as (Q1&Q2&Q3&Q4&Q5&Q6).
  wc. ws1. ws1. ws1. apply wp_mcopy; [lia|unfold page_size; lia|lia|unfold page_size; lia|]. wc. set (w3 := set_mem w2 _).
  assert (F3 : forall x, ~ within e 32 x -> rd (mem w3) x = rd (mem w2) x).
  { intros x Hx. cbn [w3 mem set_mem]. apply rd_mcopy_out. unfold within in Hx. lia. }
  assert (V3 : load_be 32 (mem w3) e = k).
  { unfold k. apply load_be_ext. intros i Hi. cbn [w3 mem set_mem]. rewrite rd_mcopy_in by lia. rewrite Em2, Fm1 by (unfold table, within; lia). f_equal. lia. }
  assert (Hw3 : wok w3) by (apply wok_set_mem; [exact Hw2|]; intros; apply F3; unfold within; lia).
  assert (G3 : grows table w w3).
  { destruct G2 as (A1&A2&A3&A4&A5&A6&A7). split; [exact Hw3|]. repeat (split; [assumption|]). intros a Ha Na. rewrite F3 by (unfold within; fold e in Ha; lia). apply A7; assumption. }
  assert (Gn3 : gnext w3 = e + 36) by exact Gn2. assert (Mx3 : maxpages w3 = maxpages w) by exact Mx2. assert (Pg3 : pages w3 = pages w2) by reflexivity.
  assert (Hh3 : host w3 = host w) by exact Hh2.
  ws1. ws1. ws1. ws1. ws1. ws1. ws1. apply wp_if; intros C; unb C.
  - set (d := n - (32 - off)) in *. assert (Hd : 0 <= d < 2 ^ 31) by (unfold d; lia). assert (Ed : 32 * k + off + n = 32 * (k + 1) + d) by (unfold d; lia).
    assert (Eq1 : (32 * k + off + n) / 32 = k + 1 + d / 32) by (rewrite Ed, (Z.mul_comm 32), Z.div_add_l by lia; reflexivity).
    assert (Eq2 : (32 * k + off + n) mod 32 = d mod 32) by (rewrite Ed, (Z.mul_comm 32), Z.add_comm, Z_mod_plus_full; reflexivity).
    rewrite Eq1 in HT. rewrite Eq1, Eq2. clear Eq1 Eq2 Ed.
    pose proof (Z.div_mod d 32 ltac:(lia)) as Dm. pose proof (Z.mod_pos_bound d 32 ltac:(lia)) as Dr. 
    ws1. wcall alloc_spec; [exact Hw3|lia|unfold oom; rewrite Gn3, Mx3; lia|].
    intros r2 w4 (->&Al4). pose proof (alloc_extends w3 w4 32 Hw3 Al4 ltac:(lia)) as Ex4. pose proof Al4 as (Hw4&Em4&Mx4&Pg4&Gn4&_&Hh4).
    rewrite Gn3 in Gn4 |- *. pose proof (grows_trans _ _ _ _ G3 (grows_extends table _ _ Ex4)) as G4. pose proof Hw4 as (R1&R2&R3&R4&R5&R6).
    wc. ws1. ws1. ws1. ws1. ws1.
    assert (Eqt : Z.quot d 32 = d / 32) by (apply Z.quot_div_nonneg; lia). assert (Ert : Z.rem d 32 = d mod 32) by (apply Z.rem_mod_nonneg; lia).
    eapply wp_bin. { cbn [binop]. rewrite !sgn32_pos by lia. fold d. cbn [Z.eqb bits]. replace (d =? - 2 ^ (32 - 1)) with false by lia. cbn [andb wrapt]. rewrite Eqt. reflexivity. }
    rewrite w32_small by lia. ws1. ws1. apply wp_store; [lia|unfold page_size; lia|]. rewrite Z.add_0_r. change (Z.of_nat 4) with 4. set (w5 := set_mem w4 _).
    assert (F5 : forall x, ~ within (e + 36) 4 x -> rd (mem w5) x = rd (mem w4) x).
    { intros x Hx. cbn [w5 mem set_mem]. apply rd_store_out. unfold within in Hx. lia. }
    assert (Hw5 : wok w5) by (apply wok_set_mem; [exact Hw4|]; intros; apply F5; unfold within; lia).
    assert (V5 : load 32 (mem w5) (e + 36) = d / 32 + 1).
    { change 32%nat with (4 + 28)%nat. rewrite load_split. rewrite (load_zero 28).
      - cbn [w5 mem set_mem]. rewrite (load_store_same 4). rewrite Z.mod_small by (change (256 ^ Z.of_nat 4) with (2 ^ 32); lia). lia.
      - intros x Hx. rewrite F5 by (unfold within; lia). rewrite Em4. change (mem w3) with (mem w3). rewrite (proj2 (proj2 (proj2 (proj2 (proj2 Hw3))))); [reflexivity|lia]. }
    assert (V5' : load_be 32 (mem w5) e = k).
    { rewrite <- V3, <- Em4. apply load_be_ext. intros. apply F5. unfold within. lia. }
    ws1. ws1. destruct (swap_bytes_values 4 w5 e e Hw5) as (m6&R6'&F6&_&V6); try (unfold live; cbn [w5 gnext set_mem]; lia).
    change (8 * 4)%nat with 32%nat in *. change (8 * Z.of_nat 4) with 32 in *. rewrite V5' in V6.
    eapply wp_call; [reflexivity|cbn [List.length]; lia|]. wc. eapply returns_wpf; [exact R6'|]. wc. set (w6 := set_mem w5 m6).
    assert (Hw6 : wok w6) by (apply wok_set_mem; [exact Hw5|]; intros; apply F6; unfold within; cbn [w5 gnext set_mem] in *; lia).
    ws1. ws1. ws1. ws1.
    eapply wp_call_spec; [reflexivity|cbn [List.length]; lia|wc; refine (heap_add_spec 4 ep w6 (e + 36) e e Hw6 He _ _ _ _ _ _); try (unfold live; cbn [w6 w5 gnext set_mem]; lia); unfold same_or_apart; lia|intros []|].
    change (8 * 4)%nat with 32%nat. change (Z.of_nat 32) with 32. change (mem w6) with m6. rewrite V6.
    replace (load 32 m6 (e + 36)) with (d / 32 + 1) by (rewrite <- V5; symmetry; apply load_ext; intros; apply F6; unfold within; lia).
    intros r3 w8 (w7&F7&[(_&->&->&V7)|(Bad&_)]); [|exfalso; change (256 ^ 32) with (2 ^ 256) in Bad; lia]. wc.
    assert (Hw7 : wok w7) by (eapply wok_frame; [exact Hw6|exact F7|]; unfold within; cbn [w6 w5 gnext set_mem]; lia).
    assert (Gn7 : gnext w7 = e + 36 + 32) by (rewrite (proj1 (proj2 (proj2 F7))); exact Gn4).
    ws1. ws1. ws1. destruct (swap_bytes_values 4 w7 e e Hw7) as (m8&R8&F8&V8&_); try (unfold live; lia).
    change (8 * 4)%nat with 32%nat in *. change (8 * Z.of_nat 4) with 32 in *. rewrite V7 in V8.
    eapply wp_call; [reflexivity|cbn [List.length]; lia|]. wc. eapply returns_wpf; [exact R8|]. wc. set (w8 := set_mem w7 m8).
    ws1. ws1. ws1. fold d. ws1. eapply wp_bin. { cbn [binop]. rewrite !sgn32_pos by lia. cbn [Z.eqb wrapt]. rewrite Ert. reflexivity. }
    rewrite w32_small by lia. ws1. ws1. ws1. ws1. pose proof F7 as (F71&F72&F73&F74&F75&F76&F77).
    apply wp_store; [lia|unfold page_size; cbn [w8 pages set_mem]; rewrite F72; cbn [w6 w5 pages set_mem]; lia|]. change (Z.of_nat 4) with 4.
    ws1. ws1. set (w9 := set_mem w8 _).
    assert (F9 : forall x, ~ within e 68 x -> rd (mem w9) x = rd (mem w4) x).
    { intros x Hx. unfold within in Hx. cbn [w9 mem set_mem]. rewrite rd_store_out by lia. cbn [w8 mem set_mem]. rewrite F8 by (unfold within; lia).
      rewrite F77 by (unfold within; lia). cbn [w6 mem set_mem]. rewrite F6 by (unfold within; lia). apply F5. unfold within. lia. }
    split; [reflexivity|]. split.
    { destruct G4 as (A1&A2&A3&A4&A5&A6&A7). split.
      - eapply (wok_frame w4 w9 (within e 68)); [exact Hw4| |unfold within; lia].
        repeat (split; [first [assumption|exact F71|exact F72|exact F73|exact F74|exact F75|exact F76]|]). exact F9.
      - split; [transitivity (maxpages w4); [exact F71|exact A2]|]. split; [cbn [w9 w8 pages set_mem]; rewrite F72; exact A3|]. split; [cbn [w9 w8 gnext set_mem]; rewrite F73; exact A4|].
        split; [transitivity (gcd w4); [exact F75|exact A5]|]. split.
        + assert (Eh : host w9 = host w4) by exact F76. rewrite Eh. exact A6.
        + intros a Ha Na. rewrite F9 by (unfold within; lia). apply A7; assumption. }
    split; [cbn [w9 w8 gnext set_mem]; lia|]. split; [transitivity (host w4); [exact F76|]; rewrite Hh4; exact Hh3|].
    split.
    + transitivity (load_be 32 m8 e); [apply load_be_ext; intros; cbn [w9 mem set_mem]; apply rd_store_out; lia|]. rewrite V8. lia.
    + cbn [w9 mem set_mem]. rewrite (load_store_same 4). apply Z.mod_small. change (256 ^ Z.of_nat 4) with (2 ^ 32). lia.
  - assert (Es : (32 * k + off + n) / 32 = k /\ (32 * k + off + n) mod 32 = off + n).
    { replace (32 * k + off + n) with ((off + n) + k * 32) by lia. rewrite Z.div_add, Z_mod_plus_full, Z.div_small, Z.mod_small by lia. lia. }
    destruct Es as (->&->). ws1. ws1. ws1. ws1. ws1. ws1. ws1. apply wp_store; [lia|unfold page_size; lia|]. change (Z.of_nat 4) with 4. ws1. ws1.
    split; [reflexivity|]. set (w4 := set_mem w3 _).
    assert (F4 : forall x, ~ within (e + 32) 4 x -> rd (mem w4) x = rd (mem w3) x).
    { intros x Hx. cbn [w4 mem set_mem]. apply rd_store_out. unfold within in Hx. lia. }
    split.
    { destruct G3 as (A1&A2&A3&A4&A5&A6&A7). split; [apply wok_set_mem; [exact Hw3|]; intros; apply F4; unfold within; lia|]. repeat (split; [assumption|]).
      intros a Ha Na. rewrite F4 by (unfold within; lia). apply A7; assumption. }
    split; [cbn [w4 gnext set_mem]; lia|]. split; [exact Hh3|]. split.
    + rewrite <- V3. apply load_be_ext. intros. apply F4. unfold within. lia.
    + cbn [w4 mem set_mem]. rewrite (load_store_same 4). apply Z.mod_small. change (256 ^ Z.of_nat 4) with (2 ^ 32). lia.
Qed.
Lemma enum_tail_spec : forall ep vts w p off, storable (TEnum vts) = true -> wok w -> errtab_ok ep -> 468 <= p -> p + 32 <= gnext w ->
  0 <= off <= 32 -> let T := after (TEnum vts) (load_be 32 (mem w) p, off) in fst T < 2 ^ 256 ->
  wpf (enum_tail ep vts) [p; off] w (resq (fun vs w' => vs = [gnext w] /\ grows table w w' /\ gnext w + 36 <= gnext w' <= gnext w + 68 /\
    host w' = host w /\ load_be 32 (mem w') (gnext w) = fst T /\ load 4 (mem w') (gnext w + 32) = snd T) (oom w 68)).
Proof. intros. apply enum_tail_any; auto. Qed.
