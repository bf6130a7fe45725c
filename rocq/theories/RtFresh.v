(** * Ids of new objects (native_functions/object.rs). *)

From Verif Require Import Tac RtAlloc RtErr RtInt RtInt2 RtEq RtMul RtDiv RtShift RtSwap RtAscii RtCopy RtAbort Ops SpecAbi LemAbi SpecVal LemVal
  SpecSol RtPack SpecStor SpecLayout RtStor LemStor RtStore LemStore RtDyn SpecDyn RtRouter SpecId.
Ltac Zify.zify_post_hook ::= idtac.

(** object.rs 108-277 [add_native_fresh_id_fn].  [k] is the keccak256 hash of "global_counter_key",
    computed by the compiler. Locals: 0 key, 1 value, 2 id, 3 data. *)
Definition fresh_id (k : Z) : func := Func 0 4 1
  ([ Const 32; Call alloc; LocalSet 0;
     Const 32; Call alloc; LocalSet 1;
     Const 32; Call alloc; LocalSet 2;
     Const 20; Call alloc; LocalSet 3 ]
   ++ keccak_string_to_memory k
   ++ [ LocalGet 0; LocalGet 1; Host H_storage_load;
        LocalGet 1; LocalGet 1; Load 4 0; Const 4294967295; Bin I32 LtU;
        If 1 [ LocalGet 1; Load 4 0; Const 1; Bin I32 Add ] [ Const 0 ];
        Store 4 0;
        LocalGet 3; Host H_block_timestamp; Store 8 0;
        LocalGet 3; Host H_block_number; Store 8 8;
        LocalGet 3; LocalGet 1; Load 4 0; Store 4 16;
        LocalGet 3; Const 20; LocalGet 2; Host H_keccak;
        LocalGet 0; LocalGet 1; Host H_storage_cache;
        Const 1; Host H_storage_flush;
        LocalGet 2 ]).

(** The counter kept in a storage word: its first four bytes, lowest first. *)
Definition counter_of (v : Z) : Z := le_value (firstn 4 (word v)).
(** What an id is hashed from: block timestamp, block number and counter, lowest byte first. *)
Definition id_preimage (timestamp number counter : Z) : list Z :=
  le_bytes 8 timestamp ++ le_bytes 8 number ++ le_bytes 4 counter.

Lemma le_value_bytes : forall n m a, le_value (bytes n m a) = load n m a.
Proof. induction n; intros; cbn [bytes le_value load]; [reflexivity|]. rewrite IHn. lia. Qed.

Lemma counter_load : forall m p, counter_of (load_be 32 m p) = load 4 m p.
Proof.
  intros. unfold counter_of, word. rewrite be_bytes_load_be. change 32%nat with (4 + 28)%nat. rewrite bytes_app.
  rewrite firstn_app, bytes_length, Nat.sub_diag, firstn_all2 by (rewrite bytes_length; lia). cbn [firstn]. rewrite app_nil_r. apply le_value_bytes.
Qed.

Definition counter (h : hostst) (k : Z) : Z := counter_of (stor h k mod 2 ^ 256).
(** The preimage of the next id. *)
Definition next_preimage (h : hostst) (k : Z) : list Z :=
  id_preimage (w64 (h_timestamp h)) (w64 (h_number h)) ((counter h k + 1) mod 2 ^ 32).

(** The state after an id was generated: only the counter's storage word is different. *)
Definition fresh_state (k : Z) (w w' : world) (a : Z) : Prop :=
  wok w' /\ keccak (host w') = keccak (host w) /\ h_timestamp (host w') = h_timestamp (host w) /\ h_number (host w') = h_number (host w) /\
  gnext w <= a /\ a + 32 <= gnext w' /\ load_be 32 (mem w') a = hash (host w) (next_preimage (host w) k) /\
  counter (host w') k = (counter (host w) k + 1) mod 2 ^ 32 /\
  (forall y, y <> k -> stor (host w') y = stor (host w) y) /\ committed (host w') = stor (host w') /\
  (forall x, 0 <= x < gnext w -> rd (mem w') x = rd (mem w) x).

Lemma le_store : forall n m a v, 0 <= v < 256 ^ Z.of_nat n -> bytes n (store (Z.of_nat n) m a v) a = le_bytes n v.
Proof. intros. rewrite <- le_bytes_load, load_store_same, Z.mod_small by assumption. reflexivity. Qed.

Lemma fresh_id_spec : forall k w, wok w -> 0 <= k < 2 ^ 256 ->
  wpf (fresh_id k) [] w (resq (fun vs w' => exists a, vs = [a] /\ fresh_state k w w' a) (oom w 116)).
Proof.
  intros k w Hw Hk. unfold fresh_id. apply wpf_intro; [reflexivity|]. cbn [app repeat].
  pose proof Hw as (P1&P2&P3&P4&P5&P6). set (p := gnext w) in *.
  ws1. wcall alloc_spec; [exact Hw|lia|intros O; eapply oom_mono; [exact O|lia]|].
  intros vs w1 [-> A1]. wc. assert (X1 : extends w w1) by (eapply alloc_extends; [exact Hw|exact A1|lia]). pose proof A1 as (Hw1&Em1&Q1&M1&G1&_).
  ws1. ws1. wcall alloc_spec; [exact Hw1|lia|intros O; unfold oom in *; lia|].
  intros vs w2 [-> A2]. wc. assert (X2 : extends w1 w2) by (eapply alloc_extends; [exact Hw1|exact A2|lia]). pose proof A2 as (Hw2&Em2&Q2&M2&G2&_).
  ws1. ws1. wcall alloc_spec; [exact Hw2|lia|intros O; unfold oom in *; lia|].
  intros vs w3 [-> A3]. wc. assert (X3 : extends w2 w3) by (eapply alloc_extends; [exact Hw2|exact A3|lia]). pose proof A3 as (Hw3&Em3&Q3&M3&G3&_).
  ws1. ws1. wcall alloc_spec; [exact Hw3|lia|intros O; unfold oom in *; lia|].
  intros vs w4 [-> A4]. wc. assert (X4 : extends w3 w4) by (eapply alloc_extends; [exact Hw3|exact A4|lia]). pose proof A4 as (Hw4&Em4&Q4&M4&G4&_).
  ws1.
  fold p in G1. replace (gnext w3) with (p + 96) in * by lia. replace (gnext w2) with (p + 64) in * by lia. replace (gnext w1) with (p + 32) in * by lia.
  assert (X : extends w w4) by (eapply extends_trans; [exact X1|]; eapply extends_trans; [exact X2|]; eapply extends_trans; eassumption).
  fold p. assert (Em : mem w4 = mem w) by congruence. assert (Eh : host w4 = host w) by apply X.
  assert (Q4' : maxpages w4 = maxpages w) by lia.
  clear X1 X2 X3 X4 A1 A2 A3 A4 Hw1 Hw2 Hw3 Em1 Em2 Em3 Em4 Q1 Q2 Q3 Q4 M1 M2 M3 M4 G1 G2 G3 w1 w2 w3.
  eapply wp_key; [exact Hw4|exact Hk|reflexivity|unfold live; lia|].
  intros m Lk U. rewrite Em in U.
  assert (Hm : wok (set_mem w4 m)).
  { apply wok_set_mem; [exact Hw4|]. intros. rewrite U by (unfold within; lia). rewrite Em. reflexivity. }
  ws1. ws1. apply wp_sload; [exact Hm|unfold live; cbn [gnext set_mem]; lia|unfold live; cbn [gnext set_mem]; lia|].
  cbn [mem set_mem host]. rewrite Lk, Eh. set (v := stor (host w) k). set (m2 := store_be 32 m (p + 32) v).
  assert (F2 : forall x, ~ within (p + 32) 32 x -> rd m2 x = rd m x).
  { intros x Hx. unfold within in Hx. apply rd_store_be_out. lia. }
  assert (E2 : load_be 32 m2 (p + 32) = v mod 2 ^ 256) by apply load_be_store32.
  assert (C2 : load 4 m2 (p + 32) = counter (host w) k) by (rewrite <- counter_load, E2; reflexivity).
  clearbody m2. change (set_mem (set_mem w4 m) m2) with (set_mem w4 m2).
  set (c := counter (host w) k) in *. assert (Rc : 0 <= c < 2 ^ 32) by (rewrite <- C2; apply (load_range 4)).
  assert (Lp : p + 116 <= 65536 * pages w4) by (destruct Hw4 as (?&?&?&?&?&?); lia).
  match goal with |- wp _ ?q _ ?l ?w0 =>
    assert (T : forall c', c' = (c + 1) mod 2 ^ 32 -> wp [ Store 4 0; LocalGet 3; Host H_block_timestamp; Store 8 0; LocalGet 3; Host H_block_number; Store 8 8;
     LocalGet 3; LocalGet 1; Load 4 0; Store 4 16; LocalGet 3; Const 20; LocalGet 2; Host H_keccak;
     LocalGet 0; LocalGet 1; Host H_storage_cache; Const 1; Host H_storage_flush; LocalGet 2] q [c'; p + 32] l w0) end.
  { intros c' Ec. assert (Rc' : 0 <= c' < 2 ^ 32) by (rewrite Ec; apply Z.mod_pos_bound; lia).
    apply wp_store; [lia|unfold page_size; cbn [pages set_mem]; lia|]. rewrite Z.add_0_r. cbn [mem set_mem].
    set (m3 := store (Z.of_nat 4) m2 (p + 32) c').
    assert (F3 : forall x, ~ within (p + 32) 4 x -> rd m3 x = rd m2 x).
    { intros x Hx. unfold within in Hx. apply rd_store_out. lia. }
    assert (L3 : load 4 m3 (p + 32) = c') by (unfold m3; rewrite (load_store_same 4); apply Z.mod_small; exact Rc').
    clearbody m3. change (set_mem (set_mem w4 m2) m3) with (set_mem w4 m3).
    ws1. eapply wp_host; [reflexivity|]. cbn [host set_mem]. rewrite Eh. set (ts := w64 (h_timestamp (host w))).
    apply wp_store; [lia|unfold page_size; cbn [pages set_mem]; lia|]. rewrite Z.add_0_r. cbn [mem set_mem].
    ws1. eapply wp_host; [reflexivity|]. cbn [host set_mem]. rewrite Eh. set (nm := w64 (h_number (host w))).
    apply wp_store; [lia|unfold page_size; cbn [pages set_mem]; lia|]. cbn [mem set_mem].
    assert (Rt : 0 <= ts < 2 ^ 64) by (apply Z.mod_pos_bound; lia). assert (Rn : 0 <= nm < 2 ^ 64) by (apply Z.mod_pos_bound; lia).
    ws1. ws1. apply wp_load; [lia|unfold page_size; cbn [pages set_mem]; lia|]. rewrite Z.add_0_r. cbn [mem set_mem].
    replace (load 4 _ (p + 32)) with c'
      by (rewrite <- L3; apply load_ext; intros; rewrite !rd_store_out by lia; reflexivity).
    apply wp_store; [lia|unfold page_size; cbn [pages set_mem]; lia|]. cbn [mem set_mem].
    set (m4 := store (Z.of_nat 4) (store (Z.of_nat 8) (store (Z.of_nat 8) m3 (p + 96) ts) (p + 96 + 8) nm) (p + 96 + 16) c').
    assert (F4 : forall x, ~ within (p + 96) 20 x -> rd m4 x = rd m3 x).
    { intros x Hx. unfold within in Hx. unfold m4. rewrite !rd_store_out by lia. reflexivity. }
    assert (B4 : bytes 20 m4 (p + 96) = id_preimage ts nm c').
    { unfold id_preimage. change 20%nat with (8 + (8 + 4))%nat. rewrite !bytes_app. f_equal; [|f_equal].
      - transitivity (bytes 8 (store (Z.of_nat 8) m3 (p + 96) ts) (p + 96)); [|apply le_store; exact Rt].
        unfold m4. apply bytes_ext. intros. rewrite !rd_store_out by lia. reflexivity.
      - change (Z.of_nat 8) with 8 in *. transitivity (bytes 8 (store (Z.of_nat 8) (store 8 m3 (p + 96) ts) (p + 96 + 8) nm) (p + 96 + 8)); [|apply le_store; exact Rn].
        unfold m4. apply bytes_ext. intros. rewrite !rd_store_out by lia. reflexivity.
      - unfold m4. change (Z.of_nat 8) with 8. replace (p + 96 + 8 + 8) with (p + 96 + 16) by lia. apply le_store. exact Rc'. }
    clearbody m4.
    change (set_mem _ m4) with (set_mem w4 m4).
    assert (Hm4 : wok (set_mem w4 m4)).
    { apply wok_set_mem; [exact Hw4|]. intros a Ha. rewrite F4, F3, F2, U by (unfold within; lia). rewrite Em. reflexivity. }
    ws1. ws1. ws1. apply wp_keccak; [exact Hm4|unfold live; cbn [gnext set_mem]; lia|unfold live; cbn [gnext set_mem]; lia|].
    cbn [mem set_mem host]. rewrite Eh. change (Z.to_nat 20) with 20%nat. rewrite B4.
    set (m5 := store_be 32 m4 (p + 64) (keccak (host w) (id_preimage ts nm c'))).
    assert (F5 : forall x, ~ within (p + 64) 32 x -> rd m5 x = rd m4 x).
    { intros x Hx. unfold within in Hx. apply rd_store_be_out. lia. }
    assert (E5 : load_be 32 m5 (p + 64) = hash (host w) (id_preimage ts nm c')) by apply load_be_store32.
    clearbody m5. change (set_mem _ m5) with (set_mem w4 m5).
    assert (Hm5 : wok (set_mem w4 m5)).
    { apply wok_set_mem; [exact Hw4|]. intros a Ha. rewrite F5, F4, F3, F2, U by (unfold within; lia). rewrite Em. reflexivity. }
    ws1. ws1. apply wp_scache; [exact Hm5|unfold live; cbn [gnext set_mem]; lia|unfold live; cbn [gnext set_mem]; lia|].
    cbn [mem set_mem host]. replace (load_be 32 m5 p) with k
      by (rewrite <- Lk; apply load_be_ext; intros; rewrite F5, F4, F3, F2 by (unfold within; lia); reflexivity).
    set (v' := load_be 32 m5 (p + 32)).
    assert (Cv : counter_of v' = c').
    { unfold v'. rewrite counter_load, <- L3. apply load_ext. intros. rewrite F5, F4 by (unfold within; lia). reflexivity. }
    assert (Rv : 0 <= v' < 2 ^ 256) by apply (load_be_range 32). clearbody v'.
    ws1. eapply wp_host; [reflexivity|]. ws1. ws1. exists (p + 64). split; [reflexivity|]. unfold fresh_state.
    cbn [host set_host set_mem set_committed set_stor keccak h_timestamp h_number stor committed gnext mem]. rewrite Eh.
    split; [exact Hm5|]. split; [reflexivity|]. split; [reflexivity|]. split; [reflexivity|]. split; [fold p; lia|]. split; [lia|].
    split; [rewrite E5; unfold next_preimage; rewrite Ec; reflexivity|].
    split; [unfold counter; cbn [stor set_committed set_stor]; unfold upd; rewrite Z.eqb_refl, Z.mod_small by exact Rv; rewrite Cv; exact Ec|].
    split; [intros y Hy; unfold upd; apply Z.eqb_neq in Hy; rewrite Hy; reflexivity|]. split; [reflexivity|].
    intros x Hx. fold p in Hx. rewrite F5, F4, F3, F2, U by (unfold within; lia). reflexivity. }
  ws1. ws1. apply wp_load; [lia|unfold page_size; cbn [pages set_mem]; lia|]. rewrite Z.add_0_r. cbn [mem set_mem]. rewrite C2.
  ws1. ws1. apply wp_if; intros C.
  - assert (Lc : c < 4294967295) by (destruct (c <? 4294967295) eqn:E; [lia|exfalso; apply C; reflexivity]).
    ws1. apply wp_load; [lia|unfold page_size; cbn [pages set_mem]; lia|]. rewrite Z.add_0_r. cbn [mem set_mem]. rewrite C2.
    ws1. ws1. ws1. cbn [ifk firstn app]. apply T. rewrite ?Z.mod_small by lia. reflexivity.
  - assert (Lc : c = 4294967295) by (destruct (c <? 4294967295) eqn:E; [discriminate C|lia]).
    ws1. ws1. cbn [ifk firstn app]. apply T. rewrite Lc. reflexivity.
Qed.
