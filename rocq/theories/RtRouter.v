(** * The entry point: dispatch, return data, commit; the constructor
    (hostio/entrypoint_router.rs, abi_types/public_function.rs, constructor.rs). *)

From Verif Require Import Tac RtAlloc RtErr RtInt RtInt2 RtEq RtMul RtDiv RtShift SpecInt Ops RtSwap RtAscii SpecAbi LemAbi RtAbort RtStor.
Ltac Zify.zify_post_hook ::= idtac.

(** What the router is generated from.
    [c_funs]: for each public function its 4 selector bytes and the code of
    [PublicFunction::wrap_public_function] (abi_types/public_function.rs 150-203) together with the
    signer injection (110-122), as a function from the argument pointer to (pointer, length) of the
    return data.  Any behaviour is allowed for it.
    [c_receive]: the selector of the function called "receive", if there is one.
    [c_fallback]: the wrapper of the function called "fallback".
    [c_save]: the part of [add_commit_changes_to_storage_fn] (runtime/storage.rs 1352-1415) that
    writes borrowed dynamic fields back; it does nothing when there are none. *)
Record contract := mkContract {
  c_funs : list (list Z * func);
  c_receive : option (list Z);
  c_fallback : option func;
  c_save : func
}.

(** The call of a wrapper and what follows it (public_function.rs 124-140, entrypoint_router.rs
    170-184).  Simplification: in the source the wrapper is inlined and, when the callee or the
    (un)packing code failed, it branches to the return block itself; here it is a function that
    returns, and the abort pointer is tested after the call. *)
Definition run_wrapper (f : func) : list instr :=
  [ LocalGet 1; Call f; Const 256; Load 4 0; BrIf "return"; LocalSet 0; LocalSet 1; Br "return" ].

(** abi_types/public_function.rs 87-144 [build_router_block] *)
Definition build_router_block (e : list Z * func) : instr :=
  Block "function" 0
    ([ LocalGet 2; Const (le_value (fst e)); Bin I32 Ne; BrIf "function" ] ++ run_wrapper (snd e)).

(** entrypoint_router.rs 190-191: the message for ERROR_NO_FUNCTION_MATCH; inlined in the source. *)
Definition no_match_message : func :=
  Func 1 5 1 ([ LocalGet 0 ] ++ build_abort_error_message ++ [ LocalGet 3 ]).

(** runtime/storage.rs 1339-1420 [add_commit_changes_to_storage_fn] *)
Definition commit_changes (c : contract) : func :=
  Func 0 0 0 [ Call (c_save c); Const 1; Host H_storage_flush ].

(** entrypoint_router.rs 81-218: the return block.
    Locals: 0 data_len, 1 data_pointer, 2 function_selector, 3 status, 4 ptr (abort), 5 ptr (message). *)
Definition routing (c : contract) : list instr :=
  [ LocalGet 0; Un Eqz;
    If 0 (match c_receive c with Some s => [ Const (le_value s); LocalSet 2 ] | None => [] end ++
          [ Const 4; LocalSet 0; LocalGet 0; Call alloc; LocalTee 1; LocalGet 2; Store 4 0 ])
         [ LocalGet 1; Load 4 0; LocalSet 2 ];
    LocalGet 1; Const 4; Bin I32 Add; LocalSet 1 ]
  ++ map build_router_block (c_funs c)
  ++ match c_fallback c with
     | Some f => [ LocalGet 1; Const 4; Bin I32 Sub; LocalSet 1 ] ++ run_wrapper f
     | None => []
     end
  ++ [ Const 100; Call no_match_message; LocalSet 5;
       LocalGet 5; Const 4; Bin I32 Add; LocalSet 1;
       LocalGet 5; Load 4 0; LocalSet 0;
       Const 1; LocalSet 3 ].

(** entrypoint_router.rs 224-297, 318: abort check, return data, commit. *)
Definition router_exit (c : contract) : list instr :=
  [ Block "abort" 0
      [ Const 256; Load 4 0; LocalTee 4; Un Eqz; BrIf "abort";
        LocalGet 4; Load 4 0; LocalSet 0;
        LocalGet 4; Const 4; Bin I32 Add; LocalSet 1;
        Const 1; LocalSet 3 ];
    LocalGet 1; LocalGet 0; Host H_write_result;
    LocalGet 3; Un Eqz; If 0 [ Call (commit_changes c) ] [];
    LocalGet 3; Return ].

(** hostio/entrypoint_router.rs 23-324 [build_entrypoint_router]; the parameter is the length of the
    calldata, the result the status. *)
Definition router (c : contract) : func := Func 1 5 1
  ([ LocalGet 0; Call alloc; LocalTee 1; Host H_read_args;
     Const 0; LocalSet 3;
     Const 396; LocalGet 0; Store 4 0;
     Const 396; LocalGet 1; Store 4 4;
     Block "return" 0 (routing c) ] ++ router_exit c).

(** utils.rs 86-114 [keccak_string_to_memory]: the constant hash [k], stored as four little-endian
    64-bit chunks of its 32 big-endian bytes at the address in local 0. *)
Definition key_chunk (k : Z) (i : nat) : Z := le_value (firstn 8 (skipn (8 * i) (be_bytes 32 k))).
Definition keccak_string_to_memory (k : Z) : list instr :=
  [ LocalGet 0; Const (key_chunk k 0); Store 8 0;
    LocalGet 0; Const (key_chunk k 1); Store 8 8;
    LocalGet 0; Const (key_chunk k 2); Store 8 16;
    LocalGet 0; Const (key_chunk k 3); Store 8 24 ].

(** constructor.rs 77-164 [build_constructor] for a module with an [init] function.  [k] is the
    keccak256 hash of "init_key", computed by the compiler.  [init] takes the TxContext pointer. *)
Definition constructor (k : Z) (init : func) : func := Func 0 2 0
  ([ Const 32; Call alloc; LocalSet 0 ] ++ keccak_string_to_memory k
   ++ [ Const 32; Call alloc; LocalSet 1;
        LocalGet 0; LocalGet 1; Host H_storage_load;
        LocalGet 1; Const 32; Call is_zero;
        If 0 [ Const 4; Call alloc; Call init;
               LocalGet 1; Const 1; Store 4 0;
               LocalGet 0; LocalGet 1; Host H_storage_cache;
               Const 1; Host H_storage_flush ] [] ]).

(** runtime/unpacking/signer.rs 7-30 [inject_signer]; called by vm_handled_types/signer.rs 13-23,
    which expects it to leave the pointer to the signer on the stack. *)
Definition inject_signer : func := Func 0 1 0
  [ Const 32; Call alloc; LocalTee 0; Const 12; Bin I32 Add; Host H_tx_origin; LocalGet 0 ].

(** ** Shared exit *)

(** [w] after handing the [len] bytes at [ptr] to the host as return data. *)
Definition published (w : world) (ptr len : Z) : world :=
  set_host w (set_result (host w) (bytes (Z.to_nat len) (mem w) ptr)).

Lemma wp_write_result : forall r Q s l w len ptr, inb w ptr len = true ->
  wp r Q s l (published w ptr len) -> wp (Host H_write_result :: r) Q (len :: ptr :: s) l w.
Proof. intros. eapply wp_host; [cbn [hostcall]; rewrite H; reflexivity|exact H0]. Qed.

Lemma wp_write_result_trap : forall r (Q : outcome -> Prop) s l w len ptr, inb w ptr len = false ->
  Q OTrap -> wp (Host H_write_result :: r) Q (len :: ptr :: s) l w.
Proof. intros. apply wp_basic_stop; [reflexivity|]. cbn [step hostcall]. rewrite H. exact H0. Qed.

Lemma inb_256 : forall w, 1 <= pages w -> inb w (256 + 0) (Z.of_nat 4) = true.
Proof. intros. unfold inb, page_size. lia. Qed.

(** The flag is clear: the return data is what the locals say, and the status decides. *)
Lemma exit_clear : forall c (Q : list Z -> world -> Prop) (T : Prop) len ptr sel st a b w, 1 <= pages w -> abort_flag w = 0 ->
  (inb w ptr len = false -> T) ->
  (inb w ptr len = true -> st = 0 -> wpf (commit_changes c) [] (published w ptr len) (resq (fun vs w' => Q [0] w') T)) ->
  (inb w ptr len = true -> st <> 0 -> Q [st] (published w ptr len)) ->
  wp (router_exit c) (fret 1 Q T) [] [len; ptr; sel; st; a; b] w.
Proof.
  intros c Q T len ptr sel st a b w Hp Hf HT H0 H1. unfold router_exit. cbn [app].
  apply wp_block. ws1. eapply wp_basic; [reflexivity|cbn [step]; rewrite inb_256 by lia; reflexivity|].
  change (load 4 (mem w) (256 + 0)) with (abort_flag w). rewrite Hf. ws1. apply wp_un. cbn [unop].
  change (b2z (0 =? 0)) with 1. apply wp_brif; intros C; [|discriminate]. clear C. wc.
  ws1. ws1. destruct (inb w ptr len) eqn:I.
  2:{ apply wp_write_result_trap; [exact I|]. wc. apply HT. reflexivity. }
  apply wp_write_result; [exact I|]. ws1. apply wp_un. cbn [unop].
  apply wp_if; intros C.
  - assert (E : st = 0) by (destruct (st =? 0) eqn:E; cbn in C; lia). subst st.
    eapply wp_call_spec; [reflexivity|cbn [List.length]; lia|wc; apply H0; auto| |].
    + wc. tauto.
    + wc. intros vs w' Hq. ws1. wc. ws1. ws1. wc. exact Hq.
  - assert (E : st <> 0) by (destruct (st =? 0) eqn:E; cbn in C; lia).
    ws1. wc. ws1. ws1. wc. apply H1; auto.
Qed.

(** The flag is set: the return data is the block it points to, and the status is 1. *)
Lemma exit_set : forall c (Q : list Z -> world -> Prop) (T : Prop) len ptr sel st a b w, 1 <= pages w -> abort_flag w <> 0 ->
  inb w (abort_flag w) 4 = true -> abort_flag w + 4 < 4294967296 ->
  (inb w (abort_flag w + 4) (load 4 (mem w) (abort_flag w)) = false -> T) ->
  (inb w (abort_flag w + 4) (load 4 (mem w) (abort_flag w)) = true ->
     Q [1] (published w (abort_flag w + 4) (load 4 (mem w) (abort_flag w)))) ->
  wp (router_exit c) (fret 1 Q T) [] [len; ptr; sel; st; a; b] w.
Proof.
  intros c Q T len ptr sel st a b w Hp Hf Hi Hs HT HQ. unfold router_exit. cbn [app].
  assert (0 <= abort_flag w) by (unfold abort_flag; pose proof (load_range 4 (mem w) 256); lia).
  apply wp_block. ws1. eapply wp_basic; [reflexivity|cbn [step]; rewrite inb_256 by lia; reflexivity|].
  change (load 4 (mem w) (256 + 0)) with (abort_flag w). ws1. apply wp_un. cbn [unop].
  set (p := abort_flag w) in *. replace (b2z (p =? 0)) with 0 by (destruct (p =? 0) eqn:E; [lia|reflexivity]).
  apply wp_brif; intros C; [congruence|]. clear C. ws1.
  eapply wp_basic; [reflexivity|cbn [step]; rewrite Z.add_0_r; change (Z.of_nat 4) with 4; rewrite Hi; reflexivity|].
  ws1. ws1. ws1. ws1. ws1. ws1. ws1. ws1. wc. ws1. ws1.
  set (n := load 4 (mem w) p) in *. destruct (inb w (p + 4) n) eqn:I.
  2:{ apply wp_write_result_trap; [exact I|]. wc. apply HT. reflexivity. }
  apply wp_write_result; [exact I|]. ws1. apply wp_un. cbn [unop]. change (b2z (1 =? 0)) with 0.
  apply wp_if; intros C; [congruence|]. ws1. wc. ws1. ws1. wc. apply HQ. reflexivity.
Qed.

(** ** Dispatch *)

Definition brq (Q : outcome -> Prop) (o : outcome) : Prop :=
  match o with OBr lb s l w => lb = "return"%string /\ Q o | OTrap => Q OTrap | _ => False end.

Lemma funs_hit : forall fs r (Q : outcome -> Prop) l w s e, nth_error l 2 = Some s ->
  find (fun e => le_value (fst e) =? s) fs = Some e ->
  wp (run_wrapper (snd e)) (brq Q) [] l w -> wp (map build_router_block fs ++ r) Q [] l w.
Proof.
  induction fs as [|e0 fs IH]; intros r Q l w s e Hs Hf H; cbn [find] in Hf; [discriminate|].
  cbn [map app]. unfold build_router_block at 1. apply wp_block. cbn [app].
  eapply wp_lget; [exact Hs|]. ws1. eapply wp_bin; [cbn [binop]; reflexivity|].
  destruct (le_value (fst e0) =? s) eqn:E.
  - injection Hf as ->. replace (s =? le_value (fst e)) with true by lia. cbn [negb b2z].
    apply wp_brif; intros C; [congruence|]. eapply wp_conseq; [exact H|].
    intros [s1 l1 w1|lb s1 l1 w1|s1 l1 w1| | |]; cbn [brq blk]; try tauto.
    intros [-> HQ]. wc. exact HQ.
  - replace (s =? le_value (fst e0)) with false by lia. cbn [negb b2z].
    apply wp_brif; intros C; [|congruence]. wc. eapply IH; eassumption.
Qed.

Lemma funs_miss : forall fs r (Q : outcome -> Prop) l w s, nth_error l 2 = Some s ->
  find (fun e => le_value (fst e) =? s) fs = None ->
  wp r Q [] l w -> wp (map build_router_block fs ++ r) Q [] l w.
Proof.
  induction fs as [|e0 fs IH]; intros r Q l w s Hs Hf H; [exact H|]. cbn [find] in Hf.
  destruct (le_value (fst e0) =? s) eqn:E; [discriminate|].
  cbn [map app]. unfold build_router_block at 1. apply wp_block. cbn [app].
  eapply wp_lget; [exact Hs|]. ws1. eapply wp_bin; [cbn [binop]; reflexivity|].
  replace (s =? le_value (fst e0)) with false by lia. cbn [negb b2z].
  apply wp_brif; intros C; [|congruence]. wc. eapply IH; eassumption.
Qed.

(** The state in which the selected function's wrapper returned, and what the router makes of it. *)
Definition settles (c : contract) (Q : list Z -> world -> Prop) (T : Prop) (res : fresult) : Prop :=
  match res with
  | FRet vs w =>
      1 <= pages w /\
      (abort_flag w = 0 -> exists len ptr, vs = [len; ptr] /\ (inb w ptr len = false -> T) /\
         (inb w ptr len = true -> wpf (commit_changes c) [] (published w ptr len) (resq (fun vs w' => Q [0] w') T))) /\
      (abort_flag w <> 0 -> inb w (abort_flag w) 4 = true /\ abort_flag w + 4 < 4294967296 /\
         (inb w (abort_flag w + 4) (load 4 (mem w) (abort_flag w)) = false -> T) /\
         (inb w (abort_flag w + 4) (load 4 (mem w) (abort_flag w)) = true ->
            Q [1] (published w (abort_flag w + 4) (load 4 (mem w) (abort_flag w)))))
  | FTrap => T
  | _ => False
  end.

Definition is_wrapper (f : func) : Prop := exists nl b, f = Func 1 nl 2 b.

Lemma wrapper_run : forall c f nr r Q T n dp s a b w r', is_wrapper f -> nr = 0%nat ->
  r = router_exit c ->
  wpf f [dp] w (settles c Q T) ->
  wp (run_wrapper f ++ r') (brq (blk "return" nr [] r (fret 1 Q T))) [] [n; dp; s; 0; a; b] w.
Proof.
  intros c f nr r Q T n dp s a b w r' (nl&bd&Ef) -> -> H. unfold run_wrapper. cbn [app]. ws1.
  eapply wp_call; [exact Ef|cbn [List.length]; lia|]. cbn [rev firstn app skipn].
  eapply wpf_conseq; [exact H|]. intros [vs w2| | |]; cbn [settles]; [|intros K; exact K|tauto|tauto].
  intros (Hp&H0&H1). rewrite app_nil_r. ws1.
  eapply wp_basic; [reflexivity|cbn [step]; rewrite inb_256 by lia; reflexivity|].
  change (load 4 (mem w2) (256 + 0)) with (abort_flag w2).
  apply wp_brif; intros C.
  - specialize (H1 C). destruct H1 as (I1&I2&I3&I4). cbn [brq]. split; [reflexivity|]. wc.
    apply exit_set; auto.
  - destruct (H0 C) as (len&ptr&->&J1&J2). ws1. ws1. apply wp_br. cbn [brq]. split; [reflexivity|]. wc.
    apply exit_clear; auto. intros; congruence.
Qed.

(** The message for an unknown selector. *)
Lemma no_match_spec : forall w, wok w ->
  wpf no_match_message [100] w (resq (fun vs w' => exists p, vs = [p] /\ extends w w' /\
     live w' p (4 + Z.of_nat (List.length (error_string [49; 48; 48]))) /\
     load 4 (mem w') p = Z.of_nat (List.length (error_string [49; 48; 48])) /\
     bytes (List.length (error_string [49; 48; 48])) (mem w') (p + 4) = error_string [49; 48; 48])
    (oom w 125)).
Proof.
  intros w Hw. apply wpf_intro; [reflexivity|]. wc. ws1.
  wcall u64_to_ascii_spec; [exact Hw|lia|intros O; eapply oom_mono; [exact O|lia]|].
  intros vs w1 (L&->&X1&HL&G1&D1&D2&E1&B1). wc.
  assert (L = 3%nat).
  { destruct (Nat.eq_dec L 1) as [->|]; [change (10 ^ Z.of_nat 1) with 10 in D1; lia|].
    destruct (Nat.eq_dec L 2) as [->|]; [change (10 ^ Z.of_nat 2) with 100 in D1; lia|].
    destruct (Nat.le_gt_cases L 3); [lia|]. destruct D2 as [D2|D2]; [lia|].
    pose proof (Z.pow_le_mono_r 10 3 (Z.of_nat L - 1) ltac:(lia) ltac:(lia)). change (10 ^ 3) with 1000 in H0. lia. }
  subst L. clear D1 D2 HL. change (digits 3 100) with [49; 48; 48] in B1.
  change (error_string (digits 3 100)) with (error_string [49; 48; 48]).
  pose proof X1 as (Hw1&_&_&Gx&_&Hh&_). pose proof Hw1 as (P1&P2&P3&P4&P5&P6). pose proof Hw as (_&_&W3&_).
  ws1. ws1. rewrite load_1, E1. ws1. ws1. ws1. ws1. ws1.
  apply (wp_error_structure _ _ [] _ _ 3); [exact Hw1|lia| |].
  { intros O. cbn [fret resq]. eapply oom_extends; [exact X1|exact O|]. change (pad32 3) with 29%nat. lia. }
  change (3 + pad32 3)%nat with 32%nat. change (Z.of_nat 32) with 32.
  intros w2 X2 G2 H2 Z2. pose proof X2 as (Hw2&_&_&_&_&Hh2&M2). pose proof Hw2 as (Q1&Q2&Q3&Q4&Q5&Q6).
  set (p := gnext w1) in *.
  ws1. ws1. ws1. ws1. ws1. ws1.
  match goal with |- wp _ _ _ _ (set_mem _ ?m) => set (m3 := m) end.
  ws1. ws1. exists p. split; [reflexivity|].
  assert (U3 : forall x, ~ within (p + 72) 3 x -> rd m3 x = rd (mem w2) x).
  { intros x Hx. unfold within in Hx. apply rd_mcopy_out. lia. }
  assert (EL : List.length (error_string [49; 48; 48]) = 100%nat) by reflexivity.
  split; [|split].
  - eapply (extends_write w w2 m3 (p + 72) 3); [exact Hw|eapply extends_trans; eassumption|exact U3|lia|lia].
  - rewrite EL. unfold live. cbn [gnext set_mem]. lia.
  - cbn [mem set_mem]. apply (error_payload m3 p [49; 48; 48]).
    + destruct H2 as (K1&K2&K3&K4). unfold error_header.
      assert (V : forall x, p <= x < p + 72 -> rd m3 x = rd (mem w2) x).
      { intros x Hx. rewrite U3 by (unfold within; lia). reflexivity. }
      change (List.length [49; 48; 48]) with 3%nat.
      split; [rewrite <- K1; apply load_ext; intros; apply V; lia|].
      split; [rewrite <- K2; apply bytes_ext; intros; apply V; lia|].
      split; [rewrite <- K3; apply load_be_ext; intros; apply V; lia|rewrite <- K4; apply load_be_ext; intros; apply V; lia].
    + change (List.length [49; 48; 48]) with 3%nat. rewrite <- B1. apply bytes_ext. intros i Hi.
      unfold m3. rewrite rd_mcopy_in by lia. replace (gnext w + 1 + (p + 72 + i - (p + 72))) with (gnext w + 1 + i) by lia.
      apply M2. lia.
    + change (List.length [49; 48; 48] + pad32 (List.length [49; 48; 48]))%nat with 32%nat.
      change (List.length [49; 48; 48]) with 3%nat. intros x Hx. rewrite U3 by (unfold within; lia). apply Z2. lia.
Qed.

(** ** The router *)

(** The four bytes taken as the selector, and the bytes found at the data pointer. *)
Definition sel_bytes (c : contract) (args : list Z) : list Z :=
  match args with
  | [] => match c_receive c with Some s => s | None => [0; 0; 0; 0] end
  | _ => firstn 4 (args ++ [0; 0; 0])
  end.
Definition seen (c : contract) (args : list Z) : list Z :=
  match args with [] => sel_bytes c [] | _ => args end.

(** The state in which the selected function starts. *)
Definition loaded (c : contract) (w w1 : world) : Prop :=
  let cd := seen c (h_args (host w)) in
  wok w1 /\ maxpages w1 = maxpages w /\ pages w <= pages w1 /\ gcd w1 = gcd w /\ host w1 = host w /\
  gnext w1 = gnext w + Z.of_nat (List.length cd) /\
  bytes (List.length cd) (mem w1) (gnext w) = cd /\
  load 4 (mem w1) 396 = Z.of_nat (List.length (h_args (host w))) /\ load 4 (mem w1) 400 = gnext w /\
  (forall a, 0 <= a < gnext w -> ~ within 396 8 a -> rd (mem w1) a = rd (mem w) a).

Definition byte_list (l : list Z) : Prop := Forall (fun b => 0 <= b < 256) l.

Lemma load_le : forall n m a, load n m a = le_value (bytes n m a).
Proof. induction n; intros; cbn [load bytes le_value]; [reflexivity|]. rewrite IHn. reflexivity. Qed.

Lemma le_value_inj : forall l l', byte_list l -> byte_list l' -> List.length l = List.length l' ->
  le_value l = le_value l' -> l = l'.
Proof.
  induction l; intros [|b l'] H H' HL E; cbn [List.length] in HL; try discriminate; [reflexivity|].
  inversion H; inversion H'; subst. cbn [le_value] in E.
  assert (a = b /\ le_value l = le_value l') as [-> E'] by lia. f_equal. apply IHl; auto.
Qed.

Lemma nth_firstn_lt : forall i n (l : list Z) d, (i < n)%nat -> nth i (firstn n l) d = nth i l d.
Proof.
  induction i; intros [|n] [|x l] d H; cbn [firstn nth]; try lia; try reflexivity. apply IHi. lia.
Qed.

Lemma rd_write_bytes_in : forall m a bs x, byte_list bs -> a <= x < a + Z.of_nat (List.length bs) ->
  rd (write_bytes m a bs) x = nth (Z.to_nat (x - a)) bs 0.
Proof.
  intros m a bs x H Hx. unfold rd, write_bytes. replace ((a <=? x) && (x <? a + Z.of_nat (List.length bs))) with true by lia.
  apply Z.mod_small. unfold byte_list in H. rewrite Forall_forall in H. apply H. apply nth_In. lia.
Qed.

Lemma rd_write_bytes_out : forall m a bs x, ~ within a (Z.of_nat (List.length bs)) x ->
  rd (write_bytes m a bs) x = rd m x.
Proof.
  intros m a bs x Hx. unfold rd, write_bytes. unfold within in Hx.
  replace ((a <=? x) && (x <? a + Z.of_nat (List.length bs))) with false by lia. reflexivity.
Qed.

Lemma bytes_write : forall m a bs, byte_list bs -> bytes (List.length bs) (write_bytes m a bs) a = bs.
Proof.
  intros m a bs H. apply nth_ext with (d := 0) (d' := 0); [apply bytes_length|].
  rewrite bytes_length. intros i Hi. rewrite bytes_nth by exact Hi.
  rewrite rd_write_bytes_in by (auto; lia). f_equal. lia.
Qed.

Lemma wp_read_args : forall r Q s l w dest, inb w dest (Z.of_nat (List.length (h_args (host w)))) = true ->
  wp r Q s l (set_mem w (write_bytes (mem w) dest (h_args (host w)))) ->
  wp (Host H_read_args :: r) Q (dest :: s) l w.
Proof. intros. eapply wp_host; [cbn [hostcall]; rewrite H; reflexivity|exact H0]. Qed.

(** What happens once the calldata is in place: by the selected function, or by the error message. *)
Definition target (c : contract) (s : list Z) : option (func * Z) :=
  match find (fun e => le_value (fst e) =? le_value s) (c_funs c) with
  | Some e => Some (snd e, 4)
  | None => match c_fallback c with Some f => Some (f, 0) | None => None end
  end.

Definition served (c : contract) (Q : list Z -> world -> Prop) (T : Prop) (s : list Z) (p : Z) (w1 : world) : Prop :=
  match target c s with
  | Some (f, off) => is_wrapper f /\ wpf f [p + off] w1 (settles c Q T)
  | None => abort_flag w1 = 0 /\ (oom w1 125 -> T) /\
      (forall w2, extends w1 w2 -> h_result (host w2) = h_result (host w1) ->
         Q [1] (set_host w2 (set_result (host w1) (error_string [49; 48; 48]))))
  end.

(** From the selector on. *)
Lemma dispatch_run : forall c Q T s n p w1, wok w1 -> 0 <= p -> p + 4 < 4294967296 ->
  served c Q T s p w1 ->
  wp (map build_router_block (c_funs c)
  ++ match c_fallback c with
     | Some f => [ LocalGet 1; Const 4; Bin I32 Sub; LocalSet 1 ] ++ run_wrapper f
     | None => []
     end
  ++ [ Const 100; Call no_match_message; LocalSet 5;
       LocalGet 5; Const 4; Bin I32 Add; LocalSet 1;
       LocalGet 5; Load 4 0; LocalSet 0;
       Const 1; LocalSet 3 ])
   (blk "return" 0 [] (router_exit c) (fret 1 Q T)) [] [n; p + 4; le_value s; 0; 0; 0] w1.
Proof.
  intros c Q T s n p w1 Hw Hp Hg H. unfold served, target in H. pose proof Hw as (P1&P2&P3&P4&P5&P6).
  destruct (find _ (c_funs c)) as [e|] eqn:F.
  - destruct H as [Hs H]. eapply funs_hit; [reflexivity|exact F|]. rewrite <- (app_nil_r (run_wrapper _)).
    eapply wrapper_run; eauto.
  - eapply funs_miss; [reflexivity|exact F|]. destruct (c_fallback c) as [f|].
    + destruct H as [Hs H]. cbn [app]. ws1. ws1. eapply wp_bin; [cbn [binop wrapt]; reflexivity|].
      rewrite w32_small by lia. ws1. replace (p + 4 - 4) with (p + 0) by lia.
      match goal with |- wp ?l ?q ?s ?lo ?ww => change (wp (run_wrapper f ++ 
        [ Const 100; Call no_match_message; LocalSet 5;
          LocalGet 5; Const 4; Bin I32 Add; LocalSet 1; LocalGet 5; Load 4 0; LocalSet 0; Const 1; LocalSet 3 ]) q s lo ww) end.
      eapply wp_conseq; [eapply (wrapper_run c f 0 _ Q T); eauto|].
      intros [s1 l1 w2|lb s1 l1 w2|s1 l1 w2| | |]; cbn [brq blk]; tauto.
    + destruct H as (Ha&HT&HQ). cbn [app]. ws1.
      wcall no_match_spec; [exact Hw|exact HT|]. intros vs w2 (q&->&X&Lq&V1&V2). wc.
      pose proof X as (Hw2&X1&X2&X3&X4&X5&X6). pose proof Hw2 as (Q1&Q2&Q3&Q4&Q5&Q6).
      assert (EL : List.length (error_string [49; 48; 48]) = 100%nat) by reflexivity.
      rewrite EL in Lq, V1, V2. unfold live in Lq. change (Z.of_nat 100) with 100 in *.
      ws1. ws1. ws1. ws1. ws1. ws1. ws1. ws1. ws1. ws1. ws1. rewrite V1.
      apply exit_clear; [lia| | | |].
      * rewrite <- Ha. unfold abort_flag. apply load_ext. intros. apply X6. lia.
      * intros I. unfold inb, page_size in I. lia.
      * discriminate.
      * intros _ _. unfold published. change (Z.to_nat 100) with 100%nat. rewrite V2, X5. apply HQ; [exact X|rewrite X5; reflexivity].
Qed.

Lemma wpf_traps : forall f args w, wpf f args w (resq (fun _ _ => False) True) -> traps f args w.
Proof. intros f args w [r [E H]]. destruct r; cbn [resq] in H; tauto. Qed.

Lemma router_run : forall c w, wok w -> byte_list (h_args (host w)) ->
  (forall s, c_receive c = Some s -> byte_list s /\ List.length s = 4%nat) ->
  (h_args (host w) <> [] -> (List.length (h_args (host w)) < 4)%nat -> gnext w + 4 <= 65536 * pages w) ->
  Z.of_nat (List.length (h_args (host w))) < 2147483648 ->
  let n := Z.of_nat (List.length (h_args (host w))) in
  traps (router c) [n] w /\ oom w (Z.of_nat (List.length (seen c (h_args (host w))))) \/
  exists w1, loaded c w w1 /\ forall (Q : list Z -> world -> Prop) (T : Prop),
    served c Q T (sel_bytes c (h_args (host w))) (gnext w) w1 -> wpf (router c) [n] w (resq Q T).
Proof.
  intros c w Hw HB HR HS HN. cbv zeta. pose proof Hw as (P1&P2&P3&P4&P5&P6).
  unfold loaded. set (args := h_args (host w)) in *. assert (Eargs : h_args (host w) = args) by reflexivity. clearbody args.
  set (n := Z.of_nat (List.length args)) in *. set (p := gnext w) in *.
  destruct (wpf_cases _ _ _ _ _ (alloc_spec w n Hw ltac:(lia))) as [(vs&w1&R1&->&Al)|[T1 O1]].
  2:{ left. split.
      - apply wpf_traps. apply wpf_intro; [reflexivity|]. wc. cbn [app]. ws1.
        eapply wp_call; [reflexivity|cbn [List.length]; lia|]. cbn [rev firstn app skipn].
        exists FTrap. split; [exact T1|exact I].
      - eapply oom_mono; [exact O1|]. subst n. destruct args; cbn [seen List.length]; lia. }
  pose proof Al as (Hw1&Em&A1&A2&A3&A4&A5). pose proof Hw1 as (Q1&Q2&Q3&Q4&Q5&Q6). fold p in A3, R1.
  set (m0 := write_bytes (mem w1) p args).
  set (m := store 4 (store 4 m0 396 n) 400 p).
  assert (Head : forall Q T r, wp (routing c) (blk "return" 0 [] r (fret 1 Q T)) [] [n; p; 0; 0; 0; 0] (set_mem w1 m) ->
     wp ([ LocalGet 0; Call alloc; LocalTee 1; Host H_read_args;
     Const 0; LocalSet 3; Const 396; LocalGet 0; Store 4 0; Const 396; LocalGet 1; Store 4 4;
     Block "return" 0 (routing c) ] ++ r) (fret 1 Q T) [] [n; 0; 0; 0; 0; 0] w).
  { intros Q T r H. cbn [app]. ws1.
    eapply wp_call; [reflexivity|cbn [List.length]; lia|]. cbn [rev firstn app skipn].
    eapply returns_wpf; [exact R1|]. cbn [app]. ws1.
    apply wp_read_args; [rewrite A5, Eargs; unfold inb, page_size; fold n; lia|]. rewrite A5, Eargs.
    ws1. ws1. ws1. ws1. ws1. ws1. ws1. ws1. apply wp_block. exact H. }
  assert (L1 : load 4 m 396 = n).
  { unfold m. rewrite load_store_other by lia. rewrite load_4_store. apply w32_small. lia. }
  assert (L2 : load 4 m 400 = p).
  { unfold m. rewrite load_4_store. apply w32_small. lia. }
  assert (V : forall a, ~ within 396 8 a -> rd m a = rd m0 a).
  { intros a Ha. unfold within in Ha. unfold m. rewrite !rd_store_out by lia. reflexivity. }
  assert (U : forall a, ~ within p n a -> rd m0 a = rd (mem w) a).
  { intros a Ha. unfold m0. rewrite rd_write_bytes_out by exact Ha. rewrite Em. reflexivity. }
  assert (Bp : bytes (List.length args) m p = args).
  { rewrite <- (bytes_write (mem w1) p args HB) at 2. fold m0. apply bytes_ext. intros i Hi. apply V. unfold within. lia. }
  clearbody m.
  assert (EA : args = [] \/ args <> []) by (destruct args; [left; reflexivity|right; discriminate]).
  destruct EA as [EA|EA].
  - (* empty calldata *)
    assert (En : n = 0) by (unfold n; rewrite EA; reflexivity). rewrite En in *. clearbody n. rewrite EA in *.
    set (s := sel_bytes c []).
    assert (Hs : byte_list s /\ List.length s = 4%nat).
    { unfold s, sel_bytes. destruct (c_receive c); [apply HR; reflexivity|]. split; [repeat constructor; lia|reflexivity]. }
    assert (K : forall r Q', wp r Q' [] [0; p; le_value s; 0; 0; 0] (set_mem w1 m) ->
        wp (match c_receive c with Some s0 => [Const (le_value s0); LocalSet 2] | None => [] end ++ r) Q' []
           [0; p; 0; 0; 0; 0] (set_mem w1 m)).
    { intros r Q' K. unfold s, sel_bytes in K. destruct (c_receive c); [cbn [app]; ws1; ws1; exact K|exact K]. }
    assert (Hw1m : wok (set_mem w1 m)).
    { apply wok_set_mem; [exact Hw1|]. intros x Hx. rewrite V by (unfold within; lia). rewrite U by (unfold within; lia). rewrite Em. reflexivity. }
    destruct (wpf_cases _ _ _ _ _ (alloc_spec (set_mem w1 m) 4 Hw1m ltac:(lia))) as [(vs&w2&R2&->&Al2)|[T2 O2]].
    2:{ left. split.
        - apply wpf_traps. apply wpf_intro; [reflexivity|]. apply Head. unfold routing. cbn [app]. ws1. apply wp_un. cbn [unop].
          change (b2z (0 =? 0)) with 1. apply wp_if; intros C; [|discriminate]. apply K. ws1. ws1. ws1.
          eapply wp_call; [reflexivity|cbn [List.length]; lia|]. cbn [rev firstn app skipn].
          exists FTrap. split; [exact T2|exact I].
        - unfold oom in *. cbn [maxpages gnext set_mem] in O2. cbn [seen]. fold s. destruct Hs as [_ ->]. fold p. lia. }
    pose proof Al2 as (Hw2&Em2&B1&B2&B3&B4&B5). pose proof Hw2 as (R1'&R2'&R3&R4&R5&R6).
    cbn [gnext mem maxpages pages gcd host set_mem] in Em2, B1, B2, B3, B4, B5.
    assert (Ep : gnext w1 = p) by lia. cbn [gnext set_mem] in R2. rewrite Ep in *.
    set (m2 := store 4 m p (le_value s)).
    assert (F2 : forall x, ~ within p 4 x -> rd m2 x = rd m x).
    { intros x Hx. unfold within in Hx. unfold m2. apply rd_store_out. lia. }
    assert (B4' : bytes 4 m2 p = s).
    { destruct Hs as [Hb Hl]. apply nth_ext with (d := 0) (d' := 0); [rewrite bytes_length; lia|].
      rewrite bytes_length. intros i Hi. rewrite bytes_nth by exact Hi. unfold m2. rewrite rd_store_in by lia.
      rewrite le_value_byte by (try exact Hb; lia). f_equal. lia. }
    assert (Hw2m : wok (set_mem w2 m2)).
    { apply wok_set_mem; [exact Hw2|]. intros x Hx. rewrite F2 by (unfold within; lia). rewrite Em2. reflexivity. }
    right. exists (set_mem w2 m2). split.
    + change (seen c []) with s. destruct Hs as [_ Hl]. rewrite Hl.
      cbn [maxpages pages gcd host gnext mem set_mem].
      split; [exact Hw2m|].
      split; [lia|]. split; [lia|]. split; [congruence|]. split; [congruence|]. split; [lia|].
      split; [exact B4'|]. split; [|split].
      * transitivity (load 4 m 396); [apply load_ext; intros; apply F2; unfold within; lia|exact L1].
      * transitivity (load 4 m 400); [apply load_ext; intros; apply F2; unfold within; lia|exact L2].
      * intros a Ha Ha2. rewrite F2, V, U by (try exact Ha2; unfold within; lia). reflexivity.
    + intros Q T H. apply wpf_intro; [reflexivity|]. apply Head. unfold routing. cbn [app]. ws1. apply wp_un. cbn [unop].
      change (b2z (0 =? 0)) with 1. apply wp_if; intros C; [|discriminate]. clear C. apply K. clear K. ws1. ws1. ws1.
      eapply wp_call; [reflexivity|cbn [List.length]; lia|]. cbn [rev firstn app skipn].
      eapply returns_wpf; [exact R2|]. cbn [app].
      ws1. ws1. ws1. ws1. wc. ws1. ws1. ws1. ws1.
      match goal with |- wp _ _ _ _ ?x => change x with (set_mem w2 (store 4 (mem w2) p (le_value s))) end.
      rewrite Em2. fold m2. apply (dispatch_run c Q T s); [exact Hw2m|lia|lia|exact H].
  - (* a selector was sent *)
    assert (Hn : n <> 0) by (subst n; destruct args; [congruence|]; cbn [List.length]; lia).
    assert (I4 : p + 4 <= 65536 * pages w1).
    { destruct (Z.lt_ge_cases n 4); [|lia]. assert (p + 4 <= 65536 * pages w) by (apply HS; [congruence|lia]). lia. }
    assert (EV : load 4 m p = le_value (sel_bytes c args)).
    { rewrite load_le. f_equal. replace (sel_bytes c args) with (firstn 4 (args ++ [0; 0; 0])) by (destruct args; [congruence|reflexivity]).
      apply nth_ext with (d := 0) (d' := 0).
      { rewrite bytes_length, firstn_length, app_length. cbn [List.length]. subst n. lia. }
      rewrite bytes_length. intros i Hi. rewrite bytes_nth by exact Hi.
      rewrite (nth_firstn_lt i 4 _ 0) by exact Hi.
      destruct (Nat.lt_ge_cases i (List.length args)) as [Li|Li].
      - rewrite app_nth1 by exact Li. rewrite <- Bp at 1. rewrite bytes_nth by exact Li. reflexivity.
      - rewrite app_nth2 by exact Li. rewrite V by (unfold within; lia). rewrite U by (unfold within; lia).
        rewrite P6 by lia. destruct (i - List.length args)%nat as [|[|[|k]]]; reflexivity || (destruct k; reflexivity). }
    assert (Hw1m : wok (set_mem w1 m)).
    { apply wok_set_mem; [exact Hw1|]. intros x Hx. rewrite V by (unfold within; lia). rewrite U by (unfold within; lia). rewrite Em. reflexivity. }
    right. exists (set_mem w1 m). split.
    + replace (seen c args) with args by (destruct args; [congruence|reflexivity]). fold n.
      cbn [maxpages pages gcd host gnext mem set_mem]. split; [exact Hw1m|].
      split; [lia|]. split; [lia|]. split; [congruence|]. split; [congruence|]. split; [lia|].
      split; [exact Bp|]. split; [exact L1|]. split; [exact L2|].
      intros a Ha Ha2. rewrite V, U by (try exact Ha2; unfold within; lia). reflexivity.
    + intros Q T H. apply wpf_intro; [reflexivity|]. apply Head. unfold routing. cbn [app]. ws1. apply wp_un. cbn [unop].
      replace (b2z (n =? 0)) with 0 by (destruct (n =? 0) eqn:E; [lia|reflexivity]).
      apply wp_if; intros C; [congruence|]. clear C.
      ws1. ws1. ws1. ws1. wc. ws1. ws1. ws1. ws1. rewrite EV.
      apply (dispatch_run c Q T (sel_bytes c args)); [exact Hw1m|lia|lia|exact H].
Qed.

(** ** The constructor *)

Lemma bytes_word_load : forall m a k, 0 <= k < 2 ^ 256 -> bytes 32 m a = word k -> load_be 32 m a = k.
Proof.
  intros m a k Hk H. set (m' := store_be 32 (fun _ => 0) 0 k).
  assert (E : load_be 32 m' 0 = k) by (unfold m'; rewrite load_be_store32; apply Z.mod_small; exact Hk).
  rewrite <- E. apply load_be_ext. apply (bytes_inj 32 m m' a 0). rewrite H, bytes_word, E. reflexivity.
Qed.

Lemma be_bytes_range : forall n v, byte_list (be_bytes n v).
Proof. induction n; intros; constructor; [apply Z.mod_pos_bound; lia|apply IHn]. Qed.

Lemma rd_chunk : forall m a k i x, 0 <= x < 8 -> (i < 4)%nat ->
  rd (store 8 m a (key_chunk k i)) (a + x) = nth (8 * i + Z.to_nat x) (word k) 0.
Proof.
  intros m a k i x Hx Hi. rewrite rd_store_in by lia. replace (a + x - a) with x by lia.
  assert (HB : byte_list (be_bytes 32 k)) by apply be_bytes_range.
  unfold key_chunk. rewrite le_value_byte; [|apply Forall_forall; intros y Hy; unfold byte_list in HB; rewrite Forall_forall in HB; apply HB;
    rewrite <- (firstn_skipn (8 * i)); apply in_or_app; right; rewrite <- (firstn_skipn 8 (skipn _ _)); apply in_or_app; left; exact Hy|lia].
  rewrite nth_firstn_lt by lia. unfold word. generalize (be_bytes 32 k). intros l.
  rewrite <- (firstn_skipn (8 * i) l) at 2. destruct (Nat.le_gt_cases (List.length l) (8 * i)) as [C|C].
  - rewrite !nth_overflow; auto; rewrite ?app_length, ?firstn_length, ?skipn_length; lia.
  - rewrite app_nth2 by (rewrite firstn_length; lia). f_equal. rewrite firstn_length. lia.
Qed.

Lemma wp_key : forall r Q s l w k p, wok w -> 0 <= k < 2 ^ 256 -> nth_error l 0 = Some p -> live w p 32 ->
  (forall m, load_be 32 m p = k -> (forall x, ~ within p 32 x -> rd m x = rd (mem w) x) -> wp r Q s l (set_mem w m)) ->
  wp (keccak_string_to_memory k ++ r) Q s l w.
Proof.
  intros r Q s l w k p Hw Hk Hl Lp H. unfold keccak_string_to_memory. cbn [app].
  pose proof Hw as (P1&P2&P3&P4&P5&P6). unfold live in Lp.
  eapply wp_lget; [exact Hl|]. ws1. ws1. eapply wp_lget; [exact Hl|]. ws1. ws1.
  eapply wp_lget; [exact Hl|]. ws1. ws1. eapply wp_lget; [exact Hl|]. ws1. ws1. wc.
  match goal with |- wp _ _ _ _ (set_mem _ ?m) => set (m0 := m) end.
  change (wp r Q s l (set_mem w m0)). apply H.
  - apply bytes_word_load; [exact Hk|]. apply nth_ext with (d := 0) (d' := 0).
    { rewrite bytes_length. unfold word. rewrite be_bytes_length. reflexivity. }
    rewrite bytes_length. intros i Hi. rewrite bytes_nth by exact Hi. subst m0.
    destruct (Nat.lt_ge_cases i 8); [|destruct (Nat.lt_ge_cases i 16); [|destruct (Nat.lt_ge_cases i 24)]].
    + rewrite 3 rd_store_out by lia. rewrite rd_chunk by lia. f_equal. lia.
    + rewrite 2 rd_store_out by lia. replace (p + Z.of_nat i) with (p + 8 + (Z.of_nat i - 8)) by lia.
      rewrite rd_chunk by lia. f_equal. lia.
    + rewrite 1 rd_store_out by lia. replace (p + Z.of_nat i) with (p + 16 + (Z.of_nat i - 16)) by lia.
      rewrite rd_chunk by lia. f_equal. lia.
    + replace (p + Z.of_nat i) with (p + 24 + (Z.of_nat i - 24)) by lia.
      rewrite rd_chunk by lia. f_equal. lia.
  - intros x Hx. unfold within in Hx. unfold m0. rewrite !rd_store_out by lia. reflexivity.
Qed.

(** A function that leaves the caller's heap alone: all that is needed of [init]. *)
Definition keeps_heap (f : func) : Prop := forall args w vs w', wok w -> returns f args w vs w' ->
  wok w' /\ gnext w <= gnext w' /\ (forall a, 468 <= a < gnext w -> rd (mem w') a = rd (mem w) a).

(** The state in which the flag is tested. *)
Lemma wp_constructor_head : forall r (Q : outcome -> Prop) w k, wok w -> 0 <= k < 2 ^ 256 -> (oom w 64 -> Q OTrap) ->
  (forall w1, extends w w1 -> gnext w1 = gnext w + 64 -> load_be 32 (mem w1) (gnext w) = k ->
     load_be 32 (mem w1) (gnext w + 32) = stor (host w) k mod 2 ^ 256 ->
     wp r Q [b2z (stor (host w) k mod 2 ^ 256 =? 0)] [gnext w; gnext w + 32] w1) ->
  wp ([ Const 32; Call alloc; LocalSet 0 ] ++ keccak_string_to_memory k
   ++ [ Const 32; Call alloc; LocalSet 1;
        LocalGet 0; LocalGet 1; Host H_storage_load;
        LocalGet 1; Const 32; Call is_zero ] ++ r) Q [] [0; 0] w.
Proof.
  intros r Q w k Hw Hk HO H. pose proof Hw as (P1&P2&P3&P4&P5&P6). set (p := gnext w) in *.
  change ([Const 32; Call alloc; LocalSet 0] ++ ?x) with (Const 32 :: Call alloc :: LocalSet 0 :: x).
  ws1. wcall alloc_spec; [exact Hw|lia|intros O; apply HO; eapply oom_mono; [exact O|lia]|].
  intros vs w1 [-> Al]. wc. pose proof Al as (Hw1&Em&A1&A2&A3&A4&A5). fold p.
  ws1. eapply wp_key; [exact Hw1|exact Hk|reflexivity|unfold live; fold p in A3; lia|].
  intros m Lk U. cbn [app].
  assert (Hw1m : wok (set_mem w1 m)).
  { apply wok_set_mem; [exact Hw1|]. intros. apply U. unfold within. fold p in A3. lia. }
  ws1. wcall alloc_spec; [exact Hw1m|lia| |].
  { intros O. apply HO. unfold oom in *. cbn [maxpages gnext set_mem] in O. fold p in A3. fold p. lia. }
  intros vs w2 [-> Al2]. wc. pose proof Al2 as (Hw2&Em2&B1&B2&B3&B4&B5).
  cbn [gnext mem maxpages pages gcd host set_mem] in Em2, B1, B2, B3, B4, B5. fold p in A3. rewrite A3 in *.
  ws1. ws1. ws1. apply wp_sload; [exact Hw2|unfold live; lia|unfold live; lia|].
  rewrite Em2, Lk, B5, A5. set (v := stor (host w) k). set (m2 := store_be 32 m (p + 32) v).
  assert (F2 : forall x, ~ within (p + 32) 32 x -> rd m2 x = rd m x).
  { intros x Hx. unfold within in Hx. apply rd_store_be_out. lia. }
  assert (E2 : load_be 32 m2 (p + 32) = v mod 2 ^ 256) by apply load_be_store32.
  clearbody m2.
  assert (X2 : extends w (set_mem w2 m2)).
  { unfold extends. cbn [maxpages pages gcd host gnext mem set_mem].
    split; [apply wok_set_mem; [exact Hw2|]; intros; rewrite F2 by (unfold within; lia); rewrite Em2; reflexivity|].
    split; [lia|]. split; [lia|]. split; [lia|]. split; [congruence|]. split; [congruence|].
    intros a Ha. rewrite F2, U by (unfold within; fold p in Ha; lia). rewrite Em. reflexivity. }
  ws1. ws1. eapply wp_call; [reflexivity|cbn [List.length]; lia|]; cbn [rev firstn app skipn].
  eapply returns_wpf; [apply (is_zero_spec 8); [apply X2|unfold live; cbn [gnext set_mem]; lia]|]. cbn [app mem set_mem].
  change (4 * 8)%nat with 32%nat.
  rewrite load_zero_iff, E2.
  apply H; [exact X2|cbn [gnext set_mem]; lia| |exact E2].
  cbn [mem set_mem]. rewrite <- Lk. apply load_be_ext. intros. apply F2. unfold within. lia.
Qed.

Lemma constructor_later : forall k init w, wok w -> 0 <= k < 2 ^ 256 -> stor (host w) k mod 2 ^ 256 <> 0 ->
  wpf (constructor k init) [] w (resq (fun vs w' => vs = [] /\ extends w w') (oom w 64)).
Proof.
  intros k init w Hw Hk Hs. apply wpf_intro; [reflexivity|]. cbn [app repeat].
  match goal with |- wp _ ?q _ _ _ => change (wp ([ Const 32; Call alloc; LocalSet 0 ] ++ keccak_string_to_memory k
   ++ [ Const 32; Call alloc; LocalSet 1; LocalGet 0; LocalGet 1; Host H_storage_load; LocalGet 1; Const 32; Call is_zero ]
   ++ [ If 0 [ Const 4; Call alloc; Call init; LocalGet 1; Const 1; Store 4 0; LocalGet 0; LocalGet 1; Host H_storage_cache;
               Const 1; Host H_storage_flush ] [] ]) q [] [0; 0] w) end.
  apply wp_constructor_head; [exact Hw|exact Hk|intros O; exact O|].
  intros w1 X1 _ _ _. apply wp_if; intros C.
  - exfalso. apply C. replace (_ =? 0) with false by lia. reflexivity.
  - ws1. wc. ws1. auto.
Qed.

(** What the constructor stores: the word whose first byte is 1. *)
Definition flag_value : Z := 2 ^ 248.

Lemma constructor_first : forall k init nl b (Q : list Z -> world -> Prop) (T : Prop) w, wok w -> 0 <= k < 2 ^ 256 ->
  stor (host w) k mod 2 ^ 256 = 0 -> init = Func 1 nl 0 b -> keeps_heap init -> (oom w 68 -> T) ->
  (forall w1, extends w w1 -> gnext w1 = gnext w + 68 ->
     exists r, evals init [gnext w + 64] w1 r /\
       match r with
       | FRet vs w2 => vs = [] /\ forall m, (forall a, ~ within (gnext w + 32) 4 a -> rd m a = rd (mem w2) a) ->
           let s' := upd (stor (host w2)) k flag_value in
           Q [] (set_host (set_mem w2 m) (set_committed (set_stor (host w2) s') s'))
       | FTrap => T
       | _ => False
       end) ->
  wpf (constructor k init) [] w (resq Q T).
Proof.
  intros k init nl b Q T w Hw Hk Hs Hi HK HO H. apply wpf_intro; [reflexivity|]. cbn [app repeat].
  match goal with |- wp _ ?q _ _ _ => change (wp ([ Const 32; Call alloc; LocalSet 0 ] ++ keccak_string_to_memory k
   ++ [ Const 32; Call alloc; LocalSet 1; LocalGet 0; LocalGet 1; Host H_storage_load; LocalGet 1; Const 32; Call is_zero ]
   ++ [ If 0 [ Const 4; Call alloc; Call init; LocalGet 1; Const 1; Store 4 0; LocalGet 0; LocalGet 1; Host H_storage_cache;
               Const 1; Host H_storage_flush ] [] ]) q [] [0; 0] w) end.
  apply wp_constructor_head; [exact Hw|exact Hk|intros O; wc; apply HO; eapply oom_mono; [exact O|lia]|].
  intros w1 X1 G1 Lk Lv. rewrite Hs in Lv |- *. change (b2z (0 =? 0)) with 1.
  apply wp_if; intros C; [|discriminate]. clear C. pose proof X1 as (Hw1&M1&Pg1&_&_&Hh1&_).
  pose proof Hw as (P1&P2&P3&P4&P5&P6).
  ws1. wcall alloc_spec; [exact Hw1|lia| |].
  { intros O. apply HO. unfold oom in *. lia. }
  intros vs w2 [-> Al]. wc. pose proof Al as (Hw2&Em2&A1&A2&A3&A4&A5). rewrite G1.
  assert (X2 : extends w w2).
  { eapply extends_trans; [exact X1|eapply alloc_extends; [exact Hw1|exact Al|lia]]. }
  destruct (H w2 X2 ltac:(lia)) as (r&Er&Hr).
  eapply wp_call; [exact Hi|cbn [List.length]; lia|]. cbn [rev firstn app skipn].
  exists r. split; [exact Er|]. destruct r as [vs w3| | |]; [|exact Hr|exact Hr|exact Hr].
  destruct Hr as [-> Hr]. cbn [app].
  destruct (HK _ _ _ _ Hw2 Er) as (Hw3&G3&K3). pose proof Hw3 as (R1&R2&R3&R4&R5&R6).
  set (p := gnext w) in *.
  ws1. ws1. ws1. set (m := store 4 (mem w3) (p + 32) 1).
  assert (U : forall a, ~ within (p + 32) 4 a -> rd m a = rd (mem w3) a).
  { intros a Ha. unfold within in Ha. apply rd_store_out. lia. }
  assert (Hw3m : wok (set_mem w3 m)).
  { apply wok_set_mem; [exact Hw3|]. intros. apply U. unfold within. lia. }
  ws1. ws1. apply wp_scache; [exact Hw3m|unfold live; cbn [gnext set_mem]; lia|unfold live; cbn [gnext set_mem]; lia|].
  cbn [mem set_mem host].
  assert (Ek : load_be 32 m p = k).
  { rewrite <- Lk, <- Em2. apply load_be_ext. intros. rewrite U by (unfold within; lia). apply K3. lia. }
  assert (Ef : load_be 32 m (p + 32) = flag_value).
  { change 32%nat with (1 + 31)%nat. rewrite load_be_split. rewrite (load_be_zero 31).
    - cbn [load_be]. unfold m. rewrite rd_store_in by lia. rewrite Z.sub_diag. reflexivity.
    - intros x Hx. change (Z.of_nat 1) with 1 in Hx. change (Z.of_nat 31) with 31 in Hx.
      assert (Zx : rd (mem w3) x = 0).
      { rewrite K3 by lia. rewrite Em2.
        pose proof (bytes_word (mem w1) (p + 32)) as EB. rewrite Lv in EB.
        assert (N : nth (Z.to_nat (x - (p + 32))) (bytes 32 (mem w1) (p + 32)) 0 = 0).
        { rewrite EB. change (word 0) with (repeat 0 32). apply nth_repeat. }
        rewrite bytes_nth in N by lia. rewrite <- N. f_equal. lia. }
      destruct (Z.lt_ge_cases x (p + 36)) as [C|C].
      + unfold m. rewrite rd_store_in by lia. rewrite Z.div_small; [reflexivity|].
        split; [lia|]. assert (1 < 256 ^ 1) by reflexivity.
        pose proof (Z.pow_le_mono_r 256 1 (x - (p + 32)) ltac:(lia) ltac:(lia)). lia.
      + rewrite U by (unfold within; lia). exact Zx. }
  rewrite Ek, Ef. ws1. eapply wp_host; [cbn [hostcall]; reflexivity|]. ws1. wc. ws1. apply (Hr m U).
Qed.
