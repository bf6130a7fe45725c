(** * ABI words: runtime/packing/{uint,heap_uint,enums}.rs, runtime/unpacking/{uint,heap_uint,enums}.rs,
      runtime/abi.rs. *)

From Verif Require Import Tac RtAlloc RtErr RtEq RtDiv RtShift RtSwap RtAscii Ops SpecVal SpecAbi LemAbi.
Ltac Zify.zify_post_hook ::= idtac.

(** runtime/packing/uint.rs 21-57, 70-106.  Locals: 0 value, 1 writer_pointer. *)
Definition pack_u32 : func := Func 2 0 0 [ LocalGet 1; LocalGet 0; Call swap_i32_bytes; Store 4 28 ].
Definition pack_u64 : func := Func 2 0 0 [ LocalGet 1; LocalGet 0; Call swap_i64_bytes; Store 8 24 ].

(** runtime/packing/heap_uint.rs 22-68, 82-127: [n] i64 chunks, loaded right to left and stored left to
    right behind [pad] bytes.  Locals: 0 value_pointer, 1 writer_pointer. *)
Fixpoint pack_chunks (n i : nat) (last pad : Z) : list instr :=
  match n with
  | O => []
  | S n => [ LocalGet 1; LocalGet 0; Load 8 (last - 8 * Z.of_nat i); Call swap_i64_bytes;
             Store 8 (pad + 8 * Z.of_nat i) ] ++ pack_chunks n (S i) last pad
  end.
Definition pack_u128 : func := Func 2 0 0 (pack_chunks 2 0 8 16).
Definition pack_u256 : func := Func 2 0 0 (pack_chunks 4 0 24 0).

(** runtime/packing/heap_uint.rs 141-161. *)
Definition pack_address : func := Func 2 0 0 [ LocalGet 1; LocalGet 0; Const 32; MemCopy ].

(** runtime/packing/enums.rs 13-77.  Locals: 0 enum_ptr, 1 writer_pointer, 2 value, 3 encoded_error_ptr. *)
Definition pack_enum (ep : errtab) : func := Func 2 2 0
 ([ LocalGet 1; LocalGet 0; Load 4 0; LocalTee 2; Const 255; Bin I32 GtU;
    If 0 (return_error ep EnumSizeTooLarge 3 true) [];
    LocalGet 2; Call swap_i32_bytes; Store 4 28 ]).

(** runtime/unpacking/uint.rs 12-52 (locals: 0 reader_pointer, 1 encoded_size), 54-91. *)
Definition unpack_u32 : func := Func 2 0 1
 [ LocalGet 0; Load 4 28; Call swap_i32_bytes; LocalGet 0; LocalGet 1; Bin I32 Add; GlobalSet GCalldata ].
Definition unpack_u64 : func := Func 1 0 1
 [ LocalGet 0; Load 8 24; Call swap_i64_bytes; LocalGet 0; Const 32; Bin I32 Add; GlobalSet GCalldata ].

(** runtime/unpacking/heap_uint.rs 9-47, 49-83, 85-120.  Locals: 0 reader_pointer, 1 unpacked_pointer. *)
Definition unpack_u128 : func := Func 1 1 1
 [ LocalGet 0; Const 16; Bin I32 Add; Const 16; Call alloc; LocalTee 1; Call swap_i128_bytes;
   LocalGet 0; Const 32; Bin I32 Add; GlobalSet GCalldata; LocalGet 1 ].
Definition unpack_u256 : func := Func 1 1 1
 [ LocalGet 0; Const 32; Call alloc; LocalTee 1; Call swap_i256_bytes;
   LocalGet 0; Const 32; Bin I32 Add; GlobalSet GCalldata; LocalGet 1 ].
Definition unpack_address : func := Func 1 1 1
 [ Const 32; Call alloc; LocalSet 1; LocalGet 1; LocalGet 0; Const 32; MemCopy;
   LocalGet 0; Const 32; Bin I32 Add; GlobalSet GCalldata; LocalGet 1 ].

(** runtime/unpacking/enums.rs 16-89, an enum of [n] variants.
    Locals: 0 reader_pointer, 1 variant_number, 2 enum_ptr, 3 encoded_error_ptr. *)
Definition unpack_enum (ep : errtab) (n : nat) : func := Func 1 3 1
 [ LocalGet 0; Const 32; Call unpack_u32; LocalTee 1; Const (Z.of_nat n - 1); Bin I32 GtU;
   If 0 (return_error ep OutOfBounds 3 true) [];
   Const 4; Call alloc; LocalTee 2; LocalGet 1; Store 4 0; LocalGet 2 ].

(** runtime/abi.rs 25-66 [validate_pointer_32_bit].  Locals: 0 pointer, 1.. encoded_error_ptr of each
    of the seven checks (one local here). *)
Fixpoint validate_words (ep : errtab) (n i : nat) : list instr :=
  match n with
  | O => []
  | S n => Block "ok" 0 ([ LocalGet 0; Load 4 (4 * Z.of_nat i); Un Eqz; BrIf "ok" ]
                         ++ return_error ep MemoryAccessOutOfBounds 1 false)
           :: validate_words ep n (S i)
  end.
Definition validate_pointer (ep : errtab) : func := Func 1 1 0 (validate_words ep 7 0).

(** ** Packing *)

Lemma set_mem_id : forall w, set_mem w (mem w) = w.
Proof. destruct w; reflexivity. Qed.

Lemma wp_at_mem : forall c Q s l w, wp c Q s l (set_mem w (mem w)) -> wp c Q s l w.
Proof. intros c Q s l w H. rewrite set_mem_id in H. exact H. Qed.

(** A 32-byte buffer of zeros. *)
Definition zeroed (w : world) (p n : Z) : Prop := forall x, p <= x < p + n -> rd (mem w) x = 0.

(** The word at [wr] becomes [word v], nothing else changes. *)
Definition writes_word (f : func) (args : list Z) (w : world) (wr v : Z) : Prop :=
  exists m, returns f args w [] (set_mem w m) /\ bytes 32 m wr = word v /\
    (forall x, ~ within wr 32 x -> rd m x = rd (mem w) x).

Lemma wpf_set_mem : forall f args w (P : memory -> Prop),
  wpf f args w (resq (fun vs w' => vs = [] /\ exists m, w' = set_mem w m /\ P m) False) ->
  exists m, returns f args w [] (set_mem w m) /\ P m.
Proof.
  intros f args w P H. apply wpf_returns in H. destruct H as (vs&w'&R&->&m&->&Hp). eauto.
Qed.

Lemma word_store : forall k n m wr v, (n + k = 32)%nat -> 0 <= v < 256 ^ Z.of_nat k ->
  (forall x, wr <= x < wr + Z.of_nat n -> rd m x = 0) ->
  bytes 32 (store (Z.of_nat k) m (wr + Z.of_nat n) (bswap k v)) wr = word v.
Proof.
  intros k n m wr v Hn Hv Hz. apply bytes_be. rewrite <- Hn. rewrite load_be_high_zero.
  - apply load_be_store_swapped. exact Hv.
  - intros. rewrite rd_store_out by lia. apply Hz. lia.
Qed.

Lemma pack_u32_spec : forall w v wr, wok w -> live w wr 32 -> zeroed w wr 32 -> 0 <= v < 2 ^ 32 ->
  writes_word pack_u32 [v; wr] w wr v.
Proof.
  intros w v wr Hw L Z Hv. pose proof Hw as (P1&P2&P3&P4&P5&P6). unfold live in L.
  apply (wpf_set_mem pack_u32 [v; wr] w (fun m => bytes 32 m wr = word v /\ _)).
  apply wpf_intro; [reflexivity|]. wc. ws1. ws1. wpure swap_i32_spec; [exact Hv|].
  apply wp_store; [lia|unfold page_size; lia|]. wc. apply wp_nil. wc. split; [reflexivity|]. eexists. split; [reflexivity|].
  split.
  - apply (word_store 4 28); [reflexivity|exact Hv|]. intros. apply Z. lia.
  - intros x Hx. unfold within in Hx. apply rd_store_out. lia.
Qed.

Lemma pack_u64_spec : forall w v wr, wok w -> live w wr 32 -> zeroed w wr 32 -> 0 <= v < 2 ^ 64 ->
  writes_word pack_u64 [v; wr] w wr v.
Proof.
  intros w v wr Hw L Z Hv. pose proof Hw as (P1&P2&P3&P4&P5&P6). unfold live in L.
  apply (wpf_set_mem pack_u64 [v; wr] w (fun m => bytes 32 m wr = word v /\ _)).
  apply wpf_intro; [reflexivity|]. wc. ws1. ws1. wpure swap_i64_spec; [exact Hv|].
  apply wp_store; [lia|unfold page_size; lia|]. wc. apply wp_nil. wc. split; [reflexivity|]. eexists. split; [reflexivity|].
  split.
  - apply (word_store 8 24); [reflexivity|exact Hv|]. intros. apply Z. lia.
  - intros x Hx. unfold within in Hx. apply rd_store_out. lia.
Qed.

(** The chunks still to be written hold the high digits first. *)
Lemma pack_chunks_ok : forall n i last pad (Q : outcome -> Prop) s l p wr w m,
  wok w -> live w p (8 + last) -> live w wr (pad + 8 + last) -> 0 <= pad ->
  (p + 8 + last <= wr \/ wr + pad + 8 + last <= p) ->
  nth_error l 0 = Some p -> nth_error l 1 = Some wr ->
  last = 8 * Z.of_nat (i + n) - 8 ->
  (forall x, within p (8 + last) x -> rd m x = rd (mem w) x) ->
  (forall m', (forall j, pad + 8 * Z.of_nat i <= j < pad + 8 + last -> rd m' (wr + j) = rd (mem w) (p + (7 + last - (j - pad)))) ->
     (forall x, ~ within (wr + pad + 8 * Z.of_nat i) (8 * Z.of_nat n) x -> rd m' x = rd m x) ->
     Q (ONormal s l (set_mem w m'))) ->
  wp (pack_chunks n i last pad) Q s l (set_mem w m).
Proof.
  induction n; intros i last pad Q s l p wr w m Hw Lp Lw Hpad A N0 N1 Hl Hm K; cbn [pack_chunks].
  - apply wp_nil. apply K; [intros; lia|auto].
  - pose proof Hw as (P1&P2&P3&P4&P5&P6). unfold live in *. cbn [app].
    eapply wp_lget; [exact N1|]. eapply wp_lget; [exact N0|].
    apply wp_load; [lia|unfold page_size; wc; lia|]. wc.
    wpure swap_i64_spec; [apply load_8_range|].
    apply wp_store; [lia|unfold page_size; wc; lia|]. wc. change (Z.of_nat 8) with 8.
    set (a := p + (last - 8 * Z.of_nat i)). set (d := wr + (pad + 8 * Z.of_nat i)).
    set (m1 := store 8 m d (bswap 8 (load 8 m a))).
    change (set_mem (set_mem w m) m1) with (set_mem w m1).
    apply (IHn (S i) last pad Q s l p wr w m1); auto; try (unfold live; lia).
    { intros x Hx. unfold m1, d. unfold within in Hx. rewrite rd_store_out by lia. apply Hm. unfold within. lia. }
    intros m' C F. apply K.
    + intros j Hj. destruct (Z_lt_ge_dec j (pad + 8 * Z.of_nat (S i))) as [Hj'|Hj']; [|apply C; lia].
      rewrite F by (unfold within; lia).
      assert (E : rd m1 (wr + j) = rd m (a + (7 - (j - (pad + 8 * Z.of_nat i))))).
      { assert (E8 : load_be 8 m1 d = load 8 m a).
        { unfold m1. rewrite (load_be_store_swapped 8); [reflexivity|apply (load_range 8)]. }
        pose proof (load_be_byte 8 m1 d (j - (pad + 8 * Z.of_nat i)) ltac:(lia)) as B1.
        replace (d + (j - (pad + 8 * Z.of_nat i))) with (wr + j) in B1 by (unfold d; lia).
        rewrite B1, E8. rewrite (load_byte 8 m a) by lia. do 3 f_equal; lia. }
      rewrite E. unfold a. rewrite Hm by (unfold within; lia). f_equal. lia.
    + intros x Hx. rewrite F by (unfold within in *; lia). unfold m1, d. apply rd_store_out. unfold within in Hx. lia.
Qed.

(** A heap integer's [8 k] bytes reversed behind [pad] zeros. *)
Lemma word_reversed : forall k n m0 m p wr, (n + k = 32)%nat ->
  (forall x, wr <= x < wr + Z.of_nat n -> rd m x = 0) ->
  (forall j, Z.of_nat n <= j < 32 -> rd m (wr + j) = rd m0 (p + (Z.of_nat k - 1 - (j - Z.of_nat n)))) ->
  bytes 32 m wr = word (load k m0 p).
Proof.
  intros k n m0 m p wr Hn Hz C. apply bytes_be. rewrite <- Hn, load_be_high_zero by exact Hz.
  rewrite (load_be_of_digits k m (wr + Z.of_nat n) (load k m0 p)).
  - apply Z.mod_small. apply load_range.
  - intros i Hi. replace (wr + Z.of_nat n + i) with (wr + (Z.of_nat n + i)) by lia. rewrite C by lia.
    rewrite (load_byte k) by lia. do 3 f_equal; lia.
Qed.

Lemma pack_u128_spec : forall w p wr, wok w -> live w wr 32 -> zeroed w wr 32 -> live w p 16 ->
  (p + 16 <= wr \/ wr + 32 <= p) -> writes_word pack_u128 [p; wr] w wr (load 16 (mem w) p).
Proof.
  intros w p wr Hw L Z Lp A.
  apply (wpf_set_mem pack_u128 [p; wr] w (fun m => bytes 32 m wr = word _ /\ _)).
  apply wpf_intro; [reflexivity|]. unfold pack_u128. cbn [app repeat List.length Nat.sub].
  eapply wp_at_mem.
  apply (pack_chunks_ok 2 0 8 16 _ _ _ p wr w (mem w)); auto; try (unfold live in *; lia); try reflexivity.
  intros m' C F. wc. split; [reflexivity|]. exists m'. split; [reflexivity|]. split.
  - apply (word_reversed 16 16 (mem w)); [reflexivity| |].
    + intros. rewrite F by (unfold within; lia). apply Z. lia.
    + intros. rewrite C by lia. f_equal; lia.
  - intros x Hx. apply F. unfold within in *. lia.
Qed.

Lemma pack_u256_spec : forall w p wr, wok w -> live w wr 32 -> live w p 32 ->
  (p + 32 <= wr \/ wr + 32 <= p) -> writes_word pack_u256 [p; wr] w wr (load 32 (mem w) p).
Proof.
  intros w p wr Hw L Lp A.
  apply (wpf_set_mem pack_u256 [p; wr] w (fun m => bytes 32 m wr = word _ /\ _)).
  apply wpf_intro; [reflexivity|]. unfold pack_u256. cbn [app repeat List.length Nat.sub].
  eapply wp_at_mem.
  apply (pack_chunks_ok 4 0 24 0 _ _ _ p wr w (mem w)); auto; try (unfold live in *; lia); try reflexivity.
  intros m' C F. wc. split; [reflexivity|]. exists m'. split; [reflexivity|]. split.
  - apply (word_reversed 32 0 (mem w)); [reflexivity| |].
    + intros. lia.
    + intros. rewrite C by lia. f_equal; lia.
  - intros x Hx. apply F. unfold within in *. lia.
Qed.

Lemma pack_address_spec : forall w p wr, wok w -> live w wr 32 -> live w p 32 ->
  writes_word pack_address [p; wr] w wr (load_be 32 (mem w) p).
Proof.
  intros w p wr Hw L Lp. pose proof Hw as (P1&P2&P3&P4&P5&P6). unfold live in *.
  apply (wpf_set_mem pack_address [p; wr] w (fun m => bytes 32 m wr = word _ /\ _)).
  apply wpf_intro; [reflexivity|]. wc. ws. split; [reflexivity|]. eexists. split; [reflexivity|]. split.
  - apply bytes_be. apply load_be_ext. intros. rewrite rd_mcopy_in by lia. f_equal. lia.
  - intros x Hx. apply rd_mcopy_out. unfold within in Hx. lia.
Qed.

Lemma pack_enum_spec : forall ep w p wr, wok w -> live w wr 32 -> zeroed w wr 32 -> live w p 4 ->
  load 4 (mem w) p < 256 -> writes_word (pack_enum ep) [p; wr] w wr (load 4 (mem w) p).
Proof.
  intros ep w p wr Hw L Z Lp Hv. pose proof Hw as (P1&P2&P3&P4&P5&P6). unfold live in *.
  apply (wpf_set_mem (pack_enum ep) [p; wr] w (fun m => bytes 32 m wr = word _ /\ _)).
  apply wpf_intro; [reflexivity|]. wc. ws1. ws1. ws1. ws1. ws1. ws1. ws1; [exfalso; lia|]. ws1. ws1.
  wpure swap_i32_spec; [apply load_4_range|].
  apply wp_store; [lia|unfold page_size; lia|]. wc. apply wp_nil. wc. split; [reflexivity|]. eexists. split; [reflexivity|].
  split.
  - apply (word_store 4 28); [reflexivity|apply (load_range 4)|]. intros. apply Z. lia.
  - intros x Hx. unfold within in Hx. apply rd_store_out. lia.
Qed.

(** ** Unpacking *)

Definition set_gcd (w : world) (g : Z) : world := set_glob GCalldata w g.

Lemma wok_gcd : forall w g, wok w -> wok (set_gcd w g).
Proof. intros w g H. exact H. Qed.

Lemma extends_gcd : forall w w' g, extends w w' -> extends (set_gcd w g) (set_gcd w' g).
Proof. intros w w' g (A1&A2&A3&A4&A5&A6&A7). repeat (split; [assumption || reflexivity|]). exact A7. Qed.

Lemma unpack_u32_spec : forall w r sz, wok w -> live w r 32 -> 0 <= sz -> r + sz < 2 ^ 32 ->
  returns unpack_u32 [r; sz] w [load_be 4 (mem w) (r + 28)] (set_gcd w (r + sz)).
Proof.
  intros w r sz Hw L Hs Hr. pose proof Hw as (P1&P2&P3&P4&P5&P6). unfold live in *.
  apply returns_intro. apply wpf_intro; [reflexivity|]. wc. ws1. ws1. wpure swap_i32_spec; [apply load_4_range|].
  ws. rewrite <- (bswap_load 4). auto.
Qed.

Lemma unpack_u64_spec : forall w r, wok w -> live w r 32 ->
  returns unpack_u64 [r] w [load_be 8 (mem w) (r + 24)] (set_gcd w (r + 32)).
Proof.
  intros w r Hw L. pose proof Hw as (P1&P2&P3&P4&P5&P6). unfold live in *.
  apply returns_intro. apply wpf_intro; [reflexivity|]. wc. ws1. ws1. wpure swap_i64_spec; [apply load_8_range|].
  ws. rewrite <- (bswap_load 8). auto.
Qed.

(** The heap integers: a fresh copy in the machine's byte order. *)
Lemma unpack_heap_spec : forall f k, (f, k) = (unpack_u128, 16%nat) \/ (f, k) = (unpack_u256, 32%nat) ->
  forall w r, wok w -> live w r 32 ->
  wpf f [r] w (resq (fun vs w' => vs = [gnext w] /\ extends (set_gcd w (r + 32)) w' /\ gnext w' = gnext w + Z.of_nat k /\
    load k (mem w') (gnext w) = load_be k (mem w) (r + 32 - Z.of_nat k)) (oom w (Z.of_nat k))).
Proof.
  intros f k Hf w r Hw L. pose proof Hw as (P1&P2&P3&P4&P5&P6). unfold live in *.
  destruct Hf as [E|E]; injection E as -> ->.
  - apply wpf_intro; [reflexivity|]. wc. ws1. ws1. ws1. ws1.
    wcall alloc_spec; [exact Hw|lia|auto|]. intros vs w1 [-> Al]. wc.
    pose proof Al as (Hw1&Em&A1&A2&A3&A4&A5). pose proof Hw1 as (Q1&Q2&Q3&Q4&Q5&Q6).
    ws1. destruct (swap_bytes_values 2 w1 (r + 16) (gnext w) Hw1) as (m&R&F&V1&V2);
      try (unfold live; change (8 * Z.of_nat 2) with 16; lia).
    change (8 * Z.of_nat 2) with 16 in *. change (8 * 2)%nat with 16%nat in *.
    eapply wp_call; [reflexivity|cbn [List.length]; lia|]; cbn [rev firstn app].
    eapply returns_wpf; [exact R|]. cbn [skipn app]. ws. rewrite Em in *.
    destruct (extends_upd w w1 16 m Hw Al ltac:(lia)) as (X1&X2&X3); [exact F|].
    split; [reflexivity|]. split; [exact (extends_gcd _ _ _ X1)|]. split; [exact A3|].
    rewrite V2. f_equal. lia.
  - apply wpf_intro; [reflexivity|]. wc. ws1. ws1.
    wcall alloc_spec; [exact Hw|lia|auto|]. intros vs w1 [-> Al]. wc.
    pose proof Al as (Hw1&Em&A1&A2&A3&A4&A5). pose proof Hw1 as (Q1&Q2&Q3&Q4&Q5&Q6).
    ws1. destruct (swap_bytes_values 4 w1 r (gnext w) Hw1) as (m&R&F&V1&V2);
      try (unfold live; change (8 * Z.of_nat 4) with 32; lia).
    change (8 * Z.of_nat 4) with 32 in *. change (8 * 4)%nat with 32%nat in *.
    eapply wp_call; [reflexivity|cbn [List.length]; lia|]; cbn [rev firstn app].
    eapply returns_wpf; [exact R|]. cbn [skipn app]. ws. rewrite Em in *.
    destruct (extends_upd w w1 32 m Hw Al ltac:(lia)) as (X1&X2&X3); [exact F|].
    split; [reflexivity|]. split; [exact (extends_gcd _ _ _ X1)|]. split; [exact A3|].
    rewrite V2. f_equal. lia.
Qed.

Lemma unpack_address_spec : forall w r, wok w -> live w r 32 ->
  wpf unpack_address [r] w (resq (fun vs w' => vs = [gnext w] /\ extends (set_gcd w (r + 32)) w' /\ gnext w' = gnext w + 32 /\
    load_be 32 (mem w') (gnext w) = load_be 32 (mem w) r) (oom w 32)).
Proof.
  intros w r Hw L. pose proof Hw as (P1&P2&P3&P4&P5&P6). unfold live in *.
  apply wpf_intro; [reflexivity|]. wc. ws1.
  wcall alloc_spec; [exact Hw|lia|auto|]. intros vs w1 [-> Al]. wc.
  pose proof Al as (Hw1&Em&A1&A2&A3&A4&A5). pose proof Hw1 as (Q1&Q2&Q3&Q4&Q5&Q6).
  ws. rewrite Em. set (m := mcopy (mem w) (gnext w) r 32).
  destruct (extends_upd w w1 32 m Hw Al ltac:(lia)) as (X1&X2&X3).
  { intros x Hx. unfold m. apply rd_mcopy_out. unfold within in Hx. lia. }
  split; [reflexivity|]. split; [exact (extends_gcd _ _ _ X1)|]. split; [exact A3|].
  apply load_be_ext. intros. unfold m. rewrite rd_mcopy_in by lia. f_equal. lia.
Qed.

Lemma unpack_enum_spec : forall ep n w r, wok w -> live w r 32 -> errtab_ok ep -> 0 < Z.of_nat n < 2 ^ 32 ->
  let v := load_be 4 (mem w) (r + 28) in
  wpf (unpack_enum ep n) [r] w (resq (fun vs w' =>
    (v < Z.of_nat n /\ vs = [gnext w] /\ extends (set_gcd w (r + 32)) w' /\ gnext w' = gnext w + 4 /\
     load 4 (mem w') (gnext w) = v) \/
    (Z.of_nat n <= v /\ vs = [BADF00D] /\ aborted ep OutOfBounds (set_gcd w (r + 32)) w')) (oom w 4)).
Proof.
  intros ep n w r Hw L He Hn v. pose proof Hw as (P1&P2&P3&P4&P5&P6). pose proof L as L'. unfold live in L'.
  apply wpf_intro; [reflexivity|]. wc. ws1. ws1.
  eapply wp_call; [reflexivity|cbn [List.length]; lia|]; cbn [rev firstn app].
  eapply returns_wpf; [apply unpack_u32_spec; [exact Hw|exact L|lia|lia]|]. cbn [skipn app]. fold v.
  assert (Hv : 0 <= v < 2 ^ 32) by apply (load_be_range 4).
  ws1. ws1. ws1. ws1.
  - werr; [exact Hw|]. right. split; [lia|]. split; [reflexivity|]. apply aborted_store. exact He.
  - ws1. ws1. wcall alloc_spec; [exact Hw|lia|auto|]. intros vs w1 [-> Al]. wc.
    pose proof Al as (Hw1&Em&A1&A2&A3&A4&A5). pose proof Hw1 as (Q1&Q2&Q3&Q4&Q5&Q6).
    cbn [gnext set_gcd set_glob mem pages] in *. change (gnext (set_gcd w (r + 32))) with (gnext w) in *.
    ws. left. rewrite Em. 
    destruct (extends_upd (set_gcd w (r + 32)) w1 4 (store 4 (mem w) (gnext w) v) Hw Al ltac:(lia)) as (X1&X2&X3).
    { intros x Hx. change (gnext (set_gcd w (r + 32))) with (gnext w) in Hx. change (mem (set_gcd w (r + 32))) with (mem w).
      apply rd_store_out. unfold within in Hx. lia. }
    split; [lia|]. split; [reflexivity|]. split; [exact X1|]. split; [exact A3|].
    rewrite load_4_store. apply w32_small. exact Hv.
Qed.

(** ** Range check of offsets *)

Lemma validate_words_ok : forall ep n i (Q : outcome -> Prop) s l p u w, wok w -> errtab_ok ep ->
  nth_error l 0 = Some p -> nth_error l 1 = Some u -> live w p (4 * Z.of_nat (i + n)) ->
  ((forall x, p + 4 * Z.of_nat i <= x < p + 4 * Z.of_nat (i + n) -> rd (mem w) x = 0) -> Q (ONormal s l w)) ->
  ((exists x, p + 4 * Z.of_nat i <= x < p + 4 * Z.of_nat (i + n) /\ rd (mem w) x <> 0) ->
     Q (ORet [] (set_nth 1 (ep MemoryAccessOutOfBounds) l) (set_mem w (store 4 (mem w) 256 (ep MemoryAccessOutOfBounds))))) ->
  wp (validate_words ep n i) Q s l w.
Proof.
  induction n; intros i Q s l p u w Hw He N0 N1 L K1 K2; cbn [validate_words].
  - apply wp_nil. apply K1. intros. lia.
  - pose proof Hw as (P1&P2&P3&P4&P5&P6). pose proof L as L'. unfold live in L'.
    apply wp_block. cbn [app]. eapply wp_lget; [exact N0|]. apply wp_load; [lia|unfold page_size; lia|].
    set (a := p + 4 * Z.of_nat i). ws1. apply wp_brif; intros C; unb C; wc.
    + assert (Z0 : forall x, a <= x < a + 4 -> rd (mem w) x = 0).
      { intros x Hx. replace x with (a + (x - a)) by lia. rewrite (load_byte 4) by lia.
        replace (load 4 (mem w) a) with 0 by lia. rewrite Z.div_0_l; [reflexivity|].
        pose proof (pow256_pos (x - a)). lia. }
      eapply (IHn (S i)); eauto.
      * unfold live. lia.
      * intros H. apply K1. intros x Hx. destruct (Z_lt_ge_dec x (a + 4)); [apply Z0; unfold a; lia|apply H; unfold a in *; lia].
      * intros (x&Hx&Nx). apply K2. exists x. split; [lia|exact Nx].
    + eapply wp_return_error_end; [exact N1|exact Hw|]. wc. apply K2.
      destruct (Z.eq_dec (rd (mem w) a) 0) as [E0|]; [|exists a; unfold a in *; lia].
      destruct (Z.eq_dec (rd (mem w) (a + 1)) 0) as [E1|]; [|exists (a + 1); unfold a in *; lia].
      destruct (Z.eq_dec (rd (mem w) (a + 2)) 0) as [E2|]; [|exists (a + 2); unfold a in *; lia].
      destruct (Z.eq_dec (rd (mem w) (a + 3)) 0) as [E3|]; [|exists (a + 3); unfold a in *; lia].
      exfalso. apply Z.eqb_neq in C. apply C. cbn [load].
      replace (a + 1 + 1) with (a + 2) by lia. replace (a + 2 + 1) with (a + 3) by lia. lia.
Qed.

Lemma high_zero_iff : forall m p, (forall x, p <= x < p + 28 -> rd m x = 0) <-> load_be 32 m p < 2 ^ 32.
Proof.
  intros. split; intros H.
  - change 32%nat with (28 + 4)%nat. rewrite load_be_high_zero by exact H. apply (load_be_range 4).
  - intros x Hx. replace x with (p + (x - p)) by lia. rewrite (load_be_byte 32) by lia.
    rewrite Z.div_small; [reflexivity|]. pose proof (load_be_range 32 m p). split; [lia|].
    apply Z.lt_le_trans with (2 ^ 32); [exact H|]. change (2 ^ 32) with (256 ^ 4). apply Z.pow_le_mono_r; lia.
Qed.

Lemma validate_pointer_spec : forall ep w p, wok w -> errtab_ok ep -> live w p 32 ->
  (load_be 32 (mem w) p < 2 ^ 32 -> returns (validate_pointer ep) [p] w [] w) /\
  (2 ^ 32 <= load_be 32 (mem w) p -> exists w', returns (validate_pointer ep) [p] w [] w' /\ aborted ep MemoryAccessOutOfBounds w w').
Proof.
  intros ep w p Hw He L. split; intros H.
  - apply returns_intro. apply wpf_intro; [reflexivity|]. unfold validate_pointer. cbn [app repeat List.length Nat.sub].
    eapply validate_words_ok; [exact Hw|exact He|reflexivity|reflexivity|unfold live in *; lia| |].
    + intros _. wc. auto.
    + intros (x&Hx&Nx). exfalso. apply Nx. apply (proj2 (high_zero_iff (mem w) p) H). lia.
  - assert (E : wpf (validate_pointer ep) [p] w (resq (fun vs w' => vs = [] /\ aborted ep MemoryAccessOutOfBounds w w') False)).
    { apply wpf_intro; [reflexivity|]. unfold validate_pointer. cbn [app repeat List.length Nat.sub].
      eapply validate_words_ok; [exact Hw|exact He|reflexivity|reflexivity|unfold live in *; lia| |].
      + intros Z0. exfalso. assert (load_be 32 (mem w) p < 2 ^ 32) by (apply high_zero_iff; intros; apply Z0; lia). lia.
      + intros _. wc. split; [reflexivity|]. apply aborted_store. exact He. }
    apply wpf_returns in E. destruct E as (vs&w'&R&->&A). eauto.
Qed.
