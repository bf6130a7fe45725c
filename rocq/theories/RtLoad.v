(** * Reading objects from storage (storage/decoding.rs). *)

From Verif Require Import Tac RtAlloc RtErr RtInt RtInt2 RtEq RtMul RtDiv RtShift RtSwap RtAscii RtCopy RtCopy2 Ops SpecAbi LemAbi SpecVal LemVal SpecStor SpecLayout RtStor RtStore LemStore.
Ltac Zify.zify_post_hook ::= idtac.

(** Bytes written for a scalar (storage/decoding.rs 681-691). *)
Definition cell (t : ty) : nat := if Nat.eqb (esize t) 8 then 8%nat else 4%nat.

(** storage/decoding.rs 675-792: scalars.  Locals: 0 slot_ptr, 1 slot_offset, 2 owner_ptr, 3 data_ptr. *)
Definition decode_scalar (t : ty) : list instr :=
  match t with
  | TBool | TU8 | TU16 | TU32 | TU64 =>
      [ Const (Z.of_nat (esize t)); Call alloc; LocalTee 3 ] ++ slot_data_ptr 1 ++
      [ Load (esize t) 0; Call (if Nat.eqb (esize t) 8 then swap_i64_bytes else swap_i32_bytes) ] ++
      shift_narrow t ++ [ Store (cell t) 0 ]
  | TU128 => slot_data_ptr 1 ++ [ Call (copy_heap_int 16); LocalSet 3; LocalGet 3; LocalGet 3; Call swap_i128_bytes ]
  | TU256 => slot_data_ptr 1 ++ [ Call (copy_heap_int 32); LocalSet 3; LocalGet 3; LocalGet 3; Call swap_i256_bytes ]
  | TAddress =>
      [ Const 32; Call alloc; LocalTee 3; Const 12; Bin I32 Add ] ++ slot_data_ptr 1 ++ [ Const 20; MemCopy ]
  | _ => [ Unreachable ]
  end.

(** storage/decoding.rs 443-637 [add_read_and_decode_storage_vector_instructions]; [dec] decodes an element.
    Locals: 0 slot_ptr, 1 owner_ptr, 2 data_ptr, 3 len, 4 elem_slot_ptr, 5 elem_data_ptr, 6 i, 7 slot_offset. *)
Definition decode_vector (ep : errtab) (t : ty) (dec : func) : func := Func 2 6 1
 [ Const 32; Call alloc; LocalSet 4;
   Const A_SLOT_DATA; Const 0; Const 32; MemFill;
   LocalGet 0; Const A_SLOT_DATA; Host H_storage_load;
   Const A_SLOT_DATA; Load 4 28; Call swap_i32_bytes; LocalSet 3;
   LocalGet 3; LocalGet 3; Const (Z.of_nat (esize t)); Call allocate_vector_with_header; LocalSet 2;
   Block "block" 0
     [ LocalGet 3; Un Eqz; BrIf "block";
       LocalGet 0; Const 32; LocalGet 4; Host H_keccak;
       LocalGet 4; Const A_SLOT_DATA; Host H_storage_load;
       Block "iblock" 0
         [ Const 0; LocalSet 6; Const 0; LocalSet 7;
           Loop "loop" 0
             ([ LocalGet 4; LocalGet 7; Const (field_size t); Call (accumulate_read ep); LocalSet 7;
                LocalGet 4; LocalGet 7; LocalGet 1; Call dec; LocalSet 7; LocalSet 4; LocalSet 5 ] ++
              vec_elem_ptr 2 6 (Z.of_nat (esize t)) ++
              [ LocalGet 5 ] ++ (if is_stack t then [ Load (cell t) 0 ] else []) ++
              [ Store (cell t) 0;
                LocalGet 6; LocalGet 3; Const 1; Bin I32 Sub; Bin I32 Eq; BrIf "iblock";
                LocalGet 6; Const 1; Bin I32 Add; LocalSet 6; Br "loop" ]) ] ];
   LocalGet 2 ].

(** storage/decoding.rs 157-253: the fields from index [i] on, [decs] their decoders.  Locals: 0 slot_ptr,
    [so] slot_offset, [ow] field_owner_ptr, [st] struct_ptr, [fp] field_ptr. *)
Fixpoint decode_fields (ep : errtab) (so ow st fp : nat) (decs : list (Z * func)) (i : Z) : list instr :=
  match decs with
  | [] => []
  | (size, dec) :: r =>
      [ LocalGet 0; LocalGet so; Const size; Call (accumulate_read ep); LocalSet so;
        LocalGet 0; LocalGet so; LocalGet ow; Call dec; LocalSet so; LocalSet 0; LocalSet fp;
        LocalGet st; LocalGet fp; Store 4 (4 * i) ] ++
      decode_fields ep so ow st fp r (i + 1)
  end.

(** storage/decoding.rs 273-427 [add_read_and_decode_storage_enum_instructions]; [tail] computes the tail
    position, [size] is the heap size, [vts] has the decoders of the fields of each variant.
    Locals: 0 slot_ptr, 1 slot_offset, 2 owner_ptr, 3 tail_slot_ptr, 4 enum_ptr, 5 field_ptr,
    6 variant_index, 7 encoded_error_ptr. *)
Definition decode_enum (ep : errtab) (tail : func) (size : Z) (vts : list (list (Z * func))) : func := Func 3 5 3
 ([ LocalGet 0; LocalGet 1; Call tail; LocalSet 3;
    Const size; Call alloc; LocalSet 4;
    LocalGet 0; LocalGet 1; Const 1; Call (accumulate_read ep); LocalSet 1 ] ++
  slot_data_ptr 1 ++
  [ Load 1 0; LocalSet 6;
    LocalGet 4; LocalGet 6; Store 4 0;
    Block "join" 0 (match_arms 6 0 (map (fun decs => decode_fields ep 1 2 4 5 decs 1) vts) ++
      return_error ep OutOfBounds 7 true);
    LocalGet 3; Load 4 32; LocalSet 1;
    LocalGet 3; LocalSet 0;
    LocalGet 4; LocalGet 0; LocalGet 1 ]).

(** storage/decoding.rs 653-902 [add_decode_intermediate_type_instructions] and, for structs without
    [key], 39-256 [add_read_and_decode_storage_struct_instructions].  Inlined in the code, where enums
    change the locals slot_ptr and slot_offset and errors leave the enclosing function; here a function
    of slot_ptr, slot_offset and owner_ptr that returns data_ptr, slot_ptr and slot_offset.
    For children with [key] (797-852) see RtWrapLoad.v. *)
Fixpoint decode_type (ep : errtab) (t : ty) : func :=
  match t with
  | TStruct false fs => Func 3 2 3
      ([ Const (4 * Z.of_nat (List.length fs)); Call alloc; LocalSet 3 ] ++
       decode_fields ep 1 2 3 4 (map (fun t' => (field_size t', decode_type ep t')) fs) 0 ++
       [ LocalGet 3; LocalGet 0; LocalGet 1 ])
  | TVec t' => Func 3 1 3
      [ LocalGet 0; LocalGet 2; Call (decode_vector ep t' (decode_type ep t')); LocalSet 3; LocalGet 3; LocalGet 0; LocalGet 1 ]
  | TEnum vts => decode_enum ep (enum_tail ep vts) (enum_size vts) (map (map (fun t' => (field_size t', decode_type ep t'))) vts)
  | _ => Func 3 1 3 (decode_scalar t ++ [ LocalGet 3; LocalGet 0; LocalGet 1 ])
  end.

(** runtime/storage.rs 889-933 [add_read_and_decode_from_storage_fn] with storage/decoding.rs 39-256, for a
    struct with [key] whose first field is its id and whose other fields are [fs]; [h] is the type hash.
    Locals: 0 slot_ptr, 1 struct_id_ptr, 2 owner_ptr, 3 slot_offset, 4 struct_ptr, 5 field_ptr,
    6 field_owner_ptr, 7 struct_id_ptr_wrapper, 8 encoded_error_ptr. *)
Definition load_object (ep : errtab) (h : Z) (fs : list ty) : func := Func 3 6 1
 ([ Const 0; LocalSet 3;
    Const 32; Call alloc; LocalGet 2; Const 32; MemCopy;
    LocalGet 0; Const A_SLOT_DATA; Host H_storage_load;
    Const A_SLOT_DATA; Const 32; Call is_zero;
    If 0 (return_error ep StorageObjectNotFound 8 true) [];
    Const A_SLOT_DATA; Load 8 24; Const h; Bin I64 Eq;
    If 0 [ Const 8; LocalSet 3 ] (return_error ep StorageObjectTypeMismatch 8 true);
    LocalGet 1; LocalSet 6;
    Const (4 + 4 * Z.of_nat (List.length fs)); Call alloc; LocalSet 4;
    Const 4; Call alloc; LocalGet 4; Store 4 0;
    Const 4; Call alloc; LocalSet 5;
    Const 4; Call alloc; LocalSet 7;
    LocalGet 7; LocalGet 1; Store 4 0;
    LocalGet 5; LocalGet 7; Store 4 0;
    LocalGet 4; LocalGet 5; Store 4 0 ] ++
  decode_fields ep 3 6 4 5 (map (fun t => (field_size t, decode_type ep t)) fs) 1 ++
  [ LocalGet 4 ]).

(** ** Reading along *)

Definition loaded (w : world) (q : position) : Prop := load_be 32 (mem w) 64 = stor (host w) (fst q) mod 2 ^ 256.
Definition at_pos (w : world) (p : Z) (q : position) (b : bool) : Prop := load_be 32 (mem w) p = fst q /\ (b = true -> snd q = 32 \/ loaded w q).
Definition seen (M : mset) (w w' : world) : Prop := grows M w w' /\ host w' = host w.

Lemma seen_trans : forall M a b c, seen M a b -> seen M b c -> seen M a c.
Proof. unfold seen. intros M a b c (A&B) (C&D). split; [eapply grows_trans; eassumption|congruence]. Qed.
Lemma seen_trans' : forall (M M' : mset) a b c, seen M a b -> seen M' b c -> (forall x, 0 <= x < gnext a -> M' x -> M x) -> seen M a c.
Proof.
  intros M M' a b c ((A1&A2&A3&A4&A5&A6&A7)&A8) ((B1&B2&B3&B4&B5&B6&B7)&B8) S. split; [|congruence].
  split; [exact B1|]. split; [congruence|]. split; [lia|]. split; [lia|]. split; [congruence|]. split; [rewrite B8, A8; symmetry; apply set_stor_same|].
  intros x Hx Nx. rewrite B7, A7; [reflexivity|exact Hx|exact Nx|lia|]. intros Y. apply Nx, S; assumption.
Qed.
Lemma seen_extends : forall M w w', extends w w' -> seen M w w'.
Proof. intros M w w' E. split; [apply grows_extends; exact E|apply E]. Qed.
Lemma seen_set_mem : forall (M : mset) w m, wok w -> (forall a, ~ M a -> rd m a = rd (mem w) a) -> (forall a, M a -> a < gnext w) ->
  seen M w (set_mem w m).
Proof. intros. split; [apply grows_set_mem; assumption|reflexivity]. Qed.

Lemma accumulate_read_spec : forall ep w p q b sz, ready ep w p -> good q -> at_pos w p q b -> 0 <= sz <= 32 -> fst (room q sz) < 2 ^ 256 ->
  wpf (accumulate_read ep) [p; snd q; sz] w (resq (fun r w' => r = [snd (room q sz)] /\ seen (slot_mem p) w w' /\
    gnext w' = gnext w /\ let b' := b || (32 <? snd q + sz) in at_pos w' p (room q sz) b' /\ (0 < sz -> b' = true -> loaded w' (room q sz))) False).
Proof.
  intros ep w p [k o] b sz (Hw&He&H1&Hp&Hp2) Gq (A1&A2) Hs B. unfold good in Gq. cbn [fst snd] in *. pose proof Hw as (P1&P2&P3&P4&P5&P6).
  cbn [room] in *. apply wpf_intro; [reflexivity|]. wc. ws1. ws1. ws1. ws1. ws1. apply wp_if; intros C; unb C.
  - assert (E : o + sz <=? 32 = false) by lia. rewrite E in B |- *. cbn [fst snd] in *. cbn [app]. unfold A_SLOT_DATA.
    destruct (storage_next_slot_spec ep w p Hw He H1) as (w3&R3&S3); [unfold live; lia|lia|].
    rewrite A1 in R3, S3. destruct (Z.eqb_spec k (2 ^ 256 - 1)) as [X|X]; [exfalso; lia|]. destruct S3 as (F3&V3).
    ws1. eapply wp_call; [reflexivity|cbn [List.length]; lia|]. wc. eapply returns_wpf; [exact R3|]. wc. ws1. ws1.
    assert (G3 : grows (slot_mem p) w w3).
    { eapply grows_frame; [exact Hw|exact F3|unfold sub, slot_mem; auto|]. intros a Ha. unfold within in Ha. lia. }
    pose proof F3 as (F31&F32&F33&F34&F35&F36&F37). pose proof (proj1 G3) as Hw3. pose proof Hw3 as (Q1&Q2&Q3&Q4&Q5&Q6).
    apply wp_sload; [exact Hw3|unfold live; lia|unfold live; lia|]. rewrite V3. set (w4 := set_mem w3 _).
    ws1. ws1. ws1. ws1. ws1. assert (S4 : seen (slot_mem p) w3 w4).
    { apply seen_set_mem; [exact Hw3| |unfold slot_mem, within; lia]. intros a Ha. apply rd_store_be_out. unfold slot_mem, within in Ha. lia. }
    assert (L4 : load_be 32 (mem w4) 64 = stor (host w4) (k + 1) mod 2 ^ 256).
    { cbn [w4 mem set_mem]. rewrite load_be_store32. reflexivity. }
    split; [reflexivity|]. split; [eapply seen_trans; [split; [exact G3|exact F36]|exact S4]|]. split; [exact F33|].
    split; [|intros _ _; exact L4]. split; [|intros _; right; exact L4]. cbn [fst]. rewrite <- V3. cbn [w4 mem set_mem]. apply load_be_ext. intros. apply rd_store_be_out. lia.
  - assert (E : o + sz <=? 32 = true) by lia. rewrite E in B |- *. cbn [fst snd] in *. ws1. ws1. ws1. ws1. ws1. ws1. ws1.
    split; [reflexivity|]. split; [split; [apply grows_refl; exact Hw|reflexivity]|]. split; [reflexivity|].
    unfold at_pos. cbn [fst snd]. unfold loaded in *. cbn [fst] in *. split; [split; [exact A1|]|].
    + intros Eb. replace (32 <? o + sz) with false in Eb by lia. rewrite orb_false_r in Eb. destruct (A2 Eb) as [A3|A3]; [left; lia|right; exact A3].
    + intros S Eb. replace (32 <? o + sz) with false in Eb by lia. rewrite orb_false_r in Eb. destruct (A2 Eb) as [A3|A3]; [lia|exact A3].
Qed.

(** ** Values *)

Definition moved (w : world) (p : Z) (w' : world) (p' : Z) : Prop := p' = p \/ gnext w <= p' /\ p' + 32 <= gnext w'.

Definition read_post (w : world) (p : Z) (t : ty) (v : val) (q' : position) (b' : bool) (r : list Z) (w' : world) : Prop :=
  exists a p' F, r = [snd q'; p'; a] /\ seen (slot_mem p) w w' /\ gnext w' <= gnext w + memory_for t v /\ at_pos w' p' q' b' /\
    field_of (mem w') t (vrep (mem w') t) v a F /\ sub F (between (gnext w) (gnext w')) /\ gnext w <= a <= gnext w' /\
    moved w p w' p' /\ disj F (between p' (p' + 32)) /\
    (is_stack t = true -> p' = p /\ v = VInt (load (cell t) (mem w') a) /\ a + Z.of_nat (cell t) <= 65536 * pages w').

Definition fits (l : list (Z * Z)) : Prop := Forall (fun a => snd a < 2 ^ 256) l.

Definition reads (t : ty) : Prop := forall ep w p ow q v b b', ready ep w p -> good q ->
  let c := b || (32 <? snd q + field_size t) in
  at_pos w p (room q (field_size t)) c -> (0 < field_size t -> c = true -> loaded w (room q (field_size t))) ->
  held (keccak (host w)) (stor (host w)) t v q -> fetched (keccak (host w)) t v q b = Some b' ->
  fst (after t q) < 2 ^ 256 -> fits (areas (keccak (host w)) t v q) -> memory_for t v < 2147483648 ->
  wpf (decode_type ep t) [p; snd (room q (field_size t)); ow] w (resq (read_post w p t v (after t q) b') (ctrap w (narrow t) (memory_for t v))).

(** For scalars: the value's slot is in memory. *)
Definition reads_scalar (t : ty) : Prop := forall ep w p ow q v, ready ep w p -> good q ->
  load_be 32 (mem w) p = fst (room q (width t)) -> loaded w (room q (width t)) -> held (keccak (host w)) (stor (host w)) t v q ->
  wpf (decode_type ep t) [p; snd (room q (width t)); ow] w (resq (fun r w' =>
    exists a F, r = [snd (room q (width t)); p; a] /\ seen (slot_mem p) w w' /\ gnext w' <= gnext w + memory_for t v /\ at_pos w' p (room q (width t)) true /\
    field_of (mem w') t (vrep (mem w') t) v a F /\ sub F (between (gnext w) (gnext w')) /\ gnext w <= a <= gnext w' /\
    (is_stack t = true -> v = VInt (load (cell t) (mem w') a) /\ a + Z.of_nat (cell t) <= 65536 * pages w')) (ctrap w (narrow t) (memory_for t v))).
Lemma scalar_reads : forall t, match t with TVec _ | TStruct _ _ | TEnum _ => False | _ => True end -> reads_scalar t -> reads t.
Proof.
  intros t Sc R ep w p ow q v b b' Rd Gq c (A1&A2) L Hd Ff _ _ _.
  assert (W : field_size t = width t /\ after t q = room q (width t) /\ 0 < width t /\ fetched (keccak (host w)) t v q b = if b || (32 <? snd q + width t) then Some true else None)
    by (destruct t; try contradiction; destruct v; repeat split; reflexivity || (cbn; lia)).
  destruct W as (W1&W2&W3&W4). rewrite W4 in Ff. rewrite W2. unfold c in *. rewrite W1 in *. destruct (b || (32 <? snd q + width t)); [|discriminate]. injection Ff as <-.
  eapply wpf_conseq; [apply (R ep w p ow q v); auto|]. intros o. destruct o; cbn [resq]; auto.
  intros (a&F&->&B1&B2&B3&B4&B5&B6&B7). exists a, p, F. do 7 (split; [first [reflexivity|assumption]|]). split; [left; reflexivity|]. split; [|intros St; split; [reflexivity|exact (B7 St)]].
  intros x X Y. apply B5 in X. destruct Rd as (_&_&_&_&Hp). unfold between in *. lia.
Qed.

Lemma room_size : forall q s, good q -> 0 <= s <= 32 -> s <= snd (room q s) <= 32.
Proof. unfold good. intros [k o] s G H. cbn [room snd] in *. destruct (Z.leb_spec (o + s) 32); cbn [snd]; lia. Qed.

(** A scalar in the slot data. *)
Lemma slot_value : forall w q t v (sz : nat), width t = Z.of_nat sz -> good q -> (1 <= sz <= 32)%nat -> loaded w (room q (width t)) ->
  match t with TVec _ | TStruct _ _ | TEnum _ => False | _ => True end ->
  held (keccak (host w)) (stor (host w)) t v q ->
  exists n, v = VInt n /\ 0 <= n < 2 ^ vbits t /\ load_be sz (mem w) (96 - snd (room q (width t))) = n /\ Z.of_nat sz <= snd (room q (width t)) <= 32.
Proof.
  intros w q t v sz W Gq S L Sc Hd. pose proof (room_size q (width t) Gq ltac:(lia)) as R.
  assert (Hd' : let (k, o) := room q (width t) in exists n, v = VInt n /\ 0 <= n < 2 ^ vbits t /\ part (stor (host w) k) (o - width t) (width t) = n)
    by (destruct t; try contradiction; exact Hd). clear Hd. unfold loaded in L. destruct (room q (width t)) as [k o]. cbn [fst snd] in *. destruct Hd' as (n&->&B&E).
  exists n. split; [reflexivity|]. split; [exact B|]. split; [|lia]. rewrite <- E. rewrite W in *.
  replace o with (Z.of_nat (Z.to_nat o)) by lia. rewrite slot_get by lia. rewrite L. change (2 ^ 256) with (256 ^ 32). apply (part_ext _ _ _ _ 32); lia || (apply Z.mod_mod; discriminate).
Qed.

Lemma decode_int_spec : forall t, is_stack t = true -> reads_scalar t.
Proof.
  intros t St ep w p ow q v Rd Gq At L Hd. pose proof Rd as (Hw&He&H1&Hp&Hp2). pose proof Hw as (P1&P2&P3&P4&P5&P6).
  assert (W : width t = Z.of_nat (esize t) /\ field_size t = width t /\ (1 <= esize t <= 8)%nat /\ memory_for t v = Z.of_nat (esize t))
    by (destruct t; try discriminate; cbn; repeat split; lia). destruct W as (W1&W2&W3&W4). rewrite W4 in *.
  destruct (slot_value w q t v (esize t) W1 Gq ltac:(lia)) as (n&->&B&E&Hq); [exact L|destruct t; try discriminate; exact Logic.I|exact Hd|].
  assert (Ef : decode_type ep t = Func 3 1 3 (decode_scalar t ++ [ LocalGet 3; LocalGet 0; LocalGet 1 ])) by (destruct t; try discriminate; reflexivity). rewrite Ef. clear Ef.
  apply wpf_intro; [reflexivity|]. wc.
  assert (Ec : decode_scalar t = [ Const (Z.of_nat (esize t)); Call alloc; LocalTee 3 ] ++ slot_data_ptr 1 ++
      [ Load (esize t) 0 ] ++ [ Call (if Nat.eqb (esize t) 8 then swap_i64_bytes else swap_i32_bytes) ] ++
      shift_narrow t ++ [ Store (cell t) 0 ]) by (destruct t; try discriminate; reflexivity). rewrite Ec. clear Ec. rewrite <- !app_assoc. cbn [app].
  set (q1 := room q (width t)) in *. ws1. wcall alloc_spec; [exact Hw|lia|intros O; left; exact O|].
  intros vs w1 [-> Al]. wc. pose proof Al as (Hw1&Em&A1&A2&A3&A4&A5). pose proof Hw1 as (Q1&Q2&Q3&Q4&Q5&Q6).
  ws1. apply (wp_slot_data_ptr 1 (snd q1)); [reflexivity|lia|]. apply wp_load; [lia|unfold page_size; lia|]. rewrite Z.add_0_r.
  pose proof (load_range (esize t) (mem w1) (96 - snd q1)) as Lr.
  apply (wp_swap_narrow t); [exact St|exact Lr|]. rewrite bswap_load, Em, E. cbn [app].
  assert (Bn : 0 <= n < 256 ^ Z.of_nat (esize t)).
  { rewrite <- E. apply load_be_range. }
  assert (Ce : (esize t <= cell t)%nat /\ (narrow t = true \/ cell t = esize t) /\ (cell t <= esize t + 3)%nat) by (destruct t; try discriminate; cbn; repeat split; auto; lia).
  destruct Ce as (Ce1&Ce2&Ce3).
  destruct (Z.lt_ge_cases (65536 * pages w1) (gnext w + Z.of_nat (cell t))) as [Tr|Ok].
  { apply wp_store_trap; [unfold page_size; lia|]. right. destruct Ce2 as [Ce2|Ce2]; [|exfalso; rewrite Ce2 in Tr; lia].
    split; [exact Ce2|]. exists (pages w1). lia. }
  apply wp_store; [lia|unfold page_size; lia|]. rewrite Z.add_0_r. set (m := store _ _ _ _).
  assert (U : forall x, rd m x = rd (store (Z.of_nat (esize t)) (mem w) (gnext w) n) x).
  { intros x. unfold m. rewrite Em. apply rd_store_narrow; [lia|exact Bn|]. intros y Hy. apply P6. lia. }
  destruct (extends_upd w w1 (Z.of_nat (esize t)) m Hw Al ltac:(lia)) as (X1&X2&_).
  { intros x Hx. rewrite U. apply rd_store_out. unfold within in Hx. lia. }
  ws1. ws1. ws1. ws1. exists (gnext w), (between (gnext w) (gnext w + Z.of_nat (esize t))). split; [reflexivity|].
  split; [apply seen_extends; exact X1|]. split; [cbn [gnext set_mem]; lia|].
  assert (Lm : load (cell t) m (gnext w) = n).
  { unfold m. rewrite Em, load_store_same. apply Z.mod_small. assert (256 ^ Z.of_nat (esize t) <= 256 ^ Z.of_nat (cell t)) by (apply Z.pow_le_mono_r; lia). lia. }
  assert (Lm2 : load (esize t) m (gnext w) = n).
  { rewrite (load_ext (esize t) m (store (Z.of_nat (esize t)) (mem w) (gnext w) n) (gnext w) (gnext w)) by (intros; apply U).
    rewrite load_store_same. apply Z.mod_small. exact Bn. }
  split; [|split; [|split; [|split; [cbn [gnext set_mem]; lia|]]]].
  - split; [|right]; unfold loaded in *; cbn [mem set_mem host].
    + rewrite <- At. apply load_be_ext. intros i Hi. rewrite U, rd_store_out by lia. reflexivity.
    + rewrite A5. rewrite <- L. apply load_be_ext. intros i Hi. rewrite U, rd_store_out by lia. reflexivity.
  - unfold field_of. rewrite St. split; [apply sub_refl|]. cbn [mem set_mem]. rewrite Lm2. split; [reflexivity|exact B].
  - cbn [gnext set_mem]. rewrite A3. apply sub_refl.
  - intros _. cbn [mem set_mem pages]. rewrite Lm. split; [reflexivity|lia].
Qed.

Lemma decode_wide_spec : forall N t, (N = 2%nat /\ t = TU128 \/ N = 4%nat /\ t = TU256) -> reads_scalar t.
Proof.
  intros N t Nt ep w p ow q v Rd Gq At Ln Hd. pose proof Rd as (Hw&He&H1&Hp&Hp2). pose proof Hw as (P1&P2&P3&P4&P5&P6).
  set (n := Z.of_nat (8 * N)).
  assert (W : (8 * N <= 32)%nat /\ (1 <= 8 * N)%nat /\ width t = n /\ is_stack t = false /\ memory_for t v = n /\
    match t with TVec _ | TStruct _ _ | TEnum _ => False | _ => True end /\
    (forall m a F, vrep m t v a F <-> int_val t v (load (8 * N) m a) /\ sub (between a (a + n)) F) /\
    decode_type ep t = Func 3 1 3 (slot_data_ptr 1 ++ [ Call (copy_heap_int n); LocalSet 3; LocalGet 3; LocalGet 3; Call (swap_bytes N); LocalGet 3; LocalGet 0; LocalGet 1 ]))
    by (destruct Nt as [[-> ->]|[-> ->]]; unfold n; repeat (split; [first [reflexivity|exact Logic.I|lia|intros; reflexivity]|]); reflexivity).
  destruct W as (W0&W00&W1&W3&W4&W6&W7&Ef). rewrite W4, Ef in *. rewrite W1 in *. clear Ef.
  set (q1 := room q n) in *.
  destruct (slot_value w q t v (8 * N)) as (z&->&B&E&Hq); try assumption; [lia|rewrite W1; exact Ln|]. rewrite W1 in E, Hq. fold q1 in E, Hq. fold n in Hq.
  apply wpf_intro; [reflexivity|]. wc. apply (wp_slot_data_ptr 1 (snd q1)); [reflexivity|lia|].
  wcall copy_heap_int_spec; [exact Hw|unfold live; lia|lia|intros O; left; exact O|].
  intros r w1 (->&E1&G1&C1). wc. pose proof E1 as (Hw1&X1&X2&X3&X4&X5&X6). pose proof Hw1 as (Q1&Q2&Q3&Q4&Q5&Q6). ws1. ws1. ws1.
  destruct (swap_bytes_values N w1 (gnext w) (gnext w) Hw1) as (m&Rm&Fm&_&V2); try (unfold live; lia).
  eapply wp_call; [reflexivity|cbn [List.length]; lia|]. wc. eapply returns_wpf; [exact Rm|]. wc. ws1. ws1. ws1. ws1.
  assert (E2 : extends w (set_mem w1 m)) by (apply (extends_write w w1 m (gnext w) (8 * Z.of_nat N) Hw E1); [exact Fm|lia|lia]).
  assert (Lz : load (8 * N) m (gnext w) = z).
  { rewrite V2, <- E. apply load_be_ext. intros i Hi. apply C1. fold n in Hi. lia. }
  exists (gnext w), (between (gnext w) (gnext w + n)). split; [reflexivity|]. split; [apply seen_extends; exact E2|]. split; [cbn [gnext set_mem]; lia|].
  assert (Lo : forall a, 0 <= a -> a + 32 <= gnext w -> load_be 32 m a = load_be 32 (mem w) a).
  { intros a Ha Hb. apply load_be_ext. intros i Hi. rewrite Fm by (unfold within; lia). apply X6. lia. }
  split; [|split; [|split; [|split; [cbn [gnext set_mem]; lia|rewrite W3; discriminate]]]].
  - split; [|right]; unfold loaded in *; cbn [mem set_mem host]; rewrite Lo by lia; [exact At|rewrite X5; exact Ln].
  - unfold field_of. rewrite W3. apply W7. cbn [mem set_mem]. rewrite Lz. split; [split; [reflexivity|exact B]|apply sub_refl].
  - cbn [gnext set_mem]. rewrite G1. apply sub_refl.
Qed.

Lemma decode_address_spec : reads_scalar TAddress.
Proof.
  intros ep w p ow q v Rd Gq At Ln Hd. pose proof Rd as (Hw&He&H1&Hp&Hp2). pose proof Hw as (P1&P2&P3&P4&P5&P6).
  cbn [memory_for width narrow] in *.
  destruct (slot_value w q TAddress v 20) as (z&->&B&E&Hq); try assumption; [reflexivity|lia|exact Logic.I|]. cbn [width] in E, Hq. set (q1 := room q 20) in *.
  cbn [decode_type decode_scalar]. apply wpf_intro; [reflexivity|]. wc. ws1.
  wcall alloc_spec; [exact Hw|lia|intros O; left; exact O|].
  intros vs w1 [-> Al]. wc. pose proof Al as (Hw1&Em&A1&A2&A3&A4&A5). pose proof Hw1 as (Q1&Q2&Q3&Q4&Q5&Q6). ws1. ws1. ws1.
  rewrite <- app_assoc. apply (wp_slot_data_ptr 1 (snd q1)); [reflexivity|lia|]. cbn [app]. ws1.
  apply wp_mcopy; [lia|unfold page_size; lia|lia|unfold page_size; lia|]. rewrite Em. set (m := mcopy _ _ _ _).
  destruct (extends_upd w w1 32 m Hw Al ltac:(lia)) as (X1&X2&_).
  { intros x Hx. unfold m. apply rd_mcopy_frame. unfold within in *. lia. }
  ws1. ws1. ws1. ws1.
  assert (Lo : forall a, 0 <= a -> a + 32 <= gnext w -> load_be 32 m a = load_be 32 (mem w) a).
  { intros a Ha Hb. apply load_be_ext. intros i Hi. apply rd_mcopy_out. lia. }
  assert (Lz : load_be 32 m (gnext w) = z).
  { rewrite (load_be_split 12 20). rewrite load_be_zero.
    - rewrite Z.mul_0_l, Z.add_0_l, <- E. apply load_be_ext. intros i Hi. unfold m. rewrite rd_mcopy_in by lia. f_equal. lia.
    - intros x Hx. unfold m. rewrite rd_mcopy_out by lia. apply P6. lia. }
  exists (gnext w), (between (gnext w) (gnext w + 32)). split; [reflexivity|]. split; [apply seen_extends; exact X1|]. split; [cbn [gnext set_mem memory_for]; lia|].
  split; [|split; [|split; [|split; [cbn [gnext set_mem]; lia|discriminate]]]].
  - split; [|right]; unfold loaded in *; cbn [mem set_mem host]; rewrite Lo by lia; [exact At|rewrite A5; exact Ln].
  - unfold field_of. cbn [is_stack vrep mem set_mem]. rewrite Lz. split; [split; [reflexivity|exact B]|apply sub_refl].
  - cbn [gnext set_mem]. rewrite A3. apply sub_refl.
Qed.

(** ** Fields *)

Lemma ctrap_seen : forall M w w1 b b' n k, seen M w w1 -> ctrap w1 b n -> gnext w1 + n <= gnext w + k -> (b = true -> b' = true) -> ctrap w b' k.
Proof.
  intros M w w1 b b' n k ((_&E1&_&E2&_)&_) T H I. destruct T as [O|[B [j [C1 C2]]]].
  - left. unfold oom in *. rewrite E1 in O. lia.
  - right. split; [auto|]. exists j. lia.
Qed.

Lemma seen_mono : forall (M M' : mset) w w', seen M w w' -> (forall x, 0 <= x < gnext w -> M x -> M' x) -> seen M' w w'.
Proof. intros M M' w w' (A&B) S. split; [eapply grows_mono; eassumption|exact B]. Qed.

Lemma ready_seen : forall ep M w w' p, ready ep w p -> seen M w w' -> (forall x, 32 <= x < 64 -> ~ M x) -> ready ep w' p.
Proof.
  intros ep M w w' p (R1&R2&R3&R4&R5) (G&_) H. pose proof G as (G1&_&_&G4&_). pose proof R1 as (P1&P2&P3&P4&P5&P6).
  split; [exact G1|]. split; [exact R2|]. split; [|lia]. rewrite <- R3.
  eapply load_grows; [exact G|lia|lia|]. intros x Hx. apply H. lia.
Qed.

Lemma memory_for_nonneg : forall t v, 0 <= memory_for t v.
Proof.
  intros t. refine (ty_rec' (fun t => forall v, 0 <= memory_for t v) _ _ _ _ _ _ _ t); clear t.
  - intros t St v. destruct t; try discriminate; destruct v; cbn; lia.
  - intros v. cbn. lia.
  - intros v. cbn. lia.
  - intros v. cbn. lia.
  - intros t IH v. destruct v as [z|l|o l|g l]; cbn [memory_for]; try (cbn; lia).
    assert (0 <= fold_right (fun v' n => memory_for t v' + n) 0 l); [|pose proof (esize_range (TVec t)); nia].
    induction l as [|v l IHl]; cbn [fold_right]; [lia|]. specialize (IH v). lia.
  - intros k fs IH v. destruct v as [z|l|o l|g l]; cbn [memory_for]; try (cbn; lia).
    match goal with |- 0 <= _ + ?g fs l => assert (0 <= g fs l); [|lia] end. revert l.
    induction IH as [|t fs Ht _ IHf]; intros l; [lia|]. destruct l as [|v l]; [lia|]. specialize (Ht v). specialize (IHf l). lia.
  - intros vts IH v. destruct v as [z|l|o l|g l]; cbn [memory_for]; try (cbn; lia). pose proof (enum_size_pos vts). destruct (nth_error vts g) as [fs|] eqn:E.
    + rewrite (map_nth_error _ _ _ E). pose proof (nth_error_Forall _ _ _ _ IH E) as F.
      match goal with |- 0 <= _ + ?g fs l => assert (0 <= g fs l); [|lia] end. clear E. revert l.
      induction F as [|t fs Ht _ IHf]; intros l; [lia|]. destruct l as [|v l]; [lia|]. specialize (Ht v). specialize (IHf l). lia.
    + match goal with |- context[nth_error ?l g] => assert (N : nth_error l g = None) by (apply nth_error_None; rewrite map_length; apply nth_error_None; exact E) end.
      rewrite N. lia.
Qed.

Lemma memory_fors_nonneg : forall fs vs, 0 <= memory_fors fs vs.
Proof. induction fs as [|t fs IH]; intros [|v vs]; cbn [memory_fors]; try lia. pose proof (memory_for_nonneg t v). specialize (IH vs). lia. Qed.

Lemma memory_for_struct : forall k fs o vs, memory_for (TStruct k fs) (VStruct o vs) = 4 * Z.of_nat (List.length fs) + memory_fors fs vs.
Proof.
  reflexivity.
Qed.

Lemma memory_for_enum : forall vts tag fs vs, nth_error vts tag = Some fs -> memory_for (TEnum vts) (VEnum tag vs) = 68 + enum_size vts + memory_fors fs vs.
Proof. intros vts tag fs vs En. cbn [memory_for]. rewrite (map_nth_error _ _ _ En). reflexivity. Qed.

Lemma fetched_struct : forall H k fs o vs p b, fetched H (TStruct k fs) (VStruct o vs) p b = fetcheds H fs vs p b.
Proof.
  intros H k fs o vs p b. cbn [fetched]. revert vs p b. induction fs as [|t fs IH]; intros [|v vs] p b; cbn [fetcheds]; try reflexivity.
  destruct (fetched H t v p b); [apply IH|reflexivity].
Qed.
Lemma fetched_vec : forall H t vs p b, fetched H (TVec t) (VVec vs) p b =
  match fetcheds H (map (fun _ => t) vs) vs (data_slot H (fst (room p 32)), 0) true with Some _ => Some true | None => None end.
Proof.
  intros H t vs p b. cbn [fetched]. generalize (data_slot H (fst (room p 32)), 0) true.
  assert (E : forall q c, (fix go (vs0 : list val) (p0 : position) (b0 : bool) {struct vs0} : option bool :=
     match vs0 with [] => Some b0 | v' :: vs' => match fetched H t v' p0 b0 with Some b' => go vs' (after t p0) b' | None => None end end) vs q c =
     fetcheds H (map (fun _ => t) vs) vs q c).
  { induction vs as [|v vs IH]; intros q c; cbn [fetcheds map]; [reflexivity|]. destruct (fetched H t v q c); [apply IH|reflexivity]. }
  intros q c. rewrite E. reflexivity.
Qed.
Lemma fetched_enum : forall H vts tag fs vs p b, nth_error vts tag = Some fs -> fetched H (TEnum vts) (VEnum tag vs) p b =
  if b || (32 <? snd p + 1) then
    match fetcheds H fs vs (room p 1) true with Some b' => Some (b' && (fst (afters fs (room p 1)) =? fst (after (TEnum vts) p))) | None => None end
  else None.
Proof.
  intros H vts tag fs vs p b En. cbn [fetched]. rewrite (map_nth_error _ _ _ En).
  assert (E : forall fs vs q c, (fix go (fs0 : list ty) (vs0 : list val) (p0 : position) (b0 : bool) {struct fs0} : option bool :=
     match fs0, vs0 with t' :: fs', v' :: vs' => match fetched H t' v' p0 b0 with Some b' => go fs' vs' (after t' p0) b' | None => None end | _, _ => Some b0 end) fs vs q c =
     fetcheds H fs vs q c).
  { induction fs0 as [|t gs IH]; intros [|v us] q c; cbn [fetcheds]; try reflexivity. destruct (fetched H t v q c); [apply IH|reflexivity]. }
  rewrite E. reflexivity.
Qed.
Lemma fetcheds_app : forall H fs gs vs us p b, List.length fs = List.length vs ->
  fetcheds H (fs ++ gs) (vs ++ us) p b = match fetcheds H fs vs p b with Some c => fetcheds H gs us (afters fs p) c | None => None end.
Proof.
  induction fs as [|t fs IH]; intros gs [|v vs] us p b L; try discriminate; cbn [app fetcheds]; [reflexivity|]. rewrite afters_cons.
  destruct (fetched H t v p b); [apply IH; injection L as L; exact L|reflexivity].
Qed.

(** Values without enums are always fetched. *)
Definition fetches (t : ty) : Prop := forall H st v p, plain t = true -> held H st t v p -> fetched H t v p true = Some true.
Lemma fetches_all : forall fs, Forall fetches fs -> forall H st vs p, forallb plain fs = true -> helds H st fs vs p -> fetcheds H fs vs p true = Some true.
Proof.
  intros fs F. induction F as [|t fs Ht _ IH]; intros H st [|v vs] p Pl Hd; try contradiction; [reflexivity|]. cbn [forallb] in Pl. apply andb_true_iff in Pl. destruct Pl as (P1&P2).
  cbn [helds] in Hd. destruct Hd as (D1&D2). cbn [fetcheds]. rewrite (Ht H st v p P1 D1). exact (IH H st vs (after t p) P2 D2).
Qed.
Lemma fetches_plain : forall t, fetches t.
Proof.
  intros t. refine (ty_rec' fetches _ _ _ _ _ _ _ t); clear t.
  - intros t St H st v p _ Hd. destruct t; try discriminate; cbn [held] in Hd; destruct (room p _); destruct Hd as (n&->&_); reflexivity.
  - intros H st v p _ Hd. cbn [held] in Hd. destruct (room p _). destruct Hd as (n&->&_). reflexivity.
  - intros H st v p _ Hd. cbn [held] in Hd. destruct (room p _). destruct Hd as (n&->&_). reflexivity.
  - intros H st v p _ Hd. cbn [held] in Hd. destruct (room p _). destruct Hd as (n&->&_). reflexivity.
  - intros t IH H st v p Pl Hd. apply held_vec in Hd. destruct Hd as (vs&->&_&Hd). rewrite fetched_vec. erewrite fetches_all; [reflexivity| | |exact Hd].
    + apply Forall_map, Forall_forall. intros. exact IH.
    + apply forallb_forall. intros t' Ht. apply in_map_iff in Ht. destruct Ht as (_&<-&_). exact Pl.
  - intros k fs IH H st v p Pl Hd. apply held_struct in Hd. destruct Hd as (vs&->&Hd). rewrite fetched_struct. destruct k; [discriminate|]. cbn [plain] in Pl.
    apply andb_true_iff in Pl. eapply fetches_all; [exact IH|apply Pl|exact Hd].
  - intros vts _ H st v p Pl. discriminate.
Qed.
Lemma fetched_plain : forall H st fs vs p, forallb plain fs = true -> helds H st fs vs p -> fetcheds H fs vs p true <> None.
Proof. intros. erewrite fetches_all; [discriminate| | |]; try eassumption. apply Forall_forall. intros. apply fetches_plain. Qed.

Definition locals_ok (so ow st fp : nat) (L : Z -> Z -> Z -> list Z) (own s : Z) : Prop := forall p o f,
  nth_error (L p o f) 0 = Some p /\ nth_error (L p o f) so = Some o /\ nth_error (L p o f) ow = Some own /\ nth_error (L p o f) st = Some s /\
  nth_error (L p o f) fp = Some f /\ (forall o', set_nth so o' (L p o f) = L p o' f) /\ (forall f', set_nth fp f' (L p o f) = L p o f') /\
  (forall p', set_nth 0 p' (L p o f) = L p' o f).

Lemma decode_type_shape : forall ep t, exists nl b, decode_type ep t = Func 3 nl 3 b.
Proof. intros ep t. destruct t; try (eexists; eexists; reflexivity). destruct key; eexists; eexists; reflexivity. Qed.

Lemma room_zero : forall q, good q -> room q 0 = q.
Proof. unfold good. intros [k o] G. cbn [room snd] in *. rewrite Z.add_0_r. destruct (Z.leb_spec o 32); [reflexivity|lia]. Qed.

Lemma held_field : forall t q, good q -> storable t = true -> before (room q (field_size t)) (after t q).
Proof.
  intros t q Gq Pl. destruct t; try (apply before_refl).
  - destruct key; [discriminate|]. change (field_size (TStruct false fs)) with 0. rewrite (room_zero q Gq). apply after_ok. exact Gq.
  - change (field_size (TEnum vs)) with 0. rewrite (room_zero q Gq). apply after_ok. exact Gq.
Qed.

Lemma ready_moved : forall ep w w' p p', ready ep w p -> ready ep w' p -> moved w p w' p' -> ready ep w' p'.
Proof. unfold ready, moved. intros ep w w' p p' (A1&A2&A3&A4&A5) (B1&B2&B3&B4&B5) M; assert (G : 468 <= gnext w) by apply A1; destruct M as [->|M]; repeat (split; [first [assumption|lia]|]); lia. Qed.

Definition struct_mem (p a n : Z) : mset := fun x => slot_mem p x \/ between a (a + n) x.

Lemma decode_fields_wp : forall fs, Forall reads fs -> forall ep so ow st fp L own s, locals_ok so ow st fp L own s -> 468 <= s ->
  forall w p vs q b b' i r (Q : outcome -> Prop) stk f, ready ep w p -> p + 32 <= s + 4 * i \/ s + 4 * i + 4 * Z.of_nat (List.length fs) <= p ->
  good q -> at_pos w p q b -> forallb storable fs = true ->
  helds (keccak (host w)) (stor (host w)) fs vs q -> fetcheds (keccak (host w)) fs vs q b = Some b' ->
  fst (afters fs q) < 2 ^ 256 -> fits (areas_of (keccak (host w)) fs vs q) ->
  memory_fors fs vs < 2147483648 -> 0 <= i -> s + 4 * i + 4 * Z.of_nat (List.length fs) <= gnext w ->
  (ctrap w (existsb narrow fs) (memory_fors fs vs) -> Q OTrap) ->
  (forall w' p' G f, seen (struct_mem p (s + 4 * i) (4 * Z.of_nat (List.length fs))) w w' -> gnext w' <= gnext w + memory_fors fs vs ->
     at_pos w' p' (afters fs q) b' -> fields (map (fun t => field_of (mem w') t (vrep (mem w') t)) fs) (mem w') vs (s + 4 * i) G ->
     sub G (between (gnext w) (gnext w')) -> moved w p w' p' -> disj G (between p' (p' + 32)) -> wp r Q stk (L p' (snd (afters fs q)) f) w') ->
  wp (decode_fields ep so ow st fp (map (fun t => (field_size t, decode_type ep t)) fs) i ++ r) Q stk (L p (snd q) f) w.
Proof.
  intros fs F ep so ow st fp L own s LK Hs. induction F as [|t fs Ht _ IH]; intros w p vs q b b' i r Q stk f Rd Hps Gq At Pl Hd Ff Rg Ft Mm Hi Hb T K.
  - destruct vs; [|contradiction]. cbn [fetcheds] in Ff. injection Ff as <-. cbn [map decode_fields app]. apply (K w p empty f).
    + split; [apply grows_refl, Rd|reflexivity].
    + cbn. lia.
    + exact At.
    + exact Logic.I.
    + intros x [].
    + left. reflexivity.
    + intros x [].
  - destruct vs as [|v vs]; [contradiction|]. cbn [helds] in Hd. destruct Hd as (Hv&Hd). cbn [forallb] in Pl. apply andb_true_iff in Pl. destruct Pl as (Pt&Pl).
    rewrite afters_cons in *. cbn [areas_of] in Ft. apply Forall_app in Ft. destruct Ft as (Ft1&Ft2). cbn [memory_fors existsb] in *.
    cbn [fetcheds] in Ff. destruct (fetched (keccak (host w)) t v q b) as [b1|] eqn:Fv1; [|discriminate].
    pose proof (memory_for_nonneg t v) as Mv. pose proof (memory_fors_nonneg fs vs) as Mvs. cbn [List.length] in Hb, Hps, K. rewrite Nat2Z.inj_succ in Hb, Hps, K.
    pose proof Rd as (Hw&He&H1&Hp&Hp2). pose proof Hw as (P1&P2&P3&P4&P5&P6).
    pose proof (field_size_range t) as Fs. destruct (after_ok t q Gq) as (Ga&Ba). destruct (afters_ok fs _ Ga) as (_&Bb).
    assert (Ra : fst (after t q) < 2 ^ 256) by (apply before_fst in Bb; lia).
    assert (Rr : fst (room q (field_size t)) < 2 ^ 256) by (pose proof (before_fst _ _ (held_field t q Gq Pt)); lia).
    cbn [map decode_fields app]. destruct (LK p (snd q) f) as (N0&N1&N2&N3&N4&N5&N6&N7).
    eapply wp_lget; [exact N0|]. eapply wp_lget; [exact N1|]. ws1.
    eapply wp_call_spec; [reflexivity|cbn [List.length]; lia|wc; eapply (accumulate_read_spec ep w p q b (field_size t)); eassumption|intros []|].
    intros r1 w1 (->&S1&G1&At1&Ld1). wc. eapply wp_lset; [exact N1|]. rewrite N5. clear N0 N1 N2 N3 N4 N5 N6 N7.
    set (q1 := room q (field_size t)) in *. destruct (LK p (snd q1) f) as (N0&N1&N2&N3&N4&N5&N6&N7).
    eapply wp_lget; [exact N0|]. eapply wp_lget; [exact N1|]. eapply wp_lget; [exact N2|].
    assert (Rd1 : ready ep w1 p) by (eapply ready_seen; [exact Rd|exact S1|]; intros x Hx; unfold slot_mem, within; lia).
    assert (Eh1 : host w1 = host w) by apply S1.
    destruct (decode_type_shape ep t) as (nl&bd&Ef).
    eapply wp_call_spec; [exact Ef|cbn [List.length]; lia| | |].
    { wc. eapply (Ht ep w1 p own q v b b1); fold q1; try assumption; rewrite ?Eh1; try assumption. lia. }
    { intros Tr. apply T. eapply ctrap_seen; [exact S1|exact Tr|lia|]. intros ->. reflexivity. }
    intros r2 w2 (a&p2&F1&->&S2&G2&At2&Fv&SF&Ba2&Mv2&DF&_). wc. eapply wp_lset; [exact N1|]. rewrite N5. clear N0 N1 N2 N3 N4 N5 N6 N7.
    destruct (LK p (snd (after t q)) f) as (N0&N1&N2&N3&N4&N5&N6&N7). eapply wp_lset; [exact N0|]. rewrite N7. clear N0 N1 N2 N3 N4 N5 N6 N7.
    destruct (LK p2 (snd (after t q)) f) as (N0&N1&N2&N3&N4&N5&N6&N7). eapply wp_lset; [exact N4|]. rewrite N6. clear N0 N1 N2 N3 N4 N5 N6 N7.
    destruct (LK p2 (snd (after t q)) a) as (N0&N1&N2&N3&N4&N5&N6&N7). eapply wp_lget; [exact N3|]. eapply wp_lget; [exact N4|].
    pose proof (seen_trans _ _ _ _ S1 S2) as S12. pose proof S2 as ((Hw2&_&_&B2&_)&_). pose proof Hw2 as (Q1&Q2&Q3&Q4&Q5&Q6).
    assert (Mv1 : p2 = p \/ gnext w <= p2 /\ p2 + 32 <= gnext w2) by (unfold moved in Mv2; rewrite G1 in Mv2; exact Mv2).
    apply wp_store; [lia|unfold page_size; lia|]. change (Z.of_nat 4) with 4. set (w3 := set_mem w2 _).
    assert (S3 : seen (between (s + 4 * i) (s + 4 * i + 4)) w2 w3).
    { apply seen_set_mem; [exact Hw2| |unfold between; lia]. intros x Hx. apply rd_store_out. unfold between in Hx. lia. }
    assert (Fr3 : forall x, ~ between (s + 4 * i) (s + 4 * i + 4) x -> rd (mem w3) x = rd (mem w2) x).
    { intros x Hx. cbn [w3 mem set_mem]. apply rd_store_out. unfold between in Hx. lia. }
    assert (S13 : seen (struct_mem p (s + 4 * i) 4) w w3).
    { eapply seen_trans; [eapply seen_mono; [exact S12|unfold struct_mem; auto]|eapply seen_mono; [exact S3|]]. unfold struct_mem. auto. }
    assert (Rd3 : ready ep w3 p2).
    { eapply (ready_moved ep w w3 p); [exact Rd|eapply ready_seen; [exact Rd|exact S13|]; intros x Hx; unfold struct_mem, slot_mem, within, between; lia|exact Mv1]. }
    assert (At3 : at_pos w3 p2 (after t q) b1).
    { destruct At2 as (X1&X2). split; [rewrite <- X1|intros Eb; destruct (X2 Eb) as [X3|X3]; [left; exact X3|right; unfold loaded; change (host w3) with (host w2); rewrite <- X3]];
        apply load_be_ext; intros j Hj; apply Fr3; unfold between; lia. }
    assert (Eh3 : host w3 = host w) by apply S13. assert (Gn3 : gnext w3 = gnext w2) by reflexivity.
    assert (B0 : gnext w <= gnext w2) by lia.
    apply (IH w3 p2 vs (after t q) b1 b' (i + 1)); clear IH; try eassumption; rewrite ?Eh3; try assumption; try lia.
    { intros Tr. apply T. eapply ctrap_seen; [exact S13|exact Tr|lia|]. intros ->. apply orb_true_r. }
    intros w4 p4 G f4 S4 N4' At4 Fl SG Mv4 DG. rewrite Gn3 in *.
    assert (S14 : seen (struct_mem p (s + 4 * i) (4 * Z.succ (Z.of_nat (List.length fs)))) w w4).
    { eapply seen_trans'; [eapply seen_mono; [exact S13|]|exact S4|].
      - intros x _ [X|X]; [left; exact X|right; unfold between in *; lia].
      - intros x Hx [X|X]; [|right; unfold between in *; lia]. destruct Mv1 as [->|Mv1]; [left; exact X|]. left. unfold slot_mem, within in *. lia. }
    pose proof S4 as ((_&_&_&B4&_&_&Fr4)&_). rewrite Gn3 in B4, Fr4. unfold moved in Mv4. rewrite Gn3 in Mv4.
    apply (K w4 p4 (union F1 G) f4 S14); [lia|exact At4| | | |].
    + cbn [map fields]. exists F1, G.
      assert (A4 : agree (mem w2) (mem w4) F1).
      { intros x Hx. pose proof (DF x Hx) as Nx. apply SF in Hx. unfold between in Hx. rewrite Fr4, Fr3; [reflexivity| |lia|]; unfold between in *; [lia|].
        unfold struct_mem, slot_mem, within, between. lia. }
      split; [|split; [|split; [|split]]].
      * assert (Ea : load 4 (mem w4) (s + 4 * i) = a).
        { rewrite (load_ext 4 (mem w4) (mem w3) (s + 4 * i) (s + 4 * i)).
          - cbn [w3 mem set_mem]. change 4 with (Z.of_nat 4) at 2. rewrite load_store_same. apply Z.mod_small. change (256 ^ Z.of_nat 4) with (2 ^ 32). lia.
          - intros j Hj. apply Fr4; [lia|]. unfold struct_mem, slot_mem, within, between. lia. }
        rewrite Ea. eapply field_of_ext; [apply vrep_ext|exact A4|exact Fv].
      * replace (s + 4 * i + 4) with (s + 4 * (i + 1)) by lia. exact Fl.
      * intros x X1 X2. apply SF in X1. apply SG in X2. unfold between in *. lia.
      * intros x Hx. left. exact Hx.
      * intros x Hx. right. exact Hx.
    + intros x [X|X]; [apply SF in X|apply SG in X]; unfold between in *; lia.
    + unfold moved. lia.
    + intros x [X|X] Y; [|exact (DG x X Y)]. destruct Mv4 as [E4|Mv4]; [rewrite E4 in Y; exact (DF x X Y)|apply SF in X; unfold between in *; lia].
Qed.

Lemma decode_struct_spec : forall fs, Forall reads fs -> storable (TStruct false fs) = true -> reads (TStruct false fs).
Proof.
  intros fs IH Pl ep w p ow q v b b' Rd Gq c At _ Hd Ff Rg Ft Mm. pose proof Rd as (Hw&He&H1&Hp&Hp2). pose proof Hw as (P1&P2&P3&P4&P5&P6).
  cbn [field_size] in *. rewrite (room_zero q Gq) in *. cbn [storable] in Pl. apply andb_true_iff in Pl. destruct Pl as (_&Pl).
  assert (Ec : c = b) by (unfold c, good in *; rewrite Z.add_0_r; replace (32 <? snd q) with false by lia; apply orb_false_r). rewrite Ec in At. clear Ec c.
  apply held_struct in Hd. destruct Hd as (vs&->&Hd). rewrite memory_for_struct in *. rewrite areas_struct in Ft. rewrite fetched_struct in Ff. change (after (TStruct false fs) q) with (afters fs q) in *.
  pose proof (memory_fors_nonneg fs vs) as Mn. cbn [decode_type narrow]. apply wpf_intro; [reflexivity|]. wc. ws1.
  wcall alloc_spec; [exact Hw|lia|intros O; left; eapply oom_mono; [exact O|lia]|].
  intros rs w1 [-> Al]. wc. pose proof Al as (Hw1&Em&A1&A2&A3&A4&A5). ws1. set (s := gnext w) in *.
  pose proof (alloc_extends w w1 _ Hw Al ltac:(lia)) as X1. pose proof (seen_extends (slot_mem p) w w1 X1) as S1.
  assert (Rd1 : ready ep w1 p) by (eapply ready_seen; [exact Rd|exact S1|]; intros x Hx; unfold slot_mem, within; lia).
  refine (decode_fields_wp fs IH ep 1%nat 2%nat 3%nat 4%nat (fun p o f => [p; o; ow; s; f]) ow s _ ltac:(lia) w1 p vs q b b' 0 _ _ _ _ Rd1 _ Gq _ Pl _ _ Rg _ _ _ _ _ _); rewrite ?A5; try assumption; try lia.
  - intros p' o f. repeat split.
  - unfold at_pos, loaded in *. rewrite Em, A5. exact At.
  - intros Tr. eapply ctrap_seen; [exact S1|exact Tr|lia|auto].
  - intros w2 p2 G f S2 G2 At2 Fl SG Mv DG. replace (s + 4 * 0) with s in * by lia. ws1. ws1. ws1. ws1.
    assert (S12 : seen (slot_mem p) w w2).
    { eapply seen_trans'; [exact S1|exact S2|]. intros x Hx [Y|Y]; [exact Y|unfold between in Y; lia]. }
    pose proof S2 as ((_&_&_&B4&_)&_). unfold moved in Mv.
    exists s, p2, (union (between s (s + 4 * Z.of_nat (List.length fs))) G). split; [reflexivity|]. split; [exact S12|]. split; [rewrite memory_for_struct; lia|].
    split; [exact At2|]. split; [|split; [|split; [lia|split; [unfold moved; lia|split; [|discriminate]]]]].
    + unfold field_of. cbn [is_stack vrep]. exists 0, vs, G. split; [reflexivity|]. split; [reflexivity|].
      split; [intros x Hx; left; exact Hx|]. split; [intros x Hx; right; exact Hx|]. split; [|exact Fl].
      intros x X Y. apply SG in Y. unfold between in *. lia.
    + intros x [X|X]; [|apply SG in X]; unfold between in *; lia.
    + intros x [X|X] Y; [unfold between in *; lia|exact (DG x X Y)].
Qed.

(** ** Vectors *)

Lemma load_store_le : forall (k n : nat) m a v, (k <= n)%nat -> load k (store (Z.of_nat n) m a v) a = v mod 256 ^ Z.of_nat k.
Proof.
  intros k n m a v H. rewrite (load_ext k _ (store (Z.of_nat k) m a v) a a); [apply load_store_same|].
  intros i Hi. rewrite !rd_store_in by lia. reflexivity.
Qed.

Lemma wok_store : forall w (n k : nat) a v, wok w -> a + Z.of_nat k <= gnext w -> (k <= n)%nat -> 0 <= v < 256 ^ Z.of_nat k ->
  wok (set_mem w (store (Z.of_nat n) (mem w) a v)).
Proof.
  intros w n k a v Hw Ha Hk Hv. pose proof Hw as (P1&P2&P3&P4&P5&P6). apply wok_set_mem; [exact Hw|]. intros x Hx.
  destruct (Z.lt_ge_cases x (a + Z.of_nat n)) as [L|L]; [|apply rd_store_out; lia]. rewrite rd_store_in by lia. rewrite P6 by lia.
  rewrite Z.div_small; [reflexivity|]. split; [lia|]. eapply Z.lt_le_trans; [apply Hv|]. apply Z.pow_le_mono_r; lia.
Qed.

Lemma helds_mid : forall H st t vs1 v vs2 q, helds H st (map (fun _ => t) (vs1 ++ v :: vs2)) (vs1 ++ v :: vs2) q ->
  held H st t v (afters (map (fun _ => t) vs1) q).
Proof. induction vs1 as [|u vs1 IH]; intros v vs2 q X; cbn [app map helds] in X; [exact (proj1 X)|]. cbn [map]. rewrite afters_cons. eapply IH. exact (proj2 X). Qed.
Lemma areas_mid : forall H t vs1 v vs2 q, fits (areas_of H (map (fun _ => t) (vs1 ++ v :: vs2)) (vs1 ++ v :: vs2) q) ->
  fits (areas H t v (afters (map (fun _ => t) vs1) q)).
Proof.
  unfold fits. induction vs1 as [|u vs1 IH]; intros v vs2 q X; cbn [app map areas_of] in X; apply Forall_app in X; [exact (proj1 X)|].
  cbn [map]. rewrite afters_cons. eapply IH. exact (proj2 X).
Qed.
Lemma afters_app : forall fs gs q, afters (fs ++ gs) q = afters gs (afters fs q).
Proof. intros. apply fold_left_app. Qed.

Definition memory_elems (t : ty) (vs : list val) : Z := fold_right (fun v n => memory_for t v + n) 0 vs.
Lemma memory_elems_nonneg : forall t vs, 0 <= memory_elems t vs.
Proof. induction vs as [|v vs IH]; cbn [memory_elems fold_right] in *; [lia|]. pose proof (memory_for_nonneg t v). unfold memory_elems in IH. lia. Qed.
Lemma memory_elems_app : forall t a b, memory_elems t (a ++ b) = memory_elems t a + memory_elems t b.
Proof. induction a as [|v a IH]; intros b; cbn [app memory_elems fold_right]; [reflexivity|]. fold (memory_elems t (a ++ b)). fold (memory_elems t a). rewrite IH. lia. Qed.

Lemma cell_size : forall t, (esize t <= cell t)%nat /\ (cell t <= 8)%nat /\ (1 <= esize t)%nat /\ (is_stack t = false -> cell t = esize t /\ esize t = 4%nat).
Proof. destruct t; cbn; repeat split; lia. Qed.

Definition vec_mem (e d hi : Z) : mset := fun x => slot_mem e x \/ between (d + 8) hi x.

Lemma decode_vector_loop : forall t, reads t -> storable t = true -> forall ep w e d vs ow ds p ed i0 o0 r (Q : outcome -> Prop) s,
  ready ep w e -> 468 <= e -> at_pos w e (ds, 0) true -> vs <> [] ->
  helds (keccak (host w)) (stor (host w)) (map (fun _ => t) vs) vs (ds, 0) -> fetcheds (keccak (host w)) (map (fun _ => t) vs) vs (ds, 0) true <> None ->
  fst (afters (map (fun _ => t) vs) (ds, 0)) < 2 ^ 256 ->
  fits (areas_of (keccak (host w)) (map (fun _ => t) vs) vs (ds, 0)) ->
  e + 32 <= d -> gnext w = d + 8 + Z.of_nat (esize t) * Z.of_nat (List.length vs) ->
  8 + Z.of_nat (esize t) * Z.of_nat (List.length vs) + memory_elems t vs < 2147483648 ->
  (ctrap w (narrow t) (memory_elems t vs) -> Q OTrap) ->
  (forall w' G e' a b c, seen (vec_mem e d (gnext w)) w w' -> gnext w' <= gnext w + memory_elems t vs ->
     elems (vrep (mem w') t) (esize t) (mem w') vs (d + 8) G -> sub G (between (gnext w) (gnext w')) ->
     wp r Q s [p; ow; d; Z.of_nat (List.length vs); e'; a; b; c] w') ->
  wp (Block "iblock" 0
         [ Const 0; LocalSet 6; Const 0; LocalSet 7;
           Loop "loop" 0
             ([ LocalGet 4; LocalGet 7; Const (field_size t); Call (accumulate_read ep); LocalSet 7;
                LocalGet 4; LocalGet 7; LocalGet 1; Call (decode_type ep t); LocalSet 7; LocalSet 4; LocalSet 5 ] ++
              vec_elem_ptr 2 6 (Z.of_nat (esize t)) ++
              [ LocalGet 5 ] ++ (if is_stack t then [ Load (cell t) 0 ] else []) ++
              [ Store (cell t) 0;
                LocalGet 6; LocalGet 3; Const 1; Bin I32 Sub; Bin I32 Eq; BrIf "iblock";
                LocalGet 6; Const 1; Bin I32 Add; LocalSet 6; Br "loop" ]) ] :: r) Q s
    [p; ow; d; Z.of_nat (List.length vs); e; ed; i0; o0] w.
Proof.
  intros t Rt Pt ep w e d vs ow ds p ed i0 o0 r Q s Rd Hep At Ne Hd Nn Rg Ft Hed Hg Mm T K.
  pose proof Rd as (Hw&He&H1&Hp&Hp2). pose proof Hw as (P1&P2&P3&P4&P5&P6).
  set (H := keccak (host w)) in *. set (n := Z.of_nat (List.length vs)) in *. set (sz := Z.of_nat (esize t)) in *.
  destruct (cell_size t) as (C1&C2&C3&C4). assert (Hsz : 1 <= sz <= 8) by (unfold sz; lia). assert (Hn : 0 <= n) by (unfold n; lia).
  pose proof (memory_elems_nonneg t vs) as Mn. pose proof (field_size_range t) as Fs.
  assert (Gd : good (ds, 0)) by (unfold good; cbn; lia).
  apply wp_block. ws1. ws1. ws1. ws1.
  apply (wp_loop (fun k l w' => exists vs1 vs2 a G e' c, vs = vs1 ++ vs2 /\ List.length vs2 = k /\ vs2 <> [] /\
     l = [p; ow; d; n; e'; a; Z.of_nat (List.length vs1); snd (afters (map (fun _ => t) vs1) (ds, 0))] /\
     seen (vec_mem e d (gnext w)) w w' /\ gnext w' <= gnext w + memory_elems t vs1 /\ at_pos w' e' (afters (map (fun _ => t) vs1) (ds, 0)) c /\
     fetcheds H (map (fun _ => t) vs1) vs1 (ds, 0) true = Some c /\ moved w e w' e' /\ disj G (between e' (e' + 32)) /\ (is_stack t = true -> e' = e) /\
     elems (vrep (mem w') t) (esize t) (mem w') vs1 (d + 8) G /\ sub G (between (gnext w) (gnext w')) /\ (is_stack t = true -> forall x, ~ G x)) (List.length vs)).
  { exists [], vs, ed, empty, e, true. split; [reflexivity|]. split; [reflexivity|]. split; [exact Ne|]. split; [reflexivity|].
    split; [split; [apply grows_refl; exact Hw|reflexivity]|]. split; [cbn; lia|]. split; [exact At|].
    split; [reflexivity|]. split; [left; reflexivity|]. split; [intros x []|]. split; [reflexivity|]. split; [exact Logic.I|]. split; [intros x []|intros _ x []]. }
  intros k l w1 (vs1&vs2&a0&G&e1&c1&E&Lk&Ne2&->&S1&N1&At1&Ff1&Mv1&DG1&Se1&El&SG&GE). destruct vs2 as [|v vs2]; [congruence|]. clear Ne2. cbn [List.length] in Lk.
  assert (En : n = Z.of_nat (List.length vs1) + 1 + Z.of_nat (List.length vs2)) by (unfold n; rewrite E, app_length; cbn [List.length]; lia).
  set (i := Z.of_nat (List.length vs1)) in *. assert (Hi : 0 <= i) by (unfold i; lia).
  set (q := afters (map (fun _ => t) vs1) (ds, 0)) in *. destruct (afters_ok (map (fun _ => t) vs1) (ds, 0) Gd) as (Gq&_). fold q in Gq.
  assert (Nsl : forall x, 32 <= x < 64 -> ~ vec_mem e d (gnext w) x) by (intros x Hx; unfold vec_mem, slot_mem, within, between; lia).
  pose proof (ready_moved ep w w1 e e1 Rd (ready_seen ep _ w w1 e Rd S1 Nsl) Mv1) as Rd1. assert (Eh1 : host w1 = host w) by apply S1.
  pose proof S1 as ((_&_&_&N1'&_)&_). pose proof Rd1 as (Hw1&_&_&_&Hp1).
  assert (Hep1 : 468 <= e1) by (destruct Mv1 as [->|X]; lia).
  rewrite E in Hd, Ft, Rg, Nn. rewrite map_app, fetcheds_app, Ff1 in Nn by apply map_length. cbn [map fetcheds] in Nn. pose proof (helds_mid _ _ _ _ _ _ _ Hd) as Hv. pose proof (areas_mid _ _ _ _ _ _ Ft) as Fv. fold q in Hv, Fv, Nn. destruct (fetched H t v q c1) as [c3|] eqn:Ff3; [|congruence].
  assert (Ff4 : fetcheds H (map (fun _ => t) (vs1 ++ [v])) (vs1 ++ [v]) (ds, 0) true = Some c3).
  { rewrite map_app, fetcheds_app, Ff1 by apply map_length. cbn [map fetcheds]. fold q. rewrite Ff3. reflexivity. }
  clear Nn. unfold moved in Mv1.
  rewrite map_app, afters_app in Rg. fold q in Rg. cbn [map] in Rg. rewrite afters_cons in Rg.
  destruct (after_ok t q Gq) as (Ga&Ba). destruct (afters_ok (map (fun _ => t) vs2) _ Ga) as (_&Bb).
  assert (Ra : fst (after t q) < 2 ^ 256) by (apply before_fst in Bb; lia).
  assert (Rr : fst (room q (field_size t)) < 2 ^ 256) by (pose proof (before_fst _ _ (held_field t q Gq Pt)); lia).
  assert (Ec : memory_elems t vs = memory_elems t vs1 + (memory_for t v + memory_elems t vs2)) by (rewrite E, memory_elems_app; reflexivity).
  pose proof (memory_elems_nonneg t vs1) as CN. pose proof (memory_for_nonneg t v) as CN2. pose proof (memory_elems_nonneg t vs2) as CN3.
  destruct (mul_bound sz i n) as (Bi&B2); [lia|exact Hi|lia|]. assert (B3 : i * sz = sz * i) by lia.
  assert (Bs : 0 <= sz * n) by nia. hide Hd. hide Ft.
  cbn [app vec_elem_ptr]. ws1. ws1. ws1.
  eapply wp_call_spec; [reflexivity|cbn [List.length]; lia|wc; eapply (accumulate_read_spec ep w1 e1 q c1 (field_size t)); eassumption|intros []|].
  intros r1 w2 (->&S2&G2&At2&Ld2). wc. ws1. ws1. ws1. ws1.
  assert (Me : forall x, 0 <= x < gnext w -> slot_mem e1 x -> vec_mem e d (gnext w) x).
  { intros y Hy X. left. destruct Mv1 as [->|Mv1]; [exact X|]. unfold slot_mem, within in *. lia. }
  pose proof (seen_trans' _ _ _ _ _ S1 S2 Me) as S12. assert (Rd2 : ready ep w2 e1) by (eapply ready_seen; [exact Rd1|exact S2|]; intros x Hx; unfold slot_mem, within; lia). assert (Eh2 : host w2 = host w) by apply S12.
  destruct (decode_type_shape ep t) as (nl&b&Ef).
  eapply wp_call_spec; [exact Ef|cbn [List.length]; lia| | |].
  { wc. eapply (Rt ep w2 e1 ow q v c1 c3); try assumption; rewrite ?Eh2; try assumption. lia. }
  { intros Tr. apply T. eapply ctrap_seen; [exact S12|exact Tr|lia|auto]. }
  intros r2 w3 (a&e3&F1&->&S3&G3&At3&Fva&SF&Ba2&Mv3&DF&Cl). wc. ws1. ws1. ws1. unfold moved in Mv3.
  pose proof (seen_trans' _ _ _ _ _ S12 S3 Me) as S13. pose proof S3 as ((Hw3&_&_&N3'&_)&_). pose proof Hw3 as (Q1&Q2&Q3&Q4&Q5&Q6).
  ws1. ws1. ws1. ws1. ws1. ws1. ws1. ws1. set (x := d + 8 + i * sz).
  (* the word to store *)
  assert (Z : exists z Fz, 0 <= z < 256 ^ sz /\ vrep (mem w3) t v z Fz /\ sub Fz (between (gnext w2) (gnext w3)) /\ (is_stack t = true -> forall y, ~ Fz y) /\ disj Fz (between e3 (e3 + 32)) /\ (is_stack t = true -> e3 = e1) /\
     x + Z.of_nat (cell t) <= 65536 * pages w3 /\
     (forall r0 (Q0 : outcome -> Prop) s0 l0, wp r0 Q0 (z :: s0) l0 w3 -> wp ((if is_stack t then [ Load (cell t) 0 ] else []) ++ r0) Q0 (a :: s0) l0 w3)).
  { unfold field_of in Fva. destruct (is_stack t) eqn:St.
    - destruct Fva as (Sa&Iv). destruct (Cl eq_refl) as (Ee&Ev&Pa). destruct (stack_width t v _ St Iv) as (Ev2&Bv&_).
      exists (load (esize t) (mem w3) a), empty. split; [exact Bv|]. split; [destruct t; try discriminate; exact Iv|]. split; [intros y []|]. split; [intros _ y []|]. split; [intros y []|]. split; [intros _; exact Ee|].
      split; [unfold x; lia|]. intros r0 Q0 s0 l0 X. cbn [app]. apply wp_load; [lia|unfold page_size; lia|]. rewrite Z.add_0_r.
      rewrite Ev2 in Ev. injection Ev as Ev. rewrite <- Ev. exact X.
    - destruct (C4 eq_refl) as (C5&C6). exists a, F1. split; [unfold sz; rewrite C6; change (256 ^ Z.of_nat 4) with (2 ^ 32); lia|]. split; [exact Fva|]. split; [exact SF|]. split; [discriminate|]. split; [exact DF|]. split; [discriminate|].
      split; [unfold x; rewrite C5; fold sz; lia|]. intros r0 Q0 s0 l0 X. exact X. }
  destruct Z as (z&Fz&Bz&Vz&Sz&Ez&Dz&Ee3&Px&Kz). apply Kz. clear Kz Cl Fva.
  apply wp_store; [lia|unfold page_size; lia|]. rewrite Z.add_0_r. set (w4 := set_mem w3 _).
  assert (Hw4 : wok w4) by (apply (wok_store w3 (cell t) (esize t)); [exact Hw3|fold sz; unfold x; lia|exact C1|exact Bz]).
  assert (Fr4 : forall y, y < x \/ x + Z.of_nat (cell t) <= y -> rd (mem w4) y = rd (mem w3) y) by (intros y Hy; cbn [w4 mem set_mem]; apply rd_store_out; lia).
  assert (S34 : seen (between x (x + Z.of_nat (cell t))) w3 w4).
  { split; [|reflexivity]. split; [exact Hw4|]. repeat (split; [first [reflexivity|lia]|]). split; [symmetry; apply set_stor_same|].
    intros y _ Hy. apply Fr4. unfold between in Hy. lia. }
  assert (S14 : seen (vec_mem e d (gnext w)) w w4).
  { destruct S13 as ((A1&A2&A3&A4&A5&A6&A7)&A8). split; [|exact A8]. split; [exact Hw4|]. repeat (split; [assumption|]).
    intros y Hy Ny. rewrite Fr4; [apply A7; assumption|]. unfold vec_mem, between in Ny. unfold x. lia. }
  assert (Xe : e3 + 32 <= x \/ x + Z.of_nat (cell t) <= e3).
  { destruct (is_stack t) eqn:St; [left; rewrite Ee3, Se1 by reflexivity; unfold x; lia|]. destruct (C4 eq_refl) as (C5&C6). rewrite C5. fold sz. unfold x. lia. }
  assert (At4 : at_pos w4 e3 (after t q) c3).
  { destruct At3 as (X1&X2). split; [rewrite <- X1|intros Eb; destruct (X2 Eb) as [X3|X3]; [left; exact X3|right; unfold loaded; change (host w4) with (host w3); rewrite <- X3]];
      apply load_be_ext; intros j Hj; apply Fr4; [lia|unfold x; lia]. }
  assert (Fr13 : forall y, 0 <= y < gnext w1 -> ~ slot_mem e1 y -> rd (mem w3) y = rd (mem w1) y).
  { intros y Hy Ny. destruct S2 as ((_&_&_&X4&_&_&X7)&_). destruct S3 as ((_&_&_&_&_&_&Y7)&_). rewrite Y7, X7; [reflexivity|lia|exact Ny|lia|exact Ny]. }
  assert (HG : forall y, G y -> rd (mem w4) y = rd (mem w1) y).
  { intros y Hy. destruct (is_stack t) eqn:St; [exfalso; eapply GE; [reflexivity|exact Hy]|]. destruct (C4 eq_refl) as (C5&C6). pose proof (SG y Hy) as B. pose proof (DG1 y Hy) as B'. unfold between in B, B'.
    rewrite Fr4 by (rewrite C5; fold sz; unfold x; lia). apply Fr13; [lia|]. unfold slot_mem, within. lia. }
  assert (El4 : elems (vrep (mem w4) t) (esize t) (mem w4) (vs1 ++ [v]) (d + 8) (union G Fz)).
  { eapply elems_app with (F := G) (F' := Fz).
    - eapply elems_ext; [| |exact El].
      + intros v0 x0 G0 S0 V0. eapply vrep_ext; [|exact V0]. intros y Hy. apply HG, S0, Hy.
      + fold sz. fold i. intros y Hy. rewrite Fr4 by (unfold x; lia). apply Fr13; [lia|]. unfold slot_mem, within. lia.
    - fold sz. fold i. replace (d + 8 + sz * i) with x by (unfold x; lia). cbn [elems]. exists Fz, empty.
      split; [|split; [exact Logic.I|split; [intros ? ? []|split; [apply sub_refl|intros ? []]]]].
      replace (load (esize t) (mem w4) x) with z.
      + eapply vrep_ext; [|exact Vz]. intros y Hy. destruct (is_stack t) eqn:St; [exfalso; eapply Ez; [reflexivity|exact Hy]|]. destruct (C4 eq_refl) as (C5&C6).
        pose proof (Sz y Hy) as B. unfold between in B. apply Fr4. rewrite C5. fold sz. unfold x. lia.
      + cbn [w4 mem set_mem]. rewrite load_store_le by exact C1. symmetry. apply Z.mod_small. exact Bz.
    - intros y X1 X2. apply SG in X1. apply Sz in X2. unfold between in *. lia.
    - intros y Hy. left. exact Hy.
    - intros y Hy. right. exact Hy. }
  assert (SG4 : sub (union G Fz) (between (gnext w) (gnext w4))).
  { change (gnext w4) with (gnext w3). intros y [Y|Y]; [apply SG in Y|apply Sz in Y]; unfold between in *; lia. }
  assert (N4 : gnext w4 <= gnext w + memory_elems t (vs1 ++ [v])) by (change (gnext w4) with (gnext w3); rewrite memory_elems_app; cbn [memory_elems fold_right]; lia).
  ws1. ws1. ws1. ws1. ws1. ws1.
  - assert (vs2 = []) by (destruct vs2; [reflexivity|cbn [List.length] in En; lia]). subst vs2. rewrite <- E in *.
    eapply K; [exact S14|exact N4|exact El4|exact SG4].
  - ws1. ws1. ws1. ws1. ws1. exists (List.length vs2). split; [lia|]. exists (vs1 ++ [v]), vs2, a, (union G Fz), e3, c3.
    split; [rewrite <- app_assoc; exact E|]. split; [reflexivity|]. split; [intros ->; cbn in En; lia|].
    assert (Eq : afters (map (fun _ => t) (vs1 ++ [v])) (ds, 0) = after t q) by (rewrite map_app, afters_app; reflexivity). rewrite Eq.
    split; [rewrite app_length; cbn [List.length]; unfold i; do 6 f_equal; f_equal; lia|]. split; [exact S14|]. split; [exact N4|]. split; [exact At4|]. split; [exact Ff4|].
    split; [change (moved w e w3 e3); unfold moved; lia|]. split; [|split; [intros St; rewrite Ee3, Se1 by exact St; reflexivity|]].
    { intros y [Y|Y] Y2; [|exact (Dz y Y Y2)]. pose proof (SG y Y) as B. destruct Mv3 as [->|Mv3]; [exact (DG1 y Y Y2)|]. unfold between in *. lia. }
    split; [exact El4|]. split; [exact SG4|].
    intros St y [Y|Y]; [eapply GE; eassumption|eapply Ez; eassumption].
Qed.

Lemma decode_vector_spec : forall t, reads t -> storable t = true -> reads (TVec t).
Proof.
  intros t Rt Pt ep w p ow q v b b' Rd Gq c At _ Hd Ff Rg Ft Mm. pose proof Rd as (Hw&He&H1&Hp&Hp2). pose proof Hw as (P1&P2&P3&P4&P5&P6).
  change (field_size (TVec t)) with 32 in *. change (after (TVec t) q) with (room q 32) in *. pose proof (room_size q 32 Gq ltac:(lia)) as Rs.
  destruct At as (A1&_). apply held_vec in Hd. destruct Hd as (vs&->&Hl&Hd). rewrite areas_vec in Ft. rewrite fetched_vec in Ff.
  set (H := keccak (host w)) in *. set (q1 := room q 32) in *. set (k := fst q1) in *.
  assert (Nn : fetcheds H (map (fun _ => t) vs) vs (data_slot H k, 0) true <> None) by (intros X; rewrite X in Ff; discriminate). assert (Eb : b' = true) by (destruct (fetcheds _ _ _ _ _); congruence). rewrite Eb. clear Ff Eb. set (n := Z.of_nat (List.length vs)) in *.
  set (sz := Z.of_nat (esize t)) in *. destruct (cell_size t) as (C1&C2&C3&C4). assert (Hsz : 1 <= sz <= 8) by (unfold sz; lia). assert (Hn : 0 <= n) by (unfold n; lia).
  assert (Em : memory_for (TVec t) (VVec vs) = 40 + sz * n + memory_elems t vs) by reflexivity. rewrite Em in *.
  pose proof (memory_elems_nonneg t vs) as Mn. assert (Bn : 0 <= n <= sz * n) by nia. change (narrow (TVec t)) with (narrow t).
  assert (K : wpf (decode_vector ep t (decode_type ep t)) [p; ow] w (resq (fun r w' => exists a F, r = [a] /\ seen (slot_mem p) w w' /\
     gnext w' <= gnext w + (40 + sz * n + memory_elems t vs) /\ load_be 32 (mem w') p = k /\ vrep (mem w') (TVec t) (VVec vs) a F /\
     sub F (between (gnext w) (gnext w')) /\ gnext w <= a <= gnext w') (ctrap w (narrow t) (40 + sz * n + memory_elems t vs)))).
  { apply wpf_intro; [reflexivity|]. wc. unfold A_SLOT_DATA. ws1.
    wcall alloc_spec; [exact Hw|lia|intros O; left; eapply oom_mono; [exact O|lia]|].
    intros r1 w1 (->&Al). pose proof (alloc_extends w w1 32 Hw Al ltac:(lia)) as Ex. pose proof Al as (Hw1&Em1&_&_&Gn1&_).
    pose proof (seen_extends (slot_mem p) _ _ Ex) as S1. assert (Hh1 : host w1 = host w) by apply S1. pose proof Hw1 as (Q1&Q2&Q3&Q4&Q5&Q6).
    wc. ws1. set (e := gnext w) in *. ws1. ws1. ws1. ws1. set (w2 := set_mem w1 _).
    assert (Fm2 : forall a, ~ within 64 32 a -> rd (mem w2) a = rd (mem w1) a) by (intros a Ha; cbn [w2 mem set_mem]; apply rd_mfill_out; unfold within in Ha; lia).
    assert (S2 : seen (slot_mem p) w1 w2).
    { apply seen_set_mem; [exact Hw1| |unfold slot_mem, within; lia]. intros a Ha. apply Fm2. unfold slot_mem, within in *. lia. }
    pose proof (proj1 (proj1 S2)) as Hw2. assert (Gn2 : gnext w2 = e + 32) by exact Gn1. assert (Pg2 : pages w2 = pages w1) by reflexivity.
    ws1. ws1. apply wp_sload; [exact Hw2|unfold live; lia|unfold live; lia|].
    replace (load_be 32 (mem w2) p) with k by (rewrite <- A1; rewrite <- Em1; symmetry; apply load_be_ext; intros; apply Fm2; unfold within; lia).
    change (host w2) with (host w1). rewrite Hh1. set (word := stor (host w) k) in *. set (w3 := set_mem w2 _).
    assert (Fm3 : forall a, ~ within 64 32 a -> rd (mem w3) a = rd (mem w) a).
    { intros a Ha. rewrite <- Em1, <- Fm2 by exact Ha. cbn [w3 mem set_mem]. apply rd_store_be_out. unfold within in Ha. lia. }
    assert (S3 : seen (slot_mem p) w w3).
    { eapply seen_trans; [exact S1|]. eapply seen_trans; [exact S2|]. apply seen_set_mem; [exact Hw2| |unfold slot_mem, within; lia].
      intros a Ha. apply rd_store_be_out. unfold slot_mem, within in Ha. lia. }
    assert (V3 : load_be 32 (mem w3) 64 = n) by (cbn [w3 mem set_mem]; rewrite load_be_store32; exact Hl).
    assert (Gn3 : gnext w3 = e + 32) by exact Gn1. assert (Pg3 : pages w3 = pages w1) by reflexivity.
    pose proof (proj1 (proj1 S3)) as Hw3. assert (Hh3 : host w3 = host w) by apply S3.
    ws1. apply wp_load; [lia|unfold page_size; lia|].
    eapply wp_call; [reflexivity|cbn [List.length]; lia|]. wc. eapply returns_wpf; [apply swap_i32_spec; exact (load_range 4 (mem w3) (64 + 28))|]. wc.
    rewrite bswap_load, low4, V3. rewrite (Z.mod_small n) by lia. ws1. ws1. ws1. ws1.
    wcall allocate_vector_spec; [exact Hw3|lia|unfold sz; lia|fold sz; lia|lia| |].
    { fold sz. intros O. eapply (ctrap_seen _ w w3 (narrow t) (narrow t)); [exact S3|left; exact O|lia|auto]. }
    fold sz. intros r4 w4 (->&X4&Gn4&L4&L4'&_). pose proof (seen_extends (slot_mem p) _ _ X4) as S4. pose proof (seen_trans _ _ _ _ S3 S4) as S34.
    wc. ws1. rewrite Gn3 in *. set (d := e + 32) in *. pose proof X4 as (Hw4&_&_&_&_&Hh4&Fr4). rewrite Gn3 in Fr4. rewrite Hh3 in Hh4. pose proof Hw4 as (R1&R2&R3&R4&R5&R6).
    assert (Lp4 : load_be 32 (mem w4) p = k) by (rewrite <- A1; apply load_be_ext; intros; rewrite Fr4, Fm3; [reflexivity| |]; unfold within; lia).
    apply wp_block. ws1. ws1. apply wp_brif; intros C; unb C; wc.
    - assert (vs = []) by (destruct vs; [reflexivity|unfold n in *; cbn [List.length] in *; lia]). subst vs.
      ws1. ws1. exists d, (between d (d + 8)). split; [reflexivity|]. split; [exact S34|]. split; [lia|]. split; [exact Lp4|]. split; [|split; [|lia]].
      + cbn [vrep]. exists [], n, empty. fold sz. split; [reflexivity|]. split; [exact L4|]. split; [exact L4'|]. split; [lia|]. split; [lia|].
        split; [intros y Hy; unfold between in *; lia|]. split; [intros y []|]. split; [intros y _ []|exact Logic.I].
      + intros y Hy. unfold between in *. lia.
    - assert (Nv : vs <> []) by (intros ->; unfold n in C; cbn in C; lia).
      ws1. ws1. ws1. apply wp_keccak; [exact Hw4|unfold live; lia|unfold live; lia|]. change (Z.to_nat 32) with 32%nat.
      rewrite Hh4. fold H. set (w5 := set_mem w4 _).
      assert (Fm5 : forall a, ~ within e 32 a -> rd (mem w5) a = rd (mem w4) a) by (intros a Ha; cbn [w5 mem set_mem]; apply rd_store_be_out; unfold within in Ha; lia).
      assert (S5 : seen (slot_mem e) w4 w5).
      { apply seen_set_mem; [exact Hw4| |unfold slot_mem, within; lia]. intros a Ha. apply Fm5. unfold slot_mem in Ha. tauto. }
      pose proof (proj1 (proj1 S5)) as Hw5. assert (Gn5 : gnext w5 = d + 8 + n * sz) by exact Gn4. assert (Pg5 : pages w5 = pages w4) by reflexivity.
      assert (Lk5 : load_be 32 (mem w5) e = data_slot H k) by (cbn [w5 mem set_mem]; rewrite load_be_store32; symmetry; apply data_slot_bytes; exact Lp4).
      ws1. ws1. apply wp_sload; [exact Hw5|unfold live; lia|unfold live; lia|]. rewrite Lk5. change (host w5) with (host w4). rewrite Hh4.
      set (ds := data_slot H k) in *. set (w6 := set_mem w5 _).
      assert (Fm6 : forall a, ~ within e 32 a -> ~ within 64 32 a -> rd (mem w6) a = rd (mem w4) a).
      { intros a Ha Hb. rewrite <- Fm5 by exact Ha. cbn [w6 mem set_mem]. apply rd_store_be_out. unfold within in Hb. lia. }
      assert (S6 : seen (slot_mem e) w4 w6).
      { eapply seen_trans; [exact S5|]. apply seen_set_mem; [exact Hw5| |unfold slot_mem, within; lia]. intros a Ha. apply rd_store_be_out. unfold slot_mem, within in Ha. lia. }
      assert (Hh6 : host w6 = host w) by exact Hh4. pose proof (proj1 (proj1 S6)) as Hw6. assert (Gn6 : gnext w6 = d + 8 + sz * n) by (transitivity (d + 8 + n * sz); [exact Gn4|lia]).
      assert (Rd6 : ready ep w6 e).
      { split; [exact Hw6|]. split; [exact He|]. split; [|lia]. rewrite <- H1. apply load_ext. intros. rewrite Fm6, Fr4, Fm3; [reflexivity| | | |]; unfold within; lia. }
      assert (Ft' : fst (afters (map (fun _ => t) vs) (ds, 0)) < 2 ^ 256 /\ fits (areas_of H (map (fun _ => t) vs) vs (ds, 0))).
      { fold k in Ft. fold ds in Ft. destruct vs; [congruence|]. unfold slots, fits in *. inversion Ft; subst. split; assumption. }
      clear Ft. destruct Ft' as (Ft1&Ft2).
      refine (decode_vector_loop t Rt Pt ep w6 e d vs ow ds p _ _ _ _ _ _ Rd6 ltac:(lia) _ Nv _ _ Ft1 _ _ _ _ _ _); fold n; fold sz.
      + split; [cbn [fst]|right; unfold loaded; cbn [fst]; rewrite Hh6].
        * rewrite <- Lk5. apply load_be_ext. intros. cbn [w6 mem set_mem]. apply rd_store_be_out. lia.
        * cbn [w6 mem set_mem]. apply load_be_store32.
      + rewrite Hh6. exact Hd.
      + rewrite Hh6. exact Nn.
      + rewrite Hh6. exact Ft2.
      + lia.
      + exact Gn6.
      + lia.
      + intros Tr. wc. destruct S6 as ((_&A2&_)&_). destruct S34 as ((_&B2&_)&_). destruct Tr as [O|(Nw&j&J1&J2)].
        * left. unfold oom in *. lia.
        * right. split; [exact Nw|]. exists j. rewrite Gn6 in *. unfold e in d. lia.
      + intros w7 G e' a' b0 c0 S7 N7 El SG. pose proof S7 as ((Hw7&A2&A3&A4&A5&A6&A7)&Hh7).
        assert (S17 : seen (slot_mem p) w w7).
        { destruct S34 as ((_&B2&B3&B4&B5&B6&B7)&B8). split; [|congruence]. split; [exact Hw7|]. split; [rewrite A2; exact B2|]. split; [change (pages w6) with (pages w4) in A3; lia|]. split; [lia|].
          split; [rewrite A5; exact B5|]. split; [rewrite Hh7, Hh6; symmetry; apply set_stor_same|].
          intros y Hy Ny. assert (Ne : ~ within e 32 y) by (unfold within; lia). assert (N6 : ~ within 64 32 y) by (unfold slot_mem, within in *; lia).
          rewrite A7, Fm6, B7; [reflexivity|exact Hy|exact Ny|exact Ne|exact N6|lia|]. unfold vec_mem, slot_mem, between. intros [[Y|Y]|Y]; [apply Ny; left; exact Y|exact (Ne Y)|lia]. }
        assert (Fd : forall y, d <= y < d + 8 -> rd (mem w7) y = rd (mem w4) y).
        { intros y Hy. rewrite A7, Fm6; [reflexivity| | |lia|]; unfold vec_mem, slot_mem, within, between; lia. }
        ws1. ws1. ws1. exists d, (union (between d (d + 8 + n * sz)) G). split; [reflexivity|]. split; [exact S17|]. split; [lia|].
        split; [|split; [|split]].
        * rewrite <- Lp4. apply load_be_ext. intros. rewrite A7, Fm6; [reflexivity| | |lia|]; unfold vec_mem, slot_mem, within, between; lia.
        * cbn [vrep]. exists vs, n, G. fold sz. split; [reflexivity|].
          split; [fold n; rewrite <- L4; apply load_ext; intros; apply Fd; lia|]. split; [rewrite <- L4'; apply load_ext; intros; apply Fd; lia|]. split; [fold n; lia|]. split; [fold n; lia|].
          split; [intros y Hy; left; exact Hy|]. split; [intros y Hy; right; exact Hy|]. split; [|exact El].
          intros y Y1 Y2. apply SG in Y2. unfold between in *. lia.
        * intros y [Y|Y]; [|apply SG in Y]; unfold between in *; lia.
        * lia. }
  cbn [decode_type]. apply wpf_intro; [reflexivity|]. wc. ws1. ws1.
  eapply wp_call_spec; [reflexivity|cbn [List.length]; lia|wc; exact K|intros Tr; exact Tr|].
  intros r w1 (a&F&->&S&G&L&V&SF&Ba). wc. ws1. ws1. ws1. ws1. ws1. exists a, p, F. split; [reflexivity|]. split; [exact S|]. split; [rewrite Em; exact G|].
  split; [split; [exact L|intros _; left]|split; [exact V|split; [exact SF|split; [exact Ba|split; [left; reflexivity|split; [|discriminate]]]]]].
  - unfold q1. destruct q as [k0 o0]. cbn [room]. destruct (o0 + 32 <=? 32) eqn:E0; cbn [snd]; [unfold good in Gq; cbn in Gq; lia|reflexivity].
  - intros x X Y. apply SF in X. unfold between in *. lia.
Qed.

(** ** Enums *)

Lemma enum_narrow : forall vts tag fs, nth_error vts tag = Some fs -> existsb narrow fs = true -> narrow (TEnum vts) = true.
Proof. intros vts tag fs En N. cbn [narrow]. apply existsb_exists. exists fs. split; [eapply nth_error_In; exact En|exact N]. Qed.

Lemma decode_enum_spec : forall vts, Forall (Forall reads) vts -> storable (TEnum vts) = true -> reads (TEnum vts).
Proof.
  intros vts IH Pl ep w p ow q v b b' Rd Gq c At _ Hd Ff Rg Ft Mm. pose proof Rd as (Hw&He&H1&Hp&Hp2). pose proof Hw as (P1&P2&P3&P4&P5&P6).
  change (field_size (TEnum vts)) with 0 in *. rewrite (room_zero q Gq) in *.
  assert (Ec : c = b) by (unfold c, good in *; rewrite Z.add_0_r; replace (32 <? snd q) with false by lia; apply orb_false_r). rewrite Ec in At. clear Ec c.
  apply held_enum in Hd. destruct Hd as (tag&vs&fs&->&En&Hd). cbn [helds] in Hd. destruct Hd as (Ht&Hd). change (after TU8 q) with (room q 1) in Hd.
  rewrite (fetched_enum _ _ _ _ _ _ _ En) in Ff. rewrite (memory_for_enum _ _ _ _ En) in *. rewrite (areas_enum _ _ _ _ _ _ (Z.of_nat tag) En) in Ft.
  change (areas_of (keccak (host w)) (TU8 :: fs) (VInt (Z.of_nat tag) :: vs) q) with (areas_of (keccak (host w)) fs vs (room q 1)) in Ft.
  destruct (b || (32 <? snd q + 1)) eqn:Eb; [|discriminate]. destruct (fetcheds (keccak (host w)) fs vs (room q 1) true) as [b1|] eqn:F1; [|discriminate]. injection Ff as <-.
  set (T := after (TEnum vts) q) in *. assert (Es : snd T < 32) by (unfold T; cbn [after]; unfold at_byte; cbn [snd]; apply Z.mod_pos_bound; lia).
  pose proof (room_good q 1 Gq ltac:(lia)) as G1'. destruct (afters_ok fs (room q 1) G1') as (_&B1). pose proof (variant_before vts fs q (nth_error_In _ _ En) Gq) as B2. fold T in B2.
  pose proof (before_fst _ _ B1) as B1'. pose proof (before_fst _ _ B2) as B2'.
  pose proof (memory_fors_nonneg fs vs) as Mn. pose proof (enum_size_ge vts tag fs En) as Ge. pose proof (enum_size_pos vts) as Gp.
  assert (Lt : Z.of_nat tag < 256 /\ (List.length vts <= 256)%nat).
  { assert (tag < List.length vts)%nat by (apply nth_error_Some; congruence). pose proof Pl as P0. cbn [storable] in P0. apply andb_true_iff in P0. destruct P0 as (P0&_). apply andb_true_iff in P0. destruct P0 as (P0&_).
    apply Nat.leb_le in P0. lia. } destruct Lt as (Lt&Lv).
  assert (Pf : forallb storable fs = true) by (apply forallb_forall; pose proof (storable_variant vts tag fs Pl En) as X; rewrite Forall_forall in X; exact X).
  assert (Qe : (load_be 32 (mem w) p, snd q) = q) by (rewrite (proj1 At); destruct q; reflexivity).
  cbn [decode_type]. unfold decode_enum. apply wpf_intro; [reflexivity|]. wc. ws1. ws1.
  eapply wp_call_spec; [reflexivity|cbn [List.length]; lia|wc; apply (enum_tail_any ep vts w p (snd q)); try assumption; rewrite Qe; exact Rg| |].
  { intros O. left. eapply oom_mono; [exact O|lia]. }
  rewrite Qe. fold T. intros r1 w1 (->&Gr1&N1&Hh1&L1&L1'). wc. ws1. set (tl := gnext w) in *.
  assert (S1 : seen (slot_mem p) w w1) by (split; [eapply grows_mono; [exact Gr1|unfold slot_mem, table; auto]|exact Hh1]).
  pose proof (proj1 Gr1) as Hw1. pose proof Hw1 as (Q1&Q2&Q3&Q4&Q5&Q6). assert (M1 : maxpages w1 = maxpages w) by apply Gr1. ws1.
  wcall alloc_spec; [exact Hw1|lia| |].
  { intros O. left. unfold oom in *. fold tl. lia. }
  intros r2 w2 (->&Al). pose proof (alloc_extends w1 w2 _ Hw1 Al ltac:(lia)) as X2. pose proof Al as (Hw2&Em2&_&_&Gn2&_).
  pose proof (seen_extends (slot_mem p) _ _ X2) as S2. pose proof (seen_trans _ _ _ _ S1 S2) as S12. wc. ws1. set (en := gnext w1) in *.
  assert (Rd2 : ready ep w2 p) by (eapply ready_seen; [exact Rd|exact S12|]; intros x Hx; unfold slot_mem, within; lia).
  assert (Hh2 : host w2 = host w) by apply S12.
  assert (At2 : at_pos w2 p q b).
  { destruct At as (X1&X3). assert (K : forall a, 0 <= a -> a + 32 <= tl -> (a = 64 \/ a = 128 \/ 468 <= a) -> load_be 32 (mem w2) a = load_be 32 (mem w) a).
    { intros a Ha Ha2 Ha3. rewrite Em2. apply load_be_ext. intros j Hj. destruct Gr1 as (_&_&_&_&_&_&X7). apply X7; [fold tl; lia|]. unfold table, within. lia. }
    split; [rewrite K by lia; exact X1|]. intros E. destruct (X3 E) as [Y|Y]; [left; exact Y|right]. unfold loaded in *. rewrite K by lia. rewrite Hh2. exact Y. }
  ws1. ws1. ws1.
  eapply wp_call_spec; [reflexivity|cbn [List.length]; lia|wc; eapply (accumulate_read_spec ep w2 p q b 1); [exact Rd2|exact Gq|exact At2|lia|lia]|intros []|].
  cbv zeta. rewrite Eb. intros r3 w3 (->&S3&N3&At3&Ld3). specialize (Ld3 ltac:(lia) eq_refl). wc. ws1. pose proof (seen_trans _ _ _ _ S12 S3) as S13.
  pose proof (proj1 (proj1 S3)) as Hw3. pose proof Hw3 as (R1&R2&R3&R4&R5&R6). assert (Hh3 : host w3 = host w) by apply S13.
  destruct (slot_value w3 q TU8 (VInt (Z.of_nat tag)) 1 eq_refl Gq ltac:(lia)) as (n&E3&_&L3&O3); [exact Ld3|exact Logic.I|rewrite Hh3; exact Ht|]. injection E3 as <-. change (width TU8) with 1 in *. change (Z.of_nat 1) with 1 in O3.
  set (q1 := room q 1) in *. apply (wp_slot_data_ptr 1 (snd q1)); [reflexivity|lia|]. apply wp_load; [lia|unfold page_size; lia|]. rewrite Z.add_0_r.
  assert (L3' : load 1 (mem w3) (96 - snd q1) = Z.of_nat tag) by (rewrite <- L3; cbn [load load_be]; lia). rewrite L3'.
  ws1. ws1. ws1. apply wp_store; [lia|unfold page_size; lia|]. rewrite Z.add_0_r. change (Z.of_nat 4) with 4. set (w4 := set_mem w3 _).
  assert (Fr4 : forall x, ~ between en (en + 4) x -> rd (mem w4) x = rd (mem w3) x) by (intros x Hx; cbn [w4 mem set_mem]; apply rd_store_out; unfold between in Hx; lia).
  assert (S4 : seen (between en (en + 4)) w3 w4) by (apply seen_set_mem; [exact Hw3|exact Fr4|unfold between; lia]).
  assert (S14 : seen (slot_mem p) w w4) by (eapply seen_trans'; [exact S13|exact S4|]; intros x Hx Y; unfold between in Y; lia).
  assert (Hh4 : host w4 = host w) by apply S14. assert (Gn4 : gnext w4 = en + enum_size vts) by (change (gnext w4) with (gnext w3); lia).
  assert (Rd4 : ready ep w4 p) by (eapply ready_seen; [exact Rd|exact S14|]; intros x Hx; unfold slot_mem, within; lia).
  assert (At4 : at_pos w4 p q1 true).
  { destruct At3 as (X1&_). split; [rewrite <- X1|intros _; right; unfold loaded; change (host w4) with (host w3); rewrite <- Ld3]; apply load_be_ext; intros j Hj; apply Fr4; unfold between; lia. }
  apply wp_block. eapply (wp_match_arms _ 6 0 _ _ _ _ _ tag); [cbn [nth_error]; f_equal; lia|lia|rewrite !map_length; lia| |].
  { rewrite map_map. exact (map_nth_error (fun fs => decode_fields ep 1 2 4 5 (map (fun t' => (field_size t', decode_type ep t')) fs) 1) _ _ En). }
  refine (decode_fields_wp fs (nth_error_Forall _ _ _ _ IH En) ep 1%nat 2%nat 4%nat 5%nat (fun p o f => [p; o; ow; tl; en; f; Z.of_nat tag; 0]) ow en _ ltac:(lia) w4 p vs q1 true b1 1 _ _ _ _ Rd4 _ G1' At4 Pf _ _ _ _ _ _ _ _ _); rewrite ?Hh4; try assumption; try lia.
  - intros p' o f. repeat split.
  - intros Tr. wc. eapply ctrap_seen; [exact S14|exact Tr|fold tl; lia|]. apply (enum_narrow vts tag fs En).
  - intros w5 p5 G f S5 N5 At5 Fl SG Mv5 DG. replace (en + 4 * 1) with (en + 4) in * by lia. ws1. wc. cbn [String.eqb Ascii.eqb Bool.eqb blk].
    pose proof S5 as ((Hw5&_&_&N5'&_&_&Fr5)&_). pose proof Hw5 as (U1&U2&U3&U4&U5&U6).
    assert (Kt : forall x, tl <= x < tl + 36 -> rd (mem w5) x = rd (mem w1) x).
    { intros x Hx. rewrite Fr5, Fr4; [|unfold between; lia|lia|unfold struct_mem, slot_mem, within, between; lia]. destruct S3 as ((_&_&_&_&_&_&X7)&_). rewrite X7, Em2; [reflexivity|lia|unfold slot_mem, within; lia]. }
    ws1. apply wp_load; [lia|unfold page_size; lia|]. replace (load 4 (mem w5) (tl + 32)) with (snd T) by (rewrite <- L1'; symmetry; apply load_ext; intros; apply Kt; lia).
    ws1. ws1. ws1. ws1. ws1. ws1. ws1.
    exists en, tl, (union (between en (en + enum_size vts)) G). split; [reflexivity|].
    assert (S15 : seen (slot_mem p) w w5) by (eapply seen_trans'; [exact S14|exact S5|]; intros x Hx [Y|Y]; [exact Y|unfold between in Y; lia]).
    split; [exact S15|]. split; [rewrite (memory_for_enum _ _ _ _ En); fold tl; lia|].
    split; [|split; [|split; [|split; [fold tl; lia|split; [right; fold tl; lia|split; [|discriminate]]]]]].
    + split; [rewrite <- L1; apply load_be_ext; intros; apply Kt; lia|]. intros Eb'. apply andb_true_iff in Eb'. destruct Eb' as (E1&E2). apply Z.eqb_eq in E2. change (fst (afters fs q1) = fst T) in E2.
      destruct At5 as (_&At5). right. unfold loaded. rewrite <- E2. destruct (At5 E1) as [Y|Y]; [|exact Y]. exfalso. unfold before in B2. lia.
    + unfold field_of. cbn [is_stack vrep]. exists tag, vs, G. split; [reflexivity|].
      split; [|split; [intros x Hx; left; exact Hx|split; [intros x Hx; right; exact Hx|split]]].
      * transitivity (load 4 (mem w4) en); [apply load_ext; intros j Hj; apply Fr5; [lia|unfold struct_mem, slot_mem, within, between; lia]|].
        cbn [w4 mem set_mem]. rewrite load_4_store. apply w32_small. lia.
      * intros x X Y. apply SG in Y. unfold between in *. lia.
      * rewrite (map_nth_error _ _ _ En). exact Fl.
    + intros x [X|X]; [|apply SG in X]; unfold between in *; lia.
    + intros x [X|X] Y; [|apply SG in X]; unfold between in *; lia.
Qed.

Theorem reads_storable : forall t, storable t = true -> reads t.
Proof.
  intros t. refine (ty_rec' (fun t => storable t = true -> reads t) _ _ _ _ _ _ _ t); clear t.
  - intros t St _. apply scalar_reads; [destruct t; try discriminate; exact Logic.I|apply decode_int_spec, St].
  - intros _. apply scalar_reads; [exact Logic.I|]. apply (decode_wide_spec 2). tauto.
  - intros _. apply scalar_reads; [exact Logic.I|]. apply (decode_wide_spec 4). tauto.
  - intros _. apply scalar_reads; [exact Logic.I|]. apply decode_address_spec.
  - intros t IH Pl. cbn [storable] in Pl. apply decode_vector_spec; [apply IH; exact Pl|exact Pl].
  - intros [|] fs IH Pl; [discriminate|]. apply decode_struct_spec; [|exact Pl]. cbn [storable] in Pl. apply andb_true_iff in Pl. destruct Pl as (_&Pl).
    rewrite forallb_forall in Pl. rewrite Forall_forall in *. intros t Ht. apply IH; [exact Ht|apply Pl; exact Ht].
  - intros vts IH Pl. apply decode_enum_spec; [|exact Pl]. apply Forall_forall. intros fs Hf. destruct (In_nth_error _ _ Hf) as (tag&En).
    pose proof (storable_variant vts tag fs Pl En) as Sv. rewrite Forall_forall in *. intros t Ht. specialize (IH fs Hf). rewrite Forall_forall in IH. auto.
Qed.
