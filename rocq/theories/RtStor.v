(** * Storage locations (runtime/storage.rs). *)

From Verif Require Import Tac RtAlloc RtErr RtInt RtInt2 RtEq RtMul RtDiv RtShift RtSwap SpecAbi LemAbi SpecStor.
Ltac Zify.zify_post_hook ::= idtac.

(** ** Addresses of the compiler-reserved area (data.rs 22-69) *)
Definition A_ONE : Z := 32.            (* DATA_U256_ONE_OFFSET *)
Definition A_SLOT_DATA : Z := 64.      (* DATA_SLOT_DATA_PTR_OFFSET *)
Definition A_OBJECTS_SLOT : Z := 96.   (* DATA_OBJECTS_SLOT_OFFSET *)
Definition A_OBJ_SLOT : Z := 128.      (* DATA_OBJECTS_MAPPING_SLOT_NUMBER_OFFSET *)
Definition A_SHARED : Z := 160.        (* DATA_SHARED_OBJECTS_KEY_OFFSET *)
Definition A_FROZEN : Z := 192.        (* DATA_FROZEN_OBJECTS_KEY_OFFSET *)
Definition A_OWNER : Z := 224.         (* DATA_STORAGE_OBJECT_OWNER_OFFSET *)

(** runtime/storage.rs 621-665 [derive_mapping_slot]; 404 is DATA_DERIVED_MAPPING_SLOT.
    Locals: 0 mapping_slot_ptr, 1 key_ptr, 2 derived_slot_ptr. *)
Definition derive_mapping_slot : func := Func 3 0 0
 [ Const 404; LocalGet 1; Const 32; MemCopy;
   Const 436; LocalGet 0; Const 32; MemCopy;
   Const 404; Const 64; LocalGet 2; Host H_keccak ].

(** runtime/storage.rs 483-519 [write_object_slot].
    Locals: 0 owner_ptr, 1 uid_ptr, 2 slot_ptr. *)
Definition write_object_slot : func := Func 3 0 0
 [ Const A_OBJECTS_SLOT; LocalGet 0; LocalGet 2; Call derive_mapping_slot;
   LocalGet 2; LocalGet 1; LocalGet 2; Call derive_mapping_slot ].

(** runtime/storage.rs 521-558 [storage_next_slot].  Local 0: slot_ptr. *)
Definition storage_next_slot (ep : errtab) : func := Func 1 0 1
 [ LocalGet 0; LocalGet 0; Call swap_i256_bytes;
   LocalGet 0; Const 32; LocalGet 0; Const 32; Call (heap_integers_add ep);
   LocalGet 0; LocalGet 0; Call swap_i256_bytes ].

(** runtime/storage.rs 561-610 [get_id_bytes_ptr].  Local 0: struct_ptr. *)
Definition get_id_bytes_ptr : func := Func 1 0 1
 [ LocalGet 0; Load 4 0; Load 4 0; Load 4 0 ].

(** runtime/storage.rs 1316-1330 [get_struct_owner_fn].  Local 0: struct_ptr. *)
Definition get_struct_owner : func := Func 1 0 1
 [ LocalGet 0; Const 32; Bin I32 Sub ].

(** runtime/storage.rs 445-475 [locate_struct_slot].  Local 0: struct_ptr. *)
Definition locate_struct_slot : func := Func 1 0 0
 [ LocalGet 0; Call get_struct_owner; LocalGet 0; Call get_id_bytes_ptr;
   Const A_OBJ_SLOT; Call write_object_slot ].

(** Wiping the owner buffer and filling in the transaction originator
    (runtime/storage.rs 84-94, 232-242). *)
Definition load_origin : list instr :=
 [ Const A_OWNER; Const 0; Const 12; MemFill; Const 236; Host H_tx_origin ].

(** Computing the slot of the object for the owner at [o] and reading it
    (runtime/storage.rs 96-106, 122-132, 155-165, 244-254, 321-331, 398-408). *)
Definition probe (o : Z) : list instr :=
 [ Const o; LocalGet 0; Const A_OBJ_SLOT; Call write_object_slot;
   Const A_OBJ_SLOT; Const A_SLOT_DATA; Host H_storage_load ].

(** runtime/storage.rs 49-189 [locate_storage_data].
    Locals: 0 uid_ptr, 1 search_frozen, 2 encoded_error_ptr. *)
Definition locate_storage_data (ep : errtab) : func := Func 2 1 1
 [ Block "exit" 1
     (load_origin ++ probe A_OWNER ++
      [ Const A_OWNER; Const A_SLOT_DATA; Const 32; Call is_zero; Const 1; Bin I32 Ne; BrIf "exit"; Drop ] ++
      probe A_SHARED ++
      [ Const A_SHARED; Const A_SLOT_DATA; Const 32; Call is_zero; Const 1; Bin I32 Ne; BrIf "exit"; Drop;
        Block "frozen" 0
          ([ LocalGet 1; Un Eqz; BrIf "frozen" ] ++
           probe A_FROZEN ++
           [ Const A_FROZEN; Const A_SLOT_DATA; Const 32; Call is_zero; Const 1; Bin I32 Ne; BrIf "exit"; Drop ]) ] ++
      return_error ep StorageObjectNotFound 2 true) ].

(** runtime/storage.rs 209-279 [locate_storage_owned_data], 299-356 [.._shared_data],
    376-433 [.._frozen_data].  Locals: 0 uid_ptr, 1 encoded_error_ptr. *)
Definition locate_in (ep : errtab) (pre : list instr) (o : Z) : func := Func 1 1 1
 (pre ++ probe o ++
  [ Const A_SLOT_DATA; Const 32; Call is_zero;
    If 0 (return_error ep StorageObjectNotFound 1 true) []; Const o ]).
Definition locate_storage_owned_data ep := locate_in ep load_origin A_OWNER.
Definition locate_storage_shared_data ep := locate_in ep [] A_SHARED.
Definition locate_storage_frozen_data ep := locate_in ep [] A_FROZEN.

(** runtime/storage.rs 680-830 [derive_dyn_array_slot].
    Locals: 0 array_slot_ptr, 1 elem_index (reused as elem_offset_256), 2 elem_size
    (reused as elem_offset_32), 3 derived_elem_slot_ptr, 4 base_slot_ptr. *)
Definition derive_dyn_array_slot (ep : errtab) : func := Func 4 1 0
 [ LocalGet 2; Const 0; Bin I32 LeU; If 0 [ Unreachable ] [];
   Const 32; Call alloc; LocalSet 4;
   LocalGet 0; Const 32; LocalGet 4; Host H_keccak;
   LocalGet 2; Const 32; Bin I32 LtU;
   If 1
     [ LocalGet 1; Const 32; LocalGet 2; Bin I32 DivU; Bin I32 DivU ]
     [ LocalGet 1; LocalGet 2; Const 31; Bin I32 Add; Const 32; Bin I32 DivU; Bin I32 Mul ];
   Call swap_i32_bytes; LocalSet 2;
   Const 32; Call alloc; LocalSet 1; LocalGet 1; LocalGet 2; Store 4 28;
   LocalGet 3; LocalGet 1; LocalGet 4; Const 32; Call alloc; Const 32; Call (heap_integers_add ep);
   Const 32; MemCopy ].

(** ** Host calls *)

Lemma inb_live : forall w p n, wok w -> live w p n -> inb w p n = true.
Proof. unfold inb, wok, live, page_size. intros. lia. Qed.

Lemma wp_keccak : forall r Q s l w out len ptr, wok w -> live w ptr len -> live w out 32 ->
  wp r Q s l (set_mem w (store_be 32 (mem w) out (keccak (host w) (bytes (Z.to_nat len) (mem w) ptr)))) ->
  wp (Host H_keccak :: r) Q (out :: len :: ptr :: s) l w.
Proof.
  intros. eapply wp_host; [|eassumption]. cbn [hostcall]. rewrite !inb_live by assumption. reflexivity.
Qed.

Lemma wp_sload : forall r Q s l w key dest, wok w -> live w key 32 -> live w dest 32 ->
  wp r Q s l (set_mem w (store_be 32 (mem w) dest (stor (host w) (load_be 32 (mem w) key)))) ->
  wp (Host H_storage_load :: r) Q (dest :: key :: s) l w.
Proof.
  intros. eapply wp_host; [|eassumption]. cbn [hostcall]. rewrite !inb_live by assumption. reflexivity.
Qed.

Lemma wp_scache : forall r Q s l w key val, wok w -> live w key 32 -> live w val 32 ->
  wp r Q s l (set_host w (set_stor (host w)
     (upd (stor (host w)) (load_be 32 (mem w) key) (load_be 32 (mem w) val)))) ->
  wp (Host H_storage_cache :: r) Q (val :: key :: s) l w.
Proof.
  intros. eapply wp_host; [|eassumption]. cbn [hostcall]. rewrite !inb_live by assumption. reflexivity.
Qed.

Lemma wp_origin : forall r Q s l w out, wok w -> live w out 20 ->
  wp r Q s l (set_mem w (store_be 20 (mem w) out (h_origin (host w)))) ->
  wp (Host H_tx_origin :: r) Q (out :: s) l w.
Proof.
  intros. eapply wp_host; [|eassumption]. cbn [hostcall]. rewrite !inb_live by assumption. reflexivity.
Qed.

Lemma load_be_store32 : forall m a v, load_be 32 (store_be 32 m a v) a = v mod 2 ^ 256.
Proof. intros. exact (load_be_store_be_same 32 m a v). Qed.

(** A change of live memory keeps the machine invariant. *)
Lemma wok_set_mem : forall w m, wok w -> (forall x, gnext w <= x -> rd m x = rd (mem w) x) -> wok (set_mem w m).
Proof.
  intros w m (P1&P2&P3&P4&P5&P6) H. unfold wok; cbn [pages maxpages gnext gavail mem set_mem].
  repeat (split; [lia|]). intros. rewrite H; auto.
Qed.

(** ** Specifications *)

Lemma derive_mapping_slot_spec : forall w mp kp out, wok w ->
  live w mp 32 -> live w kp 32 -> live w out 32 -> (mp + 32 <= 404 \/ 436 <= mp) ->
  exists m', returns derive_mapping_slot [mp; kp; out] w [] (set_mem w m') /\
    load_be 32 m' out = hash (host w) (bytes 32 (mem w) kp ++ bytes 32 (mem w) mp) /\
    (forall x, ~ within 404 64 x -> ~ within out 32 x -> rd m' x = rd (mem w) x).
Proof.
  intros w mp kp out Hw Lm Lk Lo A. pose proof Hw as (P1&P2&P3&P4&P5&P6). unfold live in *.
  set (m1 := mcopy (mem w) 404 kp 32). set (m2 := mcopy m1 436 mp 32).
  exists (store_be 32 m2 out (keccak (host w) (bytes 64 m2 404))).
  assert (O2 : forall x, ~ within 404 64 x -> rd m2 x = rd (mem w) x).
  { intros x Hx. unfold within in Hx. unfold m2, m1. rewrite !rd_mcopy_out by lia. reflexivity. }
  split; [|split].
  - apply returns_intro. apply wpf_intro; [reflexivity|]. wc.
    do 11 ws1. match goal with |- wp _ _ _ _ ?w' => change w' with (set_mem w m2) end.
    apply wp_keccak.
    + apply wok_set_mem; [exact Hw|]. intros. apply O2. unfold within. lia.
    + unfold live; wc; lia.
    + unfold live; wc; lia.
    + ws. auto.
  - rewrite load_be_store32. unfold hash. f_equal. f_equal.
    change 64%nat with (32 + 32)%nat. rewrite bytes_app. f_equal; apply bytes_ext; intros i Hi.
    + unfold m2. rewrite rd_mcopy_out by lia. unfold m1. rewrite rd_mcopy_in by lia. f_equal. lia.
    + unfold m2. rewrite rd_mcopy_in by lia. unfold m1. rewrite rd_mcopy_out by lia. f_equal. lia.
  - intros x H1 H2. unfold within in H2. rewrite rd_store_be_out by lia. apply O2. exact H1.
Qed.

Lemma bytes_word : forall m a, bytes 32 m a = word (load_be 32 m a).
Proof. intros. symmetry. apply be_bytes_load_be. Qed.

Lemma write_object_slot_spec : forall w op up out, wok w -> load_be 32 (mem w) 96 = 0 ->
  live w op 32 -> live w up 32 -> live w out 32 ->
  (out + 32 <= 404 \/ 468 <= out) -> (up + 32 <= 404 \/ 468 <= up) -> (up + 32 <= out \/ out + 32 <= up) ->
  exists m', returns write_object_slot [op; up; out] w [] (set_mem w m') /\
    load_be 32 m' out = slot_of (host w) (load_be 32 (mem w) op) (load_be 32 (mem w) up) /\
    (forall x, ~ within 404 64 x -> ~ within out 32 x -> rd m' x = rd (mem w) x).
Proof.
  intros w op up out Hw Z0 Lo Lu Lt A1 A2 A3. pose proof Hw as (P1&P2&P3&P4&P5&P6). unfold live in *.
  destruct (derive_mapping_slot_spec w 96 op out Hw) as (m1&R1&V1&F1); try (unfold live; lia).
  assert (Hw1 : wok (set_mem w m1)).
  { apply wok_set_mem; [exact Hw|]. intros. apply F1; unfold within; lia. }
  destruct (derive_mapping_slot_spec (set_mem w m1) out up out Hw1) as (m2&R2&V2&F2);
    try (unfold live; cbn [gnext set_mem]; lia).
  cbn [mem set_mem host] in V2, F2, R2.
  exists m2. split; [|split].
  - apply returns_intro. apply wpf_intro; [reflexivity|]. wc. do 3 ws1.
    eapply wp_call; [reflexivity|cbn [List.length]; lia|]; cbn [rev firstn app].
    eapply returns_wpf; [exact R1|]; cbn [skipn app]. do 3 ws1.
    eapply wp_call; [reflexivity|cbn [List.length]; lia|]; cbn [rev firstn app].
    eapply returns_wpf; [exact R2|]; cbn [skipn app]. ws. auto.
  - rewrite V2. unfold slot_of. f_equal. rewrite !bytes_word, V1, !bytes_word, Z0. f_equal. f_equal.
    apply load_be_ext. intros i Hi. apply F1; unfold within; lia.
  - intros x H1 H2. rewrite F2, F1 by assumption. reflexivity.
Qed.

(** The next slot.  2^256-1 has no successor: the addition aborts with Overflow. *)
Lemma storage_next_slot_spec : forall ep w s, wok w -> errtab_ok ep -> load 32 (mem w) 32 = 1 ->
  live w s 32 -> (64 <= s /\ s + 32 <= 256 \/ 260 <= s) ->
  exists w', returns (storage_next_slot ep) [s] w
      [if load_be 32 (mem w) s =? 2 ^ 256 - 1 then BADF00D else s] w' /\
    if load_be 32 (mem w) s =? 2 ^ 256 - 1
    then frame w w' (fun x => within s 32 x \/ within 256 4 x) /\ abort_flag w' = ep Overflow
    else frame w w' (within s 32) /\ load_be 32 (mem w') s = load_be 32 (mem w) s + 1.
Proof.
  intros ep w s Hw He H1 Ls A. pose proof Hw as (P1&P2&P3&P4&P5&P6). unfold live in Ls.
  set (v := load_be 32 (mem w) s).
  assert (Rv : 0 <= v < 2 ^ 256) by exact (load_be_range 32 (mem w) s).
  destruct (swap_bytes_values 4 w s s Hw) as (m1&R1&F1&V1&V1'); try (unfold live; lia).
  change (8 * 4)%nat with 32%nat in *. change (8 * Z.of_nat 4) with 32 in *. fold v in V1'.
  set (w1 := set_mem w m1) in *.
  assert (Hw1 : wok w1) by (apply wok_set_mem; [exact Hw|]; intros; apply F1; unfold within; lia).
  assert (One : load 32 m1 32 = 1).
  { rewrite <- H1. apply load_ext. intros. apply F1. unfold within. lia. }
  destruct (wpf_cases _ _ _ _ _ (heap_add_spec0 4 ep w1 s 32 s Hw1 He
     ltac:(unfold live, w1; cbn [gnext set_mem]; lia) ltac:(unfold live, w1; cbn [gnext set_mem]; lia)
     ltac:(unfold live, w1; cbn [gnext set_mem]; lia) ltac:(unfold same_or_apart; lia)
     ltac:(unfold same_or_apart; lia))) as [(vs&w2&R2&w2'&F2&D)|[_ []]].
  change (8 * 4)%nat with 32%nat in *. change (Z.of_nat 32) with 32 in *.
  change (mem w1) with m1 in D. rewrite V1', One in D. change (256 ^ 32) with (2 ^ 256) in D.
  assert (Hw2' : wok w2') by (eapply wok_frame; [exact Hw1|exact F2|]; unfold within, w1; cbn [gnext set_mem]; lia).
  assert (Hw2 : wok w2).
  { destruct D as [(?&?&->&?)|(?&?&B)]; [exact Hw2'|]. eapply wok_aborted; eassumption. }
  assert (G2 : gnext w2 = gnext w).
  { destruct D as [(?&?&->&?)|(?&?&B)]; [apply F2|]. destruct B as [B _].
    transitivity (gnext w2'); [apply B|]. apply F2. }
  destruct (swap_bytes_values 4 w2 s s Hw2) as (m3&R3&F3&V3&V3'); try (unfold live; rewrite G2; lia).
  change (8 * 4)%nat with 32%nat in *. change (8 * Z.of_nat 4) with 32 in *.
  exists (set_mem w2 m3).
  assert (R : forall vs', vs = vs' -> returns (storage_next_slot ep) [s] w vs' (set_mem w2 m3)).
  { intros vs' <-. apply returns_intro. apply wpf_intro; [reflexivity|]. wc. do 2 ws1.
    eapply wp_call; [reflexivity|cbn [List.length]; lia|]; cbn [rev firstn app].
    eapply returns_wpf; [exact R1|]; cbn [skipn app]. do 4 ws1.
    eapply wp_call; [reflexivity|cbn [List.length]; lia|]; cbn [rev firstn app].
    eapply returns_wpf; [exact R2|]; cbn [skipn app]. do 2 ws1.
    eapply wp_call; [reflexivity|cbn [List.length]; destruct vs; cbn; lia|]; cbn [rev firstn app].
    eapply returns_wpf; [exact R3|]; cbn [skipn app]. rewrite app_nil_r.
    destruct D as [(?&->&?&?)|(?&->&B)]; ws; auto. }
  assert (Fr : forall W : Z -> Prop, frame w2' w2 W ->
     frame w (set_mem w2 m3) (fun x => within s 32 x \/ W x)).
  { intros W (B1&B2&B3&B4&B5&B6&B7). destruct F2 as (C1&C2&C3&C4&C5&C6&C7).
    unfold frame; cbn [maxpages pages gnext gavail gcd host mem set_mem].
    repeat (split; [etransitivity; [eassumption|assumption]|]).
    intros a Ha. rewrite F3, B7, C7 by tauto. apply F1. tauto. }
  destruct D as [(D1&D2&->&D3)|(D1&D2&B)].
  - replace (v =? 2 ^ 256 - 1) with false by lia. split; [apply R; exact D2|]. split.
    + destruct (Fr (fun _ => False)) as (B1&B2&B3&B4&B5&B6&B7).
      { unfold frame; auto 10. }
      unfold frame. repeat (split; [assumption|]). intros. apply B7. tauto.
    + cbn [mem set_mem]. rewrite V3, D3. reflexivity.
  - replace (v =? 2 ^ 256 - 1) with true by lia. split; [apply R; exact D2|].
    destruct B as [B1 B2]. split; [apply Fr; exact B1|].
    unfold abort_flag in *. cbn [mem set_mem]. rewrite <- B2. apply load_ext. intros. apply F3.
    unfold within. lia.
Qed.

(** ** Object lookup *)

Lemma bswap_0 : forall n, bswap n 0 = 0.
Proof. induction n; cbn [bswap]; auto. Qed.

Lemma load_zero_iff : forall n m a, (load n m a =? 0) = (load_be n m a =? 0).
Proof.
  intros. rewrite <- bswap_load. destruct (load n m a =? 0) eqn:E.
  - apply Z.eqb_eq in E. rewrite E, bswap_0. reflexivity.
  - destruct (bswap n (load n m a) =? 0) eqn:E2; [|reflexivity].
    apply Z.eqb_eq in E2. pose proof (bswap_bswap n (load n m a) (load_range n m a)) as B.
    rewrite E2, bswap_0 in B. lia.
Qed.

Lemma is_zero_be : forall w p, wok w -> live w p 32 ->
  returns is_zero [p; 32] w [b2z (load_be 32 (mem w) p =? 0)] w.
Proof. intros. rewrite <- load_zero_iff. exact (is_zero_spec 8 w p H H0). Qed.

Lemma wp_probe : forall o r Q s uid l w, wok w -> load_be 32 (mem w) 96 = 0 ->
  live w uid 32 -> 468 <= uid -> live w o 32 ->
  (forall m', load_be 32 m' 128 = slot_of (host w) (load_be 32 (mem w) o) (load_be 32 (mem w) uid) ->
     load_be 32 m' 64 = stored (host w) (load_be 32 (mem w) o) (load_be 32 (mem w) uid) ->
     (forall x, ~ within 404 64 x -> ~ within 128 32 x -> ~ within 64 32 x -> rd m' x = rd (mem w) x) ->
     wp r Q s (uid :: l) (set_mem w m')) ->
  wp (probe o ++ r) Q s (uid :: l) w.
Proof.
  intros o r Q s uid l w Hw Z0 Lu Hu Lo H. pose proof Hw as (P1&P2&P3&P4&P5&P6).
  destruct (write_object_slot_spec w o uid 128 Hw Z0 Lo Lu) as (m1&R1&V1&F1); try (unfold live in *; lia).
  unfold probe; cbn [app]. do 3 ws1.
  eapply wp_call; [reflexivity|cbn [List.length]; lia|]; cbn [rev firstn app].
  eapply returns_wpf; [exact R1|]; cbn [skipn app]. do 2 ws1.
  apply wp_sload; try (unfold live, A_OBJ_SLOT, A_SLOT_DATA; cbn [gnext set_mem]; lia).
  { apply wok_set_mem; [exact Hw|]. unfold live in *. intros. apply F1; unfold within; lia. }
  unfold A_OBJ_SLOT, A_SLOT_DATA. cbn [mem set_mem]. change (host (set_mem w m1)) with (host w).
  rewrite V1. match goal with |- wp _ _ _ _ (set_mem (set_mem w m1) ?m) => change (set_mem (set_mem w m1) m) with (set_mem w m) end.
  apply H.
  - rewrite <- V1. apply load_be_ext. intros. apply rd_store_be_out. lia.
  - apply load_be_store32.
  - intros x H1 H2 H3. unfold within in H3. rewrite rd_store_be_out by lia. apply F1; auto.
Qed.

Lemma wp_load_origin : forall r Q s l w, wok w ->
  (forall m', load_be 32 m' 224 = h_origin (host w) mod 2 ^ 160 ->
     (forall x, ~ within 224 32 x -> rd m' x = rd (mem w) x) -> wp r Q s l (set_mem w m')) ->
  wp (load_origin ++ r) Q s l w.
Proof.
  intros r Q s l w Hw H. pose proof Hw as (P1&P2&P3&P4&P5&P6).
  unfold load_origin, A_OWNER; cbn [app]. do 5 ws1.
  set (m1 := mfill (mem w) 224 0 12).
  match goal with |- wp _ _ _ _ ?w' => change w' with (set_mem w m1) end.
  assert (F1 : forall x, ~ within 224 32 x -> rd m1 x = rd (mem w) x).
  { intros. unfold within in *. apply rd_mfill_out. lia. }
  apply wp_origin; [apply wok_set_mem; [exact Hw|]; intros; apply F1; unfold within; lia
                   |unfold live; cbn [gnext set_mem]; lia|].
  apply (H (store_be 20 m1 236 (h_origin (host w)))).
  - change 32%nat with (12 + 20)%nat. rewrite load_be_split.
    rewrite (load_be_zero 12).
    + change (224 + Z.of_nat 12) with 236.
      pose proof (load_be_store_be_same 20 m1 236 (h_origin (host w))) as E.
      change (Z.of_nat 20) with 20 in E. rewrite E. reflexivity.
    + intros x Hx. rewrite rd_store_be_out by lia. unfold m1. rewrite rd_mfill_in by lia. reflexivity.
  - intros x Hx. unfold within in Hx. rewrite rd_store_be_out by lia. apply F1. unfold within. lia.
Qed.

Lemma scratch_live : forall w x, wok w -> scratch x -> x < gnext w.
Proof. unfold wok, scratch, within; intros; lia. Qed.

Lemma not_found_post : forall ep w m os id, errtab_ok ep -> (forall x, ~ scratch x -> rd m x = rd (mem w) x) ->
  holder (host w) os id = None ->
  lookup_post ep w os id [BADF00D] (set_mem w (store 4 m 256 (ep StorageObjectNotFound))).
Proof.
  intros ep w m os id He F H. unfold lookup_post. rewrite H. split; [reflexivity|]. split.
  - apply frame_set_mem. intros a Ha. unfold within in Ha. rewrite rd_store_out by lia. apply F. tauto.
  - unfold abort_flag. cbn [mem set_mem]. rewrite load_4_store. apply w32_small. specialize (He StorageObjectNotFound). lia.
Qed.

Lemma wp_is_zero_slot : forall r Q s l w, wok w ->
  wp r Q (b2z (load_be 32 (mem w) 64 =? 0) :: s) l w ->
  wp (Call is_zero :: r) Q (32 :: A_SLOT_DATA :: s) l w.
Proof.
  intros. eapply wp_call; [reflexivity|cbn [List.length]; lia|]; cbn [rev firstn app].
  eapply returns_wpf; [apply is_zero_be; [assumption|unfold live, A_SLOT_DATA, wok in *; lia]|].
  cbn [skipn app]. exact H0.
Qed.

Lemma locate_storage_data_spec : forall ep w uid fz, wok w -> errtab_ok ep -> statics w ->
  live w uid 32 -> 468 <= uid -> 0 <= fz < 2 ->
  exists vs w', returns (locate_storage_data ep) [uid; fz] w vs w' /\
    lookup_post ep w ([h_origin (host w) mod 2 ^ 160; 1] ++ (if fz =? 0 then [] else [2]))
      (load_be 32 (mem w) uid) vs w'.
Proof.
  intros ep w uid fz Hw He (S0&S1&S2&S3&S4) Lu Hu Hf. pose proof Hw as (P1&P2&P3&P4&P5&P6).
  apply wpf_returns.
  assert (M : forall m, (forall x, ~ scratch x -> rd m x = rd (mem w) x) -> wok (set_mem w m)).
  { intros m F. apply wok_set_mem; [exact Hw|]. intros x Hx. apply F. intros K.
    apply (scratch_live w) in K; [lia|exact Hw]. }
  assert (LE : forall m p, (forall x, ~ scratch x -> rd m x = rd (mem w) x) ->
     (forall i, 0 <= i < 32 -> ~ scratch (p + i)) -> load_be 32 m p = load_be 32 (mem w) p).
  { intros m p F K. apply load_be_ext. intros. apply F. apply K. lia. }
  set (id := load_be 32 (mem w) uid). set (o := h_origin (host w) mod 2 ^ 160).
  unfold lookup_post, holder. cbn [app find].
  unfold locate_storage_data.
  apply wpf_intro; [reflexivity|]; cbn [app repeat].
  ws1. apply wp_load_origin; [exact Hw|]. intros m1 O1 F1'. fold o in O1.
  assert (F1 : forall x, ~ scratch x -> rd m1 x = rd (mem w) x).
  { intros x Hx. apply F1'. unfold scratch in Hx. tauto. }
  assert (U1 : load_be 32 m1 uid = id).
  { apply LE; [exact F1|]. unfold scratch, within. lia. }
  apply wp_probe; try (unfold live, A_OWNER in *; cbn [gnext set_mem mem]; lia); [apply M, F1| |].
  { cbn [mem set_mem]. rewrite LE; [exact S2|exact F1|]. unfold scratch, within; lia. }
  unfold A_OWNER. cbn [mem set_mem]. change (host (set_mem w m1)) with (host w). rewrite O1, U1.
  intros m2 V2 D2 F2'. change (set_mem (set_mem w m1) m2) with (set_mem w m2).
  assert (F2 : forall x, ~ scratch x -> rd m2 x = rd (mem w) x).
  { intros x Hx. rewrite F2'; [apply F1; exact Hx|..]; unfold scratch in Hx; tauto. }
  assert (O2 : load_be 32 m2 224 = o).
  { rewrite <- O1. apply load_be_ext. intros. apply F2'; unfold within; lia. }
  assert (U2 : load_be 32 m2 uid = id) by (apply LE; [exact F2|unfold scratch, within; lia]).
  cbn [app]. do 3 ws1. apply wp_is_zero_slot; [apply M, F2|]. cbn [mem set_mem]. rewrite D2.
  ws1. eapply wp_bin; [reflexivity|].
  destruct (stored (host w) o id =? 0) eqn:E1; cbn [b2z Z.eqb negb Pos.eqb].
  2:{ apply wp_brif; intros C; [|discriminate]. wc. ws. exists 224. 
      split; [reflexivity|]. split; [lia|]. split; [lia|]. split; [exact O2|].
      split; [apply frame_set_mem; exact F2|]. split; assumption. }
  apply wp_brif; intros C; [exfalso; lia|]. ws1.
  (* shared *)
  apply wp_probe; try (unfold live, A_SHARED in *; cbn [gnext set_mem mem]; lia); [apply M, F2| |].
  { cbn [mem set_mem]. rewrite LE; [exact S2|exact F2|]. unfold scratch, within; lia. }
  unfold A_SHARED. cbn [mem set_mem]. change (host (set_mem w m2)) with (host w).
  replace (load_be 32 m2 160) with 1.
  2:{ rewrite LE; [symmetry; exact S3|exact F2|]. unfold scratch, within; lia. }
  rewrite U2.
  intros m3 V3 D3 F3'. change (set_mem (set_mem w m2) m3) with (set_mem w m3).
  assert (F3 : forall x, ~ scratch x -> rd m3 x = rd (mem w) x).
  { intros x Hx. rewrite F3'; [apply F2; exact Hx|..]; unfold scratch in Hx; tauto. }
  assert (U3 : load_be 32 m3 uid = id) by (apply LE; [exact F3|unfold scratch, within; lia]).
  cbn [app]. do 3 ws1. apply wp_is_zero_slot; [apply M, F3|]. cbn [mem set_mem]. rewrite D3.
  ws1. eapply wp_bin; [reflexivity|].
  destruct (stored (host w) 1 id =? 0) eqn:E2; cbn [b2z Z.eqb negb Pos.eqb].
  2:{ apply wp_brif; intros C2; [|discriminate]. wc. ws. exists 160.
      split; [reflexivity|]. split; [lia|]. split; [lia|]. split.
      { cbn [mem set_mem]. rewrite LE; [exact S3|exact F3|]. unfold scratch, within; lia. }
      split; [apply frame_set_mem; exact F3|]. split; assumption. }
  apply wp_brif; intros C2; [exfalso; lia|]. ws1.
  (* frozen *)
  ws1. ws1. ws1. apply wp_brif; intros C3; unb C3; wc.
  - replace (fz =? 0) with true by lia. cbn [find].
    eapply wp_return_error_end; [reflexivity|apply M, F3|]. wc.
    pose proof (not_found_post ep w m3 [] id He F3 eq_refl) as K. exact K.
  - replace (fz =? 0) with false by lia. cbn [find].
    apply wp_probe; try (unfold live, A_FROZEN in *; cbn [gnext set_mem mem]; lia); [apply M, F3| |].
    { cbn [mem set_mem]. rewrite LE; [exact S2|exact F3|]. unfold scratch, within; lia. }
    unfold A_FROZEN. cbn [mem set_mem]. change (host (set_mem w m3)) with (host w).
    replace (load_be 32 m3 192) with 2.
    2:{ rewrite LE; [symmetry; exact S4|exact F3|]. unfold scratch, within; lia. }
    rewrite U3.
    intros m4 V4 D4 F4'. change (set_mem (set_mem w m3) m4) with (set_mem w m4).
    assert (F4 : forall x, ~ scratch x -> rd m4 x = rd (mem w) x).
    { intros x Hx. rewrite F4'; [apply F3; exact Hx|..]; unfold scratch in Hx; tauto. }
    cbn [app]. do 3 ws1. apply wp_is_zero_slot; [apply M, F4|]. cbn [mem set_mem]. rewrite D4.
    ws1. eapply wp_bin; [reflexivity|].
    destruct (stored (host w) 2 id =? 0) eqn:E3; cbn [b2z Z.eqb negb Pos.eqb].
    + apply wp_brif; intros C4; [exfalso; lia|]. ws1. ws1.
      eapply wp_return_error_end; [reflexivity|apply M, F4|]. wc.
      pose proof (not_found_post ep w m4 [] id He F4 eq_refl) as K. exact K.
    + apply wp_brif; intros C4; [|discriminate]. wc. ws. exists 192.
      split; [reflexivity|]. split; [lia|]. split; [lia|]. split.
      { cbn [mem set_mem]. rewrite LE; [exact S4|exact F4|]. unfold scratch, within; lia. }
      split; [apply frame_set_mem; exact F4|]. split; assumption.
Qed.

Lemma locate_in_spec : forall ep w uid pre o, wok w -> errtab_ok ep -> statics w ->
  live w uid 32 -> 468 <= uid ->
  (pre = load_origin /\ o = A_OWNER \/ pre = [] /\ (o = A_SHARED \/ o = A_FROZEN)) ->
  exists vs w', returns (locate_in ep pre o) [uid] w vs w' /\
    lookup_post ep w [if o =? A_OWNER then h_origin (host w) mod 2 ^ 160 else load_be 32 (mem w) o]
      (load_be 32 (mem w) uid) vs w'.
Proof.
  intros ep w uid pre o Hw He (S0&S1&S2&S3&S4) Lu Hu Hp. pose proof Hw as (P1&P2&P3&P4&P5&P6).
  apply wpf_returns.
  assert (M : forall m, (forall x, ~ scratch x -> rd m x = rd (mem w) x) -> wok (set_mem w m)).
  { intros m F. apply wok_set_mem; [exact Hw|]. intros x Hx. apply F. intros K.
    apply (scratch_live w) in K; [lia|exact Hw]. }
  assert (LE : forall m p, (forall x, ~ scratch x -> rd m x = rd (mem w) x) ->
     (forall i, 0 <= i < 32 -> ~ scratch (p + i)) -> load_be 32 m p = load_be 32 (mem w) p).
  { intros m p F K. apply load_be_ext. intros. apply F. apply K. lia. }
  set (id := load_be 32 (mem w) uid).
  set (ow := if o =? A_OWNER then h_origin (host w) mod 2 ^ 160 else load_be 32 (mem w) o).
  assert (Ho : 0 <= o /\ o + 32 <= 256) by (unfold A_OWNER, A_SHARED, A_FROZEN in *; lia).
  unfold locate_in. apply wpf_intro; [reflexivity|]; cbn [app repeat].
  assert (G : forall m1, load_be 32 m1 o = ow -> (forall x, ~ scratch x -> rd m1 x = rd (mem w) x) ->
     wp (probe o ++ [ Const A_SLOT_DATA; Const 32; Call is_zero;
           If 0 (return_error ep StorageObjectNotFound 1 true) []; Const o ])
        (fret 1 (lookup_post ep w [ow] id) False) [] [uid; 0] (set_mem w m1)).
  { intros m1 O1 F1.
    assert (U1 : load_be 32 m1 uid = id) by (apply LE; [exact F1|unfold scratch, within; lia]).
    apply wp_probe; try (unfold live in *; cbn [gnext set_mem mem]; lia); [apply M, F1| |].
    { cbn [mem set_mem]. rewrite LE; [exact S2|exact F1|]. unfold scratch, within; lia. }
    cbn [mem set_mem]. change (host (set_mem w m1)) with (host w). rewrite O1, U1.
    intros m2 V2 D2 F2'. change (set_mem (set_mem w m1) m2) with (set_mem w m2).
    assert (F2 : forall x, ~ scratch x -> rd m2 x = rd (mem w) x).
    { intros x Hx. rewrite F2'; [apply F1; exact Hx|..]; unfold scratch in Hx; tauto. }
    do 2 ws1. apply wp_is_zero_slot; [apply M, F2|]. cbn [mem set_mem]. rewrite D2.
    destruct (stored (host w) ow id =? 0) eqn:E; cbn [b2z].
    - apply wp_if; intros C; [|discriminate C].
      eapply wp_return_error_end; [reflexivity|apply M, F2|]. wc.
      refine (not_found_post ep w m2 [ow] id He F2 _). unfold holder; cbn [find]. rewrite E. reflexivity.
    - apply wp_if; intros C; [exfalso; lia|]. ws1. ws1. ws1.
      unfold lookup_post, holder; cbn [find]. rewrite E. cbn [negb]. exists o.
      split; [reflexivity|]. split; [lia|]. split; [lia|]. split.
      { cbn [mem set_mem]. rewrite <- O1. apply load_be_ext. intros. apply F2'; unfold within, A_OWNER, A_SHARED, A_FROZEN in *; lia. }
      split; [apply frame_set_mem; exact F2|]. split; assumption. }
  destruct Hp as [[-> ->]|[-> Hp]].
  - apply wp_load_origin; [exact Hw|]. intros m1 O1 F1'.
    apply G; [exact O1|]. intros x Hx. apply F1'. unfold scratch in Hx. tauto.
  - cbn [app]. specialize (G (mem w)). replace (set_mem w (mem w)) with w in G by (destruct w; reflexivity).
    apply G; [|reflexivity]. unfold ow. replace (o =? A_OWNER) with false; [reflexivity|].
    unfold A_OWNER, A_SHARED, A_FROZEN in *; lia.
Qed.

(** ** Slots of stored structs *)

(** A struct with the key ability: the 32-byte owner precedes it, its first field is
    a UID, i.e. a pointer to a pointer to the 32 id bytes (get_id_bytes_ptr). *)
Definition id_ptr (m : memory) (s : Z) : Z := load 4 m (load 4 m (load 4 m s)).

Lemma locate_struct_slot_spec : forall w s, wok w -> load_be 32 (mem w) 96 = 0 ->
  500 <= s -> live w s 4 -> live w (load 4 (mem w) s) 4 -> live w (load 4 (mem w) (load 4 (mem w) s)) 4 ->
  live w (id_ptr (mem w) s) 32 -> 468 <= id_ptr (mem w) s ->
  exists m', returns locate_struct_slot [s] w [] (set_mem w m') /\
    load_be 32 m' 128 = slot_of (host w) (load_be 32 (mem w) (s - 32)) (load_be 32 (mem w) (id_ptr (mem w) s)) /\
    (forall x, ~ within 404 64 x -> ~ within 128 32 x -> rd m' x = rd (mem w) x).
Proof.
  intros w s Hw Z0 Hs L1 L2 L3 L4 H4. pose proof Hw as (P1&P2&P3&P4&P5&P6).
  destruct (write_object_slot_spec w (s - 32) (id_ptr (mem w) s) 128 Hw Z0) as (m1&R1&V1&F1);
    try (unfold live in *; lia).
  exists m1. split; [|split; assumption].
  assert (RO : returns get_struct_owner [s] w [s - 32] w).
  { apply pure_intro. apply wpf_intro; [reflexivity|]. wc. unfold live in *. do 3 ws1. ws. auto. }
  assert (RI : returns get_id_bytes_ptr [s] w [id_ptr (mem w) s] w).
  { apply pure_intro. apply wpf_intro; [reflexivity|]. wc. unfold live in *. do 4 ws1. ws. auto. }
  apply returns_intro. apply wpf_intro; [reflexivity|]. wc. ws1.
  eapply wp_call; [reflexivity|cbn [List.length]; lia|]; cbn [rev firstn app].
  eapply returns_wpf; [exact RO|]; cbn [skipn app]. ws1.
  eapply wp_call; [reflexivity|cbn [List.length]; lia|]; cbn [rev firstn app].
  eapply returns_wpf; [exact RI|]; cbn [skipn app]. ws1.
  eapply wp_call; [reflexivity|cbn [List.length]; lia|]; cbn [rev firstn app].
  eapply returns_wpf; [exact R1|]; cbn [skipn app]. ws. auto.
Qed.

(** ** Elements of stored vectors *)

(** Slot index of element [i] (relative to the first) for elements of [sz] bytes. *)
Definition elem_slot_index (i sz : Z) : Z :=
  if sz <? 32 then i / (32 / sz) else w32 (i * ((sz + 31) / 32)).

Lemma dyn_index : forall r Q s l w i sz, nth_error l 1 = Some i -> nth_error l 2 = Some sz ->
  0 <= i < 2 ^ 32 -> 0 < sz < 2 ^ 31 ->
  wp r Q (elem_slot_index i sz :: s) l w ->
  wp (LocalGet 2 :: Const 32 :: Bin I32 LtU ::
      If 1 [ LocalGet 1; Const 32; LocalGet 2; Bin I32 DivU; Bin I32 DivU ]
           [ LocalGet 1; LocalGet 2; Const 31; Bin I32 Add; Const 32; Bin I32 DivU; Bin I32 Mul ] :: r) Q s l w.
Proof.
  intros r Q s l w i sz H1 H2 Hi Hs H. unfold elem_slot_index in H.
  eapply wp_lget; [exact H2|]. apply wp_const. eapply wp_bin; [reflexivity|].
  apply wp_if; intros C; unb C.
  - rewrite C in H. eapply wp_lget; [exact H1|]. apply wp_const. eapply wp_lget; [exact H2|].
    assert (0 < 32 / sz) by (apply Z.div_str_pos; lia).
    eapply wp_bin. { cbn [binop]. replace (sz =? 0) with false by lia. reflexivity. }
    eapply wp_bin. { cbn [binop]. replace (32 / sz =? 0) with false by lia. reflexivity. }
    apply wp_nil. exact H.
  - rewrite C in H. eapply wp_lget; [exact H1|]. eapply wp_lget; [exact H2|].
    apply wp_const. eapply wp_bin; [reflexivity|]. cbn [wrapt]. rewrite w32_small by lia. apply wp_const.
    eapply wp_bin. { cbn [binop]. reflexivity. }
    eapply wp_bin; [reflexivity|]. apply wp_nil. exact H.
Qed.

Lemma allocated_wok : forall w w' n, allocated w w' n -> wok w'.
Proof. unfold allocated; tauto. Qed.

(** The emitted code adds the two numbers byte-reversed. *)
Lemma derive_dyn_array_slot_spec : forall ep w p i sz d, wok w -> errtab_ok ep ->
  live w p 32 -> live w d 32 -> 0 <= i < 2 ^ 32 -> 0 < sz < 2 ^ 31 ->
  wpf (derive_dyn_array_slot ep) [p; i; sz; d] w (resq (fun vs w' =>
    let base := hash (host w) (bytes 32 (mem w) p) in
    let s := bswap 32 base + bswap 32 (elem_slot_index i sz) in
    vs = [] /\ maxpages w' = maxpages w /\
    if s <? 2 ^ 256
    then wok w' /\ gnext w' = gnext w + 96 /\ gcd w' = gcd w /\ host w' = host w /\
         (forall a, 0 <= a < gnext w -> ~ within d 32 a -> rd (mem w') a = rd (mem w) a) /\
         load_be 32 (mem w') d = bswap 32 s
    else (d + 32 <= 256 \/ 260 <= d) -> abort_flag w' = ep Overflow)
    (oom w 96 \/ 2 ^ 256 <= bswap 32 (hash (host w) (bytes 32 (mem w) p)) + bswap 32 (elem_slot_index i sz))).
Proof.
  intros ep w p i sz d Hw He Lp Ld Hi Hs. pose proof Hw as (P1&P2&P3&P4&P5&P6).
  set (base := hash (host w) (bytes 32 (mem w) p)). set (off := elem_slot_index i sz). cbv zeta.
  assert (Ho : 0 <= off < 2 ^ 32).
  { unfold off, elem_slot_index. destruct (sz <? 32) eqn:E; [|apply w32_range].
    assert (0 < 32 / sz) by (apply Z.div_str_pos; lia).
    split; [apply Z.div_pos; lia|]. apply Z.div_lt_upper_bound; nia. }
  unfold derive_dyn_array_slot. apply wpf_intro; [reflexivity|]. cbn [app repeat].
  ws1. ws1. ws1. apply wp_if; intros C; unb C; [exfalso; lia|]. apply wp_nil. cbn [ifk firstn app].
  ws1. wcall alloc_spec; [exact Hw|lia| |].
  { intros K. left. eapply oom_mono; [exact K|lia]. }
  intros vs w1 (->&A1). cbn [app]. unfold live in *.
  pose proof A1 as (B1&B2&B3&B4&B5&B6&B7).
  ws1. ws1. ws1. ws1. apply wp_keccak; [exact B1|unfold live; lia|unfold live; lia|].
  rewrite B2, B7. change (Z.to_nat 32) with 32%nat.
  set (m1 := store_be 32 (mem w) (gnext w) (keccak (host w) (bytes 32 (mem w) p))).
  assert (F1 : forall x, ~ within (gnext w) 32 x -> rd m1 x = rd (mem w) x).
  { intros x Hx. unfold within in Hx. apply rd_store_be_out. lia. }
  assert (V1 : load_be 32 m1 (gnext w) = base) by apply load_be_store32.
  clearbody m1.
  assert (Hw1 : wok (set_mem w1 m1)).
  { apply wok_set_mem; [exact B1|]. rewrite B2. intros. apply F1. unfold within. lia. }
  eapply dyn_index; [reflexivity|reflexivity|exact Hi|exact Hs|]. fold off.
  eapply wp_call; [reflexivity|cbn [List.length]; lia|]; cbn [rev firstn app].
  eapply returns_wpf; [apply swap_i32_spec; exact Ho|]; cbn [skipn app].
  ws1. ws1. wcall alloc_spec; [exact Hw1|lia| |].
  { intros K. left. unfold oom in *. cbn [maxpages gnext set_mem] in K. lia. }
  intros vs w2 (->&A2). cbn [app]. cbn [gnext set_mem] in *.
  destruct A2 as (D1&D2&D3&D4&D5&D6&D7). cbn [mem set_mem maxpages pages gcd host gnext] in *.
  ws1. ws1. ws1. pose proof D1 as (Q1&Q2&Q3&Q4&Q5&Q6).
  ws1. rewrite D2, !B5.
  set (q := gnext w + 32) in *.
  assert (ZQ : forall x, q <= x -> rd m1 x = 0).
  { intros x Hx. rewrite F1; [apply P6; lia|]. unfold within; lia. }
  set (m2 := store 4 m1 (q + 28) (bswap 4 off)).
  assert (F2 : forall x, ~ within q 32 x -> rd m2 x = rd m1 x).
  { intros x Hx. unfold within in Hx. apply rd_store_out. lia. }
  assert (V2 : load_be 32 m2 q = off).
  { change 32%nat with (28 + 4)%nat. rewrite load_be_split.
    rewrite (load_be_zero 28).
    - change (Z.of_nat 28) with 28. unfold m2.
      pose proof (load_be_store_swapped 4 m1 (q + 28) off) as E. change (Z.of_nat 4) with 4 in E.
      rewrite E by exact Ho. lia.
    - intros x Hx. unfold m2. rewrite rd_store_out by lia. apply ZQ. lia. }
  clearbody m2.
  assert (Hw2 : wok (set_mem w2 m2)).
  { apply wok_set_mem; [exact D1|]. rewrite D2. intros. apply F2. unfold within. lia. }
  ws1. ws1. ws1. ws1. wcall alloc_spec; [exact Hw2|lia| |].
  { intros K. left. unfold oom in *. cbn [maxpages gnext set_mem] in K. lia. }
  intros vs w3 (->&A3). cbn [app]. cbn [gnext set_mem] in *.
  destruct A3 as (G1&G2&G3&G4&G5&G6&G7). cbn [mem set_mem maxpages pages gcd host gnext] in *.
  pose proof G1 as (R1&R2&R3&R4&R5&R6).
  ws1.
  eapply wp_call; [reflexivity|cbn [List.length]; lia|]; cbn [rev firstn app].
  eapply wpf_conseq.
  { change 32 with (Z.of_nat (8 * 4)) at 1.
    apply (heap_add_spec0 4 ep w3 q (gnext w) (gnext w2) G1 He);
      try (unfold live, same_or_apart; change (Z.of_nat (8 * 4)) with 32; lia). }
  intros [vs w4| | |]; cbn [resq]; try contradiction. cbn [skipn app].
  change (Z.of_nat (8 * 4)) with 32. change (8 * 4)%nat with 32%nat. change (256 ^ 32) with (2 ^ 256).
  rewrite G2.
  assert (Lq : load 32 m2 q = bswap 32 off).
  { rewrite <- V2, <- (bswap_load 32). rewrite bswap_bswap; [reflexivity|]. apply (load_range 32). }
  assert (Lb : load 32 m2 (gnext w) = bswap 32 base).
  { rewrite <- V1. rewrite <- (bswap_load 32), bswap_bswap by apply (load_range 32).
    apply load_ext. intros x Hx. apply F2. unfold within. lia. }
  rewrite Lq, Lb. intros (w5&F5&D).
  assert (M5 : forall x, ~ within (gnext w2) 32 x -> rd (mem w5) x = rd m2 x).
  { destruct F5 as (_&_&_&_&_&_&F5). intros x Hx. rewrite F5, G2 by exact Hx. reflexivity. }
  assert (Hw5 : wok w5).
  { eapply wok_frame; [exact G1|exact F5|]. unfold within. lia. }
  destruct F5 as (E1&E2&E3&E4&E5&E6&_).
  rewrite (Z.add_comm (bswap 32 base)).
  destruct D as [(S1&->&->&S2)|(S1&->&AB)]; cbn [app].
  - replace (_ <? _) with true by lia. ws1.
    pose proof Hw5 as (T1&T2&T3&T4&T5&T6).
    ws1. ws1. split; [reflexivity|]. split; [congruence|].
    set (m6 := mcopy (mem w5) d (gnext w2) 32).
    assert (F6 : forall x, ~ within d 32 x -> rd m6 x = rd (mem w5) x).
    { intros x Hx. unfold within in Hx. apply rd_mcopy_out. lia. }
    split. { apply wok_set_mem; [exact Hw5|]. intros. apply F6. unfold within. lia. }
    split; [lia|]. split; [congruence|]. split; [congruence|].
    cbn [mem set_mem]. fold m6. split.
    + intros a Ha Hd. rewrite F6 by exact Hd. rewrite M5, F2, F1 by (unfold within; lia). reflexivity.
    + rewrite <- S2, (bswap_load 32). apply load_be_ext. intros x Hx. unfold m6. rewrite rd_mcopy_in by lia. f_equal. lia.
  - replace (_ <? _) with false by lia. ws1.
    (* the failed addition's result is used as an address *)
    pose proof AB as (FA&FL).
    destruct (Z_le_gt_dec (BADF00D + 32) (65536 * pages w4)) as [Hb|Hb].
    + assert (Hg : gnext w4 = gnext w3 /\ pages w4 = pages w3) by (destruct FA as (?&?&?&?); split; congruence).
      apply wp_mcopy; try (unfold page_size, BADF00D in *; lia).
      ws1. split; [reflexivity|].
      split. { cbn [maxpages set_mem]. destruct FA as (?&_). congruence. }
      intros Hd. rewrite <- FL. unfold abort_flag. cbn [mem set_mem]. apply load_ext. intros x Hx.
      apply rd_mcopy_out. lia.
    + apply wp_basic_stop; [reflexivity|]. cbn [step].
      replace (inb w4 BADF00D 32) with false; [right; lia|]. unfold inb, page_size. lia.
Qed.
