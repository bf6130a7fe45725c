(** * ABI decoding: runtime/unpacking/{string,vector,structs}.rs, abi_types/unpacking.rs. *)

From Verif Require Import Tac RtAlloc RtVec RtVec2 RtErr RtEq RtDiv RtShift RtSwap RtAscii Ops SpecVal LemVal SpecAbi LemAbi RtCopy RtCopy2 SpecSol RtAbi RtPack.
Ltac Zify.zify_post_hook ::= idtac.

(** A big-endian 32-bit number in a word, after the check that it fits: string.rs 41-61 and 73-98,
    vector.rs 65-85 and 97-122, structs.rs 117-141.  [i] is the local with the word's address. *)
Definition read_word (ep : errtab) (i : nat) : list instr :=
  [ LocalGet i; Call (validate_pointer ep) ] ++ propagate true ++ [ LocalGet i; Load 4 28; Call swap_i32_bytes ].

(** runtime/unpacking/string.rs 12-208.  Locals: 0 reader_pointer, 1 calldata_reader_pointer,
    2 data_reader_pointer, 3 length, 4 vector_pointer, 5 writer_pointer, 6 i, 7 struct_ptr. *)
Definition unpack_string (ep : errtab) : func := Func 2 6 1
 (read_word ep 0 ++
  [ LocalGet 1; Bin I32 Add; LocalSet 2; LocalGet 0; Const 32; Bin I32 Add; GlobalSet GCalldata ] ++
  read_word ep 2 ++
  [ LocalSet 3; LocalGet 2; Const 32; Bin I32 Add; LocalSet 2;
    LocalGet 3; LocalGet 3; Const 1; Call allocate_vector_with_header; LocalSet 4;
    LocalGet 4; LocalSet 5; LocalGet 5; Const 8; Bin I32 Add; LocalSet 5; Const 0; LocalSet 6;
    Loop "loop" 0
      [ LocalGet 5; LocalGet 2; Load 1 0; Store 4 0;
        LocalGet 2; Const 1; Bin I32 Add; LocalSet 2; LocalGet 5; Const 1; Bin I32 Add; LocalSet 5;
        LocalGet 6; Const 1; Bin I32 Add; LocalTee 6; LocalGet 3; Bin I32 LtU; BrIf "loop" ];
    Const 4; Call alloc; LocalTee 7; LocalGet 4; Store 4 0; LocalGet 7 ]).

(** runtime/unpacking/vector.rs 29-234: elements of memory size [esz], unpacked by [up].
    Locals: 0 reader_pointer, 1 calldata_base_pointer, 2 data_reader_pointer, 3 length, 4 vector_pointer,
    5 writer_pointer, 6 i, 7 calldata_base_pointer_. *)
Definition unpack_vector (ep : errtab) (esz : nat) (up : list instr) : func := Func 2 6 1
 (read_word ep 0 ++
  [ LocalGet 1; Bin I32 Add; LocalSet 2; LocalGet 0; Const 32; Bin I32 Add; GlobalSet GCalldata ] ++
  read_word ep 2 ++
  [ LocalSet 3; LocalGet 2; Const 32; Bin I32 Add; LocalSet 2;
    LocalGet 3; LocalGet 3; Const (Z.of_nat esz); Call allocate_vector_with_header; LocalSet 4;
    LocalGet 4; Const 8; Bin I32 Add; LocalSet 5;
    Block "block" 0
      [ LocalGet 3; Un Eqz; BrIf "block"; Const 0; LocalSet 6; LocalGet 2; LocalSet 7;
        Loop "loop" 0
          ([ LocalGet 5 ] ++ up ++
           [ Store esz 0; LocalGet 5; Const (Z.of_nat esz); Bin I32 Add; LocalSet 5;
             LocalGet 6; Const 1; Bin I32 Add; LocalTee 6; LocalGet 3; Bin I32 LtU; BrIf "loop" ]) ];
    LocalGet 0; Const 32; Bin I32 Add; GlobalSet GCalldata; LocalGet 4 ]).

(** runtime/unpacking/structs.rs 81-246.  Locals: 0 reader_pointer, 1 calldata_reader_pointer,
    2 data_reader_pointer, 3 calldata_ptr, 4 struct_ptr, 5 field_ptr, 6 val (the source declares one
    for each stack-typed field). *)
Fixpoint unpack_fields (i : Z) (fs : list (ty * list instr)) : list instr :=
  match fs with
  | [] => []
  | (t, up) :: fs =>
      up ++ (if is_stack t
             then [ LocalSet 6; Const (Z.of_nat (esize t)); Call alloc; LocalTee 5; LocalGet 6; Store (esize t) 0 ]
             else [ LocalSet 5 ]) ++
      [ LocalGet 4; LocalGet 5; Store 4 (4 * i) ] ++ unpack_fields (i + 1) fs
  end.
Definition unpack_struct (ep : errtab) (dyn : bool) (size : Z) (fs : list (ty * list instr)) : func := Func 2 5 1
 ((if dyn then read_word ep 0 ++ [ LocalGet 1; Bin I32 Add; LocalTee 2; LocalSet 3 ]
   else [ LocalGet 0; LocalSet 2; LocalGet 1; LocalSet 3 ]) ++
  [ Const (4 * Z.of_nat (List.length fs)); Call alloc; LocalSet 4 ] ++
  unpack_fields 0 fs ++
  [ LocalGet 0; Const (if dyn then 32 else size); Bin I32 Add; GlobalSet GCalldata; LocalGet 4 ]).

(** abi_types/unpacking.rs 119-360 [add_unpack_instructions].  [r] and [b] are the locals holding the
    reader and the base pointer, [pv] the error propagation code after a call of the vector and struct
    functions; the enum function is called without one (runtime.rs 785: not fallible) and so is the
    string function.  References are in RtAbiRef.v; signers, [TxContext], [Bytes] and objects are not modelled. *)
Definition unpack_int (t : ty) (r : nat) : list instr :=
  match t with
  | TU64 => [ LocalGet r; Call unpack_u64 ]
  | TU128 => [ LocalGet r; Call unpack_u128 ]
  | TU256 => [ LocalGet r; Call unpack_u256 ]
  | TAddress => [ LocalGet r; Call unpack_address ]
  | _ => [ LocalGet r; Const 32; Call unpack_u32 ]
  end.
Fixpoint unpack_code (ep : errtab) (t : aty) (pv : list instr) (r b : nat) {struct t} : list instr :=
  let pr := propagate true in
  match t with
  | AInt t => unpack_int t r
  | AEnum n => [ LocalGet r; Call (unpack_enum ep n) ]
  | AString => [ LocalGet r; LocalGet b; Call (unpack_string ep) ]
  | AVec t => [ LocalGet r; LocalGet b; Call (unpack_vector ep (esize (mty t)) (unpack_code ep t pr 2 7)) ] ++ pv
  | AStruct fs => [ LocalGet r; LocalGet b;
                    Call (unpack_struct ep (is_dynamic (AStruct fs)) (encoded_size (AStruct fs))
                      (map (fun f => (mty f, unpack_code ep f pr 2 3)) fs)) ] ++ pv
  end ++ [ GlobalGet GCalldata; LocalSet r ].

(** abi_types/unpacking.rs 71-116 [build_unpack_instructions] as a function of the address of the
    arguments: it leaves one word per argument, the last one on top of the stack.
    Locals: 0 args_pointer, 1 reader_pointer, 2 calldata_base_pointer. *)
Definition build_unpack (ep : errtab) (pv : list instr) (ts : list aty) : func :=
  Func 1 2 (List.length ts)
   ([ LocalGet 0; LocalTee 1; LocalSet 2; LocalGet 1; GlobalSet GCalldata ] ++
    List.concat (map (fun t => unpack_code ep t pv 1 2) ts)).

(** ** Sizes *)

Fixpoint has_string (t : aty) : bool :=
  match t with
  | AInt _ | AEnum _ => false
  | AString => true
  | AVec t => has_string t
  | AStruct fs => existsb has_string fs
  end.

(** Bytes allocated for a decoded value. *)
Fixpoint need (t : aty) (v : val) : Z :=
  match t with
  | AInt t => match t with TU128 => 16 | TU256 | TAddress => 32 | _ => 0 end
  | AEnum _ => 4
  | AString => match v with VStruct _ [VVec bs] => 12 + Z.of_nat (List.length bs) | _ => 0 end
  | AVec t => match v with VVec vs => 8 + Z.of_nat (List.length vs) * Z.of_nat (esize (mty t)) + sumz (map (need t) vs) | _ => 0 end
  | AStruct fs => match v with VStruct _ vs => 4 * Z.of_nat (List.length fs) + zip_sum (map (fun f => fsize (mty f) (need f)) fs) vs | _ => 0 end
  end.

Lemma need_fields_nonneg : forall fs, Forall (fun t => forall v, 0 <= need t v) fs ->
  forall vs, 0 <= zip_sum (map (fun f => fsize (mty f) (need f)) fs) vs.
Proof.
  induction 1; intros vs; cbn [map zip_sum]; [lia|]. destruct vs as [|v vs]; [lia|].
  assert (0 <= fsize (mty x) (need x) v) by (unfold fsize; destruct (is_stack (mty x)); [lia|apply H]).
  specialize (IHForall vs). lia.
Qed.

Lemma need_nonneg : forall t v, 0 <= need t v.
Proof.
  refine (aty_rec' _ _ _ _ _ _).
  - intros t v. cbn [need]. destruct t; lia.
  - intros; cbn [need]; lia.
  - intros [n|l|o [|[n|l|o' l|g l] [|v' vs]]|g l]; cbn [need]; lia.
  - intros t H [n|l|o l|g l]; cbn [need]; try lia.
    assert (0 <= sumz (map (need t) l)) by (apply sumz_nonneg, Forall_map, Forall_forall; auto). nia.
  - intros fs H [n|l|o l|g l]; cbn [need]; try lia. pose proof (need_fields_nonneg fs H l). lia.
Qed.

Lemma head_size_ge : forall t, wf_aty t -> 32 <= head_size t.
Proof.
  refine (aty_rec' _ _ _ _ _ _); cbn [head_size wf_aty]; try lia. intros fs H [L W]. destruct (existsb dynamic fs); [lia|].
  destruct fs as [|f fs]; [cbn in L; lia|]. cbn [map fold_right] in *. inversion H; subst. destruct W as [W1 W2].
  pose proof (sum_head_nonneg fs). specialize (H2 W1). lia.
Qed.

Lemma decodes_bound : forall t m hi v r b, wf_aty t -> decodes m hi t v r b -> r + head_size t <= hi.
Proof.
  refine (aty_rec' _ _ _ _ _ _); try (intros; cbn [decodes head_size] in *; tauto).
  intros fs H m hi v r b [L W] D. cbn [decodes] in D. destruct D as (vs&->&D). cbn [head_size].
  destruct (existsb dynamic fs); [tauto|]. 
  destruct fs as [|f0 fs0]; [cbn in L; lia|]. assert (N : f0 :: fs0 <> []) by discriminate. remember (f0 :: fs0) as fs eqn:Ef. clear Ef L f0 fs0.
  revert r vs D W N. induction H as [|f fs Hf H IH]; intros r vs D W N; [congruence|].
  cbn [map dec_fields fold_right] in *. destruct vs as [|v vs]; [contradiction|]. destruct D as [D1 D2]. destruct W as [W1 W2].
  destruct fs as [|f1 fs1].
  - cbn [map fold_right]. specialize (Hf _ _ _ _ _ W1 D1). lia.
  - assert (N1 : f1 :: fs1 <> []) by discriminate. specialize (IH _ _ D2 W2 N1). lia.
Qed.

Lemma extends_gcd_trans : forall w w1 w2 g g1, extends (set_gcd w g1) w1 -> extends (set_gcd w1 g) w2 -> extends (set_gcd w g) w2.
Proof.
  intros w w1 w2 g g1 A B. eapply extends_trans; [|exact B].
  change (set_gcd w g) with (set_gcd (set_gcd w g1) g). apply extends_gcd. exact A.
Qed.

Lemma extends_trans_gcd : forall w w1 w2 g, extends w w1 -> extends (set_gcd w1 g) w2 -> extends (set_gcd w g) w2.
Proof. intros w w1 w2 g A B. eapply extends_trans; [|exact B]. apply extends_gcd. exact A. Qed.

Lemma load_be_ext_low : forall w w' n a, (forall x, 0 <= x < gnext w -> rd (mem w') x = rd (mem w) x) ->
  0 <= a -> a + Z.of_nat n <= gnext w -> load_be n (mem w') a = load_be n (mem w) a.
Proof. intros w w' n a H H1 H2. apply load_be_ext. intros. apply H. lia. Qed.

Lemma low_word : forall m p, load_be 32 m p < 2 ^ 32 -> load_be 4 m (p + 28) = load_be 32 m p.
Proof. intros m p H. change 32%nat with (28 + 4)%nat. rewrite load_be_high_zero; [reflexivity|]. apply high_zero_iff. exact H. Qed.

(** ** Reading an offset or a length *)
Lemma read_word_ok : forall ep i r (Q : outcome -> Prop) s l w p, nth_error l i = Some p -> wok w -> errtab_ok ep -> abort_flag w = 0 ->
  live w p 32 -> load_be 32 (mem w) p < 2 ^ 32 ->
  wp r Q (load_be 32 (mem w) p :: s) l w -> wp (read_word ep i ++ r) Q s l w.
Proof.
  intros ep i r Q s l w p N Hw He Fl L H K. pose proof Hw as (P1&P2&P3&P4&P5&P6). pose proof L as L'. unfold live in L'.
  unfold read_word. rewrite <- !app_assoc. cbn [app]. eapply wp_lget; [exact N|].
  eapply wp_call; [reflexivity|cbn [List.length]; lia|]; cbn [rev firstn app].
  eapply returns_wpf; [apply (proj1 (validate_pointer_spec ep w p Hw He L)); exact H|]. cbn [skipn app].
  apply wp_propagate_ok; [exact Hw|exact Fl|]. cbn [app]. eapply wp_lget; [exact N|]. ws1.
  wpure swap_i32_spec; [apply load_4_range|].
  replace (bswap 4 (load 4 (mem w) (p + 28))) with (load_be 32 (mem w) p); [exact K|].
  rewrite <- low_word by exact H. symmetry. apply (bswap_load 4).
Qed.

Lemma read_word_err : forall ep i r (Q : outcome -> Prop) s l w p, nth_error l i = Some p -> wok w -> errtab_ok ep ->
  live w p 32 -> 2 ^ 32 <= load_be 32 (mem w) p ->
  (forall w', aborted ep MemoryAccessOutOfBounds w w' -> Q (ORet [BADF00D] l w')) -> wp (read_word ep i ++ r) Q s l w.
Proof.
  intros ep i r Q s l w p N Hw He L H K.
  unfold read_word. rewrite <- !app_assoc. cbn [app]. eapply wp_lget; [exact N|].
  eapply wp_call; [reflexivity|cbn [List.length]; lia|]; cbn [rev firstn app].
  destruct (proj2 (validate_pointer_spec ep w p Hw He L) H) as (w'&R&A).
  eapply returns_wpf; [exact R|]. cbn [skipn app]. pose proof (wok_aborted _ _ _ _ Hw A) as Hw'.
  apply (wp_propagate_err true); [exact Hw'|eapply aborted_nonzero; eauto|]. apply K. exact A.
Qed.

(** ** What unpacking a value does *)

Definition unpacked (t : aty) (v : val) (w w' : world) (g x : Z) : Prop :=
  extends (set_gcd w g) w' /\ gnext w' = gnext w + need t v /\ 0 <= x < 256 ^ Z.of_nat (esize (mty t)) /\
  (is_stack (mty t) = false -> gnext w <= x < gnext w') /\
  vrep (mem w') (mty t) v x (between (gnext w) (gnext w')).

Definition unpack_ok (t : aty) : Prop := forall ep pv r b k (Q : outcome -> Prop) s l w v R B hi,
  skips pv -> errtab_ok ep -> nth_error l r = Some R -> nth_error l b = Some B ->
  wok w -> abort_flag w = 0 -> wf_aty t -> 0 <= R -> 0 <= B -> hi <= gnext w -> hi <= 2147483648 ->
  decodes (mem w) hi t v R B ->
  (ctrap w (has_string t) (need t v) -> Q OTrap) ->
  (forall w' x, unpacked t v w w' (R + head_size t) x -> wp k Q (x :: s) (set_nth r (R + head_size t) l) w') ->
  wp (unpack_code ep t pv r b ++ k) Q s l w.

Lemma wp_sync : forall r k (Q : outcome -> Prop) s l w u, nth_error l r = Some u ->
  wp k Q s (set_nth r (gcd w) l) w -> wp (GlobalGet GCalldata :: LocalSet r :: k) Q s l w.
Proof. intros r k Q s l w u N K. eapply wp_gget. eapply wp_lset; [exact N|]. exact K. Qed.

Lemma unpack_ints : forall t, unpack_ok (AInt t).
Proof.
  intros t ep pv r b k Q s l w v R B hi _ _ Nr Nb Hw Fl Sc HR HB Hhi Hhi2 [D1 [-> D2]] T K. cbn [wf_aty] in Sc.
  pose proof Hw as (P1&P2&P3&P4&P5&P6). assert (L : live w R 32) by (unfold live; lia).
  set (n := load_be 32 (mem w) R) in *. cbn [unpack_code]. rewrite <- app_assoc. cbn [app].
  assert (Heap : forall f np nl bd nb (rep : memory -> Z -> Prop), f = Func np nl 1 bd -> np = 1%nat -> 0 < nb <= 32 -> is_stack t = false -> esize t = 4%nat -> need (AInt t) (VInt n) = nb ->
    wpf f [R] w (resq (fun vs w' => vs = [gnext w] /\ extends (set_gcd w (R + 32)) w' /\ gnext w' = gnext w + nb /\ rep (mem w') (gnext w)) (oom w nb)) ->
    (forall m x F, rep m x -> sub (between x (x + nb)) F -> vrep m t (VInt n) x F) ->
    wp (LocalGet r :: Call f :: GlobalGet GCalldata :: LocalSet r :: k) Q s l w).
  { intros f np nl bd nb rep Hf -> Hnb St Es Nd Sp V. eapply wp_lget; [exact Nr|]. eapply wp_call_spec; [exact Hf|cbn [List.length]; lia|exact Sp| |].
    - intros O. apply T. left. rewrite Nd. exact O.
    - intros vs w' (->&E&G&V'). wc. pose proof E as (Hw'&_&_&_&Eg&_). pose proof Hw' as (Q1&Q2&Q3&Q4&Q5&Q6).
      eapply wp_sync; [exact Nr|]. rewrite Eg. apply K. unfold unpacked. cbn [mty head_size] in *. rewrite Es, Nd. change (256 ^ Z.of_nat 4) with 4294967296.
      split; [exact E|]. split; [lia|]. split; [lia|]. split; [intros _; lia|]. apply V; [exact V'|]. rewrite G. apply sub_refl. }
  assert (Stk : is_stack t = true -> wp (GlobalGet GCalldata :: LocalSet r :: k) Q (n :: s) l (set_gcd w (R + 32))).
  { intros St. eapply wp_sync; [exact Nr|]. apply K. unfold unpacked.
    assert (Nd : need (AInt t) (VInt n) = 0) by (destruct t; try discriminate; reflexivity). rewrite Nd. cbn [mty].
    split; [apply extends_refl; exact Hw|]. split; [change (gnext (set_gcd w (R + 32))) with (gnext w); lia|].
    split.
    - split; [lia|]. eapply Z.lt_le_trans; [apply D2|]. pose proof (esize_bytes t St). change 256 with (2 ^ 8). rewrite <- Z.pow_mul_r by lia. apply Z.pow_le_mono_r; lia.
    - split; [rewrite St; discriminate|]. destruct t; try discriminate; split; auto. }
  assert (Small : vbits t <= 32 -> is_stack t = true -> wp (LocalGet r :: Const 32 :: Call unpack_u32 :: GlobalGet GCalldata :: LocalSet r :: k) Q s l w).
  { intros Vb St. eapply wp_lget; [exact Nr|]. ws1. eapply wp_call; [reflexivity|cbn [List.length]; lia|]; cbn [rev firstn app].
    eapply returns_wpf; [apply unpack_u32_spec; [exact Hw|exact L|lia|lia]|]. cbn [skipn app].
    replace (load_be 4 (mem w) (R + 28)) with n; [exact (Stk St)|]. symmetry. apply low_word. fold n.
    eapply Z.lt_le_trans; [apply D2|]. apply Z.pow_le_mono_r; lia. }
  destruct t; try contradiction Sc; cbn [unpack_int app].
  - apply Small; [cbn; lia|reflexivity].
  - apply Small; [cbn; lia|reflexivity].
  - apply Small; [cbn; lia|reflexivity].
  - apply Small; [cbn; lia|reflexivity].
  - eapply wp_lget; [exact Nr|]. eapply wp_call; [reflexivity|cbn [List.length]; lia|]; cbn [rev firstn app].
    eapply returns_wpf; [apply unpack_u64_spec; [exact Hw|exact L]|]. cbn [skipn app].
    replace (load_be 8 (mem w) (R + 24)) with n; [exact (Stk eq_refl)|]. unfold n. 
    change 32%nat with (24 + 8)%nat. apply load_be_high_zero. intros x Hx. replace x with (R + (x - R)) by lia.
    rewrite (load_be_byte 32) by lia. fold n. rewrite Z.div_small; [reflexivity|]. split; [lia|].
    eapply Z.lt_le_trans; [apply D2|]. change 256 with (2 ^ 8). rewrite <- Z.pow_mul_r by lia. apply Z.pow_le_mono_r; cbn [vbits]; lia.
  - eapply (Heap unpack_u128 _ _ _ 16 (fun m x => load 16 m x = load_be 16 (mem w) (R + 16))); try reflexivity; try lia.
    + eapply wpf_conseq; [apply (unpack_heap_spec unpack_u128 16); auto|]. intros [vs w0| | |]; cbn [resq fret]; auto.
      change (Z.of_nat 16) with 16. replace (R + 32 - 16) with (R + 16) by lia. auto.
    + intros m x F E S. cbn [vrep]. rewrite E. replace (load_be 16 (mem w) (R + 16)) with n; [split; [split; auto|exact S]|]. unfold n.
      change 32%nat with (16 + 16)%nat. apply load_be_high_zero. intros y Hx. replace y with (R + (y - R)) by lia.
      rewrite (load_be_byte 32) by lia. fold n. rewrite Z.div_small; [reflexivity|]. split; [lia|].
      eapply Z.lt_le_trans; [apply D2|]. change 256 with (2 ^ 8). rewrite <- Z.pow_mul_r by lia. apply Z.pow_le_mono_r; cbn [vbits]; lia.
  - eapply (Heap unpack_u256 _ _ _ 32 (fun m x => load 32 m x = n)); try reflexivity; try lia.
    + eapply wpf_conseq; [apply (unpack_heap_spec unpack_u256 32); auto|]. intros [vs w0| | |]; cbn [resq fret]; auto.
      change (Z.of_nat 32) with 32. replace (R + 32 - 32) with R by lia. auto.
    + intros m x F E S. cbn [vrep]. rewrite E. split; [split; auto|exact S].
  - eapply (Heap unpack_address _ _ _ 32 (fun m x => load_be 32 m x = n)); try reflexivity; try lia.
    + apply unpack_address_spec; auto.
    + intros m x F E S. cbn [vrep]. rewrite E. split; [split; auto|exact S].
Qed.

Lemma unpack_enums : forall n, unpack_ok (AEnum n).
Proof.
  intros n ep pv r b k Q s l w v R B hi _ He Nr Nb Hw Fl Wf HR HB Hhi Hhi2 [D1 (tag&->&Ht&D2)] T K. cbn [wf_aty] in Wf.
  pose proof Hw as (P1&P2&P3&P4&P5&P6). assert (L : live w R 32) by (unfold live; lia).
  cbn [unpack_code]. rewrite <- app_assoc. cbn [app]. eapply wp_lget; [exact Nr|].
  wcall unpack_enum_spec; [exact Hw|exact L|exact He|lia|intros O; apply T; left; exact O|].
  rewrite low_word, D2 by lia. intros vs w' [(_&->&E&G&V)|(X&_)]; [|lia]. wc.
  pose proof E as (Hw'&_&_&_&Eg&_). pose proof Hw' as (Q1&Q2&Q3&Q4&Q5&Q6).
  eapply wp_sync; [exact Nr|]. rewrite Eg. apply K. unfold unpacked. cbn [mty head_size need esize is_stack] in *. change (256 ^ Z.of_nat 4) with 4294967296.
  split; [exact E|]. split; [lia|]. split; [lia|]. split; [intros _; lia|].
  assert (Es : enum_size (repeat [] n) = 4).
  { unfold enum_size. replace (fold_right _ 0 _) with 0; [reflexivity|]. clear. induction n; [reflexivity|]. cbn [repeat fold_right List.length]. rewrite <- IHn. reflexivity. }
  cbn [vrep]. exists tag, [], empty. rewrite Es. split; [reflexivity|]. split; [exact V|]. split; [apply between_sub; lia|].
  split; [intros ? []|]. split; [intros ? ? []|].
  assert (Nt : nth_error (map (fun fs => map (fun t' => field_of (mem w') t' (vrep (mem w') t')) fs) (repeat (@nil ty) n)) tag = Some []).
  { clear - Ht. revert tag Ht. induction n; intros tag Ht; [lia|]. destruct tag; [reflexivity|]. cbn [repeat map nth_error]. apply IHn. lia. }
  rewrite Nt. exact I.
Qed.

Lemma elems_bytes : forall bs m a F, bytes (List.length bs) m a = bs -> elems (vrep m TU8) 1 m (map VInt bs) a F.
Proof.
  induction bs as [|x bs IH]; intros m a F H; cbn [map elems]; [exact I|]. cbn [bytes List.length] in H. injection H as H1 H2.
  exists empty, empty. change (Z.of_nat 1) with 1. split; [|split; [apply IH; exact H2|split; [intros ? []|split; intros ? []]]].
  cbn [vrep]. cbn [load]. rewrite <- H1. pose proof (rd_range m a). split; [f_equal; lia|cbn [vbits]; lia].
Qed.

Lemma unpack_string_spec : forall ep w R B hi v, errtab_ok ep -> wok w -> abort_flag w = 0 -> 0 <= R -> 0 <= B ->
  hi <= gnext w -> hi <= 2147483648 -> decodes (mem w) hi AString v R B ->
  wpf (unpack_string ep) [R; B] w (resq (fun rs w' => exists x, rs = [x] /\ unpacked AString v w w' (R + 32) x)
    (ctrap w true (need AString v))).
Proof.
  intros ep w R B hi v He Hw Fl HR HB Hhi Hhi2 [D1 (bs&->&D2&D3&D4)]. pose proof Hw as (P1&P2&P3&P4&P5&P6).
  pose proof (load_be_range 32 (mem w) R) as Ro. set (off := load_be 32 (mem w) R) in *. set (D := B + off) in *.
  set (len := List.length bs) in *. cbn [need]. rewrite map_length. fold len.
  apply wpf_intro; [reflexivity|]. unfold unpack_string. cbn [app repeat List.length Nat.sub].
  apply (read_word_ok ep 0 _ _ _ _ w R); [reflexivity|exact Hw|exact He|exact Fl|unfold live; lia|fold off; lia|]. fold off. cbn [app].
  ws1. ws1. replace (off + B) with D by (unfold D; lia). ws1. ws1. ws1. ws1. ws1. change (set_glob GCalldata w (R + 32)) with (set_gcd w (R + 32)).
  set (wg := set_gcd w (R + 32)). assert (Hwg : wok wg) by exact Hw.
  apply (read_word_ok ep 2 _ _ _ _ wg D); [reflexivity|exact Hw|exact He|exact Fl|unfold live; change (gnext wg) with (gnext w); lia|change (mem wg) with (mem w); lia|].
  change (mem wg) with (mem w). rewrite D2. cbn [app]. ws1. ws1. ws1. ws1. ws1. ws1. ws1. ws1.
  wcall (allocate_vector_spec wg (Z.of_nat len) (Z.of_nat len) 1); [exact Hwg|lia|lia|lia|lia| |].
  { intros O. left. eapply oom_mono; [exact O|]. lia. }
  intros rs w1 (->&E1&G1&H1&H2&Z1). wc. change (gnext wg) with (gnext w) in *. rewrite Z.mul_1_r in G1. set (V := gnext w) in *.
  pose proof E1 as (Hw1&E1b&E1c&E1d&E1e&E1f&E1g). pose proof Hw1 as (Q1&Q2&Q3&Q4&Q5&Q6). 
  change (gnext wg) with V in *. change (maxpages wg) with (maxpages w) in *. change (pages wg) with (pages w) in *. change (mem wg) with (mem w) in *. change (host wg) with (host w) in *.
  ws1. ws1. ws1. ws1. ws1. ws1. ws1. ws1. ws1.
  eapply wp_at_mem.
  eapply (wp_loop (fun f l wi => exists i m, f = (len - i)%nat /\ (i < len \/ i = 0)%nat /\
     l = [R; B; D + 32 + Z.of_nat i; Z.of_nat len; V; V + 8 + Z.of_nat i; Z.of_nat i; 0] /\ wi = set_mem w1 m /\
     (forall x, x < V + 8 \/ V + 8 + Z.of_nat i <= x -> rd m x = rd (mem w1) x) /\
     (forall j, 0 <= j < Z.of_nat i -> j < Z.of_nat len -> rd m (V + 8 + j) = rd (mem w) (D + 32 + j))) len).
  { exists 0%nat, (mem w1). split; [lia|]. split; [lia|]. split; [leq|]. split; [reflexivity|]. split; [auto|]. intros; lia. }
  intros f l wi (i&m&->&Hi&->&->&Mo&Mi). ws1. ws1.
  apply wp_load; [lia|unfold page_size; cbn [pages set_mem]; lia|]. rewrite Z.add_0_r. cbn [mem set_mem].
  destruct (Z.lt_ge_cases (65536 * pages w1) (V + 8 + Z.of_nat i + 4)) as [Tr|Ok].
  { apply wp_store_trap; [unfold page_size; cbn [pages set_mem]; lia|]. cbn [loopk fret]. right. split; [reflexivity|]. exists (pages w1). fold V. lia. }
  apply wp_store; [lia|unfold page_size; cbn [pages set_mem]; lia|]. rewrite Z.add_0_r. cbn [mem set_mem].
  set (y := load 1 m (D + 32 + Z.of_nat i)) in *. assert (Hy : 0 <= y < 256) by apply (load_range 1).
  assert (Ey : Z.of_nat i < Z.of_nat len -> y = rd (mem w) (D + 32 + Z.of_nat i)).
  { intros X. unfold y. cbn [load]. rewrite Mo by lia. rewrite E1g by lia. ring. }
  clearbody y.
  set (m1 := store (Z.of_nat 4) m (V + 8 + Z.of_nat i) y).
  assert (U : forall x, rd m1 x = rd (store 1 m (V + 8 + Z.of_nat i) y) x).
  { intros x. unfold m1. apply rd_store_narrow; [lia|exact Hy|]. intros x1 Hx1. rewrite Mo by lia. apply Z1. lia. }
  assert (Mo1 : forall x, x < V + 8 \/ V + 8 + Z.of_nat (S i) <= x -> rd m1 x = rd (mem w1) x).
  { intros x Hx. rewrite U, rd_store_out by lia. apply Mo. lia. }
  assert (Mi1 : forall j, 0 <= j < Z.of_nat (S i) -> j < Z.of_nat len -> rd m1 (V + 8 + j) = rd (mem w) (D + 32 + j)).
  { intros j Hj Hj2. rewrite U. destruct (Z.eq_dec j (Z.of_nat i)) as [->|].
    - rewrite rd_store_in by lia. replace (V + 8 + Z.of_nat i - (V + 8 + Z.of_nat i)) with 0 by lia. change (256 ^ 0) with 1. rewrite Z.div_1_r. rewrite <- Ey by exact Hj2. apply Z.mod_small. exact Hy.
    - rewrite rd_store_out by lia. apply Mi; lia. }
  clearbody m1. change (set_mem (set_mem w1 m) m1) with (set_mem w1 m1). clear U Mo Mi m Ey.
  ws1. ws1. ws1. ws1. ws1. ws1. ws1. ws1. ws1. ws1. ws1. ws1. ws1. ws1. apply wp_brif; intros C; unb C; wc.
  { exists (len - S i)%nat. split; [lia|]. exists (S i), m1. split; [reflexivity|]. split; [lia|]. split; [leq|].
    split; [reflexivity|]. split; [exact Mo1|exact Mi1]. }
  apply wp_nil. wc. ws1.
  wcall (alloc_spec0 (set_mem w1 m1) 4); [apply wok_heap_ok in Hw1; exact Hw1|lia| |].
  { intros O. left. unfold oom in *. cbn [maxpages gnext set_mem] in O. fold V. lia. }
  intros rs w2 (->&A1&A2&A3&A4&A5&A6&A7). wc. cbn [gnext mem maxpages pages set_mem host gcd] in *. rewrite G1 in *. pose proof A1 as (B1&B2&B3&B4&B5).
  ws1. ws1. apply wp_store; [lia|unfold page_size; lia|]. rewrite Z.add_0_r, A2. change (Z.of_nat 4) with 4. set (x := V + 8 + Z.of_nat len) in *.
  set (m2 := store 4 m1 x V).
  assert (O2 : forall y, y < V + 8 -> rd m2 y = rd (mem w1) y).
  { intros z Hz. unfold m2. rewrite rd_store_out by lia. apply Mo1. lia. }
  assert (I2 : forall j, 0 <= j < Z.of_nat len -> rd m2 (V + 8 + j) = rd (mem w) (D + 32 + j)).
  { intros z Hz. unfold m2. rewrite rd_store_out by (unfold x; lia). apply Mi1; lia. }
  assert (Z2 : forall y, x + 4 <= y -> rd m2 y = 0).
  { intros z Hz. unfold m2. rewrite rd_store_out by lia. rewrite Mo1 by (unfold x in Hz; lia). apply Z1. unfold x in Hz. lia. }
  assert (L2 : load 4 m2 x = V) by (unfold m2; rewrite load_4_store; apply w32_small; lia).
  clearbody m2. ws1. ws1. exists x. split; [reflexivity|]. unfold unpacked. cbn [need mem gnext set_mem mty esize is_stack]. rewrite map_length. fold len V.
  change (256 ^ Z.of_nat 4) with 4294967296. split; [|split; [lia|split; [unfold x; lia|split; [intros; unfold x; lia|]]]].
  - unfold extends, wok. cbn [mem gnext set_mem pages maxpages gavail gcd host]. split; [|split; [change (maxpages (set_gcd w (R + 32))) with (maxpages w); lia|split; [|split; [|split; [rewrite A6; exact E1e|split; [rewrite A7; exact E1f|]]]]]].
    + repeat (split; [lia|]). intros a Ha. apply Z2. lia.
    + change (pages (set_gcd w (R + 32))) with (pages w). lia.
    + change (gnext (set_gcd w (R + 32))) with V. lia.
    + intros a Ha. change (gnext (set_gcd w (R + 32))) with V in Ha. rewrite O2 by lia. apply E1g. exact Ha.
  - cbn [vrep map List.length]. exists 0, [VVec (map VInt bs)], (between V x). split; [reflexivity|]. split; [reflexivity|].
    split; [apply between_sub; unfold x; lia|]. split; [apply between_sub; unfold x; lia|]. split; [apply disj_sym, between_disj; lia|].
    cbn [fields]. exists (between V x), empty. split; [|split; [exact I|split; [intros ? ? []|split; [apply sub_refl|intros ? []]]]].
    unfold field_of. cbn [is_stack]. rewrite L2. cbn [vrep]. exists (map VInt bs), (Z.of_nat len), empty. rewrite map_length. fold len.
    cbn [esize]. change (Z.of_nat 1) with 1. rewrite Z.mul_1_r. split; [reflexivity|].
    split; [|split; [|split; [lia|split; [lia|split; [apply sub_refl|split; [intros ? []|split; [intros ? ? []|]]]]]]].
    + rewrite <- H1. apply load_ext. intros j Hj. apply O2. lia.
    + rewrite <- H2. apply load_ext. intros j Hj. apply O2. lia.
    + apply elems_bytes. fold len. etransitivity; [|exact D4]. apply bytes_ext. intros j Hj. apply I2. lia.
Qed.

Lemma unpack_strings : unpack_ok AString.
Proof.
  intros ep pv r b k Q s l w v R B hi _ He Nr Nb Hw Fl Wf HR HB Hhi Hhi2 D T K.
  cbn [unpack_code]. rewrite <- app_assoc. cbn [app]. eapply wp_lget; [exact Nr|]. eapply wp_lget; [exact Nb|].
  wcall unpack_string_spec; [exact He|exact Hw|exact Fl|exact HR|exact HB|exact Hhi|exact Hhi2|exact D|exact T|].
  intros vs w' (x&->&U). wc. pose proof U as ((_&_&_&_&Eg&_)&_). eapply wp_sync; [exact Nr|]. rewrite Eg. apply K. exact U.
Qed.
