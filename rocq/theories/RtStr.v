(** * Strings: native_functions/string.rs.

    The arguments are the vectors themselves: calls load the reference first
    (translation/functions.rs 238-311 [prepare_function_arguments]). *)

From Verif Require Import Tac RtAlloc RtErr RtInt RtEq RtDiv RtShift RtSwap RtAscii Ops LemAbi RtCopy RtRouter SpecStr.
Ltac Zify.zify_post_hook ::= idtac.

(** string.rs 16-330 [add_internal_check_utf8].  Locals: 0 vec_ptr, 1 length, 2 i, 3 current_char. *)
Definition advance (n : Z) : instr :=
  If 0 [ LocalGet 2; Const n; Bin I32 Add; LocalSet 2; Br "loop" ] [].
Definition in_range (lo hi : Z) : list instr :=
  [ Const lo; LocalGet 3; Bin I32 LeU; LocalGet 3; Const hi; Bin I32 LeU; Bin I32 And ].
Definition matches (mask pat : Z) : list instr :=
  [ LocalGet 3; Const mask; Bin I32 And; Const pat; Bin I32 Eq; Bin I32 And ].
Definition check_char : list instr :=
  [ LocalGet 0; LocalGet 2; Bin I32 Add; Load 1 0; LocalTee 3;
    LocalGet 3; Const 0x7F; Bin I32 LeU; advance 1;
    LocalGet 0; LocalGet 2; Bin I32 Add; Load 2 0; Call swap_i32_bytes; Const 16; Bin I32 ShrU; LocalSet 3;
    Const 0xC080; LocalGet 3; Bin I32 Eq; advance 2 ] ++
  in_range 0xC280 0xDFBF ++ matches 0xE0C0 0xC080 ++
  [ advance 2;
    LocalGet 0; LocalGet 2; Bin I32 Add; Load 4 0; Call swap_i32_bytes; Const 8; Bin I32 ShrU; LocalSet 3 ] ++
  in_range 0xEDA080 0xEDBFBF ++ [ If 0 [ Const 0; Return ] [] ] ++
  in_range 0xE0A080 0xEFBFBF ++ matches 0xF0C0C0 0xE08080 ++
  [ advance 3;
    LocalGet 0; LocalGet 2; Bin I32 Add; Load 4 0; Call swap_i32_bytes; LocalSet 3 ] ++
  in_range 0xF0908080 0xF48FBFBF ++ matches 0xF8C0C0C0 0xF0808080 ++
  [ advance 4; Const 0; Return ].
Definition check_utf8 : func := Func 1 3 1
 [ LocalGet 0; Load 4 0; LocalSet 1; LocalGet 0; Const 8; Bin I32 Add; LocalSet 0;
   Loop "loop" 1 [ LocalGet 2; LocalGet 1; Bin I32 GeU; If 1 [ Const 1; Return ] check_char ]; Return ].

(** string.rs 332-432 [add_internal_is_char_boundary].  The sign-extending load (i32.load8_s) is
    written as an unsigned load followed by (x xor 128) - 128.
    Locals: 0 vec_ptr, 1 char_index, 2 length, 3 is_boundary, 4 char_index_i32. *)
Definition is_char_boundary : func := Func 2 3 1
 [ LocalGet 1; Un Wrap64; LocalSet 4; Const 0; LocalSet 3; LocalGet 0; Load 4 0; LocalSet 2;
   LocalGet 1; Un Eqz;
   If 0 [ Const 1; LocalSet 3 ]
     [ LocalGet 4; LocalGet 2; Bin I32 GeU;
       If 0 [ LocalGet 4; LocalGet 2; Bin I32 Eq; LocalSet 3 ]
         (vec_elem_ptr 0 4 1 ++
          [ Load 1 0; Const 128; Bin I32 Xor; Const 128; Bin I32 Sub;
            Const 4294967232; Bin I32 GeS; LocalSet 3 ]) ];
   LocalGet 3; Return ].

(** string.rs 434-611 [add_internal_index_of].
    Locals: 0 vec_ptr, 1 pattern_ptr, 2 vec_len, 3 pattern_len, 4 i, 5 j, 6 search_limit. *)
Definition index_of : func := Func 2 5 1
 [ LocalGet 0; Load 4 0; LocalSet 2; LocalGet 1; Load 4 0; LocalSet 3;
   LocalGet 3; Un Eqz; If 0 [ Const 0; Return ] [];
   LocalGet 3; LocalGet 2; Bin I32 GtU; If 0 [ LocalGet 2; Un ExtendU; Return ] [];
   LocalGet 2; LocalGet 3; Bin I32 Sub; LocalSet 6;
   Const 0; LocalSet 4;
   Loop "outer" 0
     [ Const 0; LocalSet 5;
       Loop "inner" 0
         (vec_elem_ptr 0 4 1 ++ [ LocalGet 5; Bin I32 Add; Load 1 0 ] ++ vec_elem_ptr 1 5 1 ++ [ Load 1 0; Bin I32 Ne;
          If 0 [ LocalGet 4; Const 1; Bin I32 Add; LocalSet 4 ]
            [ LocalGet 5; Const 1; Bin I32 Add; LocalSet 5;
              LocalGet 5; LocalGet 3; Bin I32 Eq;
              If 0 [ LocalGet 4; Un ExtendU; Return ] [ Br "inner" ] ] ]);
       LocalGet 4; LocalGet 6; Bin I32 LeU; BrIf "outer" ];
   LocalGet 2; Un ExtendU; Return ].

(** string.rs 613-723 [add_internal_sub_string].
    Locals: 0 vec_ptr, 1 start_idx, 2 end_idx, 3 sub_vec_ptr, 4 start_idx_i32, 5 end_idx_i32, 6 len, 7 sub_len. *)
Definition sub_string : func := Func 3 5 1
 ([ LocalGet 0; Load 4 0; LocalSet 6;
    LocalGet 1; Un Wrap64; LocalSet 4; LocalGet 2; Un Wrap64; LocalSet 5;
    LocalGet 4; LocalGet 5; Bin I32 GtU;
    If 0 [ Unreachable ] [ LocalGet 5; LocalGet 6; Bin I32 GtU; If 0 [ Unreachable ] [] ];
    LocalGet 5; LocalGet 4; Bin I32 Sub; LocalSet 7;
    LocalGet 7; LocalGet 7; Const 1; Call allocate_vector_with_header; LocalSet 3;
    LocalGet 3; Const 8; Bin I32 Add ] ++ vec_elem_ptr 0 4 1 ++
  [ LocalGet 7; MemCopy; LocalGet 3; Return ]).

(** ** Bit masks *)

Lemma testbit_byte : forall x y n, 0 <= x -> 0 <= y < 256 -> 0 <= n ->
  Z.testbit (256 * x + y) n = if n <? 8 then Z.testbit y n else Z.testbit x (n - 8).
Proof.
  intros x y n Hx Hy Hn. destruct (n <? 8) eqn:E.
  - apply Z.ltb_lt in E. rewrite <- (Z.mod_pow2_bits_low (256 * x + y) 8 n) by lia.
    replace ((256 * x + y) mod 2 ^ 8) with y; [reflexivity|].
    change (2 ^ 8) with 256. rewrite Z.mul_comm, Z.add_comm, Z_mod_plus_full. symmetry. apply Z.mod_small. lia.
  - apply Z.ltb_ge in E. replace n with ((n - 8) + 8) at 1 by lia. rewrite <- Z.div_pow2_bits by lia.
    f_equal. change (2 ^ 8) with 256. rewrite Z.mul_comm, Z.div_add_l by lia. rewrite Z.div_small by lia. lia.
Qed.

Lemma land_byte : forall x y p q, 0 <= x -> 0 <= p -> 0 <= y < 256 -> 0 <= q < 256 ->
  Z.land (256 * x + y) (256 * p + q) = 256 * Z.land x p + Z.land y q.
Proof.
  intros x y p q Hx Hp Hy Hq. apply Z.bits_inj'. intros n Hn.
  pose proof (land_lt y q 8 ltac:(lia) ltac:(lia)). change (2 ^ 8) with 256 in *.
  rewrite Z.land_spec, !testbit_byte by (try lia; apply Z.land_nonneg; lia).
  destruct (n <? 8); rewrite Z.land_spec; reflexivity.
Qed.

Fixpoint upto (n : nat) (P : Z -> bool) : bool :=
  match n with O => true | S n => P (Z.of_nat n) && upto n P end.
Lemma upto_ok : forall n P, upto n P = true -> forall x, 0 <= x < Z.of_nat n -> P x = true.
Proof.
  induction n; intros P H x Hx; [lia|]. cbn [upto] in H. apply andb_true_iff in H. destruct H as [H1 H2].
  destruct (Z.eq_dec x (Z.of_nat n)) as [->|]; [exact H1|apply IHn; [exact H2|lia]].
Qed.
Lemma mask_byte : forall mask pat lo hi, upto 256 (fun x => Bool.eqb (Z.land x mask =? pat) ((lo <=? x) && (x <? hi))) = true ->
  forall x, 0 <= x < 256 -> (Z.land x mask =? pat) = ((lo <=? x) && (x <? hi)).
Proof. intros mask pat lo hi H x Hx. apply Bool.eqb_prop. exact (upto_ok 256 _ H x Hx). Qed.
Definition mC0 := mask_byte 0xC0 0x80 0x80 0xC0 eq_refl.
Definition mE0 := mask_byte 0xE0 0xC0 0xC0 0xE0 eq_refl.
Definition mF0 := mask_byte 0xF0 0xE0 0xE0 0xF0 eq_refl.
Definition mF8 := mask_byte 0xF8 0xF0 0xF0 0xF8 eq_refl.

(** ** One character *)

(** The decision taken on the four bytes at the current position: the length of the character. *)
Definition char_size (b0 b1 b2 b3 : Z) : option Z :=
  let c2 := 256 * b0 + b1 in let c3 := 256 * c2 + b2 in let c4 := 256 * c3 + b3 in
  if b0 <=? 0x7F then Some 1
  else if 0xC080 =? c2 then Some 2
  else if (0xC280 <=? c2) && (c2 <=? 0xDFBF) && (Z.land c2 0xE0C0 =? 0xC080) then Some 2
  else if (0xEDA080 <=? c3) && (c3 <=? 0xEDBFBF) then None
  else if (0xE0A080 <=? c3) && (c3 <=? 0xEFBFBF) && (Z.land c3 0xF0C0C0 =? 0xE08080) then Some 3
  else if (0xF0908080 <=? c4) && (c4 <=? 0xF48FBFBF) && (Z.land c4 0xF8C0C0C0 =? 0xF0808080) then Some 4
  else None.

Definition byte (b : Z) : Prop := 0 <= b < 256.
Definition cont (b : Z) : bool := (0x80 <=? b) && (b <? 0xC0).

Lemma eqb_pair : forall a b p q, 0 <= b < 256 -> 0 <= q < 256 -> (256 * a + b =? 256 * p + q) = (a =? p) && (b =? q).
Proof. intros. lia. Qed.

Lemma land_range8 : forall b q, byte b -> 0 <= q -> 0 <= Z.land b q < 256.
Proof. intros b q Hb Hq. exact (land_lt b q 8 Hb Hq). Qed.

Lemma land_c2 : forall b0 b1, byte b0 -> byte b1 ->
  (Z.land (256 * b0 + b1) 0xE0C0 =? 0xC080) = ((0xC0 <=? b0) && (b0 <? 0xE0)) && cont b1.
Proof.
  intros b0 b1 H0 H1. unfold byte in *. change 0xE0C0 with (256 * 0xE0 + 0xC0). change 0xC080 with (256 * 0xC0 + 0x80).
  pose proof (land_range8 b1 0xC0 H1 ltac:(lia)).
  rewrite land_byte, eqb_pair by lia. rewrite mE0, mC0 by assumption. reflexivity.
Qed.
Lemma land_c3 : forall b0 b1 b2, byte b0 -> byte b1 -> byte b2 ->
  (Z.land (256 * (256 * b0 + b1) + b2) 0xF0C0C0 =? 0xE08080) = ((0xE0 <=? b0) && (b0 <? 0xF0)) && cont b1 && cont b2.
Proof.
  intros b0 b1 b2 H0 H1 H2. unfold byte in *. change 0xF0C0C0 with (256 * (256 * 0xF0 + 0xC0) + 0xC0).
  change 0xE08080 with (256 * (256 * 0xE0 + 0x80) + 0x80).
  pose proof (land_range8 b1 0xC0 H1 ltac:(lia)). pose proof (land_range8 b2 0xC0 H2 ltac:(lia)).
  rewrite !land_byte, !eqb_pair by lia. rewrite mF0, !mC0 by assumption. reflexivity.
Qed.
Lemma land_c4 : forall b0 b1 b2 b3, byte b0 -> byte b1 -> byte b2 -> byte b3 ->
  (Z.land (256 * (256 * (256 * b0 + b1) + b2) + b3) 0xF8C0C0C0 =? 0xF0808080) =
  ((0xF0 <=? b0) && (b0 <? 0xF8)) && cont b1 && cont b2 && cont b3.
Proof.
  intros b0 b1 b2 b3 H0 H1 H2 H3. unfold byte in *. change 0xF8C0C0C0 with (256 * (256 * (256 * 0xF8 + 0xC0) + 0xC0) + 0xC0).
  change 0xF0808080 with (256 * (256 * (256 * 0xF0 + 0x80) + 0x80) + 0x80).
  pose proof (land_range8 b1 0xC0 H1 ltac:(lia)). pose proof (land_range8 b2 0xC0 H2 ltac:(lia)). pose proof (land_range8 b3 0xC0 H3 ltac:(lia)).
  rewrite !land_byte, !eqb_pair by lia. rewrite mF8, !mC0 by assumption. reflexivity.
Qed.

(** What is accepted is a character. *)
Lemma char_size_sound : forall b0 b1 b2 b3 k, byte b0 -> byte b1 -> byte b2 -> byte b3 ->
  char_size b0 b1 b2 b3 = Some k -> exists x, modified_char x /\ 1 <= k <= 4 /\ List.length x = Z.to_nat k /\
    firstn (Z.to_nat k) [b0; b1; b2; b3] = x.
Proof.
  intros b0 b1 b2 b3 k H0 H1 H2 H3. unfold char_size. cbv zeta.
  rewrite land_c2, land_c3, land_c4 by assumption. unfold cont, byte in *.
  destruct (b0 <=? 127) eqn:C1.
  { intros K. injection K as <-. exists [b0]. split; [|split; [lia|split; reflexivity]]. right. exists b0.
    split; [unfold scalar; lia|]. unfold utf8_char. replace (b0 <? 0x80) with true by lia. reflexivity. }
  destruct (49280 =? _) eqn:C2.
  { intros K. injection K as <-. exists [b0; b1]. split; [|split; [lia|split; reflexivity]]. left.
    assert (b0 = 0xC0) by lia. assert (b1 = 0x80) by lia. congruence. }
  match goal with |- (if ?c then _ else _) = _ -> _ => destruct c eqn:C3 end.
  { intros K. injection K as <-. exists [b0; b1]. split; [|split; [lia|split; reflexivity]]. right.
    exists (64 * (b0 - 0xC0) + (b1 - 0x80)). unfold scalar, utf8_char.
    set (c := 64 * (b0 - 0xC0) + (b1 - 0x80)). assert (Q : c / 64 = b0 - 0xC0) by (unfold c; Z.to_euclidean_division_equations; lia).
    assert (R : c mod 64 = b1 - 0x80) by (unfold c; Z.to_euclidean_division_equations; lia).
    split; [unfold c; lia|]. replace (c <? 0x80) with false by (unfold c; lia). replace (c <? 0x800) with true by (unfold c; lia).
    rewrite Q, R. leq. }
  match goal with |- (if ?c then _ else _) = _ -> _ => destruct c eqn:C4 end; [discriminate|].
  match goal with |- (if ?c then _ else _) = _ -> _ => destruct c eqn:C5 end.
  { intros K. injection K as <-. exists [b0; b1; b2]. split; [|split; [lia|split; reflexivity]]. right.
    set (c := 4096 * (b0 - 0xE0) + 64 * (b1 - 0x80) + (b2 - 0x80)). exists c. unfold scalar, utf8_char.
    assert (B : 0x80 <= b1 < 0xC0 /\ 0x80 <= b2 < 0xC0 /\ 0xE0 <= b0 < 0xF0) by lia.
    assert (E0 : c / 4096 = b0 - 0xE0) by (unfold c; Z.to_euclidean_division_equations; lia).
    assert (E1 : c / 64 mod 64 = b1 - 0x80).
    { replace (c / 64) with (64 * (b0 - 0xE0) + (b1 - 0x80)) by (unfold c; Z.to_euclidean_division_equations; lia).
      Z.to_euclidean_division_equations; lia. }
    assert (E2 : c mod 64 = b2 - 0x80) by (unfold c; Z.to_euclidean_division_equations; lia).
    split; [unfold c; lia|]. replace (c <? 0x80) with false by (unfold c; lia). replace (c <? 0x800) with false by (unfold c; lia).
    replace (c <? 0x10000) with true by (unfold c; lia). rewrite E0, E1, E2. leq. }
  match goal with |- (if ?c then _ else _) = _ -> _ => destruct c eqn:C6 end; [|discriminate].
  intros K. injection K as <-. exists [b0; b1; b2; b3]. split; [|split; [lia|split; reflexivity]]. right.
  set (c := 262144 * (b0 - 0xF0) + 4096 * (b1 - 0x80) + 64 * (b2 - 0x80) + (b3 - 0x80)). exists c. unfold scalar, utf8_char.
  assert (B : 0x80 <= b1 < 0xC0 /\ 0x80 <= b2 < 0xC0 /\ 0x80 <= b3 < 0xC0 /\ 0xF0 <= b0 < 0xF8) by lia.
  assert (E0 : c / 262144 = b0 - 0xF0) by (unfold c; Z.to_euclidean_division_equations; lia).
  assert (E1 : c / 4096 mod 64 = b1 - 0x80).
  { replace (c / 4096) with (64 * (b0 - 0xF0) + (b1 - 0x80)) by (unfold c; Z.to_euclidean_division_equations; lia).
    Z.to_euclidean_division_equations; lia. }
  assert (E2 : c / 64 mod 64 = b2 - 0x80).
  { replace (c / 64) with (4096 * (b0 - 0xF0) + 64 * (b1 - 0x80) + (b2 - 0x80)) by (unfold c; Z.to_euclidean_division_equations; lia).
    Z.to_euclidean_division_equations; lia. }
  assert (E3 : c mod 64 = b3 - 0x80) by (unfold c; Z.to_euclidean_division_equations; lia).
  split; [unfold c; lia|]. replace (c <? 0x80) with false by (unfold c; lia). replace (c <? 0x800) with false by (unfold c; lia).
  replace (c <? 0x10000) with false by (unfold c; lia). rewrite E0, E1, E2, E3. leq.
Qed.

Lemma eq2 : forall a b c d : Z, [a; b] = [c; d] -> a = c /\ b = d.
Proof. intros. inversion H. auto. Qed.
Lemma eq3 : forall a b c d e f : Z, [a; b; c] = [d; e; f] -> a = d /\ b = e /\ c = f.
Proof. intros. inversion H. auto. Qed.
Lemma eq4 : forall a b c d e f g h : Z, [a; b; c; d] = [e; f; g; h] -> a = e /\ b = f /\ c = g /\ d = h.
Proof. intros. inversion H. auto. Qed.

(** Every character is accepted, whatever follows it. *)
Lemma char_size_complete : forall b0 b1 b2 b3 x, byte b0 -> byte b1 -> byte b2 -> byte b3 -> modified_char x ->
  firstn (List.length x) [b0; b1; b2; b3] = x -> char_size b0 b1 b2 b3 = Some (Z.of_nat (List.length x)).
Proof.
  intros b0 b1 b2 b3 x H0 H1 H2 H3 M. unfold char_size. cbv zeta.
  rewrite land_c2, land_c3, land_c4 by assumption. unfold cont, byte in *.
  destruct M as [->|(c&Sc&->)].
  { cbn [firstn List.length]. intros K. injection K as -> ->. reflexivity. }
  unfold utf8_char, scalar in *.
  destruct (c <? 0x80) eqn:C1.
  { cbn [firstn List.length]. intros K. injection K as ->. replace (c <=? 127) with true by lia. reflexivity. }
  destruct (c <? 0x800) eqn:C2.
  { cbn [firstn List.length]. intros K. apply eq2 in K. destruct K. subst b0 b1.
    replace (_ <=? 127) with false by (Z.to_euclidean_division_equations; lia).
    replace (49280 =? _) with false by (Z.to_euclidean_division_equations; lia).
    match goal with |- (if ?b then _ else _) = _ => replace b with true by (Z.to_euclidean_division_equations; lia) end. reflexivity. }
  destruct (c <? 0x10000) eqn:C3.
  { cbn [firstn List.length]. intros K. apply eq3 in K. destruct K as (?&?&?). subst b0 b1 b2.
    pose proof (Z.div_div c 64 64 ltac:(lia) ltac:(lia)) as DD. change (64 * 64) with 4096 in DD. rewrite <- DD in *.
    pose proof (Z.div_mod c 64 ltac:(lia)) as D1. pose proof (Z.mod_pos_bound c 64 ltac:(lia)) as D2.
    pose proof (Z.div_mod (c / 64) 64 ltac:(lia)) as D3. pose proof (Z.mod_pos_bound (c / 64) 64 ltac:(lia)) as D4.
    revert H0 H1 H2 D1 D2 D3 D4. generalize (c / 64 / 64) (c / 64 mod 64) (c mod 64) (c / 64). clear DD. intros.
    replace (_ <=? 127) with false by lia.
    replace (49280 =? _) with false by lia.
    repeat match goal with |- (if ?b then _ else _) = _ => first [replace b with true by lia|replace b with false by lia] end. reflexivity. }
  cbn [firstn List.length]. intros K. apply eq4 in K. destruct K as (?&?&?&?). subst b0 b1 b2 b3.
  pose proof (Z.div_div c 64 64 ltac:(lia) ltac:(lia)) as DD. change (64 * 64) with 4096 in DD.
  pose proof (Z.div_div c 4096 64 ltac:(lia) ltac:(lia)) as DE. change (4096 * 64) with 262144 in DE. rewrite <- DE, <- DD in *.
  pose proof (Z.div_mod c 64 ltac:(lia)) as D1. pose proof (Z.mod_pos_bound c 64 ltac:(lia)) as D2.
  pose proof (Z.div_mod (c / 64) 64 ltac:(lia)) as D3. pose proof (Z.mod_pos_bound (c / 64) 64 ltac:(lia)) as D4.
  pose proof (Z.div_mod (c / 64 / 64) 64 ltac:(lia)) as D5. pose proof (Z.mod_pos_bound (c / 64 / 64) 64 ltac:(lia)) as D6.
  revert H0 H1 H2 H3 D1 D2 D3 D4 D5 D6. clear DD DE.
  generalize (c / 64 / 64 / 64) (c / 64 / 64 mod 64) (c / 64 / 64) (c / 64 mod 64) (c mod 64) (c / 64). intros.
  replace (_ <=? 127) with false by lia.
  replace (49280 =? _) with false by lia.
  repeat match goal with |- (if ?b then _ else _) = _ => first [replace b with true by lia|replace b with false by lia] end. reflexivity.
Qed.

(** ** Validation *)

Lemma wp_in_range : forall lo hi r Q s v n i c w,
  wp r Q (b2z ((lo <=? c) && (c <=? hi)) :: s) [v; n; i; c] w -> wp (in_range lo hi ++ r) Q s [v; n; i; c] w.
Proof. intros. unfold in_range. cbn [app]. ws1. ws1. ws1. ws1. ws1. ws1. ws1. rewrite b2z_and. assumption. Qed.

Lemma wp_matches : forall mask pat r Q s v n i c b w,
  wp r Q (b2z (b && (Z.land c mask =? pat)) :: s) [v; n; i; c] w -> wp (matches mask pat ++ r) Q (b2z b :: s) [v; n; i; c] w.
Proof. intros. unfold matches. cbn [app]. ws1. ws1. ws1. ws1. ws1. ws1. rewrite b2z_and. assumption. Qed.

Lemma wp_advance : forall k r (Q : outcome -> Prop) s v n i c b w, 0 <= i + k < 4294967296 ->
  (b = true -> Q (OBr "loop" [] [v; n; i + k; c] w)) -> (b = false -> wp r Q s [v; n; i; c] w) ->
  wp (advance k :: r) Q (b2z b :: s) [v; n; i; c] w.
Proof.
  intros k r Q s v n i c b w Hk H1 H2. unfold advance. ws1.
  - ws1. ws1. ws1. ws1. ws1. auto.
  - ws1. auto.
Qed.

Lemma be2 : forall m a, bswap 4 (load 2 m a) / 65536 = 256 * rd m a + rd m (a + 1).
Proof.
  intros. pose proof (rd_range m a). pose proof (rd_range m (a + 1)). cbn [load].
  set (x := rd m a) in *. set (y := rd m (a + 1)) in *. cbn [bswap]. rewrite Z.mul_0_r, Z.add_0_r.
  replace ((x + 256 * y) mod 256) with x by (Z.to_euclidean_division_equations; lia).
  replace ((x + 256 * y) / 256) with y by (Z.to_euclidean_division_equations; lia).
  rewrite (Z.mod_small y 256), (Z.div_small y 256) by lia. cbn [Z.of_nat Pos.of_succ_nat Pos.succ].
  change (256 ^ 3) with 16777216. change (256 ^ 2) with 65536. Z.to_euclidean_division_equations. lia.
Qed.

Lemma be4 : forall m a, bswap 4 (load 4 m a) = 256 * (256 * (256 * rd m a + rd m (a + 1)) + rd m (a + 2)) + rd m (a + 3).
Proof.
  intros. rewrite bswap_load. cbn [load_be]. rewrite <- !Z.add_assoc. cbn [Z.add Pos.add Pos.succ Z.of_nat Pos.of_succ_nat].
  change (256 ^ 3) with 16777216. change (256 ^ 2) with 65536. change (256 ^ 1) with 256. change (256 ^ 0) with 1. lia.
Qed.

Lemma wp_check_char : forall w v n i c0 (Q : outcome -> Prop), wok w -> 0 <= v -> 0 <= i -> v + i + 4 <= 65536 * pages w ->
  match char_size (rd (mem w) (v + i)) (rd (mem w) (v + i + 1)) (rd (mem w) (v + i + 2)) (rd (mem w) (v + i + 3)) with
  | Some k => forall c, Q (OBr "loop" [] [v; n; i + k; c] w)
  | None => forall s c, Q (ORet (0 :: s) [v; n; i; c] w)
  end ->
  wp check_char Q [] [v; n; i; c0] w.
Proof.
  intros w v n i c0 Q Hw Hv Hi Hb. pose proof Hw as (P1&P2&P3&P4&P5&P6).
  pose proof (rd_range (mem w) (v + i)) as R0. pose proof (rd_range (mem w) (v + i + 1)) as R1.
  pose proof (rd_range (mem w) (v + i + 2)) as R2. pose proof (rd_range (mem w) (v + i + 3)) as R3.
  pose proof (load_range 2 (mem w) (v + i)) as L2. change (256 ^ Z.of_nat 2) with 65536 in L2.
  pose proof (load_range 4 (mem w) (v + i)) as L4. change (256 ^ Z.of_nat 4) with 4294967296 in L4.
  pose proof (be2 (mem w) (v + i)) as B2. pose proof (be4 (mem w) (v + i)) as B4.
  set (b0 := rd (mem w) (v + i)) in *. set (b1 := rd (mem w) (v + i + 1)) in *.
  set (b2 := rd (mem w) (v + i + 2)) in *. set (b3 := rd (mem w) (v + i + 3)) in *.
  unfold char_size. cbv zeta. intros H. unfold check_char. cbn [app].
  ws1. ws1. ws1. ws1. ws1. ws1. ws1. ws1. rewrite load_1. fold b0.
  apply wp_advance; [lia| |]; intros C1; rewrite C1 in H; [apply H|].
  ws1. ws1. ws1. ws1. wpure swap_i32_spec; [lia|]. ws1. ws1. change (2 ^ (16 mod bits I32)) with 65536. rewrite B2. ws1.
  ws1. ws1. ws1. apply wp_advance; [lia| |]; intros C2; rewrite C2 in H; [apply H|].
  apply wp_in_range. apply wp_matches. apply wp_advance; [lia| |]; intros C3; rewrite C3 in H; [apply H|].
  ws1. ws1. ws1. ws1. wpure swap_i32_spec; [lia|]. ws1. ws1. change (2 ^ (8 mod bits I32)) with 256. ws1. rewrite B4.
  replace ((256 * (256 * (256 * b0 + b1) + b2) + b3) / 256) with (256 * (256 * b0 + b1) + b2)
    by (Z.to_euclidean_division_equations; lia).
  apply wp_in_range. ws1.
  { rewrite C in H. ws1. ws1. apply H. }
  rewrite C in H. ws1.
  apply wp_in_range. apply wp_matches. apply wp_advance; [lia| |]; intros C5; rewrite C5 in H; [apply H|].
  ws1. ws1. ws1. ws1. wpure swap_i32_spec; [lia|]. ws1. rewrite B4.
  unfold in_range at 1. unfold matches. cbn [app].
  apply (wp_in_range 0xF0908080 0xF48FBFBF). apply (wp_matches 0xF8C0C0C0 0xF0808080). apply wp_advance; [lia| |]; intros C6; rewrite C6 in H; [apply H|].
  ws1. ws1. apply H.
Qed.

Lemma app_inj_length : forall (a b c d : list Z), List.length a = List.length c -> a ++ b = c ++ d -> a = c /\ b = d.
Proof.
  induction a as [|x a IH]; intros b [|y c] d L E; try discriminate; [auto|]. cbn [app List.length] in *.
  assert (x = y) by congruence. assert (E' : a ++ b = c ++ d) by congruence. destruct (IH b c d ltac:(lia) E'). subst. auto.
Qed.

(** Reading characters from [a] until [n] bytes are covered: all of them are well-formed. *)
Inductive scanned (m : memory) : Z -> Z -> Prop :=
| scan_end : forall a n, n <= 0 -> scanned m a n
| scan_char : forall a n x, 0 < n -> modified_char x -> bytes (List.length x) m a = x ->
    scanned m (a + Z.of_nat (List.length x)) (n - Z.of_nat (List.length x)) -> scanned m a n.

Lemma char_length : forall x, modified_char x -> 1 <= Z.of_nat (List.length x) <= 4.
Proof.
  intros x [->|(c&_&->)]; [cbn; lia|]. unfold utf8_char.
  destruct (c <? 0x80); [cbn; lia|]. destruct (c <? 0x800); [cbn; lia|]. destruct (c <? 0x10000); cbn; lia.
Qed.

Lemma first_bytes : forall k m a, (k <= 4)%nat -> firstn k [rd m a; rd m (a + 1); rd m (a + 2); rd m (a + 3)] = bytes k m a.
Proof.
  intros k m a H. destruct k as [|[|[|[|[|k]]]]]; [..|lia]; cbn [firstn bytes]; leq.
Qed.

Lemma check_utf8_spec : forall w v n, wok w -> 0 <= v -> 0 <= n -> load 4 (mem w) v = n -> v + 8 + n + 3 <= 65536 * pages w ->
  exists r, returns check_utf8 [v] w [r] w /\ (r = 1 /\ scanned (mem w) (v + 8) n \/ r = 0 /\ ~ scanned (mem w) (v + 8) n).
Proof.
  intros w v n Hw Hv Hn Ln Hb. pose proof Hw as (P1&P2&P3&P4&P5&P6).
  assert (W : wpf check_utf8 [v] w (resq (fun vs w' => w' = w /\
    (vs = [1] /\ scanned (mem w) (v + 8) n \/ vs = [0] /\ ~ scanned (mem w) (v + 8) n)) False)).
  2:{ apply wpf_returns in W. destruct W as (vs&w'&R&->&[[-> S]|[-> S]]); [exists 1|exists 0]; auto. }
  apply wpf_intro; [reflexivity|]; wc. ws1. ws1. rewrite Ln. ws1. ws1. ws1. ws1. ws1.
  eapply (wp_loop (fun k l w' => w' = w /\ exists i c, l = [v + 8; n; i; c] /\ 0 <= i /\ (i < n -> k = Z.to_nat (n - i)) /\
    (n <= i -> i <= n + 3 /\ k = O) /\
    (scanned (mem w) (v + 8) n <-> scanned (mem w) (v + 8 + i) (n - i)))).
  - split; [reflexivity|]. exists 0, 0. split; [reflexivity|]. split; [lia|]. split; [intros; reflexivity|].
    split; [intros; split; [lia|]; replace n with 0 by lia; reflexivity|].
    rewrite Z.add_0_r, Z.sub_0_r. tauto.
  - intros k l w' (->&i&c&->&Hi&K1&K2&S). ws1. ws1. ws1. ws1.
    + ws1. ws1. split; [reflexivity|]. left. split; [reflexivity|]. apply S. apply scan_end. lia.
    + assert (Hlt : i < n) by lia. specialize (K1 Hlt). apply wp_check_char; [exact Hw|lia|lia|lia|].
      pose proof (rd_range (mem w) (v + 8 + i)) as R0. pose proof (rd_range (mem w) (v + 8 + i + 1)) as R1.
      pose proof (rd_range (mem w) (v + 8 + i + 2)) as R2. pose proof (rd_range (mem w) (v + 8 + i + 3)) as R3.
      pose proof char_size_complete as Cc.
      destruct (char_size _ _ _ _) as [k'|] eqn:E.
      * destruct (char_size_sound _ _ _ _ _ R0 R1 R2 R3 E) as (x&Mx&Hk&Lx&Fx).
        rewrite first_bytes in Fx by lia.
        intros c'. wc. exists (if n <=? i + k' then O else Z.to_nat (n - (i + k'))). split; [destruct (n <=? i + k') eqn:D; lia|].
        split; [reflexivity|]. exists (i + k'), c'. split; [reflexivity|]. split; [lia|]. split; [intros; replace (n <=? i + k') with false by lia; reflexivity|].
        split; [intros; replace (n <=? i + k') with true by lia; split; [lia|reflexivity]|].
        rewrite S. replace (Z.to_nat k') with (List.length x) in Fx by lia.
        replace k' with (Z.of_nat (List.length x)) by lia. rewrite Z.add_assoc, Z.sub_add_distr. split.
        -- intros Sc. inversion Sc as [a0 n0 Q|a0 n0 y Q My By Sy]; subst; [lia|].
           assert (Ey : char_size (rd (mem w) (v + 8 + i)) (rd (mem w) (v + 8 + i + 1)) (rd (mem w) (v + 8 + i + 2)) (rd (mem w) (v + 8 + i + 3)) = Some (Z.of_nat (List.length y))).
           { apply Cc; try assumption. rewrite first_bytes; [exact By|]. pose proof (char_length y My). lia. }
           rewrite E in Ey. assert (Ly : List.length y = List.length x) by (injection Ey as Ey; lia). rewrite Ly in Sy. exact Sy.
        -- intros Sc. eapply scan_char; [lia|exact Mx|exact Fx|exact Sc].
      * intros s c'. wc. split; [reflexivity|]. right. split; [reflexivity|]. rewrite S. intros Sc.
        inversion Sc as [a0 n0 Q|a0 n0 y Q My By Sy]; subst; [lia|].
        assert (Ey : char_size (rd (mem w) (v + 8 + i)) (rd (mem w) (v + 8 + i + 1)) (rd (mem w) (v + 8 + i + 2)) (rd (mem w) (v + 8 + i + 3)) = Some (Z.of_nat (List.length y))).
        { apply Cc; try assumption. rewrite first_bytes; [exact By|]. pose proof (char_length y My). lia. }
        congruence.
Qed.

(** The scan accepts exactly the strings that up to three of the following bytes complete. *)
Lemma scanned_iff : forall m a n, scanned m a (Z.of_nat n) <-> exists k, (k <= 3)%nat /\ modified_utf8 (bytes (n + k) m a).
Proof.
  intros m a n. split.
  - intros H. remember (Z.of_nat n) as z eqn:E. revert n E. induction H as [a z Hz|a z x Hz Mx Bx Sc IH]; intros n E.
    + exists O. split; [lia|]. replace (n + 0)%nat with O by lia. exists []. split; [constructor|reflexivity].
    + pose proof (char_length x Mx) as Lx. destruct (le_lt_dec (List.length x) n) as [L|L].
      * destruct (IH (n - List.length x)%nat ltac:(lia)) as (k&Hk&xs&Fx&Ex). exists k. split; [exact Hk|].
        exists (x :: xs). split; [constructor; assumption|]. cbn [List.concat]. rewrite <- Ex, <- Bx at 1.
        replace (n + k)%nat with (List.length x + (n - List.length x + k))%nat by lia. rewrite bytes_app. rewrite Bx at 1. rewrite Bx. reflexivity.
      * exists (List.length x - n)%nat. split; [lia|]. exists [x]. split; [constructor; [assumption|constructor]|].
        cbn [List.concat]. rewrite app_nil_r. replace (n + (List.length x - n))%nat with (List.length x) by lia. exact Bx.
  - intros (k&Hk&xs&Fx&Ex). revert a n Ex. induction Fx as [|x xs Mx Fx IH]; intros a n Ex.
    + apply scan_end. assert (L : List.length (bytes (n + k) m a) = O) by (rewrite Ex; reflexivity). rewrite bytes_length in L. lia.
    + destruct n as [|n']; [apply scan_end; lia|]. remember (S n') as n eqn:En. pose proof (char_length x Mx) as Lx. cbn [List.concat] in Ex.
      assert (Ll : List.length (bytes (n + k) m a) = (List.length x + List.length (List.concat xs))%nat) by (rewrite Ex, app_length; reflexivity).
      rewrite bytes_length in Ll.
      replace (n + k)%nat with (List.length x + List.length (List.concat xs))%nat in Ex by lia. rewrite bytes_app in Ex.
      assert (Bx : bytes (List.length x) m a = x /\ bytes (List.length (List.concat xs)) m (a + Z.of_nat (List.length x)) = List.concat xs).
      { apply app_inj_length; [rewrite bytes_length; reflexivity|exact Ex]. }
      destruct Bx as [Bx By]. apply scan_char with x; [lia|exact Mx|exact Bx|].
      destruct (le_lt_dec (List.length x) n) as [L|L]; [|apply scan_end; lia].
      rewrite <- Nat2Z.inj_sub by lia. apply IH. replace (n - List.length x + k)%nat with (List.length (List.concat xs)) by lia. exact By.
Qed.

(** ** Boundaries *)

Lemma is_char_boundary_spec : forall w v s i, wok w -> byte_vec w v s -> 0 <= i < 2 ^ 32 ->
  exists r, returns is_char_boundary [v; i] w [r] w /\ (r = 1 /\ boundary s i \/ r = 0 /\ ~ boundary s i).
Proof.
  intros w v s i Hw (Lv&Ln&Bs) Hi. pose proof Hw as (P1&P2&P3&P4&P5&P6). unfold live in Lv.
  set (n := Z.of_nat (List.length s)) in *.
  assert (W : wpf is_char_boundary [v; i] w (resq (fun vs w' => w' = w /\
    (vs = [1] /\ boundary s i \/ vs = [0] /\ ~ boundary s i)) False)).
  2:{ apply wpf_returns in W. destruct W as (vs&w'&R&->&[[-> S]|[-> S]]); [exists 1|exists 0]; auto. }
  assert (F : forall b : bool, (b = true <-> boundary s i) -> [b2z b] = [1] /\ boundary s i \/ [b2z b] = [0] /\ ~ boundary s i).
  { intros [|] H; [left|right]; (split; [reflexivity|]); [tauto|]. intros B. apply H in B. discriminate. }
  assert (Hn : 0 <= n < 4294967296) by lia.
  apply wpf_intro; [reflexivity|]; wc. ws1. ws1. ws1. ws1. ws1. ws1. ws1. rewrite Ln. ws1. ws1. ws1. ws1.
  - ws1. ws1. ws1. ws1. ws1. split; [reflexivity|]. left. split; [reflexivity|]. left. lia.
  - ws1. ws1. ws1. ws1.
    + ws1. ws1. ws1. ws1. ws1. ws1. ws1. ws1. split; [reflexivity|]. apply F. unfold boundary. fold n. split.
      * intros E. right. left. lia.
      * intros [?|[?|[? _]]]; lia.
    + unfold vec_elem_ptr. cbn [app]. ws1. ws1. ws1. ws1. ws1. ws1. rewrite Z.mul_1_r. ws1. ws1. rewrite load_1.
      ws1. ws1. ws1. ws1. ws1. ws1. ws1. ws1. ws1. ws1. ws1. split; [reflexivity|]. apply F.
      pose proof (bytes_nth (List.length s) (mem w) (v + 8) (Z.to_nat i) ltac:(lia)) as Bn. rewrite Bs, Z2Nat.id in Bn by lia.
      rewrite <- Bn. pose proof (rd_range (mem w) (v + 8 + i)) as Rr. rewrite <- Bn in Rr.
      unfold boundary. fold n. set (b := nth (Z.to_nat i) s 0) in *. clear F. clearbody b.
      pose proof (upto_ok 256 (fun b => Bool.eqb (sgn I32 4294967232 <=? sgn I32 (w32 (Z.lxor b 128 - 128))) (negb ((0x80 <=? b) && (b <=? 0xBF)))) eq_refl b Rr) as U.
      cbv beta in U. apply Bool.eqb_prop in U. rewrite U. split.
      * intros E. right. right. split; [lia|]. lia.
      * intros [?|[?|[_ ?]]]; lia.
Qed.

(** ** Substrings *)

Lemma nth_firstn_lt : forall (l : list Z) n k d, (k < n)%nat -> nth k (firstn n l) d = nth k l d.
Proof.
  induction l as [|a l IH]; intros n k d H; [rewrite firstn_nil; reflexivity|].
  destruct n as [|n]; [lia|]. destruct k as [|k]; [reflexivity|]. cbn. apply IH. lia.
Qed.

Lemma nth_skipn : forall (l : list Z) n k d, nth k (skipn n l) d = nth (n + k) l d.
Proof.
  induction l as [|a l IH]; intros n k d; [rewrite skipn_nil; destruct k, (n + 0)%nat, n; reflexivity || (cbn; destruct (n + S k)%nat; reflexivity)|].
  destruct n as [|n]; [reflexivity|]. cbn. apply IH.
Qed.

Lemma sub_string_spec : forall w v s i j, wok w -> byte_vec w v s -> j - i < 2 ^ 31 - 8 -> 0 <= i <= j -> j <= Z.of_nat (List.length s) ->
  wpf sub_string [v; i; j] w (resq (fun vs w' => vs = [gnext w] /\ extends w w' /\ byte_vec w' (gnext w) (slice s i j)) (oom w (8 + (j - i)))).
Proof.
  intros w v s i j Hw (Lv&Ln&Bs) Hs Hi Hj. pose proof Hw as (P1&P2&P3&P4&P5&P6). unfold live in Lv.
  set (n := Z.of_nat (List.length s)) in *.
  apply wpf_intro; [reflexivity|]; wc. ws1. ws1. rewrite Ln. ws1. ws1. ws1. ws1. ws1. ws1. ws1. ws1. ws1. ws1. ws1.
  { exfalso. lia. }
  ws1. ws1. ws1. ws1.
  { exfalso. lia. }
  ws1. ws1. ws1. ws1. ws1. ws1. ws1. ws1. ws1.
  wcall allocate_vector_spec; [exact Hw|lia|lia|lia|lia|intros O; eapply oom_mono; [exact O|lia]|].
  intros vs w1 (->&X&G1&L1&L2&Zr). pose proof X as (Hw1&X1&X2&X3&X4&X5&X6). pose proof Hw1 as (Q1&Q2&Q3&Q4&Q5&Q6).
  wc. ws1. ws1. ws1. ws1. unfold vec_elem_ptr. cbn [app]. ws1. ws1. ws1. ws1. ws1. ws1. rewrite Z.mul_1_r. ws1. ws1. ws1. ws1. ws1.
  split; [reflexivity|].
  set (m := mcopy (mem w1) (gnext w + 8) (v + 8 + i) (j - i)).
  assert (X' : extends w (set_mem w1 m)).
  { apply extends_write with (gnext w + 8) (j - i); [exact Hw|exact X| |lia|lia]. intros x Hx. unfold m. apply rd_mcopy_out. unfold within in Hx. lia. }
  split; [exact X'|]. unfold byte_vec.
  assert (Ls : Z.of_nat (List.length (slice s i j)) = j - i).
  { unfold slice. rewrite firstn_length, skipn_length. lia. }
  rewrite Ls. cbn [gnext mem set_mem]. split; [unfold live; cbn [gnext set_mem]; lia|]. split.
  - rewrite <- L1. apply load_ext. intros k Hk. unfold m. apply rd_mcopy_out. lia.
  - apply nth_ext with (d := 0) (d' := 0); [apply bytes_length|]. rewrite bytes_length. intros k Hk.
    rewrite bytes_nth by lia. unfold m. rewrite rd_mcopy_in by lia. unfold slice.
    rewrite nth_firstn_lt by lia. rewrite nth_skipn.
    rewrite <- Bs, bytes_nth by lia. rewrite X6 by lia. f_equal. lia.
Qed.

(** Out of range: the execution traps. *)
Lemma sub_string_trap : forall w v s i j, wok w -> byte_vec w v s -> 0 <= i < 2 ^ 32 -> 0 <= j < 2 ^ 32 ->
  j < i \/ Z.of_nat (List.length s) < j -> traps sub_string [v; i; j] w.
Proof.
  intros w v s i j Hw (Lv&Ln&Bs) Hi Hj Hc. pose proof Hw as (P1&P2&P3&P4&P5&P6). unfold live in Lv.
  set (n := Z.of_nat (List.length s)) in *. apply wpf_traps.
  apply wpf_intro; [reflexivity|]; wc. ws1. ws1. rewrite Ln. ws1. ws1. ws1. ws1. ws1. ws1. ws1. ws1. ws1. ws1. ws1.
  { ws1. exact Logic.I. }
  ws1. ws1. ws1. ws1.
  { ws1. exact Logic.I. }
  exfalso. lia.
Qed.

(** ** Search *)

Lemma occurs_bytes : forall w v s p r i, byte_vec w v s -> byte_vec w p r ->
  (occurs r s i <-> (i + List.length r <= List.length s)%nat /\
     forall k, (k < List.length r)%nat -> rd (mem w) (v + 8 + Z.of_nat i + Z.of_nat k) = rd (mem w) (p + 8 + Z.of_nat k)).
Proof.
  intros w v s p r i (Lv&Ln&Bs) (Lp&Lm&Br). unfold occurs. split.
  - intros (Hl&E). split; [exact Hl|]. intros k Hk. transitivity (nth k r 0).
    + rewrite <- E. rewrite nth_firstn_lt by exact Hk. rewrite nth_skipn, <- Bs, bytes_nth by lia. f_equal. lia.
    + rewrite <- Br, bytes_nth by exact Hk. reflexivity.
  - intros (Hl&E). split; [exact Hl|]. apply nth_ext with (d := 0) (d' := 0); [rewrite firstn_length, skipn_length; lia|].
    intros k Hk. rewrite firstn_length, skipn_length in Hk. rewrite nth_firstn_lt by lia. rewrite nth_skipn.
    transitivity (rd (mem w) (v + 8 + Z.of_nat i + Z.of_nat k)).
    + rewrite <- Bs, bytes_nth by lia. f_equal. lia.
    + rewrite E by lia. rewrite <- Br, bytes_nth by lia. reflexivity.
Qed.

Lemma index_of_spec : forall w v s p r, wok w -> byte_vec w v s -> byte_vec w p r ->
  exists i : nat, returns index_of [v; p] w [Z.of_nat i] w /\
    (occurs r s i /\ (forall j, occurs r s j -> (i <= j)%nat) \/ i = List.length s /\ forall j, ~ occurs r s j).
Proof.
  intros w v s p r Hw Bv Bp. pose proof (fun i => occurs_bytes w v s p r i Bv Bp) as OB.
  destruct Bv as (Lv&Ln&Bs). destruct Bp as (Lp&Lm&Br). pose proof Hw as (P1&P2&P3&P4&P5&P6). unfold live in Lv, Lp.
  set (n := List.length s) in *. set (m := List.length r) in *.
  assert (W : wpf index_of [v; p] w (resq (fun vs w' => w' = w /\ exists i : nat, vs = [Z.of_nat i] /\
    (occurs r s i /\ (forall j, occurs r s j -> (i <= j)%nat) \/ i = n /\ forall j, ~ occurs r s j)) False)).
  2:{ apply wpf_returns in W. destruct W as (vs&w'&R&->&i&->&S). eauto. }
  apply wpf_intro; [reflexivity|]; wc. ws1. ws1. rewrite Ln. ws1. ws1. ws1. rewrite Lm. ws1. ws1. ws1. ws1.
  { ws1. ws1. split; [reflexivity|]. exists O. split; [reflexivity|]. left. split; [|intros; lia]. apply OB. split; [lia|intros; lia]. }
  ws1. ws1. ws1. ws1. ws1.
  { ws1. ws1. ws1. split; [reflexivity|]. exists n. split; [reflexivity|]. right. split; [reflexivity|]. intros j (Hj&_). fold n m in Hj. lia. }
  ws1. ws1. ws1. ws1. ws1. ws1. ws1.
  eapply (wp_loop (fun k l w' => w' = w /\ exists (i : nat) jj, l = [v; p; Z.of_nat n; Z.of_nat m; Z.of_nat i; jj; Z.of_nat n - Z.of_nat m] /\
    (i <= n - m)%nat /\ k = (n - m - i)%nat /\ forall j, (j < i)%nat -> ~ occurs r s j)).
  - split; [reflexivity|]. exists O, 0. split; [reflexivity|]. split; [lia|]. split; [reflexivity|]. intros; lia.
  - intros k l w' (->&i&jj&->&Hi&->&Hno). ws1. ws1.
    eapply (wp_loop (fun k l w' => w' = w /\ exists j : nat, l = [v; p; Z.of_nat n; Z.of_nat m; Z.of_nat i; Z.of_nat j; Z.of_nat n - Z.of_nat m] /\
      (j < m)%nat /\ k = (m - j)%nat /\
      forall q, (q < j)%nat -> rd (mem w) (v + 8 + Z.of_nat i + Z.of_nat q) = rd (mem w) (p + 8 + Z.of_nat q))).
    + split; [reflexivity|]. exists O. split; [reflexivity|]. split; [lia|]. split; [reflexivity|]. intros; lia.
    + intros k l w' (->&j&->&Hj&->&Hq). unfold vec_elem_ptr. cbn [app].
      ws1. ws1. ws1. ws1. ws1. ws1. rewrite Z.mul_1_r. ws1. ws1. ws1. ws1.
      ws1. ws1. ws1. ws1. ws1. ws1. rewrite Z.mul_1_r. ws1. ws1. ws1. rewrite !load_1. ws1.
      * ws1. ws1. ws1. ws1. ws1. ws1. ws1. ws1. ws1. ws1.
        -- exists (n - m - S i)%nat. split; [lia|]. split; [reflexivity|]. exists (S i), (Z.of_nat j). split; [leq|]. split; [lia|].
           split; [reflexivity|]. intros a Ha O. destruct (Nat.eq_dec a i) as [->|]; [|apply (Hno a); [lia|exact O]].
           apply OB in O. destruct O as (_&O). specialize (O j ltac:(fold m; lia)). lia.
        -- ws1. ws1. ws1. ws1. split; [reflexivity|]. exists n. split; [reflexivity|]. right. split; [reflexivity|]. intros a O.
           assert (a <= n - m)%nat by (destruct O as (O&_); fold n m in O; lia).
           destruct (Nat.eq_dec a i) as [->|]; [|apply (Hno a); [lia|exact O]].
           apply OB in O. destruct O as (_&O). specialize (O j ltac:(fold m; lia)). lia.
      * assert (Hq' : forall q, (q < S j)%nat -> rd (mem w) (v + 8 + Z.of_nat i + Z.of_nat q) = rd (mem w) (p + 8 + Z.of_nat q)).
        { intros q Hq1. destruct (Nat.eq_dec q j) as [->|]; [lia|apply Hq; lia]. }
        ws1. ws1. ws1. ws1. ws1. ws1. ws1. ws1.
        -- ws1. ws1. ws1. split; [reflexivity|]. exists i. split; [reflexivity|]. left. split.
           ++ apply OB. fold n m. split; [lia|]. intros q Hq1. apply Hq'. lia.
           ++ intros a O. destruct (le_lt_dec i a); [assumption|]. exfalso. exact (Hno a l O).
        -- ws1. exists (m - S j)%nat. split; [lia|]. split; [reflexivity|]. exists (S j). split; [leq|]. split; [lia|]. split; [reflexivity|exact Hq'].
Qed.
