(** * Custom errors: abi_types/error_encoding.rs and native_functions/abi_error.rs. *)

From Verif Require Import Tac RtAlloc RtErr RtInt RtInt2 RtEq RtMul RtDiv RtShift RtSwap RtAscii RtCopy Ops SpecAbi LemAbi SpecVal LemVal SpecSol RtAbi RtPack RtPack2 LemSol RtStor RtDyn SpecPublic.
Ltac Zify.zify_post_hook ::= idtac.

(** abi_types/error_encoding.rs 89-111: the fields of the struct in local 0, from index [i] on. *)
Fixpoint load_fields (i : Z) (fs : list aty) : list instr :=
  match fs with
  | [] => []
  | f :: fs' => [ LocalGet 0; Load 4 (4 * i) ] ++ (if is_stack (mty f) then [ Load (esize (mty f)) 0 ] else []) ++ load_fields (i + 1) fs'
  end.
(** abi_types/error_encoding.rs 77-86. *)
Fixpoint store_bytes (l : nat) (i : Z) (bs : list Z) : list instr :=
  match bs with [] => [] | b :: bs' => [ LocalGet l; Const b; Store 1 i ] ++ store_bytes l (i + 1) bs' end.

(** native_functions/abi_error.rs 20-66 [add_revert_fn] with abi_types/error_encoding.rs 52-148
    [build_custom_error_message], for an error with the selector [sel] and the fields [fs].  Locals: 0 error_struct_ptr,
    1 ptr, 2 and 3 the encoded fields and their length, 4 encoded_error_ptr. *)
Definition revert (ep : errtab) (sel : list Z) (fs : list aty) : func := Func 1 4 0
 ([ Const 8; Call alloc; LocalSet 1 ] ++ store_bytes 1 4 sel ++ load_fields 0 fs ++
  [ Call (encode_args ep fs); LocalSet 3; LocalSet 2;
    LocalGet 1; LocalGet 3; Const 4; Bin I32 Add; Store 4 0;
    LocalGet 1; LocalSet 4; Const 256; LocalGet 4; Store 4 0; Return ]).

Lemma load_fields_ok : forall fs i r (Q : outcome -> Prop) s l w vs x G, wok w -> nth_error l 0 = Some x -> 0 <= i ->
  0 <= x -> x + 4 * (i + Z.of_nat (List.length fs)) <= gnext w -> sub G (heap w) ->
  fields (map (fun t' => field_of (mem w) t' (vrep (mem w) t')) (map mty fs)) (mem w) vs (x + 4 * i) G ->
  (forall xs, represents w fs vs xs -> wp r Q (rev xs ++ s) l w) ->
  wp (load_fields i fs ++ r) Q s l w.
Proof.
  induction fs as [|f fs IH]; intros i r Q s l w vs x G Hw Lx Hi Hx Hg SG Fi K; pose proof Hw as (P1&P2&P3&P4&P5&P6).
  - destruct vs; [|contradiction Fi]. apply (K []). exact Logic.I.
  - destruct vs as [|v vs]; [contradiction Fi|]. cbn [map fields] in Fi. destruct Fi as (F1&F2&Fo&Fr&D&S1&S2).
    cbn [List.length] in Hg. cbn [load_fields]. rewrite <- !app_assoc. cbn [app].
    eapply wp_lget; [exact Lx|]. ws1.
    assert (Nx : forall x1, vrep (mem w) (mty f) v x1 (heap w) -> wp (load_fields (i + 1) fs ++ r) Q (x1 :: s) l w).
    { intros x1 V1. eapply (IH (i + 1) r Q (x1 :: s) l w vs x G); try assumption; try lia.
      - replace (x + 4 * (i + 1)) with (x + 4 * i + 4) by lia. eapply fields_mono; [exact S2|exact Fr].
      - intros xs R. specialize (K (x1 :: xs)). cbn [rev] in K. rewrite <- app_assoc in K. apply K. split; [exact V1|exact R]. }
    unfold field_of in Fo. destruct (is_stack (mty f)) eqn:Sk.
    + destruct Fo as [B I]. cbn [app].
      assert (Hq : 468 <= load 4 (mem w) (x + 4 * i) /\ load 4 (mem w) (x + 4 * i) + Z.of_nat (esize (mty f)) <= gnext w).
      { set (q := load 4 (mem w) (x + 4 * i)) in *. assert (0 < Z.of_nat (esize (mty f))) by (destruct (mty f); try discriminate; cbn; lia).
        pose proof (SG _ (S1 _ (B q ltac:(unfold between; lia)))) as A1. pose proof (SG _ (S1 _ (B (q + Z.of_nat (esize (mty f)) - 1) ltac:(unfold between; lia)))) as A2. unfold heap, between in *. lia. }
      ws1. apply Nx. apply stack_vrep; assumption.
    + cbn [app]. apply Nx. eapply vrep_mono; [|exact Fo]. eapply sub_trans; [exact S1|exact SG].
Qed.

Lemma bytes_at_cons : forall m a b l, rd m a = b -> bytes_at m (a + 1) l -> bytes_at m a (b :: l).
Proof. unfold bytes_at. intros m a b l E H. cbn [List.length bytes]. rewrite E, H. reflexivity. Qed.

Lemma store_bytes_ok : forall bs k i r (Q : outcome -> Prop) s l w P, nth_error l k = Some P -> 0 <= P -> 0 <= i -> Forall (fun b => 0 <= b < 256) bs ->
  P + i + lenz bs <= 65536 * pages w ->
  (forall m', (forall y, ~ (P + i <= y < P + i + lenz bs) -> rd m' y = rd (mem w) y) -> bytes_at m' (P + i) bs -> wp r Q s l (set_mem w m')) ->
  wp (store_bytes k i bs ++ r) Q s l w.
Proof.
  induction bs as [|b bs IH]; intros k i r Q s l w P Lk HP Hi Hb Hp K.
  - cbn [store_bytes app]. specialize (K (mem w)). destruct w. apply K; [intros; reflexivity|reflexivity].
  - unfold lenz in *. cbn [List.length] in *. inversion Hb as [|b0 l0 B1 B2]. subst b0 l0. cbn [store_bytes]. rewrite <- !app_assoc. cbn [app].
    eapply wp_lget; [exact Lk|]. ws1. ws1.
    eapply (IH k (i + 1) r Q s l (set_mem w (store 1 (mem w) (P + i) b)) P Lk); try assumption; try lia; [cbn [pages set_mem]; lia|].
    intros m' O B. cbn [mem set_mem] in O. change (wp r Q s l (set_mem w m')). apply K.
    + intros y Hy. rewrite O by lia. apply rd_store_out. lia.
    + apply bytes_at_cons; [|replace (P + i + 1) with (P + (i + 1)) by lia; exact B].
      rewrite O by lia. rewrite rd_store_in by lia. replace (P + i - (P + i)) with 0 by lia. change (256 ^ 0) with 1. rewrite Z.div_1_r. apply Z.mod_small. exact B1.
Qed.

Lemma revert_spec : forall ep sel fs vs x w, wok w -> errtab_ok ep -> abort_flag w = 0 -> List.length sel = 4%nat -> Forall (fun b => 0 <= b < 256) sel ->
  fold_right and True (map wf_aty fs) -> vrep (mem w) (TStruct false (map mty fs)) (VStruct 0 vs) x (heap w) ->
  let e := enc_args fs vs in lenz e < 2147483640 ->
  wpf (revert ep sel fs) [x] w (resq (fun rs w' => rs = [] /\ raised w w' (sel ++ e)) (oom w (8 + lenz e))).
Proof.
  intros ep sel fs vs x w Hw He Fl Ls Hs Wf V e Le. pose proof Hw as (P1&P2&P3&P4&P5&P6).
  assert (L0 : 0 <= lenz e) by (unfold lenz; lia).
  destruct V as (o&vs'&G&Ev&_&S1&S2&_&Fi). injection Ev as <- <-. rewrite map_length in S1.
  unfold revert. apply wpf_intro; [reflexivity|]. wc. ws1.
  wcall alloc_spec; [exact Hw|lia|unfold oom; lia|].
  intros vs0 w1 [-> A1]. pose proof (alloc_extends _ _ _ Hw A1 ltac:(lia)) as Ex1. destruct A1 as (Hw1&Em1&Mx1&Pg1&Gn1&Gc1&Hh1). pose proof Hw1 as (Q1&Q2&Q3&Q4&Q5&Q6).
  set (g := gnext w) in *. wc. ws1.
  assert (Bs : forall y, between x (x + 4 * Z.of_nat (List.length fs)) y -> 468 <= y < g) by (intros y Hy; apply S1 in Hy; exact Hy).
  assert (Hx : fs = [] \/ 468 <= x /\ x + 4 * Z.of_nat (List.length fs) <= g).
  { destruct fs as [|f fs']; [left; reflexivity|right]. cbn [List.length] in *. pose proof (Bs x ltac:(unfold between; lia)). pose proof (Bs (x + 4 * Z.of_nat (S (List.length fs')) - 1) ltac:(unfold between; lia)). lia. }
  rewrite <- ?app_assoc.
  eapply (store_bytes_ok sel 1 4 _ _ _ _ _ g); [reflexivity|lia|lia|exact Hs|unfold lenz; rewrite Ls; lia|].
  intros m1 O1 B1. rewrite Em1 in O1. unfold lenz in O1. rewrite Ls in O1. change (Z.of_nat 4) with 4 in O1.
  set (w2 := set_mem w1 m1).
  assert (Hw2 : wok w2) by (apply wok_set_mem; [exact Hw1|]; intros; rewrite Em1; apply O1; lia).
  assert (Ex2 : extends w w2).
  { unfold extends, w2. cbn [mem pages maxpages gnext gcd host set_mem]. split; [exact Hw2|]. repeat (split; [assumption||lia|]). intros. apply O1. lia. }
  assert (K : forall xs, represents w2 fs vs xs -> wp
    ([ Call (encode_args ep fs); LocalSet 3; LocalSet 2; LocalGet 1; LocalGet 3; Const 4; Bin I32 Add; Store 4 0;
       LocalGet 1; LocalSet 4; Const 256; LocalGet 4; Store 4 0; Return ])
    (fret 0 (fun rs w' => rs = [] /\ raised w w' (sel ++ e)) (oom w (8 + lenz e))) (rev xs ++ []) [x; g; 0; 0; 0] w2).
  { intros xs R. pose proof (represents_length _ _ _ _ R) as Lx.
    assert (Fl2 : abort_flag w2 = 0).
    { rewrite <- Fl. unfold abort_flag. apply load_ext. change (Z.of_nat 4) with 4. intros. apply O1. lia. }
    eapply wp_call_spec; [reflexivity|rewrite app_nil_r, rev_length; lia| | |].
    - rewrite app_nil_r, <- Lx, <- (rev_length xs), firstn_all, rev_involutive.
      eapply build_pack_spec; [apply skips_propagate|apply skips_propagate|exact Hw2|exact Fl2|exact Wf|exact R|fold (enc_args fs vs); fold e; lia].
    - intros O. cbn [fret resq]. fold (enc_args fs vs) in O. fold e in O. unfold oom in *. cbn [gnext maxpages w2 set_mem] in O. lia.
    - intros rs w3 (->&Ex3&G3&B3). fold (enc_args fs vs) in *. fold e in G3, B3 |- *.
      rewrite app_nil_r, <- Lx, <- (rev_length xs), skipn_all. cbn [app].
      pose proof Ex3 as (Hw3&Mx3&Pg3&Gl3&Gc3&Hh3&O3). pose proof Hw3 as (R1&R2&R3&R4&R5&R6).
      change (gnext w2) with (gnext w1) in *. change (pages w2) with (pages w1) in *. change (maxpages w2) with (maxpages w1) in *. change (host w2) with (host w1) in *. change (mem w2) with m1 in *.
      rewrite Gn1 in *.
      ws1. ws1. ws1. ws1. ws1. ws1.
      ws1. ws1. ws1. ws1. ws1. ws1.
      set (m2 := store 4 (mem w3) (g + 0) (lenz e + 4)). apply wp_ret. cbn [fret resq].
      match goal with |- context [raised w (set_mem ?w4 ?m) _] => set (m3 := m) end.
      split; [reflexivity|].
      assert (O4 : forall y, ~ within 256 4 y -> ~ (g <= y < g + 4) -> rd m3 y = rd (mem w3) y).
      { intros y Y1 Y2. unfold within in Y1. unfold m3. rewrite rd_store_out by lia. unfold m2. cbn [mem set_mem]. apply rd_store_out. lia. }
      assert (Hl : lenz (sel ++ e) = 4 + lenz e) by (unfold lenz; rewrite app_length, Ls; lia).
      unfold raised. rewrite Hl. cbn [mem host maxpages set_mem].
      split; [|split; [|split; [|split; [|split; [|split; [|split]]]]]].
      + change (wok (set_mem w3 m3)). apply wok_set_mem; [exact Hw3|]. intros y Hy. apply O4; unfold within; lia.
      + rewrite Hh3. exact Hh1.
      + lia.
      + unfold abort_flag. cbn [mem set_mem]. unfold m3. replace (256 + 0) with 256 by lia. rewrite (load_store_same 4). apply Z.mod_small. change (256 ^ Z.of_nat 4) with 4294967296. lia.
      + unfold live. cbn [gnext set_mem]. lia.
      + unfold m3. rewrite load_store_other by lia. unfold m2. cbn [mem set_mem]. replace (g + 0) with g by lia. rewrite (load_store_same 4). rewrite Z.mod_small by (change (256 ^ Z.of_nat 4) with 4294967296; lia). lia.
      + apply bytes_at_app. split.
        * eapply bytes_at_ext; [|exact B1]. unfold lenz. rewrite Ls. change (Z.of_nat 4) with 4. intros y Hy. rewrite O4 by (unfold within; lia). apply O3. lia.
        * unfold lenz. rewrite Ls. change (Z.of_nat 4) with 4. fold g. replace (g + 4 + 4) with (g + 8) by lia. eapply bytes_at_ext; [|exact B3]. intros y Hy. apply O4; unfold within; lia.
      + intros y Y1 Y2. rewrite O4 by (assumption || lia). rewrite O3 by lia. apply O1. lia. }
  destruct Hx as [->|Hx].
  - cbn [load_fields app]. destruct vs as [|v vs]; [|contradiction Fi]. apply (K []). exact Logic.I.
  - eapply (load_fields_ok fs 0 _ _ _ _ _ vs x G); [exact Hw2|reflexivity|lia|lia|cbn [w2 gnext set_mem]; lia| | |exact K].
    + intros y Hy. apply S2 in Hy. unfold heap, between, w2 in *. cbn [gnext set_mem]. fold g in Hy. lia.
    + replace (x + 4 * 0) with x by lia. eapply fields_extends; [exact Ex2|exact S2|lia|rewrite map_length; apply Hx|exact Fi].
Qed.
