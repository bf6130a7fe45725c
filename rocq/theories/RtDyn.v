(** * Native functions of dynamic fields. *)

From Verif Require Import Tac RtAlloc RtErr RtInt RtInt2 RtEq RtMul RtDiv RtShift RtSwap RtAscii RtCopy Ops SpecAbi LemAbi SpecVal LemVal SpecSol RtPack SpecStor RtStor SpecDyn.
Ltac Zify.zify_post_hook ::= idtac.

(** native_functions/dynamic_field.rs 493-682 [copy_data_to_memory]: the locals it adds. *)
Fixpoint key_locals (t : ty) : nat :=
  match t with
  | TVec t' => 3 + key_locals t'
  | TStruct _ fs => 2 + fold_right (fun f n => key_locals f + n) 0 fs
  | _ => 0
  end%nat.

(** native_functions/dynamic_field.rs 580-606: the fields of a struct, each loaded into local [n] (i32) or [n+1] (i64). *)
Definition key_fields (code : ty -> nat -> nat -> list instr) (d n : nat) :=
  fix go (fs : list ty) (i : Z) (k : nat) {struct fs} : list instr :=
    match fs with
    | [] => []
    | f :: fs' =>
        let fd := match f with TU64 => S n | _ => n end in
        [ LocalGet d; Load 4 (4 * i) ] ++ (if is_stack f then [ Load (esize f) 0 ] else []) ++ [ LocalSet fd ] ++
        code f fd k ++ go fs' (i + 1) (k + key_locals f)%nat
    end.

(** native_functions/dynamic_field.rs 493-682 [copy_data_to_memory] for data in local [d], adding locals
    from [n] on; a vector's length, index and element 608-673 are in [n], [n+1] and [n+2].  Enums are
    rejected by the compiler (678). *)
Fixpoint key_code (t : ty) (d n : nat) {struct t} : list instr :=
  match t with
  | TBool | TU8 | TU16 | TU32 | TU64 => [ Const (Z.of_nat (esize t)); Call alloc; LocalGet d; Store (esize t) 0 ]
  | TU128 => [ Const 16; Call alloc; LocalGet d; Const 16; MemCopy ]
  | TU256 | TAddress => [ Const 32; Call alloc; LocalGet d; Const 32; MemCopy ]
  | TStruct _ fs => key_fields key_code d n fs 0 (S (S n))
  | TVec t' =>
      [ LocalGet d; Load 4 0; LocalSet n; Const 0; LocalSet (S n); LocalGet d; Const 8; Bin I32 Add; LocalSet d;
        Block "b" 0 [ Loop "l" 0 (
          [ LocalGet d; Const (Z.of_nat (esize t')); LocalGet (S n); Bin I32 Mul; Bin I32 Add; Load (esize t') 0; LocalSet (S (S n)) ] ++
          key_code t' (S (S n)) (S (S (S n))) ++
          [ LocalGet (S n); LocalGet n; Const 1; Bin I32 Sub; Bin I32 Eq; BrIf "b";
            LocalGet (S n); Const 1; Bin I32 Add; LocalSet (S n); Br "l" ]) ] ]
  | TEnum _ => []
  end.

(** native_functions/dynamic_field.rs 461-472: the bytes of the type name. *)
Definition name_code (name : list Z) : list instr := List.concat (map (fun c => [ Const 1; Call alloc; Const c; Store 1 0 ]) name).

(** native_functions/dynamic_field.rs 412-491 [add_hash_type_and_key_fn] for a name of type [t], whose type
    has the name [name]. *)
Definition hash_type_and_key (t : ty) (name : list Z) : func := Func 2 (2 + key_locals t) 1
  ([ Const 32; Call alloc; LocalSet 2; LocalGet 2; LocalGet 0; Const 32; MemCopy ] ++ key_code t 1 4 ++ name_code name ++
   [ LocalGet 2; Const 0; Call alloc; LocalGet 2; Bin I32 Sub; Const 32; Call alloc; LocalTee 3; Host H_keccak; LocalGet 3 ]).

(** ** Serialising a name *)

Definition wrote (w w' : world) (b : list Z) : Prop := extends w w' /\ gnext w' = gnext w + lenz b /\ bytes_at (mem w') (gnext w) b.

Lemma wrote_app : forall w w1 w2 a b, wok w -> wrote w w1 a -> wrote w1 w2 b -> wrote w w2 (a ++ b).
Proof.
  intros w w1 w2 a b Hw (E1&G1&B1) (E2&G2&B2). split; [eapply extends_trans; eauto|]. rewrite lenz_app. split; [lia|].
  apply bytes_at_app. split; [|rewrite <- G1; exact B2].
  eapply bytes_at_ext; [|exact B1]. intros x Hx. destruct Hw as (_&_&Hg&_). apply E2. lia.
Qed.

Lemma wrote_nil : forall w, wok w -> wrote w w [].
Proof. intros w Hw. split; [apply extends_refl; exact Hw|]. split; [cbn; lia|reflexivity]. Qed.

Definition key_ok (t : ty) : Prop := forall d n r (Q : outcome -> Prop) s l w v x F, wok w -> nth_error l d = Some x -> (d < n)%nat ->
  (n + key_locals t <= List.length l)%nat -> vrep (mem w) t v x F -> sub F (heap w) -> full v ->
  (oom w (lenz (key_bytes t v)) -> Q OTrap) ->
  (forall l' w', wrote w w' (key_bytes t v) -> List.length l' = List.length l ->
     (forall j, (j < n)%nat -> j <> d -> nth_error l' j = nth_error l j) -> wp r Q s l' w') ->
  wp (key_code t d n ++ r) Q s l w.

Lemma le_bytes_length : forall n v, List.length (le_bytes n v) = n.
Proof. induction n; intros; cbn [le_bytes List.length]; [reflexivity|rewrite IHn; reflexivity]. Qed.
Lemma le_bytes_load : forall n m a, le_bytes n (load n m a) = bytes n m a.
Proof.
  induction n; intros; cbn [le_bytes load bytes]; [reflexivity|]. pose proof (rd_range m a) as R. f_equal.
  - rewrite Z.mul_comm, Z_mod_plus_full. apply Z.mod_small. exact R.
  - rewrite <- IHn. f_equal. rewrite Z.mul_comm, Z.div_add by lia. rewrite Z.div_small by exact R. reflexivity.
Qed.

(** [n] bytes copied behind the heap. *)
Lemma wp_key_copy : forall n d x r (Q : outcome -> Prop) s l w, wok w -> nth_error l d = Some x -> live w x (Z.of_nat n) -> Z.of_nat n < 2147483648 ->
  (oom w (Z.of_nat n) -> Q OTrap) -> (forall w', wrote w w' (bytes n (mem w) x) -> wp r Q s l w') ->
  wp ([ Const (Z.of_nat n); Call alloc; LocalGet d; Const (Z.of_nat n); MemCopy ] ++ r) Q s l w.
Proof.
  intros n d x r Q s l w Hw Hd Lx Hn T K. pose proof Hw as (P1&P2&P3&P4&P5&P6). cbn [app]. ws1.
  wcall alloc_spec; [exact Hw|lia|exact T|]. intros vs w1 (->&Al). cbn [app]. pose proof (alloc_extends _ _ _ Hw Al ltac:(lia)) as Ex.
  destruct Al as (Hw1&Em&A1&A2&A3&A4&A5). pose proof Hw1 as (Q1&Q2&Q3&Q4&Q5&Q6). unfold live in Lx.
  eapply wp_lget; [exact Hd|]. ws1. apply wp_mcopy; [lia|unfold page_size; lia|lia|unfold page_size; lia|]. apply K.
  assert (Lz : lenz (bytes n (mem w) x) = Z.of_nat n) by (unfold lenz; rewrite bytes_length; reflexivity).
  split; [|split; [rewrite Lz; exact A3|]].
  - eapply extends_write; [exact Hw|exact Ex|intros a Na; apply rd_mcopy_frame; exact Na| |]; lia.
  - unfold bytes_at. rewrite bytes_length. cbn [mem set_mem]. apply bytes_ext. intros i Hi. rewrite rd_mcopy_in by lia. rewrite Em. f_equal. lia.
Qed.

Lemma int_key : forall t v x, is_stack t = true -> int_val t v x -> key_bytes t v = le_bytes (esize t) x /\ 0 <= x < 256 ^ Z.of_nat (esize t).
Proof. intros t v x St (->&H). destruct t; try discriminate; cbn in *; split; try reflexivity; lia. Qed.

Lemma key_stack : forall t, is_stack t = true -> key_ok t.
Proof.
  intros t St d n r Q s l w v x F Hw Hd Dn Ln V SF Fu T K. assert (V' : int_val t v x) by (destruct t; try discriminate; exact V). clear V. rename V' into V. destruct (int_key t v x St V) as (Eb&Hx).
  assert (El : lenz (key_bytes t v) = Z.of_nat (esize t)) by (rewrite Eb; unfold lenz; rewrite le_bytes_length; reflexivity).
  assert (Ec : key_code t d n = [ Const (Z.of_nat (esize t)); Call alloc; LocalGet d; Store (esize t) 0 ]) by (destruct t; try discriminate; reflexivity).
  pose proof (esize_range t) as Es. rewrite Ec. pose proof Hw as (P1&P2&P3&P4&P5&P6). cbn [app]. ws1.
  wcall alloc_spec; [exact Hw|lia|rewrite <- El; exact T|]. intros vs w1 (->&Al). cbn [app]. pose proof (alloc_extends _ _ _ Hw Al ltac:(lia)) as Ex.
  destruct Al as (Hw1&Em&A1&A2&A3&A4&A5). pose proof Hw1 as (Q1&Q2&Q3&Q4&Q5&Q6).
  eapply wp_lget; [exact Hd|]. apply wp_store; [lia|unfold page_size; lia|]. rewrite Z.add_0_r. apply K; [|reflexivity|reflexivity].
  split; [|split; [rewrite El; exact A3|]].
  - apply (extends_write w w1 _ (gnext w) (Z.of_nat (esize t))); [exact Hw|exact Ex|intros a Na; apply rd_store_out; unfold within in Na; lia| |]; lia.
  - unfold bytes_at. rewrite Eb, le_bytes_length. cbn [mem set_mem]. rewrite <- le_bytes_load. f_equal. rewrite load_store_same. apply Z.mod_small. exact Hx.
Qed.

Lemma key_u128 : key_ok TU128.
Proof.
  intros d n r Q s l w v x F Hw Hd Dn Ln (V&Sx) SF Fu T K. destruct V as (->&_). cbn [key_bytes int_size] in *. rewrite le_bytes_load in *.
  destruct (sub_live x 16 F w Sx SF ltac:(lia)) as (X1&X2). change (key_code TU128 d n) with ([ Const (Z.of_nat 16); Call alloc; LocalGet d; Const (Z.of_nat 16); MemCopy ]).
  eapply wp_key_copy; [exact Hw|exact Hd|unfold live; lia|lia|exact T|]. intros w' W. apply K; auto.
Qed.
Lemma key_u256 : key_ok TU256.
Proof.
  intros d n r Q s l w v x F Hw Hd Dn Ln (V&Sx) SF Fu T K. destruct V as (->&_). cbn [key_bytes int_size] in *. rewrite le_bytes_load in *.
  destruct (sub_live x 32 F w Sx SF ltac:(lia)) as (X1&X2). change (key_code TU256 d n) with ([ Const (Z.of_nat 32); Call alloc; LocalGet d; Const (Z.of_nat 32); MemCopy ]).
  eapply wp_key_copy; [exact Hw|exact Hd|unfold live; lia|lia|exact T|]. intros w' W. apply K; auto.
Qed.
Lemma key_address : key_ok TAddress.
Proof.
  intros d n r Q s l w v x F Hw Hd Dn Ln (V&Sx) SF Fu T K. destruct V as (->&_). cbn [key_bytes int_size] in *. rewrite be_bytes_load_be in *.
  destruct (sub_live x 32 F w Sx SF ltac:(lia)) as (X1&X2). change (key_code TAddress d n) with ([ Const (Z.of_nat 32); Call alloc; LocalGet d; Const (Z.of_nat 32); MemCopy ]).
  eapply wp_key_copy; [exact Hw|exact Hd|unfold live; lia|lia|exact T|]. intros w' W. apply K; auto.
Qed.

(** *** Structs *)

Fixpoint fields_bytes (fs : list ty) (l : list val) : list Z :=
  match fs, l with f :: fs', v :: l' => key_bytes f v ++ fields_bytes fs' l' | _, _ => [] end.
Lemma key_struct_bytes : forall k fs o l, key_bytes (TStruct k fs) (VStruct o l) = fields_bytes fs l.
Proof. intros k fs o l. cbn [key_bytes]. revert l. induction fs; intros [|v l]; cbn [fields_bytes]; auto; f_equal; apply IHfs. Qed.

Definition keys_locals (fs : list ty) : nat := fold_right (fun f n => key_locals f + n)%nat 0%nat fs.

Lemma oom_wrote : forall w w1 a n k, wrote w w1 a -> oom w1 n -> lenz a + n <= k -> oom w k.
Proof. intros w w1 a n k ((_&E&_)&G&_) O H. unfold oom in *. lia. Qed.

Lemma fields_extends : forall w w' fs vs a F, extends w w' -> sub F (heap w) -> 0 <= a -> a + 4 * Z.of_nat (List.length fs) <= gnext w ->
  fields (map (fun t' => field_of (mem w) t' (vrep (mem w) t')) fs) (mem w) vs a F ->
  fields (map (fun t' => field_of (mem w') t' (vrep (mem w') t')) fs) (mem w') vs a F.
Proof.
  intros w w' fs vs a F Ex SF H0 Ha. apply fields_ext.
  - apply Forall2_map. apply Forall_forall. intros t' _ v' x' G SG. apply field_of_ext; [apply vrep_ext|].
    apply agree_extends; [exact Ex|eapply sub_trans; eassumption].
  - rewrite map_length. intros x Hx. apply Ex. lia.
Qed.

Lemma key_fields_ok : forall d n fs, Forall key_ok fs -> forall i k r (Q : outcome -> Prop) s l w x vs F, wok w -> nth_error l d = Some x ->
  (d < n)%nat -> (S (S n) <= k)%nat -> (k + keys_locals fs <= List.length l)%nat -> 0 <= i ->
  0 <= x -> x + 4 * i + 4 * Z.of_nat (List.length fs) <= gnext w -> 
  fields (map (fun t' => field_of (mem w) t' (vrep (mem w) t')) fs) (mem w) vs (x + 4 * i) F -> sub F (heap w) -> fold_right and True (map full vs) ->
  (oom w (lenz (fields_bytes fs vs)) -> Q OTrap) ->
  (forall l' w', wrote w w' (fields_bytes fs vs) -> List.length l' = List.length l ->
     (forall j, (j < n)%nat -> nth_error l' j = nth_error l j) -> wp r Q s l' w') ->
  wp (key_fields key_code d n fs i k ++ r) Q s l w.
Proof.
  intros d n fs Hf. induction Hf as [|f fs IHf Hf IH]; intros i k r Q s l w x vs F Hw Hd Dn Nk Lk Hi Hx Lx Fd SF Fu T K.
  - apply K; [|reflexivity|reflexivity]. destruct vs; apply wrote_nil; exact Hw.
  - destruct vs as [|v vs]; [contradiction|]. cbn [map fields] in Fd. destruct Fd as (F1&F2&R1&R2&D12&S1&S2). cbn [map fold_right] in Fu. destruct Fu as (Fv&Fu).
    cbn [fields_bytes] in T, K. cbn [keys_locals fold_right] in Lk. fold (keys_locals fs) in Lk. cbn [List.length] in Lx.
    pose proof Hw as (P1&P2&P3&P4&P5&P6). cbn [key_fields]. fold (key_fields key_code d n). cbn zeta.
    set (fd := match f with TU64 => S n | _ => n end). assert (Hfd : (n <= fd <= S n)%nat) by (unfold fd; destruct f; lia).
    rewrite <- !app_assoc. cbn [app]. eapply wp_lget; [exact Hd|]. apply wp_load; [lia|unfold page_size; lia|].
    set (q := load 4 (mem w) (x + 4 * i)) in *.
    assert (Fin : forall y, vrep (mem w) f v y F1 -> wp (LocalSet fd :: key_code f fd k ++ key_fields key_code d n fs (i + 1) (k + key_locals f)%nat ++ r) Q (y :: s) l w).
    { intros y V. apply wp_lset'; [lia|].
      eapply (IHf fd k _ Q s (set_nth fd y l) w v y F1); [exact Hw|apply set_nth_same; lia|lia|rewrite set_nth_length; lia|exact V|eapply sub_trans; eassumption|exact Fv| |].
      - intros O. apply T. eapply oom_mono; [exact O|]. rewrite lenz_app. pose proof (lenz_nonneg (fields_bytes fs vs)). lia.
      - intros l1 w1 W1 Ln1 U1. rewrite set_nth_length in Ln1. pose proof W1 as (Ex&G1&_). pose proof Ex as (Hw1&_).
        eapply (IH (i + 1) (k + key_locals f)%nat r Q s l1 w1 x vs F2); [exact Hw1| |exact Dn|lia|lia|lia|exact Hx|pose proof (lenz_nonneg (key_bytes f v)); lia| |
          |exact Fu| |].
        + rewrite U1 by lia. rewrite set_nth_other by lia. exact Hd.
        + replace (x + 4 * (i + 1)) with (x + 4 * i + 4) by lia. eapply fields_extends; [exact Ex|eapply sub_trans; eassumption|lia|lia|exact R2].
        + eapply sub_trans; [exact S2|]. eapply sub_trans; [exact SF|]. apply between_sub; [lia|pose proof (lenz_nonneg (key_bytes f v)); lia].
        + intros O. apply T. rewrite lenz_app. eapply oom_wrote; [exact W1|exact O|lia].
        + intros l2 w2 W2 Ln2 U2. apply K; [eapply wrote_app; eassumption|lia|]. intros j Hj. rewrite U2 by exact Hj. rewrite U1 by lia. apply set_nth_other. lia. }
    unfold field_of in R1. destruct (is_stack f) eqn:St.
    + destruct R1 as (Sq&Iv). pose proof (esize_range f) as Es. destruct (sub_live q (Z.of_nat (esize f)) F1 w) as (B1&B2); [exact Sq|eapply sub_trans; eassumption|lia|].
      cbn [app]. apply wp_load; [lia|unfold page_size; lia|]. rewrite Z.add_0_r. apply Fin. apply stack_vrep; assumption.
    + cbn [app]. apply Fin. exact R1.
Qed.

Lemma key_struct : forall k fs, Forall key_ok fs -> key_ok (TStruct k fs).
Proof.
  intros k fs Hf d n r Q s l w v x F Hw Hd Dn Ln V SF Fu T K. cbn [vrep] in V. destruct V as (o&vs&G&->&_&Sx&SG&_&Fd).
  rewrite key_struct_bytes in *. cbn [key_code key_locals full] in *. fold (keys_locals fs) in Ln.
  assert (B : fs = [] \/ 468 <= (if k then x - 32 else x) /\ x + 4 * Z.of_nat (List.length fs) <= gnext w).
  { destruct fs as [|f fs']; [left; reflexivity|right]. eapply sub_trans in SF; [|exact Sx]. apply (sub_block _ _ _ _ SF). cbn [List.length]. destruct k; lia. }
  destruct B as [->|B].
  { destruct vs; [|contradiction]. cbn [key_fields app]. apply K; [apply wrote_nil; exact Hw|reflexivity|reflexivity]. }
  eapply (key_fields_ok d n fs Hf 0 (S (S n)) r Q s l w x vs G); try assumption; try lia; [destruct k; lia|rewrite Z.add_0_r; exact Fd|eapply sub_trans; eassumption|].
  intros l' w' W L U. apply K; auto.
Qed.

(** *** Vectors *)

Lemma firstn_concat : forall (f : val -> list Z) l i v, nth_error l i = Some v -> List.concat (map f (firstn (S i) l)) = List.concat (map f (firstn i l)) ++ f v.
Proof. intros f l i v E. rewrite (RtCopy.firstn_snoc _ _ _ E), map_app, concat_app. cbn [map List.concat]. rewrite app_nil_r. reflexivity. Qed.
Lemma lenz_firstn : forall (f : val -> list Z) l i, lenz (List.concat (map f (firstn i l))) <= lenz (List.concat (map f l)).
Proof. intros f l i. rewrite <- (firstn_skipn i l) at 2. rewrite map_app, concat_app, lenz_app. pose proof (lenz_nonneg (List.concat (map f (skipn i l)))). lia. Qed.

Lemma full_nth : forall l i v, fold_right and True (map full l) -> nth_error l i = Some v -> full v.
Proof. induction l; intros [|i] v; cbn; try discriminate; intros (A&B) E; [injection E as <-; exact A|eauto]. Qed.

Lemma key_vec : forall t, key_ok t -> key_ok (TVec t).
Proof.
  intros t IH d n r Q s l w v x F Hw Hd Dn Ln V SF Fu T K. cbn [vrep] in V. destruct V as (vs&cap&G&->&L1&L2&L3&L4&Sx&SG&DG&El).
  cbn [key_bytes full key_locals] in *. destruct Fu as (Ne&Fu). pose proof Hw as (P1&P2&P3&P4&P5&P6). pose proof (esize_range t) as Hs.
  set (es := esize t) in *. set (len := List.length vs) in *. assert (Hlen : 1 <= Z.of_nat len) by (destruct vs; [contradiction|cbn in len; lia]).
  destruct (sub_live x (8 + cap * Z.of_nat es) F w) as (X1&X2); [rewrite Z.add_assoc; exact Sx|exact SF|nia|].
  assert (Hcs : forall i, (i < len)%nat -> 0 <= Z.of_nat i * Z.of_nat es /\ Z.of_nat i * Z.of_nat es + Z.of_nat es <= cap * Z.of_nat es) by (intros i Hi; nia).
  assert (Hc : Z.of_nat len < 2147483648) by nia. assert (Hcn : 0 <= cap * Z.of_nat es) by nia.
  cbn [key_code]. fold es. cbn [app]. eapply wp_lget; [exact Hd|]. apply wp_load; [lia|unfold page_size; lia|]. rewrite Z.add_0_r, L1.
  apply wp_lset'; [lia|]. ws1. apply wp_lset'; [rewrite set_nth_length; lia|]. 
  eapply wp_lget; [rewrite !set_nth_other by lia; exact Hd|]. ws1. eapply wp_bin; [cbn [binop wrapt]; reflexivity|]. rewrite w32_small by lia.
  apply wp_lset'; [rewrite !set_nth_length; lia|].
  match goal with |- wp _ _ _ ?L _ => set (l1 := L) end.
  assert (Len1 : List.length l1 = List.length l) by (unfold l1; rewrite !set_nth_length; reflexivity).
  assert (D1 : nth_error l1 d = Some (x + 8)) by (unfold l1; apply set_nth_same; rewrite !set_nth_length; lia).
  assert (N1 : nth_error l1 n = Some (Z.of_nat len)) by (unfold l1; rewrite !set_nth_other by lia; apply set_nth_same; lia).
  assert (I1 : nth_error l1 (S n) = Some 0) by (unfold l1; rewrite set_nth_other by lia; apply set_nth_same; rewrite set_nth_length; lia).
  assert (U1 : forall j, (j < n)%nat -> j <> d -> nth_error l1 j = nth_error l j) by (intros j J1 J2; unfold l1; rewrite !set_nth_other by lia; reflexivity).
  clearbody l1. apply wp_block.
  set (B := fun i => List.concat (map (key_bytes t) (firstn i vs))).
  eapply (wp_loop (fun f l' wi => exists i, f = (len - i)%nat /\ (i < len)%nat /\ List.length l' = List.length l /\ nth_error l' d = Some (x + 8) /\
     nth_error l' n = Some (Z.of_nat len) /\ nth_error l' (S n) = Some (Z.of_nat i) /\ (forall j, (j < n)%nat -> j <> d -> nth_error l' j = nth_error l j) /\
     wrote w wi (B i)) len).
  { exists 0%nat. rewrite Nat.sub_0_r. split; [reflexivity|]. split; [lia|]. repeat (split; [assumption|]). apply wrote_nil. exact Hw. }
  intros f l' wi (i&->&Hi&L'&D'&N'&I'&U'&W). pose proof W as (Ex&Gi&_). pose proof Ex as (Hwi&M1&M2&M3&M4&M5&M6). pose proof Hwi as (Q1&Q2&Q3&Q4&Q5&Q6).
  destruct (nth_error vs i) as [v|] eqn:Ev; [|apply nth_error_None in Ev; fold len in Ev; lia].
  destruct (elems_nth _ _ _ _ _ _ _ _ El Ev) as (Gv&Vv&Sv). destruct (Hcs i Hi) as (Ci1&Ci2).
  pose proof (lenz_nonneg (B i)) as Bn. pose proof (firstn_concat (key_bytes t) vs i v Ev) as Eb.
  pose proof (lenz_firstn (key_bytes t) vs (S i)) as Bl. rewrite Eb, lenz_app in Bl. fold (B i) in Bl.
  cbn [app]. eapply wp_lget; [exact D'|]. ws1. eapply wp_lget; [exact I'|]. eapply wp_bin; [cbn [binop wrapt]; reflexivity|].
  eapply wp_bin; [cbn [binop wrapt]; reflexivity|]. rewrite (w32_small (Z.of_nat es * Z.of_nat i)) by lia. rewrite w32_small by lia.
  apply wp_load; [lia|unfold page_size; lia|]. rewrite Z.add_0_r. apply wp_lset'; [lia|].
  assert (Lx : load es (mem wi) (x + 8 + Z.of_nat es * Z.of_nat i) = load es (mem w) (x + 8 + Z.of_nat es * Z.of_nat i)).
  { apply load_extends; [exact Ex|]. unfold live. lia. }
  rewrite Lx. set (y := load es (mem w) (x + 8 + Z.of_nat es * Z.of_nat i)) in *.
  eapply (IH (S (S n)) (S (S (S n))) _ _ [] (set_nth (S (S n)) y l') wi v y Gv); [exact Hwi|apply set_nth_same; lia|lia|rewrite set_nth_length; lia| | | | |].
  - eapply vrep_extends; [exact Ex| |exact Vv]. eapply sub_trans; [exact Sv|]. eapply sub_trans; eassumption.
  - eapply sub_trans; [exact Sv|]. eapply sub_trans; [exact SG|]. eapply sub_trans; [exact SF|]. apply between_sub; lia.
  - eapply full_nth; eassumption.
  - intros O. cbn [loopk blk]. apply T. eapply oom_wrote; [exact W|exact O|]. lia.
  - intros l2 w2 W2 L2' U2. rewrite set_nth_length in L2'. pose proof (wrote_app _ _ _ _ _ Hw W W2) as W12. change (B i) with (List.concat (map (key_bytes t) (firstn i vs))) in W12. rewrite <- Eb in W12. fold (B (S i)) in W12.
    assert (X : forall j, (j < S (S n))%nat -> nth_error l2 j = nth_error l' j) by (intros j Hj; rewrite U2 by lia; apply set_nth_other; lia).
    eapply wp_lget; [rewrite X by lia; exact I'|]. eapply wp_lget; [rewrite X by lia; exact N'|]. ws1.
    eapply wp_bin; [cbn [binop wrapt]; reflexivity|]. rewrite w32_small by lia. eapply wp_bin; [cbn [binop wrapt]; reflexivity|].
    apply wp_brif; intros C; unb C; cbn [loopk blk String.eqb Ascii.eqb Bool.eqb].
    + cbn [firstn app]. assert (Ei : S i = len) by lia. apply K; [|lia|intros j J1 J2; rewrite X by lia; apply U'; assumption].
      unfold B in W12. rewrite Ei in W12. unfold len in W12. rewrite firstn_all in W12. exact W12.
    + eapply wp_lget; [rewrite X by lia; exact I'|]. ws1. eapply wp_bin; [cbn [binop wrapt]; reflexivity|]. rewrite w32_small by lia.
      apply wp_lset'; [lia|]. apply wp_br. cbn [loopk String.eqb Ascii.eqb Bool.eqb]. exists (len - S i)%nat. split; [lia|]. exists (S i).
      split; [reflexivity|]. split; [lia|]. split; [rewrite set_nth_length; lia|]. split; [rewrite set_nth_other, X by lia; exact D'|].
      split; [rewrite set_nth_other, X by lia; exact N'|]. split; [rewrite set_nth_same by lia; f_equal; lia|].
      split; [intros j J1 J2; rewrite set_nth_other, X by lia; apply U'; assumption|exact W12].
Qed.

Lemma keys : forall t, key_type t = true -> key_ok t.
Proof.
  apply (ty_rec' (fun t => key_type t = true -> key_ok t)).
  - intros t St _. apply key_stack. exact St.
  - intros _. exact key_u128.
  - intros _. exact key_u256.
  - intros _. exact key_address.
  - intros t IH K. apply key_vec, IH, K.
  - intros k fs IH K. apply key_struct. cbn [key_type] in K. rewrite forallb_forall in K. rewrite Forall_forall in *. auto.
  - intros vts _ K. discriminate.
Qed.

Lemma wp_name : forall name r (Q : outcome -> Prop) s l w, Forall (fun c => 0 <= c < 256) name -> wok w -> (oom w (lenz name) -> Q OTrap) ->
  (forall w', wrote w w' name -> wp r Q s l w') -> wp (name_code name ++ r) Q s l w.
Proof.
  induction name as [|c name IH]; intros r Q s l w Hb Hw T K; [apply K; apply wrote_nil; exact Hw|].
  inversion Hb as [|? ? Hc Hb']; subst. unfold name_code. cbn [map List.concat]. fold (name_code name). rewrite <- app_assoc. cbn [app].
  pose proof Hw as (P1&P2&P3&P4&P5&P6). pose proof (lenz_nonneg name) as Nn. assert (Ec : lenz (c :: name) = 1 + lenz name) by (unfold lenz; cbn [List.length]; lia).
  ws1. wcall alloc_spec; [exact Hw|lia|intros O; apply T; eapply oom_mono; [exact O|lia]|]. intros vs w1 (->&Al). cbn [app].
  pose proof (alloc_extends _ _ _ Hw Al ltac:(lia)) as Ex. destruct Al as (Hw1&Em&A1&A2&A3&A4&A5). pose proof Hw1 as (Q1&Q2&Q3&Q4&Q5&Q6).
  ws1. apply wp_store; [lia|unfold page_size; lia|]. rewrite Z.add_0_r. match goal with |- wp _ _ _ _ ?W => set (w2 := W) end.
  assert (W2 : wrote w w2 [c]).
  { split; [|split; [exact A3|]].
    - apply (extends_write w w1 _ (gnext w) 1); [exact Hw|exact Ex|intros a Na; apply rd_store_out; unfold within in Na; lia| |]; lia.
    - unfold bytes_at, w2. cbn [List.length bytes mem set_mem]. f_equal. rewrite rd_store_in by lia. rewrite Z.sub_diag. change (256 ^ 0) with 1. rewrite Z.div_1_r. apply Z.mod_small. exact Hc. }
  apply IH; [exact Hb'|apply W2|intros O; apply T; eapply oom_wrote; [exact W2|exact O|]; change (lenz [c]) with 1; lia|].
  intros w' W'. apply K. change (c :: name) with ([c] ++ name). eapply wrote_app; eassumption.
Qed.

(** The id of a dynamic field: fresh memory holding the hash of the preimage. *)
Lemma hash_type_and_key_spec : forall t name w p x v F, key_type t = true -> Forall (fun c => 0 <= c < 256) name -> wok w -> live w p 32 ->
  vrep (mem w) t v x F -> sub F (heap w) -> full v -> lenz (key_bytes t v) + lenz name < 2 ^ 31 ->
  let pre := preimage (load_be 32 (mem w) p) t v name in
  wpf (hash_type_and_key t name) [p; x] w (resq (fun r w' => exists a, r = [a] /\ extends w w' /\ gnext w <= a /\ a + 32 = gnext w' /\
    load_be 32 (mem w') a = keccak (host w) pre mod 2 ^ 256) (oom w (lenz pre + 32))).
Proof.
  intros t name w p x v F Kt Hb Hw Lp V SF Fu Hl pre. pose proof Hw as (P1&P2&P3&P4&P5&P6). unfold live in Lp.
  assert (Lpre : lenz pre = 32 + lenz (key_bytes t v) + lenz name) by (unfold pre, preimage; rewrite !lenz_app; unfold lenz at 1; rewrite be_bytes_length; lia).
  pose proof (lenz_nonneg (key_bytes t v)) as K0. pose proof (lenz_nonneg name) as K1.
  apply wpf_intro; [reflexivity|]. cbn [List.app rev]. set (ls := repeat 0 (2 + key_locals t)).
  assert (Lls : List.length ls = (2 + key_locals t)%nat) by apply repeat_length.
  ws1. wcall alloc_spec; [exact Hw|lia|intros O; eapply oom_mono; [exact O|lia]|]. intros rs w1 (->&Al). cbn [app].
  pose proof (alloc_extends _ _ _ Hw Al ltac:(lia)) as Ex. destruct Al as (Hw1&Em&A1&A2&A3&A4&A5). pose proof Hw1 as (Q1&Q2&Q3&Q4&Q5&Q6).
  apply wp_lset'; [cbn [List.length]; lia|]. set (l0 := set_nth 2 (gnext w) (p :: x :: ls)).
  assert (Ll : List.length l0 = (4 + key_locals t)%nat) by (unfold l0; rewrite set_nth_length; cbn [List.length]; lia).
  assert (E2 : nth_error l0 2 = Some (gnext w)) by (unfold l0; apply set_nth_same; cbn [List.length]; lia).
  eapply wp_lget; [exact E2|]. eapply wp_lget; [unfold l0; rewrite set_nth_other by lia; reflexivity|]. ws1.
  apply wp_mcopy; [lia|unfold page_size; lia|lia|unfold page_size; lia|]. match goal with |- wp _ _ _ _ ?W => set (w2 := W) end.
  assert (W2 : wrote w w2 (be_bytes 32 (load_be 32 (mem w) p))).
  { split; [|split; [unfold lenz; rewrite be_bytes_length; exact A3|]].
    - apply (extends_write w w1 _ (gnext w) 32); [exact Hw|exact Ex|intros a Na; apply rd_mcopy_frame; exact Na| |]; lia.
    - unfold bytes_at, w2. rewrite be_bytes_load_be, bytes_length. cbn [mem set_mem]. apply bytes_ext. intros i Hi. rewrite rd_mcopy_in by lia. rewrite Em. f_equal. lia. }
  clearbody w2. pose proof W2 as (Ex2&G2&_). pose proof Ex2 as (Hw2&_). assert (L32 : lenz (be_bytes 32 (load_be 32 (mem w) p)) = 32) by (unfold lenz; rewrite be_bytes_length; reflexivity).
  cbn [app]. match goal with |- wp (key_code t 1 4 ++ ?r) _ _ _ _ => idtac end.
  eapply (keys t Kt 1%nat 4%nat _ _ [] l0 w2 v x F); [exact Hw2|unfold l0; rewrite set_nth_other by lia; reflexivity|lia|lia| | |exact Fu| |].
  { eapply vrep_extends; eassumption. }
  { eapply sub_trans; [exact SF|]. apply between_sub; lia. }
  { intros O. cbn [fret]. eapply oom_wrote; [exact W2|exact O|lia]. }
  intros l3 w3 W3 L3 U3. pose proof (wrote_app _ _ _ _ _ Hw W2 W3) as W23. pose proof W3 as (Ex3&G3&_). pose proof Ex3 as (Hw3&_).
  apply wp_name; [exact Hb|exact Hw3|intros O; cbn [fret]; eapply oom_wrote; [exact W23|exact O|rewrite lenz_app; lia]|].
  intros w4 W4. pose proof (wrote_app _ _ _ _ _ Hw W23 W4) as W. rewrite <- app_assoc in W. fold (preimage (load_be 32 (mem w) p) t v name) in W. fold pre in W.
  clear W2 W3 W4 W23. pose proof W as (Ex4&G4&B4). pose proof Ex4 as (Hw4&M1&M2&M3&M4&M5&M6). pose proof Hw4 as (R1&R2&R3&R4&R5&R6).
  assert (E3 : nth_error l3 2 = Some (gnext w)) by (rewrite U3 by lia; exact E2).
  eapply wp_lget; [exact E3|]. ws1. wcall alloc_spec; [exact Hw4|lia|intros O; eapply oom_wrote; [exact W|exact O|lia]|].
  intros rs w5 (->&Al5). cbn [app]. pose proof (alloc_extends _ _ _ Hw4 Al5 ltac:(lia)) as Ex5. destruct Al5 as (Hw5&Em5&B1&B2&B3&_&_).
  eapply wp_lget; [exact E3|]. eapply wp_bin; [cbn [binop wrapt]; reflexivity|]. rewrite w32_small by lia. replace (gnext w4 - gnext w) with (lenz pre) by lia.
  ws1. wcall alloc_spec; [exact Hw5|lia|intros O; cbn [fret]; destruct Ex5 as (_&Mp&_); unfold oom in *; lia|].
  intros rs w6 (->&Al6). cbn [app]. pose proof (alloc_extends _ _ _ Hw5 Al6 ltac:(lia)) as Ex6. destruct Al6 as (Hw6&Em6&C1&C2&C3&C4&C5).
  apply wp_ltee'; [lia|]. apply wp_keccak; [exact Hw6|unfold live; lia|unfold live; lia|].
  eapply wp_lget; [apply set_nth_same; lia|]. apply wp_nil. cbn [fret firstn].
  pose proof (extends_trans _ _ _ Ex5 Ex6) as Ex46. pose proof (extends_trans _ _ _ Ex4 Ex46) as Ex06.
  exists (gnext w5). split; [reflexivity|]. split; [|split; [lia|split; [cbn [gnext set_mem]; lia|]]].
  - apply (extends_write w w6 _ (gnext w5) 32); [exact Hw|exact Ex06|intros a Na; apply rd_store_be_out; unfold within in Na; lia| |]; lia.
  - cbn [mem set_mem]. rewrite load_be_store_be_same. f_equal. replace (host w6) with (host w) by (symmetry; apply Ex06). f_equal.
    unfold lenz. rewrite Nat2Z.id. rewrite Em6, Em5. exact B4.
Qed.

(** *** Empty vectors *)

Lemma wp_load_trap : forall n off r (Q : outcome -> Prop) a s l w, ~ (0 <= a + off /\ a + off + Z.of_nat n <= page_size * pages w) ->
  Q OTrap -> wp (Load n off :: r) Q (a :: s) l w.
Proof.
  intros. apply wp_basic_stop; [reflexivity|]. cbn [step].
  replace (inb w (a + off) (Z.of_nat n)) with false; [assumption|]. symmetry. unfold inb. apply not_true_is_false. intros C. apply H.
  apply andb_prop in C. lia.
Qed.

Lemma hash_empty_traps : forall t name w p x F, is_stack t = true -> wok w -> live w p 32 ->
  vrep (mem w) (TVec t) (VVec []) x F -> sub F (heap w) ->
  wpf (hash_type_and_key (TVec t) name) [p; x] w (resq (fun _ _ => False) True).
Proof.
  intros t name w p x F St Hw Lp V SF. cbn [vrep] in V. destruct V as (vs&cap&G&E&L1&L2&L3&L4&Sx&SG&DG&El). injection E as <-.
  pose proof Hw as (P1&P2&P3&P4&P5&P6). unfold live in Lp. cbn [List.length Z.of_nat] in *. pose proof (esize_range t) as Hs. set (es := esize t) in *.
  assert (Hcn : 0 <= cap * Z.of_nat es) by nia.
  destruct (sub_live x (8 + cap * Z.of_nat es) F w) as (X1&X2); [rewrite Z.add_assoc; exact Sx|exact SF|lia|].
  assert (Kl : key_locals (TVec t) = 3%nat) by (destruct t; try discriminate; reflexivity).
  assert (Kc : forall d n, key_code t d n = [ Const (Z.of_nat es); Call alloc; LocalGet d; Store es 0 ]) by (intros; unfold es; destruct t; try discriminate; reflexivity).
  unfold hash_type_and_key. rewrite Kl. apply wpf_intro; [reflexivity|]. cbn [key_code]. rewrite Kc. fold es. wc. ws1.
  wcall alloc_spec; [exact Hw|lia|auto|]. intros rs w1 (->&Al). wc. destruct Al as (Hw1&Em&A1&A2&A3&A4&A5). pose proof Hw1 as (Q1&Q2&Q3&Q4&Q5&Q6).
  ws1. ws1. ws1. ws1. apply wp_mcopy; [lia|unfold page_size; lia|lia|unfold page_size; lia|].
  match goal with |- wp _ _ _ _ ?W => set (w2 := W) end. assert (Hw2 : wok w2).
  { apply wok_set_mem; [exact Hw1|]. intros a Ha. apply rd_mcopy_frame. unfold within. lia. }
  assert (L0 : load 4 (mem w2) x = 0).
  { rewrite <- L1. unfold w2. cbn [mem set_mem]. apply load_ext. intros i Hi. rewrite rd_mcopy_frame by (unfold within; lia). rewrite Em. reflexivity. }
  assert (G2 : gnext w2 = gnext w + 32) by exact A3. assert (M2 : maxpages w2 = maxpages w) by exact A1.
  clearbody w2. pose proof Hw2 as (R1&R2&R3&R4&R5&R6). ws1. ws1. rewrite L0. ws1. ws1. ws1. ws1. ws1. ws1. ws1. apply wp_block.
  eapply (wp_loop (fun f l wi => exists i y, l = [p; x + 8; gnext w; 0; 0; i; y] /\ wok wi /\ gnext wi = gnext w + 32 + Z.of_nat es * i /\ 0 <= i /\
     f = Z.to_nat (4294967296 - gnext wi)) (Z.to_nat (4294967296 - gnext w2))).
  { exists 0, 0. split; [leq|]. split; [exact Hw2|]. split; [lia|]. split; [lia|reflexivity]. }
  intros f l wi (i&y&->&Hwi&Gi&Hi&->). pose proof Hwi as (S1&S2&S3&S4&S5&S6). assert (Hei : i <= Z.of_nat es * i) by nia.
  ws1. ws1. ws1. eapply wp_bin; [cbn [binop wrapt]; reflexivity|]. rewrite w32_small by lia. eapply wp_bin; [cbn [binop wrapt]; reflexivity|]. rewrite w32_small by lia.
  destruct (Z_le_gt_dec (x + 8 + Z.of_nat es * i + Z.of_nat es) (page_size * pages wi)) as [C|C].
  2:{ apply wp_load_trap; [lia|]. exact Logic.I. }
  apply wp_load; [lia|lia|]. rewrite Z.add_0_r. ws1. ws1.
  wcall alloc_spec; [exact Hwi|lia|intros _; exact Logic.I|]. intros rs w3 (->&Al). wc. destruct Al as (Hw3&Em3&B1&B2&B3&_&_). pose proof Hw3 as (T1&T2&T3&T4&T5&T6).
  ws1. apply wp_store; [lia|unfold page_size; lia|]. rewrite Z.add_0_r. match goal with |- wp _ _ _ _ ?W => set (w4 := W) end.
  assert (Hw4 : wok w4).
  { apply wok_set_mem; [exact Hw3|]. intros a Ha. apply rd_store_out. lia. }
  assert (G4 : gnext w4 = gnext wi + Z.of_nat es) by exact B3. clearbody w4. pose proof Hw4 as (U1&U2&U3&U4&U5&U6).
  ws1. ws1. ws1. ws1. ws1. apply wp_brif; intros C'; unb C'; wc.
  { exfalso. apply Z.eqb_eq in C'. change (w32 (0 - 1)) with 4294967295 in C'. lia. }
  ws1. ws1. ws1. ws1. apply wp_br. wc. exists (Z.to_nat (4294967296 - gnext w4)). split; [lia|]. eexists (i + 1), _. split; [leq|]. split; [exact Hw4|]. split; [lia|]. split; [lia|reflexivity].
Qed.
