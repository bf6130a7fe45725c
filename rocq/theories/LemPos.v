(** * Positions in storage and the compiler's computation of the sizes of enums
    (storage/storage_layout.rs). *)

From Verif Require Import Tac SpecAbi SpecVal LemVal SpecLayout.
Ltac Zify.zify_post_hook ::= idtac.

(** ** Positions *)

Definition before (p p' : position) : Prop := fst p < fst p' \/ fst p = fst p' /\ snd p <= snd p'.
Definition good (p : position) : Prop := 0 <= snd p <= 32.

Lemma before_refl : forall p, before p p.
Proof. unfold before. intros. lia. Qed.
Lemma before_trans : forall p q r, before p q -> before q r -> before p r.
Proof. unfold before. intros. lia. Qed.
Lemma before_fst : forall p q, before p q -> fst p <= fst q.
Proof. unfold before. intros. lia. Qed.

Lemma room_good : forall p s, good p -> 0 <= s <= 32 -> good (room p s).
Proof. unfold good. intros [k o] s H Hs. cbn [room snd] in *. destruct (o + s <=? 32) eqn:E; cbn [snd]; lia. Qed.
Lemma room_before : forall p s, good p -> 0 <= s <= 32 -> before p (room p s).
Proof. unfold good, before. intros [k o] s H Hs. cbn [room snd fst] in *. destruct (o + s <=? 32) eqn:E; cbn [snd fst]; lia. Qed.
Lemma width_range : forall t, 0 <= width t <= 32.
Proof. destruct t; cbn; lia. Qed.

Lemma at_byte_good : forall n, good (at_byte n).
Proof. intros n. unfold good, at_byte. cbn [snd]. pose proof (Z.mod_pos_bound n 32). lia. Qed.
Lemma lin_at_byte : forall n, lin (at_byte n) = n.
Proof. intros n. unfold lin, at_byte. cbn [fst snd]. pose proof (Z.div_mod n 32). lia. Qed.
Lemma before_at_byte : forall p n, good p -> lin p <= n -> before p (at_byte n).
Proof.
  unfold good, lin, before, at_byte. intros [k o] n H L. cbn [fst snd] in *. pose proof (Z.div_mod n 32 ltac:(lia)). pose proof (Z.mod_pos_bound n 32 ltac:(lia)). lia.
Qed.
Lemma fold_max_ge : forall (A : Type) (l : list A) (f : A -> Z) n, n <= fold_left (fun n x => Z.max n (f x)) l n /\ (forall x, In x l -> f x <= fold_left (fun n x => Z.max n (f x)) l n).
Proof.
  intros A l f. induction l as [|a l IH]; intros n; cbn [fold_left]; [split; [lia|intros x []]|].
  destruct (IH (Z.max n (f a))) as (B&C). split; [lia|]. intros x [<-|Hx]; [lia|auto].
Qed.
Lemma lin_room1 : forall p, good p -> lin (room p 1) = lin p + 1.
Proof. unfold good, lin. intros [k o] H. cbn [room fst snd] in *. destruct (o + 1 <=? 32) eqn:E; cbn [fst snd]; lia. Qed.

Lemma after_ok : forall t p, good p -> good (after t p) /\ before p (after t p).
Proof.
  intros t. refine (ty_rec' (fun t => forall p, good p -> good (after t p) /\ before p (after t p)) _ _ _ _ _ _ _ t); clear t.
  - intros t St p Hp. pose proof (width_range t). destruct t; try discriminate; (split; [apply room_good|apply room_before]; auto).
  - intros p Hp. split; [apply room_good|apply room_before]; auto; cbn; lia.
  - intros p Hp. split; [apply room_good|apply room_before]; auto; cbn; lia.
  - intros p Hp. split; [apply room_good|apply room_before]; auto; cbn; lia.
  - intros t _ p Hp. split; [apply room_good|apply room_before]; auto; lia.
  - intros k fs IH p Hp. cbn [after]. revert p Hp. induction IH as [|t fs Ht _ IHf]; intros p Hp; cbn [fold_left]; [split; [exact Hp|apply before_refl]|].
    destruct (Ht p Hp) as (A&B). destruct (IHf _ A) as (C&D). split; [exact C|eapply before_trans; eassumption].
  - intros vts _ p Hp. cbn [after]. pose proof (fold_max_ge _ vts (fun fs => lin (fold_left (fun p t' => after t' p) fs (room p 1))) (lin (room p 1))) as (A&_).
    split; [apply at_byte_good|]. eapply before_trans; [apply (room_before p 1 Hp); lia|]. apply before_at_byte; [apply room_good; [exact Hp|lia]|exact A].
Qed.
Lemma afters_ok : forall fs p, good p -> good (afters fs p) /\ before p (afters fs p).
Proof.
  induction fs as [|t fs IH]; intros p Hp; cbn [afters fold_left]; [split; [exact Hp|apply before_refl]|].
  destruct (after_ok t p Hp) as (A&B). destruct (IH _ A) as (C&D). split; [exact C|eapply before_trans; eassumption].
Qed.
Lemma afters_cons : forall t fs p, afters (t :: fs) p = afters fs (after t p).
Proof. reflexivity. Qed.

(** The fields of a variant stay within the room of the enum. *)
Lemma variant_before : forall vts fs p, In fs vts -> good p -> before (afters fs (room p 1)) (after (TEnum vts) p).
Proof.
  intros vts fs p Hi Hp. cbn [after]. apply before_at_byte.
  - apply afters_ok. apply room_good; [exact Hp|lia].
  - apply (fold_max_ge _ vts (fun fs => lin (fold_left (fun p t' => after t' p) fs (room p 1)))). exact Hi.
Qed.

(** ** Sizes *)

(** storage/storage_layout.rs 191-231 [field_size]. *)
Definition field_size (t : ty) : Z :=
  match t with
  | TBool | TU8 => 1 | TU16 => 2 | TU32 => 4 | TU64 => 8 | TU128 => 16 | TU256 => 32 | TAddress => 20
  | TVec _ => 32
  | TStruct true _ => 32
  | TStruct false _ => 0
  | TEnum _ => 0
  end.

(** storage/storage_layout.rs 71-183 [compute_fields_storage_size]: one round of the loop; the state is
    the size and the offset.  Fields of type UID and NamedId, which are not stored, are left out of
    the types here.  The case of an enum is 30-58 [compute_enum_storage_size]. *)
Fixpoint size_step (t : ty) (s : Z * Z) : Z * Z :=
  let (size, offset) := s in
  match t with
  | TStruct true _ => (size + 32 + (32 - offset) mod 32, 32)
  | TStruct false fs =>
      let n := fst (fold_left (fun s t' => size_step t' s) fs (0, offset)) in (size + n, (offset + n) mod 32)
  | TEnum vts =>
      let n := fold_left (fun m fs => Z.max m (fst (fold_left (fun s t' => size_step t' s) fs (0, (offset + 1) mod 32)))) vts 0 + 1 in
      (size + n, (offset + n) mod 32)
  | _ => if field_size t >? 32 - offset then (size + (field_size t + (32 - offset) mod 32), field_size t)
         else (size + field_size t, offset + field_size t)
  end.
(** storage/storage_layout.rs 30-58 [compute_enum_storage_size]. *)
Definition enum_storage_size (vts : list (list ty)) (offset : Z) : Z :=
  fold_left (fun m fs => Z.max m (fst (fold_left (fun s t' => size_step t' s) fs (0, (offset + 1) mod 32)))) vts 0 + 1.

Definition sized (t : ty) : Prop := forall p n c, storable t = true -> good p -> 0 <= c <= 32 -> c mod 32 = lin p mod 32 ->
  fst (size_step t (n, c)) = n + (lin (after t p) - lin p) /\ 0 <= snd (size_step t (n, c)) <= 32 /\
  snd (size_step t (n, c)) mod 32 = lin (after t p) mod 32.

Lemma mod32 : forall k o c, 0 <= o <= 32 -> 0 <= c <= 32 -> c mod 32 = (32 * k + o) mod 32 -> c = o \/ c = 0 /\ o = 32 \/ c = 32 /\ o = 0.
Proof.
  intros k o c Ho Hc E. rewrite (Z.mul_comm 32), Z.add_comm, Z_mod_plus_full in E.
  assert (A : forall x, 0 <= x <= 32 -> x mod 32 = if x =? 32 then 0 else x).
  { intros x Hx. destruct (Z.eqb_spec x 32) as [->|]; [reflexivity|apply Z.mod_small; lia]. }
  rewrite !A in E by lia. destruct (Z.eqb_spec c 32), (Z.eqb_spec o 32); lia.
Qed.

Lemma sized_scalar : forall t, match t with TStruct _ _ | TEnum _ => False | _ => True end -> sized t.
Proof.
  intros t X [k o] n c _ Gp Hc E. unfold good in Gp. cbn [snd] in Gp. unfold lin in *. cbn [fst snd] in *.
  destruct (mod32 k o c Gp Hc E) as [D|D].
  all: assert (Ea : after t (k, o) = room (k, o) (field_size t)) by (destruct t; try contradiction; reflexivity).
  all: assert (Es : size_step t (n, c) = if field_size t >? 32 - c then (n + (field_size t + (32 - c) mod 32), field_size t) else (n + field_size t, c + field_size t)) by (destruct t; try contradiction; reflexivity).
  all: assert (W : 1 <= field_size t <= 32) by (destruct t; try contradiction; cbn; lia).
  all: rewrite Ea, Es; cbn [room]; set (f := field_size t) in *; clearbody f.
  all: destruct (f >? 32 - c) eqn:E1; destruct (o + f <=? 32) eqn:E2; cbn [fst snd]; try (exfalso; lia).
  - rewrite Z.mod_small by lia. split; [lia|]. split; [lia|]. replace (32 * (k + 1) + f) with (f + (k + 1) * 32) by lia. rewrite Z_mod_plus_full. reflexivity.
  - split; [lia|]. split; [lia|]. replace (32 * k + (o + f)) with ((c + f) + k * 32) by lia. rewrite Z_mod_plus_full. reflexivity.
  - replace (32 - c) with 0 by lia. rewrite Z.mod_0_l by lia. split; [lia|]. split; [lia|]. replace (32 * k + (o + f)) with (f + k * 32) by lia. rewrite Z_mod_plus_full. reflexivity.
  - split; [lia|]. split; [lia|]. replace (32 * (k + 1) + f) with ((c + f) + (k + 1) * 32) by lia. rewrite Z_mod_plus_full. reflexivity.
Qed.

Lemma sizes : forall fs, Forall sized fs -> forall p n c, Forall (fun t => storable t = true) fs -> good p -> 0 <= c <= 32 -> c mod 32 = lin p mod 32 ->
  let s := fold_left (fun s t' => size_step t' s) fs (n, c) in fst s = n + (lin (afters fs p) - lin p) /\ 0 <= snd s <= 32 /\ snd s mod 32 = lin (afters fs p) mod 32.
Proof.
  intros fs F. induction F as [|t fs Ht _ IH]; intros p n c St Gp Hc E; cbn [fold_left].
  - cbn. split; [lia|]. auto.
  - inversion St; subst. destruct (Ht p n c ltac:(assumption) Gp Hc E) as (A&B&C). rewrite afters_cons.
    destruct (size_step t (n, c)) as (n1, c1). cbn [fst snd] in *.
    destruct (IH (after t p) n1 c1 ltac:(assumption) (proj1 (after_ok t p Gp)) B C) as (A1&B1&C1). split; [lia|]. auto.
Qed.

Lemma step_mod : forall c n a b, c mod 32 = a mod 32 -> n = b - a -> ((c + n) mod 32) mod 32 = b mod 32 /\ 0 <= (c + n) mod 32 <= 32.
Proof.
  intros c n a b E ->. rewrite Z.mod_mod by lia. split; [|pose proof (Z.mod_pos_bound (c + (b - a)) 32); lia].
  rewrite Zplus_mod, E, <- Zplus_mod. f_equal. lia.
Qed.

Lemma enum_sized : forall vts, Forall (Forall sized) vts -> forall p c, storable (TEnum vts) = true -> good p -> 0 <= c <= 32 -> c mod 32 = lin p mod 32 ->
  enum_storage_size vts c = lin (after (TEnum vts) p) - lin p.
Proof.
  intros vts IH p c St Gp Hc E. cbn [storable] in St. apply andb_true_iff in St. destruct St as (St&_). apply andb_true_iff in St. destruct St as (_&St).
  cbn [after]. rewrite lin_at_byte. unfold enum_storage_size. pose proof (lin_room1 p Gp) as L1.
  assert (G1 : good (room p 1)) by (apply room_good; [exact Gp|lia]).
  assert (E1 : ((c + 1) mod 32) mod 32 = lin (room p 1) mod 32 /\ 0 <= (c + 1) mod 32 <= 32) by (apply (step_mod c 1 (lin p)); [exact E|lia]).
  destruct E1 as (E1&Hc1). set (c1 := (c + 1) mod 32) in *. clearbody c1.
  assert (K : forall l m, (forall fs, In fs l -> In fs vts) ->
     fold_left (fun m fs => Z.max m (fst (fold_left (fun s t' => size_step t' s) fs (0, c1)))) l m + lin (room p 1) =
     fold_left (fun n fs => Z.max n (lin (fold_left (fun p t' => after t' p) fs (room p 1)))) l (m + lin (room p 1))).
  { induction l as [|fs l IHl]; intros m Hi; cbn [fold_left]; [reflexivity|]. rewrite IHl by (intros; apply Hi; right; assumption). f_equal.
    assert (Hf : In fs vts) by (apply Hi; left; reflexivity). rewrite Forall_forall in IH. rewrite forallb_forall in St.
    destruct (sizes fs (IH fs Hf) (room p 1) 0 c1) as (A&_); [|exact G1|exact Hc1|exact E1|].
    - apply Forall_forall. specialize (St fs Hf). rewrite forallb_forall in St. exact St.
    - rewrite A. unfold afters. lia. }
  specialize (K vts 0 ltac:(auto)). rewrite Z.add_0_l in K. rewrite <- K, L1. lia.
Qed.

Lemma all_sized : forall t, sized t.
Proof.
  intros t. refine (ty_rec' sized _ _ _ _ _ _ _ t); clear t; try (apply sized_scalar; exact Logic.I).
  - intros t St. apply sized_scalar. destruct t; try discriminate; exact Logic.I.
  - intros t _. apply sized_scalar. exact Logic.I.
  - intros k fs IH p n c St Gp Hc E. destruct k; [discriminate|]. cbn [storable] in St. apply andb_true_iff in St. destruct St as (_&St). rewrite forallb_forall in St.
    cbn [size_step fst snd]. destruct (sizes fs IH p 0 c) as (A&_); [apply Forall_forall; exact St|exact Gp|exact Hc|exact E|].
    change (after (TStruct false fs) p) with (afters fs p). rewrite A. split; [lia|].
    destruct (step_mod c (0 + (lin (afters fs p) - lin p)) (lin p) (lin (afters fs p)) E) as (X&Y); [lia|]. split; [exact Y|exact X].
  - intros vts IH p n c St Gp Hc E. pose proof (enum_sized vts IH p c St Gp Hc E) as A. unfold enum_storage_size in A.
    cbn [size_step fst snd]. rewrite A. split; [lia|].
    destruct (step_mod c (lin (after (TEnum vts) p) - lin p) (lin p) (lin (after (TEnum vts) p)) E) as (X&Y); [lia|]. split; [exact Y|exact X].
Qed.

(** The size computed by the compiler is the room of the enum. *)
Lemma enum_storage_size_ok : forall vts p c, storable (TEnum vts) = true -> good p -> 0 <= c <= 32 -> c mod 32 = lin p mod 32 ->
  enum_storage_size vts c = lin (after (TEnum vts) p) - lin p.
Proof. intros vts. apply enum_sized. apply Forall_forall. intros fs _. apply Forall_forall. intros t _. apply all_sized. Qed.

Lemma enum_storage_size_bound : forall vts c, storable (TEnum vts) = true -> 0 <= c < 32 -> 1 <= enum_storage_size vts c < 2 ^ 31.
Proof.
  intros vts c St Hc. assert (G : good (0, c)) by (unfold good; cbn; lia).
  rewrite (enum_storage_size_ok vts (0, c) c St G) by (first [lia|unfold lin; cbn [fst snd]; f_equal; lia]).
  pose proof (fold_max_ge _ vts (fun fs => lin (fold_left (fun p t' => after t' p) fs (room (0, c) 1))) (lin (room (0, c) 1))) as (A&_).
  pose proof (lin_room1 _ G) as L. cbn [storable] in St. apply andb_true_iff in St. destruct St as (_&St). rewrite forallb_forall in St.
  specialize (St (Z.to_nat c)). rewrite Z2Nat.id in St by lia. assert (I : In (Z.to_nat c) (seq 0 32)) by (apply in_seq; lia). specialize (St I). apply Z.ltb_lt in St.
  assert (E0 : lin (0, c) = c) by (unfold lin; cbn [fst snd]; lia). rewrite E0 in *.
  assert (B : lin (after (TEnum vts) (0, c)) = fold_left (fun n fs => Z.max n (lin (fold_left (fun p t' => after t' p) fs (room (0, c) 1)))) vts (lin (room (0, c) 1)))
    by (cbn [after]; apply lin_at_byte).
  lia.
Qed.

Lemma plain_storable : forall t, plain t = true -> storable t = true.
Proof.
  intros t. refine (ty_rec' (fun t => plain t = true -> storable t = true) _ _ _ _ _ _ _ t); clear t; auto.
  - intros t St _. destruct t; try discriminate; reflexivity.
  - intros k fs IH Pl. destruct k; [discriminate|]. cbn [plain storable] in *. apply andb_true_iff in Pl. destruct Pl as (A&B). rewrite A. cbn [andb].
    rewrite forallb_forall in *. rewrite Forall_forall in IH. auto.
  - intros vts _ Pl. discriminate.
Qed.
Lemma plains_storable : forall fs, forallb plain fs = true -> forallb storable fs = true.
Proof. intros fs. rewrite !forallb_forall. intros H t Ht. apply plain_storable. auto. Qed.

Lemma after_pos : forall t p, plain t = true -> good p -> 1 <= snd (after t p).
Proof.
  assert (R : forall p s, good p -> 1 <= s <= 32 -> 1 <= snd (room p s)).
  { unfold good. intros [k o] s Hp Hs. cbn [room snd] in *. destruct (o + s <=? 32); cbn [snd]; lia. }
  intros t. refine (ty_rec' (fun t => forall p, plain t = true -> good p -> 1 <= snd (after t p)) _ _ _ _ _ _ _ t); clear t.
  - intros t St p Pl Hp. destruct t; try discriminate; cbn [after width]; apply R; auto; lia.
  - intros p Pl Hp. apply R; auto; cbn; lia.
  - intros p Pl Hp. apply R; auto; cbn; lia.
  - intros p Pl Hp. apply R; auto; cbn; lia.
  - intros t _ p Pl Hp. apply R; auto; lia.
  - intros k fs IH p Pl Hp. destruct k; [discriminate|]. cbn [plain] in Pl. apply andb_true_iff in Pl. destruct Pl as (Ne&Pl).
    cbn [after]. destruct fs as [|t fs]; [discriminate|]. clear Ne. revert p Hp. rewrite forallb_forall in Pl.
    assert (Pl' : Forall (fun t => plain t = true) (t :: fs)) by (apply Forall_forall; exact Pl). clear Pl.
    revert t IH Pl'. induction fs as [|t' fs IHf]; intros t IH Pl p Hp; inversion IH; subst; inversion Pl; subst; cbn [fold_left].
    + auto.
    + exact (IHf t' H2 H4 (after t p) (proj1 (after_ok t p Hp))).
  - intros vts _ p Pl. discriminate.
Qed.
