(** * Different types have different names (proof). *)

From Coq Require Import String.
From Verif Require Import Tac SpecAbi LemAbi SpecVal SpecDyn LemDyn Comp RtUid LemUid CompType.
Ltac Zify.zify_post_hook ::= idtac.

Definition mtype_ind' (P : mtype -> Prop) (Hp : forall p, P (MPrim p)) (Hv : forall t, P t -> P (MVec t))
  (Hu : forall s args, Forall P args -> P (MUser s args)) : forall t, P t :=
  fix ind t := match t with
    | MPrim p => Hp p
    | MVec t' => Hv t' (ind t')
    | MUser s args => Hu s args ((fix go l : Forall P l := match l with [] => Forall_nil P | a :: l' => Forall_cons a (ind a) (go l') end) args)
    end.

(** A string of identifier characters ends where the next other character is. *)
Definition stops (r : list Z) : Prop := match r with [] => True | c :: _ => ident_char c = false end.

Lemma span_eq : forall a b r s, forallb ident_char a = true -> forallb ident_char b = true -> stops r -> stops s ->
  a ++ r = b ++ s -> a = b /\ r = s.
Proof.
  induction a as [|x a IH]; intros [|y b] r s Ha Hb Hr Hs E; cbn [app forallb] in *.
  - auto.
  - apply andb_prop in Hb. subst r. cbn [stops] in Hr. destruct Hb. congruence.
  - apply andb_prop in Ha. subst s. cbn [stops] in Hs. destruct Ha. congruence.
  - apply andb_prop in Ha. apply andb_prop in Hb. injection E as -> E. destruct (IH b r s) as (->&->); tauto.
Qed.

Lemma hex_digit_ident : forall d, 0 <= d < 16 -> ident_char (hex_digit d) = true.
Proof. intros d H. unfold hex_digit, ident_char. destruct (Z.ltb_spec d 10); lia. Qed.
Lemma hex_digit_inj : forall d e, 0 <= d < 16 -> 0 <= e < 16 -> hex_digit d = hex_digit e -> d = e.
Proof. intros d e H1 H2. unfold hex_digit. destruct (Z.ltb_spec d 10), (Z.ltb_spec e 10); lia. Qed.

Lemma be_bytes_range' : forall n v, Forall (fun b => 0 <= b < 256) (be_bytes n v).
Proof. induction n; intros; cbn [be_bytes]; constructor; [apply Z.mod_pos_bound; lia|apply IHn]. Qed.

Lemma hex_ident : forall a, forallb ident_char (address_hex a) = true.
Proof.
  intros a. unfold address_hex. induction (be_bytes_range' 32 a) as [|b l Hb _ IH]; [reflexivity|]. cbn [flat_map app forallb].
  rewrite !hex_digit_ident, IH; [reflexivity| |]; [apply Z.mod_pos_bound; lia|]. split; [apply Z.div_pos; lia|apply Z.div_lt_upper_bound; lia].
Qed.

Lemma hex_inj : forall a b, 0 <= a < 2 ^ 256 -> 0 <= b < 2 ^ 256 -> address_hex a = address_hex b -> a = b.
Proof.
  intros a b Ha Hb E. apply be_bytes_inj'; [exact Ha|exact Hb|]. unfold address_hex in E. pose proof (be_bytes_range' 32 a) as Ra. pose proof (be_bytes_range' 32 b) as Rb.
  revert E Ra Rb. generalize (be_bytes 32 a), (be_bytes 32 b). induction l as [|x l IH]; intros [|y k] E Ra Rb; cbn [flat_map app] in E; try discriminate; [reflexivity|].
  inversion Ra; subst. inversion Rb; subst. injection E as E1 E2 E3. f_equal; [|apply IH; assumption].
  assert (0 <= x / 16 < 16) by (split; [apply Z.div_pos; lia|apply Z.div_lt_upper_bound; lia]). assert (0 <= y / 16 < 16) by (split; [apply Z.div_pos; lia|apply Z.div_lt_upper_bound; lia]).
  pose proof (Z.mod_pos_bound x 16 ltac:(lia)). pose proof (Z.mod_pos_bound y 16 ltac:(lia)).
  apply hex_digit_inj in E1; [|assumption..]. apply hex_digit_inj in E2; [|assumption..].
  pose proof (Z.div_mod x 16 ltac:(lia)). pose proof (Z.div_mod y 16 ltac:(lia)). lia.
Qed.

(** The end of a name: the end of the string, or one of the characters that separate names. *)
Definition ends (r : list Z) : Prop := match r with [] => True | c :: _ => c = 44 \/ c = 62 end.
Lemma ends_stops : forall r, ends r -> stops r.
Proof. intros [|c r]; cbn; [auto|]. intros [-> | ->]; reflexivity. Qed.

Lemma join_cons : forall a b l, join (a :: b :: l) = a ++ [44] ++ join (b :: l).
Proof. reflexivity. Qed.

(** A name followed by something. *)
Definition named (t : mtype) : Prop := forall u r s, move_type t -> move_type u -> ends r -> ends s -> type_name t ++ r = type_name u ++ s -> t = u /\ r = s.

Lemma names_eq : forall l, Forall named l -> forall k r s, fold_right and True (map move_type l) -> fold_right and True (map move_type k) ->
  l <> [] -> k <> [] -> join (map type_name l) ++ 62 :: r = join (map type_name k) ++ 62 :: s -> l = k /\ r = s.
Proof.
  intros l Fl. induction Fl as [|t l Ht Fl IH]; intros k r s Ml Mk Nl Nk E; [contradiction|]. destruct k as [|u k]; [contradiction|].
  cbn [map fold_right] in Ml, Mk. destruct Ml as (Mt&Ml), Mk as (Mu&Mk).
  destruct l as [|t2 l], k as [|u2 k]; cbn [map] in E.
  - cbn [join] in E. apply Ht in E; [|exact Mt|exact Mu|cbn; auto|cbn; auto]. destruct E as (->&E'). injection E' as ->. auto.
  - rewrite join_cons in E. cbn [join] in E. rewrite <- !app_assoc in E. apply Ht in E; [|exact Mt|exact Mu|cbn; auto|cbn; auto]. destruct E as (->&E'). discriminate.
  - rewrite join_cons in E. cbn [join] in E. rewrite <- !app_assoc in E. apply Ht in E; [|exact Mt|exact Mu|cbn; auto|cbn; auto]. destruct E as (->&E'). discriminate.
  - rewrite !join_cons in E. rewrite <- !app_assoc in E. apply Ht in E; [|exact Mt|exact Mu|cbn; auto|cbn; auto]. destruct E as (->&E').
    injection E' as E'. destruct (IH (u2 :: k) r s) as (E1&->); try assumption; try discriminate. rewrite E1. auto.
Qed.

(** A name starts with an identifier; what follows tells the three forms apart. *)
Definition head_of (t : mtype) : list Z := match t with MPrim p => ascii_bytes (prim_name p) | MVec _ => ascii_bytes "vector" | MUser s _ => address_hex (s_address s) end.
Definition tail_of (t : mtype) : list Z :=
  match t with
  | MPrim p => []
  | MVec t' => 60 :: type_name t' ++ [62]
  | MUser s args => [58; 58] ++ ascii_bytes (s_module s) ++ [58; 58] ++ ascii_bytes (s_ident s) ++
      match args with [] => [] | _ => [60] ++ join (map type_name args) ++ [62] end
  end.
Lemma head_tail : forall t, type_name t = head_of t ++ tail_of t.
Proof. intros [p|t|s args]; [destruct p; reflexivity|reflexivity|reflexivity]. Qed.
Lemma head_ident : forall t, forallb ident_char (head_of t) = true.
Proof. intros [p|t|s args]; [destruct p; reflexivity|reflexivity|apply hex_ident]. Qed.
Lemma tail_stops : forall t r, ends r -> stops (tail_of t ++ r).
Proof. intros [p|t|s args] r H; [apply ends_stops; exact H|reflexivity|reflexivity]. Qed.

Lemma name_ends : forall t, named t.
Proof.
  induction t as [p|t IH|n args IH] using mtype_ind'; intros u r s Mt Mu Hr Hs E; rewrite (head_tail u) in E.
  all: rewrite head_tail, <- !app_assoc in E; apply span_eq in E; [|apply head_ident|apply head_ident|apply tail_stops; exact Hr|apply tail_stops; exact Hs];
    destruct E as (E1&E2); destruct u as [q|u|n' args']; cbn [head_of tail_of app] in E1, E2.
  - split; [|exact E2]. destruct p, q; try reflexivity; vm_compute in E1; discriminate.
  - subst r. cbn in Hr. lia.
  - subst r. cbn in Hr. lia.
  - subst s. cbn in Hs. lia.
  - injection E2 as E2. rewrite <- !app_assoc in E2. apply IH in E2; [|exact Mt|exact Mu|cbn; auto|cbn; auto]. destruct E2 as (->&E2). injection E2 as ->. auto.
  - discriminate.
  - subst s. cbn in Hs. lia.
  - discriminate.
  - cbn [move_type] in Mt, Mu. destruct Mt as (A1&(_&I1)&(_&J1)&M1), Mu as (A2&(_&I2)&(_&J2)&M2). apply hex_inj in E1; [|assumption..].
    injection E2 as E2. rewrite <- !app_assoc in E2. apply span_eq in E2; [|exact I1|exact I2|reflexivity|reflexivity]. destruct E2 as (Em&E2). apply ascii_bytes_inj in Em.
    cbn [app] in E2. injection E2 as E2. rewrite <- ?app_assoc in E2.
    assert (S1 : stops (match args with [] => [] | _ => 60 :: join (map type_name args) ++ [62] end ++ r)) by (destruct args; [apply ends_stops; exact Hr|reflexivity]).
    assert (S2 : stops (match args' with [] => [] | _ => 60 :: join (map type_name args') ++ [62] end ++ s)) by (destruct args'; [apply ends_stops; exact Hs|reflexivity]).
    apply span_eq in E2; [|exact J1|exact J2|exact S1|exact S2]. destruct E2 as (Ei&E2). apply ascii_bytes_inj in Ei.
    assert (n = n') as -> by (destruct n, n'; cbn in E1, Em, Ei; congruence).
    destruct args as [|a args], args' as [|b args'].
    + auto.
    + cbn [app] in E2. subst r. cbn in Hr. lia.
    + cbn [app] in E2. subst s. cbn in Hs. lia.
    + cbn [app] in E2. injection E2 as E2. rewrite <- !app_assoc in E2. destruct (names_eq (a :: args) IH (b :: args') r s) as (->&->); try assumption; try discriminate. auto.
Qed.

Lemma type_name_inj : forall t u, move_type t -> move_type u -> (type_name t = type_name u <-> t = u).
Proof.
  intros t u Mt Mu. split; [|intros ->; reflexivity]. intros E. apply (name_ends t u [] [] Mt Mu); [exact I|exact I|]. rewrite !app_nil_r. exact E.
Qed.
