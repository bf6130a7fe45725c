(** * Dynamic fields: names, ids and their storage. *)

From Verif Require Import Tac RtAlloc RtErr RtInt RtInt2 RtEq RtMul RtDiv RtShift RtSwap RtAscii RtCopy Ops SpecAbi LemAbi SpecVal LemVal SpecSol RtPack SpecStor SpecLayout RtStor LemStor RtStore LemStore RtSave RtLoad RtLoadObj LemPlace LemObj SpecDyn RtDyn LemDyn RtChild.
Ltac Zify.zify_post_hook ::= idtac.

(** A name of type [t] at [x], in memory that fits. *)
Lemma hash_returned : forall t name w p x v F r w', name_at w t v x F -> Forall (fun c => 0 <= c < 256) name -> live w p 32 ->
  key_type t = true -> full v -> lenz (key_bytes t v) + lenz name < 2 ^ 31 -> returns (hash_type_and_key t name) [p; x] w r w' ->
  exists a, r = [a] /\ load_be 32 (mem w') a = hash (host w) (preimage (load_be 32 (mem w) p) t v name).
Proof.
  intros t name w p x v F r w' (Hw&V&SF) Hn Lp Kt Fv Sz R.
  pose proof (hash_type_and_key_spec t name w p x v F Kt Hn Hw Lp V SF Fv Sz) as S. cbv zeta in S.
  destruct (wpf_cases _ _ _ _ _ S) as [(vs&w1&R1&a&->&_&_&_&E)|(T&_)].
  - destruct (returns_unique _ _ _ _ _ _ _ R R1) as (->&->). exists a. split; [reflexivity|]. exact E.
  - exfalso. pose proof (evals_unique _ _ _ _ _ R T). discriminate.
Qed.

Lemma keys_distinguished : forall t name w1 p1 x1 v1 F1 r1 w1' w2 p2 x2 v2 F2 r2 w2', 
  one_vector t = true -> key_type t = true -> Forall (fun c => 0 <= c < 256) name ->
  name_at w1 t v1 x1 F1 -> name_at w2 t v2 x2 F2 -> live w1 p1 32 -> live w2 p2 32 -> keccak (host w1) = keccak (host w2) ->
  name_of t v1 -> name_of t v2 -> full v1 -> full v2 ->
  lenz (key_bytes t v1) + lenz name < 2 ^ 31 -> lenz (key_bytes t v2) + lenz name < 2 ^ 31 ->
  returns (hash_type_and_key t name) [p1; x1] w1 r1 w1' -> returns (hash_type_and_key t name) [p2; x2] w2 r2 w2' ->
  exists a1 a2, r1 = [a1] /\ r2 = [a2] /\
    let par1 := load_be 32 (mem w1) p1 in let par2 := load_be 32 (mem w2) p2 in
    (load_be 32 (mem w1') a1 = load_be 32 (mem w2') a2 -> par1 = par2 /\ v1 = v2 \/
     collision (host w1) (preimage par1 t v1 name) (preimage par2 t v2 name)).
Proof.
  intros t name w1 p1 x1 v1 F1 r1 w1' w2 p2 x2 v2 F2 r2 w2' O K Hn N1 N2 L1 L2 Ek T1 T2 U1 U2 S1 S2 R1 R2.
  destruct (hash_returned t name w1 p1 x1 v1 F1 r1 w1' N1 Hn L1 K U1 S1 R1) as (a1&->&E1).
  destruct (hash_returned t name w2 p2 x2 v2 F2 r2 w2' N2 Hn L2 K U2 S2 R2) as (a2&->&E2).
  exists a1, a2. split; [reflexivity|]. split; [reflexivity|]. cbv zeta. intros E. rewrite E1, E2 in E.
  set (q1 := preimage _ t v1 name) in *. set (q2 := preimage _ t v2 name) in *.
  destruct (list_eq_dec Z.eq_dec q1 q2) as [Q|Q].
  - left. eapply preimage_inj; [exact O|exact T1|exact T2|apply (load_be_range 32)|apply (load_be_range 32)|exact Q].
  - right. split; [exact Q|]. rewrite E. unfold hash. rewrite Ek. reflexivity.
Qed.

Lemma hash_completes : forall t name w p x v F, key_type t = true -> Forall (fun c => 0 <= c < 256) name ->
  name_at w t v x F -> live w p 32 -> full v -> lenz (key_bytes t v) + lenz name < 2 ^ 31 ->
  (exists a w', returns (hash_type_and_key t name) [p; x] w [a] w' /\ extends w w' /\ gnext w <= a /\ a + 32 = gnext w' /\
     load_be 32 (mem w') a = hash (host w) (preimage (load_be 32 (mem w) p) t v name)) \/
  (traps (hash_type_and_key t name) [p; x] w /\ oom w (lenz (preimage (load_be 32 (mem w) p) t v name) + 32)).
Proof.
  intros t name w p x v F Kt Hn (Hw&V&SF) Lp Fv Sz.
  pose proof (hash_type_and_key_spec t name w p x v F Kt Hn Hw Lp V SF Fv Sz) as S. cbv zeta in S.
  destruct (wpf_cases _ _ _ _ _ S) as [(vs&w1&R1&a&->&A1&A2&A3&E)|T]; [left|right; exact T].
  exists a, w1. auto 10.
Qed.

Definition two_bytes : val := VVec [VVec [VInt 1]; VVec [VInt 2]].
Definition one_string : val := VVec [VVec [VInt 1; VInt 2]].

Lemma nested_collide : forall name w p x1 x2 F1 F2, Forall (fun c => 0 <= c < 256) name -> lenz name < 2 ^ 30 ->
  name_at w (TVec (TVec TU8)) two_bytes x1 F1 -> name_at w (TVec (TVec TU8)) one_string x2 F2 -> live w p 32 -> ~ oom w (lenz name + 66) ->
  exists a1 w1 a2 w2, returns (hash_type_and_key (TVec (TVec TU8)) name) [p; x1] w [a1] w1 /\
    returns (hash_type_and_key (TVec (TVec TU8)) name) [p; x2] w [a2] w2 /\ load_be 32 (mem w1) a1 = load_be 32 (mem w2) a2.
Proof.
  intros name w p x1 x2 F1 F2 Hn Sz N1 N2 Lp Om.
  assert (B : forall q, (q = two_bytes \/ q = one_string) -> preimage (load_be 32 (mem w) p) (TVec (TVec TU8)) q name = be_bytes 32 (load_be 32 (mem w) p) ++ [1; 2] ++ name).
  { intros q [->| ->]; reflexivity. }
  assert (Le : lenz (be_bytes 32 (load_be 32 (mem w) p) ++ [1; 2] ++ name) + 32 = lenz name + 66).
  { unfold lenz. rewrite !app_length, be_bytes_length. cbn [List.length]. lia. }
  destruct (hash_completes (TVec (TVec TU8)) name w p x1 two_bytes F1) as [(a1&w1&R1&_&_&_&E1)|(_&O)]; try assumption; try reflexivity.
  { cbn. repeat split; discriminate. }
  { cbn [two_bytes key_bytes map List.concat app le_bytes int_size]. unfold lenz in *. cbn [List.length] in *. lia. }
  2:{ exfalso. apply Om. rewrite B, Le in O by auto. exact O. }
  destruct (hash_completes (TVec (TVec TU8)) name w p x2 one_string F2) as [(a2&w2&R2&_&_&_&E2)|(_&O)]; try assumption; try reflexivity.
  { cbn. repeat split; discriminate. }
  { cbn [one_string key_bytes map List.concat app le_bytes int_size]. unfold lenz in *. cbn [List.length] in *. lia. }
  2:{ exfalso. apply Om. rewrite B, Le in O by auto. exact O. }
  exists a1, w1, a2, w2. split; [exact R1|]. split; [exact R2|]. rewrite E1, E2, !B by auto. reflexivity.
Qed.

Lemma empty_name_traps : forall t name w p x F, is_stack t = true -> name_at w (TVec t) (VVec []) x F -> live w p 32 ->
  traps (hash_type_and_key (TVec t) name) [p; x] w.
Proof.
  intros t name w p x F St (Hw&V&SF) Lp. destruct (wpf_cases _ _ _ _ _ (hash_empty_traps t name w p x F St Hw Lp V SF)) as [(?&?&_&[])|(T&_)]. exact T.
Qed.

(** ** Fields in storage *)

Lemma stored_mod : forall h o i, stored h o i = stor h (slot_of h o i) mod 2 ^ 256.
Proof. reflexivity. Qed.
Lemma inspect_mod : forall t w, inspect t (w mod 2 ^ 256) = inspect t w.
Proof.
  intros t w. unfold inspect. rewrite Z.mod_mod by lia.
  replace (w mod 2 ^ 256 mod 2 ^ 64) with (w mod 2 ^ 64) by (apply (Znumtheory.Zmod_div_mod (2 ^ 64) (2 ^ 256)); [lia|lia|exists (2 ^ 192); reflexivity]). reflexivity.
Qed.

(** The answers of the four lookups to a reader in state [w]. *)
Lemma exists_iff : forall w pa ca, wok w -> statics w -> live w pa 32 -> live w ca 32 -> 468 <= ca ->
  exists w', returns has_child_object [pa; ca] w [if stored (host w) (load_be 32 (mem w) pa) (load_be 32 (mem w) ca) =? 0 then 0 else 1] w' /\
    frame w w' look_mem.
Proof.
  intros w pa ca Hw St L1 L2 Hc. destruct (has_child_object_spec w pa ca Hw St L1 L2 Hc) as (w'&R&Fr&_). exists w'. split; [|exact Fr].
  destruct (_ =? 0); exact R.
Qed.

Definition field_readable (ep : errtab) (h : Z) (fs : list ty) (vs : list val) (parent id : Z) (H : list Z -> Z) (st : Z -> Z) : Prop :=
  forall w pa ca, wok w -> errtab_ok ep -> statics w -> abort_flag w = 0 -> keccak (host w) = H -> stor (host w) = st ->
  live w pa 32 -> live w ca 32 -> 468 <= ca -> load_be 32 (mem w) pa = parent -> load_be 32 (mem w) ca = id ->
  (exists w', returns has_child_object [pa; ca] w [1] w') /\
  (forall h', 0 <= h' < 2 ^ 64 -> exists w', returns (has_child_object_with_ty h') [pa; ca] w [if h' =? h then 1 else 0] w') /\
  (forall u, uid_at w u pa -> wpf (borrow_child_object ep h fs) [u; ca] w (resq (fun r w' => exists a F, r = [a] /\ host w' = host w /\ live w' a 4 /\
     object_at (mem w') fs parent id vs (load 4 (mem w') a) F /\ sub F (heap w')) (ctrap w (existsb narrow fs) (36 + object_memory fs vs)))) /\
  (forall u, uid_at w u pa -> wpf (remove_child_object ep h fs) [u; ca] w (resq (fun r w' => exists x F, r = [x] /\ host w' = host w /\
     object_at (mem w') fs parent id vs x F /\ sub F (heap w')) (ctrap w (existsb narrow fs) (36 + object_memory fs vs)))).

Lemma readable_ok : forall ep h fs vs parent id hs, 0 < h < 2 ^ 64 ->
  let H := keccak hs in let st := stor hs in let k := slot_of hs parent id in legible H fs vs k ->
  st k mod 2 ^ 64 = bswap 8 h -> helds H st fs vs (k, 8) ->
  Forall (fun a => snd a < 2 ^ 256) (slots H fs vs (k, 8)) -> object_memory fs vs < 2 ^ 31 -> field_readable ep h fs vs parent id H st.
Proof.
  intros ep h fs vs parent id hs Hh H st k Pl Ht Hd Sl Mm w pa ca Hw He St Ab Ek Es Lp Lc Hc Ep Ei.
  assert (Sk : slot_of (host w) parent id = k) by (unfold k, slot_of, hash; rewrite Ek; reflexivity).
  assert (Pr : inspect (bswap 8 h) (st k) = Present) by (apply inspect_saved; assumption).
  assert (Sd : stored (host w) parent id = st k mod 2 ^ 256) by (unfold stored; rewrite Sk, Es; reflexivity).
  assert (Nz : st k mod 2 ^ 256 <> 0). { intros E. unfold inspect in Pr. rewrite E in Pr. discriminate. }
  assert (Bo : forall u, uid_at w u pa -> wpf (borrow_child_object ep h fs) [u; ca] w (resq (fun r w' => exists a F, r = [a] /\ host w' = host w /\
     grows (fun y => child_mem y \/ within 64 32 y) w w' /\ object_at (mem w') fs parent id vs (load 4 (mem w') a) F /\ sub F (heap w') /\ gnext w <= a /\ a + 4 <= gnext w')
     (ctrap w (existsb narrow fs) (36 + object_memory fs vs)))).
  { intros u (U1&U2&U3&U4&U5&U6&U7). unfold live in *. rewrite <- Ep, <- Ei, <- U5.
    apply borrow_child_object_spec; try assumption; try lia; rewrite ?U5, ?Ep, ?Ei, ?Sk, ?Ek, ?Es; assumption. }
  pose proof Hw as (_&_&P3&_).
  split; [|split; [|split]].
  - destruct (has_child_object_spec w pa ca Hw St Lp Lc Hc) as (w'&R&_). rewrite Ep, Ei, Sd in R. replace (st k mod 2 ^ 256 =? 0) with false in R by lia. eauto.
  - intros h' Hh'. destruct (has_child_object_with_ty_spec h' w pa ca Hw St Lp Lc Hc Hh') as (w'&R&_). rewrite Ep, Ei, Sd, inspect_mod in R. exists w'.
    replace (if h' =? h then 1 else 0) with (match inspect (bswap 8 h') (st k) with Present => 1 | _ => 0 end); [exact R|].
    unfold inspect. replace (st k mod 2 ^ 256 =? 0) with false by lia. rewrite Ht.
    destruct (Z.eqb_spec h' h) as [->|N]; [rewrite Z.eqb_refl; reflexivity|].
    destruct (Z.eqb_spec (bswap 8 h) (bswap 8 h')) as [X|X]; [|reflexivity].
    exfalso. apply N. rewrite <- (bswap_bswap 8 h'), <- X, bswap_bswap; [reflexivity| |]; change (256 ^ Z.of_nat 8) with (2 ^ 64); lia.
  - intros u U. eapply wpf_conseq; [exact (Bo u U)|]. intros o. destruct o; cbn [resq]; auto.
    intros (a&F&->&Eh&_&Ob&SF&G1&G2). exists a, F. split; [reflexivity|]. split; [exact Eh|]. split; [unfold live; lia|]. auto.
  - intros u U. eapply wpf_conseq.
    + apply (remove_child_object_spec ep h fs w u ca (fun x w' => host w' = host w /\ exists F, object_at (mem w') fs parent id vs x F /\ sub F (heap w')) (ctrap w (existsb narrow fs) (36 + object_memory fs vs))).
      eapply wpf_conseq; [exact (Bo u U)|]. intros o. destruct o; cbn [resq]; auto.
      intros (a&F&->&Eh&Gr&Ob&SF&G1&G2). exists a. split; [reflexivity|]. split; [unfold live; lia|]. split; [apply Gr|]. eauto.
    + intros o. destruct o; cbn [resq]; auto. intros (x&->&Eh&F&Ob&SF). eauto 10.
Qed.

Lemma field_round_trip : forall ep h fs w pa x owner id vs F, wok w -> errtab_ok ep -> statics w -> abort_flag w = 0 ->
  live w pa 32 -> forallb storable fs = true -> 0 < h < 2 ^ 64 -> object_at (mem w) fs owner id vs x F -> sub F (heap w) ->
  let H := keccak (host w) in let parent := load_be 32 (mem w) pa in let k := slot_of (host w) parent id in
  separate (slots H fs vs (k, 8)) -> no_shrinks H (stor (host w)) fs vs (k, 8) -> object_memory fs vs < 2 ^ 31 -> legible H fs vs k ->
  wpf (add_child_object ep h fs) [pa; x] w (resq (fun r w' => r = [] /\
     (forall y, ~ covers (slots H fs vs (k, 8)) y -> stor (host w') y = stor (host w) y) /\
     field_readable ep h fs vs parent id H (stor (host w'))) (oom w (32 + costs vs))).
Proof.
  intros ep h fs w pa x owner id vs F Hw He St Ab Lp Pl Hh Ob SF H parent k Se Ns Mm Lg.
  eapply wpf_conseq; [eapply (add_child_object_spec ep h fs w pa x owner id vs F); try eassumption; lia|]. cbv zeta. fold H. fold parent. fold k.
  intros o. destruct o; cbn [resq]; auto. intros (->&Gr&T&Hd&U). split; [reflexivity|]. split; [exact U|].
  assert (Ek : keccak (host w0) = H) by (eapply keccak_grows; exact Gr). rewrite <- Ek.
  apply readable_ok; try assumption.
  - unfold slot_of, hash. rewrite Ek. exact Lg.
  - unfold slot_of, hash. rewrite Ek. exact T.
  - unfold slot_of, hash. rewrite Ek. exact Hd.
  - unfold slot_of, hash. rewrite Ek. eapply Forall_impl; [|exact (proj2 Se)]. intros a (_&X). exact X.
Qed.

Lemma missing_field : forall ep h fs w pa ca u, wok w -> errtab_ok ep -> statics w -> abort_flag w = 0 -> uid_at w u pa ->
  live w ca 32 -> 468 <= ca -> 0 <= h < 2 ^ 64 ->
  let word := stored (host w) (load_be 32 (mem w) pa) (load_be 32 (mem w) ca) in
  forall e, (inspect (bswap 8 h) word, e) = (Missing, StorageObjectNotFound) \/ (inspect (bswap 8 h) word, e) = (Other_type, StorageObjectTypeMismatch) ->
  wpf (borrow_child_object ep h fs) [u; ca] w (resq (fun r w' => r = [BADF00D] /\ abort_flag w' = ep e /\ host w' = host w) (oom w 64)).
Proof.
  intros ep h fs w pa ca u Hw He St Ab (U1&U2&U3&U4&U5&U6&U7) Lc Hc Hh word e E. unfold live in Lc.
  apply borrow_child_object_err; try assumption; try lia. rewrite U5. unfold word, stored in E. rewrite inspect_mod in E. exact E.
Qed.
