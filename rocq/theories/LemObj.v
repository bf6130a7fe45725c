(** * Saving an object and loading it again. *)

From Verif Require Import Tac RtAlloc RtErr RtInt RtInt2 RtEq RtMul RtDiv RtShift RtSwap RtAscii RtCopy Ops SpecAbi LemAbi SpecVal LemVal SpecStor SpecLayout RtStor RtStore LemStore RtSave RtLoad RtLoadObj LemPlace.
Ltac Zify.zify_post_hook ::= idtac.

Lemma inspect_error : forall h word, inspect (bswap 8 h) word =
  match load_error h (word mod 2 ^ 256) with None => Present | Some StorageObjectNotFound => Missing | Some _ => Other_type end.
Proof.
  intros h word. unfold inspect, load_error.
  replace (word mod 2 ^ 256 mod 2 ^ 64) with (word mod 2 ^ 64) by (apply (Znumtheory.Zmod_div_mod (2 ^ 64) (2 ^ 256)); [lia|lia|exists (2 ^ 192); reflexivity]).
  destruct (word mod 2 ^ 256 =? 0); [reflexivity|]. destruct (word mod 2 ^ 64 =? bswap 8 h); reflexivity.
Qed.

Lemma bswap_zero : forall n v, 0 <= v < 256 ^ Z.of_nat n -> bswap n v = 0 -> v = 0.
Proof. intros n v B E. rewrite <- (bswap_bswap n v B), E. apply bswap_0. Qed.

Lemma inspect_saved : forall h word, 0 < h < 2 ^ 64 -> word mod 2 ^ 64 = bswap 8 h -> inspect (bswap 8 h) word = Present.
Proof.
  intros h word Hh E. unfold inspect. rewrite E, Z.eqb_refl. destruct (Z.eqb_spec (word mod 2 ^ 256) 0) as [X|X]; [|reflexivity].
  exfalso. assert (bswap 8 h = 0).
  { rewrite <- E. replace (word mod 2 ^ 64) with (word mod 2 ^ 256 mod 2 ^ 64) by (symmetry; apply (Znumtheory.Zmod_div_mod (2 ^ 64) (2 ^ 256)); [lia|lia|exists (2 ^ 192); reflexivity]). rewrite X. reflexivity. }
  apply (bswap_zero 8) in H; [lia|]. change (256 ^ Z.of_nat 8) with (2 ^ 64). lia.
Qed.

Lemma ctrap_oom : forall w b n, ctrap w b n -> b = false -> oom w n.
Proof. intros w b n [O|(B&_)] E; [exact O|congruence]. Qed.

Lemma costs_flat : forall fs vs, forallb flat fs = true -> typeds fs vs -> costs vs = 0.
Proof.
  assert (K : forall t, flat t = true -> forall v, typed t v -> cost v = 0).
  { intros t. refine (ty_rec' (fun t => flat t = true -> forall v, typed t v -> cost v = 0) _ _ _ _ _ _ _ t); clear t; try (intros _ v (n&->&_); reflexivity); try discriminate.
    - intros t S _ v Ty. destruct t; try discriminate; destruct Ty as (n&->&_); reflexivity.
    - intros [|] fs IH F v Ty; [discriminate|]. apply typed_struct in Ty. destruct Ty as (o&vs&->&_&Ty). cbn [flat] in F. apply andb_true_iff in F. destruct F as (_&F).
      change (cost (VStruct o vs)) with (costs vs). revert vs Ty. induction IH as [|t fs Ht _ IH]; intros vs Ty; inversion Ty; subst; [reflexivity|]. cbn [forallb] in F. apply andb_true_iff in F. destruct F as (F1&F2).
      cbn [costs fold_right]. rewrite (Ht F1) by assumption. fold (costs l'). rewrite (IH F2) by assumption. reflexivity. }
  induction fs as [|t fs IH]; intros vs F Ty; inversion Ty; subst; [reflexivity|]. cbn [forallb] in F. apply andb_true_iff in F. destruct F as (F1&F2).
  cbn [costs fold_right]. rewrite (K t F1) by assumption. fold (costs l'). rewrite (IH l' F2) by assumption. reflexivity.
Qed.

Lemma flat_plains : forall fs, forallb flat fs = true -> forallb plain fs = true.
Proof. intros fs F. rewrite forallb_forall in *. intros t Ht. apply flat_plain. auto. Qed.

Lemma flat_slots : forall fs, forallb flat fs = true -> forall H vs k, slots H fs vs (k, 8) = [(k, last_slot k fs)].
Proof. intros fs F H vs k. unfold slots. destruct (no_areas_flat fs F H (fun _ => 0) vs (k, 8)) as (->&_). reflexivity. Qed.

Lemma object_typed : forall m fs owner id vs x F, forallb storable fs = true -> object_at m fs owner id vs x F -> typeds fs vs.
Proof. intros m fs owner id vs x F Pl (a&b&c&G&_&_&_&_&_&_&_&_&_&_&_&Fl). eapply fields_typed; eassumption. Qed.

Lemma save_flat : forall ep h fs w x p owner id vs F k, ready ep w p -> load_be 32 (mem w) 0 = 0 ->
  load_be 32 (mem w) p = k -> forallb flat fs = true -> 0 <= h < 2 ^ 64 ->
  object_at (mem w) fs owner id vs x F -> sub F (heap w) -> disj F (between p (p + 32)) -> last_slot k fs < 2 ^ 256 ->
  exists w', returns (save_object ep h fs) [x; p] w [] w' /\ grows (slot_mem p) w w' /\ stor (host w') k mod 2 ^ 64 = bswap 8 h /\
    typeds fs vs /\ placed (stor (host w')) (object_places k fs) (object_ints vs) /\ helds (keccak (host w)) (stor (host w')) fs vs (k, 8) /\
    (forall y, y < k \/ last_slot k fs < y -> stor (host w') y = stor (host w) y).
Proof.
  intros ep h fs w x p owner id vs F k Rd Z0 Lp Fl Hh Ob SF DF Rg. pose proof (plains_storable fs (flat_plains fs Fl)) as Pl. pose proof (object_typed _ _ _ _ _ _ _ Pl Ob) as Ty.
  destruct (no_areas_flat fs Fl (keccak (host w)) (stor (host w)) vs (k, 8)) as (Ea&Ns).
  pose proof (save_object_spec ep h fs w x p owner id vs F k Rd Z0 Lp Pl Hh Ob SF DF) as S. cbv zeta in S. rewrite (flat_slots fs Fl) in S.
  pose proof (load_be_range 32 (mem w) p) as Rk. rewrite Lp in Rk.
  assert (Se : separate [(k, last_slot k fs)]).
  { split; [constructor; constructor|]. constructor; [cbn [fst snd]; lia|constructor]. }
  specialize (S Se Ns).
  assert (Cv : forall y, y < k \/ last_slot k fs < y -> ~ covers [(k, last_slot k fs)] y).
  { intros y Hy ([a b]&[E|[]]&Y). injection E as <- <-. cbn [fst snd] in Y. lia. }
  destruct (wpf_returns (save_object ep h fs) [x; p] w (fun r w' => r = [] /\ grows (slot_mem p) w w' /\ stor (host w') k mod 2 ^ 64 = bswap 8 h /\
    helds (keccak (host w)) (stor (host w')) fs vs (k, 8) /\ (forall y, ~ covers [(k, last_slot k fs)] y -> stor (host w') y = stor (host w) y))) as (r&w'&R&->&G&Hk&Hd&U).
  { eapply wpf_conseq; [exact S|]. intros o. destruct o; cbn [resq]; try tauto. rewrite (costs_flat fs vs Fl Ty). unfold nomem. lia. }
  exists w'. split; [exact R|]. split; [exact G|]. split; [exact Hk|]. split; [exact Ty|].
  destruct (flats_ok fs (flats_all fs) Fl (keccak (host w)) (stor (host w')) vs (k, 8)) as (_&P). split; [apply P; exact Hd|]. split; [exact Hd|]. auto.
Qed.

(** Loading what storage holds. *)
Lemma load_ok : forall ep h fs w p sid ow k vs, ready ep w p -> 468 <= sid -> sid + 32 <= gnext w -> (sid + 32 <= p \/ p + 32 <= sid) ->
  0 <= ow -> ow + 32 <= gnext w -> load_be 32 (mem w) p = k ->
  0 <= h < 2 ^ 64 -> inspect (bswap 8 h) (stor (host w) k) = Present -> legible (keccak (host w)) fs vs k ->
  helds (keccak (host w)) (stor (host w)) fs vs (k, 8) -> Forall (fun a => snd a < 2 ^ 256) (slots (keccak (host w)) fs vs (k, 8)) -> object_memory fs vs < 2 ^ 31 ->
  wpf (load_object ep h fs) [p; sid; ow] w (resq (fun r w' => exists x F, r = [x] /\ seen (slot_mem p) w w' /\ gnext w' <= gnext w + object_memory fs vs /\
     object_at (mem w') fs (load_be 32 (mem w) ow) (load_be 32 (mem w) sid) vs x F /\ sub F (union (between (gnext w) (gnext w')) (between sid (sid + 32))))
   (ctrap w (existsb narrow fs) (object_memory fs vs))).
Proof.
  intros ep h fs w p sid ow k vs Rd Hs Hs2 Hsp Ho Ho2 Lp Hh In Pl Hd Sl Mm. eapply load_object_ok; try eassumption.
  rewrite inspect_error in In. destruct (load_error h (stor (host w) k mod 2 ^ 256)) as [[]|]; try discriminate. reflexivity.
Qed.

Lemma load_err : forall ep h fs w p sid ow k, ready ep w p -> 0 <= sid < 2 ^ 32 -> 0 <= ow -> ow + 32 <= gnext w -> load_be 32 (mem w) p = k ->
  0 <= h < 2 ^ 64 -> forall e, (inspect (bswap 8 h) (stor (host w) k), e) = (Missing, StorageObjectNotFound) \/
    (inspect (bswap 8 h) (stor (host w) k), e) = (Other_type, StorageObjectTypeMismatch) ->
  wpf (load_object ep h fs) [p; sid; ow] w (resq (fun r w' => r = [BADF00D] /\ exists w1, seen (slot_mem p) w w1 /\ aborted ep e w1 w') (oom w 32)).
Proof.
  intros ep h fs w p sid ow k Rd Hs Ho Ho2 Lp Hh e E. eapply load_object_err; try eassumption. unfold inspect, load_error in *.
  assert (M : stor (host w) k mod 2 ^ 256 mod 2 ^ 64 = stor (host w) k mod 2 ^ 64) by (symmetry; apply (Znumtheory.Zmod_div_mod (2 ^ 64) (2 ^ 256)); [lia|lia|exists (2 ^ 192); reflexivity]).
  rewrite M. destruct (stor (host w) k mod 2 ^ 256 =? 0); [|destruct (stor (host w) k mod 2 ^ 64 =? bswap 8 h)]; destruct E as [E|E]; congruence.
Qed.

(** Saving and loading again, in any later state that has the same storage. *)
Definition reloads (ep : errtab) (h : Z) (fs : list ty) (vs : list val) (k : Z) (H : list Z -> Z) (st : Z -> Z) : Prop :=
  forall w p sid ow, ready ep w p -> keccak (host w) = H -> stor (host w) = st -> load_be 32 (mem w) p = k ->
  468 <= sid -> sid + 32 <= gnext w -> (sid + 32 <= p \/ p + 32 <= sid) -> 0 <= ow -> ow + 32 <= gnext w ->
  wpf (load_object ep h fs) [p; sid; ow] w (resq (fun r w' => exists x F, r = [x] /\ host w' = host w /\
     object_at (mem w') fs (load_be 32 (mem w) ow) (load_be 32 (mem w) sid) vs x F /\ sub F (heap w'))
   (ctrap w (existsb narrow fs) (object_memory fs vs))).

Lemma reloads_ok : forall ep h fs vs k H st, 0 < h < 2 ^ 64 -> legible H fs vs k -> st k mod 2 ^ 64 = bswap 8 h -> helds H st fs vs (k, 8) ->
  Forall (fun a => snd a < 2 ^ 256) (slots H fs vs (k, 8)) -> object_memory fs vs < 2 ^ 31 -> reloads ep h fs vs k H st.
Proof.
  intros ep h fs vs k H st Hh Pl Ht Hd Sl Mm w p sid ow Rd <- <- Lp Hs1 Hs2 Hs3 Ho1 Ho2.
  eapply wpf_conseq; [eapply (load_ok ep h fs w p sid ow k vs); try eassumption; [lia|apply inspect_saved; assumption]|].
  intros o. destruct o; cbn [resq]; auto. intros (x&F&->&S&G&O&SF). exists x, F. split; [reflexivity|]. split; [apply S|]. split; [exact O|].
  pose proof S as ((_&_&_&G'&_)&_). pose proof Rd as ((_&_&P3&_)&_).
  intros y Hy. apply SF in Hy. unfold heap. destruct Hy as [Hy|Hy]; unfold between in *; lia.
Qed.

Lemma load_flat : forall ep h fs w p sid ow vs k, ready ep w p -> load_be 32 (mem w) p = k ->
  468 <= sid -> sid + 32 <= gnext w -> (sid + 32 <= p \/ p + 32 <= sid) -> 0 <= ow -> ow + 32 <= gnext w ->
  forallb flat fs = true -> 0 <= h < 2 ^ 64 -> last_slot k fs < 2 ^ 256 -> object_memory fs vs < 2 ^ 31 ->
  inspect (bswap 8 h) (stor (host w) k) = Present -> typeds fs vs ->
  placed (stor (host w)) (object_places k fs) (object_ints vs) ->
  wpf (load_object ep h fs) [p; sid; ow] w (resq (fun r w' => exists x F, r = [x] /\ host w' = host w /\
     object_at (mem w') fs (load_be 32 (mem w) ow) (load_be 32 (mem w) sid) vs x F /\ sub F (heap w'))
   (ctrap w (existsb narrow fs) (object_memory fs vs))).
Proof.
  intros ep h fs w p sid ow vs k Rd Lp Hs1 Hs2 Hs3 Ho1 Ho2 Fl Hh La Mm In Ty Pd.
  destruct (flats_ok fs (flats_all fs) Fl (keccak (host w)) (stor (host w)) vs (k, 8)) as (_&P).
  eapply wpf_conseq; [eapply (load_ok ep h fs w p sid ow k vs); try eassumption; [left; apply flat_plains; exact Fl|apply P; split; assumption|rewrite flat_slots by exact Fl; constructor; [exact La|constructor]]|].
  intros o. destruct o; cbn [resq]; auto. intros (x&F&->&S&G&O&SF). exists x, F. split; [reflexivity|]. split; [apply S|]. split; [exact O|].
  pose proof S as ((_&_&_&G'&_)&_). pose proof Rd as ((_&_&P3&_)&_).
  intros y Hy. apply SF in Hy. unfold heap. destruct Hy as [Hy|Hy]; unfold between in *; lia.
Qed.

Lemma round_trip_flat : forall ep h fs w x p owner id vs F k, ready ep w p -> load_be 32 (mem w) 0 = 0 ->
  load_be 32 (mem w) p = k -> forallb flat fs = true -> 0 < h < 2 ^ 64 ->
  object_at (mem w) fs owner id vs x F -> sub F (heap w) -> disj F (between p (p + 32)) -> last_slot k fs < 2 ^ 256 ->
  object_memory fs vs < 2 ^ 31 ->
  exists w', returns (save_object ep h fs) [x; p] w [] w' /\
    (forall y, y < k \/ last_slot k fs < y -> stor (host w') y = stor (host w) y) /\
    reloads ep h fs vs k (keccak (host w)) (stor (host w')).
Proof.
  intros ep h fs w x p owner id vs F k Rd Z0 Lp Fl Hh Ob SF DF La Mm.
  destruct (save_flat ep h fs w x p owner id vs F k) as (w'&R&_&T&Ty&P&Hd&U); try assumption; [lia|]. exists w'. split; [exact R|]. split; [exact U|].
  apply reloads_ok; try assumption; [left; apply flat_plains; exact Fl|]. rewrite flat_slots by exact Fl. constructor; [exact La|constructor].
Qed.

Lemma round_trip_plain : forall ep h fs w x p owner id vs F k, ready ep w p -> load_be 32 (mem w) 0 = 0 ->
  load_be 32 (mem w) p = k -> forallb plain fs = true -> 0 < h < 2 ^ 64 ->
  object_at (mem w) fs owner id vs x F -> sub F (heap w) -> disj F (between p (p + 32)) ->
  let H := keccak (host w) in
  separate (slots H fs vs (k, 8)) -> no_shrinks H (stor (host w)) fs vs (k, 8) -> object_memory fs vs < 2 ^ 31 ->
  wpf (save_object ep h fs) [x; p] w (resq (fun r w' => r = [] /\
    helds H (stor (host w')) fs vs (k, 8) /\
    (forall y, ~ covers (slots H fs vs (k, 8)) y -> stor (host w') y = stor (host w) y) /\
    reloads ep h fs vs k H (stor (host w'))) (oom w (costs vs))).
Proof.
  intros ep h fs w x p owner id vs F k Rd Z0 Lp Pl Hh Ob SF DF H Se Ns Mm.
  eapply wpf_conseq; [eapply (save_object_spec ep h fs w x p owner id vs F k); try eassumption; [apply plains_storable; exact Pl|lia]|]. fold H.
  intros o. destruct o; cbn [resq]; auto.
  - intros (->&G&N&T&Hd&U). split; [reflexivity|]. split; [exact Hd|]. split; [exact U|]. apply reloads_ok; try assumption; [left; exact Pl|].
    eapply Forall_impl; [|exact (proj2 Se)]. intros a (_&X). exact X.
  - unfold nomem. tauto.
Qed.

Lemma load_err_flag : forall ep h fs w p sid ow k, ready ep w p -> 0 <= sid < 2 ^ 32 -> 0 <= ow -> ow + 32 <= gnext w -> load_be 32 (mem w) p = k ->
  0 <= h < 2 ^ 64 -> forall e, (inspect (bswap 8 h) (stor (host w) k), e) = (Missing, StorageObjectNotFound) \/
    (inspect (bswap 8 h) (stor (host w) k), e) = (Other_type, StorageObjectTypeMismatch) ->
  wpf (load_object ep h fs) [p; sid; ow] w (resq (fun r w' => r = [BADF00D] /\ abort_flag w' = ep e /\ host w' = host w) (oom w 32)).
Proof.
  intros ep h fs w p sid ow k Rd Hs Ho Ho2 Lp Hh e E. eapply wpf_conseq; [eapply (load_err ep h fs w p sid ow k); eassumption|].
  intros o. destruct o; cbn [resq]; auto. intros (->&w1&S&(Fr&A)). split; [reflexivity|]. split; [exact A|]. transitivity (host w1); [apply Fr|apply S].
Qed.

(** ** Objects with enums *)

Lemma object_storable_typed : forall m fs owner id vs x F, forallb storable fs = true -> object_at m fs owner id vs x F -> typeds fs vs.
Proof. intros m fs owner id vs x F Pl (a&b&c&G&_&_&_&_&_&_&_&_&_&_&_&Fl). eapply fields_typed; eassumption. Qed.

Lemma load_storable : forall ep h fs w p sid ow vs k, ready ep w p -> load_be 32 (mem w) p = k ->
  468 <= sid -> sid + 32 <= gnext w -> (sid + 32 <= p \/ p + 32 <= sid) -> 0 <= ow -> ow + 32 <= gnext w ->
  forallb storable fs = true -> 0 <= h < 2 ^ 64 -> object_memory fs vs < 2 ^ 31 ->
  inspect (bswap 8 h) (stor (host w) k) = Present ->
  let H := keccak (host w) in
  helds H (stor (host w)) fs vs (k, 8) -> fetcheds H fs vs (k, 8) true <> None ->
  Forall (fun a => snd a < 2 ^ 256) (slots H fs vs (k, 8)) ->
  wpf (load_object ep h fs) [p; sid; ow] w (resq (fun r w' => exists x F, r = [x] /\ host w' = host w /\
     object_at (mem w') fs (load_be 32 (mem w) ow) (load_be 32 (mem w) sid) vs x F /\ sub F (heap w'))
   (ctrap w (existsb narrow fs) (object_memory fs vs))).
Proof.
  intros ep h fs w p sid ow vs k Rd Lp Hs1 Hs2 Hs3 Ho1 Ho2 Pl Hh Mm In H Hd Nn Sl.
  eapply wpf_conseq; [eapply (load_storable_ok ep h fs w p sid ow k vs); try eassumption|].
  { rewrite inspect_error in In. destruct (load_error h (stor (host w) k mod 2 ^ 256)) as [[]|]; try discriminate. reflexivity. }
  intros o. destruct o; cbn [resq]; auto. intros (x&F&->&S&G&O&SF). exists x, F. split; [reflexivity|]. split; [apply S|]. split; [exact O|].
  pose proof S as ((_&_&_&G'&_)&_). pose proof Rd as ((_&_&P3&_)&_).
  intros y Hy. apply SF in Hy. unfold heap. destruct Hy as [Hy|Hy]; unfold between in *; lia.
Qed.

Lemma save_storable : forall ep h fs w x p owner id vs F k, ready ep w p -> load_be 32 (mem w) 0 = 0 ->
  load_be 32 (mem w) p = k -> forallb storable fs = true -> 0 <= h < 2 ^ 64 ->
  object_at (mem w) fs owner id vs x F -> sub F (heap w) -> disj F (between p (p + 32)) ->
  let H := keccak (host w) in
  separate (slots H fs vs (k, 8)) -> no_shrinks H (stor (host w)) fs vs (k, 8) ->
  wpf (save_object ep h fs) [x; p] w (resq (fun r w' => r = [] /\ stor (host w') k mod 2 ^ 64 = bswap 8 h /\
    helds H (stor (host w')) fs vs (k, 8) /\
    (forall y, covers (unused_of H fs vs (k, 8)) y -> stor (host w') y = 0) /\
    (forall y, ~ covers (slots H fs vs (k, 8)) y -> stor (host w') y = stor (host w) y)) (oom w (costs vs))).
Proof.
  intros ep h fs w x p owner id vs F k Rd Z0 Lp Pl Hh Ob SF DF H Se Ns.
  eapply wpf_conseq; [eapply (save_storable_spec ep h fs w x p owner id vs F k); eassumption|]. fold H.
  intros o. destruct o; cbn [resq]; auto.
  - intros (->&G&N&T&Hd&U&V). auto.
  - unfold nomem. tauto.
Qed.

Lemma round_trip_storable : forall ep h fs w x p owner id vs F k, ready ep w p -> load_be 32 (mem w) 0 = 0 ->
  load_be 32 (mem w) p = k -> forallb storable fs = true -> 0 < h < 2 ^ 64 ->
  object_at (mem w) fs owner id vs x F -> sub F (heap w) -> disj F (between p (p + 32)) ->
  let H := keccak (host w) in
  separate (slots H fs vs (k, 8)) -> no_shrinks H (stor (host w)) fs vs (k, 8) -> object_memory fs vs < 2 ^ 31 ->
  fetcheds H fs vs (k, 8) true <> None ->
  wpf (save_object ep h fs) [x; p] w (resq (fun r w' => r = [] /\ reloads ep h fs vs k H (stor (host w'))) (oom w (costs vs))).
Proof.
  intros ep h fs w x p owner id vs F k Rd Z0 Lp Pl Hh Ob SF DF H Se Ns Mm Nn.
  eapply wpf_conseq; [eapply (save_storable ep h fs w x p owner id vs F k); try eassumption; lia|]. fold H.
  intros o. destruct o; cbn [resq]; auto. intros (->&T&Hd&_&_). split; [reflexivity|].
  intros w1 p1 sid ow Rd1 E1 E2 Lp1 Hs1 Hs2 Hs3 Ho1 Ho2.
  eapply (load_storable ep h fs w1 p1 sid ow vs k); try eassumption; try lia; rewrite ?E1, ?E2; try assumption.
  - apply inspect_saved; assumption.
  - eapply Forall_impl; [|exact (proj2 Se)]. intros a (_&X). exact X.
Qed.
