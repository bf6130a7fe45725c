(** * Transferring, sharing and freezing objects with objects inside: native_functions/transfer.rs 22-448. *)

From Verif Require Import Tac RtAlloc RtErr RtInt RtInt2 RtEq RtMul RtDiv RtShift RtSwap RtAscii RtCopy RtCopy2 Ops SpecAbi LemAbi SpecVal LemVal SpecStor SpecLayout RtStor LemStor RtEnumPos RtStore LemStore RtSave RtLoad RtLoadObj LemPlace LemObj RtChild LemDelete RtDelete SpecMove RtTransfer RtCache LemMove SpecWrap RtWrap SpecTto RtTto LemTto.
Ltac Zify.zify_post_hook ::= idtac.

(** native_functions/transfer.rs 122-139, 258-275, 400-416: what is stored for the object under its owner is deleted,
    and so are the objects put into it under their former owners.  [o]: the local with owner_ptr. *)
Definition leave_tree (ep : errtab) (fs : list shape) (o : nat) : list instr :=
 [ Block "del" 0 [ LocalGet o; Const 32; Call is_zero; BrIf "del"; LocalGet 0; Call (delete_object ep (map slot_ty fs)) ];
   LocalGet 0; Call (check_tree ep fs) ].

(** native_functions/transfer.rs 22-173 [add_transfer_object_fn].  Locals: 0 struct_ptr, 1 recipient_ptr,
    2 owner_ptr, 3 id_bytes_ptr, 4 slot_ptr, 5 the error. *)
Definition transfer_tree (ep : errtab) (h : Z) (fs : list shape) : func := Func 2 4 0
 ([ LocalGet 0; Const 32; Bin I32 Sub; LocalSet 2;
    Block "shared" 0
      ([ LocalGet 2; Const A_SHARED; Const 32; Call a_equals_b; Un Eqz; BrIf "shared" ] ++
       return_error ep SharedObjectsCannotBeTransferred 5 false);
    Block "frozen" 0
      ([ LocalGet 2; Const A_FROZEN; Const 32; Un Eqz; Call a_equals_b; BrIf "frozen" ] ++
       return_error ep FrozenObjectsCannotBeTransferred 5 false) ] ++
  leave_tree ep fs 2 ++
  [ LocalGet 2; LocalGet 1; Const 32; MemCopy;
    LocalGet 0; Call get_id_bytes_ptr; LocalSet 3;
    Const 32; Call alloc; LocalSet 4;
    LocalGet 1; LocalGet 3; LocalGet 4; Call write_object_slot;
    LocalGet 0; LocalGet 4; Call (save_tree ep h fs) ]).

(** native_functions/transfer.rs 258-301, 399-443: the object moves to the mapping of the key at [key]. *)
Definition settle_tree (ep : errtab) (h : Z) (fs : list shape) (key : Z) : list instr :=
  leave_tree ep fs 1 ++
  [ LocalGet 1; Const key; Const 32; MemCopy;
    Const 32; Call alloc; LocalSet 2;
    Const key; LocalGet 0; Call get_id_bytes_ptr; LocalGet 2; Call write_object_slot;
    LocalGet 0; LocalGet 2; Call (save_tree ep h fs) ].

(** native_functions/transfer.rs 176-307 [add_share_object_fn].  Locals: 0 struct_ptr, 1 owner_ptr, 2 slot_ptr,
    3 the error. *)
Definition share_tree (ep : errtab) (h : Z) (fs : list shape) : func := Func 1 3 0
 [ Block "block" 0
     [ LocalGet 0; Const 32; Bin I32 Sub; LocalSet 1;
       LocalGet 1; Const A_SHARED; Const 32; Call a_equals_b; BrIf "block";
       LocalGet 1; Const A_FROZEN; Const 32; Call a_equals_b;
       If 0 (return_error ep FrozenObjectsCannotBeShared 3 false) (settle_tree ep h fs A_SHARED) ] ].

(** native_functions/transfer.rs 310-448 [add_freeze_object_fn].  Locals as above. *)
Definition freeze_tree (ep : errtab) (h : Z) (fs : list shape) : func := Func 1 3 0
 [ Block "block" 0
     [ LocalGet 0; Const 32; Bin I32 Sub; LocalTee 1;
       Const A_FROZEN; Const 32; Call a_equals_b; BrIf "block";
       LocalGet 1; Const A_SHARED; Const 32; Call a_equals_b;
       If 0 (return_error ep SharedObjectsCannotBeFrozen 3 false) (settle_tree ep h fs A_FROZEN) ] ].

(** For objects without objects inside, these are the functions of RtTransfer.v. *)
Lemma slot_tys_flat : forall fs, map slot_ty (map Value fs) = fs.
Proof. intros fs. rewrite map_map. cbn [slot_ty]. apply map_id. Qed.
Lemma leave_tree_flat : forall ep fs o, leave_tree ep (map Value fs) o = leave ep fs o.
Proof. intros. unfold leave_tree. rewrite check_tree_flat, slot_tys_flat. reflexivity. Qed.
Lemma transfer_tree_flat : forall ep h fs, transfer_tree ep h (map Value fs) = transfer_object ep h fs.
Proof. intros. unfold transfer_tree. rewrite leave_tree_flat, save_tree_flat. reflexivity. Qed.
Lemma share_tree_flat : forall ep h fs, share_tree ep h (map Value fs) = share_object ep h fs.
Proof. intros. unfold share_tree, settle_tree. rewrite leave_tree_flat, save_tree_flat. reflexivity. Qed.
Lemma freeze_tree_flat : forall ep h fs, freeze_tree ep h (map Value fs) = freeze_object ep h fs.
Proof. intros. unfold freeze_tree, settle_tree. rewrite leave_tree_flat, save_tree_flat. reflexivity. Qed.

(** ** Leaving the former places *)

Lemma id_of_placed : forall w x owner id, placed_at w x owner id -> wok w ->
  exists c, returns get_id_bytes_ptr [x] w [c] w /\ load_be 32 (mem w) c = id /\ 468 <= c /\ c + 32 <= gnext w /\ c = load 4 (mem w) (load 4 (mem w) (load 4 (mem w) x)).
Proof.
  intros w x owner id (X1&X2&Lo&Pt) Hw. cbv zeta in Pt. destruct Pt as (A1&A2&B1&B2&C1&C2&Li). pose proof Hw as (P1&P2&P3&P4&P5&P6).
  exists (load 4 (mem w) (load 4 (mem w) (load 4 (mem w) x))). split; [|auto].
  apply RtDelete.returns_intro. apply wpf_intro; [reflexivity|]. wc. ws1. ws1. ws1. ws1. ws1. auto.
Qed.

Lemma leave_tree_wp : forall ep fs o w x owner id vs F uss r (Q : outcome -> Prop) s l, wok w -> errtab_ok ep -> statics w ->
  tree_at (mem w) fs owner id vs x F -> sub F (heap w) -> forallb direct fs = true ->
  let H := keccak (host w) in let D := departures fs owner id vs in
  Forall2 (was_there H (stor (host w))) D uss -> separate (formers H D uss) ->
  nth_error l o = Some (x - 32) -> nth_error l 0 = Some x ->
  (nomem w (weigh uss) -> Q OTrap) ->
  (forall w' owner', cleared w w' F (formers H D uss) (weigh uss) -> tree_at (mem w') fs owner' id (all_settled fs id vs) x F -> wp r Q s l w') ->
  wp (leave_tree ep fs o ++ r) Q s l w.
Proof.
  intros ep fs o w x owner id vs F uss r Q s l Hw He St Tr SF Di H D Was Se Lo L0 T K. pose proof Hw as (P1&P2&P3&P4&P5&P6).
  pose proof (tree_placed w fs owner id vs x F Tr SF) as Pt. pose proof Pt as (X1&X2&Eo&_).
  assert (Tail : forall w1 o1 C1 n1 us1, cleared w w1 F C1 n1 -> 0 <= n1 -> statics w1 -> sub F (heap w1) -> tree_at (mem w1) fs o1 id vs x F ->
    Forall2 (was_there H (stor (host w1))) (all_arrivals fs id vs) us1 -> separate (formers H (all_arrivals fs id vs) us1) ->
    formers H D uss = C1 ++ formers H (all_arrivals fs id vs) us1 -> weigh uss = n1 + weigh us1 ->
    wp (LocalGet 0 :: Call (check_tree ep fs) :: r) Q s l w1).
  { intros w1 o1 C1 n1 us1 Cl N1 St1 SF1 Tr1 W1 S1 EC Ew. pose proof Cl as (G1&_). assert (EH : keccak (host w1) = H) by (apply (keccak_grows _ _ _ G1)).
    eapply wp_lget; [exact L0|]. eapply wp_call_spec; [reflexivity|cbn [List.length]; lia|wc; eapply (check_tree_spec ep fs w1 x o1 id vs F us1); try assumption| |].
    - apply G1.
    - rewrite EH. exact W1.
    - rewrite EH. exact S1.
    - intros N. apply T. rewrite Ew. exact (cleared_next w w1 F C1 C1 n1 (weigh us1) Cl N N1 eq_refl).
    - rewrite EH. intros rs w2 (->&Cl2&Tr2). wc. apply (K w2 o1); [|exact Tr2]. rewrite EC, Ew. eapply cleared_trans; eassumption. }
  unfold leave_tree. cbn [app].
  apply wp_block. eapply wp_lget; [exact Lo|]. ws1. eapply wp_call; [reflexivity|cbn [List.length]; lia|]. wc.
  eapply returns_wpf; [apply is_zero_be; [exact Hw|unfold live; lia]|]. wc. rewrite Eo.
  assert (Dz : owner = 0 -> D = all_arrivals fs id vs) by (intros ->; reflexivity).
  assert (Dn : owner <> 0 -> D = (map slot_ty fs, owner, id) :: all_arrivals fs id vs) by (intros A; unfold D, departures; rewrite (proj2 (Z.eqb_neq _ _) A); reflexivity). clearbody D.
  apply wp_brif; intros C; unb C; wc.
  - destruct (Z.eqb_spec owner 0) as [E|E]; [|discriminate]. rewrite (Dz E) in Was, Se.
    apply (Tail w owner [] 0 uss); try assumption; [apply cleared_refl; exact Hw|lia|rewrite (Dz E); reflexivity|reflexivity].
  - destruct (Z.eqb_spec owner 0) as [E|E]; [discriminate|]. clear C. pose proof (Dn E) as ED. clear Dz Dn. rewrite ED in Was, Se.
    destruct uss as [|us uss]; [inversion Was|]. assert (W : was_there H (stor (host w)) (map slot_ty fs, owner, id) us) by (inversion Was; assumption). assert (Ws : Forall2 (was_there H (stor (host w))) (all_arrivals fs id vs) uss) by (inversion Was; assumption). clear Was.
    cbn [formers] in Se. destruct (separate_parts _ _ Se) as (Se1&Se2&Dj). destruct W as (W1&W2&W3&W4). cbn [former] in Se1, Dj.
    assert (Un : 0 <= costs us) by apply costs_nonneg. assert (Ew : weigh (us :: uss) = costs us + weigh uss) by reflexivity. pose proof (weigh_nonneg uss) as Un2.
    eapply wp_lget; [exact L0|]. eapply wp_call_spec; [reflexivity|cbn [List.length]; lia| | |].
    + wc. eapply (delete_object_spec ep (map slot_ty fs) w x owner id us); try assumption. destruct (kept_shapes H (stor (host w)) (map slot_ty fs) us owner (home H owner id)) as (_&_&Sh); [|exact E|exact Sh]. intros _. split; [exact W3|]. split; [exact W4|exact Se1].
    + intros (N1&N2). apply T. rewrite Ew. split; [lia|]. eapply oom_mono; [exact N2|lia].
    + intros rs w1 (->&G1&N1&Z1&C1&C2). wc. apply wp_nil. wc.
      assert (Sx : forall y, within (x - 32) 32 y -> F y).
      { intros y Hy. destruct Tr as (a&b&c&G&_&_&_&_&_&Sx&_). apply Sx. unfold within, between in *. lia. }
      assert (Gt : grows (tto_mem F) w w1) by (eapply grows_mono; [exact G1|]; intros y _ [Y|[Y|Y]]; unfold tto_mem; auto).
      change (slot_of (host w) owner id) with (home H owner id) in C1, C2. fold H in C1, C2.
      apply (Tail w1 0 (slots H (map slot_ty fs) us (home H owner id, 8)) (costs us) uss).
      * split; [exact Gt|]. split; [exact N1|]. split; [exact C1|exact C2].
      * exact Un.
      * exact (statics_tto w w1 F St Hw SF Gt).
      * eapply heap_grows; eassumption.
      * eapply tree_reown; [exact Tr| |exact Z1]. intros y Hy Ny. pose proof (SF y Hy) as B. unfold heap, between in B. destruct G1 as (_&_&_&_&_&_&G1). apply G1; [lia|].
        unfold del_mem, slot_mem, within in *. lia.
      * eapply was_there_kept; [exact Ws|]. intros y Hy. apply C2. intros Y. exact (Dj y Y Hy).
      * exact Se2.
      * rewrite ED. reflexivity.
      * exact Ew.
Qed.

(** ** Arriving at the new one *)

(** Computing the slot under the key at [kp] and saving the object there; [p]: the memory for the slot number. *)
Lemma arrive_tree_wp : forall ep h fs j w x owner id vs F kp c p r (Q : outcome -> Prop) s l, wok w -> errtab_ok ep -> statics w ->
  tree_at (mem w) fs owner id vs x F -> sub F (between 468 p) -> p + 32 = gnext w -> forallb sound fs = true -> 0 <= h < 2 ^ 64 ->
  0 <= kp -> kp + 32 <= p -> load_be 32 (mem w) kp = owner -> 468 <= c -> c + 32 <= p -> load_be 32 (mem w) c = id ->
  let H := keccak (host w) in let k := home H owner id in
  separate (tree_slots H fs id vs k) -> lastings H (stor (host w)) fs id vs (k, 8) ->
  nth_error l 0 = Some x -> nth_error l j = Some p ->
  (nomem w (wcosts fs vs) -> Q OTrap) ->
  (forall w', grows (wmem p) w w' -> gnext w' <= gnext w + wcosts fs vs -> tree_at (mem w') fs owner id vs x F ->
     stor (host w') k mod 2 ^ 64 = bswap 8 h -> contents H (stor (host w')) fs id vs (k, 8) ->
     (forall y, ~ covers (tree_slots H fs id vs k) y -> stor (host w') y = stor (host w) y) -> wp r Q s l w') ->
  wp (Call write_object_slot :: LocalGet 0 :: LocalGet j :: Call (save_tree ep h fs) :: r) Q (p :: c :: kp :: s) l w.
Proof.
  intros ep h fs j w x owner id vs F kp c p r Q s l Hw He (S0&S1&S2&S3&S4) Ob SF Gp Pl Hh Hkp Hkp2 Lk Hc Hc2 Lc H k Se Ns L0 Lj T K.
  pose proof Hw as (P1&P2&P3&P4&P5&P6).
  destruct (write_object_slot_spec w kp c p Hw S2) as (m1&R1&V1&F1); try (unfold live; lia).
  eapply wp_call; [reflexivity|cbn [List.length]; lia|]. wc. eapply returns_wpf; [exact R1|]. wc. eapply wp_lget; [exact L0|]. eapply wp_lget; [exact Lj|].
  rewrite Lk, Lc in V1. change (slot_of (host w) owner id) with k in V1. set (w1 := set_mem w m1) in *.
  assert (G1 : grows (wmem p) w w1).
  { apply grows_set_mem; [exact Hw| |]; unfold wmem, slot_mem; [intros a Ha; apply F1; tauto|unfold within; intros; lia]. }
  assert (A : forall w', grows (wmem p) w w' -> tree_at (mem w') fs owner id vs x F).
  { intros w' (_&_&_&_&_&_&G). eapply tree_ext; [|exact Ob]. intros y Hy. apply SF in Hy. unfold between in Hy. apply G; [lia|]. unfold wmem, slot_mem, within. lia. }
  eapply wp_call_spec; [reflexivity|cbn [List.length]; lia| | |].
  { wc. eapply (save_tree_spec ep h fs w1 x p owner id vs F k).
    - exact Pl.
    - exact Hh.
    - split; [apply G1|]. split; [exact He|]. split; [|change (gnext w1) with (gnext w); lia]. transitivity (load 32 (mem w) 32); [|exact S1]. apply load_ext. intros. apply F1; unfold within; lia.
    - split; [transitivity (load_be 32 (mem w) 0); [|exact S0]|transitivity (load_be 32 (mem w) 96); [|exact S2]]; apply load_be_ext; intros; apply F1; unfold within; lia.
    - exact V1.
    - apply A. exact G1.
    - intros y Hy. apply SF in Hy. unfold heap, between in *. change (gnext w1) with (gnext w). lia.
    - intros y Hy Y. apply SF in Hy. unfold between in *. lia.
    - exact Se.
    - exact Ns. }
  { intros N. apply T. exact N. }
  intros rs w2 (->&G2&N2&T2&H2&U2). wc. assert (G : grows (wmem p) w w2) by (eapply grows_trans; [exact G1|exact G2]).
  apply K; [exact G|exact N2|apply A; exact G|exact T2|exact H2|exact U2].
Qed.

Lemma reown_tree : forall fs w x owner id vs F kp, wok w -> statics w -> tree_at (mem w) fs owner id vs x F -> sub F (heap w) ->
  0 <= kp -> kp + 32 <= gnext w -> disj F (between kp (kp + 32)) ->
  let w' := set_mem w (mcopy (mem w) (x - 32) kp 32) in
  grows (tto_mem F) w w' /\ statics w' /\ load_be 32 (mem w') kp = load_be 32 (mem w) kp /\ tree_at (mem w') fs (load_be 32 (mem w) kp) id vs x F.
Proof.
  intros fs w x owner id vs F kp Hw St Ob SF K1 K2 K3 w'. pose proof Hw as (P1&P2&P3&P4&P5&P6).
  pose proof (tree_placed w fs owner id vs x F Ob SF) as (X1&X2&Eo&_).
  assert (O : forall y, ~ within (x - 32) 32 y -> rd (mem w') y = rd (mem w) y) by (intros; apply rd_mcopy_frame; assumption).
  assert (Sx : forall y, within (x - 32) 32 y -> F y).
  { intros y Hy. destruct Ob as (a&b&c&G&_&_&_&_&_&Sx&_). apply Sx. unfold within, between in *. lia. }
  assert (G : grows (tto_mem F) w w').
  { apply grows_set_mem; [exact Hw| |]; unfold tto_mem.
    - intros a Ha. apply O. intros Y. apply Ha. right. right. apply Sx. exact Y.
    - intros a [Y|[Y|Y]]; [unfold slot_mem, within in Y; lia|unfold within in Y; lia|]. apply SF in Y. unfold heap, between in Y. lia. }
  split; [exact G|]. split; [exact (statics_tto w w' F St Hw SF G)|]. split; [apply load_be_ext; intros i Hi; apply O; intros Y; apply (K3 (kp + i)); [apply Sx; exact Y|unfold between; lia]|].
  eapply tree_reown; [exact Ob|intros; apply O; assumption|]. apply load_be_ext. intros i Hi. change (Z.of_nat 32) with 32 in Hi. cbn [w' mem set_mem]. rewrite rd_mcopy_in by lia. f_equal. lia.
Qed.

(** What moving the object at [x] to the mapping of [owner'] comes to. *)
Definition tree_moved (h : Z) (fs : list shape) (vs : list val) (uss : list (list val)) (x owner owner' id : Z) (F : mset) (w w' : world) : Prop :=
  let H := keccak (host w) in let k := home H owner' id in let C := formers H (departures fs owner id vs) uss in
  grows (tto_mem F) w w' /\ gnext w' <= gnext w + (32 + weigh uss + wcosts fs vs) /\ tree_at (mem w') fs owner' id (all_settled fs id vs) x F /\
  tree_relocated H (stor (host w)) (stor (host w')) (bswap 8 h) fs id vs C k.

Lemma tree_moved_intro : forall h fs vs uss x owner owner' id F w w1 w2 p, let H := keccak (host w) in let k := home H owner' id in
  wok w -> cleared w w1 F (formers H (departures fs owner id vs) uss) (weigh uss) ->
  forall w1', grows (tto_mem F) w1 w1' -> gnext w1' = gnext w1 -> host w1' = host w1 -> p = gnext w1 ->
  grows (wmem p) w1' w2 -> gnext w2 <= gnext w1 + 32 + wcosts fs (all_settled fs id vs) -> tree_at (mem w2) fs owner' id (all_settled fs id vs) x F ->
  stor (host w2) k mod 2 ^ 64 = bswap 8 h -> contents H (stor (host w2)) fs id (all_settled fs id vs) (k, 8) ->
  (forall y, ~ covers (tree_slots H fs id (all_settled fs id vs) k) y -> stor (host w2) y = stor (host w1) y) ->
  tree_moved h fs vs uss x owner owner' id F w w2.
Proof.
  intros h fs vs uss x owner owner' id F w w1 w2 p H k Hw (G1&N1&C1&C2) w1' G1' Gn Hs Ep G2 N2 Tr T Hd U.
  destruct (owner_frees fs H (stor (host w2)) id id vs (k, 8)) as (OF1&_&OF3&OF4). rewrite OF4 in N2.
  assert (Ts : tree_slots H fs id (all_settled fs id vs) k = tree_slots H fs id vs k) by (unfold tree_slots; rewrite OF3; reflexivity). rewrite Ts in U.
  unfold tree_moved. fold H k. split.
  { eapply grows_trans; [exact G1|]. eapply grows_trans; [exact G1'|]. destruct G2 as (J1&J2&J3&J4&J5&J6&J7). split; [exact J1|]. split; [exact J2|]. split; [exact J3|]. split; [exact J4|]. split; [exact J5|]. split; [exact J6|].
    intros a Ha Na. apply J7; [exact Ha|]. intros [[Y|Y]|Y]; [apply Na; left; left; exact Y|unfold within in Y; lia|apply Na; right; left; exact Y]. }
  split; [lia|]. split; [exact Tr|]. split; [exact T|]. split; [apply OF1; exact Hd|]. split; intros y A B; rewrite U by exact B; auto.
Qed.

Lemma grows_after_alloc : forall p w1 w2 w3, wok w1 -> allocated w1 w2 32 -> p = gnext w1 -> grows (wmem p) w2 w3 -> grows (wmem p) w1 w3.
Proof.
  intros p w1 w2 w3 Hw Al Ep G. eapply grows_trans; [|exact G]. apply grows_extends. apply (alloc_extends _ _ _ Hw Al). lia.
Qed.

Section Moves.
Variables (ep : errtab) (h : Z) (fs : list shape) (w : world) (x owner id : Z) (vs : list val) (uss : list (list val)) (F : mset).
Hypotheses (Hw : wok w) (He : errtab_ok ep) (St : statics w) (Tr : tree_at (mem w) fs owner id vs x F) (SF : sub F (heap w))
  (So : forallb sound fs = true) (Di : forallb direct fs = true) (Hh : 0 <= h < 2 ^ 64).
Let H := keccak (host w).
Hypotheses (Was : Forall2 (was_there H (stor (host w))) (departures fs owner id vs) uss) (Sp : separate (formers H (departures fs owner id vs) uss)).

(** The state after the former places are cleared; [kp]: where the new owner is. *)
Lemma after_leave : forall w1 kp, cleared w w1 F (formers H (departures fs owner id vs) uss) (weigh uss) ->
  0 <= kp -> kp + 32 <= 64 \/ 160 <= kp /\ kp + 32 <= 256 \/ 468 <= kp -> kp + 32 <= gnext w -> disj F (between kp (kp + 32)) ->
  let owner' := load_be 32 (mem w) kp in let k := home H owner' id in
  separate (tree_slots H fs id vs k) -> lastings H (stor (host w)) fs id vs (k, 8) ->
  wok w1 /\ statics w1 /\ sub F (heap w1) /\ keccak (host w1) = H /\ load_be 32 (mem w1) kp = owner' /\ kp + 32 <= gnext w1 /\ maxpages w1 = maxpages w /\ gnext w <= gnext w1 <= gnext w + weigh uss /\
  separate (tree_slots H fs id (all_settled fs id vs) k) /\ lastings H (stor (host w1)) fs id (all_settled fs id vs) (k, 8) /\ wcosts fs (all_settled fs id vs) = wcosts fs vs.
Proof.
  intros w1 kp (G&N&C1&C2) K1 K2 K3 K4 owner' k Se Ns. pose proof Hw as (P1&P2&P3&P4&P5&P6).
  destruct (owner_frees fs H (stor (host w1)) id id vs (k, 8)) as (_&OF2&OF3&OF4). pose proof G as (J1&J2&J3&J4&_).
  split; [exact J1|]. split; [exact (statics_tto w w1 F St Hw SF G)|]. split; [eapply heap_grows; eassumption|]. split; [apply (keccak_grows _ _ _ G)|].
  split. { apply (load_be_grows 32 (tto_mem F) w w1 kp G); [lia|change (Z.of_nat 32) with 32; lia|]. change (Z.of_nat 32) with 32. intros y Hy [Y|[Y|Y]]; [unfold slot_mem, within in Y; lia|unfold within in Y; lia|]. apply (K4 y Y). unfold between. lia. }
  split; [lia|]. split; [exact J2|]. split; [lia|]. split; [unfold tree_slots; rewrite OF3; exact Se|]. split; [|exact OF4].
  apply OF2. eapply lastings_less; [|exact Ns]. intros y. destruct (covers_dec (formers H (departures fs owner id vs) uss) y) as [Y|Y]; [left; auto|right; auto].
Qed.

Lemma transfer_tree_spec : forall rp, owner <> shared_owner -> 468 <= rp -> rp + 32 <= gnext w -> disj F (between rp (rp + 32)) ->
  let owner' := load_be 32 (mem w) rp in let k := home H owner' id in
  separate (tree_slots H fs id vs k) -> lastings H (stor (host w)) fs id vs (k, 8) ->
  wpf (transfer_tree ep h fs) [x; rp] w (resq (fun r w' => r = [] /\ tree_moved h fs vs uss x owner owner' id F w w') (oom w (32 + weigh uss + wcosts fs vs))).
Proof.
  intros rp No1 R1 R2 R3 owner' k Se Ns. pose proof Hw as (P1&P2&P3&P4&P5&P6).
  pose proof (tree_placed w fs owner id vs x F Tr SF) as (X1&X2&Eo&_). pose proof St as (S0&S1&S2&S3&S4).
  pose proof (wcosts_nonneg fs vs) as Cn. pose proof (weigh_nonneg uss) as Un.
  apply wpf_intro; [reflexivity|]. wc. unfold transfer_tree, A_SHARED, A_FROZEN. cbn [app]. ws1. ws1. ws1. ws1.
  apply wp_block. ws1. ws1. ws1. eapply wp_call; [reflexivity|cbn [List.length]; lia|]. wc.
  eapply returns_wpf; [apply (a_equals_b_spec 32); [exact Hw|unfold live; lia|unfold live; lia]|]. wc.
  rewrite eqb_be, Eo, S3, (proj2 (Z.eqb_neq owner shared_owner)) by exact No1. cbn [b2z]. ws1. apply wp_brif; intros C; unb C; [|exfalso; lia]. wc. clear C.
  apply wp_block. ws1. ws1. ws1. ws1. eapply wp_call; [reflexivity|cbn [List.length]; lia|]. wc.
  eapply returns_wpf; [apply (a_equals_b_spec 0); [exact Hw|unfold live; lia|unfold live; lia]|]. wc. cbn [load b2z Z.eqb].
  apply wp_brif; intros C; unb C; [|exfalso; lia]. wc. clear C.
  eapply (leave_tree_wp ep fs 2 w x owner id vs F uss); try eassumption; try reflexivity.
  { intros (N1&N2). wc. eapply oom_mono; [exact N2|lia]. }
  intros w1 o1 Cl Tr1. fold H in Cl. destruct (after_leave w1 rp Cl ltac:(lia) ltac:(lia) R2 R3 Se Ns) as (Hw1&St1&SF1&EH&Lr&R2'&Mp1&Gn1&Se1&Ns1&Ec). fold owner' in Lr, Se1, Ns1. fold k in Se1, Ns1.
  pose proof (tree_placed w1 fs o1 id _ x F Tr1 SF1) as (_&X2'&_). pose proof Hw1 as (Y1&Y2&Y3&Y4&Y5&Y6).
  destruct (reown_tree fs w1 x o1 id _ F rp Hw1 St1 Tr1 SF1 ltac:(lia) R2' R3) as (G2&St2&Lr2&Tr2). rewrite Lr in Lr2, Tr2.
  ws1. ws1. ws1. apply wp_mcopy; [lia|unfold page_size; lia|lia|unfold page_size; lia|]. set (w2 := set_mem w1 _) in *.
  assert (Hw2 : wok w2) by apply G2. assert (SF2 : sub F (heap w2)) by exact SF1. assert (Gn2 : gnext w2 = gnext w1) by reflexivity.
  destruct (id_of_placed w2 x owner' id (tree_placed w2 fs owner' id _ x F Tr2 SF2) Hw2) as (c&Ri&Lc&Cc1&Cc2&_).
  ws1. eapply wp_call; [reflexivity|cbn [List.length]; lia|]. wc. eapply returns_wpf; [exact Ri|]. wc. ws1. ws1.
  wcall alloc_spec; [exact Hw2|lia|intros O; wc; unfold oom in *; change (maxpages w2) with (maxpages w1) in O; lia|].
  intros rs w3 (->&Al). pose proof (alloc_extends _ _ _ Hw2 Al ltac:(lia)) as Ex. pose proof Al as (Hw3&Em&A1&A2&A3&A4&A5).
  wc. ws1. ws1. ws1. ws1. assert (H3 : host w3 = host w1) by exact A5.
  eapply (arrive_tree_wp ep h fs 4 w3 x owner' id (all_settled fs id vs) F rp c (gnext w2)).
  - exact Hw3.
  - exact He.
  - eapply statics_extends; [exact Hw2|exact St2|exact Ex].
  - rewrite Em. exact Tr2.
  - exact SF2.
  - lia.
  - exact So.
  - exact Hh.
  - lia.
  - lia.
  - rewrite Em. exact Lr2.
  - exact Cc1.
  - exact Cc2.
  - rewrite Em. exact Lc.
  - rewrite H3, EH. exact Se1.
  - rewrite H3, EH. exact Ns1.
  - reflexivity.
  - reflexivity.
  - intros (O1&O2). wc. unfold oom in *. change (maxpages w2) with (maxpages w1) in A1. lia.
  - rewrite H3, EH. fold k. intros w4 G4 N4 Tr4 T4 Hd4 U4. ws1. split; [reflexivity|].
    eapply (tree_moved_intro h fs vs uss x owner owner' id F w w1 w4 (gnext w2) Hw Cl w2 G2 eq_refl eq_refl eq_refl); [eapply grows_after_alloc; [exact Hw2|exact Al|reflexivity|exact G4]|lia|exact Tr4|exact T4|exact Hd4|exact U4].
Qed.

Lemma settle_tree_wp : forall key l2 l3 r (Q : outcome -> Prop), key = 160 \/ key = 192 ->
  let owner' := load_be 32 (mem w) key in let k := home H owner' id in
  separate (tree_slots H fs id vs k) -> lastings H (stor (host w)) fs id vs (k, 8) ->
  (oom w (32 + weigh uss + wcosts fs vs) -> Q OTrap) ->
  (forall w' l2, tree_moved h fs vs uss x owner owner' id F w w' -> wp r Q [] [x; x - 32; l2; l3] w') ->
  wp (settle_tree ep h fs key ++ r) Q [] [x; x - 32; l2; l3] w.
Proof.
  intros key l2 l3 r Q Hk owner' k Se Ns T K. pose proof Hw as (P1&P2&P3&P4&P5&P6).
  pose proof (tree_placed w fs owner id vs x F Tr SF) as (X1&X2&Eo&_).
  pose proof (wcosts_nonneg fs vs) as Cn. pose proof (weigh_nonneg uss) as Un.
  assert (R3 : disj F (between key (key + 32))) by (intros y Hy Y; apply SF in Hy; unfold heap, between in *; lia).
  unfold settle_tree. rewrite <- app_assoc.
  eapply (leave_tree_wp ep fs 1 w x owner id vs F uss); try eassumption; try reflexivity.
  { intros (N1&N2). apply T. eapply oom_mono; [exact N2|lia]. }
  intros w1 o1 Cl Tr1. fold H in Cl. destruct (after_leave w1 key Cl ltac:(lia) ltac:(lia) ltac:(lia) R3 Se Ns) as (Hw1&St1&SF1&EH&Lr&R2'&Mp1&Gn1&Se1&Ns1&Ec). fold owner' in Lr, Se1, Ns1. fold k in Se1, Ns1.
  pose proof (tree_placed w1 fs o1 id _ x F Tr1 SF1) as (_&X2'&_). pose proof Hw1 as (Y1&Y2&Y3&Y4&Y5&Y6).
  destruct (reown_tree fs w1 x o1 id _ F key Hw1 St1 Tr1 SF1 ltac:(lia) R2' R3) as (G2&St2&Lr2&Tr2). rewrite Lr in Lr2, Tr2.
  cbn [app]. ws1. ws1. ws1. apply wp_mcopy; [lia|unfold page_size; lia|lia|unfold page_size; lia|]. set (w2 := set_mem w1 _) in *.
  assert (Hw2 : wok w2) by apply G2. assert (SF2 : sub F (heap w2)) by exact SF1. assert (Gn2 : gnext w2 = gnext w1) by reflexivity.
  ws1. wcall alloc_spec; [exact Hw2|lia|intros O; apply T; unfold oom in *; change (maxpages w2) with (maxpages w1) in O; lia|].
  intros rs w3 (->&Al). pose proof (alloc_extends _ _ _ Hw2 Al ltac:(lia)) as Ex. pose proof Al as (Hw3&Em&A1&A2&A3&A4&A5).
  assert (Tr3 : tree_at (mem w3) fs owner' id (all_settled fs id vs) x F) by (rewrite Em; exact Tr2).
  assert (SF3 : sub F (heap w3)) by (intros y Hy; specialize (SF2 y Hy); unfold heap, between in *; lia).
  destruct (id_of_placed w2 x owner' id (tree_placed w2 fs owner' id _ x F Tr2 SF2) Hw2) as (c&_&Lc&C3&C4&Ec0).
  destruct (id_of_placed w3 x owner' id (tree_placed w3 fs owner' id _ x F Tr3 SF3) Hw3) as (c'&Ri&_&_&_&Ec1).
  assert (Ecc : c' = c) by (rewrite Ec0, Ec1, Em; reflexivity). clear Ec0 Ec1. subst c'.
  wc. ws1. ws1. ws1. eapply wp_call; [reflexivity|cbn [List.length]; lia|]. wc. eapply returns_wpf; [exact Ri|]. wc. ws1.
  assert (H3 : host w3 = host w1) by exact A5.
  eapply (arrive_tree_wp ep h fs 2 w3 x owner' id (all_settled fs id vs) F key c (gnext w2)).
  - exact Hw3.
  - exact He.
  - eapply statics_extends; [exact Hw2|exact St2|exact Ex].
  - exact Tr3.
  - exact SF2.
  - lia.
  - exact So.
  - exact Hh.
  - lia.
  - lia.
  - rewrite Em. exact Lr2.
  - exact C3.
  - exact C4.
  - rewrite Em. exact Lc.
  - rewrite H3, EH. exact Se1.
  - rewrite H3, EH. exact Ns1.
  - reflexivity.
  - reflexivity.
  - intros (O1&O2). apply T. unfold oom in *. change (maxpages w2) with (maxpages w1) in A1. lia.
  - rewrite H3, EH. fold k. intros w4 G4 N4 Tr4 T4 Hd4 U4. apply K.
    eapply (tree_moved_intro h fs vs uss x owner owner' id F w w1 w4 (gnext w2) Hw Cl w2 G2 eq_refl eq_refl eq_refl); [eapply grows_after_alloc; [exact Hw2|exact Al|reflexivity|exact G4]|lia|exact Tr4|exact T4|exact Hd4|exact U4].
Qed.

Lemma share_tree_spec : owner <> shared_owner -> owner <> frozen_owner -> let k := home H shared_owner id in
  separate (tree_slots H fs id vs k) -> lastings H (stor (host w)) fs id vs (k, 8) ->
  wpf (share_tree ep h fs) [x] w (resq (fun r w' => r = [] /\ tree_moved h fs vs uss x owner shared_owner id F w w') (oom w (32 + weigh uss + wcosts fs vs))).
Proof.
  intros No1 No2 k Se Ns. pose proof Hw as (P1&P2&P3&P4&P5&P6).
  pose proof (tree_placed w fs owner id vs x F Tr SF) as (X1&X2&Eo&_). pose proof St as (S0&S1&S2&S3&S4).
  apply wpf_intro; [reflexivity|]. wc. unfold share_tree, A_SHARED, A_FROZEN. apply wp_block. ws1. ws1. ws1. ws1. ws1. ws1. ws1.
  eapply wp_call; [reflexivity|cbn [List.length]; lia|]. wc.
  eapply returns_wpf; [apply (a_equals_b_spec 32); [exact Hw|unfold live; lia|unfold live; lia]|]. wc.
  rewrite eqb_be, Eo, S3, (proj2 (Z.eqb_neq owner shared_owner)) by exact No1. cbn [b2z]. apply wp_brif; intros C; unb C; [exfalso; lia|]. wc. clear C.
  ws1. ws1. ws1. eapply wp_call; [reflexivity|cbn [List.length]; lia|]. wc.
  eapply returns_wpf; [apply (a_equals_b_spec 32); [exact Hw|unfold live; lia|unfold live; lia]|]. wc.
  rewrite eqb_be, Eo, S4, (proj2 (Z.eqb_neq owner frozen_owner)) by exact No2. cbn [b2z].
  apply wp_if; intros C; unb C; [exfalso; lia|]. clear C.
  match goal with |- wp ?c _ _ _ _ => rewrite <- (app_nil_r c) end.
  eapply (settle_tree_wp 160); try lia.
  - rewrite S3. exact Se.
  - rewrite S3. exact Ns.
  - intros O. wc. exact O.
  - rewrite S3. intros w1 l2 Mv. apply wp_nil. wc. apply wp_nil. wc. apply wp_nil. wc. auto.
Qed.

Lemma freeze_tree_spec : owner <> shared_owner -> owner <> frozen_owner -> let k := home H frozen_owner id in
  separate (tree_slots H fs id vs k) -> lastings H (stor (host w)) fs id vs (k, 8) ->
  wpf (freeze_tree ep h fs) [x] w (resq (fun r w' => r = [] /\ tree_moved h fs vs uss x owner frozen_owner id F w w') (oom w (32 + weigh uss + wcosts fs vs))).
Proof.
  intros No1 No2 k Se Ns. pose proof Hw as (P1&P2&P3&P4&P5&P6).
  pose proof (tree_placed w fs owner id vs x F Tr SF) as (X1&X2&Eo&_). pose proof St as (S0&S1&S2&S3&S4).
  apply wpf_intro; [reflexivity|]. wc. unfold freeze_tree, A_SHARED, A_FROZEN. apply wp_block. ws1. ws1. ws1. ws1. ws1. ws1.
  eapply wp_call; [reflexivity|cbn [List.length]; lia|]. wc.
  eapply returns_wpf; [apply (a_equals_b_spec 32); [exact Hw|unfold live; lia|unfold live; lia]|]. wc.
  rewrite eqb_be, Eo, S4, (proj2 (Z.eqb_neq owner frozen_owner)) by exact No2. cbn [b2z]. apply wp_brif; intros C; unb C; [exfalso; lia|]. wc. clear C.
  ws1. ws1. ws1. eapply wp_call; [reflexivity|cbn [List.length]; lia|]. wc.
  eapply returns_wpf; [apply (a_equals_b_spec 32); [exact Hw|unfold live; lia|unfold live; lia]|]. wc.
  rewrite eqb_be, Eo, S3, (proj2 (Z.eqb_neq owner shared_owner)) by exact No1. cbn [b2z].
  apply wp_if; intros C; unb C; [exfalso; lia|]. clear C.
  match goal with |- wp ?c _ _ _ _ => rewrite <- (app_nil_r c) end.
  eapply (settle_tree_wp 192); try lia.
  - rewrite S4. exact Se.
  - rewrite S4. exact Ns.
  - intros O. wc. exact O.
  - rewrite S4. intros w1 l2 Mv. apply wp_nil. wc. apply wp_nil. wc. apply wp_nil. wc. auto.
Qed.

End Moves.
