(** * Dynamic fields in storage: native_functions/dynamic_field.rs. *)

From Verif Require Import Tac RtAlloc RtErr RtInt RtInt2 RtEq RtMul RtDiv RtShift RtSwap RtAscii RtCopy Ops SpecAbi LemAbi SpecVal LemVal SpecStor SpecLayout RtStor LemStor RtStore LemStore RtSave RtLoad RtLoadObj LemPlace LemObj.
Ltac Zify.zify_post_hook ::= idtac.

(** native_functions/dynamic_field.rs 33-95 [add_child_object_fn].  Locals: 0 parent_address, 1 child_ptr,
    2 slot_ptr.  [h] and [fs]: type hash and fields (after the id) of the child. *)
Definition add_child_object (ep : errtab) (h : Z) (fs : list ty) : func := Func 2 1 0
 ([ Const 32; Call alloc; LocalSet 2;
    LocalGet 0; LocalGet 1; Call get_id_bytes_ptr; LocalGet 2; Call write_object_slot;
    LocalGet 1; LocalGet 2; Call (save_object ep h fs) ] ++ propagate false).

(** native_functions/dynamic_field.rs 111-211 [add_borrow_object_fn].  Locals: 0 parent_uid, 1 child_id,
    2 slot_ptr, 3 result_struct, 4 result. *)
Definition borrow_child_object (ep : errtab) (h : Z) (fs : list ty) : func := Func 2 3 1
 ([ Const 32; Call alloc; LocalSet 2;
    LocalGet 0; Load 4 0; Load 4 0; LocalTee 0; LocalGet 1; LocalGet 2; Call write_object_slot;
    LocalGet 2; LocalGet 1; LocalGet 0; Call (load_object ep h fs) ] ++ propagate true ++
  [ LocalSet 3; Const 4; Call alloc; LocalTee 4; LocalGet 3; Store 4 0; LocalGet 4 ]).

(** native_functions/dynamic_field.rs 213-267 [add_remove_child_object_fn].  Locals: 0 parent_uid, 1 child_id. *)
Definition remove_child_object (ep : errtab) (h : Z) (fs : list ty) : func := Func 2 0 1
 [ LocalGet 0; LocalGet 1; Call (borrow_child_object ep h fs); Load 4 0 ].

(** native_functions/dynamic_field.rs 277-323 [add_has_child_object_fn].  Locals: 0 parent_address,
    1 child_address. *)
Definition has_child_object : func := Func 2 0 1
 [ LocalGet 0; LocalGet 1; Const A_OBJ_SLOT; Call write_object_slot;
   Const A_OBJ_SLOT; Const A_SLOT_DATA; Host H_storage_load;
   Const A_SLOT_DATA; Const 32; Call is_zero; Const 1; Bin I32 Ne ].

(** native_functions/dynamic_field.rs 334-399 [add_has_child_object_with_ty_fn].  Locals as above. *)
Definition has_child_object_with_ty (h : Z) : func := Func 2 0 1
 [ LocalGet 0; LocalGet 1; Call has_child_object;
   If 1 [ Const A_SLOT_DATA; Load 8 24; Const h; Bin I64 Eq ] [ Const 0 ] ].

(** ** Specifications *)

Lemma object_agree : forall m m' fs owner id vs x F, agree m m' F -> object_at m fs owner id vs x F -> object_at m' fs owner id vs x F.
Proof.
  intros m m' fs owner id vs x F A (a&b&c&G&La&Lb&Lc&Li&Lo&Sx&Sa&Sb&Sc&SG&DJ&Fl). exists a, b, c, G.
  assert (R : forall p n, sub (between p (p + n)) F -> forall y, p <= y < p + n -> rd m' y = rd m y).
  { intros p n S y Hy. apply A, S. unfold between. lia. }
  split; [rewrite <- La; apply load_ext; intros; apply (R (x - 32) (36 + 4 * Z.of_nat (List.length fs))); [intros y Hy; apply Sx; unfold between in *; lia|lia]|].
  split; [rewrite <- Lb; apply load_ext; intros; eapply (R a 4); [exact Sa|lia]|].
  split; [rewrite <- Lc; apply load_ext; intros; eapply (R b 4); [exact Sb|lia]|].
  split; [rewrite <- Li; apply load_be_ext; intros; eapply (R c 32); [exact Sc|lia]|].
  split; [rewrite <- Lo; apply load_be_ext; intros; apply (R (x - 32) (36 + 4 * Z.of_nat (List.length fs))); [intros y Hy; apply Sx; unfold between in *; lia|lia]|].
  repeat (split; [assumption|]).
  eapply fields_ext; [| |exact Fl].
  - clear - A SG. induction fs as [|t fs IH]; cbn [map]; constructor; [|exact IH].
    intros v y G' S' H. eapply field_of_ext; [apply vrep_ext| |exact H]. eapply agree_sub; [exact A|eapply sub_trans; eassumption].
  - rewrite map_length. intros y Hy. apply (R (x - 32) (36 + 4 * Z.of_nat (List.length fs))); [intros z Hz; apply Sx; unfold between in *; lia|lia].
Qed.

Lemma id_bytes_ok : forall w m fs owner id vs x F, object_at m fs owner id vs x F -> sub F (heap w) -> wok w -> m = mem w ->
  exists c, returns get_id_bytes_ptr [x] w [c] w /\ load_be 32 m c = id /\ 468 <= c /\ c + 32 <= gnext w /\ 500 <= x /\ x + 4 <= gnext w /\ sub (between c (c + 32)) F /\
    c = id_ptr m x /\ 468 <= load 4 m x /\ load 4 m x + 4 <= gnext w /\ 468 <= load 4 m (load 4 m x) /\ load 4 m (load 4 m x) + 4 <= gnext w.
Proof.
  intros w m fs owner id vs x F (a&b&c&G&La&Lb&Lc&Li&Lo&Sx&Sa&Sb&Sc&SG&DJ&Fl) SF Hw ->. pose proof Hw as (P1&P2&P3&P4&P5&P6).
  destruct (heap_block F w (x - 32) (36 + 4 * Z.of_nat (List.length fs)) SF) as (X1&X2); [|lia|].
  { intros y Hy. apply Sx. unfold between in *. lia. }
  destruct (heap_block F w a 4 SF Sa) as (A1&A2); [lia|].
  destruct (heap_block F w b 4 SF Sb) as (B1&B2); [lia|].
  destruct (heap_block F w c 32 SF Sc) as (C1&C2); [lia|].
  exists c. split; [|unfold id_ptr; rewrite La, Lb, Lc; repeat (split; [first [assumption|lia|reflexivity]|]); lia].
  apply pure_intro. apply wpf_intro; [reflexivity|]. wc. ws1. ws1. rewrite La. ws1. rewrite Lb. ws1. rewrite Lc. ws1. auto.
Qed.

(** Allocating a slot number and computing it. *)
Definition child_mem : mset := fun x => within 404 64 x \/ within 260 128 x.

Lemma slot_ready : forall ep w p pa ca, wok w -> errtab_ok ep -> statics w -> abort_flag w = 0 -> p + 32 = gnext w -> 468 <= p -> 
  0 <= pa -> pa + 32 <= p -> 468 <= ca -> ca + 32 <= p ->
  exists m', returns write_object_slot [pa; ca; p] w [] (set_mem w m') /\ ready ep (set_mem w m') p /\ abort_flag (set_mem w m') = 0 /\
    load_be 32 m' 0 = 0 /\ load_be 32 m' p = slot_of (host w) (load_be 32 (mem w) pa) (load_be 32 (mem w) ca) /\
    (forall x, x < p -> ~ within 404 64 x -> rd m' x = rd (mem w) x).
Proof.
  intros ep w p pa ca Hw He (S0&S1&S2&S3&S4) Ab Gp Hp Hpa Hpa2 Hca Hca2. pose proof Hw as (P1&P2&P3&P4&P5&P6).
  destruct (write_object_slot_spec w pa ca p Hw S2) as (m1&R1&V1&F1); try (unfold live; lia).
  exists m1. split; [exact R1|].
  assert (F2 : forall x, x < p -> ~ within 404 64 x -> rd m1 x = rd (mem w) x) by (intros x Hx N; apply F1; [exact N|unfold within; lia]).
  split.
  { split; [|split; [exact He|split; [|cbn [gnext set_mem]; lia]]].
    - apply wok_set_mem; [exact Hw|]. intros x Hx. apply F1; unfold within; lia.
    - transitivity (load 32 (mem w) 32); [apply load_ext; intros i Hi; apply F2; unfold within; lia|exact S1]. }
  split; [transitivity (abort_flag w); [apply load_ext; intros i Hi; apply F2; unfold within; lia|exact Ab]|].
  split; [transitivity (load_be 32 (mem w) 0); [apply load_be_ext; intros i Hi; apply F2; unfold within; lia|exact S0]|].
  split; [exact V1|exact F2].
Qed.

Lemma statics_extends : forall w w', wok w -> statics w -> extends w w' -> statics w'.
Proof.
  intros w w' Hw (S0&S1&S2&S3&S4) Ex. pose proof Hw as (P1&P2&P3&P4&P5&P6). destruct Ex as (_&_&_&G&_&_&R). unfold statics.
  split; [|split; [|split; [|split]]];
    [transitivity (load_be 32 (mem w) 0)|transitivity (load 32 (mem w) 32)|transitivity (load_be 32 (mem w) 96)|transitivity (load_be 32 (mem w) 160)|transitivity (load_be 32 (mem w) 192)];
    try assumption; first [apply load_ext|apply load_be_ext]; intros i Hi; apply R; lia.
Qed.

Lemma add_child_object_spec : forall ep h fs w pa x owner id vs F, wok w -> errtab_ok ep -> statics w -> abort_flag w = 0 ->
  live w pa 32 -> forallb storable fs = true -> 0 <= h < 2 ^ 64 ->
  object_at (mem w) fs owner id vs x F -> sub F (heap w) ->
  let H := keccak (host w) in let k := slot_of (host w) (load_be 32 (mem w) pa) id in
  separate (slots H fs vs (k, 8)) -> no_shrinks H (stor (host w)) fs vs (k, 8) ->
  wpf (add_child_object ep h fs) [pa; x] w (resq (fun r w' => r = [] /\ grows (fun a => child_mem a \/ within 64 32 a) w w' /\
     stor (host w') k mod 2 ^ 64 = bswap 8 h /\ helds H (stor (host w')) fs vs (k, 8) /\
     (forall y, ~ covers (slots H fs vs (k, 8)) y -> stor (host w') y = stor (host w) y)) (oom w (32 + costs vs))).
Proof.
  intros ep h fs w pa x owner id vs F Hw He St Ab Lp Pl Hh Ob SF H k Se Ns. pose proof Hw as (P1&P2&P3&P4&P5&P6). unfold live in Lp.
  apply wpf_intro; [reflexivity|]. cbn [app add_child_object]. wc. ws1.
  wcall alloc_spec; [exact Hw|lia|intros O; eapply oom_mono; [exact O|]; pose proof (costs_nonneg vs); lia|].
  intros rs w1 (->&Al). pose proof (alloc_extends _ _ _ Hw Al ltac:(lia)) as Ex. destruct Al as (Hw1&Em&A1&A2&A3&A4&A5). pose proof Hw1 as (Q1&Q2&Q3&Q4&Q5&Q6).
  wc. ws1. ws1. ws1.
  assert (Ob1 : object_at (mem w1) fs owner id vs x F) by (rewrite Em; exact Ob). assert (SF1 : sub F (heap w1)) by (intros y Hy; specialize (SF y Hy); unfold heap, between in *; lia).
  destruct (id_bytes_ok w (mem w) fs owner id vs x F Ob SF Hw eq_refl) as (c&_&Li&C1&C2&X1&X2&Sc&Ec0&_).
  destruct (id_bytes_ok w1 (mem w1) fs owner id vs x F Ob1 SF1 Hw1 eq_refl) as (c'&Ri&Li'&_&_&_&_&Sc'&Ec&_).
  assert (Ecc : c' = c) by (rewrite Ec, Ec0, Em; reflexivity). clear Ec. subst c'.
  eapply wp_call; [reflexivity|cbn [List.length]; lia|]. wc. eapply returns_wpf; [exact Ri|]. wc. ws1.
  assert (Ab1 : abort_flag w1 = 0) by (unfold abort_flag in *; rewrite Em; exact Ab).
  destruct (slot_ready ep w1 (gnext w) pa c Hw1 He (statics_extends _ _ Hw St Ex) Ab1) as (m2&R2&Rd&Ab2&Z2&K2&F2); try lia.
  eapply wp_call; [reflexivity|cbn [List.length]; lia|]. wc. eapply returns_wpf; [exact R2|]. wc. ws1. ws1.
  rewrite Em, A5, Li in K2. fold k in K2. set (w2 := set_mem w1 m2) in *.
  assert (Ob2 : object_at (mem w2) fs owner id vs x F).
  { eapply object_agree; [|exact Ob1]. intros y Hy. specialize (SF y Hy). unfold heap, between in SF. cbn [w2 mem set_mem]. apply F2; [lia|unfold within; lia]. }
  assert (H2 : host w2 = host w) by exact A5.
  eapply wp_call_spec; [reflexivity|cbn [List.length]; lia| | |]; wc.
  { eapply (save_object_spec ep h fs w2 x (gnext w) owner id vs F k); try assumption.
    - intros y Hy Y. specialize (SF y Hy). unfold heap, between in *. lia.
    - rewrite H2. exact Se.
    - rewrite H2. exact Ns. }
  { intros (Nc&O). unfold oom in *. change (maxpages w2) with (maxpages w1) in O. change (gnext w2) with (gnext w1) in O. lia. }
  intros rs w3 (->&G3&N3&T3&Hd&U3). wc. rewrite H2 in *. fold H in Hd, U3.
  assert (Gw : grows (fun a => child_mem a \/ within 64 32 a) w w3).
  { destruct G3 as (B1&B2&B3&B4&B5&B6&B7). destruct Ex as (E1&E2&E3&E4&E5&E6&E7). unfold grows. change (maxpages w2) with (maxpages w1) in B2. change (pages w2) with (pages w1) in B3.
    change (gnext w2) with (gnext w1) in B4, B7. change (gcd w2) with (gcd w1) in B5. rewrite H2 in B6.
    repeat (split; [first [assumption|congruence|lia]|]). intros y Hy Ny. unfold child_mem in Ny. rewrite B7; [|lia|unfold slot_mem; intros [Y|Y]; [clear - Y Ny; tauto|unfold within in Y; lia]].
    cbn [w2 mem set_mem]. rewrite F2 by (try lia; tauto). apply E7. lia. }
  rewrite <- (app_nil_r (propagate false)). apply wp_propagate_ok.
  - apply G3.
  - transitivity (abort_flag w2); [|exact Ab2]. unfold abort_flag. apply (load_grows 4 (slot_mem (gnext w)) w2 w3 256 G3); [lia|change (gnext w2) with (gnext w1); lia|].
    intros y Hy [Y|Y]; unfold within in Y; lia.
  - apply wp_nil. wc. auto 10.
Qed.

Definition look_mem : mset := fun x => within 64 32 x \/ within 128 32 x \/ within 404 64 x.

Lemma has_child_object_spec : forall w pa ca, wok w -> statics w -> live w pa 32 -> live w ca 32 -> 468 <= ca ->
  exists w', returns has_child_object [pa; ca] w [b2z (negb (stored (host w) (load_be 32 (mem w) pa) (load_be 32 (mem w) ca) =? 0))] w' /\
    frame w w' look_mem /\ wok w' /\ load_be 32 (mem w') 64 = stored (host w) (load_be 32 (mem w) pa) (load_be 32 (mem w) ca).
Proof.
  intros w pa ca Hw (S0&S1&S2&S3&S4) Lp Lc Hc. pose proof Hw as (P1&P2&P3&P4&P5&P6).
  destruct (write_object_slot_spec w pa ca 128 Hw S2) as (m1&R1&V1&F1); try (unfold live in *; lia).
  set (w1 := set_mem w m1) in *.
  assert (Hw1 : wok w1). { apply wok_set_mem; [exact Hw|]. intros. apply F1; unfold within; lia. }
  set (w2 := set_mem w1 (store_be 32 (mem w1) 64 (stor (host w1) (load_be 32 (mem w1) 128)))).
  assert (Hw2 : wok w2). { apply wok_set_mem; [exact Hw1|]. change (gnext w1) with (gnext w). intros. apply rd_store_be_out; lia. }
  assert (V2 : load_be 32 (mem w2) 64 = stored (host w) (load_be 32 (mem w) pa) (load_be 32 (mem w) ca)).
  { cbn [w2 mem set_mem]. rewrite load_be_store_be_same. change (host w1) with (host w). cbn [w1 mem set_mem]. rewrite V1. reflexivity. }
  exists w2. split; [|split; [|split; [exact Hw2|exact V2]]].
  - apply returns_intro. apply wpf_intro; [reflexivity|]. wc. unfold live in *. unfold A_OBJ_SLOT, A_SLOT_DATA. ws1. ws1. ws1.
    eapply wp_call; [reflexivity|cbn [List.length]; lia|]. wc. eapply returns_wpf; [exact R1|]. wc. ws1. ws1.
    assert (G1 : gnext w1 = gnext w) by reflexivity. assert (G2 : gnext w2 = gnext w) by reflexivity. apply wp_sload; [exact Hw1|unfold live; lia|unfold live; lia|]. fold w1. change (mem (set_mem w m1)) with (mem w1). fold w2. ws1. ws1.
    eapply wp_call; [reflexivity|cbn [List.length]; lia|]. wc. eapply returns_wpf; [apply (is_zero_spec 8 w2 64 Hw2); unfold live; lia|]. wc. ws1. ws1. ws1. split; [|reflexivity].
    rewrite <- V2. change (4 * 8)%nat with 32%nat. f_equal.
    rewrite <- bswap_load. destruct (Z.eqb_spec (load 32 (mem w2) 64) 0) as [E|E].
    + rewrite E, bswap_0. reflexivity.
    + destruct (Z.eqb_spec (bswap 32 (load 32 (mem w2) 64)) 0) as [E2|E2]; [|reflexivity].
      exfalso. apply E. eapply (bswap_zero 32); [apply load_range|exact E2].
  - unfold frame. repeat (split; [reflexivity|]). intros y Hy. unfold look_mem, within in Hy. cbn [w2 mem set_mem]. rewrite rd_store_be_out by lia. apply F1; unfold within; lia.
Qed.

Lemma has_child_object_with_ty_spec : forall h w pa ca, wok w -> statics w -> live w pa 32 -> live w ca 32 -> 468 <= ca -> 0 <= h < 2 ^ 64 ->
  exists w', returns (has_child_object_with_ty h) [pa; ca] w
    [match inspect (bswap 8 h) (stored (host w) (load_be 32 (mem w) pa) (load_be 32 (mem w) ca)) with Present => 1 | _ => 0 end] w' /\
    frame w w' look_mem.
Proof.
  intros h w pa ca Hw St Lp Lc Hc Hh. pose proof Hw as (P1&P2&P3&P4&P5&P6).
  destruct (has_child_object_spec w pa ca Hw St Lp Lc Hc) as (w1&R1&F1&Hw1&V1). exists w1. split; [|exact F1].
  pose proof Hw1 as (Q1&Q2&Q3&Q4&Q5&Q6). set (wd := stored _ _ _) in *.
  assert (Bw : wd mod 2 ^ 256 = wd) by (apply Z.mod_small; subst wd; unfold stored; apply Z.mod_pos_bound; lia).
  apply returns_intro. apply wpf_intro; [reflexivity|]. wc. ws1. ws1.
  eapply wp_call; [reflexivity|cbn [List.length]; lia|]. wc. eapply returns_wpf; [exact R1|]. wc. unfold inspect. rewrite Bw.
  apply wp_if; intros C; destruct (wd =? 0) eqn:E; cbn in C; try lia.
  - unfold A_SLOT_DATA. ws1. apply wp_load; [lia|unfold page_size; lia|]. ws1. ws1.
    assert (El : bswap 8 (load 8 (mem w1) (64 + 24)) = wd mod 2 ^ 64) by (rewrite bswap_load, low8, V1; reflexivity).
    rewrite <- El. assert (Rl : 0 <= load 8 (mem w1) (64 + 24) < 2 ^ 64) by exact (load_range 8 (mem w1) (64 + 24)). ws1. ws1. split; [|reflexivity]. f_equal.
    destruct (Z.eqb_spec (load 8 (mem w1) (64 + 24)) h) as [->|N]; [rewrite Z.eqb_refl; reflexivity|].
    destruct (Z.eqb_spec (bswap 8 (load 8 (mem w1) (64 + 24))) (bswap 8 h)) as [X|X]; [|reflexivity].
    exfalso. apply N. rewrite <- (bswap_bswap 8 h), <- X, bswap_bswap; [reflexivity| |]; change (256 ^ Z.of_nat 8) with (2 ^ 64); assumption.
  - ws1. ws1. ws1. auto.
Qed.


Lemma borrow_child_object_spec : forall ep h fs w u ca vs, wok w -> errtab_ok ep -> statics w -> abort_flag w = 0 ->
  468 <= ca -> ca + 32 <= gnext w -> 468 <= u -> u + 4 <= gnext w ->
  let i := load 4 (mem w) u in 468 <= i -> i + 4 <= gnext w -> let pa := load 4 (mem w) i in 468 <= pa -> pa + 32 <= gnext w ->
  let H := keccak (host w) in let st := stor (host w) in
  let k := slot_of (host w) (load_be 32 (mem w) pa) (load_be 32 (mem w) ca) in
  legible H fs vs k -> 0 <= h < 2 ^ 64 -> inspect (bswap 8 h) (st k) = Present -> helds H st fs vs (k, 8) ->
  Forall (fun a => snd a < 2 ^ 256) (slots H fs vs (k, 8)) -> object_memory fs vs < 2 ^ 31 ->
  wpf (borrow_child_object ep h fs) [u; ca] w (resq (fun r w' => exists a F, r = [a] /\ host w' = host w /\
     grows (fun y => child_mem y \/ within 64 32 y) w w' /\
     object_at (mem w') fs (load_be 32 (mem w) pa) (load_be 32 (mem w) ca) vs (load 4 (mem w') a) F /\ sub F (heap w') /\
     gnext w <= a /\ a + 4 <= gnext w')
   (ctrap w (existsb narrow fs) (36 + object_memory fs vs))).
Proof.
  intros ep h fs w u ca vs Hw He St Ab Hc1 Hc2 Hu1 Hu2 i Hi1 Hi2 pa Hp1 Hp2 H st k Pl Hh Pr Hd Sl Mm. pose proof Hw as (P1&P2&P3&P4&P5&P6).
  apply wpf_intro; [reflexivity|]. cbn [app borrow_child_object]. wc. ws1.
  assert (Om : 0 <= object_memory fs vs) by (unfold object_memory; pose proof (memory_fors_nonneg fs vs); lia).
  wcall alloc_spec; [exact Hw|lia|intros O; left; eapply oom_mono; [exact O|lia]|].
  intros rs w1 (->&Al). pose proof (alloc_extends _ _ _ Hw Al ltac:(lia)) as Ex. destruct Al as (Hw1&Em&A1&A2&A3&A4&A5). pose proof Hw1 as (Q1&Q2&Q3&Q4&Q5&Q6).
  wc. ws1. ws1. apply wp_load; [lia|unfold page_size; lia|]. rewrite Z.add_0_r, Em. fold i. apply wp_load; [lia|unfold page_size; lia|]. rewrite Z.add_0_r, Em. fold pa.
  ws1. ws1. ws1.
  assert (Ab1 : abort_flag w1 = 0) by (unfold abort_flag in *; rewrite Em; exact Ab).
  destruct (slot_ready ep w1 (gnext w) pa ca Hw1 He (statics_extends _ _ Hw St Ex) Ab1) as (m2&R2&Rd&Ab2&Z2&K2&F2); try lia.
  eapply wp_call; [reflexivity|cbn [List.length]; lia|]. wc. eapply returns_wpf; [exact R2|]. wc. ws1. ws1. ws1.
  rewrite Em, A5 in K2. fold k in K2. set (w2 := set_mem w1 m2) in *.
  assert (H2 : host w2 = host w) by exact A5. assert (N2 : gnext w2 = gnext w + 32) by exact A3. assert (M2 : maxpages w2 = maxpages w) by exact A1.
  assert (Pg2 : pages w2 = pages w1) by reflexivity.
  assert (L2 : forall a, 468 <= a -> a + 32 <= gnext w -> load_be 32 (mem w2) a = load_be 32 (mem w) a).
  { intros a Ha1 Ha2. rewrite <- Em. apply load_be_ext. intros j Hj. cbn [w2 mem set_mem]. apply F2; [lia|unfold within; lia]. }
  eapply wp_call_spec; [reflexivity|cbn [List.length]; lia| | |]; wc.
  { eapply (load_ok ep h fs w2 (gnext w) ca pa k vs); try (rewrite H2); try assumption; lia. }
  { intros [O|(N&y&Y1&Y2)]; [left; unfold oom in *; lia|right; split; [exact N|]]. exists y. lia. }
  intros rs w3 (x&F&->&Se&G3&Ob&SF). wc. rewrite (L2 pa), (L2 ca) in Ob by lia. pose proof Se as (Gr&Eh). pose proof (proj1 Gr) as Hw3. pose proof Hw3 as (T1&T2&T3&T4&T5&T6).
  assert (G23 : gnext w2 <= gnext w3) by apply Gr. assert (Ob' := Ob). destruct Ob' as (b1&b2&b3&G4&_&_&_&_&_&Sx&_).
  assert (SF3 : sub F (heap w3)). { intros y Hy. specialize (SF y Hy). unfold union, heap, between in *. lia. }
  destruct (heap_block F w3 (x - 32) (36 + 4 * Z.of_nat (List.length fs)) SF3) as (X1&X2); [intros y Hy; apply Sx; unfold between in *; lia|lia|].
  apply wp_propagate_ok.
  { exact Hw3. }
  { transitivity (abort_flag w2); [|exact Ab2]. unfold abort_flag. apply (load_grows 4 (slot_mem (gnext w)) w2 w3 256 Gr); [lia|lia|].
    intros y Hy [Y|Y]; unfold within in Y; lia. }
  ws1. ws1. wcall alloc_spec; [exact Hw3|lia|intros O; left; unfold oom in *; replace (maxpages w3) with (maxpages w2) in O by (symmetry; apply Gr); lia|].
  intros rs w4 (->&Al4). pose proof (alloc_extends _ _ _ Hw3 Al4 ltac:(lia)) as Ex4. destruct Al4 as (Hw4&Em4&B1&B2&B3&B4&B5). pose proof Hw4 as (U1&U2&U3&U4&U5&U6). wc.
  ws1. ws1. apply wp_store; [lia|unfold page_size; lia|]. rewrite Z.add_0_r. set (w5 := set_mem w4 _). ws1. ws1.
  assert (Rg : forall y, y < gnext w3 -> rd (mem w5) y = rd (mem w3) y).
  { intros y Hy. cbn [w5 mem set_mem]. rewrite rd_store_out by lia. rewrite Em4. reflexivity. }
  exists (gnext w3), F. split; [reflexivity|]. split; [cbn [w5 host set_mem]; congruence|].
  assert (Gw : grows (fun y => child_mem y \/ within 64 32 y) w w5).
  { destruct Gr as (D1&D2&D3&D4&D5&D6&D7). destruct Ex as (E1&E2&E3&E4&E5&E6&E7). destruct Ex4 as (J1&J2&J3&J4&J5&J6&J7). unfold grows.
    split; [apply wok_set_mem; [exact Hw4|intros y Hy; apply rd_store_out; lia]|]. cbn [w5 maxpages pages gnext gcd host set_mem].
    split; [congruence|]. split; [lia|]. split; [lia|]. split; [change (gcd w2) with (gcd w1) in D5; congruence|]. split.
    - rewrite J6, Eh, H2. symmetry. apply set_stor_same.
    - intros y Hy Ny. unfold child_mem in Ny. change (mem (set_mem w4 (store 4 (mem w4) (gnext w3) x))) with (mem w5). rewrite Rg by lia. rewrite D7; [|lia|unfold slot_mem; intros [Y|Y]; [tauto|unfold within in Y; lia]].
      cbn [w2 mem set_mem]. rewrite F2 by (try lia; tauto). apply E7. lia. }
  split; [exact Gw|]. split; [|split; [|split; [lia|cbn [w5 gnext set_mem]; lia]]].
  - replace (load 4 (mem w5) (gnext w3)) with x by (symmetry; cbn [w5 mem set_mem]; rewrite (load_store_same 4); apply Z.mod_small; change (256 ^ Z.of_nat 4) with (2 ^ 32); lia).
    eapply object_agree; [|exact Ob]. intros y Hy. apply Rg. specialize (SF3 y Hy). unfold heap, between in SF3. lia.
  - intros y Hy. specialize (SF3 y Hy). unfold heap, between in *. cbn [w5 gnext set_mem]. lia.
Qed.

Lemma borrow_child_object_err : forall ep h fs w u ca e, wok w -> errtab_ok ep -> statics w -> abort_flag w = 0 ->
  468 <= ca -> ca + 32 <= gnext w -> 468 <= u -> u + 4 <= gnext w ->
  let i := load 4 (mem w) u in 468 <= i -> i + 4 <= gnext w -> let pa := load 4 (mem w) i in 468 <= pa -> pa + 32 <= gnext w ->
  let k := slot_of (host w) (load_be 32 (mem w) pa) (load_be 32 (mem w) ca) in 0 <= h < 2 ^ 64 ->
  (inspect (bswap 8 h) (stor (host w) k), e) = (Missing, StorageObjectNotFound) \/
  (inspect (bswap 8 h) (stor (host w) k), e) = (Other_type, StorageObjectTypeMismatch) ->
  wpf (borrow_child_object ep h fs) [u; ca] w (resq (fun r w' => r = [BADF00D] /\ abort_flag w' = ep e /\ host w' = host w) (oom w 64)).
Proof.
  intros ep h fs w u ca e Hw He St Ab Hc1 Hc2 Hu1 Hu2 i Hi1 Hi2 pa Hp1 Hp2 k Hh E. pose proof Hw as (P1&P2&P3&P4&P5&P6).
  apply wpf_intro; [reflexivity|]. cbn [app borrow_child_object]. wc. ws1.
  wcall alloc_spec; [exact Hw|lia|intros O; eapply oom_mono; [exact O|lia]|].
  intros rs w1 (->&Al). pose proof (alloc_extends _ _ _ Hw Al ltac:(lia)) as Ex. destruct Al as (Hw1&Em&A1&A2&A3&A4&A5). pose proof Hw1 as (Q1&Q2&Q3&Q4&Q5&Q6).
  wc. ws1. ws1. apply wp_load; [lia|unfold page_size; lia|]. rewrite Z.add_0_r, Em. fold i. apply wp_load; [lia|unfold page_size; lia|]. rewrite Z.add_0_r, Em. fold pa.
  ws1. ws1. ws1.
  assert (Ab1 : abort_flag w1 = 0) by (unfold abort_flag in *; rewrite Em; exact Ab).
  destruct (slot_ready ep w1 (gnext w) pa ca Hw1 He (statics_extends _ _ Hw St Ex) Ab1) as (m2&R2&Rd&Ab2&Z2&K2&F2); try lia.
  eapply wp_call; [reflexivity|cbn [List.length]; lia|]. wc. eapply returns_wpf; [exact R2|]. wc. ws1. ws1. ws1.
  rewrite Em, A5 in K2. fold k in K2. set (w2 := set_mem w1 m2) in *.
  assert (H2 : host w2 = host w) by exact A5. assert (N2 : gnext w2 = gnext w + 32) by exact A3. assert (M2 : maxpages w2 = maxpages w) by exact A1.
  eapply wp_call_spec; [reflexivity|cbn [List.length]; lia| | |]; wc.
  { eapply (load_err ep h fs w2 (gnext w) ca pa k); try (rewrite H2); try eassumption; lia. }
  { intros O. unfold oom in *. lia. }
  intros rs w3 (->&w4&Se&Fr&Af). wc. apply wp_propagate_err.
  - eapply wok_frame; [apply Se|exact Fr|]. pose proof (proj1 (proj1 Se)) as (_&_&?&_). unfold within. lia.
  - rewrite Af. specialize (He e). lia.
  - wc. split; [reflexivity|]. split; [exact Af|]. transitivity (host w4); [apply Fr|]. transitivity (host w2); [apply Se|exact H2].
Qed.

Lemma remove_child_object_spec : forall ep h fs w u ca (R : Z -> world -> Prop) (T : Prop),
  wpf (borrow_child_object ep h fs) [u; ca] w (resq (fun r w' => exists a, r = [a] /\ live w' a 4 /\ wok w' /\ R (load 4 (mem w') a) w') T) ->
  wpf (remove_child_object ep h fs) [u; ca] w (resq (fun r w' => exists x, r = [x] /\ R x w') T).
Proof.
  intros ep h fs w u ca R T Hb. apply wpf_intro; [reflexivity|]. wc. ws1. ws1.
  eapply wp_call_spec; [reflexivity|cbn [List.length]; lia| | |]; wc.
  { exact Hb. }
  { auto. }
  intros rs w' (a&->&La&Hw'&Hr). wc. pose proof Hw' as (P1&P2&P3&P4&P5&P6). unfold live in La. apply wp_load; [lia|unfold page_size; lia|]. rewrite Z.add_0_r. ws1. eauto.
Qed.
