(** * Concrete objects for the examples of PropsObj.v, and the counterexamples. *)

From Verif Require Import SpecInt Spec Tac RtAlloc RtErr RtSwap RtCopy SpecAbi SpecVal LemVal SpecVec LemVec ExVec SpecStor SpecLayout RtStor RtStore LemStore RtSave RtLoad RtLoadObj LemPlace LemObj.
Ltac Zify.zify_post_hook ::= idtac.

Definition hash0 (bs : list Z) : Z := fold_left (fun a b => a * 256 + b) bs 0 + 2 ^ 200.
Definition wh (m : memory) (next : Z) (st : Z -> Z) : world := mkW m 1 100 next (65536 - next) 0 (mkHost hash0 st st [] 161 162 0 1 1 0 0 [] [] ext0).
Lemma wh_ok : forall m next st, wok (wm m next) -> wok (wh m next st).
Proof. intros m next st. unfold wok, wm, wh; cbn [pages maxpages gnext gavail mem]. auto. Qed.

(** Slot number 7 at 500; an object at 564 with id 9 (at 620), owner 161 and fields u64 77 (at 652), address 2748 (at 660), bool 1 (at 692). *)
Definition m_flat : memory :=
  store_be 32 (store_be 32 (store_be 32 (store_be 32 (store 1 (store 8
   (store 4 (store 4 (store 4 (store 4 (store 4 (store 4 (store 32 zmem 32 1)
   564 612) 612 616) 616 620) 568 652) 572 660) 576 692)
   652 77) 692 1) 660 2748) 620 9) 532 161) 500 7.
Definition fs_flat : list ty := [TU64; TAddress; TBool].
Definition vs_flat : list val := [VInt 77; VInt 2748; VInt 1].
Definition w_flat : world := wh m_flat 700 (fun _ => 12345).
Lemma wm_store_be_ok : forall n m a v next, wok (wm m next) -> a + n <= next -> wok (wm (store_be n m a v) next).
Proof.
  unfold wok, wm; cbn [pages maxpages gnext gavail mem]. intros n m a v next (H1&H2&H3&H4&H5&H6) L. repeat (split; [lia|]).
  intros x Hx. rewrite rd_store_be_out by lia. apply H6. exact Hx.
Qed.
Lemma w_flat_ready : ready ep0 w_flat 500.
Proof.
  split; [|split; [exact ep0_ok|split; [vm_compute; reflexivity|cbn; lia]]]. apply wh_ok. unfold m_flat.
  repeat first [apply wm_store_be_ok; [|cbn; lia]|apply wm_store_ok; [|lia]]. apply wm_ok. lia.
Qed.
Lemma w_flat_object : object_at (mem w_flat) fs_flat 161 9 vs_flat 564 (between 532 700).
Proof.
  exists 612, 616, 620, (between 652 700). do 5 (split; [vm_compute; reflexivity|]). unfold fs_flat. cbn [List.length].
  do 5 (split; [nums|]). split; [unfold disj, union, between; intros; lia|]. cbn [map fields vs_flat].
  exists (between 652 660), (between 660 700). split; [nums|]. split; [|nums].
  exists (between 660 692), (between 692 700). split; [unfold field_of; cbn [is_stack vrep]; nums|]. split; [|nums].
  exists (between 692 700), empty. split; [nums|]. split; [exact I|nums].
Qed.

(** A vector of three u64 (at 640) in memory, of five in storage; slot number 7 at 500, the object at 564. *)
Definition m_vec : memory :=
  store 8 (store 8 (store 8 (store 4 (store 4 (store_be 32 (store_be 32 (store_be 32 
   (store 4 (store 4 (store 4 (store 4 (store 32 zmem 32 1)
   564 612) 612 616) 616 576) 568 640)
   576 9) 532 161) 500 7) 640 3) 644 3) 648 11) 656 12) 664 13.
Definition d_vec : Z := data_slot hash0 8.
Definition st_vec (y : Z) : Z :=
  if y =? 7 then 1 else if y =? 8 then 5 else
  if y =? d_vec then 11 + 12 * 2 ^ 64 + 13 * 2 ^ 128 + 14 * 2 ^ 192 else if y =? d_vec + 1 then 15 else 0.
Definition w_vec : world := wh m_vec 700 st_vec.
Lemma w_vec_ready : ready ep0 w_vec 500.
Proof.
  split; [|split; [exact ep0_ok|split; [vm_compute; reflexivity|cbn; lia]]]. apply wh_ok. unfold m_vec.
  repeat first [apply wm_store_be_ok; [|cbn; lia]|apply wm_store_ok; [|lia]]. apply wm_ok. lia.
Qed.
Lemma w_vec_object : object_at (mem w_vec) [TVec TU64] 161 9 [VVec [VInt 11; VInt 12; VInt 13]] 564 (between 532 700).
Proof.
  exists 612, 616, 576, (between 640 700). do 5 (split; [vm_compute; reflexivity|]). cbn [List.length].
  do 5 (split; [nums|]). split; [unfold disj, union, between; intros; lia|]. cbn [map fields].
  exists (between 640 700), empty. split; [|split; [exact I|nums]]. unfold field_of. cbn [is_stack vrep]. exists [VInt 11; VInt 12; VInt 13], 3, empty. nums.
  cbn [elems vrep]. exists empty, empty. nums. exists empty, empty. nums. exists empty, empty. nums.
Qed.

Lemma w_vec_held : helds (keccak (host w_vec)) (stor (host w_vec)) [TVec TU64] [VVec [VInt 11; VInt 12; VInt 13; VInt 14; VInt 15]] (7, 8).
Proof.
  cbn [helds]. split; [|exact I]. apply held_vec. eexists. split; [reflexivity|]. split; [vm_compute; reflexivity|].
  change (data_slot (keccak (host w_vec)) (fst (room (7, 8) 32))) with d_vec. cbn [map helds].
  assert (K : forall p n, (let (k, o) := room p 8 in part (stor (host w_vec) k) (o - 8) 8 = n) -> 0 <= n < 2 ^ 64 -> held (keccak (host w_vec)) (stor (host w_vec)) TU64 (VInt n) p).
  { intros p n E B. cbn [held width]. destruct (room p 8). exists n. auto. }
  do 5 (split; [apply K; [vm_compute; reflexivity|lia]|]). exact I.
Qed.

(** The fifth element stays. *)
Lemma shrink_leaves_element : exists ep h w w' x p F k owner id vs old, let H := keccak (host w) in
  ready ep w p /\ load_be 32 (mem w) 0 = 0 /\ load_be 32 (mem w) p = k /\ 0 <= h < 2 ^ 64 /\
  object_at (mem w) [TVec TU64] owner id [VVec vs] x F /\ sub F (heap w) /\ disj F (between p (p + 32)) /\
  helds H (stor (host w)) [TVec TU64] [VVec old] (k, 8) /\ (List.length vs < List.length old)%nat /\
  returns (save_object ep h [TVec TU64]) [x; p] w [] w' /\
  let d := data_slot H (k + 1) in
  exists y, fst (afters (map (fun _ => TU64) vs) (d, 0)) < y <= fst (afters (map (fun _ => TU64) old) (d, 0)) /\ stor (host w') y <> 0.
Proof.
  destruct (runs_to_vals 2000 (save_object ep0 5 [TVec TU64]) [564; 500] w_vec [] (fun w' => stor (host w') (d_vec + 1) =? 15)) as (w'&R&E); [vm_compute; reflexivity|].
  exists ep0, 5, w_vec, w', 564, 500, (between 532 700), 7, 161, 9, [VInt 11; VInt 12; VInt 13], [VInt 11; VInt 12; VInt 13; VInt 14; VInt 15]. cbv zeta.
  split; [exact w_vec_ready|]. split; [vm_compute; reflexivity|]. split; [vm_compute; reflexivity|]. split; [lia|]. split; [exact w_vec_object|].
  split; [nums|]. split; [nums|]. split; [exact w_vec_held|]. split; [cbn; lia|]. split; [exact R|]. exists (d_vec + 1).
  change (data_slot (keccak (host w_vec)) (7 + 1)) with d_vec. split; [split; vm_compute; [reflexivity|discriminate]|]. apply Z.eqb_eq in E. rewrite E. discriminate.
Qed.

(** Memory is used up to byte 65483; a bool in storage. *)
Definition w_edge : world := wh m_flat 65483 (fun y => if y =? 7 then bswap 8 5 + 2 ^ 64 else 0).
Lemma load_traps_at_page_end : exists ep h w p sid ow vs,
  ready ep w p /\ 468 <= sid /\ sid + 32 <= gnext w /\ (sid + 32 <= p \/ p + 32 <= sid) /\ 0 <= ow /\ ow + 32 <= gnext w /\ 0 < h < 2 ^ 64 /\
  let k := load_be 32 (mem w) p in
  inspect (bswap 8 h) (stor (host w) k) = Present /\ typeds [TBool] vs /\ placed (stor (host w)) (object_places k [TBool]) (object_ints vs) /\
  traps (load_object ep h [TBool]) [p; sid; ow] w /\ gnext w + 1000000 < 65536 * maxpages w.
Proof.
  exists ep0, 5, w_edge, 500, 620, 532, [VInt 1].
  split. { split; [|split; [exact ep0_ok|split; [vm_compute; reflexivity|cbn; lia]]]. apply wh_ok. unfold m_flat.
    repeat first [apply wm_store_be_ok; [|cbn; lia]|apply wm_store_ok; [|lia]]. apply wm_ok. lia. }
  cbv zeta. change (load_be 32 (mem w_edge) 500) with 7. change (gnext w_edge) with 65483. change (maxpages w_edge) with 100.
  do 6 (split; [lia|]). split; [vm_compute; reflexivity|]. split; [constructor; [exists 1; split; [reflexivity|cbn; lia]|constructor]|].
  split; [constructor; [vm_compute; reflexivity|constructor]|]. split; [apply (traps_by_ok 500); vm_compute; reflexivity|lia].
Qed.

(** A vector of one u256 in memory, of two in storage, whose elements start in a slot with a number that ends in byte 255. *)
Definition hash1 (bs : list Z) : Z := fold_left (fun a b => a * 256 + b) bs 0 + 2 ^ 200 + 247.
Definition d_vec2 : Z := data_slot hash1 8.
Definition m_vec2 : memory :=
  store 32 (store 4 (store 4 (store 4 (store_be 32 (store_be 32 (store_be 32 
   (store 4 (store 4 (store 4 (store 4 (store 32 zmem 32 1)
   564 612) 612 616) 616 576) 568 640)
   576 9) 532 161) 500 7) 640 1) 644 1) 648 652) 652 11.
Definition st_vec2 (y : Z) : Z :=
  if y =? 7 then 1 else if y =? 8 then 2 else if y =? d_vec2 then 11 else if y =? d_vec2 + 1 then 12 else 0.
Definition w_vec2 : world := mkW m_vec2 1 100 700 (65536 - 700) 0 (mkHost hash1 st_vec2 st_vec2 [] 161 162 0 1 1 0 0 [] [] ext0).
Lemma shrink_traps : exists ep h w x p F k owner id vs old, let H := keccak (host w) in
  ready ep w p /\ load_be 32 (mem w) 0 = 0 /\ load_be 32 (mem w) p = k /\ 0 <= h < 2 ^ 64 /\
  object_at (mem w) [TVec TU256] owner id [VVec vs] x F /\ sub F (heap w) /\ disj F (between p (p + 32)) /\
  helds H (stor (host w)) [TVec TU256] [VVec old] (k, 8) /\ (List.length vs < List.length old)%nat /\
  separate (slots H [TVec TU256] [VVec old] (k, 8)) /\ traps (save_object ep h [TVec TU256]) [x; p] w /\ gnext w + 1000000 < 65536 * maxpages w.
Proof.
  exists ep0, 5, w_vec2, 564, 500, (between 532 700), 7, 161, 9, [VInt 11], [VInt 11; VInt 12]. cbv zeta.
  split. { split; [|split; [exact ep0_ok|split; [vm_compute; reflexivity|cbn; lia]]]. apply (wh_ok m_vec2 700 st_vec2). unfold m_vec2.
    repeat first [apply wm_store_be_ok; [|cbn; lia]|apply wm_store_ok; [|lia]]. apply wm_ok. lia. }
  split; [vm_compute; reflexivity|]. split; [vm_compute; reflexivity|]. split; [lia|].
  split. { exists 612, 616, 576, (between 640 700). do 5 (split; [vm_compute; reflexivity|]). cbn [List.length].
    do 5 (split; [nums|]). split; [unfold disj, union, between; intros; lia|]. cbn [map fields].
    exists (between 640 700), empty. split; [|split; [exact I|nums]]. unfold field_of. cbn [is_stack vrep]. exists [VInt 11], 1, (between 652 700). nums.
    cbn [elems vrep]. exists (between 652 700), empty. nums. }
  split; [nums|]. split; [nums|].
  split. { cbn [helds]. split; [|exact I]. apply held_vec. eexists. split; [reflexivity|]. split; [vm_compute; reflexivity|].
    change (data_slot (keccak (host w_vec2)) (fst (room (7, 8) 32))) with d_vec2. cbn [map helds].
    assert (K : forall p n, (let (k, o) := room p 32 in part (stor (host w_vec2) k) (o - 32) 32 = n) -> 0 <= n < 2 ^ 256 -> held (keccak (host w_vec2)) (stor (host w_vec2)) TU256 (VInt n) p).
    { intros p n E0 B. cbn [held width]. destruct (room p 32). exists n. auto. }
    do 2 (split; [apply K; [vm_compute; reflexivity|lia]|]). exact I. }
  split; [cbn; lia|]. split.
  { split.
    - constructor; [constructor; [left; vm_compute; reflexivity|constructor]|]. constructor; [constructor|constructor].
    - repeat constructor; try (vm_compute; discriminate); try (vm_compute; reflexivity). }
  split; [apply (traps_by_ok 2000); vm_compute; reflexivity|]. change (gnext w_vec2) with 700. change (maxpages w_vec2) with 100. lia.
Qed.
Lemma w_vec_ready' : forall st, ready ep0 (wh m_vec 700 st) 500.
Proof. intros st. destruct w_vec_ready as (A&B&C&D). split; [|split; [exact B|split; [exact C|exact D]]]. apply wh_ok. unfold w_vec, wh, wok, wm in *. exact A. Qed.
Lemma w_flat_ready' : forall st, ready ep0 (wh m_flat 700 st) 500.
Proof. intros st. destruct w_flat_ready as (A&B&C&D). split; [|split; [exact B|split; [exact C|exact D]]]. apply wh_ok. unfold w_flat, wh, wok, wm in *. exact A. Qed.
