(** * Concrete memories for the examples of PropsVec.v, and the counterexamples. *)

From Verif Require Import SpecInt Spec Tac RtAlloc RtErr SpecVal LemVal RtCopy RtVec RtVec2 RtVecEq SpecVec LemVec.
Ltac Zify.zify_post_hook ::= idtac.

Ltac calc_next := repeat match goal with |- context [gnext ?w] => let g := eval vm_compute in (gnext w) in change (gnext w) with g
  | |- context [load ?n ?m ?a] => let v := eval vm_compute in (load n m a) in change (load n m a) with v end.
Ltac nums := repeat match goal with
  | |- _ /\ _ => split
  | |- True => exact I
  | |- elems _ _ _ [] _ _ => exact I
  | |- fields [] _ [] _ _ => exact I
  | |- int_val _ _ _ => split
  | |- field_of _ _ _ _ _ _ => unfold field_of; cbn [is_stack vrep]
  | |- sub empty _ => intros ? []
  | |- disj empty _ => intros ? []
  | |- disj _ empty => intros ? _ []
  | |- sub _ _ => unfold sub, cell, heap, fresh, between, enum_size; cbn [esize List.length enum_size fold_right map]; calc_next; intros; lia
  | |- disj _ _ => unfold disj, cell, between, enum_size; cbn [esize List.length enum_size fold_right map]; calc_next; intros; lia
  | |- _ = _ => vm_compute; reflexivity
  | |- _ <= _ => vm_compute; discriminate
  | |- _ < _ => vm_compute; reflexivity
  end.

(** A vector<u64> [7; 9] of capacity 2 at 500, with references to it at 480 and 484. *)
Definition w_u64 : world := wm (store 4 (store 4 (store 4 (store 4 (store 8 (store 8 zmem 508 7) 516 9) 500 2) 504 2) 480 500) 484 500) 600.
Lemma w_u64_ok : wok w_u64.
Proof. unfold w_u64. repeat (apply wm_store_ok; [|lia]). apply wm_ok. lia. Qed.
Lemma w_u64_running : running ep0 w_u64.
Proof. split; [exact w_u64_ok|]. split; [exact ep0_ok|vm_compute; reflexivity]. Qed.
Lemma w_u64_owns : owns w_u64 (TVec TU64) (VVec [VInt 7; VInt 9]) 500 (between 500 524).
Proof.
  split; [|nums]. cbn [vrep]. exists [VInt 7; VInt 9], 2, empty. nums.
  cbn [elems vrep]. exists empty, empty. nums.
  exists empty, empty. nums.
Qed.
Lemma w_u64_vec : vec_ref w_u64 TU64 480 [VInt 7; VInt 9] (between 500 524).
Proof.
  split; [nums|]. split; [nums|]. split; [nums|]. change (load 4 (mem w_u64) 480) with 500. exact (proj1 w_u64_owns).
Qed.

(** A vector<u128> [5] at 500 (reference at 480), its element at 516; an empty vector<u128> of capacity 1 at 540 (reference at 484). *)
Definition m_u128 : memory := store 4 (store 4 (store 4 (store 4 (store 4 (store 4 (store 16 zmem 516 5) 508 516) 500 1) 504 1) 480 500) 484 540) 544 1.
Definition w_u128 : world := wm m_u128 600.
Lemma w_u128_running : running ep0 w_u128.
Proof.
  split; [|split; [exact ep0_ok|vm_compute; reflexivity]]. unfold w_u128, m_u128. repeat (apply wm_store_ok; [|lia]). apply wm_ok. lia.
Qed.
Lemma u128_vec_rep : vrep m_u128 (TVec TU128) (VVec [VInt 5]) 500 (between 500 532).
Proof.
  cbn [vrep]. exists [VInt 5], 1, (between 516 532). nums.
  cbn [elems vrep]. exists (between 516 532), empty. nums.
Qed.
Lemma w_u128_owns : owns w_u128 (TVec TU128) (VVec [VInt 5]) 500 (between 500 532).
Proof. split; [exact u128_vec_rep|nums]. Qed.
Lemma w_u128_vec : vec_ref w_u128 TU128 480 [VInt 5] (between 500 532).
Proof. split; [nums|]. split; [nums|]. split; [nums|]. exact u128_vec_rep. Qed.
Lemma w_u128_empty : vec_ref w_u128 TU128 484 [] (between 540 552).
Proof.
  split; [nums|]. split; [nums|]. split; [nums|]. unfold field_of. cbn [is_stack]. change (load 4 (mem w_u128) 484) with 540.
  cbn [vrep]. exists [], 1, empty. nums.
Qed.

Lemma swap_equal_out_of_range : exists ep w w' r vs F i,
  running ep w /\ vec_ref w TU64 r vs F /\ 0 <= i < 2 ^ 64 /\ Z.of_nat (List.length vs) <= i /\
  returns (vec_swap ep TU64) [r; i; i] w [] w' /\ abort_flag w' = 0.
Proof.
  destruct (runs_to_vals 500 (vec_swap ep0 TU64) [480; 5; 5] w_u64 [] (fun w' => abort_flag w' =? 0)) as (w'&R&H); [vm_compute; reflexivity|].
  exists ep0, w_u64, w', 480, [VInt 7; VInt 9], (between 500 524), 5.
  split; [exact w_u64_running|]. split; [exact w_u64_vec|]. split; [nums|]. split; [nums|]. split; [exact R|apply Z.eqb_eq; exact H].
Qed.

Lemma empty_vectors_unequal : exists ep w p q F G w',
  wok w /\ owns w (TVec TU128) (VVec []) p F /\ owns w (TVec TU128) (VVec []) q G /\ disj F G /\
  returns (eq_fn ep (TVec TU128)) [p; q] w [0] w'.
Proof.
  (* two empty vectors at 500 and 508, followed by the u128 516 *)
  set (w := wm (store 16 zmem 516 516) 600).
  destruct (runs_to_vals 500 (eq_fn ep0 (TVec TU128)) [500; 508] w [0] (fun _ => true)) as (w'&R&_); [vm_compute; reflexivity|].
  exists ep0, w, 500, 508, (between 500 508), (between 508 516), w'.
  split; [apply wm_store_ok; [apply wm_ok; lia|lia]|]. split; [|split; [|split; [nums|exact R]]].
  - split; [|nums]. cbn [vrep]. exists [], 0, empty. nums.
  - split; [|nums]. cbn [vrep]. exists [], 0, empty. nums.
Qed.

Lemma vector_equality_ok : forall ep t w vs us p q F G, wf_ty (TVec t) -> wok w ->
  owns w (TVec t) (VVec vs) p F -> owns w (TVec t) (VVec us) q G -> full (TVec t) (VVec vs) \/ full (TVec t) (VVec us) ->
  exists b, returns (eq_fn ep (TVec t)) [p; q] w [b2z b] w /\ (b = true <-> map erase vs = map erase us).
Proof.
  intros ep t w vs us p q F G Wf Hw V U Fu. destruct (eq_fn_ok ep (TVec t) w _ _ p q F G Wf Hw V U Fu) as (b&R&H). exists b. split; [exact R|].
  rewrite H. cbn [erase]. split; [intros E; injection E; auto|congruence].
Qed.

Lemma vector_copy_ok : forall ep t w vs p F, wf_ty (TVec t) -> wok w -> owns w (TVec t) (VVec vs) p F ->
  (exists p' w', returns (copy_fn ep (TVec t)) [p] w [p'] w' /\ extends w w' /\
     owns w' (TVec t) (VVec vs) p' (fresh w w') /\ owns w' (TVec t) (VVec vs) p F /\ disj F (fresh w w')) \/
  no_memory (copy_fn ep (TVec t)) [p] w (has_small (TVec t)) (csize (TVec t) (VVec vs)).
Proof.
  intros ep t w vs p F Wf Hw V. destruct (copy_fn_ok ep (TVec t) w _ p F eq_refl Wf Hw V) as [(p'&w'&R&E&A&B)|N]; [left|right; exact N].
  exists p', w'. repeat (split; [assumption|]). intros y Y Z0. apply V in Y. unfold heap, fresh, between in *. lia.
Qed.

Lemma copy_traps_only_oom : forall ep t w v p F, is_stack t = false -> has_small t = false -> wf_ty t -> wok w -> owns w t v p F ->
  traps (copy_fn ep t) [p] w -> 65536 * maxpages w < gnext w + csize t v + 65536.
Proof.
  intros ep t w v p F St Hs Wf Hw V T. destruct (copy_fn_ok ep t w v p F St Wf Hw V) as [(p'&w'&R&_)|[_ [O|[X _]]]].
  - unfold traps, returns in *. pose proof (evals_unique _ _ _ _ _ T R). discriminate.
  - exact O.
  - congruence.
Qed.

(** A vector<u8> [1] at 500 when 9 bytes of the first page are left. *)
Lemma copy_traps_at_page_end : exists ep w p F,
  wok w /\ owns w (TVec TU8) (VVec [VInt 1]) p F /\ traps (copy_fn ep (TVec TU8)) [p] w /\
  65536 * pages w + 6000000 <= 65536 * maxpages w.
Proof.
  set (w := wm (store 1 (store 4 (store 4 zmem 500 1) 504 1) 508 1) 65527).
  exists ep0, w, 500, (between 500 509). split; [repeat (apply wm_store_ok; [|lia]); apply wm_ok; lia|]. split; [|split].
  - split; [|nums]. cbn [vrep]. exists [VInt 1], 1, empty. nums.
    cbn [elems vrep]. exists empty, empty. nums.
  - apply (traps_by_ok 300). vm_compute. reflexivity.
  - vm_compute. discriminate.
Qed.

(** [m_u128] in a machine with a single page, nearly full. *)
Definition w_tight : world := mkW m_u128 1 1 65520 16 0 host0.
Lemma w_tight_ok : wok w_tight.
Proof.
  destruct w_u128_running as ((_&_&_&_&_&Z0)&_). unfold wok, w_tight; cbn [pages maxpages gnext gavail mem]. repeat (split; [lia|]).
  intros. apply Z0. cbn [gnext w_u128 wm]. lia.
Qed.
Lemma w_tight_owns : owns w_tight (TVec TU128) (VVec [VInt 5]) 500 (between 500 532).
Proof. split; [exact u128_vec_rep|]. unfold sub, between, heap. cbn [gnext w_tight]. unfold between. intros; lia. Qed.

(** An object with key: owner 77, fields id (a struct with an address), u64 and an enum value with two variants. *)
Definition T_obj : ty := TStruct true [TStruct false [TAddress]; TU64; TEnum [[]; [TU8; TU128]]; TVec TU16].
Definition v_obj : val := VStruct 77 [VStruct 0 [VInt 513]; VInt 42; VEnum 1 [VInt 3; VInt 99]; VVec [VInt 1; VInt 2]].
Definition m_obj : memory :=
  store 32 (store 4 (store 4 (store 4 (store 4
   (store 4 (store 32 (store 8 (store 4 (store 4 (store 4 (store 1 (store 16
    (store 4 (store 4 (store 2 (store 2 zmem 632 1) 634 2) 624 2) 628 2)
    608 99) 605 3) 600 608) 596 605) 592 1) 580 42) 540 (256 ^ 31 + 2 * 256 ^ 30)) 536 540) 532 624) 528 592) 524 580) 520 536) 488 (256 ^ 31 * 77).
Definition w_obj : world := wm m_obj 640.
Lemma w_obj_ok : wok w_obj.
Proof. unfold w_obj, m_obj. repeat (apply wm_store_ok; [|lia]). apply wm_ok. lia. Qed.

Lemma w_obj_owns : owns w_obj T_obj v_obj 520 (between 488 640).
Proof.
  split; [|nums]. unfold T_obj, v_obj. cbn [vrep]. eexists _, _, (between 536 640). split; [reflexivity|]. split; [vm_compute; reflexivity|].
  split; [cbn [List.length]; nums|]. split; [nums|]. split; [cbn [List.length]; nums|]. cbn [map fields].
  exists (between 536 572), (between 580 640). split; [|split; [|nums]].
  { unfold field_of. cbn [is_stack vrep]. eexists _, _, (between 540 572). split; [reflexivity|]. split; [reflexivity|].
    split; [cbn [List.length]; nums|]. split; [nums|]. split; [cbn [List.length]; nums|]. cbn [map fields].
    exists (between 540 572), empty. nums. }
  exists (between 580 588), (between 592 640). split; [|split; [|nums]].
  { unfold field_of. cbn [is_stack]. nums. }
  exists (between 592 624), (between 624 640). split; [|split; [|nums]].
  { unfold field_of. cbn [is_stack vrep]. exists 1%nat. eexists _, (between 605 624). split; [reflexivity|]. split; [vm_compute; reflexivity|].
    split; [nums|]. split; [nums|]. split; [nums|]. cbn [map nth_error fields].
    exists (between 605 606), (between 608 624). split; [|split; [|nums]].
    { unfold field_of. cbn [is_stack]. nums. }
    exists (between 608 624), empty. nums. }
  exists (between 624 640), empty. split; [|nums].
  unfold field_of. cbn [is_stack vrep]. eexists _, _, empty. split; [reflexivity|]. split; [vm_compute; reflexivity|]. split; [vm_compute; reflexivity|]. nums.
  cbn [elems]. exists empty, empty. nums. exists empty, empty. nums.
Qed.
