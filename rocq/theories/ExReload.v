(** * Concrete states for the examples of PropsReload.v. *)

From Verif Require Import SpecInt Spec Tac RtAlloc RtErr RtSwap RtCopy SpecAbi SpecVal LemVal SpecVec LemVec ExVec SpecSol SpecStor SpecLayout RtStor RtStore LemStore RtSave RtLoad RtLoadObj LemPlace LemObj ExObj RtChild LemDelete RtDelete SpecMove RtTransfer LemMove ExMove SpecCache RtCache SpecExt RtExt SpecReload RtReload.
Ltac Zify.zify_post_hook ::= idtac.

(** The memory of ExMove with the object 9 of the account 161 at 564, the pointer to it before its id field; a reference to it
    at 700, and the configuration of a delegate call at 704. *)
Definition m_del : memory :=
  store 4 (store 4 (store 8 (store 1 (store_be 32 (store 4 (store 4 (store 4 (store 4 (store 4 (m_move 161) 704 708) 708 724) 712 756) 716 760) 720 768) 724 42) 756 1) 760 100000) 608 564) 700 564.
(** What storage has for the object: [n] in its first field. *)
Definition st_del (n y : Z) : Z := if y =? k_move 161 then bswap 8 5 + n * 2 ^ 64 else if y =? k_move 161 + 1 then 2748 else 0.
(** Every call adds one to the field in storage. *)
Definition ext_del : extst := mkExt (fun _ st com => mkReply 0 [] (fun y => if y =? k_move 161 then st y + 2 ^ 64 else st y) com) [] [] (fun _ _ => 0) (fun _ _ => 0).
Definition w_del (n : Z) : world := mkW m_del 1 100 800 (65536 - 800) 0 (mkHost hash2 (st_del n) (st_del n) [] 161 162 0 1 1 0 0 [] [] ext_del).

(** translation.rs 1018-1066: the code of a call to another contract, after its arguments are on the stack; [l] are the
    object arguments of the calling function (see C78), [named] the locals of those with named ids. *)
Definition external_site (ep : errtab) (rt : bool) (l : list (nat * Z * list ty)) (named : list nat) (f : func) : list instr :=
  cache_args ep rt l ++ [ Const 1; Host H_storage_flush ] ++ List.concat (map (fun i => [ LocalGet i; Load 4 0; Load 4 0 ]) named) ++ [ Call f ].
(** A function that has a configuration and a mutable reference to an object, makes [n] calls, and ends. *)
Definition calling (n : nat) : func :=
  let f := external_call_named ep0 false false [1; 2; 3; 4] [] None [(5, fs_flat)] in
  Func 2 0 n (List.concat (repeat ([ LocalGet 0 ] ++ external_site ep0 true [(1%nat, 5, fs_flat)] [1%nat] f) n) ++ cache_args ep0 true [(1%nat, 5, fs_flat)]).

(** The number in the object's first field, in memory and in storage. *)
Definition field_now (w : world) : Z := load 8 (mem w) (load 4 (mem w) 568).
Definition field_stored (w : world) : Z := part (stor (host w) (k_move 161)) 8 8.

(** Storage has 78, memory 77. *)
Definition sh_del : shown := Shown (HeldArg 0 5 fs_flat 161 9 [VInt 78; VInt 2748; VInt 0]) vs_flat 564 612 (between 532 700).
Lemma w_del_ok : wok (w_del 78).
Proof.
  apply (wh_ok m_del 800 (st_del 78)). unfold m_del, m_move, m_flat. repeat first [apply wm_store_be_ok; [|cbn; lia]|apply wm_store_ok; [|lia]]. apply wm_ok. lia.
Qed.
Lemma w_del_memory : in_memory (w_del 78) sh_del.
Proof.
  split; [|split; [vm_compute; reflexivity|split; [vm_compute; reflexivity|split; [intros y; unfold sh_del, between; cbn [s_uid s_mem]; lia|intros y; unfold sh_del, heap, between; cbn [s_mem w_del gnext]; lia]]]].
  exists 612, 616, 620, (between 652 700); do 5 (split; [vm_compute; reflexivity|]); cbn [sh_del s_now a_types s_at s_mem s_old]; unfold fs_flat; cbn [List.length];
    do 5 (split; [nums|]); (split; [unfold disj, union, between; intros; lia|]); cbn [map fields vs_flat];
    exists (between 652 660), (between 660 700); (split; [nums|]); (split; [|nums]);
    exists (between 660 692), (between 692 700); (split; [unfold field_of; cbn [is_stack vrep]; nums|]); (split; [|nums]);
    exists (between 692 700), empty; (split; [nums|]); (split; [exact I|nums]).
Qed.
Lemma w_del_storage : in_storage (host (w_del 78)) sh_del.
Proof.
  assert (S : a_slot (host (w_del 78)) (s_now sh_del) = k_move 161) by (apply slot_of_keccak; reflexivity).
  pose proof (k_move_small 161) as B. unfold in_storage. rewrite S. cbn [sh_del s_now a_types a_vals a_owner a_hash a_id].
  split.
  { intros _. change (a_slot (host (w_del 78)) _) with (a_slot (host (w_del 78)) (s_now sh_del)). rewrite S. change (stor (host (w_del 78))) with (st_del 78). split; [vm_compute; reflexivity|]. change (keccak (host (w_del 78))) with hash2.
    unfold st_del. set (k := k_move 161) in *. clearbody k. clear S.
    change fs_flat with [TU64; TAddress; TBool]. cbn [s_now sh_del a_types a_vals helds held width after room fst snd Z.add Z.leb Z.compare Pos.compare Pos.compare_cont Z.sub Pos.add Z.pos_sub Z.opp]. split; [|split; [|split; [|exact I]]].
    + exists 78. split; [reflexivity|]. rewrite Z.eqb_refl. split; [cbn [vbits]; lia|vm_compute; reflexivity].
    + exists 2748. split; [reflexivity|]. rewrite (proj2 (Z.eqb_neq (k + 1) k)), Z.eqb_refl by lia. split; [cbn [vbits]; lia|vm_compute; reflexivity].
    + exists 0. split; [reflexivity|]. rewrite (proj2 (Z.eqb_neq (k + 1) k)), Z.eqb_refl by lia. split; [cbn [vbits]; lia|vm_compute; reflexivity]. }
  split; [lia|]. split; [left; reflexivity|]. split.
  { apply Forall_forall. intros q Hq. assert (E : forallb (fun q => snd q <? 2 ^ 256) (a_slots (host (w_del 78)) (s_now sh_del)) = true) by (vm_compute; reflexivity).
    rewrite forallb_forall in E. apply Z.ltb_lt. apply E. exact Hq. }
  split; [vm_compute; reflexivity|]. split; [left; vm_compute; reflexivity|]. split; [lia|].
  intros o [->| ->] N; [exfalso; apply N; vm_compute; reflexivity|vm_compute; reflexivity].
Qed.

Lemma one_call : runs_to 5000 (calling 1) [704; 700] (w_del 77) (fun _ w' => (abort_flag w' =? 0) && (Z.of_nat (List.length (x_calls (h_ext (host w')))) =? 1) && (field_now w' =? 78) && (field_stored w' =? 78)) = true.
Proof. vm_compute. reflexivity. Qed.
Lemma two_calls : runs_to 5000 (calling 2) [704; 700] (w_del 77) (fun _ w' => (abort_flag w' =? 0) && (Z.of_nat (List.length (x_calls (h_ext (host w')))) =? 2) && (field_now w' =? 78) && (field_stored w' =? 78)) = true.
Proof. vm_compute. reflexivity. Qed.

Ltac ends L := destruct (runs_to_ok _ _ _ _ _ L) as (vs & w' & R & E); exists vs, w'; split; [exact R|];
  repeat (apply andb_true_iff in E; destruct E as [E ?]); repeat match goal with H : (_ =? _) = true |- _ => apply Z.eqb_eq in H end.
Lemma one_call_ends : exists vs w', returns (calling 1) [704; 700] (w_del 77) vs w' /\ abort_flag w' = 0 /\ List.length (x_calls (h_ext (host w'))) = 1%nat /\ field_now w' = 78 /\ field_stored w' = 78.
Proof. ends one_call. split; [assumption|]. split; [apply Nat2Z.inj; assumption|]. split; assumption. Qed.
Lemma two_calls_end : exists vs w', returns (calling 2) [704; 700] (w_del 77) vs w' /\ abort_flag w' = 0 /\ List.length (x_calls (h_ext (host w'))) = 2%nat /\ field_now w' = 78 /\ field_stored w' = 78.
Proof. ends two_calls. split; [assumption|]. split; [apply Nat2Z.inj; assumption|]. split; assumption. Qed.

Lemma sh_del_ready : wok (w_del 78) /\ errtab_ok ep0 /\ statics (w_del 78) /\ abort_flag (w_del 78) = 0 /\ [sh_del] <> [] /\
  Forall (in_memory (w_del 78)) [sh_del] /\ Forall (in_storage (host (w_del 78))) [sh_del] /\
  ForallOrdPairs (fun s1 s2 => disj (s_mem s1) (s_mem s2)) [sh_del].
Proof.
  split; [exact w_del_ok|]. split; [exact ep0_ok|]. split; [repeat split; vm_compute; reflexivity|]. split; [vm_compute; reflexivity|]. split; [discriminate|].
  split; [constructor; [exact w_del_memory|constructor]|]. split; [constructor; [exact w_del_storage|constructor]|]. repeat constructor.
Qed.

(** The same world with the configuration of an ordinary call. *)
Definition w_ordinary (n : Z) : world := set_mem (w_del n) (store 1 m_del 756 0).
Lemma ordinary_call : runs_to 5000 (calling 1) [704; 700] (w_ordinary 78) (fun _ w' => (abort_flag w' =? 0) && (Z.of_nat (List.length (x_calls (h_ext (host w')))) =? 1) && (field_now w' =? 77)) = true.
Proof. vm_compute. reflexivity. Qed.
Lemma ordinary_call_ends : exists vs w', returns (calling 1) [704; 700] (w_ordinary 78) vs w' /\ abort_flag w' = 0 /\ List.length (x_calls (h_ext (host w'))) = 1%nat /\ field_now w' = 77.
Proof. ends ordinary_call. split; [assumption|]. split; [apply Nat2Z.inj; assumption|]. assumption. Qed.
