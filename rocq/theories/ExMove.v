(** * Concrete objects for the examples of PropsMove.v. *)

From Verif Require Import SpecInt Spec Tac RtAlloc RtErr RtSwap RtCopy SpecAbi SpecVal LemVal SpecVec LemVec ExVec SpecStor SpecLayout RtStor RtStore LemStore RtSave RtLoad RtLoadObj LemPlace LemObj ExObj RtChild LemDelete RtDelete SpecMove RtTransfer LemMove.
Ltac Zify.zify_post_hook ::= idtac.

(** A hash that depends on all bytes. *)
Definition hash2 (bs : list Z) : Z := fold_left (fun a b => a * 257 + b) bs 0 mod 2 ^ 255 + 2 ^ 200.

(** The object of ExObj at 564 with id 9 and owner [o]; the address 4660 at 468. *)
Definition m_move (o : Z) : memory := store_be 32 (store_be 32 (store_be 32 (store_be 32 m_flat 160 1) 192 2) 468 4660) 532 o.
Definition w_move (o : Z) (st : Z -> Z) : world := mkW (m_move o) 1 100 700 (65536 - 700) 0 (mkHost hash2 st st [] 161 162 0 1 1 0 0 [] [] ext0).
Lemma w_move_ok : forall o st, wok (w_move o st).
Proof.
  intros o st. apply (wh_ok (m_move o) 700 st). unfold m_move, m_flat. repeat first [apply wm_store_be_ok; [|cbn; lia]|apply wm_store_ok; [|lia]]. apply wm_ok. lia.
Qed.
Lemma w_move_object : forall o st, o = 0 \/ o = 1 \/ o = 2 \/ o = 161 -> object_at (mem (w_move o st)) fs_flat o 9 vs_flat 564 (between 532 700).
Proof.
  intros o st [->|[->|[->| ->]]].
  all: exists 612, 616, 620, (between 652 700); do 5 (split; [vm_compute; reflexivity|]); unfold fs_flat; cbn [List.length];
    do 5 (split; [nums|]); (split; [unfold disj, union, between; intros; lia|]); cbn [map fields vs_flat];
    exists (between 652 660), (between 660 700); (split; [nums|]); (split; [|nums]);
    exists (between 660 692), (between 692 700); (split; [unfold field_of; cbn [is_stack vrep]; nums|]); (split; [|nums]);
    exists (between 692 700), empty; (split; [nums|]); (split; [exact I|nums]).
Qed.
Lemma w_move_statics : forall o st, statics (w_move o st).
Proof. intros o st. repeat split; vm_compute; reflexivity. Qed.
Lemma w_move_sub : forall o st, sub (between 532 700) (heap (w_move o st)).
Proof. intros o st y. unfold heap, between. change (gnext (w_move o st)) with 700. lia. Qed.

(** In storage the object is kept under owner [o] with other values. *)
Definition k_move (o : Z) : Z := slot_of (mkHost hash2 (fun _ => 0) (fun _ => 0) [] 0 0 0 0 0 0 0 [] [] ext0) o 9.
Definition st_move (o : Z) (y : Z) : Z := if y =? k_move o then bswap 8 5 + 70 * 2 ^ 64 else if y =? k_move o + 1 then 2748 else 0.
Definition vs_old : list val := [VInt 70; VInt 2748; VInt 0].
Lemma k_move_small : forall o, 0 <= k_move o < 2 ^ 255 + 2 ^ 201.
Proof. intros o. unfold k_move, slot_of, hash. cbn [keccak]. rewrite Z.mod_small; unfold hash2; pose proof (Z.mod_pos_bound (fold_left (fun a b : Z => a * 257 + b) (word 9 ++ word (hash2 (word o ++ word 0) mod 2 ^ 256)) 0) (2 ^ 255) ltac:(lia)); lia. Qed.
Lemma st_move_kept : forall o, kept hash2 (st_move o) fs_flat vs_old o (k_move o).
Proof.
  intros o _. split. { repeat constructor; eexists; (split; [reflexivity|cbn; lia]). }
  pose proof (k_move_small o) as B. unfold st_move. set (k := k_move o) in *. clearbody k. clear o.
  split.
  - cbn [helds fs_flat vs_old held width after room fst snd Z.add Z.leb Z.compare Pos.compare Pos.compare_cont Z.sub Pos.add Z.pos_sub Z.opp]. split; [|split; [|split; [|exact I]]].
    + exists 70. split; [reflexivity|]. rewrite Z.eqb_refl. split; [cbn [vbits]; lia|vm_compute; reflexivity].
    + exists 2748. split; [reflexivity|]. rewrite (proj2 (Z.eqb_neq (k + 1) k)), Z.eqb_refl by lia. split; [cbn [vbits]; lia|vm_compute; reflexivity].
    + exists 0. split; [reflexivity|]. rewrite (proj2 (Z.eqb_neq (k + 1) k)), Z.eqb_refl by lia. split; [cbn [vbits]; lia|vm_compute; reflexivity].
  - change (slots hash2 fs_flat vs_old (k, 8)) with [(k, k + 1)]. split; [repeat constructor|]. constructor; [cbn [fst snd]; lia|constructor].
Qed.
Lemma room_move : forall o st, room_for hash2 st fs_flat vs_flat (k_move o).
Proof.
  intros o st. pose proof (k_move_small o) as B. split; [|cbn; tauto].
  change (slots hash2 fs_flat vs_flat (k_move o, 8)) with [(k_move o, k_move o + 1)]. split; [repeat constructor|]. constructor; [cbn [fst snd]; lia|constructor].
Qed.
Lemma w_move_slot : forall o st o', slot_of (host (w_move o st)) o' 9 = k_move o'.
Proof. intros. apply slot_of_keccak. reflexivity. Qed.
