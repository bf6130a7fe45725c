(** * Concrete objects for the examples of PropsCache.v. *)

From Verif Require Import SpecInt Spec Tac RtAlloc RtErr RtSwap RtCopy SpecAbi SpecVal LemVal SpecVec LemVec ExVec SpecStor SpecLayout RtStor RtStore LemStore RtSave RtLoad RtLoadObj LemPlace LemObj ExObj RtChild LemDelete RtDelete SpecMove RtTransfer LemMove ExMove RtCall SpecCache RtCache LemCache.
Ltac Zify.zify_post_hook ::= idtac.

(** The object of ExMove at 564 (id 9, owner 161) and one more at 764 (id [i], owner 161) with the fields 78, 2749 and 0;
    references to them at 500 and 504. *)
Definition m_two (i : Z) : memory :=
  store 4 (store 4
   (store_be 32 (store_be 32 (store_be 32 (store 1 (store 8
   (store 4 (store 4 (store 4 (store 4 (store 4 (store 4 (m_move 161)
   764 812) 812 816) 816 820) 768 852) 772 860) 776 892)
   852 78) 892 0) 860 2749) 820 i) 732 161) 500 564) 504 764.
Definition vs_two : list val := [VInt 78; VInt 2749; VInt 0].
Definition w_two (i : Z) (st : Z -> Z) : world := mkW (m_two i) 1 100 900 (65536 - 900) 0 (mkHost hash2 st st [] 161 162 0 1 1 0 0 [] [] ext0).
Lemma w_two_ok : forall i st, wok (w_two i st).
Proof.
  intros i st. apply (wh_ok (m_two i) 900 st). unfold m_two, m_move, m_flat. repeat first [apply wm_store_be_ok; [|cbn; lia]|apply wm_store_ok; [|lia]]. apply wm_ok. lia.
Qed.
Lemma w_two_running : forall i st, i = 9 \/ i = 10 -> running ep0 (w_two i st).
Proof. intros i st Hi. split; [apply w_two_ok|]. split; [exact ep0_ok|]. destruct Hi as [->| ->]; vm_compute; reflexivity. Qed.
Lemma w_two_statics : forall i st, i = 9 \/ i = 10 -> statics (w_two i st).
Proof. intros i st [->| ->]; repeat split; vm_compute; reflexivity. Qed.
Lemma w_two_first : forall i st, i = 9 \/ i = 10 -> object_at (mem (w_two i st)) fs_flat 161 9 vs_flat 564 (between 532 700).
Proof.
  intros i st [->| ->].
  all: exists 612, 616, 620, (between 652 700); do 5 (split; [vm_compute; reflexivity|]); unfold fs_flat; cbn [List.length];
    do 5 (split; [nums|]); (split; [unfold disj, union, between; intros; lia|]); cbn [map fields vs_flat];
    exists (between 652 660), (between 660 700); (split; [nums|]); (split; [|nums]);
    exists (between 660 692), (between 692 700); (split; [unfold field_of; cbn [is_stack vrep]; nums|]); (split; [|nums]);
    exists (between 692 700), empty; (split; [nums|]); (split; [exact I|nums]).
Qed.
Lemma w_two_second : forall i st, i = 9 \/ i = 10 -> object_at (mem (w_two i st)) fs_flat 161 i vs_two 764 (between 732 900).
Proof.
  intros i st [->| ->].
  all: exists 812, 816, 820, (between 852 900); do 5 (split; [vm_compute; reflexivity|]); unfold fs_flat; cbn [List.length];
    do 5 (split; [nums|]); (split; [unfold disj, union, between; intros; lia|]); cbn [map fields vs_two];
    exists (between 852 860), (between 860 900); (split; [nums|]); (split; [|nums]);
    exists (between 860 892), (between 892 900); (split; [unfold field_of; cbn [is_stack vrep]; nums|]); (split; [|nums]);
    exists (between 892 900), empty; (split; [nums|]); (split; [exact I|nums]).
Qed.
Lemma w_two_sub : forall i st lo hi, 532 <= lo -> hi <= 900 -> sub (between lo hi) (heap (w_two i st)).
Proof. intros i st lo hi Hl Hh y. unfold heap, between. change (gnext (w_two i st)) with 900. lia. Qed.

Definition arg_1 : held_arg := HeldArg 0 5 fs_flat 161 9 vs_flat.
Definition arg_2 (i : Z) : held_arg := HeldArg 1 5 fs_flat 161 i vs_two.
Lemma in_hand_1 : forall i st l, i = 9 \/ i = 10 -> in_hand (w_two i st) (500 :: l) arg_1.
Proof.
  intros i st l Hi. exists 500, (between 532 700). split; [reflexivity|]. split; [lia|]. change (gnext (w_two i st)) with 900. split; [lia|].
  assert (E : load 4 (mem (w_two i st)) 500 = 564) by (destruct Hi as [->| ->]; vm_compute; reflexivity). rewrite E.
  split; [apply w_two_first; exact Hi|apply w_two_sub; lia].
Qed.
Lemma in_hand_2 : forall i st u l, i = 9 \/ i = 10 -> in_hand (w_two i st) (u :: 504 :: l) (arg_2 i).
Proof.
  intros i st u l Hi. exists 504, (between 732 900). split; [reflexivity|]. split; [lia|]. change (gnext (w_two i st)) with 900. split; [lia|].
  assert (E : load 4 (mem (w_two i st)) 504 = 764) by (destruct Hi as [->| ->]; vm_compute; reflexivity). rewrite E.
  split; [apply w_two_second; exact Hi|apply w_two_sub; lia].
Qed.
Definition k_two (i : Z) : Z := slot_of (mkHost hash2 (fun _ => 0) (fun _ => 0) [] 0 0 0 0 0 0 0 [] [] ext0) 161 i.
Lemma k_two_small : forall i, 0 <= k_two i < 2 ^ 255 + 2 ^ 201.
Proof. intros i. unfold k_two, slot_of, hash. cbn [keccak]. rewrite Z.mod_small; unfold hash2; pose proof (Z.mod_pos_bound (fold_left (fun a b : Z => a * 257 + b) (word i ++ word (hash2 (word 161 ++ word 0) mod 2 ^ 256)) 0) (2 ^ 255) ltac:(lia)); lia. Qed.
Lemma w_two_slot : forall i st j, slot_of (host (w_two i st)) 161 j = k_two j.
Proof. intros. apply slot_of_keccak. reflexivity. Qed.
Lemma savable_two : forall i st x j vs, a_vals x = vs -> a_types x = fs_flat -> a_owner x = 161 -> a_id x = j -> a_hash x = 5 -> In vs [vs_flat; vs_two] -> savable (w_two i st) x.
Proof.
  intros i st x j vs Ev Et Eo Ei Eh Hv. unfold savable, a_slot. rewrite Ev, Et, Eo, Ei, Eh, w_two_slot. split; [reflexivity|]. split; [lia|]. intros _. pose proof (k_two_small j) as B. split; [|apply flat_no_shrinks; reflexivity].
  rewrite flat_slots by reflexivity. change (last_slot (k_two j) fs_flat) with (k_two j + 1). split; [repeat constructor|]. constructor; [cbn [fst snd]; lia|constructor].
Qed.
Lemma distinct_two : forall st, distinct_objects (host (w_two 10 st)) [arg_1; arg_2 10].
Proof.
  intros st. constructor; [|constructor; constructor]. constructor; [|constructor]. intros y.
  change (a_slots (host (w_two 10 st)) arg_1) with (slots hash2 fs_flat vs_flat (slot_of (host (w_two 10 st)) 161 9, 8)).
  change (a_slots (host (w_two 10 st)) (arg_2 10)) with (slots hash2 fs_flat vs_two (slot_of (host (w_two 10 st)) 161 10, 8)).
  rewrite !w_two_slot, !flat_slots by reflexivity. change (last_slot (k_two 9) fs_flat) with (k_two 9 + 1). change (last_slot (k_two 10) fs_flat) with (k_two 10 + 1).
  assert (D : k_two 9 + 1 < k_two 10 \/ k_two 10 + 1 < k_two 9) by (vm_compute; auto).
  revert D. generalize (k_two 9) as k. generalize (k_two 10) as k'. intros k' k D (a&[<-|[]]&Ha) (b&[<-|[]]&Hb). cbn [fst snd] in *. lia.
Qed.
