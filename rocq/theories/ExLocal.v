(** * Concrete values for the examples of PropsLocal.v. *)

From Verif Require Import SpecInt Spec Tac RtAlloc RtErr SpecVal LemVal RtCopy RtVec RtVec2 SpecVec LemVec ExVec SpecStor SpecLayout ExObj SpecRef RtRef LemRef ExRef RtLocal LemLocal.
Ltac Zify.zify_post_hook ::= idtac.

(** An id at 500 (the word before it is free) that leads through 504 to the bytes of 9 at 508; an empty vector<u64> at 540. *)
Definition m_id : memory := store_be 32 (store 4 (store 4 zmem 500 504) 504 508) 508 9.
Definition w_id : world := wm m_id 600.
Lemma w_id_ok : wok w_id.
Proof. unfold w_id, m_id. repeat first [apply wm_store_be_ok; [|cbn; lia]|apply wm_store_ok; [|lia]]. apply wm_ok. lia. Qed.
Lemma w_id_id : owns w_id T_id (VStruct 0 [VInt 9]) 504 (between 504 540).
Proof.
  split; [|nums]. cbn [T_id vrep]. exists 0, [VInt 9], (between 508 540). nums. cbn [map fields]. exists (between 508 540), empty. nums.
Qed.
Lemma w_id_uid : word (mem w_id) (true, T_uid) (v_uid 9) 500 (between 496 540).
Proof.
  split; [reflexivity|]. exists (between 500 540). split; [|nums]. cbn [snd T_uid vrep v_uid]. exists 0, [VStruct 0 [VInt 9]], (between 504 540). nums. cbn [map fields].
  exists (between 504 540), empty. split; [|nums]. unfold field_of. cbn [is_stack T_id]. change (load 4 (mem w_id) 500) with 504. exact (proj1 w_id_id).
Qed.
Lemma w_id_fields : words (mem w_id) (plain_fields [TU64; TVec TU64]) [VInt 77; VVec []] [77; 540] (between 540 548).
Proof.
  cbn [plain_fields map words]. exists empty, (between 540 548). split; [unfold word; cbn [fst snd vrep]; nums|]. split; [cbn; lia|]. split; [|nums].
  exists (between 540 548), empty. split; [|split; [cbn; lia|split; [exact Logic.I|nums]]]. unfold word. cbn [fst snd vrep]. exists [], 0, empty. nums.
Qed.
Lemma w_ref_words : words (mem w_ref) (plain_fields [TU128; TVec TU64]) [VInt 6; VVec []] [740; 756] (between 740 764).
Proof.
  cbn [plain_fields map words]. exists (between 740 756), (between 756 764). split; [unfold word; cbn [fst snd]; exact (proj1 w_ref_spare)|]. split; [cbn; lia|]. split; [|nums].
  exists (between 756 764), empty. split; [exact (proj1 w_ref_spare_vec)|]. split; [cbn; lia|]. split; [exact Logic.I|nums].
Qed.
Lemma w_ref_owns : owns w_ref T_ref v_ref 604 (between 604 732).
Proof. destruct w_ref_ref as (_&_&S&R). split; [exact R|exact S]. Qed.
Lemma w_ref_choice : owns w_ref T_choice v_choice 628 (between 628 680).
Proof.
  split; [|nums]. cbn [T_choice vrep]. exists 1%nat, [VInt 5; v_nums], (between 640 680). nums.
  cbn [map nth_error fields]. exists (between 640 656), (between 656 680). split; [nums|]. split; [|nums].
  exists (between 656 680), empty. split; [|split; [exact Logic.I|nums]]. change (load 4 (mem w_ref) (628 + 4 + 4)) with 656. unfold field_of. cbn [is_stack vrep].
  exists [VInt 11; VInt 12], 2, empty. nums. cbn [elems vrep]. exists empty, empty. nums. exists empty, empty. nums.
Qed.
