(** * Example events for PropsEvent.v. *)

From Verif Require Import SpecInt Spec Tac RtAlloc RtErr RtSwap RtCopy SpecAbi SpecVal LemVal ExVec ExObj SpecSol RtPack RtPack2 SpecEvent RtEvent RtEmit RtEmit2.
Ltac Zify.zify_post_hook ::= idtac.

Definition some_hash : list Z := map Z.of_nat (seq 100 32).
(** [struct Paid { #[indexed] n: u64, #[indexed] who: String, amount: u64, memo: String }] *)
Definition paid : event := mkEvent (Some some_hash) [IAbi (AInt TU64); IAbi AString] [AInt TU64; AString].
Definition str (bs : list Z) : val := VStruct 0 [VVec (map VInt bs)].
(** A [Paid { n: 7, who: "ab", amount: 9, memo: "c" }] at 500. *)
Definition m_paid : memory :=
  store 1 (store 4 (store 4 (store 4 (store 8 (store 1 (store 1 (store 4 (store 4 (store 4 (store 8
  (store 4 (store 4 (store 4 (store 4 zmem 500 516) 504 524) 508 538) 512 546)
  516 7) 524 528) 528 2) 532 2) 536 97) 537 98) 538 9) 546 550) 550 1) 554 1) 558 99.
Definition w_paid (next : Z) : world := wh m_paid next (fun _ => 0).
Lemma w_paid_ok : forall next, 560 <= next <= 65536 -> wok (w_paid next).
Proof. intros next H. apply wh_ok. unfold m_paid. repeat (apply wm_store_ok; [|lia]). apply wm_ok. lia. Qed.
Definition paid_vs : list val := [VInt 7; str [97; 98]].
Definition paid_ds : list val := [VInt 9; str [99]].
Lemma w_paid_rep : forall next, 560 <= next -> vrep (mem (w_paid next)) (event_ty paid) (VStruct 0 (paid_vs ++ paid_ds)) 500 (heap (w_paid next)).
Proof.
  intros next Hn. unfold event_ty, paid, heap, w_paid, wh, paid_vs, paid_ds, str. cbn [mem gnext e_indexed e_data map imty mty app vrep List.length].
  exists 0, [VInt 7; VStruct 0 [VVec [VInt 97; VInt 98]]; VInt 9; VStruct 0 [VVec [VInt 99]]], (between 516 560).
  split; [reflexivity|]. split; [reflexivity|]. split; [intros y Hy; unfold between in *; lia|]. split; [intros y Hy; unfold between in *; lia|].
  split; [intros y Y1 Y2; unfold between in *; lia|]. cbn [fields].
  replace (load 4 m_paid 500) with 516 by (vm_compute; reflexivity). replace (load 4 m_paid (500 + 4)) with 524 by (vm_compute; reflexivity).
  replace (load 4 m_paid (500 + 4 + 4)) with 538 by (vm_compute; reflexivity). replace (load 4 m_paid (500 + 4 + 4 + 4)) with 546 by (vm_compute; reflexivity).
  exists (between 516 524), (between 524 560). nums.
  exists (between 524 538), (between 538 560). nums.
  { exists 0, [VVec [VInt 97; VInt 98]], (between 528 538). nums. cbn [fields]. replace (load 4 m_paid 524) with 528 by (vm_compute; reflexivity).
    exists (between 528 538), empty. nums. exists [VInt 97; VInt 98], 2, empty. nums.
    cbn [elems]. exists empty, empty. nums. exists empty, empty. nums. }
  exists (between 538 546), (between 546 560). nums.
  exists (between 546 559), empty. nums.
  exists 0, [VVec [VInt 99]], (between 550 559). nums. cbn [fields]. replace (load 4 m_paid 546) with 550 by (vm_compute; reflexivity).
  exists (between 550 559), empty. nums. exists [VInt 99], 1, empty. nums.
  cbn [elems]. exists empty, empty. nums.
Qed.

(** [struct Listed { #[indexed] xs: vector<u64> }] at 500 with an empty vector (that held a 5) at 504. *)
Definition listed : event := mkEvent (Some some_hash) [IAbi (AVec (AInt TU64))] [].
Definition w_listed : world := wh (store 8 (store 4 (store 4 zmem 500 504) 508 1) 512 5) 520 (fun _ => 0).
Lemma listed_ok : event_ok listed.
Proof. split; [split; [reflexivity|]|]; [repeat constructor; lia|]. split; [repeat constructor|]. cbn. repeat split; lia. Qed.
Lemma w_listed_ok : wok w_listed.
Proof. apply wh_ok. repeat (apply wm_store_ok; [|lia]). apply wm_ok. lia. Qed.
Lemma w_listed_rep : vrep (mem w_listed) (event_ty listed) (VStruct 0 ([VVec []] ++ [])) 500 (heap w_listed).
Proof.
  unfold event_ty. cbn [listed e_indexed e_data map imty mty app vrep List.length]. exists 0, [VVec []], (between 504 520). nums.
  cbn [fields]. exists (between 504 520), empty. nums. replace (load 4 (mem w_listed) 500) with 504 by (vm_compute; reflexivity).
  exists [], 1, empty. nums.
Qed.

(** [struct Nested { #[indexed] o: Outer }] with [struct Outer { i: Inner }], [struct Inner { n: u64 }]. *)
Definition nested : event := mkEvent (Some some_hash) [IAbi (AStruct [AStruct [AInt TU64]])] [].
Definition w_nested : world := wh (store 8 (store 4 (store 4 (store 4 zmem 500 504) 504 508) 508 512) 512 3) 520 (fun _ => 0).
Definition nested_v : val := VStruct 0 [VStruct 0 [VInt 3]].
Lemma w_nested_ok : wok w_nested.
Proof. apply wh_ok. repeat (apply wm_store_ok; [|lia]). apply wm_ok. lia. Qed.
Lemma w_nested_rep : vrep (mem w_nested) (event_ty nested) (VStruct 0 ([nested_v] ++ [])) 500 (heap w_nested).
Proof.
  unfold event_ty, nested_v. cbn [nested e_indexed e_data map imty mty app vrep List.length]. exists 0, [VStruct 0 [VStruct 0 [VInt 3]]], (between 504 520). nums.
  cbn [fields]. exists (between 504 520), empty. nums. replace (load 4 (mem w_nested) 500) with 504 by (vm_compute; reflexivity).
  exists 0, [VStruct 0 [VInt 3]], (between 508 520). nums. cbn [fields]. exists (between 508 520), empty. nums. replace (load 4 (mem w_nested) 504) with 508 by (vm_compute; reflexivity).
  exists 0, [VInt 3], (between 512 520). nums. cbn [fields]. exists (between 512 520), empty. nums.
Qed.

Definition same_log (a b : list (Z * list Z)) : bool :=
  match a, b with [(x, xs)], [(y, ys)] => (x =? y) && zs_eqb xs ys | _, _ => false end.
Lemma same_log_eq : forall a b, same_log a b = true -> a = b.
Proof.
  intros [|[x xs] [|? ?]] [|[y ys] [|? ?]] H; try discriminate H. cbn [same_log] in H. apply andb_prop in H. destruct H as [H1 H2].
  apply Z.eqb_eq in H1. apply zs_eqb_eq in H2. congruence.
Qed.
Lemma same_log_refl : forall a, List.length a = 1%nat -> same_log a a = true.
Proof.
  intros [|[x xs] [|? ?]] H; try discriminate H. cbn [same_log]. rewrite Z.eqb_refl. cbn [andb]. unfold zs_eqb. destruct (list_eq_dec Z.eq_dec xs xs); [reflexivity|congruence].
Qed.
Lemma paid_ok : event_ok paid.
Proof. split; [split; [reflexivity|]|]; [repeat constructor; lia|]. split; [repeat constructor|]. cbn. repeat split; lia. Qed.
