(** * Runtime errors and their propagation (wasm_builder_extensions.rs, error.rs). *)

From Verif Require Import Tac.

(** error.rs 156-203 [RuntimeError]. *)
Inductive rt_error :=
| FrozenObjectsCannotBeShared
| SharedObjectsCannotBeFrozen
| FrozenObjectsCannotBeTransferred
| SharedObjectsCannotBeTransferred
| StorageObjectNotFound
| FrozenObjectsCannotBeDeleted
| StorageObjectTypeMismatch
| Overflow
| OutOfBounds
| MemoryAccessOutOfBounds
| EnumSizeTooLarge
| VectorNotEmpty.

(** data.rs [RuntimeErrorData::get]: the compiler puts the encoded message of each
    used error into a data segment and hands out its address.  The addresses are a
    parameter of every emitted function that can fail. *)
Definition errtab := rt_error -> Z.

(** wasm_builder_extensions.rs: [BAD_F00D]. *)
Definition BADF00D : Z := 195948557.

(** wasm_builder_extensions.rs 369-407 [add_handle_error_instructions] and 409-421
    [return_error]; [tmp] is the fresh local [encoded_error_ptr].  [rt] tells whether
    the enclosing function returns a value (the i32 and i64 cases push the same number). *)
Definition return_error (ep : errtab) (e : rt_error) (tmp : nat) (rt : bool) : list instr :=
  [ Const (ep e); LocalSet tmp; Const 256; LocalGet tmp; Store 4 0 ]
  ++ (if rt then [ Const BADF00D; Return ] else [ Return ]).

(** wasm_builder_extensions.rs 323-367 [add_propagate_error_instructions] without a
    return block. *)
Definition propagate (rt : bool) : list instr :=
  [ Block "propagate" 0
      ([ Const 256; Load 4 0; Const 0; Bin I32 Eq; BrIf "propagate" ]
       ++ (if rt then [ Const BADF00D; Return ] else [ Return ])) ].

(** Addresses the compiler may choose for error messages: non-null 32-bit pointers
    behind the reserved area. *)
Definition errtab_ok (ep : errtab) : Prop := forall e, 468 <= ep e < 4294967296.

(** [w'] is [w] with the abort flag pointing to the message of [e]. *)
Definition aborted (ep : errtab) (e : rt_error) (w w' : world) : Prop :=
  frame w w' (within 256 4) /\ abort_flag w' = ep e.

Lemma aborted_store : forall ep e w, errtab_ok ep ->
  aborted ep e w (set_mem w (store 4 (mem w) 256 (ep e))).
Proof.
  intros. split.
  - apply frame_set_mem. intros. apply rd_store_out. unfold within in *. lia.
  - unfold abort_flag; cbn [mem set_mem]. rewrite load_4_store. apply w32_small.
    specialize (H e). lia.
Qed.

Lemma wok_aborted : forall ep e w w', wok w -> aborted ep e w w' -> wok w'.
Proof.
  intros ep e w w' H [A _]. eapply wok_frame; [exact H|exact A|].
  unfold within, wok in *; intros; lia.
Qed.

Lemma wp_return_error : forall ep e tmp (rt : bool) r (Q : outcome -> Prop) s l w u,
  nth_error l tmp = Some u -> wok w ->
  Q (ORet (if rt then BADF00D :: s else s) (set_nth tmp (ep e) l)
      (set_mem w (store 4 (mem w) 256 (ep e)))) ->
  wp (return_error ep e tmp rt ++ r) Q s l w.
Proof.
  intros ep e tmp rt r Q s l w u Hu Hw HQ. unfold return_error, wok in *. cbn [app].
  assert (Hv : nth_error (set_nth tmp (ep e) l) tmp = Some (ep e)).
  { clear - Hu. revert l Hu. induction tmp; intros [|x l] H; cbn in *; try discriminate; auto. }
  ws1. eapply wp_lset; [exact Hu|]. ws1. eapply wp_lget; [exact Hv|]. ws1.
  destruct rt; cbn [app]; ws; exact HQ.
Qed.

Lemma wp_propagate_ok : forall (rt : bool) r (Q : outcome -> Prop) s l w,
  wok w -> abort_flag w = 0 -> wp r Q s l w -> wp (propagate rt ++ r) Q s l w.
Proof.
  intros rt r Q s l w Hw Hf H. unfold propagate, wok, abort_flag in *. cbn [app].
  ws1. ws1. ws1. ws1. eapply wp_bin; [reflexivity|]. apply wp_brif; intros C; unb C; wc; auto.
  rewrite Hf in C. discriminate.
Qed.

Lemma wp_propagate_err : forall (rt : bool) r (Q : outcome -> Prop) s l w,
  wok w -> abort_flag w <> 0 -> Q (ORet (if rt then [BADF00D] else []) l w) ->
  wp (propagate rt ++ r) Q s l w.
Proof.
  intros rt r Q s l w Hw Hf H. unfold propagate, wok, abort_flag in *. cbn [app].
  ws1. ws1. ws1. ws1. eapply wp_bin; [reflexivity|]. apply wp_brif; intros C; unb C; wc; try lia.
  destruct rt; cbn [app]; ws; exact H.
Qed.

Lemma wp_return_error_end : forall ep e tmp (rt : bool) (Q : outcome -> Prop) s l w u,
  nth_error l tmp = Some u -> wok w ->
  Q (ORet (if rt then BADF00D :: s else s) (set_nth tmp (ep e) l)
      (set_mem w (store 4 (mem w) 256 (ep e)))) ->
  wp (return_error ep e tmp rt) Q s l w.
Proof.
  intros. rewrite <- (app_nil_r (return_error _ _ _ _)). eapply wp_return_error; eauto.
Qed.

Ltac werr := eapply wp_return_error_end; [reflexivity| |wc].
