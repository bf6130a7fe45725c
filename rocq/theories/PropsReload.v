(** * Properties of the objects that a delegate call may change (C94). *)

From Verif Require Import SpecInt Spec Tac RtAlloc RtErr RtSwap RtCopy SpecAbi SpecVal SpecStor SpecLayout RtStor RtStore RtLoad RtLoadObj ExObj SpecMove SpecCache RtCache ExMove SpecExt RtExt SpecReload RtReload ExReload.
Ltac Zify.zify_post_hook ::= idtac.

(** C94. After a delegate call, every object of the calling function whose id was passed has in memory what the callee left in
    storage. Partial: the objects hold no other objects and no enums before another field, and memory is as a function
    that has made no such call before leaves it (see [C94_second_call_refuted]). *)
Theorem C94_reload_partial : forall ep l w result delegate, l <> [] -> wok w -> errtab_ok ep -> statics w -> abort_flag w = 0 -> delegate <> 0 ->
  Forall (in_memory w) l -> Forall (in_storage (host w)) l -> ForallOrdPairs (fun s1 s2 => disj (s_mem s1) (s_mem s2)) l ->
  wpf (reload_tail ep (shown_types l)) (result :: delegate :: map s_uid l) w
    (resq (fun rs w' => rs = [result] /\ all_reloaded w w' l) (ctrap w (shown_narrow l) (shown_memory l))).
Proof. exact reload_tail_ok. Qed.
Print Assumptions C94_reload_partial.

(** C94. After any other call nothing is loaded: memory and storage are as they were. *)
Theorem C94_not_delegate : forall ep l w result, l <> [] ->
  wpf (reload_tail ep (shown_types l)) (result :: 0 :: map s_uid l) w (resq (fun rs w' => rs = [result] /\ w' = w) False).
Proof. exact reload_tail_other. Qed.
Print Assumptions C94_not_delegate.

(** C94. If the callee has moved one of the objects away, the transaction is aborted. *)
Theorem C94_moved_away_partial : forall ep l sh l2 w result delegate, wok w -> errtab_ok ep -> statics w -> abort_flag w = 0 -> delegate <> 0 ->
  Forall (in_memory w) (l ++ [sh]) -> Forall (in_storage (host w)) l -> ForallOrdPairs (fun s1 s2 => disj (s_mem s1) (s_mem s2)) (l ++ [sh]) ->
  (forall o, o = originator (host w) \/ o = shared_owner -> stored (host w) o (a_id (s_now sh)) = 0) ->
  wpf (reload_tail ep (shown_types (l ++ sh :: l2))) (result :: delegate :: map s_uid (l ++ sh :: l2)) w
    (resq (fun rs w' => abort_flag w' = ep StorageObjectNotFound /\ host w' = host w) (ctrap w (shown_narrow l) (shown_memory l))).
Proof. exact reload_tail_err. Qed.
Print Assumptions C94_moved_away_partial.

(** C94 is false of a function that makes two delegate calls: the object has 77 in its first field, each of the two calls adds
    one to it in storage, and after the function has ended storage has 78: the second addition is lost. (With one call
    storage has 78, as it should.) *)
Theorem C94_second_call_refuted :
  (exists vs w', returns (calling 1) [704; 700] (w_del 77) vs w' /\ abort_flag w' = 0 /\ List.length (x_calls (h_ext (host w'))) = 1%nat /\ field_now w' = 78 /\ field_stored w' = 78) /\
  (exists vs w', returns (calling 2) [704; 700] (w_del 77) vs w' /\ abort_flag w' = 0 /\ List.length (x_calls (h_ext (host w'))) = 2%nat /\ field_now w' = 78 /\ field_stored w' = 78).
Proof. exact (conj one_call_ends two_calls_end). Qed.
Print Assumptions C94_second_call_refuted.

(** An object that has 77 in memory and 78 in storage. *)
Example C94_example : wok (w_del 78) /\ errtab_ok ep0 /\ statics (w_del 78) /\ abort_flag (w_del 78) = 0 /\ [sh_del] <> [] /\
  Forall (in_memory (w_del 78)) [sh_del] /\ Forall (in_storage (host (w_del 78))) [sh_del] /\
  ForallOrdPairs (fun s1 s2 => disj (s_mem s1) (s_mem s2)) [sh_del].
Proof. exact sh_del_ready. Qed.

(** After an ordinary call made by a function with such an object nothing is loaded. *)
Example C94_ordinary_example : exists vs w', returns (calling 1) [704; 700] (w_ordinary 78) vs w' /\ abort_flag w' = 0 /\ List.length (x_calls (h_ext (host w'))) = 1%nat /\ field_now w' = 77.
Proof. exact ordinary_call_ends. Qed.
