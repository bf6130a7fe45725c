(** * Changes to objects with objects inside are in storage when the transaction ends (C78). *)

From Verif Require Import SpecInt Spec Tac RtAlloc RtErr RtSwap RtCopy SpecAbi SpecVal LemVal SpecStor SpecLayout RtStor RtStore LemStore RtSave RtLoad RtLoadObj LemPlace LemObj ExVec ExObj RtChild LemDelete RtDelete SpecMove RtTransfer LemMove ExMove RtCall SpecCache RtCache LemCache SpecWrap RtWrap RtWrapLoad RtWrapObj ExWrap SpecTto RtTto LemTto ExTto SpecTake RtTake SpecCacheTree LemCacheTree ExCacheTree.
Ltac Zify.zify_post_hook ::= idtac.

(** C78 for objects with objects inside: when an entry function returns, storage has every object it took by mutable reference or
    by value and did not delete, with all objects inside it, as the function left them in memory; the former places of objects put into
    them are empty; the return touches no other slot.  As in C78_changes_saved_partial, for any way the function comes to its return.
    Missing: what is missing in C96 (structs without [key] that have objects inside, vectors shorter than in storage). *)
Theorem C78_tree_changes_saved_partial : forall ep rt np nl r b body ts args w k lbs s l w1 vs as_, List.length args = np ->
  at_point (cache_trees ep rt (map tree_code as_) ++ prepare_return r b ts ++ k) (rev vs ++ s) l w1 lbs body [] (args ++ repeat 0 nl) w -> ~ In "result"%string lbs ->
  (r < b)%nat -> (b + List.length ts <= np + nl)%nat -> words_of ts vs -> total_size ts < 2147483648 ->
  running ep w1 -> statics w1 -> Forall (tree_in_hand w1 l) as_ -> Forall (tree_savable w1) as_ -> distinct_trees (host w1) as_ ->
  (exists rs w2, returns (move_function np nl r body ts) args w rs w2 /\ abort_flag w2 = 0 /\
     Forall (tree_up_to_date (host w1) (stor (host w2))) as_ /\
     (forall y, (forall a, In a as_ -> ~ covers (t_touched (host w1) a) y) -> stor (host w2) y = stor (host w1) y)) \/
  traps (move_function np nl r body ts) args w /\ oom w1 (trees_memory as_ + total_size ts).
Proof. exact entry_saves_trees. Qed.
Print Assumptions C78_tree_changes_saved_partial.

(** C78.  The next transaction sees the changes: whoever may use the object (C93) and names it gets it, and the objects inside, with
    those values; each object inside belongs to the one that has it.  Missing: what is missing in C95. *)
Theorem C78_tree_seen_later_partial : forall ep h st a kind imm, tree_up_to_date h st a -> t_owner a <> 0 -> 0 < t_hash a < 2 ^ 64 -> forallb readable (t_shapes a) = true ->
  separate (t_slots h a) -> tree_memory (t_shapes a) (t_vals a) < 2 ^ 31 ->
  forall w r, wok w -> errtab_ok ep -> statics w -> abort_flag w = 0 -> live w r 32 -> load_be 32 (mem w) r = t_id a ->
  keccak (host w) = keccak h -> stor (host w) = st -> In (t_owner a) (searched (host w) kind imm) ->
  (forall o', In o' (searched (host w) kind imm) -> o' <> t_owner a -> stored (host w) o' (t_id a) = 0) ->
  wpf (take_tree ep (t_hash a) (t_shapes a) kind imm) [r] w (resq (fun rs w' => exists x F, rs = [x] /\ host w' = host w /\ abort_flag w' = 0 /\ gcd w' = r + 32 /\
     (forall y, 468 <= y < gnext w -> rd (mem w') y = rd (mem w) y) /\ tree_at (mem w') (t_shapes a) (t_owner a) (t_id a) (adopts (t_shapes a) (t_id a) (t_vals a)) x F /\ sub F (heap w'))
   (ctrap w (existsb thin (t_shapes a)) (64 + tree_memory (t_shapes a) (t_vals a)))).
Proof. exact tree_seen_later. Qed.
Print Assumptions C78_tree_seen_later_partial.

(** A function that takes the object 9, into which it has put the object 11, the object 15, and an object that it has deleted, and
    returns a number out of a branch: the hypotheses hold; storage then has the object 9, the object 11 in its new place and no
    longer in the old one, and the object 15; the next transaction gets the object 9 with the object 11 inside. *)
Definition touch_trees : list instr :=
  [ Block "b" 0 [ LocalGet 3; If 0 ([ LocalGet 3; Const 1; Bin I64 Add ] ++ cache_trees ep0 true (map tree_code trees) ++ prepare_return 4 5 [TU64]) [] ] ].
Example C78_tree_example :
  let w := w_trees st_tto in let H := keccak (host w) in let l := [632; 1072; 1192; 7; 0; 0] in
  at_point (cache_trees ep0 true (map tree_code trees) ++ prepare_return 4 5 [TU64] ++ []) (rev [8] ++ []) l w ["b"%string]
    touch_trees [] ([632; 1072; 1192; 7] ++ repeat 0 2) w /\
  words_of [TU64] [8] /\ running ep0 w /\ statics w /\ Forall (tree_in_hand w l) trees /\ Forall (tree_savable w) trees /\ distinct_trees (host w) trees /\
  forallb readable (t_shapes tree_1) = true /\
  (runs_to 4000 (move_function 4 2 4 touch_trees [TU64]) [632; 1072; 1192; 7] w (fun rs w2 => match rs with
   | [x] => let st := stor (host w2) in (load 8 (mem w2) x =? 8) && (st (home H 161 9) =? bswap 8 5 + 77 * 2 ^ 64) && (st (home H 161 9 + 1) =? 11) &&
       (st k_old =? 0) && (st k_new =? bswap 8 6 + 5 * 2 ^ 64) && (st (home H 161 15) =? bswap 8 7 + 78 * 2 ^ 64) && (st (home H 161 16) =? 0) && (st (home H 0 16) =? 0) &&
       runs_to 3000 (take_tree ep0 5 fs_tto (Some Owned) false) [588] (w_tto 161 st) (fun rs w' => match rs with
         | [y] => let m := mem w' in let c := load 4 m (y + 8) in (abort_flag w' =? 0) && (load_be 32 m (y - 32) =? 161) && (load 8 m (load 4 m (y + 4)) =? 77) &&
             (load_be 32 m (c - 32) =? 9) && (load_be 32 m (load 4 m (load 4 m (load 4 m c))) =? 11) && (load 8 m (load 4 m (c + 4)) =? 5)
         | _ => false end)
   | _ => false end)) = true.
Proof.
  intros w H l. split; [|split; [|split; [|split; [apply w_trees_statics|split; [apply trees_in_hand|split; [apply trees_savable|split; [apply trees_distinct|split; [reflexivity|]]]]]]]].
  - rewrite app_nil_r. apply at_block; [left; reflexivity|].
    apply (at_seq _ _ _ _ _ 5 [LocalGet 3] _ _ _ _ [7] l w); [reflexivity|].
    apply at_if. cbn [Z.eqb]. apply (at_seq _ _ _ _ _ 10 [LocalGet 3; Const 1; Bin I64 Add] _ _ _ _ [8] l w); [reflexivity|].
    apply at_here.
  - repeat constructor; cbn; lia.
  - split; [apply w_trees_ok|]. split; [exact ep0_ok|vm_compute; reflexivity].
  - vm_compute. reflexivity.
Qed.
