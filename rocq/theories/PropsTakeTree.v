(** * Objects with objects inside as arguments of entry functions (C93). *)

From Verif Require Import SpecInt Spec Tac RtAlloc RtErr RtSwap RtCopy SpecAbi SpecVal SpecStor SpecLayout RtStor RtStore LemStore RtSave RtLoad RtLoadObj LemPlace LemObj ExVec ExObj SpecDyn RtChild RtCall SpecMove ExMove LemMove SpecCache SpecWrap RtWrap RtWrapLoad RtWrapObj ExWrap SpecTto ExTto LemTreeMove ExTreeMove SpecTake RtTake LemTake LemTakeTree.
Ltac Zify.zify_post_hook ::= idtac.

(** C93 for objects with objects inside: the function gets the object with the id in the calldata as storage has it, with all
    objects inside it, each an object of the one that has it.  Missing: what is missing in C95. *)
Theorem C93_tree_argument_partial : forall ep h fs kind imm w r vs o, 0 < h < 2 ^ 64 -> forallb readable fs = true ->
  wok w -> errtab_ok ep -> statics w -> abort_flag w = 0 -> live w r 32 ->
  let H := keccak (host w) in let st := stor (host w) in let id := load_be 32 (mem w) r in let k := slot_of (host w) o id in
  st k mod 2 ^ 64 = bswap 8 h -> contents H st fs id vs (k, 8) -> Forall (fun a => snd a < 2 ^ 256) (tree_slots H fs id vs k) -> tree_memory fs vs < 2 ^ 31 ->
  In o (searched (host w) kind imm) -> (forall o', In o' (searched (host w) kind imm) -> o' <> o -> stored (host w) o' id = 0) ->
  wpf (take_tree ep h fs kind imm) [r] w (resq (fun rs w' => exists x F, rs = [x] /\ host w' = host w /\ abort_flag w' = 0 /\ gcd w' = r + 32 /\
     (forall y, 468 <= y < gnext w -> rd (mem w') y = rd (mem w) y) /\ tree_at (mem w') fs o id (adopts fs id vs) x F /\ sub F (heap w'))
   (ctrap w (existsb thin fs) (64 + tree_memory fs vs))).
Proof. exact take_tree_seen. Qed.
Print Assumptions C93_tree_argument_partial.

(** C93.  So whoever has been given an object by a transfer (C97: [tree_relocated]) can pass it in any later transaction, and so
    can everybody after it has been shared, or where it is only read after it has been frozen. *)
Theorem C93_received_partial : forall ep h fs kind imm id vs C o H st st', 0 < h < 2 ^ 64 -> forallb readable fs = true ->
  tree_relocated H st st' (bswap 8 h) fs id vs C (home H o id) -> separate (tree_slots H fs id vs (home H o id)) -> tree_memory fs vs < 2 ^ 31 ->
  forall w r, wok w -> errtab_ok ep -> statics w -> abort_flag w = 0 -> live w r 32 -> load_be 32 (mem w) r = id ->
  keccak (host w) = H -> stor (host w) = st' -> In o (searched (host w) kind imm) ->
  (forall o', In o' (searched (host w) kind imm) -> o' <> o -> stored (host w) o' id = 0) ->
  wpf (take_tree ep h fs kind imm) [r] w (resq (fun rs w' => exists x F, rs = [x] /\ host w' = host w /\ abort_flag w' = 0 /\ gcd w' = r + 32 /\
     (forall y, 468 <= y < gnext w -> rd (mem w') y = rd (mem w) y) /\ tree_at (mem w') fs o id (adopts fs id vs) x F /\ sub F (heap w'))
   (ctrap w (existsb thin fs) (64 + tree_memory fs vs))).
Proof. exact received_tree. Qed.
Print Assumptions C93_received_partial.

(** C93.  The id of an object that the caller may not use is refused, whatever is inside. *)
Theorem C93_tree_not_entitled : forall ep h fs kind imm w r, wok w -> errtab_ok ep -> statics w -> abort_flag w = 0 -> live w r 32 -> 0 <= h < 2 ^ 64 ->
  (forall o, In o (searched (host w) kind imm) -> stored (host w) o (load_be 32 (mem w) r) = 0) ->
  wpf (take_tree ep h fs kind imm) [r] w (resq (fun rs w' => abort_flag w' = ep StorageObjectNotFound /\ host w' = host w) (oom w 96)).
Proof. exact take_tree_not_found. Qed.
Print Assumptions C93_tree_not_entitled.

(** C93.  So is the id of an object of another type. *)
Theorem C93_tree_wrong_type : forall ep h fs kind imm w r, wok w -> errtab_ok ep -> statics w -> abort_flag w = 0 -> live w r 32 -> 0 <= h < 2 ^ 64 ->
  (exists o, In o (searched (host w) kind imm) /\ stored (host w) o (load_be 32 (mem w) r) <> 0) ->
  (forall o, In o (searched (host w) kind imm) -> stored (host w) o (load_be 32 (mem w) r) <> 0 -> stored (host w) o (load_be 32 (mem w) r) mod 2 ^ 64 <> bswap 8 h) ->
  wpf (take_tree ep h fs kind imm) [r] w (resq (fun rs w' => abort_flag w' = ep StorageObjectTypeMismatch /\ host w' = host w) (oom w 96)).
Proof. exact take_tree_other_type. Qed.
Print Assumptions C93_tree_wrong_type.

(** Storage in which [o] has the object 9 with the object 11 inside, as C97_example leaves it; the id 9 is at 588. *)
Definition st_given (o : Z) (y : Z) : Z :=
  if y =? home hash2 o 9 then bswap 8 5 + 77 * 2 ^ 64 else if y =? home hash2 o 9 + 1 then 11 else if y =? k_new then bswap 8 6 + 5 * 2 ^ 64 else 0.
Example C93_tree_example :
  let w := w_hand 161 (st_given 161) in let H := keccak (host w) in let vs := vs_tto 9 in
  let takes kind imm o := runs_to 3000 (take_tree ep0 5 fs_tto kind imm) [588] (w_hand 161 (st_given o)) (fun rs w' => match rs with
    | [x] => let m := mem w' in let c := load 4 m (x + 8) in (abort_flag w' =? 0) && (gcd w' =? 620) && (load_be 32 m (x - 32) =? o) && (load 8 m (load 4 m (x + 4)) =? 77) &&
        (load_be 32 m (c - 32) =? 9) && (load_be 32 m (load 4 m (load 4 m (load 4 m c))) =? 11) && (load 8 m (load 4 m (c + 4)) =? 5)
    | _ => false end) in
  let refuses kind imm o h e := runs_to 3000 (take_tree ep0 h fs_tto kind imm) [588] (w_hand 161 (st_given o)) (fun rs w' => abort_flag w' =? ep0 e) in
  forallb readable fs_tto = true /\ wok w /\ errtab_ok ep0 /\ statics w /\ abort_flag w = 0 /\ live w 588 32 /\ load_be 32 (mem w) 588 = 9 /\
  st_given 161 (slot_of (host w) 161 9) mod 2 ^ 64 = bswap 8 5 /\ contents H (st_given 161) fs_tto 9 vs (slot_of (host w) 161 9, 8) /\
  Forall (fun a => snd a < 2 ^ 256) (tree_slots H fs_tto 9 vs (slot_of (host w) 161 9)) /\ tree_memory fs_tto vs < 2 ^ 31 /\
  searched (host w) None true = [161; 1; 2] /\ stored (host w) 1 9 = 0 /\ stored (host w) 2 9 = 0 /\ adopts fs_tto 9 vs = vs /\
  tree_relocated H (fun _ => 0) (st_given 161) (bswap 8 5) fs_tto 9 vs [] (home H 161 9) /\
  separate (tree_slots H fs_tto 9 vs (home H 161 9)) /\
  takes None false 161 && takes None false 1 && takes None true 2 && takes (Some Owned) false 161 && takes (Some Shared) false 1 && takes (Some Frozen) true 2 &&
  refuses None false 2 5 StorageObjectNotFound && refuses None true 77 5 StorageObjectNotFound && refuses (Some Shared) false 161 5 StorageObjectNotFound &&
  refuses None false 161 6 StorageObjectTypeMismatch = true.
Proof.
  intros w H vs takes refuses. split; [reflexivity|]. split; [apply w_hand_ok|]. split; [exact ep0_ok|]. split; [apply w_hand_statics; auto|]. split; [vm_compute; reflexivity|].
  split; [unfold live, w; cbn [w_hand gnext]; lia|]. do 2 (split; [vm_compute; reflexivity|]).
  assert (Sp : separate (tree_slots H fs_tto 9 vs (home H 161 9))) by (apply separateb_ok; vm_compute; reflexivity).
  assert (Ct : contents H (st_given 161) fs_tto 9 vs (home H 161 9, 8)).
  { split; [exists 77; split; [reflexivity|]; vm_compute; repeat split; discriminate|]. split; [|exact I].
    exists 9, 11, [VInt 5]. split; [reflexivity|]. split; [exists 11; split; [reflexivity|]; vm_compute; repeat split; discriminate|]. split; [vm_compute; reflexivity|].
    split; [exists 5; split; [reflexivity|]; vm_compute; repeat split; discriminate|exact I]. }
  split; [exact Ct|]. 
  split; [destruct Sp as (_&Rg); eapply Forall_impl; [|exact Rg]; intros a (_&Y); exact Y|].
  do 4 (split; [vm_compute; reflexivity|]). split; [reflexivity|].
  split. { split; [vm_compute; reflexivity|]. split; [exact Ct|]. split.
    - intros y Y. destruct Y as (a&[]&_).
    - intros y _ N. unfold st_given. destruct (Z.eqb_spec y (home hash2 161 9)) as [E|_]; [exfalso; apply N|].
      { eexists. split; [left; reflexivity|]. rewrite E. vm_compute. split; discriminate. }
      destruct (Z.eqb_spec y (home hash2 161 9 + 1)) as [E|_]; [exfalso; apply N|].
      { eexists. split; [left; reflexivity|]. rewrite E. vm_compute. split; discriminate. }
      destruct (Z.eqb_spec y k_new) as [E|_]; [exfalso; apply N|reflexivity].
      eexists. split; [right; left; reflexivity|]. rewrite E. vm_compute. split; discriminate. }
  split; [exact Sp|]. vm_compute. reflexivity.
Qed.
