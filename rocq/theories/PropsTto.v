(** * Properties of objects that have been put into other objects (C96). *)

From Verif Require Import SpecInt Spec Tac RtAlloc RtErr RtSwap RtCopy SpecAbi SpecVal SpecStor SpecLayout RtStor RtEnumPos RtStore RtLoad ExVec ExObj ExMove SpecWrap RtWrap RtWrapObj ExWrap SpecTto RtTto LemTto ExTto.
Ltac Zify.zify_post_hook ::= idtac.

(** C96. When an object that a transaction has changed is saved, each object that has been put into it, at any depth, is
    erased from the slots of its former owner; it is in the slots that belong to it as an object of the one that has it
    now, with the values it has now; and nothing else changes in storage. Missing: as in C95, and structs without [key] that have objects
    inside, for which this is wrong (below). *)
Theorem C96_saved_partial : forall ep h fs w q owner id vs F uss, wok w -> errtab_ok ep -> statics w -> 468 <= q -> q + 4 <= gnext w ->
  tree_at (mem w) fs owner id vs (load 4 (mem w) q) F -> sub F (heap w) -> forallb sound fs = true -> forallb direct fs = true -> 0 <= h < 2 ^ 64 -> owner <> 0 ->
  let H := keccak (host w) in let k := home H owner id in let C := formers H (all_arrivals fs id vs) uss in
  Forall2 (was_there H (stor (host w))) (all_arrivals fs id vs) uss -> separate C ->
  separate (tree_slots H fs id vs k) -> lastings H (stor (host w)) fs id vs (k, 8) ->
  wpf (cache_tree ep h fs) [q] w (resq (fun r w' => r = [] /\ grows (tto_mem F) w w' /\ gnext w' <= gnext w + (32 + weigh uss + wcosts fs vs) /\
     stor (host w') k mod 2 ^ 64 = bswap 8 h /\ contents H (stor (host w')) fs id vs (k, 8) /\
     (forall y, covers C y -> ~ covers (tree_slots H fs id vs k) y -> stor (host w') y = 0) /\
     (forall y, ~ covers C y -> ~ covers (tree_slots H fs id vs k) y -> stor (host w') y = stor (host w) y)) (nomem w (32 + weigh uss + wcosts fs vs))).
Proof. exact cache_tree_spec. Qed.
Print Assumptions C96_saved_partial.

(** C96. The step that erases them, which transfers have as well: in memory the objects are then without owner, as new ones,
    and nothing else about them changes. Missing: as above. *)
Theorem C96_erased_partial : forall ep fs w x o id vs F uss, wok w -> errtab_ok ep -> statics w -> forallb direct fs = true ->
  tree_at (mem w) fs o id vs x F -> sub F (heap w) ->
  let H := keccak (host w) in let C := formers H (all_arrivals fs id vs) uss in
  Forall2 (was_there H (stor (host w))) (all_arrivals fs id vs) uss -> separate C ->
  wpf (check_tree ep fs) [x] w (resq (fun r w' => r = [] /\ cleared w w' F C (weigh uss) /\ tree_at (mem w') fs o id (all_settled fs id vs) x F) (nomem w (weigh uss))).
Proof. exact check_tree_spec. Qed.
Print Assumptions C96_erased_partial.

(** C96 does not hold when the object is in a struct without [key]: the code takes the first field of that struct for the id
    of an object. Then the transaction can trap, although nothing has been moved and there is memory enough: here because
    the first field of the struct is the u64 2147483648. *)
Theorem C96_refuted : forall st, let w := w_str st in exists h fs q owner id vs F,
  wok w /\ errtab_ok ep0 /\ statics w /\ 468 <= q /\ q + 4 <= gnext w /\
  tree_at (mem w) fs owner id vs (load 4 (mem w) q) F /\ sub F (heap w) /\ forallb sound fs = true /\ 0 <= h < 2 ^ 64 /\ owner <> 0 /\
  let H := keccak (host w) in let k := home H owner id in all_arrivals fs id vs = [] /\
  separate (tree_slots H fs id vs k) /\ lastings H (stor (host w)) fs id vs (k, 8) /\
  ~ nomem w (32 + wcosts fs vs) /\ traps (cache_tree ep0 h fs) [q] w.
Proof.
  intros st w. exists 5, fs_str, 632, 161, 9, vs_str, (between 532 900). split; [apply w_str_ok|]. split; [exact ep0_ok|]. split; [repeat split; vm_compute; reflexivity|]. split; [lia|]. split; [cbn; lia|].
  split; [change (load 4 (mem w) 632) with 564; apply w_str_tree|]. split; [intros y; unfold heap, between; change (gnext w) with 900; lia|]. split; [reflexivity|]. split; [lia|]. split; [lia|]. cbv zeta. split; [reflexivity|].
  split; [apply separateb_ok; vm_compute; reflexivity|]. split; [unfold lastings, fs_str, vs_str, VObj; cbn [map along lasting no_shrink]; repeat split|]. split; [unfold nomem, oom; vm_compute; intros (_&E); discriminate E|]. apply str_traps.
Qed.
Print Assumptions C96_refuted.

(** The object 11 of the account 161 has been put into the object 9: it moves from the account's slots to those of the object 9. *)
Example C96_example : let w := w_tto 161 st_tto in let H := keccak (host w) in wok w /\ errtab_ok ep0 /\ statics w /\
  tree_at (mem w) fs_tto 161 9 (vs_tto 161) (load 4 (mem w) 632) (between 532 900) /\ sub (between 532 900) (heap w) /\ forallb sound fs_tto = true /\ forallb direct fs_tto = true /\
  all_arrivals fs_tto 9 (vs_tto 161) = [([TU64], 161, 11)] /\ Forall2 (was_there H (stor (host w))) (all_arrivals fs_tto 9 (vs_tto 161)) [[VInt 4]] /\
  separate (formers H (all_arrivals fs_tto 9 (vs_tto 161)) [[VInt 4]]) /\ separate (tree_slots H fs_tto 9 (vs_tto 161) (home H 161 9)) /\ lastings H (stor (host w)) fs_tto 9 (vs_tto 161) (home H 161 9, 8) /\
  stor (host w) k_old = bswap 8 6 + 4 * 2 ^ 64 /\
  exists w', returns (cache_tree ep0 5 fs_tto) [632] w [] w' /\
    (stor (host w') k_old =? 0) && (stor (host w') k_new =? bswap 8 6 + 5 * 2 ^ 64) && (stor (host w') (home hash2 161 9 + 1) =? 11) = true.
Proof.
  intros w H. split; [apply w_tto_ok|]. split; [exact ep0_ok|]. split; [apply w_tto_statics|]. split; [change (load 4 (mem w) 632) with 564; apply w_tto_tree|].
  split; [intros y; unfold heap, between; change (gnext w) with 900; lia|]. do 3 (split; [reflexivity|]). split; [exact st_tto_there|]. do 2 (split; [apply separateb_ok; vm_compute; reflexivity|]).
  split; [unfold lastings, fs_tto, vs_tto, VObj; cbn [map along lasting no_shrink]; repeat split|]. split; [vm_compute; reflexivity|].
  apply (runs_to_vals 4000). vm_compute. reflexivity.
Qed.
