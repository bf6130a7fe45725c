(** * Properties of objects with other objects inside (C95). *)

From Verif Require Import SpecInt Spec Tac RtAlloc RtErr RtSwap RtCopy SpecAbi SpecVal SpecStor SpecLayout RtStor RtStore RtLoad ExVec ExObj ExMove SpecWrap RtWrap RtWrapLoad RtWrapObj ExWrap.
Ltac Zify.zify_post_hook ::= idtac.

(** C95. Saving an object also saves all objects inside it, at any depth: each one's id is in the place of the field it is in,
    and the hash of its type and its fields are in the slots that belong to it as an object of the one that has it. No
    other slot changes. Missing: vectors and enums with objects inside, and vectors that have become shorter. *)
Theorem C95_saved_partial : forall ep h fs w x p owner id vs F k, forallb sound fs = true -> 0 <= h < 2 ^ 64 ->
  ready ep w p -> zeros w -> load_be 32 (mem w) p = k -> tree_at (mem w) fs owner id vs x F -> sub F (heap w) -> disj F (between p (p + 32)) ->
  let H := keccak (host w) in separate (tree_slots H fs id vs k) -> lastings H (stor (host w)) fs id vs (k, 8) ->
  wpf (save_tree ep h fs) [x; p] w (resq (fun r w' => r = [] /\ grows (wmem p) w w' /\ gnext w' <= gnext w + wcosts fs vs /\
     stor (host w') k mod 2 ^ 64 = bswap 8 h /\ contents H (stor (host w')) fs id vs (k, 8) /\
     (forall y, ~ covers (tree_slots H fs id vs k) y -> stor (host w') y = stor (host w) y)) (nomem w (wcosts fs vs))).
Proof. exact save_tree_spec. Qed.
Print Assumptions C95_saved_partial.

(** C95. Loading an object also loads all objects inside it: from the slots above, each with the object that has it as its
    owner. Missing: vectors and enums with objects inside, and other enums (for which see C91); a bool, u8 or u16 at the end of a
    page of memory can make it trap, as in C35 ([ctrap]). *)
Theorem C95_loaded_partial : forall ep h fs w p sid ow k vs, ready ep w p -> zeros w -> 468 <= sid -> sid + 32 <= gnext w -> (sid + 32 <= p \/ p + 32 <= sid) ->
  0 <= ow -> ow + 32 <= gnext w -> load_be 32 (mem w) p = k -> 0 < h < 2 ^ 64 -> forallb readable fs = true ->
  let H := keccak (host w) in let id := load_be 32 (mem w) sid in
  stor (host w) k mod 2 ^ 64 = bswap 8 h -> contents H (stor (host w)) fs id vs (k, 8) -> Forall (fun a => snd a < 2 ^ 256) (tree_slots H fs id vs k) -> tree_memory fs vs < 2 ^ 31 ->
  wpf (load_tree ep h fs) [p; sid; ow] w (resq (fun r w' => exists x F, r = [x] /\ seen (wmem p) w w' /\ gnext w' <= gnext w + tree_memory fs vs /\
     tree_at (mem w') fs (load_be 32 (mem w) ow) id (adopts fs id vs) x F /\ sub F (union (between (gnext w) (gnext w')) (between sid (sid + 32))))
   (ctrap w (existsb thin fs) (tree_memory fs vs))).
Proof. exact load_tree_spec. Qed.
Print Assumptions C95_loaded_partial.

(** C95. So an object that is saved and loaded again, by any later transaction, has the same values in all its fields and in
    all objects inside it, whatever owners those had when it was saved. Missing: as above. *)
Theorem C95_round_trip_partial : forall ep h fs w x p owner id vs F k, forallb readable fs = true -> 0 < h < 2 ^ 64 ->
  ready ep w p -> zeros w -> load_be 32 (mem w) p = k -> tree_at (mem w) fs owner id vs x F -> sub F (heap w) -> disj F (between p (p + 32)) ->
  let H := keccak (host w) in separate (tree_slots H fs id vs k) -> lastings H (stor (host w)) fs id vs (k, 8) -> tree_memory fs vs < 2 ^ 31 ->
  wpf (save_tree ep h fs) [x; p] w (resq (fun r w' => r = [] /\ (forall y, ~ covers (tree_slots H fs id vs k) y -> stor (host w') y = stor (host w) y) /\
     forall w2 p2 sid ow, ready ep w2 p2 -> zeros w2 -> keccak (host w2) = H -> stor (host w2) = stor (host w') -> load_be 32 (mem w2) p2 = k ->
       468 <= sid -> sid + 32 <= gnext w2 -> (sid + 32 <= p2 \/ p2 + 32 <= sid) -> load_be 32 (mem w2) sid = id -> 0 <= ow -> ow + 32 <= gnext w2 ->
       wpf (load_tree ep h fs) [p2; sid; ow] w2 (resq (fun r2 w3 => exists y G, r2 = [y] /\ host w3 = host w2 /\
          tree_at (mem w3) fs (load_be 32 (mem w2) ow) id (adopts fs id vs) y G /\ sub G (heap w3)) (ctrap w2 (existsb thin fs) (tree_memory fs vs))))
    (nomem w (wcosts fs vs))).
Proof. exact round_trip_tree. Qed.
Print Assumptions C95_round_trip_partial.

(** An object with an object and a struct with another object inside. *)
Example C95_example : forall st, let w := w_wrap st in forallb sound fs_wrap = true /\ forallb readable fs_wrap = true /\ tree_memory fs_wrap (vs_wrap 161) < 2 ^ 31 /\ ready ep0 w 500 /\ zeros w /\ load_be 32 (mem w) 500 = 7 /\
  tree_at (mem w) fs_wrap 161 9 (vs_wrap 161) 564 (between 532 900) /\ sub (between 532 900) (heap w) /\ disj (between 532 900) (between 500 532) /\
  separate (tree_slots (keccak (host w)) fs_wrap 9 (vs_wrap 161) 7) /\ lastings (keccak (host w)) (stor (host w)) fs_wrap 9 (vs_wrap 161) (7, 8) /\
  exists w', returns (save_tree ep0 5 fs_wrap) [564; 500] (w_wrap (fun _ => 12345)) [] w' /\
    (stor (host w') 8 =? 11) && (stor (host w') 10 =? 12) && (stor (host w') (k_wrap 11) =? bswap 8 6 + 5 * 2 ^ 64) && (stor (host w') (k_wrap 12) =? bswap 8 6 + 6 * 2 ^ 64) = true.
Proof.
  intros st w. destruct (w_wrap_ready st) as (R1&R2&R3). do 3 (split; [vm_compute; reflexivity|]). split; [exact R1|]. split; [exact R2|]. split; [exact R3|]. split; [exact (w_wrap_tree st)|].
  split; [intros y; unfold heap, between; change (gnext w) with 900; lia|]. split; [intros y; unfold between; lia|]. split; [exact w_wrap_separate|]. split; [exact (w_wrap_lasting st)|].
  apply (runs_to_vals 3000). vm_compute. reflexivity.
Qed.

(** After this, loading gives the objects 11 and 12 inside again, with the owner 9. *)
Example C95_load_example : adopts fs_wrap 9 (vs_wrap 161) = vs_wrap 9 /\
  runs_to 3000 (load_tree ep0 5 fs_wrap) [500; 588; 532] (w_wrap st_wrap) (fun r w' => match r with
  | [x] => let m := mem w' in let c1 := load 4 m (x + 8) in let g := load 4 m (x + 12) in let c2 := load 4 m (g + 4) in
      (load_be 32 m (x - 32) =? 161) && (load 8 m (load 4 m (x + 4)) =? 77) &&
      (load_be 32 m (c1 - 32) =? 9) && (load_be 32 m (load 4 m (load 4 m (load 4 m c1))) =? 11) && (load 8 m (load 4 m (c1 + 4)) =? 5) &&
      (load 1 m (load 4 m g) =? 1) && (load_be 32 m (c2 - 32) =? 9) && (load_be 32 m (load 4 m (load 4 m (load 4 m c2))) =? 12) && (load 8 m (load 4 m (c2 + 4)) =? 6)
  | _ => false end) = true.
Proof. split; [reflexivity|exact w_wrap_loaded]. Qed.
