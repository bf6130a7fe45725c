(** * Objects with enums in storage: saving, loading, deleting (C90, C91, C92). *)

From Verif Require Import SpecInt Spec Tac RtAlloc RtErr RtSwap RtCopy SpecVal LemVal SpecStor SpecLayout RtStor RtStore LemStore RtSave RtLoad RtLoadObj LemObj ExObj RtChild LemDelete RtDelete SpecMove RtTransfer LemMove ExMove ExEnumSt.

(** C90, full statement: saving an object whose fields may be enums (of scalars, vectors, structs and enums, to any depth) puts
    every variant's number and fields into their places behind one another and in the room of the largest variant, clears the
    slots of this room that the variant has no use for, and changes no slot outside the object's room.
    Missing: vectors must not be shorter than what storage has in their place ([no_shrinks]), and hash collisions between the
    areas of the vectors are excluded ([separate]). *)
Theorem C90_saved_in_place_partial : forall ep h fs w x p owner id vs F k, ready ep w p -> load_be 32 (mem w) 0 = 0 ->
  load_be 32 (mem w) p = k -> forallb storable fs = true -> 0 <= h < 2 ^ 64 ->
  object_at (mem w) fs owner id vs x F -> sub F (heap w) -> disj F (between p (p + 32)) ->
  let H := keccak (host w) in
  separate (slots H fs vs (k, 8)) -> no_shrinks H (stor (host w)) fs vs (k, 8) ->
  wpf (save_object ep h fs) [x; p] w (resq (fun r w' => r = [] /\ stor (host w') k mod 2 ^ 64 = bswap 8 h /\
    helds H (stor (host w')) fs vs (k, 8) /\
    (forall y, covers (unused_of H fs vs (k, 8)) y -> stor (host w') y = 0) /\
    (forall y, ~ covers (slots H fs vs (k, 8)) y -> stor (host w') y = stor (host w) y)) (oom w (costs vs))).
Proof. exact save_storable. Qed.
Print Assumptions C90_saved_in_place_partial.

(** An enum (an empty variant, or one with u128, u256 and u64) and a u8; the empty variant is saved over other data: the u8 goes
    behind the room of the other variant, and slot 8, now unused, is cleared. *)
Example C90_example : let w := wh m_en0 740 (fun _ => 12345) in
  ready ep0 w 500 /\ load_be 32 (mem w) 0 = 0 /\ load_be 32 (mem w) 500 = 7 /\ forallb storable fs_en = true /\
  object_at (mem w) fs_en 161 9 v_none 564 (between 532 740) /\ sub (between 532 740) (heap w) /\ disj (between 532 740) (between 500 532) /\
  separate (slots hash0 fs_en v_none (7, 8)) /\ no_shrinks hash0 (fun _ => 12345) fs_en v_none (7, 8) /\
  slots hash0 fs_en v_none (7, 8) = [(7, 9)] /\ unused_of hash0 fs_en v_none (7, 8) = [(8, 8)] /\
  exists w1, returns (save_object ep0 5 fs_en) [564; 500] w [] w1 /\
    (stor (host w1) 7 =? bswap 8 5) && (stor (host w1) 8 =? 0) && (stor (host w1) 9 =? 8 * 2 ^ 64) && (stor (host w1) 10 =? 12345) = true.
Proof.
  intros w. split; [apply en_ready; auto|]. do 2 (split; [vm_compute; reflexivity|]). split; [exact en_storable|]. split; [exact en_object0|].
  split; [intros y; unfold heap, between; change (gnext w) with 740; lia|]. split; [intros y; unfold between; lia|].
  split; [exact (en_separate _ (or_introl eq_refl))|]. split; [exact (en_no_shrinks _ _ (or_introl eq_refl))|]. do 2 (split; [vm_compute; reflexivity|]).
  apply (runs_to_vals 2000). vm_compute. reflexivity.
Qed.

(** C91, full statement: such an object, loaded from the storage that saving it left, has the same fields again.
    Missing: what follows an enum must not be taken from a slot that was not loaded ([fetcheds]; see the refutation), and the
    conditions of C90 and traps of C35. *)
Theorem C91_round_trip_partial : forall ep h fs w x p owner id vs F k, ready ep w p -> load_be 32 (mem w) 0 = 0 ->
  load_be 32 (mem w) p = k -> forallb storable fs = true -> 0 < h < 2 ^ 64 ->
  object_at (mem w) fs owner id vs x F -> sub F (heap w) -> disj F (between p (p + 32)) ->
  let H := keccak (host w) in
  separate (slots H fs vs (k, 8)) -> no_shrinks H (stor (host w)) fs vs (k, 8) -> object_memory fs vs < 2 ^ 31 ->
  fetcheds H fs vs (k, 8) true <> None ->
  wpf (save_object ep h fs) [x; p] w (resq (fun r w' => r = [] /\
    forall w2 p2 sid ow, ready ep w2 p2 -> keccak (host w2) = H -> stor (host w2) = stor (host w') ->
      load_be 32 (mem w2) p2 = k ->
      468 <= sid -> sid + 32 <= gnext w2 -> (sid + 32 <= p2 \/ p2 + 32 <= sid) -> 0 <= ow -> ow + 32 <= gnext w2 ->
      wpf (load_object ep h fs) [p2; sid; ow] w2 (resq (fun r w3 => exists x' F', r = [x'] /\ host w3 = host w2 /\
         object_at (mem w3) fs (load_be 32 (mem w2) ow) (load_be 32 (mem w2) sid) vs x' F' /\ sub F' (heap w3))
       (ctrap w2 (existsb narrow fs) (object_memory fs vs))))
   (oom w (costs vs))).
Proof. exact round_trip_storable. Qed.
Print Assumptions C91_round_trip_partial.

(** The other variant meets the condition and comes back, with the u8. *)
Example C91_example : let w := wh m_en1 740 (fun _ => 12345) in
  ready ep0 w 500 /\ load_be 32 (mem w) 0 = 0 /\ load_be 32 (mem w) 500 = 7 /\ forallb storable fs_en = true /\
  object_at (mem w) fs_en 161 9 v_some 564 (between 532 740) /\ sub (between 532 740) (heap w) /\
  separate (slots hash0 fs_en v_some (7, 8)) /\ no_shrinks hash0 (fun _ => 12345) fs_en v_some (7, 8) /\ object_memory fs_en v_some < 2 ^ 31 /\
  fetcheds hash0 fs_en v_some (7, 8) true = Some true /\
  exists w1, returns (save_object ep0 5 fs_en) [564; 500] w [] w1 /\
    runs_to 2000 (load_object ep0 5 fs_en) [500; 620; 532] (wh m_en1 740 (stor (host w1))) (fun r w3 => match r with [x] =>
      let e := load 4 (mem w3) (x + 4) in (load 4 (mem w3) e =? 1) && (load 16 (mem w3) (load 4 (mem w3) (e + 4)) =? 5) &&
      (load 32 (mem w3) (load 4 (mem w3) (e + 8)) =? 6) && (load 8 (mem w3) (load 4 (mem w3) (e + 12)) =? 7) &&
      (load 1 (mem w3) (load 4 (mem w3) (x + 8)) =? 8) | _ => false end) = true.
Proof.
  intros w. split; [apply en_ready; auto|]. do 2 (split; [vm_compute; reflexivity|]). split; [exact en_storable|]. split; [exact en_object1|].
  split; [intros y; unfold heap, between; change (gnext w) with 740; lia|].
  split; [exact (en_separate _ (or_intror eq_refl))|]. split; [exact (en_no_shrinks _ _ (or_intror eq_refl))|]. do 2 (split; [vm_compute; reflexivity|]).
  apply (runs_to_vals 2000). vm_compute. reflexivity.
Qed.

(** C91 refuted: an object with an enum and a field after it is saved, and loading it gives another object (the field after the
    enum is read from the slot of the enum's first byte). *)
Theorem C91_field_after_enum_refuted : exists ep h fs w x p F owner id vs k w1 w2 sid ow x' w3, let H := keccak (host w) in
  ready ep w p /\ load_be 32 (mem w) 0 = 0 /\ load_be 32 (mem w) p = k /\ forallb storable fs = true /\ 0 < h < 2 ^ 64 /\
  object_at (mem w) fs owner id vs x F /\ sub F (heap w) /\ disj F (between p (p + 32)) /\
  separate (slots H fs vs (k, 8)) /\ no_shrinks H (stor (host w)) fs vs (k, 8) /\ object_memory fs vs < 2 ^ 31 /\
  returns (save_object ep h fs) [x; p] w [] w1 /\
  ready ep w2 p /\ keccak (host w2) = H /\ stor (host w2) = stor (host w1) /\ load_be 32 (mem w2) p = k /\
  468 <= sid /\ sid + 32 <= gnext w2 /\ (sid + 32 <= p \/ p + 32 <= sid) /\ 0 <= ow /\ ow + 32 <= gnext w2 /\
  returns (load_object ep h fs) [p; sid; ow] w2 [x'] w3 /\
  forall owner' id' F', ~ object_at (mem w3) fs owner' id' vs x' F'.
Proof. exact field_after_enum. Qed.
Print Assumptions C91_field_after_enum_refuted.

(** C92, full statement: deleting an object with enums clears every slot it used.  Refuted: the elements of a vector in an enum
    stay. *)
Theorem C92_vector_in_enum_refuted : exists ep fs w x owner id vs F, let H := keccak (host w) in let k := slot_of (host w) owner id in
  wok w /\ errtab_ok ep /\ statics w /\ object_at (mem w) fs owner id vs x F /\ sub F (heap w) /\ forallb storable fs = true /\
  owner <> 0 /\ owner <> frozen_owner /\ kept H (stor (host w)) fs vs owner k /\
  exists w', returns (delete_object ep fs) [x] w [] w' /\ abort_flag w' = abort_flag w /\ stor (host w') k = 0 /\
    exists y, covers (slots H fs vs (k, 8)) y /\ stor (host w') y <> 0.
Proof. exact vector_in_enum_stays. Qed.
Print Assumptions C92_vector_in_enum_refuted.

(** C92 refuted also without vectors in enums: those of a vector field after a struct with an enum stay. *)
Theorem C92_vector_after_enum_refuted : exists ep fs1 t w x owner id vs F, let fs := [TStruct false fs1; TVec t] in
  let H := keccak (host w) in let k := slot_of (host w) owner id in
  forallb vecless fs1 = true /\ plain t = true /\
  wok w /\ errtab_ok ep /\ statics w /\ object_at (mem w) fs owner id vs x F /\ sub F (heap w) /\ forallb storable fs = true /\
  owner <> 0 /\ owner <> frozen_owner /\ kept H (stor (host w)) fs vs owner k /\
  exists w', returns (delete_object ep fs) [x] w [] w' /\ abort_flag w' = abort_flag w /\ stor (host w') k = 0 /\
    exists y, covers (slots H fs vs (k, 8)) y /\ stor (host w') y <> 0.
Proof. exact vector_after_enum_stays. Qed.
Print Assumptions C92_vector_after_enum_refuted.

(** C92.  What holds: fields that are enums without vectors, fields without enums, and vectors of such.
    Missing: what the refutations show, structs with enums, and objects inside objects. *)
Theorem C92_delete_enum_partial : forall ep fs w x owner id vs vs0 F, wok w -> errtab_ok ep -> statics w -> object_at (mem w) fs owner id vs x F -> sub F (heap w) ->
  forallb erasable fs = true -> owner <> 0 -> owner <> frozen_owner ->
  let H := keccak (host w) in let l := slots H fs vs0 (slot_of (host w) owner id, 8) in
  kept H (stor (host w)) fs vs0 owner (slot_of (host w) owner id) ->
  wpf (delete_object ep fs) [x] w (resq (fun r w' => r = [] /\ abort_flag w' = abort_flag w /\ host w' = set_stor (host w) (stor (host w')) /\
     stored (host w') owner id = 0 /\ (forall y, covers l y -> stor (host w') y = 0) /\ (forall y, ~ covers l y -> stor (host w') y = stor (host w) y)) (oom w (costs vs0))).
Proof. exact delete_erases. Qed.
Print Assumptions C92_delete_enum_partial.

(** The object with the enum and the u8 fills three slots; deleting it clears them. *)
Example C92_example : wok w_ek /\ statics w_ek /\ object_at (mem w_ek) fs_en 161 9 v_some 564 (between 532 740) /\ sub (between 532 740) (heap w_ek) /\
  forallb erasable fs_en = true /\ kept hash2 (stor (host w_ek)) fs_en v_some 161 k_ev /\ slot_of (host w_ek) 161 9 = k_ev /\
  exists w', returns (delete_object ep0 fs_en) [564] w_ek [] w' /\
    (stor (host w') k_ev =? 0) && (stor (host w') (k_ev + 1) =? 0) && (stor (host w') (k_ev + 2) =? 0) && negb (stor (host w_ek) (k_ev + 1) =? 0) = true.
Proof.
  split; [exact w_ek_ok|]. split; [repeat split; vm_compute; reflexivity|]. split; [exact w_ek_object|].
  split; [intros y; unfold heap, between; change (gnext w_ek) with 740; lia|]. split; [vm_compute; reflexivity|]. split; [exact st_ek_kept|].
  split; [apply slot_of_keccak; reflexivity|]. apply (runs_to_vals 3000). vm_compute. reflexivity.
Qed.

(** C46, C78 and C85 are about objects with enums too: this object can be shared, and it can be read back from its new place. *)
Example C46_enum_example : forallb storable fs_en = true /\ forallb erasable fs_en = true /\
  room_for hash2 (stor (host w_ek)) fs_en v_some (k_move 1) /\ legible hash2 fs_en v_some (k_move 1) /\ slot_of (host w_ek) 1 9 = k_move 1 /\
  exists w', returns (share_object ep0 5 fs_en) [564] w_ek [] w' /\
    (stor (host w') k_ev =? 0) && (stor (host w') (k_ev + 2) =? 0) && (stor (host w') (k_move 1 + 1) =? 6) && (stor (host w') (k_move 1 + 2) =? 7 + 8 * 2 ^ 64) = true.
Proof.
  split; [exact en_storable|]. split; [vm_compute; reflexivity|]. split; [|split; [|split; [apply slot_of_keccak; reflexivity|]]].
  - split; [|cbn; tauto]. assert (S : slots hash2 fs_en v_some (k_move 1, 8) = [(k_move 1, k_move 1 + 2)]) by (vm_compute; reflexivity). rewrite S. split; [repeat constructor|].
    pose proof (k_move_small 1) as B. constructor; [|constructor]. cbn [fst snd]. lia.
  - right. split; [exact en_storable|]. vm_compute. discriminate.
  - apply (runs_to_vals 3000). vm_compute. reflexivity.
Qed.
