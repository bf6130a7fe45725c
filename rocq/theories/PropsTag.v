(** * The tags that tell the types of stored objects apart (C89). *)

From Coq Require Import String.
From Verif Require Import SpecInt Spec Tac RtAlloc RtErr RtSwap RtCopy SpecAbi SpecVal SpecStor SpecLayout RtStor LemStore RtSave RtLoad RtLoadObj LemPlace LemObj ExObj SpecDyn RtChild ExDyn RtCall SpecMove SpecCache RtCache RtPeep LemPeep ExPeep Comp RtUid CompType CompTag SpecTag LemTag.
Open Scope string_scope.
Open Scope Z_scope.

(** C89, full statement: an object that is in storage under one type is not accepted as an object of another type.  Storage
    has a tag of 64 bits for the type, and loading compares the tags (C85), so this says: different types have different tags.
    Proved: two structs without type arguments whose addresses, modules and names differ in a single byte or letter have
    different tags, whatever the rest of the program is.
    Missing: other pairs of types; refuted below. *)
Theorem C89_tags_partial : forall ix s t, one_letter_apart s t -> type_tag ix (MUser s []) <> type_tag ix (MUser t []).
Proof. exact one_letter_tags. Qed.
Print Assumptions C89_tags_partial.
Example C89_example : one_letter_apart (StructName 1 "bank" "AdminCap1") (StructName 1 "bank" "AdminCap2") /\
  one_letter_apart (StructName 1 "bank" "AdminCap") (StructName 257 "bank" "AdminCap").
Proof.
  split.
  - right. right. split; [reflexivity|]. split; [reflexivity|]. vm_compute. do 8 apply differ_next. apply differ_here. discriminate.
  - left. split; [|split; reflexivity]. vm_compute. do 30 apply differ_next. apply differ_here. discriminate.
Qed.

(** C89, refuted: the tags come from a hash that is no protection against chosen names.  A struct of the account 2, found in
    about a hundred thousand tries, has the tag of the struct AdminCap of the module bank of the account 1.  In every program
    and every state, an object of the first type is accepted as one of the second, as far as its fields have the same types. *)
Theorem C89_other_type_accepted_refuted : exists t1 t2, move_type t1 /\ move_type t2 /\ t1 <> t2 /\
  forall ix ep h st a, a_hash a = type_tag ix t1 -> up_to_date h st a -> a_owner a <> 0 -> legible (keccak h) (a_types a) (a_vals a) (a_slot h a) ->
  Forall (fun s => snd s < 2 ^ 256) (a_slots h a) -> object_memory (a_types a) (a_vals a) < 2 ^ 31 ->
  forall w p u c, wok w -> errtab_ok ep -> statics w -> abort_flag w = 0 -> keccak (host w) = keccak h -> stor (host w) = st ->
    468 <= p -> p + 32 <= gnext w -> load_be 32 (mem w) p = a_owner a -> uid_at w u c -> load_be 32 (mem w) c = a_id a ->
    wpf (native_peep ep (type_tag ix t2) (a_types a)) [p; u] w (resq (fun r w' => exists q F, r = [q] /\ abort_flag w' = 0 /\
       object_at (mem w') (a_types a) (a_owner a) (a_id a) (a_vals a) (load 4 (mem w') q) F)
     (ctrap w (existsb narrow (a_types a)) (36 + object_memory (a_types a) (a_vals a)))).
Proof. exact forged_accepted. Qed.
Print Assumptions C89_other_type_accepted_refuted.

(** C89, refuted in the other direction: one type does not always have one tag.  The tag of a generic object over vectors of a
    struct depends on the position of the struct in its module: a new version of a module with another struct before it cannot
    load the objects that the old version stored. *)
Theorem C89_same_type_rejected_refuted : exists t ix1 ix2, move_type t /\ type_tag ix1 t <> type_tag ix2 t.
Proof. exact index_in_tag. Qed.
Print Assumptions C89_same_type_rejected_refuted.

(** An object stored with the tag of the struct of the account 2 is read as an AdminCap. *)
Definition st_forged (y : Z) : Z :=
  if y =? k_peep then bswap 8 (type_tag (fun _ => 0) (MUser forged [])) else st_peep y.
Example C89_forged_example :
  runs_to 3000 (native_peep ep0 (type_tag (fun _ => 0) (MUser bank_admin [])) [TVec TU64]) [700; 612] (w_child st_forged) (fun r w' =>
    match r with [q] => let v := load 4 (mem w') (load 4 (mem w') q + 4) in (abort_flag w' =? 0) && (load 4 (mem w') v =? 3) && (load 8 (mem w') (v + 8) =? 11) | _ => false end) = true.
Proof. vm_compute. reflexivity. Qed.
