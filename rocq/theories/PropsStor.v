(** * Properties of storage locations (C33, C36, C38, C39). *)

From Verif Require Import Tac RtAlloc RtErr SpecAbi Spec SpecStor RtStor LemStor.
Ltac Zify.zify_post_hook ::= idtac.

(** A concrete machine: the constants of the reserved area, two 32-byte words at 500
    and 532, and a host with a given hash function and storage contents. *)
Definition ms (a b : Z) : memory :=
  store_be 32 (store_be 32 (store_be 32 (store_be 32 (store 32 zmem 32 1) 160 1) 192 2) 500 a) 532 b.
Definition hs (k : list Z -> Z) (st : Z -> Z) : hostst := mkHost k st st [] 161 162 0 1 1 0 0 [] [] ext0.
Definition toy (bs : list Z) : Z := fold_left (fun a b => a * 31 + b) bs 7.
Definition ws (k : list Z -> Z) (st : Z -> Z) (a b : Z) : world := mkW (ms a b) 1 100 600 (65536 - 600) 0 (hs k st).

Lemma ws_ok : forall k st a b, wok (ws k st a b).
Proof.
  intros. unfold wok, ws, ms; cbn [pages maxpages gnext gavail mem]. repeat (split; [lia|]).
  intros. rewrite !rd_store_be_out, rd_store_out by lia. reflexivity.
Qed.

(** C33.  Moving to the next slot adds one to the big-endian slot number and writes nothing
    else; the last slot 2^256-1 has no successor and the call fails with an overflow error. *)
Theorem C33_next_slot : forall ep w s, wok w -> errtab_ok ep -> load 32 (mem w) 32 = 1 ->
  live w s 32 -> (64 <= s /\ s + 32 <= 256 \/ 260 <= s) ->
  (load_be 32 (mem w) s < 2 ^ 256 - 1 ->
     exists w', returns (storage_next_slot ep) [s] w [s] w' /\ frame w w' (within s 32) /\
       load_be 32 (mem w') s = load_be 32 (mem w) s + 1) /\
  (load_be 32 (mem w) s = 2 ^ 256 - 1 ->
     exists w', returns (storage_next_slot ep) [s] w [BADF00D] w' /\ abort_flag w' = ep Overflow /\
       frame w w' (fun x => within s 32 x \/ within 256 4 x)).
Proof. exact next_slot. Qed.
Print Assumptions C33_next_slot.

Example C33_example : let w := ws toy (fun _ => 0) (2 ^ 64 - 1) (2 ^ 256 - 1) in
  wok w /\ load 32 (mem w) 32 = 1 /\ live w 500 32 /\ live w 532 32 /\
  load_be 32 (mem w) 500 < 2 ^ 256 - 1 /\ load_be 32 (mem w) 532 = 2 ^ 256 - 1 /\
  (exists w', returns (storage_next_slot ep0) [500] w [500] w') /\
  (exists w', returns (storage_next_slot ep0) [532] w [BADF00D] w').
Proof.
  intros w. split; [apply ws_ok|]. split; [vm_compute; reflexivity|]. unfold live.
  split; [cbn; lia|]. split; [cbn; lia|]. split; [vm_compute; reflexivity|]. split; [vm_compute; reflexivity|].
  split; runs 1000%nat.
Qed.

(** C36.  When adding the index to the hash carries between no two bytes, the element's slot is the
    Solidity one.  Missing: all other hashes and indices, for which the claim is false, see below. *)
Theorem C36_element_slot_partial : forall ep w p i sz d, wok w -> errtab_ok ep ->
  live w p 32 -> live w d 32 -> 0 <= i < 2 ^ 32 -> 0 < sz < 2 ^ 31 -> elem_index i sz < 2 ^ 32 ->
  let base := hash (host w) (word (load_be 32 (mem w) p)) in
  base + elem_index i sz < 2 ^ 256 -> carry_free base (elem_index i sz) ->
  (exists w', returns (derive_dyn_array_slot ep) [p; i; sz; d] w [] w' /\
     load_be 32 (mem w') d = base + elem_index i sz /\
     (forall a, 0 <= a < gnext w -> ~ within d 32 a -> rd (mem w') a = rd (mem w) a)) \/
  (traps (derive_dyn_array_slot ep) [p; i; sz; d] w /\ oom w 96).
Proof. exact element_slot. Qed.
Print Assumptions C36_element_slot_partial.

(** C36 is false in general.  Unless the hash of the header slot happens to end in a zero byte, some
    element among the first 256 has no slot: deriving it traps or fails with an overflow error. *)
Theorem C36_small_index_refuted : forall ep w p d, wok w -> errtab_ok ep -> live w p 32 -> live w d 32 ->
  (d + 32 <= 256 \/ 260 <= d) ->
  let base := hash (host w) (word (load_be 32 (mem w) p)) in
  base mod 256 <> 0 ->
  exists i, 0 < i < 256 /\ forall vs w', returns (derive_dyn_array_slot ep) [p; i; 32; d] w vs w' ->
    abort_flag w' = ep Overflow.
Proof. exact small_index_overflow. Qed.
Print Assumptions C36_small_index_refuted.

(** C36 is false in general.  If the hash ends in ff 00, element 256 is placed 65279 slots before the
    hash instead of 256 slots after it, silently. *)
Theorem C36_wrong_slot_refuted : forall ep w p d, wok w -> errtab_ok ep -> live w p 32 -> live w d 32 ->
  let base := hash (host w) (word (load_be 32 (mem w) p)) in
  base mod 65536 = 65280 -> ~ oom w 96 ->
  exists w', returns (derive_dyn_array_slot ep) [p; 256; 32; d] w [] w' /\
    load_be 32 (mem w') d = base - 65279 /\
    (forall a, 0 <= a < gnext w -> ~ within d 32 a -> rd (mem w') a = rd (mem w) a).
Proof. exact wrong_element_slot. Qed.
Print Assumptions C36_wrong_slot_refuted.

Example C36_example : let w := ws (fun _ => 2 ^ 200 + 65280) (fun _ => 0) 5 0 in
  let w1 := ws (fun _ => 2 ^ 200 + 77) (fun _ => 0) 5 0 in
  wok w /\ wok w1 /\ errtab_ok ep0 /\ live w 500 32 /\ live w 532 32 /\ ~ oom w 96 /\
  hash (host w) (word 5) mod 65536 = 65280 /\ hash (host w1) (word 5) mod 256 <> 0 /\
  elem_index 100 8 = 25 /\ carry_free (hash (host w1) (word 5)) 25 /\
  (exists w', returns (derive_dyn_array_slot ep0) [500; 100; 8; 532] w1 [] w' /\
     load_be 32 (mem w') 532 = 2 ^ 200 + 77 + 25).
Proof.
  intros w w1. split; [apply ws_ok|]. split; [apply ws_ok|]. split; [exact ep0_ok|].
  split; [unfold live; cbn; lia|]. split; [unfold live; cbn; lia|]. split; [unfold oom; cbn; lia|].
  split; [vm_compute; reflexivity|]. split; [vm_compute; discriminate|]. split; [reflexivity|].
  split.
  { change (hash (host w1) (word 5)) with (2 ^ 200 + 77). intros k Hk.
    destruct (Z.eq_dec k 0) as [->|N]; [vm_compute; reflexivity|].
    rewrite (Z.div_small 25).
    - pose proof (Z.mod_pos_bound ((2 ^ 200 + 77) / 256 ^ k) 256 ltac:(lia)). cbn [Z.modulo Z.div_eucl] in *. lia.
    - split; [lia|]. apply Z.lt_le_trans with (256 ^ 1); [reflexivity|]. apply Z.pow_le_mono_r; lia. }
  destruct (runs_to_vals 2000 (derive_dyn_array_slot ep0) [500; 100; 8; 532] w1 []
    (fun w' => load_be 32 (mem w') 532 =? 2 ^ 200 + 77 + 25)) as (w'&R&H); [vm_compute; reflexivity|].
  exists w'. split; [exact R|]. apply Z.eqb_eq. exact H.
Qed.

(** C38.  The object slot is the Solidity location of mapping[owner][id] ... *)
Theorem C38_object_slot : forall w op up out, wok w -> load_be 32 (mem w) 96 = 0 ->
  live w op 32 -> live w up 32 -> live w out 32 ->
  (out + 32 <= 404 \/ 468 <= out) -> (up + 32 <= 404 \/ 468 <= up) -> (up + 32 <= out \/ out + 32 <= up) ->
  exists m', returns write_object_slot [op; up; out] w [] (set_mem w m') /\
    load_be 32 m' out = slot_of (host w) (load_be 32 (mem w) op) (load_be 32 (mem w) up) /\
    (forall x, ~ within 404 64 x -> ~ within out 32 x -> rd m' x = rd (mem w) x).
Proof. exact write_object_slot_spec. Qed.
Print Assumptions C38_object_slot.

(** ... also when computed for an object in memory, whose owner precedes it and whose id its first
    field leads to ... *)
Theorem C38_struct_slot : forall w s, wok w -> load_be 32 (mem w) 96 = 0 ->
  500 <= s -> live w s 4 -> live w (load 4 (mem w) s) 4 -> live w (load 4 (mem w) (load 4 (mem w) s)) 4 ->
  let id := load 4 (mem w) (load 4 (mem w) (load 4 (mem w) s)) in
  live w id 32 -> 468 <= id ->
  exists m', returns locate_struct_slot [s] w [] (set_mem w m') /\
    load_be 32 m' 128 = slot_of (host w) (load_be 32 (mem w) (s - 32)) (load_be 32 (mem w) id) /\
    (forall x, ~ within 404 64 x -> ~ within 128 32 x -> rd m' x = rd (mem w) x).
Proof. exact locate_struct_slot_spec. Qed.
Print Assumptions C38_struct_slot.

(** ... and two different (owner, id) pairs share a slot only if keccak256 collides on the inputs
    hashed for them. *)
Theorem C38_slots_distinct : forall h o i o' i',
  0 <= o < 2 ^ 256 -> 0 <= i < 2 ^ 256 -> 0 <= o' < 2 ^ 256 -> 0 <= i' < 2 ^ 256 ->
  (o, i) <> (o', i') -> slot_of h o i = slot_of h o' i' ->
  collision h (word o ++ word 0) (word o' ++ word 0) \/
  collision h (word i ++ word (hash h (word o ++ word 0))) (word i' ++ word (hash h (word o' ++ word 0))).
Proof. exact slots_distinct. Qed.
Print Assumptions C38_slots_distinct.

Example C38_example : let w := ws toy (fun _ => 0) 7 9 in
  wok w /\ load_be 32 (mem w) 96 = 0 /\ live w 500 32 /\ live w 532 32 /\ live w 64 32 /\
  (exists w', returns write_object_slot [500; 532; 64] w [] w') /\
  slot_of (host w) 7 9 <> slot_of (host w) 9 7 /\
  slot_of (hs (fun _ => 3) (fun _ => 0)) 7 9 = slot_of (hs (fun _ => 3) (fun _ => 0)) 9 7.
Proof.
  intros w. split; [apply ws_ok|]. split; [vm_compute; reflexivity|]. unfold live.
  split; [cbn; lia|]. split; [cbn; lia|]. split; [cbn; lia|]. split; [runs 1000%nat|].
  split; [vm_compute; discriminate|reflexivity].
Qed.

(** C39.  Looking an object up finds it under the originator first, then among the shared objects,
    then, when allowed, among the frozen ones. *)
Theorem C39_lookup : forall ep w uid frozen_too, wok w -> errtab_ok ep -> statics w ->
  live w uid 32 -> 468 <= uid -> 0 <= frozen_too < 2 ->
  exists vs w', returns (locate_storage_data ep) [uid; frozen_too] w vs w' /\
    lookup_post ep w
      ([originator (host w); shared_owner] ++ (if frozen_too =? 0 then [] else [frozen_owner]))
      (load_be 32 (mem w) uid) vs w'.
Proof. exact locate_storage_data_spec. Qed.
Print Assumptions C39_lookup.

(** C39.  The lookups restricted to one kind of owner find exactly the objects it holds. *)
Theorem C39_lookup_kind : forall ep w uid, wok w -> errtab_ok ep -> statics w ->
  live w uid 32 -> 468 <= uid ->
  forall f o, (f, o) = (locate_storage_owned_data ep, originator (host w)) \/
    (f, o) = (locate_storage_shared_data ep, shared_owner) \/
    (f, o) = (locate_storage_frozen_data ep, frozen_owner) ->
  exists vs w', returns f [uid] w vs w' /\ lookup_post ep w [o] (load_be 32 (mem w) uid) vs w'.
Proof.
  intros ep w uid Hw He Hs Lu Hu f o Hf.
  assert (K : forall pre a, (pre = load_origin /\ a = A_OWNER \/ pre = [] /\ (a = A_SHARED \/ a = A_FROZEN)) -> _)
    by (intros pre a; exact (locate_in_spec ep w uid pre a Hw He Hs Lu Hu)).
  destruct Hs as (_&_&_&S3&S4).
  destruct Hf as [E|[E|E]]; injection E as -> ->.
  - apply (K load_origin A_OWNER). tauto.
  - rewrite <- S3. apply (K [] A_SHARED). tauto.
  - rewrite <- S4. apply (K [] A_FROZEN). tauto.
Qed.
Print Assumptions C39_lookup_kind.

(** An object with id 9 that is shared and also held by the originator, one (5) that is frozen. *)
Example C39_example :
  let h := hs toy (fun _ => 0) in
  let st x := if x =? slot_of h 161 9 then 11 else if x =? slot_of h 1 9 then 22
              else if x =? slot_of h 2 5 then 33 else 0 in
  let w := ws toy st 9 5 in
  wok w /\ statics w /\ live w 500 32 /\ live w 532 32 /\ originator (host w) = 161 /\
  holder (host w) [161; 1] 9 = Some 161 /\ holder (host w) [161; 1] 5 = None /\
  holder (host w) [161; 1; 2] 5 = Some 2 /\ holder (host w) [1] 9 = Some 1 /\
  (exists w', returns (locate_storage_data ep0) [500; 0] w [224] w') /\
  (exists w', returns (locate_storage_data ep0) [532; 0] w [BADF00D] w') /\
  (exists w', returns (locate_storage_data ep0) [532; 1] w [192] w') /\
  (exists w', returns (locate_storage_shared_data ep0) [500] w [160] w').
Proof.
  intros h st w. split; [apply ws_ok|]. split; [repeat split; vm_compute; reflexivity|]. unfold live.
  split; [cbn; lia|]. split; [cbn; lia|].
  do 5 (split; [vm_compute; reflexivity|]).
  do 3 (split; [runs 2000%nat|]). runs 2000%nat.
Qed.
