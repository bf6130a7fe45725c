(** * Properties of ABI encoding and decoding (C27-C32, C56, C62, C63). *)

From Verif Require Import Tac RtAlloc RtErr RtInt SpecInt Spec SpecVal LemVal RtCopy SpecAbi SpecSol RtAbi RtPack RtPack2 RtUnpack RtUnpack2 LemSol.
Ltac Zify.zify_post_hook ::= idtac.

(** Reading guide.  [encode_args ep ts] is the code that encodes the results of types [ts] of an entry
    point: it takes the words of the values and returns the length and the address of the message.
    [decode_args ep ts] is the code that decodes its arguments: it takes the address of the message and
    leaves the words of the values on the stack, so that its result list is reversed.  [represents] and
    [held] (SpecSol.v) relate these words to values; [enc_args] is the Solidity encoding and
    [decodes_args] what a message denotes.  Both codes trap when the memory is exhausted ([oom]). *)

(** C27.  Decoding the encoding of an integer, bool or address gives the same value, unless the memory
    is exhausted. *)
Theorem C27_integers_round_trip : forall ep t n x w p len w1, running ep w -> scalar t ->
  vrep (mem w) t (VInt n) x (heap w) -> gnext w + 32 <= 2 ^ 31 ->
  returns (encode_args ep [AInt t]) [x] w [len; p] w1 ->
  (exists x' w2, returns (decode_args ep [AInt t]) [p] w1 [x'] w2 /\
     vrep (mem w2) t (VInt n) x' (between (gnext w1) (gnext w2))) \/
  (traps (decode_args ep [AInt t]) [p] w1 /\ oom w1 (need_args [AInt t] [VInt n])).
Proof. exact int_round_trip. Qed.
Print Assumptions C27_integers_round_trip.

(** C28.  An integer of any width, bool, address or enum is encoded as its big-endian 32-byte word. *)
Theorem C28_words : forall ep t n x w, running ep w -> scalar t -> vrep (mem w) t (VInt n) x (heap w) ->
  (exists p w', returns (encode_args ep [AInt t]) [x] w [32; p] w' /\ bytes 32 (mem w') p = word n /\
     load_be 32 (mem w') p = n /\ (forall a, 0 <= a < gnext w -> rd (mem w') a = rd (mem w) a)) \/
  (traps (encode_args ep [AInt t]) [x] w /\ oom w 32).
Proof. exact int_word. Qed.
Print Assumptions C28_words.

Theorem C28_enum_words : forall ep k tag x w, running ep w -> 0 < Z.of_nat k <= 256 ->
  vrep (mem w) (mty (AEnum k)) (VEnum tag []) x (heap w) ->
  (exists p w', returns (encode_args ep [AEnum k]) [x] w [32; p] w' /\ bytes 32 (mem w') p = word (Z.of_nat tag)) \/
  (traps (encode_args ep [AEnum k]) [x] w /\ oom w 32).
Proof. exact enum_word. Qed.
Print Assumptions C28_enum_words.

(** A tag that does not fit in a byte is refused when encoding, a tag outside the type when decoding. *)
Theorem C28_enum_tags : forall ep w, running ep w ->
  (forall p wr, live w p 4 -> live w wr 32 -> 256 <= load 4 (mem w) p ->
     exists w', returns (pack_enum ep) [p; wr] w [] w' /\ aborted ep EnumSizeTooLarge w w') /\
  (forall n r, live w r 32 -> 0 < Z.of_nat n < 2 ^ 32 -> Z.of_nat n <= load_be 4 (mem w) (r + 28) ->
     exists w', returns (unpack_enum ep n) [r] w [BADF00D] w' /\ abort_flag w' = ep OutOfBounds).
Proof. exact enum_tags. Qed.
Print Assumptions C28_enum_tags.

Example C28_enum_tags_example : let w := wm (put 500 (word 300) (put 532 [44; 1; 0; 0] zmem)) 600 in
  running ep0 w /\ 256 <= load 4 (mem w) 532 /\ Z.of_nat 7 <= load_be 4 (mem w) (500 + 28).
Proof.
  cbv zeta. split; [split; [|split; [exact ep0_ok|vm_compute; reflexivity]]|split; vm_compute; discriminate].
  apply wm_put_ok; [apply wm_put_ok; [apply wm_ok; lia|cbn; lia]|cbn; lia].
Qed.

Example C27_C28_example : running ep0 w0 /\ scalar TU64 /\ vrep (mem w0) TU64 (VInt 70000) 70000 (heap w0) /\
  exists w1, returns (encode_args ep0 [AInt TU64]) [70000] w0 [32; 600] w1 /\ exists w2, returns (decode_args ep0 [AInt TU64]) [600] w1 [70000] w2.
Proof.
  assert (Hr : running ep0 w0) by (split; [exact w0_ok|split; [exact ep0_ok|vm_compute; reflexivity]]).
  assert (V : vrep (mem w0) TU64 (VInt 70000) 70000 (heap w0)) by (split; [reflexivity|cbn; lia]).
  split; [exact Hr|]. split; [exact I|]. split; [exact V|].
  destruct (runs_to_vals 500 (encode_args ep0 [AInt TU64]) [70000] w0 [32; 600]
    (fun w1 => runs_to 500 (decode_args ep0 [AInt TU64]) [600] w1 (fun r _ => zs_eqb r [70000]))) as (w1&R1&R2); [vm_compute; reflexivity|].
  exists w1. split; [exact R1|]. eapply runs_vals. exact R2.
Qed.

(** C29 is false: for bool, u8, u16 and u32 every word is accepted, and its low 32 bits are handed to the
    contract, even where they are no value of the type. *)
Theorem C29_refuted : forall ep t w a, In t [TBool; TU8; TU16; TU32] -> wok w -> live w a 32 ->
  exists w', returns (decode_args ep [AInt t]) [a] w [load_be 32 (mem w) a mod 2 ^ 32] w' /\ mem w' = mem w.
Proof. exact narrow_unchecked. Qed.
Print Assumptions C29_refuted.

Example C29_example : let w := wm (store_be 32 zmem 500 300) 600 in
  wok w /\ live w 500 32 /\ load_be 32 (mem w) 500 = 300 /\
  exists w', returns (decode_args ep0 [AInt TU8]) [500] w [300] w'.
Proof.
  intros w. assert (Hw : wok w) by (unfold wok, w, wm; cbn [pages maxpages gnext gavail mem]; repeat (split; [lia|]); intros; rewrite rd_store_be_out by lia; reflexivity).
  split; [exact Hw|]. split; [unfold live; cbn; lia|]. split; [vm_compute; reflexivity|]. runs 300%nat.
Qed.

(** C30.  A dynamic value whose offset does not fit 32 bits is rejected ... *)
Theorem C30_offset : forall ep t w r b, dynamic t = true -> wok w -> errtab_ok ep -> live w r 32 ->
  2 ^ 32 <= load_be 32 (mem w) r ->
  exists w', returns (decoder ep t) [r; b] w [BADF00D] w' /\ aborted ep MemoryAccessOutOfBounds w w'.
Proof. exact big_offset. Qed.
Print Assumptions C30_offset.

(** ... and so is a string or vector whose length does not. *)
Theorem C30_length : forall ep t w r b, t = AString \/ (exists u, t = AVec u) -> running ep w -> live w r 32 -> 0 <= b ->
  load_be 32 (mem w) r < 2 ^ 32 -> let d := b + load_be 32 (mem w) r in live w d 32 -> 2 ^ 32 <= load_be 32 (mem w) d ->
  exists w', returns (decoder ep t) [r; b] w [BADF00D] w' /\ aborted ep MemoryAccessOutOfBounds (set_gcd w (r + 32)) w'.
Proof. exact big_length. Qed.
Print Assumptions C30_length.

Example C30_example : let w := wm (store_be 32 (store_be 32 (store_be 32 zmem 500 (2 ^ 32)) 532 64) 564 (2 ^ 200)) 600 in
  running ep0 w /\ live w 500 32 /\ live w 532 32 /\ live w (500 + load_be 32 (mem w) 532) 32 /\
  2 ^ 32 <= load_be 32 (mem w) 500 /\ load_be 32 (mem w) 532 < 2 ^ 32 /\ 2 ^ 32 <= load_be 32 (mem w) (500 + load_be 32 (mem w) 532) /\
  (exists w', returns (decoder ep0 AString) [500; 500] w [BADF00D] w') /\
  (exists w', returns (decoder ep0 (AVec (AInt TU64))) [532; 500] w [BADF00D] w').
Proof.
  intros w. assert (Hw : wok w) by (unfold wok, w, wm; cbn [pages maxpages gnext gavail mem]; repeat (split; [lia|]); intros; rewrite !rd_store_be_out by lia; reflexivity).
  split; [split; [exact Hw|split; [exact ep0_ok|vm_compute; reflexivity]]|].
  assert (E1 : load_be 32 (mem w) 532 = 64) by (vm_compute; reflexivity). rewrite E1.
  split; [unfold live; cbn; lia|]. split; [unfold live; cbn; lia|]. split; [unfold live; cbn; lia|].
  split; [vm_compute; discriminate|]. split; [lia|]. split; [vm_compute; discriminate|].
  split; runs 600%nat.
Qed.

(** C31.  Decoding the encoding of a string gives a string with the same bytes, unless the memory is
    exhausted or the decoded string ends within three bytes of a page boundary.  Missing: that last
    case, in which the claim is false, see below. *)
Theorem C31_strings_partial : forall ep bs x w p len w1, running ep w ->
  let v := VStruct 0 [VVec (map VInt bs)] in
  vrep (mem w) (mty AString) v x (heap w) -> gnext w + lenz (enc_args [AString] [v]) <= 2 ^ 31 ->
  returns (encode_args ep [AString]) [x] w [len; p] w1 ->
  bytes_at (mem w1) p (word 32 ++ enc_bytes bs) /\
  ((exists x' w2, returns (decode_args ep [AString]) [p] w1 [x'] w2 /\
      vrep (mem w2) (mty AString) v x' (between (gnext w1) (gnext w2))) \/
   (traps (decode_args ep [AString]) [p] w1 /\ (oom w1 (12 + lenz bs) \/ crosses w1 (12 + lenz bs)))).
Proof. exact string_round_trip. Qed.
Print Assumptions C31_strings_partial.

Example C31_example : let w := wm (put 512 [104; 105; 33] (store 4 (store 4 (store 4 zmem 500 504) 504 3) 508 3)) 600 in
  let v := VStruct 0 [VVec (map VInt [104; 105; 33])] in
  running ep0 w /\ vrep (mem w) (mty AString) v 500 (heap w) /\ lenz (enc_args [AString] [v]) = 96 /\
  exists w1, returns (encode_args ep0 [AString]) [500] w [96; 600] w1 /\
  exists x w2, returns (decode_args ep0 [AString]) [600] w1 [x] w2 /\ bytes 3 (mem w2) (load 4 (mem w2) x + 8) = [104; 105; 33].
Proof.
  intros w v.
  split; [split; [apply wm_put_ok; [repeat (apply wm_store_ok; [|lia]); apply wm_ok; lia|vm_compute; discriminate]|split; [exact ep0_ok|vm_compute; reflexivity]]|].
  split.
  { exists 0, [VVec (map VInt [104; 105; 33])], (between 504 515). cbn [List.length]. split; [reflexivity|]. split; [reflexivity|].
    split; [apply between_sub; cbn; lia|]. split; [apply between_sub; cbn; lia|]. split; [apply between_disj; cbn; lia|].
    exists (between 504 515), empty. split; [|split; [exact I|split; [intros x _ []|split; [intros x Hx; exact Hx|intros x []]]]].
    unfold field_of. cbn [is_stack vrep map]. replace (load 4 (mem w) 500) with 504 by (vm_compute; reflexivity).
    exists [VInt 104; VInt 105; VInt 33], 3, empty. split; [reflexivity|]. split; [vm_compute; reflexivity|]. split; [vm_compute; reflexivity|].
    split; [cbn; lia|]. split; [cbn; lia|]. split; [apply between_sub; cbn; lia|]. split; [intros x []|]. split; [intros x _ []|].
    cbn [elems esize]. assert (D : forall F, disj empty F) by (intros F x []). assert (Sb : sub empty empty) by (intros x []).
    exists empty, empty. split; [split; [vm_compute; reflexivity|vm_compute; split; [discriminate|reflexivity]]|]. split; [|auto].
    exists empty, empty. split; [split; [vm_compute; reflexivity|vm_compute; split; [discriminate|reflexivity]]|]. split; [|auto].
    exists empty, empty. split; [split; [vm_compute; reflexivity|vm_compute; split; [discriminate|reflexivity]]|]. split; [exact I|auto]. }
  split; [vm_compute; reflexivity|].
  destruct (runs_to_vals 3000 (encode_args ep0 [AString]) [500] w [96; 600]
    (fun w1 => runs_to 3000 (decode_args ep0 [AString]) [600] w1 (fun r w2 => zs_eqb r [nth 0 r 0] && zs_eqb (bytes 3 (mem w2) (load 4 (mem w2) (nth 0 r 0) + 8)) [104; 105; 33]))) as (w1&R1&R2); [vm_compute; reflexivity|].
  exists w1. split; [exact R1|]. apply runs_to_ok in R2. destruct R2 as (r&w2&R2&E). apply andb_prop in E. destruct E as [E1 E2].
  apply zs_eqb_eq in E1. apply zs_eqb_eq in E2. exists (nth 0 r 0), w2. split; [rewrite E1 in R2; exact R2|exact E2].
Qed.

(** C31 is false near the end of a page: the encoding of a one-byte string cannot be decoded although
    almost all of the memory is free. *)
Theorem C31_refuted : exists w a bs, running ep0 w /\ bytes_at (mem w) a (enc_args [AString] [VStruct 0 [VVec (map VInt bs)]]) /\
  a + lenz (enc_args [AString] [VStruct 0 [VVec (map VInt bs)]]) <= gnext w /\ ~ oom w 1000000 /\
  traps (decode_args ep0 [AString]) [a] w.
Proof. exact string_at_page_end. Qed.
Print Assumptions C31_refuted.

(** C32, C63.  The results of an entry point, of any types (vectors, structs, strings and integers nested in any
    way), are encoded as the Solidity ABI prescribes; nothing the contract holds is changed. *)
Theorem C32_C63_encoding : forall ep ts vs xs w, running ep w -> fold_right and True (map wf_aty ts) ->
  represents w ts vs xs -> let e := enc_args ts vs in lenz e < 2 ^ 31 ->
  (exists w', returns (encode_args ep ts) xs w [lenz e; gnext w] w' /\ bytes_at (mem w') (gnext w) e /\
     gnext w' = gnext w + lenz e /\ host w' = host w /\ (forall a, 0 <= a < gnext w -> rd (mem w') a = rd (mem w) a)) \/
  (traps (encode_args ep ts) xs w /\ oom w (lenz e)).
Proof. exact encoding. Qed.
Print Assumptions C32_C63_encoding.

(** C62.  A message that denotes the values [vs], whatever its offsets, is decoded to these values, each
    in a part of freshly allocated memory of its own; nothing the contract holds is changed. *)
Theorem C62_decoding_partial : forall ep ts vs w a hi, running ep w -> fold_right and True (map wf_aty ts) ->
  0 <= a -> hi <= gnext w -> hi <= 2 ^ 31 -> decodes_args (mem w) hi ts vs a ->
  (exists xs w', returns (decode_args ep ts) [a] w (rev xs) w' /\ held (mem w') ts vs xs (between (gnext w) (gnext w')) /\
     wok w' /\ maxpages w' = maxpages w /\ gnext w' = gnext w + need_args ts vs /\ host w' = host w /\ (forall x, 0 <= x < gnext w -> rd (mem w') x = rd (mem w) x)) \/
  (traps (decode_args ep ts) [a] w /\ (oom w (need_args ts vs) \/ existsb has_string ts = true /\ crosses w (need_args ts vs))).
Proof. exact decode_args_spec. Qed.
Print Assumptions C62_decoding_partial.

(** A message denotes at most one list of values, and an encoding denotes the encoded values. *)
Theorem C62_message_unambiguous : forall ts m hi vs vs' a, fold_right and True (map wf_aty ts) ->
  decodes_args m hi ts vs a -> decodes_args m hi ts vs' a -> vs = vs'.
Proof. exact decodes_args_unique. Qed.
Print Assumptions C62_message_unambiguous.

Theorem C62_encodings_denote : forall ts vs m a hi, fold_right and True (map wf_aty ts) -> all_fields (map has_aty ts) vs -> 0 <= a ->
  bytes_at m a (enc_args ts vs) -> a + lenz (enc_args ts vs) <= hi -> hi < 2 ^ 256 -> decodes_args m hi ts vs a.
Proof. exact enc_args_decodes. Qed.
Print Assumptions C62_encodings_denote.

(** C62, C63 together: what was encoded decodes to the same values, for all types. *)
Theorem C63_round_trip_partial : forall ep ts vs xs w p n w1, running ep w -> fold_right and True (map wf_aty ts) -> represents w ts vs xs ->
  gnext w + lenz (enc_args ts vs) <= 2 ^ 31 -> returns (encode_args ep ts) xs w [n; p] w1 ->
  (exists xs' w2, returns (decode_args ep ts) [p] w1 (rev xs') w2 /\ held (mem w2) ts vs xs' (between (gnext w1) (gnext w2))) \/
  (traps (decode_args ep ts) [p] w1 /\ (oom w1 (need_args ts vs) \/ existsb has_string ts = true /\ crosses w1 (need_args ts vs))).
Proof. exact roundtrip. Qed.
Print Assumptions C63_round_trip_partial.

(** C56.  A vector decoded from a well-formed message lies in memory allocated for it.  Missing: messages
    that are no encodings. *)
Theorem C56_partial : forall ep t vs w a hi xs w', running ep w -> wf_aty t ->
  0 <= a -> hi <= gnext w -> hi <= 2 ^ 31 -> decodes_args (mem w) hi [AVec t] [VVec vs] a ->
  returns (decode_args ep [AVec t]) [a] w xs w' ->
  exists x, xs = [x] /\ gnext w <= x /\ load 4 (mem w') x = Z.of_nat (List.length vs) /\
    x + 8 + Z.of_nat (esize (mty t)) * Z.of_nat (List.length vs) <= gnext w'.
Proof. exact vector_inside. Qed.
Print Assumptions C56_partial.

(** The hypotheses are met: a message for (u64, string, vector<vector<u16>>, struct {bool, string}, enum)
    decodes, the values found are those encoded, and encoding them again gives the message. *)
Example abi_example :
  let ts := [AInt TU64; AString; AVec (AVec (AInt TU16)); AStruct [AInt TBool; AString]; AEnum 3] in
  let str bs := VStruct 0 [VVec (map VInt bs)] in
  let vs := [VInt 70000; str [104; 105]; VVec [VVec [VInt 1; VInt 65535]; VVec []]; VStruct 0 [VInt 1; str []]; VEnum 2 []] in
  let msg := enc_args ts vs in
  let w := wm (put 500 msg zmem) (500 + lenz msg) in
  running ep0 w /\ fold_right and True (map wf_aty ts) /\ all_fields (map has_aty ts) vs /\
  decodes_args (mem w) (gnext w) ts vs 500 /\ ~ oom w 100000 /\ ~ crosses w (need_args ts vs) /\
  exists xs w', returns (decode_args ep0 ts) [500] w (rev xs) w' /\ running ep0 w' /\ represents w' ts vs xs /\
  exists w'', returns (encode_args ep0 ts) xs w' [lenz msg; gnext w'] w'' /\ bytes_at (mem w'') (gnext w') msg.
Proof. exact abi_example_holds. Qed.
