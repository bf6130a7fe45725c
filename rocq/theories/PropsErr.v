(** * Properties of byte swapping and abort payloads: C18-C20. *)

From Verif Require Import SpecInt SpecAbi Spec Tac RtAlloc RtErr RtSwap RtAscii RtAbort LemErr.

(** C18.  The 32 and 64 bit conversions reverse the bytes of a value and undo themselves. *)
Theorem C18_swap_values : forall f n, (f, n) = (swap_i32_bytes, 4%nat) \/ (f, n) = (swap_i64_bytes, 8%nat) ->
  forall w v, 0 <= v < 256 ^ Z.of_nat n ->
  exists r, returns f [v] w [r] w /\ be_bytes n r = rev (be_bytes n v) /\ 0 <= r < 256 ^ Z.of_nat n /\
    returns f [r] w [v] w.
Proof. exact swap_value. Qed.
Print Assumptions C18_swap_values.

(** C18.  The 128 and 256 bit conversions write the reversed bytes of the source to the destination,
    which may overlap it, and touch nothing else: little-endian becomes big-endian and back. *)
Theorem C18_swap_memory : forall f n, (f, n) = (swap_i128_bytes, 16%nat) \/ (f, n) = (swap_i256_bytes, 32%nat) ->
  forall w src dst, wok w -> live w src (Z.of_nat n) -> live w dst (Z.of_nat n) ->
  exists m', returns f [src; dst] w [] (set_mem w m') /\
    bytes n m' dst = rev (bytes n (mem w) src) /\
    (forall x, ~ within dst (Z.of_nat n) x -> rd m' x = rd (mem w) x) /\
    load_be n m' dst = load n (mem w) src /\ load n m' dst = load_be n (mem w) src.
Proof. exact swap_mem. Qed.
Print Assumptions C18_swap_memory.

Example C18_example :
  (exists w', returns swap_i32_bytes [305419896] w0 [2018915346] w') /\
  (exists w', returns swap_i64_bytes [1] w0 [2 ^ 56] w') /\
  wok (wm (store 16 zmem 480 (2 ^ 100 + 5)) 600) /\ live (wm (store 16 zmem 480 (2 ^ 100 + 5)) 600) 480 16 /\
  live (wm (store 16 zmem 480 (2 ^ 100 + 5)) 600) 484 16.
Proof.
  split; [runs 100%nat|]. split; [runs 100%nat|].
  split; [apply wm_store_ok; [apply wm_ok; lia|lia]|]. unfold live, wm; cbn; lia.
Qed.

(** C19.  The rendering of a code is its decimal representation without leading zeros. *)
Theorem C19_decimal : forall w n, wok w -> 0 <= n < 2 ^ 64 ->
  (exists w' p bs, returns u64_to_ascii_base_10 [n] w [p] w' /\ extends w w' /\ gnext w <= p /\
     is_decimal n bs /\ rd (mem w') p = Z.of_nat (List.length bs) /\ bytes (List.length bs) (mem w') (p + 1) = bs)
  \/ out_of_memory u64_to_ascii_base_10 [n] w 21.
Proof. exact ascii_decimal. Qed.
Print Assumptions C19_decimal.

Example C19_example : wok w0 /\ is_decimal 1203 [49; 50; 48; 51] /\
  exists w', returns u64_to_ascii_base_10 [1203] w0 [600] w' /\ bytes 5 (mem w') 600 = [4; 49; 50; 48; 51].
Proof.
  split; [exact w0_ok|]. split.
  { repeat split; try discriminate. repeat constructor; lia. }
  destruct (runs_to_vals 1000 u64_to_ascii_base_10 [1203] w0 [600] (fun w' => zs_eqb (bytes 5 (mem w') 600) [4; 49; 50; 48; 51]))
    as (w'&R&H); [vm_compute; reflexivity|]. exists w'. split; [exact R|apply zs_eqb_eq; exact H].
Qed.

(** C20.  [abort code] reverts with Error(decimal rendering of the code). *)
Theorem C20_abort_payload : forall w code, wok w -> 0 <= code < 2 ^ 64 ->
  (exists msg, is_decimal code msg /\ reverts_with abort_fn [code] w msg) \/ out_of_memory abort_fn [code] w 125.
Proof. exact abort_payload. Qed.
Print Assumptions C20_abort_payload.

(** C20.  Aborting with a named error constant reverts with Error(text of the constant). *)
Theorem C20_named_error_payload : forall w c msg, wok w -> Forall (fun b => 0 <= b < 256) msg -> (List.length msg < 256)%nat ->
  reverts_with (abort_const_fn c msg) [c] w msg
  \/ out_of_memory (abort_const_fn c msg) [c] w (104 + Z.of_nat (List.length msg)).
Proof. exact abort_const_payload. Qed.
Print Assumptions C20_named_error_payload.

Example C20_example :
  (exists w', returns abort_fn [42] w0 [1] w') /\
  (exists w', returns (abort_const_fn 9 [72; 101; 108; 108; 111; 32; 119; 111; 114; 108; 100]) [9] w0 [1] w').
Proof. split; runs 2000%nat. Qed.
