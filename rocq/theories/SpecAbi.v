(** * Vocabulary for ABI encodings: byte strings the Solidity ABI prescribes. *)

From Verif Require Import Tac.

(** The [n]-byte big-endian representation of [v]. *)
Fixpoint be_bytes (n : nat) (v : Z) : list Z :=
  match n with
  | O => []
  | S n' => (v / 256 ^ Z.of_nat n') mod 256 :: be_bytes n' v
  end.

(** A 32-byte ABI word. *)
Definition word (v : Z) : list Z := be_bytes 32 v.

(** Padding to a multiple of 32 bytes. *)
Definition pad32 (n : nat) : nat := (32 * ((n + 31) / 32) - n)%nat.
Definition padded (bs : list Z) : list Z := bs ++ repeat 0 (pad32 (List.length bs)).

(** A dynamic byte string: length word, data, padding. *)
Definition enc_bytes (bs : list Z) : list Z := word (Z.of_nat (List.length bs)) ++ padded bs.

(** The ABI encoding of the built-in [Error(string)]: selector 0x08c379a0, then the argument
    tuple of one dynamic value: offset word, encoding of the string. *)
Definition error_string (msg : list Z) : list Z := [8; 195; 121; 160] ++ word 32 ++ enc_bytes msg.

(** The number denoted by ASCII decimal digits. *)
Definition decimal (bs : list Z) : Z := fold_left (fun a b => 10 * a + (b - 48)) bs 0.
Definition is_decimal (n : Z) (bs : list Z) : Prop :=
  Forall (fun b => 48 <= b <= 57) bs /\ decimal bs = n /\ bs <> [] /\ (hd 0 bs = 48 -> bs = [48]).

(** The call returns status 1 and the revert data it points to (the word at address 256 is a
    pointer to: length, data) is [Error(msg)], in memory the caller did not own before. *)
Definition reverts_with (f : func) (args : list Z) (w : world) (msg : list Z) : Prop :=
  exists w', returns f args w [1] w' /\ wok w' /\ host w' = host w /\
    live w' (abort_flag w') (4 + Z.of_nat (List.length (error_string msg))) /\ gnext w <= abort_flag w' /\
    (forall a, 0 <= a < gnext w -> ~ within 256 4 a -> rd (mem w') a = rd (mem w) a) /\
    load 4 (mem w') (abort_flag w') = Z.of_nat (List.length (error_string msg)) /\
    bytes (List.length (error_string msg)) (mem w') (abort_flag w' + 4) = error_string msg.
