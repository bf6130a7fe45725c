(** * Vocabulary of the string properties. *)

From Verif Require Import Tac.

(** The bytes [s] are the content of the [vector<u8>] at [v]. *)
Definition byte_vec (w : world) (v : Z) (s : list Z) : Prop :=
  live w v (8 + Z.of_nat (List.length s)) /\ load 4 (mem w) v = Z.of_nat (List.length s) /\
  bytes (List.length s) (mem w) (v + 8) = s.

(** Unicode scalar values and their UTF-8 encoding (RFC 3629). *)
Definition scalar (c : Z) : Prop := 0 <= c < 0xD800 \/ 0xE000 <= c < 0x110000.
Definition utf8_char (c : Z) : list Z :=
  if c <? 0x80 then [ c ]
  else if c <? 0x800 then [ 0xC0 + c / 64; 0x80 + c mod 64 ]
  else if c <? 0x10000 then [ 0xE0 + c / 4096; 0x80 + c / 64 mod 64; 0x80 + c mod 64 ]
  else [ 0xF0 + c / 262144; 0x80 + c / 4096 mod 64; 0x80 + c / 64 mod 64; 0x80 + c mod 64 ].
Definition utf8 (s : list Z) : Prop := exists cs, Forall scalar cs /\ s = List.concat (map utf8_char cs).

(** The same with the overlong form [C0 80] of character 0 allowed as well ("modified UTF-8"). *)
Definition modified_char (x : list Z) : Prop := x = [0xC0; 0x80] \/ exists c, scalar c /\ x = utf8_char c.
Definition modified_utf8 (s : list Z) : Prop := exists xs, Forall modified_char xs /\ s = List.concat xs.

(** Position [i] of the byte string [s] is a character boundary: 0, the end, or the index of a byte
    that is not a continuation byte (80..BF). *)
Definition boundary (s : list Z) (i : Z) : Prop :=
  i = 0 \/ i = Z.of_nat (List.length s) \/
  (0 <= i < Z.of_nat (List.length s) /\ ~ 0x80 <= nth (Z.to_nat i) s 0 <= 0xBF).

(** [r] occurs in [s] at position [i]. *)
Definition occurs (r s : list Z) (i : nat) : Prop :=
  (i + List.length r <= List.length s)%nat /\ firstn (List.length r) (skipn i s) = r.

(** Bytes [i] up to [j] of [s]. *)
Definition slice (s : list Z) (i j : Z) : list Z := firstn (Z.to_nat (j - i)) (skipn (Z.to_nat i) s).
