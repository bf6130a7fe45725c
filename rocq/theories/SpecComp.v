(** * Vocabulary for the compile-time properties (C42, C53, C57, C58). *)

From Verif Require Import Tac RtErr Comp.

(** Conventional snake_case names: lower case letters, digits and underscores, where an underscore that is
    neither the first nor the last character is followed by a letter. *)
Definition lower_letter (c : Z) : Prop := 97 <= c <= 122.
Definition snake_char (c : Z) : Prop := lower_letter c \/ 48 <= c <= 57 \/ c = underscore.
Definition snake_case (s : list Z) : Prop :=
  Forall snake_char s /\
  forall i c, (0 < i)%nat -> nth_error s i = Some underscore -> nth_error s (S i) = Some c -> lower_letter c.

(** Names of Solidity types: alphanumeric words, arrays [T[]] and tuples [(T,..,T)]. *)
Definition alphanumeric (c : Z) : Prop := lower_letter c \/ 65 <= c <= 90 \/ 48 <= c <= 57.
Inductive sol_type : list Z -> Prop :=
| sol_word : forall s, s <> [] -> Forall alphanumeric s -> sol_type s
| sol_array : forall s, sol_type s -> sol_type (s ++ [91; 93])
| sol_tuple : forall ts, Forall sol_type ts -> sol_type ([40] ++ join ts ++ [41]).

(** The standard ULEB128 encoding of a number. *)
Inductive uleb128 : Z -> list Z -> Prop :=
| uleb_last : forall n, 0 <= n < 128 -> uleb128 n [n]
| uleb_more : forall n bs, 128 <= n -> uleb128 (n / 128) bs -> uleb128 n ((128 + n mod 128) :: bs).

(** Type parameter [i] occurs in a type. *)
Inductive occurs (i : nat) : ity -> Prop :=
| occ_param : occurs i (ITypeParameter i)
| occ_ref : forall t, occurs i t -> occurs i (IRef t)
| occ_mut : forall t, occurs i t -> occurs i (IMutRef t)
| occ_vec : forall t, occurs i t -> occurs i (IVector t)
| occ_struct : forall m k ts vm t, In t ts -> occurs i t -> occurs i (IGenericStructInstance m k ts vm)
| occ_enum : forall m k ts t, In t ts -> occurs i t -> occurs i (IGenericEnumInstance m k ts).

(** The error has been assigned the address [o]. *)
Definition assigned (d : error_data) (e : rt_error) (o : Z) : Prop := find_error e (errors d) = Some o.
