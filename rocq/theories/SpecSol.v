(** * The Solidity contract ABI, as far as move-stylus uses it.

    Types: booleans, unsigned integers, addresses, enumerations (encoded as uint8), strings, dynamic arrays
    and structs (tuples).  Values are those of SpecVal.v. *)

From Verif Require Import Tac SpecVal SpecAbi.

Inductive aty :=
| AInt (t : ty)               (* bool, u8 .. u256, address *)
| AEnum (n : nat)             (* an enum of [n] variants without fields *)
| AString                     (* std::string::String / std::ascii::String *)
| AVec (t : aty)
| AStruct (fs : list aty).    (* a struct without [key] *)

Definition scalar (t : ty) : Prop :=
  match t with TVec _ | TStruct _ _ | TEnum _ => False | _ => True end.

Fixpoint wf_aty (t : aty) : Prop :=
  match t with
  | AInt t => scalar t
  | AEnum n => 0 < Z.of_nat n <= 256
  | AString => True
  | AVec t => wf_aty t
  | AStruct fs => 0 < Z.of_nat (List.length fs) < 65536 /\ fold_right and True (map wf_aty fs)
  end.

(** The Move type. *)
Fixpoint mty (t : aty) : ty :=
  match t with
  | AInt t => t
  | AEnum n => TEnum (repeat [] n)
  | AString => TStruct false [TVec TU8]
  | AVec t => TVec (mty t)
  | AStruct fs => TStruct false (map mty fs)
  end.

(** Dynamic types are encoded through an offset. *)
Fixpoint dynamic (t : aty) : bool :=
  match t with
  | AInt _ | AEnum _ => false
  | AString | AVec _ => true
  | AStruct fs => existsb dynamic fs
  end.

(** A tuple of already encoded parts, each with its dynamic flag.  The head of a static part is its
    encoding, that of a dynamic one the offset of its encoding in the tuple; the tails follow the heads. *)
Definition part := (bool * list Z)%type.
Definition head_len (p : part) : Z := if fst p then 32 else Z.of_nat (List.length (snd p)).
Definition head_lens (ps : list part) : Z := fold_right Z.add 0 (map head_len ps).
Fixpoint heads (off : Z) (ps : list part) : list Z :=
  match ps with
  | [] => []
  | (true, e) :: ps => word off ++ heads (off + Z.of_nat (List.length e)) ps
  | (false, e) :: ps => e ++ heads off ps
  end.
Definition tails (ps : list part) : list Z := List.concat (map (fun p : part => if fst p then snd p else []) ps).
Definition tuple (ps : list part) : list Z := heads (head_lens ps) ps ++ tails ps.

Definition int_of (v : val) : Z := match v with VInt n => n | _ => 0 end.

Fixpoint zip_with {A B C : Type} (f : A -> B -> C) (l : list A) (k : list B) : list C :=
  match l, k with a :: l, b :: k => f a b :: zip_with f l k | _, _ => [] end.

(** The values of a type. *)
Fixpoint all_fields (Ps : list (val -> Prop)) (vs : list val) : Prop :=
  match Ps, vs with
  | [], [] => True
  | P :: Ps, v :: vs => P v /\ all_fields Ps vs
  | _, _ => False
  end.
Fixpoint has_aty (t : aty) (v : val) : Prop :=
  match t with
  | AInt t => exists n, int_val t v n
  | AEnum n => exists tag, v = VEnum tag [] /\ (tag < n)%nat
  | AString => exists bs, v = VStruct 0 [VVec (map VInt bs)] /\ Forall (fun b => 0 <= b < 256) bs
  | AVec t => exists vs, v = VVec vs /\ Forall (has_aty t) vs
  | AStruct fs => exists vs, v = VStruct 0 vs /\ all_fields (map has_aty fs) vs
  end.

(** The encoding of a value. *)
Fixpoint enc (t : aty) (v : val) : list Z :=
  match t, v with
  | AInt _, VInt n => word n
  | AEnum _, VEnum tag _ => word (Z.of_nat tag)
  | AString, VStruct _ [VVec bs] => enc_bytes (map int_of bs)
  | AVec t, VVec vs => word (Z.of_nat (List.length vs)) ++ tuple (map (fun v => (dynamic t, enc t v)) vs)
  | AStruct fs, VStruct _ vs => tuple (zip_with (fun f v => f v) (map (fun t v => (dynamic t, enc t v)) fs) vs)
  | _, _ => []
  end.

(** What a part of a message denotes: [decodes m t v r b] says that in memory [m], the head at address
    [r] of a tuple starting at [b], together with what it points to, is an encoding of [v].  Any offsets
    and any overlap are allowed; a word outside the range of its type encodes nothing.  [hi] bounds
    the addresses of the message. *)
Fixpoint head_size (t : aty) : Z :=
  match t with
  | AInt _ | AEnum _ => 32
  | AString | AVec _ => 32
  | AStruct fs => if existsb dynamic fs then 32 else fold_right Z.add 0 (map head_size fs)
  end.

Fixpoint dec_elems (D : val -> Z -> Prop) (sz : Z) (vs : list val) (r : Z) : Prop :=
  match vs with [] => True | v :: vs => D v r /\ dec_elems D sz vs (r + sz) end.
Fixpoint dec_fields (Ds : list ((val -> Z -> Prop) * Z)) (vs : list val) (r : Z) : Prop :=
  match Ds, vs with
  | [], [] => True
  | (D, sz) :: Ds, v :: vs => D v r /\ dec_fields Ds vs (r + sz)
  | _, _ => False
  end.

Fixpoint decodes (m : memory) (hi : Z) (t : aty) (v : val) (r b : Z) : Prop :=
  let d := b + load_be 32 m r in
  match t with
  | AInt t => r + 32 <= hi /\ int_val t v (load_be 32 m r)
  | AEnum n => r + 32 <= hi /\ exists tag, v = VEnum tag [] /\ (tag < n)%nat /\ load_be 32 m r = Z.of_nat tag
  | AString => r + 32 <= hi /\ exists bs, v = VStruct 0 [VVec (map VInt bs)] /\
      load_be 32 m d = Z.of_nat (List.length bs) /\ d + 32 + Z.of_nat (List.length bs) <= hi /\
      bytes (List.length bs) m (d + 32) = bs
  | AVec t => r + 32 <= hi /\ exists vs, v = VVec vs /\
      load_be 32 m d = Z.of_nat (List.length vs) /\ d + 32 <= hi /\
      dec_elems (fun v r => decodes m hi t v r (d + 32)) (head_size t) vs (d + 32)
  | AStruct fs => exists vs, v = VStruct 0 vs /\
      if existsb dynamic fs
      then r + 32 <= hi /\ dec_fields (map (fun t => (fun v r => decodes m hi t v r d, head_size t)) fs) vs d
      else dec_fields (map (fun t => (fun v r => decodes m hi t v r b, head_size t)) fs) vs r
  end.

(** The length of a list as an integer; bytes in memory. *)
Definition lenz {A} (l : list A) : Z := Z.of_nat (List.length l).
Definition bytes_at (m : memory) (a : Z) (l : list Z) : Prop := bytes (List.length l) m a = l.

(** The parts of the tuple of the values [vs] of the types [fs], and its encoding: the arguments or the
    results of a function. *)
Definition field_parts (fs : list aty) (vs : list val) : list part :=
  zip_with (fun f v => f v) (map (fun t v => (dynamic t, enc t v)) fs) vs.
Definition enc_args (ts : list aty) (vs : list val) : list Z := tuple (field_parts ts vs).

(** The values of an encoded tuple at address [a]. *)
Definition decodes_args (m : memory) (hi : Z) (ts : list aty) (vs : list val) (a : Z) : Prop :=
  dec_fields (map (fun t => (fun v r => decodes m hi t v r a, head_size t)) ts) vs a.

(** The words [xs] represent the values [vs] of the types [ts] in the heap. *)
Fixpoint represents (w : world) (ts : list aty) (vs : list val) (xs : list Z) : Prop :=
  match ts, vs, xs with
  | [], [], [] => True
  | t :: ts, v :: vs, x :: xs => vrep (mem w) (mty t) v x (heap w) /\ represents w ts vs xs
  | _, _, _ => False
  end.

(** The same with the values in disjoint parts of [F]. *)
Fixpoint held (m : memory) (ts : list aty) (vs : list val) (xs : list Z) (F : mset) : Prop :=
  match ts, vs, xs with
  | [], [], [] => True
  | t :: ts, v :: vs, x :: xs => exists F1 F2, vrep m (mty t) v x F1 /\ held m ts vs xs F2 /\
      disj F1 F2 /\ sub F1 F /\ sub F2 F
  | _, _, _ => False
  end.
