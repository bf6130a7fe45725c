(** * How values are laid out in storage slots (specification).

    Solidity's rules: fields are packed in declaration order, the first one in the lowest bytes of the
    slot; a field that does not fit into the rest of a slot starts the next one; a struct
    contributes its fields one after the other; a vector takes a slot of its own for its length, and
    its elements follow the same rules from slot keccak256(slot of the length) on.  Solidity has no
    enums with fields: here such a value is a byte with the number of the variant and then the
    variant's fields, in the room that the longest variant would take from there on. *)

From Coq Require Import ZArith List Bool.
From Verif Require Import Wasm SpecAbi SpecVal.
Import ListNotations.
Open Scope Z_scope.

(** Bytes a scalar takes in a slot. *)
Definition width (t : ty) : Z :=
  match t with
  | TBool | TU8 => 1 | TU16 => 2 | TU32 => 4 | TU64 => 8 | TU128 => 16 | TU256 => 32 | TAddress => 20
  | _ => 0
  end.

(** Scalars and structs of scalars (without [key], with at least one field), to any depth. *)
Fixpoint flat (t : ty) : bool :=
  match t with
  | TVec _ | TEnum _ | TStruct true _ => false
  | TStruct false fs => negb (Nat.eqb (List.length fs) 0) && forallb flat fs
  | _ => true
  end.

(** Scalars, and vectors and structs (without [key], with at least one field) of such, to any depth. *)
Fixpoint plain (t : ty) : bool :=
  match t with
  | TVec t' => plain t'
  | TStruct false fs => negb (Nat.eqb (List.length fs) 0) && forallb plain fs
  | TStruct true _ | TEnum _ => false
  | _ => true
  end.

(** Values of the type contain 1- or 2-byte scalars. *)
Fixpoint narrow (t : ty) : bool :=
  match t with
  | TBool | TU8 | TU16 => true
  | TVec t' => narrow t'
  | TStruct _ fs => existsb narrow fs
  | TEnum vts => existsb (existsb narrow) vts
  | _ => false
  end.

(** The memory that reading a value from storage takes. *)
Fixpoint memory_for (t : ty) (v : val) {struct t} : Z :=
  match t, v with
  | TVec t', VVec vs => 40 + Z.of_nat (esize t') * Z.of_nat (List.length vs) + fold_right (fun v' n => memory_for t' v' + n) 0 vs
  | TStruct _ fs, VStruct _ vs => 4 * Z.of_nat (List.length fs) +
      (fix go fs vs := match fs, vs with t' :: fs', v' :: vs' => memory_for t' v' + go fs' vs' | _, _ => 0 end) fs vs
  | TEnum vts, VEnum tag vs => 68 + enum_size vts +
      match nth_error (map (fun fs =>
        (fix go fs vs := match fs, vs with t' :: fs', v' :: vs' => memory_for t' v' + go fs' vs' | _, _ => 0 end) fs) vts) tag with
      | Some f => f vs
      | None => 0
      end
  | TU128, _ => 16
  | TU256, _ | TAddress, _ => 32
  | _, _ => Z.of_nat (esize t)
  end.
Fixpoint memory_fors (fs : list ty) (vs : list val) : Z :=
  match fs, vs with t :: fs', v :: vs' => memory_for t v + memory_fors fs' vs' | _, _ => 0 end.

(** [v] is a value of type [t]. *)
Fixpoint typed (t : ty) (v : val) : Prop :=
  match t with
  | TVec t' => exists vs, v = VVec vs /\ Z.of_nat (List.length vs) < 2 ^ 32 /\ Forall (typed t') vs
  | TStruct key fs => exists o vs, v = VStruct o vs /\ (key = false -> o = 0) /\
      (fix go fs vs := match fs, vs with
       | [], [] => True
       | t' :: fs', v' :: vs' => typed t' v' /\ go fs' vs'
       | _, _ => False
       end) fs vs
  | TEnum vts => exists tag vs, v = VEnum tag vs /\
      match nth_error (map (fun fs =>
        (fix go fs vs := match fs, vs with
         | [], [] => True
         | t' :: fs', v' :: vs' => typed t' v' /\ go fs' vs'
         | _, _ => False
         end) fs) vts) tag with
      | Some P => P vs
      | None => False
      end
  | _ => exists n, v = VInt n /\ 0 <= n < 2 ^ vbits t
  end.

(** A position: a slot and the number of its bytes, from the least significant one, already taken.
    [room p s]: the position after [s] more bytes. *)
Definition position : Set := (Z * Z)%type.
Definition room (p : position) (s : Z) : position :=
  let (k, o) := p in if o + s <=? 32 then (k, o + s) else (k + 1, s).

(** Bytes counted from the start of slot 0. *)
Definition lin (p : position) : Z := 32 * fst p + snd p.
Definition at_byte (n : Z) : position := (n / 32, n mod 32).

(** The position after a value. *)
Fixpoint after (t : ty) (p : position) : position :=
  match t with
  | TStruct _ fs => fold_left (fun p t' => after t' p) fs p
  | TVec _ => room p 32
  | TEnum vts => at_byte (fold_left (fun n fs => Z.max n (lin (fold_left (fun p t' => after t' p) fs (room p 1)))) vts (lin (room p 1)))
  | _ => room p (width t)
  end.
Definition afters (fs : list ty) (p : position) : position := fold_left (fun p t => after t p) fs p.

(** Types that storage can hold: [plain] types and enums of such, to any depth; an enum has at most
    256 variants and takes less than 2 GiB. *)
Fixpoint storable (t : ty) : bool :=
  match t with
  | TVec t' => storable t'
  | TStruct false fs => negb (Nat.eqb (List.length fs) 0) && forallb storable fs
  | TStruct true _ => false
  | TEnum vts => (List.length vts <=? 256)%nat && forallb (forallb storable) vts &&
      forallb (fun o => lin (after t (0, Z.of_nat o)) <? 2 ^ 31) (seq 0 32)
  | _ => true
  end.

(** Types without vectors. *)
Fixpoint vecless (t : ty) : bool :=
  match t with
  | TVec _ => false
  | TStruct _ fs => forallb vecless fs
  | TEnum vts => forallb (forallb vecless) vts
  | _ => true
  end.

(** [plain] types, enums without vectors, and vectors of such. *)
Fixpoint erasable (t : ty) : bool :=
  match t with
  | TVec t' => erasable t'
  | TEnum _ => storable t && vecless t
  | _ => plain t
  end.

(** The [size] bytes of a slot from byte [start] on. *)
Definition part (word start size : Z) : Z := (word / 256 ^ start) mod 256 ^ size.

(** The first slot of the elements of the vector whose length is in slot [k]. *)
Definition data_slot (H : list Z -> Z) (k : Z) : Z := H (word k) mod 2 ^ 256.

(** Storage [st] holds the value [v] of type [t] from position [p] on. *)
Fixpoint held (H : list Z -> Z) (st : Z -> Z) (t : ty) (v : val) (p : position) {struct t} : Prop :=
  match t with
  | TVec t' => let k := fst (room p 32) in exists vs, v = VVec vs /\ st k mod 2 ^ 256 = Z.of_nat (List.length vs) /\
      (fix go vs p := match vs with
       | [] => True
       | v' :: vs' => held H st t' v' p /\ go vs' (after t' p)
       end) vs (data_slot H k, 0)
  | TStruct _ fs => exists vs, v = VStruct 0 vs /\
      (fix go fs vs p := match fs, vs with
       | [], [] => True
       | t' :: fs', v' :: vs' => held H st t' v' p /\ go fs' vs' (after t' p)
       | _, _ => False
       end) fs vs p
  | TEnum vts => let (k, o) := room p 1 in exists tag vs, v = VEnum tag vs /\ part (st k) (o - 1) 1 = Z.of_nat tag /\
      match nth_error (map (fun fs =>
        (fix go fs vs p := match fs, vs with
         | [], [] => True
         | t' :: fs', v' :: vs' => held H st t' v' p /\ go fs' vs' (after t' p)
         | _, _ => False
         end) fs) vts) tag with
      | Some P => P vs (k, o)
      | None => False
      end
  | _ => let (k, o) := room p (width t) in exists n, v = VInt n /\ 0 <= n < 2 ^ vbits t /\ part (st k) (o - width t) (width t) = n
  end.
Fixpoint helds (H : list Z -> Z) (st : Z -> Z) (fs : list ty) (vs : list val) (p : position) : Prop :=
  match fs, vs with
  | [], [] => True
  | t :: fs', v :: vs' => held H st t v p /\ helds H st fs' vs' (after t p)
  | _, _ => False
  end.

(** The runs of slots (first and last) that hold the elements of the vectors inside a value. *)
Fixpoint areas (H : list Z -> Z) (t : ty) (v : val) (p : position) {struct t} : list (Z * Z) :=
  match t, v with
  | TVec t', VVec vs => let d := data_slot H (fst (room p 32)) in
      match vs with [] => [] | _ => [(d, fst (afters (map (fun _ => t') vs) (d, 0)))] end ++
      (fix go vs p := match vs with
       | [] => []
       | v' :: vs' => areas H t' v' p ++ go vs' (after t' p)
       end) vs (d, 0)
  | TStruct _ fs, VStruct _ vs =>
      (fix go fs vs p := match fs, vs with
       | t' :: fs', v' :: vs' => areas H t' v' p ++ go fs' vs' (after t' p)
       | _, _ => []
       end) fs vs p
  | TEnum vts, VEnum tag vs =>
      match nth_error (map (fun fs =>
        (fix go fs vs p := match fs, vs with
         | t' :: fs', v' :: vs' => areas H t' v' p ++ go fs' vs' (after t' p)
         | _, _ => []
         end) fs) vts) tag with
      | Some f => f vs (room p 1)
      | None => []
      end
  | _, _ => []
  end.
Fixpoint areas_of (H : list Z -> Z) (fs : list ty) (vs : list val) (p : position) : list (Z * Z) :=
  match fs, vs with
  | t :: fs', v :: vs' => areas H t v p ++ areas_of H fs' vs' (after t p)
  | _, _ => []
  end.

(** The runs of slots that belong to the room of an enum inside a value but that its variant leaves out. *)
Fixpoint unused (H : list Z -> Z) (t : ty) (v : val) (p : position) {struct t} : list (Z * Z) :=
  match t, v with
  | TVec t', VVec vs =>
      (fix go vs p := match vs with
       | [] => []
       | v' :: vs' => unused H t' v' p ++ go vs' (after t' p)
       end) vs (data_slot H (fst (room p 32)), 0)
  | TStruct _ fs, VStruct _ vs =>
      (fix go fs vs p := match fs, vs with
       | t' :: fs', v' :: vs' => unused H t' v' p ++ go fs' vs' (after t' p)
       | _, _ => []
       end) fs vs p
  | TEnum vts, VEnum tag vs =>
      match nth_error vts tag with
      | Some fs => [(fst (afters fs (room p 1)) + 1, fst (after t p) - 1)]
      | None => []
      end ++
      match nth_error (map (fun fs =>
        (fix go fs vs p := match fs, vs with
         | t' :: fs', v' :: vs' => unused H t' v' p ++ go fs' vs' (after t' p)
         | _, _ => []
         end) fs) vts) tag with
      | Some f => f vs (room p 1)
      | None => []
      end
  | _, _ => []
  end.
Fixpoint unused_of (H : list Z -> Z) (fs : list ty) (vs : list val) (p : position) : list (Z * Z) :=
  match fs, vs with
  | t :: fs', v :: vs' => unused H t v p ++ unused_of H fs' vs' (after t p)
  | _, _ => []
  end.

(** All runs of slots that hold the fields [fs] from position [p] on. *)
Definition slots (H : list Z -> Z) (fs : list ty) (vs : list val) (p : position) : list (Z * Z) :=
  (fst p, fst (afters fs p)) :: areas_of H fs vs p.
Definition covers (l : list (Z * Z)) (x : Z) : Prop := exists a, In a l /\ fst a <= x <= snd a.

(** No two runs have a slot in common (a hash collision would make them), and all are slot numbers. *)
Definition apart (a b : Z * Z) : Prop := snd a < fst b \/ snd b < fst a.
Definition separate (l : list (Z * Z)) : Prop := ForallOrdPairs apart l /\ Forall (fun a => 0 <= fst a /\ snd a < 2 ^ 256) l.

(** No vector inside the value is shorter than what the storage has in its place. *)
Fixpoint no_shrink (H : list Z -> Z) (st : Z -> Z) (t : ty) (v : val) (p : position) {struct t} : Prop :=
  match t, v with
  | TVec t', VVec vs => let k := fst (room p 32) in st k mod 2 ^ 32 <= Z.of_nat (List.length vs) /\
      (fix go vs p := match vs with
       | [] => True
       | v' :: vs' => no_shrink H st t' v' p /\ go vs' (after t' p)
       end) vs (data_slot H k, 0)
  | TStruct _ fs, VStruct _ vs =>
      (fix go fs vs p := match fs, vs with
       | t' :: fs', v' :: vs' => no_shrink H st t' v' p /\ go fs' vs' (after t' p)
       | _, _ => True
       end) fs vs p
  | TEnum vts, VEnum tag vs =>
      match nth_error (map (fun fs =>
        (fix go fs vs p := match fs, vs with
         | t' :: fs', v' :: vs' => no_shrink H st t' v' p /\ go fs' vs' (after t' p)
         | _, _ => True
         end) fs) vts) tag with
      | Some P => P vs (room p 1)
      | None => True
      end
  | _, _ => True
  end.
Fixpoint no_shrinks (H : list Z -> Z) (st : Z -> Z) (fs : list ty) (vs : list val) (p : position) : Prop :=
  match fs, vs with
  | t :: fs', v :: vs' => no_shrink H st t v p /\ no_shrinks H st fs' vs' (after t p)
  | _, _ => True
  end.

(** ** Flat data *)

(** The scalars of a flat type and of its values, in order. *)
Fixpoint leaves (t : ty) : list ty :=
  match t with TStruct _ fs => List.concat (map leaves fs) | _ => [t] end.
Fixpoint ints (v : val) : list Z :=
  match v with VInt n => [n] | VStruct _ vs => List.concat (map ints vs) | _ => [] end.

(** Where consecutive fields of the given sizes go: slot, first byte and size. *)
Fixpoint places (p : position) (sizes : list Z) : list (Z * Z * Z) :=
  match sizes with
  | [] => []
  | s :: r => (fst (room p s), snd (room p s) - s, s) :: places (room p s) r
  end.

(** The bytes of place [x] come before those of [y]. *)
Definition follows (x y : Z * Z * Z) : Prop :=
  fst (fst x) < fst (fst y) \/ fst (fst x) = fst (fst y) /\ snd (fst x) + snd x <= snd (fst y).

(** Storage has the integers [zs] in these places. *)
Definition placed (st : Z -> Z) (l : list (Z * Z * Z)) (zs : list Z) : Prop :=
  Forall2 (fun x z => part (st (fst (fst x))) (snd (fst x)) (snd x) = z) l zs.

(** The places of the scalars of the fields [fs] of an object in slot [k]; its first 8 bytes are taken
    by the hash of the type. *)
Definition object_places (k : Z) (fs : list ty) : list (Z * Z * Z) :=
  places (k, 8) (map width (List.concat (map leaves fs))).
Definition object_ints (vs : list val) : list Z := List.concat (map ints vs).

(** The last slot they need. *)
Definition last_slot (k : Z) (fs : list ty) : Z := fst (afters fs (k, 8)).

(** ** Objects *)

(** At [x] in memory is an object: its owner is in the 32 bytes before it, its first field leads, through
    two structs with one field each (UID and ID), to the 32 bytes of its id, the other fields are
    [vs] of types [fs]. *)
Definition object_at (m : memory) (fs : list ty) (owner id : Z) (vs : list val) (x : Z) (F : mset) : Prop :=
  exists a b c G, load 4 m x = a /\ load 4 m a = b /\ load 4 m b = c /\
    load_be 32 m c = id /\ load_be 32 m (x - 32) = owner /\
    sub (between (x - 32) (x + 4 + 4 * Z.of_nat (List.length fs))) F /\
    sub (between a (a + 4)) F /\ sub (between b (b + 4)) F /\ sub (between c (c + 32)) F /\ sub G F /\
    disj (between (x - 32) (x + 4 + 4 * Z.of_nat (List.length fs)))
      (union G (union (between a (a + 4)) (union (between b (b + 4)) (between c (c + 32))))) /\
    fields (map (fun t => field_of m t (vrep m t)) fs) m vs (x + 4) G.

(** The memory that reading an object takes. *)
Definition object_memory (fs : list ty) (vs : list val) : Z := 48 + 4 * Z.of_nat (List.length fs) + memory_fors fs vs.

(** What the first slot of an object says to a reader who expects [tag], the hash of the type, in its
    lowest 8 bytes. *)
Inductive verdict := Missing | Other_type | Present.
Definition inspect (tag word : Z) : verdict :=
  if word mod 2 ^ 256 =? 0 then Missing else if word mod 2 ^ 64 =? tag then Present else Other_type.

(** Reading keeps one slot in memory.  [fetched H t v p b] follows it through a value [v] at position [p]:
    [b] says whether the slot of [p] is in memory at first, the result says it for the position after
    [v]; it is [None] if a part of [v] is taken from memory while another slot is there.  After an enum the
    position moves to the end of its room, but no slot is loaded. *)
Fixpoint fetched (H : list Z -> Z) (t : ty) (v : val) (p : position) (b : bool) {struct t} : option bool :=
  match t, v with
  | TVec t', VVec vs =>
      match (fix go vs p b := match vs with
       | [] => Some b
       | v' :: vs' => match fetched H t' v' p b with Some b' => go vs' (after t' p) b' | None => None end
       end) vs (data_slot H (fst (room p 32)), 0) true with Some _ => Some true | None => None end
  | TStruct _ fs, VStruct _ vs =>
      (fix go fs vs p b := match fs, vs with
       | t' :: fs', v' :: vs' => match fetched H t' v' p b with Some b' => go fs' vs' (after t' p) b' | None => None end
       | _, _ => Some b
       end) fs vs p b
  | TEnum vts, VEnum tag vs =>
      if b || (32 <? snd p + 1) then
        match nth_error (map (fun fs =>
          match (fix go fs vs p b := match fs, vs with
           | t' :: fs', v' :: vs' => match fetched H t' v' p b with Some b' => go fs' vs' (after t' p) b' | None => None end
           | _, _ => Some b
           end) fs vs (room p 1) true with
          | Some b' => Some (b' && (fst (afters fs (room p 1)) =? fst (after t p)))
          | None => None
          end) vts) tag with
        | Some r => r
        | None => None
        end
      else None
  | _, _ => if b || (32 <? snd p + width t) then Some true else None
  end.
Fixpoint fetcheds (H : list Z -> Z) (fs : list ty) (vs : list val) (p : position) (b : bool) : option bool :=
  match fs, vs with
  | t :: fs', v :: vs' => match fetched H t v p b with Some b' => fetcheds H fs' vs' (after t p) b' | None => None end
  | _, _ => Some b
  end.

(** Fields [vs] that can be read back from slot [k] on: there are no enums, or none is in the way. *)
Definition legible (H : list Z -> Z) (fs : list ty) (vs : list val) (k : Z) : Prop :=
  forallb plain fs = true \/ forallb storable fs = true /\ fetcheds H fs vs (k, 8) true <> None.
