(** * Parts of values and references to them (specification). *)

From Verif Require Import Tac SpecVal RtVec.

(** Code that runs to its end, from the operand stack [s] and the locals [l] to [s'] and [l']; code that traps. *)
Definition runs (is : list instr) (s l : list Z) (w : world) (s' l' : list Z) (w' : world) : Prop :=
  exists n, exec n is s l w = ONormal s' l' w'.
Definition crashes (is : list instr) (s l : list Z) (w : world) : Prop := exists n, exec n is s l w = OTrap.

(** The locals differ at most in those of [ks]. *)
Definition same_locals (ks : list nat) (l l' : list Z) : Prop :=
  List.length l' = List.length l /\ forall k, ~ In k ks -> nth_error l' k = nth_error l k.

(** [part t v path t' v']: following [path] into the value [v] of type [t] (the number of a field of a struct or of an
    enum's variant, or of an element of a vector of heap values, at each step) leads to [v'] of type [t']. *)
Inductive part : ty -> val -> list nat -> ty -> val -> Prop :=
| part_here : forall t v, part t v [] t v
| part_field : forall k fs o vs i t v path t' v', nth_error fs i = Some t -> nth_error vs i = Some v -> part t v path t' v' ->
    part (TStruct k fs) (VStruct o vs) (i :: path) t' v'
| part_variant : forall vts g fs vs i t v path t' v', nth_error vts g = Some fs -> nth_error fs i = Some t -> nth_error vs i = Some v -> part t v path t' v' ->
    part (TEnum vts) (VEnum g vs) (i :: path) t' v'
| part_elem : forall t vs i v path t' v', is_stack t = false -> nth_error vs i = Some v -> part t v path t' v' ->
    part (TVec t) (VVec vs) (i :: path) t' v'.

(** [q] leads to something inside what [p] leads to. *)
Definition beyond (p q : list nat) : Prop := exists i p', q = p ++ i :: p'.

(** The list with its [i]-th member replaced. *)
Fixpoint update {A : Type} (l : list A) (i : nat) (x : A) : list A :=
  match l, i with
  | [], _ => []
  | _ :: l', O => x :: l'
  | y :: l', S i' => y :: update l' i' x
  end.

(** The value with the part at [path] replaced by [u]. *)
Fixpoint put (v : val) (path : list nat) (u : val) : val :=
  match path with
  | [] => u
  | i :: path' =>
      let sub vs := match nth_error vs i with Some v' => update vs i (put v' path' u) | None => vs end in
      match v with
      | VInt n => VInt n
      | VVec vs => VVec (sub vs)
      | VStruct o vs => VStruct o (sub vs)
      | VEnum g vs => VEnum g (sub vs)
      end
  end.

(** The reference to the part at [path] of the value that the reference [r] leads to: the address of the word with the
    pointer to that part. *)
Fixpoint cell_of (m : memory) (v : val) (path : list nat) (r : Z) : Z :=
  match path with
  | [] => r
  | i :: path' =>
      let next vs a := match nth_error vs i with Some v' => cell_of m v' path' (a + 4 * Z.of_nat i) | None => a end in
      match v with
      | VInt _ => r
      | VVec vs => next vs (load 4 m r + 8)
      | VStruct _ vs => next vs (load 4 m r)
      | VEnum _ vs => next vs (load 4 m r + 4)
      end
  end.

(** Fields as packing sees them: [(true, t)] is the id of an object (a UID or a NamedId).  The 4 bytes before the struct of an
    id are reserved for the address of the object it is packed into. *)
Definition word (m : memory) (f : bool * ty) (v : val) (x : Z) (F : mset) : Prop :=
  if fst f then is_stack (snd f) = false /\ exists G, vrep m (snd f) v x G /\ sub G F /\ sub (between (x - 4) x) F /\ disj (between (x - 4) x) G else vrep m (snd f) v x F.

(** The words [xs] represent the values [vs] of the fields [fs], each in its own part of [F]. *)
Fixpoint words (m : memory) (fs : list (bool * ty)) (vs : list val) (xs : list Z) (F : mset) : Prop :=
  match fs, vs, xs with
  | [], [], [] => True
  | f :: fs', v :: vs', x :: xs' => exists F1 F2, word m f v x F1 /\ 0 <= x < 256 ^ Z.of_nat (esize (snd f)) /\ words m fs' vs' xs' F2 /\
      disj F1 F2 /\ sub F1 F /\ sub F2 F
  | _, _, _ => False
  end.
Definition plain_fields (ts : list ty) : list (bool * ty) := map (pair false) ts.

(** The 4 bytes before the ids among the words [xs]. *)
Fixpoint id_cells (fs : list (bool * ty)) (xs : list Z) : mset :=
  match fs, xs with
  | (b, _) :: fs', x :: xs' => union (if b then between (x - 4) x else empty) (id_cells fs' xs')
  | _, _ => empty
  end.

(** The ids among [xs] are the fields from [off] on of the object at [a], and the words before them have its address. *)
Fixpoint held_by (m : memory) (a off : Z) (fs : list (bool * ty)) (xs : list Z) : Prop :=
  match fs, xs with
  | (b, _) :: fs', x :: xs' => (b = true -> load 4 m (a + off) = x /\ load 4 m (x - 4) = a) /\ held_by m a (off + 4) fs' xs'
  | _, _ => True
  end.

(** The references to the fields of a variant, as they lie on the operand stack (the last one on top). *)
Definition field_refs (m : memory) (v : val) (path : list nat) (r : Z) (n : nat) : list Z :=
  rev (map (fun i => cell_of m v (path ++ [i]) r) (seq 0 n)).

(** The types of ids (UID) and their values. *)
Definition T_id : ty := TStruct false [TAddress].
Definition T_uid : ty := TStruct false [T_id].
Definition v_uid (id : Z) : val := VStruct 0 [VStruct 0 [VInt id]].
