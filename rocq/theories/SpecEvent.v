(** * Event logs, as Solidity defines them. *)

From Verif Require Import Tac SpecVal SpecAbi SpecSol.

(** The in-place encoding of a value: like the ABI encoding but without offsets and lengths, every
    simple value and every string padded to a multiple of 32 bytes. *)
Fixpoint in_place (t : aty) (v : val) : list Z :=
  match t, v with
  | AInt _, VInt n => word n
  | AEnum _, VEnum tag _ => word (Z.of_nat tag)
  | AString, VStruct _ [VVec bs] => padded (map int_of bs)
  | AVec t, VVec vs => List.concat (map (in_place t) vs)
  | AStruct fs, VStruct _ vs => List.concat (zip_with (fun f v => f v) (map in_place fs) vs)
  | _, _ => []
  end.

(** The type of an indexed field: an object ID or another type with an ABI. *)
Inductive ity := IId | IAbi (t : aty).
Definition imty (t : ity) : ty := match t with IId => TStruct false [TAddress] | IAbi t => mty t end.

(** The topic of an indexed field: the word of a simple value; the hash of the contents of a string; the
    hash of the in-place encoding of an array or struct. *)
Definition topic (hash : list Z -> Z) (t : ity) (v : val) : list Z :=
  match t, v with
  | IId, VStruct _ [VInt n] => word n
  | IAbi (AInt _), VInt n => word n
  | IAbi (AEnum _), VEnum tag _ => word (Z.of_nat tag)
  | IAbi AString, VStruct _ [VVec bs] => word (hash (map int_of bs))
  | IAbi t, v => word (hash (in_place t v))
  | _, _ => []
  end.

(** An event type: the hash of its signature (none for an anonymous event), its indexed fields and the
    others.  A value of it is a struct of the indexed fields followed by the others. *)
Record event := mkEvent { e_sig : option (list Z); e_indexed : list ity; e_data : list aty }.

Definition sig_topic (e : event) : list Z := match e_sig e with Some s => s | None => [] end.
Definition topic_count (e : event) : Z := match e_sig e with Some _ => 1 | None => 0 end + lenz (e_indexed e).
Definition event_ty (e : event) : ty := TStruct false (map imty (e_indexed e) ++ map mty (e_data e)).

(** The topics of an event of which the indexed fields have the values [vs], and the log: the number of
    topics and the topics followed by the ABI encoding of the other fields' values [ds]. *)
Definition topics (hash : list Z -> Z) (e : event) (vs : list val) : list Z :=
  sig_topic e ++ List.concat (zip_with (topic hash) (e_indexed e) vs).
Definition log_of (hash : list Z -> Z) (e : event) (vs ds : list val) : Z * list Z :=
  (topic_count e, topics hash e vs ++ enc_args (e_data e) ds).

(** Event types as the compiler accepts them: arrays of structs are rejected as indexed fields, an event
    has at most four topics. *)
Fixpoint elem_ty (t : aty) : Prop :=
  match t with AVec t => elem_ty t | AStruct _ => False | _ => True end.
Definition index_ty (t : aty) : Prop := match t with AStruct fs => Forall elem_ty fs | t => elem_ty t end.
Definition indexed_ty (t : ity) : Prop := match t with IId => True | IAbi t => wf_aty t /\ index_ty t end.
Definition event_ok (e : event) : Prop :=
  match e_sig e with Some s => List.length s = 32%nat /\ Forall (fun b => 0 <= b < 256) s | None => True end /\
  Forall indexed_ty (e_indexed e) /\ fold_right and True (map wf_aty (e_data e)) /\
  topic_count e <= 4 /\ lenz (e_data e) < 65536.

(** No string and no vector in the value is empty. *)
Fixpoint nonempty (v : val) : Prop :=
  match v with
  | VVec vs => vs <> [] /\ fold_right and True (map nonempty vs)
  | VStruct _ vs | VEnum _ vs => fold_right and True (map nonempty vs)
  | VInt _ => True
  end.
