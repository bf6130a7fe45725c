(** * Parameters and results passed by reference.

    A parameter or a result is an ABI type and a mark that says whether it is passed by reference ([&T] or
    [&mut T]).  The message does not show the mark: the encoding is that of the values. *)

From Verif Require Import Tac RtVec RtCopy SpecVal SpecAbi SpecSol RtCall.

Definition param := (bool * aty)%type.
Definition by_ref (t : aty) : param := (true, t).
Definition by_value (t : aty) : param := (false, t).

(** What a function is given for a parameter: the word of the value, or for a reference the address of the
    value (integers of up to 64 bits lie in a cell of their own, all other values are addresses anyway). *)
Definition given (m : memory) (p : param) (v : val) (x : Z) (F : mset) : Prop :=
  if fst p then field_of m (mty (snd p)) (vrep m (mty (snd p))) v x F else vrep m (mty (snd p)) v x F.

(** What is given for all parameters, in disjoint parts of [F]. *)
Fixpoint given_all (m : memory) (ps : list param) (vs : list val) (xs : list Z) (F : mset) : Prop :=
  match ps, vs, xs with
  | [], [], [] => True
  | p :: ps, v :: vs, x :: xs => exists F1 F2, given m p v x F1 /\ given_all m ps vs xs F2 /\
      disj F1 F2 /\ sub F1 F /\ sub F2 F
  | _, _, _ => False
  end.

(** What a function gives back: the word of the value, or for a reference the address of a cell with the address
    of the value. *)
Definition given_back (w : world) (p : param) (v : val) (x : Z) : Prop :=
  if fst p then sub (between x (x + 4)) (heap w) /\
                field_of (mem w) (mty (snd p)) (vrep (mem w) (mty (snd p))) v (load 4 (mem w) x) (heap w)
  else vrep (mem w) (mty (snd p)) v x (heap w).
Fixpoint given_back_all (w : world) (ps : list param) (vs : list val) (xs : list Z) : Prop :=
  match ps, vs, xs with
  | [], [], [] => True
  | p :: ps, v :: vs, x :: xs => given_back w p v x /\ given_back_all w ps vs xs
  | _, _, _ => False
  end.

(** The word of a parameter or result: a reference is an address (4 bytes, as a u32). *)
Definition word_ty (p : param) : ty := if fst p then TU32 else mty (snd p).
(** The code of a Move function with these parameters and results: one word per parameter; one word, the address of the
    block of results, or nothing if there are no results. *)
Definition params_fn (ps rs : list param) (f : func) : Prop :=
  exists nl b, f = Func (List.length ps) nl (match rs with [] => 0 | _ => 1 end) b.
(** [out] is what such a function returns in state [w] to hand out the values [us], or references to them. *)
Definition returned_params (w : world) (rs : list param) (us : list val) (out : list Z) : Prop :=
  match rs with
  | [] => us = [] /\ out = []
  | _ => exists p xs, out = [p] /\ live w p (total_size (map word_ty rs)) /\ values (mem w) p (map word_ty rs) xs /\ given_back_all w rs us xs
  end.
