(** * What the translation expects of the relooper.

    The relooper is given the blocks and, for each, its successors in
    ascending order; it is not told which kind of branch ends a block.  What
    follows says when a shape is right for a graph: reading the shape as nested
    text, where every way of leaving a block leads. *)

From Coq Require Import ZArith List String Bool Arith.
From Verif Require Import Wasm SpecFlow RtFlow.
Import ListNotations.

(** The block at which a piece of text starts, if [K] is the block at which
    what follows it starts.  A choice between several pieces starts nowhere:
    it needs an operand. *)
Fixpoint starts (sh : shape) (K : option label) : option label :=
  match sh with
  | ShSimple x _ _ _ => Some x
  | ShLoop _ inner next => starts inner (match next with Some n => starts n K | None => K end)
  | ShMultiple [h] => starts h K
  | ShMultiple _ => None
  end.
Definition starts_opt (o : option shape) (K : option label) : option label :=
  match o with Some sh => starts sh K | None => K end.

(** The block a piece of text consists of, if it is a Simple. *)
Fixpoint simple_label (sh : shape) : option label :=
  match sh with
  | ShSimple x _ _ _ => Some x
  | ShMultiple [h] => simple_label h
  | _ => None
  end.
Definition next_label (o : option shape) : option label :=
  match o with Some sh => simple_label sh | None => None end.

(** What surrounds a piece of text: for each enclosing Simple, its next block
    if that is Simple too; for each enclosing loop, the block after it and the
    block it starts with. *)
Record around := mkA {
  after : list (option label);
  heads : list (nat * (option label * option label))
}.

(** A branch of mode [m] leads to [a]. *)
Definition arrives (A : around) (m : mode) (a : label) : Prop :=
  match m with
  | MMerged | MMergedMulti => In (Some a) (after A)
  | MBreak id | MBreakMulti id => In (Some a) (after A) \/ exists c, lookup id (heads A) = Some (Some a, c)
  | MContinue id | MContinueMulti id => exists b, lookup id (heads A) = Some (b, Some a)
  | MOther => False
  end.

(** The two arms of a conditional start at [a] and [b], the lower one first. *)
Definition two_arms (o : option shape) (K : option label) (a b : label) : Prop :=
  match o with
  | Some (ShMultiple [th; el]) => a <> b /\ starts th K = Some (Nat.min a b) /\ starts el K = Some (Nat.max a b)
  | _ => False
  end.

(** A block left by [t] is followed by the right text [imm] (and [K] after it). *)
Definition leads (A : around) (br : list (label * mode)) (t : term) (imm : option shape) (K : option label) : Prop :=
  match t with
  | TEnd => True
  | TFall n => starts_opt imm K = Some n
  | TBr a => match lookup a br with Some m => arrives A m a | None => starts_opt imm K = Some a end
  | TBrTrue a b | TBrFalse a b =>
      match lookup a br with
      | Some m => arrives A m a /\ starts_opt imm K = Some b
      | None => two_arms imm K a b
      end
  | TSwitch offs =>
      match imm with
      | Some (ShMultiple [th; el]) => match offs with [a; b] => two_arms imm K a b | _ => False end
      | Some (ShMultiple (_ :: _ :: _ :: _)) => True
      | _ => False
      end
  end.

(** The shape [sh], with [A] around it and [K] after it, is right for the graph [P]. *)
Fixpoint right_shape (P : graph) (A : around) (K : option label) (sh : shape) {struct sh} : Prop :=
  match sh with
  | ShSimple x imm next br =>
      let A1 := mkA (next_label next :: after A) (heads A) in
      let K1 := starts_opt next K in
      match P x with
      | Some (_, t) => leads A1 br t imm K1
      | None => False
      end /\
      match imm with Some i => right_shape P A1 K1 i | None => True end /\
      match next with Some n => right_shape P A K n | None => True end
  | ShLoop id inner next =>
      let K1 := starts_opt next K in
      right_shape P (mkA (after A) ((id, (K1, starts inner K1)) :: heads A)) K1 inner /\
      match next with Some n => right_shape P A K n | None => True end
  | ShMultiple hs =>
      match hs with
      | [h] => right_shape P A K h
      | [th; el] => right_shape P A K th /\ right_shape P A K el
      | _ =>
          (* more than two: without a jump of its own each runs into the next *)
          (fix chain (hs : list shape) : Prop :=
             match hs with
             | [] => True
             | h :: r => right_shape P A (match r with [] => K | h' :: _ => starts h' K end) h /\ chain r
             end) hs
      end
  end.

(** Every two-armed BrFalse jumps forward, over the block that follows it, and
    every two-armed BrTrue jumps back. *)
Fixpoint right_order (P : graph) (sh : shape) : Prop :=
  match sh with
  | ShSimple x imm next br =>
      match P x, imm with
      | Some (_, TBrFalse a b), Some (ShMultiple [_; _]) => (b < a)%nat
      | Some (_, TBrTrue a b), Some (ShMultiple [_; _]) => (a < b)%nat
      | _, _ => True
      end /\
      match imm with Some i => right_order P i | None => True end /\
      match next with Some n => right_order P n | None => True end
  | ShLoop _ inner next => right_order P inner /\ match next with Some n => right_order P n | None => True end
  | ShMultiple hs => (fix all (hs : list shape) : Prop := match hs with [] => True | h :: r => right_order P h /\ all r end) hs
  end.
