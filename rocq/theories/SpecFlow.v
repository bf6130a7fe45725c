(** * Control flow of a Move function, as the programmer sees it.

    A function body is a graph of basic blocks named by the offset of their
    first instruction.  A block is straight-line code followed by a way of
    leaving it.  Running the function means running blocks one after another,
    each time going where the way of leaving says.  Nothing of how the
    compiler lays the blocks out appears here. *)

From Coq Require Import ZArith List String Bool.
From Verif Require Import Wasm.
Import ListNotations.
Open Scope Z_scope.

Definition label := nat.

(** How a block is left: falling into the next block, Branch, BrTrue, BrFalse
    (target, then the block after it), VariantSwitch (the target of each
    variant), or not at all (the block ends in Ret or Abort). *)
Inductive term :=
| TFall (n : label)
| TBr (t : label)
| TBrTrue (t n : label)
| TBrFalse (t n : label)
| TSwitch (offs : list label)
| TEnd.

Definition block := (list instr * term)%type.
Definition graph := label -> option block.

(** Where control goes, given the operands the block left on the stack. *)
Definition goes (t : term) (s : list Z) : option label :=
  match t, s with
  | TFall n, [] => Some n
  | TBr t, [] => Some t
  | TBrTrue t n, [c] => Some (if c =? 0 then n else t)
  | TBrFalse t n, [c] => Some (if c =? 0 then t else n)
  | TSwitch offs, [c] => if 0 <=? c then nth_error offs (Z.to_nat c) else None
  | _, _ => None
  end.

(** The outcomes of a block that end the function: a trap, an early return
    with an error, or a jump to the exit of the function with its results. *)
Definition ends (o : outcome) : Prop :=
  match o with
  | OTrap => True
  | ORet _ _ _ => True
  | OBr lb _ _ _ => lb = "result"%string
  | _ => False
  end.

(** [runs P m x l w o]: started at block [x] with locals [l] in world [w], the
    function goes through [m] jumps and ends with [o]. *)
Inductive runs (P : graph) : nat -> label -> list Z -> world -> outcome -> Prop :=
| runs_end : forall x is t n l w o, P x = Some (is, t) -> exec n is [] l w = o -> ends o -> runs P 0 x l w o
| runs_go : forall x is t n m l w s l' w' y o, P x = Some (is, t) -> exec n is [] l w = ONormal s l' w' ->
    goes t s = Some y -> runs P m y l' w' o -> runs P (S m) x l w o.

(** The result of a function whose body ended with [o]: [r] is its result local. *)
Definition result_of (r nr : nat) (o : outcome) : fresult :=
  match o with
  | OTrap => FTrap
  | ORet s _ w => FRet (firstn nr s) w
  | OBr _ _ l w => FRet (match nr with O => [] | _ => [nth r l 0] end) w
  | _ => FFuel
  end.
