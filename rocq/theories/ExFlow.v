(** * Example graphs for PropsFlow.v. *)

From Coq Require Import ZArith List String Bool Lia.
From Verif Require Import SpecInt Wasm Logic SpecFlow RtFlow SpecShape.
Import ListNotations.
Open Scope Z_scope.

(** The blocks of a graph, given as a list. *)
Definition graph_of (bs : list (label * block)) : graph := fun x => lookup x bs.

(** [return v]: store the result, leave. *)
Definition ret (r : nat) (c : list instr) : block := (c ++ [LocalSet r; Br "result"], TEnd).

(** [while (i < n) { i = i + 1 }; i]: local 0 is [n], 1 is [i], 2 the result. *)
Definition count : graph := graph_of
  [(0%nat, ([Const 0; LocalSet 1], TFall 2%nat));
   (2%nat, ([LocalGet 1; LocalGet 0; Bin I32 LtU], TBrFalse 8%nat 5%nat));
   (5%nat, ([LocalGet 1; Const 1; Bin I32 Add; LocalSet 1], TBr 2%nat));
   (8%nat, ret 2 [LocalGet 1])].
Definition count_shape : shape :=
  ShSimple 0%nat (Some (ShLoop 0%nat
      (ShSimple 2%nat (Some (ShMultiple [ShSimple 5%nat None None [(2%nat, MContinue 0%nat)]])) None [(8%nat, MBreak 0%nat)])
      (Some (ShSimple 8%nat None None [])))) None [].

(** [match e { A => 10, B => 20, C => 30 }]: local 0 is the variant, 1 the result. *)
Definition pick : graph := graph_of
  [(0%nat, ([LocalGet 0], TSwitch [1; 7; 4]%nat));
   (1%nat, ([Const 10; LocalSet 1], TBr 10%nat));
   (4%nat, ([Const 30; LocalSet 1], TBr 10%nat));
   (7%nat, ([Const 20; LocalSet 1], TFall 10%nat));
   (10%nat, ret 1 [LocalGet 1])].
Definition pick_shape : shape :=
  ShSimple 0%nat (Some (ShMultiple [ShSimple 1%nat None None [(10%nat, MMergedMulti)]; ShSimple 4%nat None None [(10%nat, MMergedMulti)];
                                ShSimple 7%nat None None [(10%nat, MMergedMulti)]]))
    (Some (ShSimple 10%nat None None [])) [].

(** [if (c) 1 else 2] ending its first block with [t]: local 0 is [c], 1 the result. *)
Definition choose (t : term) : graph := graph_of
  [(0%nat, ([LocalGet 0], t)); (2%nat, ret 1 [Const 1]); (4%nat, ret 1 [Const 2])].
(** Its shape, with the arms in either order. *)
Definition choose_shape (a b : label) : shape :=
  ShSimple 0%nat (Some (ShMultiple [ShSimple a None None []; ShSimple b None None []])) None [].
