(** * From basic blocks to structured WASM.

    Flow::build, ControlTargets and translate_flow: the code that turns the
    shape found by the relooper library into nested WASM blocks.  The relooper
    itself is a third-party library and is not modelled: its result is an
    argument. *)

From Coq Require Import ZArith List String Ascii Bool Arith.
From Verif Require Import Wasm SpecFlow.
Import ListNotations.

(** relooper::BranchMode, as matched in translation.rs 152-163. *)
Inductive mode :=
| MMerged | MMergedMulti
| MBreak (id : nat) | MBreakMulti (id : nat)
| MContinue (id : nat) | MContinueMulti (id : nat)
| MOther.

(** relooper::ShapedBlock, as matched in translation/flow.rs 69-160. *)
Inductive shape :=
| ShSimple (x : label) (imm next : option shape) (branches : list (label * mode))
| ShLoop (id : nat) (inner : shape) (next : option shape)
| ShMultiple (handled : list shape).

(** Flow, translation/flow.rs 8-30.  [code] stands for the bytecodes of the
    block: the translation of its straight-line part, and its last branch. *)
Inductive flow :=
| FSimple (x : label) (code : block) (imm next : flow) (branches : list (label * mode))
| FLoop (id : nat) (inner next : flow)
| FIfElse (th el : flow)
| FSwitch (cases : list flow)
| FEmpty.

Definition is_simple (f : flow) : bool := match f with FSimple _ _ _ _ _ => true | _ => false end.

(** map(..).collect::<Result<Vec<_>, _>>(). *)
Fixpoint all_some {A} (l : list (option A)) : option (list A) :=
  match l with
  | [] => Some []
  | o :: r => match o, all_some r with Some a, Some b => Some (a :: b) | _, _ => None end
  end.

(** Flow::build, translation/flow.rs 65-161. *)
Fixpoint build (P : graph) (sh : shape) : option flow :=
  let opt o := match o with Some b => build P b | None => Some FEmpty end in
  match sh with
  | ShSimple x imm next br =>
      match P x, opt imm, opt next with
      | Some c, Some i, Some n => Some (FSimple x c i n br)
      | _, _, _ => None
      end
  | ShLoop id inner next =>
      match build P inner, opt next with
      | Some i, Some n => Some (FLoop id i n)
      | _, _ => None
      end
  | ShMultiple hs =>
      match all_some (map (build P) hs) with
      | Some [f] => Some f
      | Some [a; b] => Some (FIfElse a b)
      | Some fs => if forallb is_simple fs then Some (FSwitch fs) else None
      | None => None
      end
  end.

(** Flow::get_label, translation/flow.rs 163-168. *)
Definition get_label (f : flow) : option label :=
  match f with FSimple x _ _ _ _ => Some x | _ => None end.

(** InstrSeqId of the block opened at nesting depth [d].  A branch only ever
    goes to an enclosing block, so the depth identifies it. *)
Fixpoint ticks (d : nat) : string := match d with O => EmptyString | S d => String "'"%char (ticks d) end.
Definition lab (d : nat) : string := String "@"%char (ticks d).

(** ControlTargets, translation.rs 77-99: the enclosing Simple blocks, the
    nearest first, each with the label of its next block if that is Simple; and
    the break and continue targets of the enclosing loops.  The hash maps are
    association lists; the loop identifiers of nested loops are distinct, so
    clear_loop_targets is leaving the scope. *)
Record targets := mkT {
  scopes : list (string * option label);
  loops : list (nat * (string * string))
}.

(** push_simple_scope, translation.rs 104-109. *)
Definition push_scope (T : targets) (lb : string) (nl : option label) : targets :=
  mkT ((lb, nl) :: scopes T) (loops T).
(** set_loop_targets, translation.rs 129-137. *)
Definition set_loop (T : targets) (id : nat) (brk cont : string) : targets :=
  mkT (scopes T) ((id, (brk, cont)) :: loops T).

Fixpoint lookup {B} (k : nat) (l : list (nat * B)) : option B :=
  match l with [] => None | (k', v) :: r => if Nat.eqb k k' then Some v else lookup k r end.

(** ControlTargets::resolve_merged, translation.rs 117-124. *)
Fixpoint resolve_merged (sc : list (string * option label)) (a : label) : option string :=
  match sc with
  | [] => None
  | (lb, Some b) :: r => if Nat.eqb a b then Some lb else resolve_merged r a
  | (_, None) :: r => resolve_merged r a
  end.

(** ControlTargets::resolve, translation.rs 147-166; an error and a missing
    target both stop the compilation. *)
Definition resolve (T : targets) (m : mode) (a : label) : option string :=
  match m with
  | MMerged | MMergedMulti => resolve_merged (scopes T) a
  | MBreak id | MBreakMulti id =>
      match resolve_merged (scopes T) a with
      | Some lb => Some lb
      | None => match lookup id (loops T) with Some (b, _) => Some b | None => None end
      end
  | MContinue id | MContinueMulti id =>
      match lookup id (loops T) with Some (_, c) => Some c | None => None end
  | MOther => None
  end.

(** The branch that ends a block: BrTrue, BrFalse and Branch (translation.rs
    2972-3000) and VariantSwitch (3234-3258, whose two loads belong to the
    straight-line part), with the jump table they leave behind. *)
Definition tr_term (T : targets) (br : list (label * mode)) (t : term) (jt : option (list label))
  : option (list instr * option (list label)) :=
  let jump a f := match lookup a br with
                  | Some m => match resolve T m a with Some lb => Some (f lb, jt) | None => None end
                  | None => Some ([], jt)
                  end in
  match t with
  | TFall _ | TEnd => Some ([], jt)
  | TBr a => jump a (fun lb => [Br lb])
  | TBrTrue a _ => jump a (fun lb => [BrIf lb])
  | TBrFalse a _ => jump a (fun lb => [Un Eqz; BrIf lb])
  | TSwitch offs => Some ([], Some offs)
  end.

(** br_table: the [i]-th target if the operand is [i], the default otherwise.
    The operand is kept in local [cl] because the modelled blocks take no
    parameters. *)
Fixpoint br_table (cl : nat) (i : Z) (ts : list string) (default : string) : list instr :=
  match ts with
  | [] => [Br default]
  | lb :: r => [LocalGet cl; Const i; Bin I32 Eq; BrIf lb] ++ br_table cl (i + 1)%Z r default
  end.

(** label_to_block as open_cases fills it (translation.rs 444-445, 487-508):
    the cases are opened in reverse, so the block of the last one is the
    outermost. *)
Fixpoint case_labels (d : nat) (cs : list flow) : list (label * string) :=
  match cs with
  | [] => []
  | c :: r => (match get_label c with Some x => x | None => O end, lab (d + List.length r)) :: case_labels d r
  end.

(** The targets of the table: label_to_block, translation.rs 467-475. *)
Definition table (lbs : list (label * string)) (offs : list label) : option (list string) :=
  all_some (map (fun a => lookup a lbs) offs).

(** open_cases, translation.rs 449-511, from the innermost block out: [k] is
    the code inside the block of the first case of [cs]; the body of a case
    comes right after its block.  [trc] is translate_flow. *)
Definition cases_code (trc : nat -> flow -> option (list label) -> option (list instr * option (list label))) (d : nat) :=
  fix bodies (cs : list flow) (k : list instr) (jt : option (list label)) {struct cs}
    : option (list instr * option (list label)) :=
    match cs with
    | [] => Some (k, jt)
    | c :: r =>
        let dc := (d + List.length r)%nat in
        match trc dc c jt with
        | Some (b, jt) => bodies r (Block (lab dc) 0 k :: b) jt
        | None => None
        end
    end.

(** translate_flow, translation.rs 313-531.  [cl] is the local that holds the
    operand of an if/else or a switch: the compiler adds a new local for each,
    set and read at the same place, and one is enough.  [d] is the nesting
    depth, [jt] the jump table of the last VariantSwitch not used yet
    (ctx.jump_table).  The index of variant [i] of an enum is [i]. *)
Fixpoint tr (cl : nat) (T : targets) (d : nat) (f : flow) (jt : option (list label))
  {struct f} : option (list instr * option (list label)) :=
  match f with
  | FSimple _ (is, t) imm next br =>
      (* translation.rs 321-365 *)
      let T' := push_scope T (lab d) (get_label next) in
      match tr_term T' br t jt with
      | Some (b, jt) =>
          match tr cl T' (S d) imm jt with
          | Some (i, jt) =>
              match tr cl T d next jt with
              | Some (n, jt) => Some (Block (lab d) 0 (is ++ b ++ i) :: n, jt)
              | None => None
              end
          | None => None
          end
      | None => None
      end
  | FLoop id inner next =>
      (* translation.rs 366-394 *)
      let T' := set_loop T id (lab d) (lab (S d)) in
      match tr cl T' (S (S d)) inner jt with
      | Some (i, jt) =>
          match tr cl T d next jt with
          | Some (n, jt) => Some (Block (lab d) 0 [Loop (lab (S d)) 0 i] :: n, jt)
          | None => None
          end
      | None => None
      end
  | FIfElse th el =>
      (* translation.rs 395-442 *)
      let cond := match jt with
                  | None => Some []
                  | Some [a; b] => Some [Const (if (a <=? b)%nat then 0 else 1)%Z; Bin I32 Eq]
                  | Some _ => None
                  end in
      match cond with
      | Some c =>
          match tr cl T (S (S d)) el None with
          | Some (e, jt) =>
              match tr cl T (S d) th jt with
              | Some (t, jt) =>
                  Some (c ++ [LocalSet cl;
                        Block (lab d) 0
                          (Block (lab (S d)) 0 ([LocalGet cl; BrIf (lab (S d))] ++ e ++ [Br (lab d)]) :: t)], jt)
              | None => None
              end
          | None => None
          end
      | None => None
      end
  | FSwitch cases =>
      (* translation.rs 443-526, open_cases 449-511 *)
      match jt with
      | None => None
      | Some offs =>
          let lbs := case_labels d cases in
          match all_some (map (fun c => get_label c) cases), table lbs offs with
          | Some _, Some ts =>
              match cases_code (fun d c jt => tr cl T d c jt) d cases
                [Block (lab (d + List.length cases)) 0 (br_table cl 0 ts (lab (d + List.length cases))); Unreachable]
                None with
              | Some (k, jt) => Some (LocalSet cl :: k, jt)
              | None => None
              end
          | _, _ => None
          end
      end
  | FEmpty => Some ([], jt)
  end.

(** translate_function, translation.rs 242-291: the flow of the whole body,
    with no enclosing block and no jump table pending. *)
Definition translate (cl : nat) (f : flow) : option (list instr) :=
  match tr cl (mkT [] []) 0 f None with Some (c, _) => Some c | None => None end.
