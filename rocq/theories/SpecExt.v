(** * Calls to other contracts: what the Move program says.

    A call is configured by a [CrossContractCall] (stylus-framework/sources/contract_calls.move 17-25), inside
    the struct the external functions are declared on; its result is a [ContractCallResult] or a
    [ContractCallEmptyResult] (ibid. 61-68, 84-88). *)

From Verif Require Import Tac SpecVal SpecSol SpecAbi RtSwap.

(** [CrossContractCall]: contract_address, delegate, gas, value; and the struct around it. *)
Definition config_ty : ty := TStruct false [TStruct false [TAddress; TBool; TU64; TU256]].
Record config := mkConfig { to : Z; delegate : bool; gas : Z; amount : Z }.
Definition config_val (c : config) : val :=
  VStruct 0 [VStruct 0 [VInt (to c); VInt (if delegate c then 1 else 0); VInt (gas c); VInt (amount c)]].
Definition configured (m : memory) (c : config) (self : Z) (F : mset) : Prop := vrep m config_ty (config_val c) self F.

(** The words [xs] represent the values [vs] of the types [ts] in [F]. *)
Fixpoint represented (m : memory) (ts : list aty) (vs : list val) (xs : list Z) (F : mset) : Prop :=
  match ts, vs, xs with
  | [], [], [] => True
  | t :: ts, v :: vs, x :: xs => vrep m (mty t) v x F /\ represented m ts vs xs F
  | _, _, _ => False
  end.

(** The call the program asks for: functions declared [view] or [pure] must not change anything, the
    others are called as configured; only [payable] ones receive money. *)
Definition wanted (static payable : bool) (c : config) (data : list Z) : ext_call :=
  if static then mkCall KStatic (to c) data 0 (gas c)
  else if delegate c then mkCall KDelegate (to c) data 0 (gas c)
  else mkCall KCall (to c) data (if payable then amount c else 0) (gas c).

(** [data] encodes the one value [v], wherever in memory it is put. *)
Definition encodes (t : aty) (v : val) (data : list Z) : Prop :=
  forall m a, 0 <= a -> a + lenz data <= 2 ^ 32 -> bytes_at m a data -> decodes_args m (a + lenz data) [t] [v] a.

(** The address of the configured amount. *)
Definition amount_at (m : memory) (self : Z) : Z := load 4 m (load 4 m self + 12).

(** The amount after a call: its bytes are reversed by a call of a payable function. *)
Definition after_call (payable : bool) (c : config) : config :=
  if payable then mkConfig (to c) (delegate c) (gas c) (bswap 32 (amount c)) else c.

(** The result struct at [x], in [F], after a call of status [st]: the status and, if a call that returns a
    value of type [t] succeeded, that value. *)
Definition call_result (res : option aty) (v : val) (st : Z) (m : memory) (x : Z) (F : mset) : Prop :=
  match res with
  | Some t => if st =? 0 then vrep m (TStruct false [TU8; mty t]) (VStruct 0 [VInt 0; v]) x F
              else vrep m (TStruct false [TU8]) (VStruct 0 [VInt st]) x F
  | None => vrep m (TStruct false [TU8]) (VStruct 0 [VInt st]) x F
  end.
