(** * Vocabulary for the entry point: contracts, selection, transactions. *)

From Verif Require Import Tac SpecAbi RtRouter.

(** Selectors are four bytes, wrappers take the argument pointer and give pointer and length,
    the save function takes and gives nothing. *)
Definition selector_ok (s : list Z) : Prop := List.length s = 4%nat /\ Forall (fun b => 0 <= b < 256) s.
Definition contract_ok (c : contract) : Prop :=
  (forall s f, In (s, f) (c_funs c) -> selector_ok s /\ is_wrapper f) /\
  (forall s, c_receive c = Some s -> selector_ok s) /\
  (forall f, c_fallback c = Some f -> is_wrapper f) /\
  (exists nl b, c_save c = Func 0 nl 0 b).

(** The function that answers selector [s]: the (first) public function with that selector, run on
    the data after the selector, or else the fallback function, run on all the data. *)
Inductive selected (c : contract) (s : list Z) : func -> Z -> Prop :=
| sel_public l1 l2 f : c_funs c = l1 ++ (s, f) :: l2 -> (forall s' f', In (s', f') l1 -> s' <> s) ->
    selected c s f 4
| sel_fallback f : (forall s' f', In (s', f') (c_funs c) -> s' <> s) -> c_fallback c = Some f ->
    selected c s f 0.
Definition none_selected (c : contract) (s : list Z) : Prop :=
  (forall s' f', In (s', f') (c_funs c) -> s' <> s) /\ c_fallback c = None.

(** [w1]: the state [w] after the bytes [data] were placed at the start of free memory and the
    words at 396 and 400 were set to the length of the calldata and its address. *)
Definition begins (w w1 : world) (n : nat) (data : list Z) : Prop :=
  wok w1 /\ host w1 = host w /\ gcd w1 = gcd w /\ maxpages w1 = maxpages w /\ pages w <= pages w1 /\
  gnext w1 = gnext w + Z.of_nat (List.length data) /\
  bytes (List.length data) (mem w1) (gnext w) = data /\
  load 4 (mem w1) 396 = Z.of_nat n /\ load 4 (mem w1) 400 = gnext w /\
  (forall a, 0 <= a < gnext w -> ~ within 396 8 a -> rd (mem w1) a = rd (mem w) a).

Definition in_memory (w : world) (p n : Z) : Prop := 0 <= p /\ p + n <= 65536 * pages w.

(** [w] with the [n] bytes at [p] as the return data of the transaction. *)
Definition with_result (w : world) (p n : Z) : world :=
  set_host w (set_result (host w) (bytes (Z.to_nat n) (mem w) p)).
(** [w] after everything written so far was flushed to the chain. *)
Definition flushed (w : world) : world := set_host w (set_committed (host w) (stor (host w))).

(** How the router answers when the selected function ended in a given way. *)
Inductive answers (c : contract) : fresult -> fresult -> Prop :=
| ans_trap : answers c FTrap FTrap
| ans_abort vs w2 : 1 <= pages w2 -> abort_flag w2 <> 0 ->
    in_memory w2 (abort_flag w2) 4 -> abort_flag w2 + 4 < 2 ^ 32 ->
    in_memory w2 (abort_flag w2 + 4) (load 4 (mem w2) (abort_flag w2)) ->
    answers c (FRet vs w2) (FRet [1] (with_result w2 (abort_flag w2 + 4) (load 4 (mem w2) (abort_flag w2))))
| ans_ok len ptr w2 w3 : 1 <= pages w2 -> abort_flag w2 = 0 -> in_memory w2 ptr len ->
    returns (c_save c) [] (with_result w2 ptr len) [] w3 ->
    answers c (FRet [len; ptr] w2) (FRet [0] (flushed w3))
| ans_save_trap len ptr w2 : 1 <= pages w2 -> abort_flag w2 = 0 -> in_memory w2 ptr len ->
    traps (c_save c) [] (with_result w2 ptr len) ->
    answers c (FRet [len; ptr] w2) FTrap
| ans_no_data len ptr w2 : 1 <= pages w2 -> abort_flag w2 = 0 -> ~ in_memory w2 ptr len ->
    answers c (FRet [len; ptr] w2) FTrap
| ans_no_message vs w2 : 1 <= pages w2 -> abort_flag w2 <> 0 ->
    in_memory w2 (abort_flag w2) 4 -> abort_flag w2 + 4 < 2 ^ 32 ->
    ~ in_memory w2 (abort_flag w2 + 4) (load 4 (mem w2) (abort_flag w2)) ->
    answers c (FRet vs w2) FTrap.

(** The storage of the chain after a transaction that started with storage [old]: the host keeps
    what was flushed only if the entry point returned status 0, and restores [old] otherwise. *)
Definition chain_after (old : Z -> Z) (r : fresult) : Z -> Z :=
  match r with FRet [0] w' => committed (host w') | _ => old end.

(** A transaction: the host starts the instance [w] with the length of its calldata. *)
Definition transaction (c : contract) (w : world) (r : fresult) : Prop :=
  evals (router c) [Z.of_nat (List.length (h_args (host w)))] w r.
Definition fresh_call (w : world) : Prop :=
  wok w /\ abort_flag w = 0 /\ Forall (fun b => 0 <= b < 256) (h_args (host w)) /\
  Z.of_nat (List.length (h_args (host w))) < 2 ^ 31.

(** [init] is ordinary compiled code: it takes the TxContext pointer, returns nothing, leaves the
    heap blocks of its callers alone, and every run of it ends (the host meters gas). *)
Definition ordinary (init : func) : Prop :=
  (exists nl b, init = Func 1 nl 0 b) /\ keeps_heap init /\
  (forall a w, wok w -> exists r, evals init [a] w r /\ r <> FStuck).

(** Storages a contract can have after its constructor has completed for the first time: later
    constructor calls, and any other transactions that do not write the slot [k] of the init flag
    (the keccak256 of "init_key", which no field, object or array slot uses unless keccak256
    collides). *)
Inductive initialised (k : Z) (init : func) : (Z -> Z) -> Prop :=
| in_first w w' : wok w -> returns (constructor k init) [] w [] w' -> initialised k init (stor (host w'))
| in_again s w w' : initialised k init s -> wok w -> stor (host w) = s ->
    returns (constructor k init) [] w [] w' -> initialised k init (stor (host w'))
| in_other s s' : initialised k init s -> s' k = s k -> initialised k init s'.
