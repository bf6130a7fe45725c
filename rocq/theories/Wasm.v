(** * WebAssembly subset emitted by move-stylus, with an executable semantics.

    The compiler builds WASM through walrus' [InstrSeqBuilder]; this file gives
    the instruction set it uses and a fuelled interpreter for it.  The meaning
    follows the WebAssembly core specification, with the simplifications listed
    in DESIGN.md (untyped integer values, named labels, callee by body). *)

From Coq Require Import ZArith List String Bool.
Import ListNotations.
Open Scope Z_scope.

(** ** Values *)

(** Value types; a value of type [I32] is an integer in [0,2^32), one of type
    [I64] an integer in [0,2^64). *)
Inductive vt := I32 | I64.

Definition w32 (x : Z) : Z := x mod 4294967296.
Definition w64 (x : Z) : Z := x mod 18446744073709551616.
Definition wrapt (t : vt) (x : Z) : Z := match t with I32 => w32 x | I64 => w64 x end.
Definition bits (t : vt) : Z := match t with I32 => 32 | I64 => 64 end.

(** Two's complement reading of a 32/64-bit value. *)
Definition sgn (t : vt) (x : Z) : Z :=
  match t with
  | I32 => if x <? 2147483648 then x else x - 4294967296
  | I64 => if x <? 9223372036854775808 then x else x - 18446744073709551616
  end.

Definition b2z (b : bool) : Z := if b then 1 else 0.

Inductive bop :=
| Add | Sub | Mul | DivU | RemU | DivS | RemS | And | Or | Xor | Shl | ShrU
| Eq | Ne | LtU | GtU | LeU | GeU | LtS | GtS | LeS | GeS.

(** [None] is a trap (division by zero, signed division overflow). *)
Definition binop (t : vt) (o : bop) (a b : Z) : option Z :=
  match o with
  | Add => Some (wrapt t (a + b))
  | Sub => Some (wrapt t (a - b))
  | Mul => Some (wrapt t (a * b))
  | DivU => if b =? 0 then None else Some (a / b)
  | RemU => if b =? 0 then None else Some (a mod b)
  | DivS => if b =? 0 then None
            else if (sgn t a =? - 2 ^ (bits t - 1)) && (sgn t b =? -1) then None
            else Some (wrapt t (Z.quot (sgn t a) (sgn t b)))
  | RemS => if b =? 0 then None else Some (wrapt t (Z.rem (sgn t a) (sgn t b)))
  | And => Some (Z.land a b)
  | Or => Some (Z.lor a b)
  | Xor => Some (Z.lxor a b)
  | Shl => Some (wrapt t (a * 2 ^ (b mod bits t)))
  | ShrU => Some (a / 2 ^ (b mod bits t))
  | Eq => Some (b2z (a =? b))
  | Ne => Some (b2z (negb (a =? b)))
  | LtU => Some (b2z (a <? b))
  | GtU => Some (b2z (b <? a))
  | LeU => Some (b2z (a <=? b))
  | GeU => Some (b2z (b <=? a))
  | LtS => Some (b2z (sgn t a <? sgn t b))
  | GtS => Some (b2z (sgn t b <? sgn t a))
  | LeS => Some (b2z (sgn t a <=? sgn t b))
  | GeS => Some (b2z (sgn t b <=? sgn t a))
  end.

Inductive uop := Eqz | Wrap64 | ExtendU.

(** [Eqz] is i32.eqz / i64.eqz, [Wrap64] is i32.wrap_i64, [ExtendU] is
    i64.extend_i32_u. *)
Definition unop (o : uop) (a : Z) : Z :=
  match o with
  | Eqz => b2z (a =? 0)
  | Wrap64 => w32 a
  | ExtendU => a
  end.

(** ** Linear memory *)

(** A memory maps addresses to integers of which the low 8 bits are the byte. *)
Definition memory := Z -> Z.

Definition rd (m : memory) (a : Z) : Z := m a mod 256.

(** Little-endian [n]-byte load, as performed by i32.load, i64.load and the
    zero-extending narrow loads. *)
Fixpoint load (n : nat) (m : memory) (a : Z) : Z :=
  match n with
  | O => 0
  | S n' => rd m a + 256 * load n' m (a + 1)
  end.

(** Little-endian store of the low [n] bytes of [v]. *)
Definition store (n : Z) (m : memory) (a v : Z) : memory :=
  fun x => if (a <=? x) && (x <? a + n) then (v / 256 ^ (x - a)) mod 256 else m x.

(** Big-endian reading and writing of [n]-byte numbers, used by the host (storage
    keys, hashes, addresses, call values). *)
Fixpoint load_be (n : nat) (m : memory) (a : Z) : Z :=
  match n with
  | O => 0
  | S n' => rd m a * 256 ^ Z.of_nat n' + load_be n' m (a + 1)
  end.

Definition store_be (n : Z) (m : memory) (a v : Z) : memory :=
  fun x => if (a <=? x) && (x <? a + n) then (v / 256 ^ (n - 1 - (x - a))) mod 256 else m x.

(** memory.copy (overlap-safe by definition) and memory.fill. *)
Definition mcopy (m : memory) (dst src n : Z) : memory :=
  fun x => if (dst <=? x) && (x <? dst + n) then m (src + (x - dst)) else m x.

Definition mfill (m : memory) (dst v n : Z) : memory :=
  fun x => if (dst <=? x) && (x <? dst + n) then v mod 256 else m x.

(** [n] consecutive bytes as a list. *)
Fixpoint bytes (n : nat) (m : memory) (a : Z) : list Z :=
  match n with
  | O => []
  | S n' => rd m a :: bytes n' m (a + 1)
  end.

(** Writing a list of bytes. *)
Definition write_bytes (m : memory) (a : Z) (bs : list Z) : memory :=
  fun x => if (a <=? x) && (x <? a + Z.of_nat (List.length bs))
           then nth (Z.to_nat (x - a)) bs 0 else m x.

Definition page_size : Z := 65536.

(** ** Host (Stylus VM) *)

(** What the Stylus host imports of hostio/host_functions.rs can see and change.
    [keccak] is an arbitrary hash from byte strings to 256-bit numbers.
    [stor] is the storage as the running transaction sees it (cache over trie),
    [committed] the state trie itself.  [h_ext]: other accounts. *)

(** Calls to other contracts.  [c_value]: 0 for static and delegate calls, which carry none. *)
Inductive call_kind := KCall | KDelegate | KStatic.
Record ext_call := mkCall { c_kind : call_kind; c_to : Z; c_data : list Z; c_value : Z; c_gas : Z }.
(** The answer to a call.  The contract called may run code of this contract (or, for a delegate
    call, runs on its storage), so the answer includes the storage afterwards. *)
Record reply := mkReply { r_status : Z; r_data : list Z; r_stor : Z -> Z; r_committed : Z -> Z }.
(** [x_reply] is an arbitrary function of the calls so far (newest first) and the storage;
    [x_data] is the data returned by the last call. *)
Record extst := mkExt {
  x_reply : list ext_call -> (Z -> Z) -> (Z -> Z) -> reply;
  x_calls : list ext_call;
  x_data : list Z;
  x_balance : list ext_call -> Z -> Z;   (* by address *)
  x_code_size : list ext_call -> Z -> Z  (* by address *)
}.
Record hostst := mkHost {
  keccak : list Z -> Z;
  stor : Z -> Z;
  committed : Z -> Z;
  h_args : list Z;             (* calldata *)
  h_origin : Z;                (* tx_origin, 160 bit *)
  h_sender : Z;                (* msg_sender, 160 bit *)
  h_value : Z;                 (* msg_value, 256 bit *)
  h_number : Z;                (* block number, 64 bit *)
  h_timestamp : Z;             (* block timestamp, 64 bit *)
  h_basefee : Z;               (* 256 bit *)
  h_gas_price : Z;             (* 256 bit *)
  h_result : list Z;           (* last write_result *)
  h_logs : list (Z * list Z);  (* emitted logs, newest first: topic count, data *)
  h_ext : extst                (* other accounts *)
}.

Inductive hostfn :=
| H_storage_load         (* storage_load_bytes32(key, dest) *)
| H_storage_cache        (* storage_cache_bytes32(key, value) *)
| H_storage_flush        (* storage_flush_cache(clear) *)
| H_keccak               (* native_keccak256(bytes, len, out) *)
| H_tx_origin            (* tx_origin(out): 20 bytes *)
| H_msg_sender           (* msg_sender(out): 20 bytes *)
| H_msg_value            (* msg_value(out): 32 bytes, big-endian *)
| H_block_basefee        (* block_basefee(out): 32 bytes, big-endian *)
| H_tx_gas_price         (* tx_gas_price(out): 32 bytes, big-endian *)
| H_block_number         (* () -> i64 *)
| H_block_timestamp      (* () -> i64 *)
| H_read_args            (* read_args(dest) *)
| H_write_result         (* write_result(data, len) *)
| H_emit_log             (* emit_log(data, len, topics) *)
| H_call                 (* call_contract(to, data, len, value, gas, out_len) -> status *)
| H_delegate_call        (* delegate_call_contract(to, data, len, gas, out_len) -> status *)
| H_static_call          (* static_call_contract(to, data, len, gas, out_len) -> status *)
| H_read_return_data     (* read_return_data(dest, offset, size) -> bytes written *)
| H_account_balance      (* account_balance(address, out): 32 bytes, big-endian *)
| H_account_code_size.   (* account_code_size(address) -> size *)

(** ** Machine state *)

(** [gnext], [gavail], [gcd] are the three WASM globals of memory.rs
    (next free pointer, available memory, calldata reader pointer).
    [maxpages] is the page count up to which the host lets memory grow. *)
Record world := mkW {
  mem : memory;
  pages : Z;
  maxpages : Z;
  gnext : Z;
  gavail : Z;
  gcd : Z;
  host : hostst
}.

Definition set_mem (w : world) (m : memory) : world :=
  mkW m (pages w) (maxpages w) (gnext w) (gavail w) (gcd w) (host w).
Definition set_host (w : world) (h : hostst) : world :=
  mkW (mem w) (pages w) (maxpages w) (gnext w) (gavail w) (gcd w) h.
Definition set_pages (w : world) (p : Z) : world :=
  mkW (mem w) p (maxpages w) (gnext w) (gavail w) (gcd w) (host w).

Inductive glob := GNext | GAvail | GCalldata.

Definition get_glob (g : glob) (w : world) : Z :=
  match g with GNext => gnext w | GAvail => gavail w | GCalldata => gcd w end.
Definition set_glob (g : glob) (w : world) (v : Z) : world :=
  match g with
  | GNext => mkW (mem w) (pages w) (maxpages w) v (gavail w) (gcd w) (host w)
  | GAvail => mkW (mem w) (pages w) (maxpages w) (gnext w) v (gcd w) (host w)
  | GCalldata => mkW (mem w) (pages w) (maxpages w) (gnext w) (gavail w) v (host w)
  end.

Definition set_stor (h : hostst) (s : Z -> Z) : hostst :=
  mkHost (keccak h) s (committed h) (h_args h) (h_origin h) (h_sender h) (h_value h)
    (h_number h) (h_timestamp h) (h_basefee h) (h_gas_price h) (h_result h) (h_logs h) (h_ext h).
Definition set_committed (h : hostst) (s : Z -> Z) : hostst :=
  mkHost (keccak h) (stor h) s (h_args h) (h_origin h) (h_sender h) (h_value h)
    (h_number h) (h_timestamp h) (h_basefee h) (h_gas_price h) (h_result h) (h_logs h) (h_ext h).
Definition set_result (h : hostst) (r : list Z) : hostst :=
  mkHost (keccak h) (stor h) (committed h) (h_args h) (h_origin h) (h_sender h) (h_value h)
    (h_number h) (h_timestamp h) (h_basefee h) (h_gas_price h) r (h_logs h) (h_ext h).
Definition set_logs (h : hostst) (r : list (Z * list Z)) : hostst :=
  mkHost (keccak h) (stor h) (committed h) (h_args h) (h_origin h) (h_sender h) (h_value h)
    (h_number h) (h_timestamp h) (h_basefee h) (h_gas_price h) (h_result h) r (h_ext h).

(** Other accounts in the examples: every call succeeds and returns nothing. *)
Definition ext0 : extst := mkExt (fun _ st com => mkReply 0 [] st com) [] [] (fun _ _ => 0) (fun _ _ => 0).

(** The state after the call [c]. *)
Definition answer (h : hostst) (c : ext_call) : reply := x_reply (h_ext h) (c :: x_calls (h_ext h)) (stor h) (committed h).
Definition called (h : hostst) (c : ext_call) : hostst :=
  let a := answer h c in
  mkHost (keccak h) (r_stor a) (r_committed a) (h_args h) (h_origin h) (h_sender h) (h_value h)
    (h_number h) (h_timestamp h) (h_basefee h) (h_gas_price h) (h_result h) (h_logs h)
    (mkExt (x_reply (h_ext h)) (c :: x_calls (h_ext h)) (r_data a) (x_balance (h_ext h)) (x_code_size (h_ext h))).

Definition upd (f : Z -> Z) (k v : Z) : Z -> Z := fun x => if x =? k then v else f x.

(** An access of [n] bytes at effective address [a] is allowed. *)
Definition inb (w : world) (a n : Z) : bool := (0 <=? a) && (a + n <=? page_size * pages w).

(** ** Syntax *)

(** [Load n off] / [Store n off]: [n]-byte accesses with static offset.
    [Block], [Loop], [If] carry the number of results of their block type. *)
Inductive instr :=
| Const (z : Z)
| Bin (t : vt) (o : bop)
| Un (o : uop)
| LocalGet (x : nat)
| LocalSet (x : nat)
| LocalTee (x : nat)
| GlobalGet (g : glob)
| GlobalSet (g : glob)
| Load (n : nat) (off : Z)
| Store (n : nat) (off : Z)
| MemCopy
| MemFill
| MemGrow
| Drop
| Unreachable
| Block (lb : string) (ar : nat) (b : list instr)
| Loop (lb : string) (ar : nat) (b : list instr)
| If (ar : nat) (t e : list instr)
| Br (lb : string)
| BrIf (lb : string)
| Return
| Call (f : func)
| Host (h : hostfn)
with func := Func (nparams nlocals nresults : nat) (body : list instr).

(** ** Semantics *)

Inductive outcome :=
| ONormal (s l : list Z) (w : world)
| OBr (lb : string) (s l : list Z) (w : world)
| ORet (s l : list Z) (w : world)
| OTrap          (* a WASM trap: the transaction reverts *)
| OStuck         (* ill-formed code; never happens for validated modules *)
| OFuel.         (* the interpreter ran out of fuel *)

Fixpoint set_nth (x : nat) (v : Z) (l : list Z) : list Z :=
  match x, l with
  | O, _ :: t => v :: t
  | S x', h :: t => h :: set_nth x' v t
  | _, [] => []
  end.

(** A call: the length of the answer is stored at [out], the status (one byte) is the result. *)
Definition do_call (c : ext_call) (out : Z) (s l : list Z) (w : world) : outcome :=
  let a := answer (host w) c in
  ONormal (r_status a mod 256 :: s) l (set_host (set_mem w (store 4 (mem w) out (Z.of_nat (List.length (r_data a))))) (called (host w) c)).

(** Host calls.  All pointers are bounds checked by the host. *)
Definition hostcall (h : hostfn) (s l : list Z) (w : world) : outcome :=
  let H := host w in
  match h, s with
  | H_storage_load, dest :: key :: s =>
      if inb w key 32 && inb w dest 32 then
        ONormal s l (set_mem w (store_be 32 (mem w) dest (stor H (load_be 32 (mem w) key))))
      else OTrap
  | H_storage_cache, val :: key :: s =>
      if inb w key 32 && inb w val 32 then
        ONormal s l (set_host w
          (set_stor H (upd (stor H) (load_be 32 (mem w) key) (load_be 32 (mem w) val))))
      else OTrap
  | H_storage_flush, clear :: s => ONormal s l (set_host w (set_committed H (stor H)))
  | H_keccak, out :: len :: ptr :: s =>
      if inb w ptr len && inb w out 32 then
        ONormal s l (set_mem w (store_be 32 (mem w) out (keccak H (bytes (Z.to_nat len) (mem w) ptr))))
      else OTrap
  | H_tx_origin, out :: s =>
      if inb w out 20 then ONormal s l (set_mem w (store_be 20 (mem w) out (h_origin H))) else OTrap
  | H_msg_sender, out :: s =>
      if inb w out 20 then ONormal s l (set_mem w (store_be 20 (mem w) out (h_sender H))) else OTrap
  | H_msg_value, out :: s =>
      if inb w out 32 then ONormal s l (set_mem w (store_be 32 (mem w) out (h_value H))) else OTrap
  | H_block_basefee, out :: s =>
      if inb w out 32 then ONormal s l (set_mem w (store_be 32 (mem w) out (h_basefee H))) else OTrap
  | H_tx_gas_price, out :: s =>
      if inb w out 32 then ONormal s l (set_mem w (store_be 32 (mem w) out (h_gas_price H))) else OTrap
  | H_block_number, s => ONormal (w64 (h_number H) :: s) l w
  | H_block_timestamp, s => ONormal (w64 (h_timestamp H) :: s) l w
  | H_read_args, dest :: s =>
      if inb w dest (Z.of_nat (List.length (h_args H))) then
        ONormal s l (set_mem w (write_bytes (mem w) dest (h_args H)))
      else OTrap
  | H_write_result, len :: ptr :: s =>
      if inb w ptr len then
        ONormal s l (set_host w (set_result H (bytes (Z.to_nat len) (mem w) ptr)))
      else OTrap
  | H_emit_log, topics :: len :: ptr :: s =>
      if inb w ptr len && (topics <=? 4) && (32 * topics <=? len) then
        ONormal s l (set_host w (set_logs H ((topics, bytes (Z.to_nat len) (mem w) ptr) :: h_logs H)))
      else OTrap
  | H_call, out :: gas :: val :: len :: ptr :: a :: s =>
      if inb w a 20 && inb w ptr len && inb w val 32 && inb w out 4 then
        do_call (mkCall KCall (load_be 20 (mem w) a) (bytes (Z.to_nat len) (mem w) ptr) (load_be 32 (mem w) val) gas) out s l w
      else OTrap
  | H_delegate_call, out :: gas :: len :: ptr :: a :: s =>
      if inb w a 20 && inb w ptr len && inb w out 4 then
        do_call (mkCall KDelegate (load_be 20 (mem w) a) (bytes (Z.to_nat len) (mem w) ptr) 0 gas) out s l w
      else OTrap
  | H_static_call, out :: gas :: len :: ptr :: a :: s =>
      if inb w a 20 && inb w ptr len && inb w out 4 then
        do_call (mkCall KStatic (load_be 20 (mem w) a) (bytes (Z.to_nat len) (mem w) ptr) 0 gas) out s l w
      else OTrap
  | H_read_return_data, size :: off :: dest :: s =>
      let d := firstn (Z.to_nat size) (skipn (Z.to_nat off) (x_data (h_ext H))) in
      if inb w dest (Z.of_nat (List.length d)) then
        ONormal (Z.of_nat (List.length d) :: s) l (set_mem w (write_bytes (mem w) dest d))
      else OTrap
  | H_account_balance, out :: a :: s =>
      if inb w a 20 && inb w out 32 then
        ONormal s l (set_mem w (store_be 32 (mem w) out (x_balance (h_ext H) (x_calls (h_ext H)) (load_be 20 (mem w) a))))
      else OTrap
  | H_account_code_size, a :: s =>
      if inb w a 20 then ONormal (w32 (x_code_size (h_ext H) (x_calls (h_ext H)) (load_be 20 (mem w) a)) :: s) l w else OTrap
  | _, _ => OStuck
  end.

(** Instructions without nested code. *)
Definition step (i : instr) (s l : list Z) (w : world) : outcome :=
  match i with
  | Const z => ONormal (z :: s) l w
  | Bin t o =>
      match s with
      | b :: a :: s => match binop t o a b with Some r => ONormal (r :: s) l w | None => OTrap end
      | _ => OStuck
      end
  | Un o => match s with a :: s => ONormal (unop o a :: s) l w | _ => OStuck end
  | LocalGet x => match nth_error l x with Some v => ONormal (v :: s) l w | None => OStuck end
  | LocalSet x =>
      match s, nth_error l x with v :: s, Some _ => ONormal s (set_nth x v l) w | _, _ => OStuck end
  | LocalTee x =>
      match s, nth_error l x with v :: s, Some _ => ONormal (v :: s) (set_nth x v l) w | _, _ => OStuck end
  | GlobalGet g => ONormal (get_glob g w :: s) l w
  | GlobalSet g => match s with v :: s => ONormal s l (set_glob g w v) | _ => OStuck end
  | Load n off =>
      match s with
      | a :: s => if inb w (a + off) (Z.of_nat n) then ONormal (load n (mem w) (a + off) :: s) l w else OTrap
      | _ => OStuck
      end
  | Store n off =>
      match s with
      | v :: a :: s =>
          if inb w (a + off) (Z.of_nat n)
          then ONormal s l (set_mem w (store (Z.of_nat n) (mem w) (a + off) v)) else OTrap
      | _ => OStuck
      end
  | MemCopy =>
      match s with
      | n :: src :: dst :: s =>
          if inb w src n && inb w dst n then ONormal s l (set_mem w (mcopy (mem w) dst src n)) else OTrap
      | _ => OStuck
      end
  | MemFill =>
      match s with
      | n :: v :: dst :: s =>
          if inb w dst n then ONormal s l (set_mem w (mfill (mem w) dst v n)) else OTrap
      | _ => OStuck
      end
  | MemGrow =>
      match s with
      | n :: s =>
          if (pages w + n <=? maxpages w) && (pages w + n <=? 65536)
          then ONormal (pages w :: s) l (set_pages w (pages w + n))
          else ONormal (4294967295 :: s) l w
      | _ => OStuck
      end
  | Drop => match s with _ :: s => ONormal s l w | _ => OStuck end
  | Unreachable => OTrap
  | Br lb => OBr lb s l w
  | BrIf lb => match s with c :: s => if c =? 0 then ONormal s l w else OBr lb s l w | _ => OStuck end
  | Return => ORet s l w
  | Host h => hostcall h s l w
  | Block _ _ _ | Loop _ _ _ | If _ _ _ | Call _ => OStuck
  end.

(** Continue with [k] after normal completion. *)
Definition bindo (o : outcome) (k : list Z -> list Z -> world -> outcome) : outcome :=
  match o with
  | ONormal s l w => k s l w
  | OBr lb s l w => OBr lb s l w
  | ORet s l w => ORet s l w
  | OTrap => OTrap
  | OStuck => OStuck
  | OFuel => OFuel
  end.

Fixpoint exec (n : nat) (is : list instr) (s l : list Z) (w : world) {struct n} : outcome :=
  match n with
  | O => OFuel
  | S n =>
    match is with
    | [] => ONormal s l w
    | i :: r =>
      bindo
        (match i with
         | Block lb ar b =>
            match exec n b [] l w with
            | ONormal s' l' w' => ONormal (firstn ar s' ++ s) l' w'
            | OBr lb' s' l' w' =>
                if String.eqb lb lb' then ONormal (firstn ar s' ++ s) l' w' else OBr lb' s' l' w'
            | o => o
            end
         | Loop lb ar b =>
            match exec n b [] l w with
            | ONormal s' l' w' => ONormal (firstn ar s' ++ s) l' w'
            | OBr lb' s' l' w' =>
                if String.eqb lb lb' then exec n [Loop lb ar b] s l' w' else OBr lb' s' l' w'
            | o => o
            end
         | If ar t e =>
            match s with
            | c :: s0 =>
                bindo (exec n (if c =? 0 then e else t) [] l w)
                  (fun s' l' w' => ONormal (firstn ar s' ++ s0) l' w')
            | [] => OStuck
            end
         | Call (Func np nl nr b) =>
            if (List.length s <? np)%nat then OStuck else
            match exec n b [] (rev (firstn np s) ++ repeat 0 nl) w with
            | ONormal s' _ w' | ORet s' _ w' => ONormal (firstn nr s' ++ skipn np s) l w'
            | OBr _ _ _ _ => OStuck
            | o => o
            end
         | _ => step i s l w
         end)
        (fun s' l' w' => exec n r s' l' w')
    end
  end.

(** ** Running a function *)

Inductive fresult :=
| FRet (vs : list Z) (w : world)   (* results, last one first *)
| FTrap
| FStuck
| FFuel.

Definition runf (n : nat) (f : func) (args : list Z) (w : world) : fresult :=
  match f with
  | Func np nl nr b =>
    if negb (List.length args =? np)%nat then FStuck else
    match exec n b [] (args ++ repeat 0 nl) w with
    | ONormal s _ w' | ORet s _ w' => FRet (firstn nr s) w'
    | OBr _ _ _ _ | OStuck => FStuck
    | OTrap => FTrap
    | OFuel => FFuel
    end
  end.

(** [evals f args w r]: running [f] terminates with result [r]. *)
Definition evals (f : func) (args : list Z) (w : world) (r : fresult) : Prop :=
  exists n, runf n f args w = r /\ r <> FFuel.

(** [returns f args w vs w']: [f] terminates normally with values [vs]. *)
Definition returns (f : func) (args : list Z) (w : world) (vs : list Z) (w' : world) : Prop :=
  evals f args w (FRet vs w').

Definition traps (f : func) (args : list Z) (w : world) : Prop := evals f args w FTrap.
