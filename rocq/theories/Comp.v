(** * Compile-time functions of the compiler, as Gallina functions.

    Characters and bytes are numbers; a Rust [&str] restricted to ASCII is a list of codes
    (Move identifiers are ASCII). *)

From Verif Require Import Tac RtErr.
From Coq Require Import String Ascii.

(** ** Names *)

(** [char::to_ascii_lowercase], [char::to_ascii_uppercase]. *)
Definition to_lower (c : Z) : Z := if (65 <=? c) && (c <=? 90) then c + 32 else c.
Definition to_upper (c : Z) : Z := if (97 <=? c) && (c <=? 122) then c - 32 else c.
Definition underscore : Z := 95.

(** utils.rs 39-53: the loop after the first character; [sep] is [flag == NextOfSepMark]. *)
Fixpoint camel_loop (sep : bool) (s : list Z) : list Z :=
  match s with
  | [] => []
  | c :: s' =>
      if c =? underscore then
        match s' with
        | [] => [underscore]
        | _ => camel_loop true s'
        end
      else if sep then to_upper c :: camel_loop false s'
      else c :: camel_loop false s'
  end.

(** utils.rs 22-57 [snake_to_camel]. *)
Definition snake_to_camel (s : list Z) : list Z :=
  match s with
  | [] => []
  | c :: s' => to_lower c :: camel_loop false s'
  end.

(** [Vec::join(",")]. *)
Fixpoint join (ps : list (list Z)) : list Z :=
  match ps with
  | [] => []
  | [p] => p
  | p :: ps' => p ++ [44] ++ join ps'
  end.

(** abi_encoding.rs 26-46 and function_encoding.rs: the string whose keccak256 gives the selector; [ps] are
    the Solidity names of the parameters (the [solidity_name] of each). *)
Definition signature_string (name : list Z) (ps : list (list Z)) : list Z :=
  snake_to_camel name ++ [40] ++ join ps ++ [41].

(** ** ULEB128 *)

(** utils.rs 72-84 [decode_uleb128]: the value read and the rest of the iterator; [None] when it is exhausted.
    [value] is a u64, so bits shifted beyond 64 are lost.  (A shift by 64 or more, which would panic in debug builds,
    cannot occur for encodings of numbers below 2^64.) *)
Fixpoint decode_uleb128 (value shift : Z) (bs : list Z) : option (Z * list Z) :=
  match bs with
  | [] => None
  | b :: bs' =>
      let value := Z.lor value (Z.shiftl (Z.land b 127) shift mod 2 ^ 64) in
      if Z.land b 128 =? 0 then Some (value, bs') else decode_uleb128 value (shift + 7) bs'
  end.

(** ** Types with parameters *)

(** intermediate_types.rs 58-116 [IntermediateType].  [vm] is [vm_handled_struct], which instantiation copies as it is. *)
Inductive ity :=
| IBool | IU8 | IU16 | IU32 | IU64 | IU128 | IU256 | IAddress | ISigner
| IVector (t : ity)
| IRef (t : ity)
| IMutRef (t : ity)
| ITypeParameter (i : nat)
| IStruct (module : Z) (index : nat) (vm : Z)
| IGenericStructInstance (module : Z) (index : nat) (types : list ity) (vm : Z)
| IEnum (module : Z) (index : nat)
| IGenericEnumInstance (module : Z) (index : nat) (types : list ity).

(** generics.rs 10-24 [type_contains_generics]. *)
Fixpoint type_contains_generics (t : ity) : bool :=
  match t with
  | IRef t' | IMutRef t' => type_contains_generics t'
  | ITypeParameter _ => true
  | IGenericStructInstance _ _ types _ | IGenericEnumInstance _ _ types => existsb type_contains_generics types
  | IVector t' => type_contains_generics t'
  | _ => false
  end.

(** generics.rs 28-77 [replace_type_parameters].  Indexing beyond the instance types, a panic in Rust, leaves
    the parameter in place here; the theorems assume that parameters are in range. *)
Fixpoint replace_type_parameters (t : ity) (ts : list ity) : ity :=
  match t with
  | ITypeParameter i => nth i ts t
  | IRef t' => IRef (replace_type_parameters t' ts)
  | IMutRef t' => IMutRef (replace_type_parameters t' ts)
  | IGenericStructInstance m i types vm => IGenericStructInstance m i (map (fun x => replace_type_parameters x ts) types) vm
  | IGenericEnumInstance m i types => IGenericEnumInstance m i (map (fun x => replace_type_parameters x ts) types)
  | IVector t' => IVector (replace_type_parameters t' ts)
  | _ => t
  end.

(** ** Runtime error messages *)

(** error.rs 178-203 [RuntimeError::as_bytes]. *)
Definition error_text (e : rt_error) : string :=
  match e with
  | FrozenObjectsCannotBeShared => "Frozen objects cannot be shared"
  | SharedObjectsCannotBeFrozen => "Shared objects cannot be frozen"
  | FrozenObjectsCannotBeTransferred => "Frozen objects cannot be transferred"
  | SharedObjectsCannotBeTransferred => "Shared objects cannot be transferred"
  | StorageObjectNotFound => "Object not found"
  | FrozenObjectsCannotBeDeleted => "Frozen objects cannot be deleted"
  | StorageObjectTypeMismatch => "Storage object type mismatch"
  | Overflow => "Overflow"
  | OutOfBounds => "Out of bounds"
  | MemoryAccessOutOfBounds => "Memory access out of bounds"
  | EnumSizeTooLarge => "Enum size too large"
  | VectorNotEmpty => "Attempted to destroy an non-empty vector"
  end%string.

Definition ascii_bytes (s : string) : list Z := map (fun c => Z.of_nat (nat_of_ascii c)) (list_ascii_of_string s).
Definition error_bytes (e : rt_error) : list Z := ascii_bytes (error_text e).

(** [u32::to_le_bytes], [u32::to_be_bytes]. *)
Definition u32_le (v : Z) : list Z := [v mod 256; v / 256 mod 256; v / 65536 mod 256; v / 16777216 mod 256].
Definition u32_be (v : Z) : list Z := rev (u32_le v).

(** data.rs 164-210 [abi_encode_error_message]. *)
Definition abi_encode_error_message (e : rt_error) : list Z :=
  let error_len := Z.of_nat (List.length (error_bytes e)) in
  let padded_error_len := Z.land (error_len + 31) (-32) in
  let total_len := 68 + padded_error_len in
  u32_le total_len ++ [8; 195; 121; 160] ++ (repeat 0 31 ++ [32]) ++ (repeat 0 28 ++ u32_be error_len)
  ++ error_bytes e ++ repeat 0 (Z.to_nat (padded_error_len - error_len)).

(** data.rs 103-106 [RuntimeErrorData], with the active data segments it has added to the module. *)
Record error_data := mkED { next_offset : Z; errors : list (rt_error * Z); segments : list (Z * list Z) }.

(** data.rs 115-120 [new]. *)
Definition error_data_new : error_data := mkED 468 [] [].

Definition err_eqb (a b : rt_error) : bool :=
  match a, b with
  | FrozenObjectsCannotBeShared, FrozenObjectsCannotBeShared
  | SharedObjectsCannotBeFrozen, SharedObjectsCannotBeFrozen
  | FrozenObjectsCannotBeTransferred, FrozenObjectsCannotBeTransferred
  | SharedObjectsCannotBeTransferred, SharedObjectsCannotBeTransferred
  | StorageObjectNotFound, StorageObjectNotFound
  | FrozenObjectsCannotBeDeleted, FrozenObjectsCannotBeDeleted
  | StorageObjectTypeMismatch, StorageObjectTypeMismatch
  | Overflow, Overflow | OutOfBounds, OutOfBounds | MemoryAccessOutOfBounds, MemoryAccessOutOfBounds
  | EnumSizeTooLarge, EnumSizeTooLarge | VectorNotEmpty, VectorNotEmpty => true
  | _, _ => false
  end.

(** [HashMap::get]. *)
Definition find_error (e : rt_error) (l : list (rt_error * Z)) : option Z :=
  option_map snd (find (fun p => err_eqb e (fst p)) l).

(** data.rs 128-154 [get]; [None] is the panic. *)
Definition get_error (d : error_data) (e : rt_error) : option (Z * error_data) :=
  match find_error e (errors d) with
  | Some offset => Some (offset, d)
  | None =>
      let encoded := abi_encode_error_message e in
      let data_size := Z.of_nat (List.length encoded) in
      if 255 <? data_size then None
      else Some (next_offset d, mkED (next_offset d + data_size) ((e, next_offset d) :: errors d)
                                     (segments d ++ [(next_offset d, encoded)]))
  end.

(** A sequence of requests; the results in order. *)
Fixpoint get_errors (d : error_data) (es : list rt_error) : option (list Z * error_data) :=
  match es with
  | [] => Some ([], d)
  | e :: es' =>
      match get_error d e with
      | Some (o, d') => match get_errors d' es' with Some (os, d'') => Some (o :: os, d'') | None => None end
      | None => None
      end
  end.

(** data.rs 71-101 [setup_data_segment]: u256 one in little endian at 32, in big endian at 160, two at 192.
    Instantiation of the module writes the active segments into zeroed memory, in order. *)
Definition fixed_segments : list (Z * list Z) :=
  [(32, 1 :: repeat 0 31); (160, repeat 0 31 ++ [1]); (192, repeat 0 31 ++ [2])].
Definition instantiate (segs : list (Z * list Z)) : memory :=
  fold_left (fun m s => write_bytes m (fst s) (snd s)) segs (fun _ => 0).

(** The state in which the entry point starts: memory.rs 24-45 (one page) and
    hostio/entrypoint_router.rs 299-315 (the allocator's globals). *)
Definition initial_world (d : error_data) (limit : Z) (h : hostst) : world :=
  mkW (instantiate (fixed_segments ++ segments d)) 1 limit (next_offset d) (65536 - next_offset d) 0 h.
