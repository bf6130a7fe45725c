(** * The published ABI and the names the contract answers to.

    Two independent pieces of code: the crate move-evm-abi-generator, which writes the JSON ABI of a contract, and abi_types/ of the
    compiler, which makes the strings whose hashes are selectors and topics.  Strings are lists of ASCII codes, as in Comp.v. *)

From Verif Require Import Tac RtErr Comp.
From Coq Require Import String Ascii.

Definition text (s : string) : list Z := ascii_bytes s.

(** intermediate_types.rs 58-116 [IntermediateType].  Simplified: a struct or enum, which is there a module and an index into the data
    of that module, comes with what is found under it: the name, [has_key], the type arguments of an instance of a generic struct, and the fields
    (of the instance); [is_simple] for enums.  The structs of the framework and of the standard library that both sides know by name and module (types.rs 184-262,
    special_types.rs 1-41, vm_handled_types/) are cases of their own.  [MRef]: both kinds of references. *)
Inductive prim := PBool | PU8 | PU16 | PU32 | PU64 | PU128 | PU256 | PAddress.
Inductive mty :=
| MPrim (p : prim) | MSigner | MParam | MVec (t : mty) | MRef (t : mty)
| MString | MBytes (n : Z) | MUid | MId | MNamedId | MTxContext
| MStruct (module : Z) (name : list Z) (key : bool) (args : option (list mty)) (fields : list mty)
| MEnum (module : Z) (name : list Z) (generic simple : bool).

(** sol_data::*::SOL_NAME of the crate alloy-sol-types; types.rs 85-92 [Type::name]. *)
Definition prim_name (p : prim) : list Z :=
  text match p with PBool => "bool" | PU8 => "uint8" | PU16 => "uint16" | PU32 => "uint32" | PU64 => "uint64" | PU128 => "uint128" | PU256 => "uint256" | PAddress => "address" end.
(** "bytes1" to "bytes32": sol_name.rs 40-48 (the identifier in lower case), types.rs 93-124. *)
Definition bytes_name (n : Z) : list Z := text "bytes" ++ (if n <? 10 then [48 + n] else [48 + n / 10; 48 + n mod 10]).
Definition array_of (s : list Z) : list Z := s ++ text "[]".

(** ** The compiler *)

(** [collect::<Result<Option<Vec<String>>, _>>]: the first error or missing name decides.  [None]: error, [Some None]: no name. *)
Fixpoint all_names (l : list (option (option (list Z)))) : option (option (list (list Z))) :=
  match l with
  | [] => Some (Some [])
  | None :: _ => None
  | Some None :: _ => Some None
  | Some (Some n) :: l' => match all_names l' with Some (Some ns) => Some (Some (n :: ns)) | r => r end
  end.
Definition tuple_name (r : option (option (list (list Z)))) : option (option (list Z)) :=
  match r with None => None | Some None => Some None | Some (Some ns) => Some (Some ([40] ++ join ns ++ [41])) end.
Definition array_name (r : option (option (list Z))) : option (option (list Z)) :=
  match r with Some (Some n) => Some (Some (array_of n)) | r => r end.

(** abi_encoding.rs 49-109 [solidity_name], 112-128 [sol_name_storage_ids], 130-144 [struct_fields_sol_name]; sol_name.rs 17-61 for the cases sent
    there (an instance of a generic enum has no name there).  NamedId: the framework's struct has one field, an ID. *)
Fixpoint solidity_name (t : mty) : option (option (list Z)) :=
  match t with
  | MPrim p => Some (Some (prim_name p))
  | MEnum _ _ generic simple => Some (if simple then (if generic then None else Some (text "uint8")) else None)
  | MRef i => solidity_name i
  | MVec i => array_name (solidity_name i)
  | MTxContext => Some None
  | MString => Some (Some (text "string"))
  | MBytes n => Some (Some (bytes_name n))
  | MUid | MId => Some (Some (text "bytes32"))
  | MNamedId => tuple_name (all_names [Some (Some (text "bytes32"))])
  | MStruct _ _ key _ fs =>
      if key then match fs with MUid :: _ => Some (Some (text "bytes32")) | MNamedId :: _ => Some None | _ => None end
      else tuple_name (all_names (map solidity_name fs))
  | MSigner | MParam => Some None
  end.

(** abi_encoding.rs 35-42: the names of the parameters; those without a name are left out. *)
Fixpoint names_of (nm : mty -> option (option (list Z))) (ts : list mty) : option (list (list Z)) :=
  match ts with
  | [] => Some []
  | t :: ts' => match nm t, names_of nm ts' with Some (Some n), Some l => Some (n :: l) | Some None, Some l => Some l | _, _ => None end
  end.

(** abi_encoding.rs 26-47, function_encoding.rs 13-25: the string whose hash starts with the selector the router compares with. *)
Definition function_signature (f : list Z) (ts : list mty) : option (list Z) := option_map (signature_string f) (names_of solidity_name ts).

(** utils.rs 59-67 [snake_to_upper_camel]. *)
Definition first_upper (s : list Z) : list Z := match s with [] => [] | c :: s' => to_upper c :: s' end.
(** abi_encoding.rs 26-47, error_encoding.rs 25-37: for errors. *)
Definition error_signature (f : list Z) (ts : list mty) : option (list Z) :=
  option_map (fun ns => first_upper (snake_to_camel f) ++ [40] ++ join ns ++ [41]) (names_of solidity_name ts).

(** sol_name.rs 17-61 [SolName::sol_name]. *)
Fixpoint sol_name (t : mty) : option (list Z) :=
  match t with
  | MPrim p => Some (prim_name p)
  | MEnum _ _ generic _ => if generic then None else Some (text "uint8")
  | MRef i => sol_name i
  | MVec i => option_map array_of (sol_name i)
  | MString => Some (text "string")
  | MBytes n => Some (bytes_name n)
  | MUid | MId | MNamedId | MTxContext | MStruct _ _ _ _ _ | MSigner | MParam => None
  end.
(** event_encoding.rs 36-89 [solidity_name], 91-104 [struct_fields_sol_name], for events: the fields of a struct are named by [sol_name].  UID and NamedId: one
    field, an ID. *)
Fixpoint event_name (t : mty) : option (option (list Z)) :=
  match t with
  | MPrim _ | MString | MBytes _ => Some (sol_name t)
  | MEnum _ _ _ simple => Some (if simple then sol_name t else None)
  | MRef i => event_name i
  | MVec i => array_name (event_name i)
  | MTxContext => Some None
  | MId => Some (Some (text "bytes32"))
  | MUid | MNamedId => tuple_name (all_names [Some (sol_name MId)])
  | MStruct _ _ _ _ fs => tuple_name (all_names (map (fun f => Some (sol_name f)) fs))
  | MSigner | MParam => Some None
  end.
(** event_encoding.rs 17-34: the string whose hash is the first topic. *)
Definition event_signature (f : list Z) (ts : list mty) : option (list Z) :=
  option_map (fun ns => f ++ [40] ++ join ns ++ [41]) (names_of event_name ts).

(** ** The generator *)

(** common.rs 4-43 of the generator [snake_to_camel], [snake_to_upper_camel]. *)
Fixpoint abi_camel_loop (sep : bool) (s : list Z) : list Z :=
  match s with
  | [] => []
  | c :: s' => if c =? underscore then abi_camel_loop true s' else if sep then to_upper c :: abi_camel_loop false s' else c :: abi_camel_loop false s'
  end.
Definition abi_camel (s : list Z) : list Z := match s with [] => [] | c :: s' => to_lower c :: abi_camel_loop false s' end.

(** types.rs 21-77 [Type].  Left out: [Unit] and [Tuple], which no parameter or field has. *)
Inductive gty :=
| GPrim (p : prim) | GArray (g : gty) | GBytes (n : Z) | GString
| GStruct (module : Z) (name : list Z) (args : option (list gty)) (key : bool)
| GEnum (module : Z) (name : list Z) | GNone.

(** [Vec::join("_")]. *)
Fixpoint join_with (sep : list Z) (l : list (list Z)) : list Z := match l with [] => [] | [x] => x | x :: l' => x ++ sep ++ join_with sep l' end.
(** types.rs 82-156 [Type::name]. *)
Fixpoint gname (g : gty) : list Z :=
  match g with
  | GPrim p => prim_name p
  | GArray i => array_of (gname i)
  | GBytes n => bytes_name n
  | GString => text "string"
  | GStruct _ name args _ => match args with Some l => first_upper (abi_camel (name ++ [underscore] ++ join_with [underscore] (map gname l))) | None => name end
  | GEnum _ name => name
  | GNone => []
  end.
(** types.rs 158-345 [from_intermediate_type]. *)
Fixpoint gof (t : mty) : gty :=
  match t with
  | MPrim p => GPrim p
  | MSigner | MParam => GNone
  | MVec i => GArray (gof i)
  | MRef i => gof i
  | MString => GString
  | MBytes n => GBytes n
  | MUid | MId | MNamedId => GBytes 32
  | MTxContext => GStruct 0 (text "TxContext") None false
  | MStruct m name key args _ => GStruct m name (option_map (map gof) args) key
  | MEnum m name _ simple => if simple then GEnum m name else GNone
  end.

(** abi.rs 54-59 [Struct_]: the name and the fields (their names left out). *)
Definition abi_struct : Set := list Z * list gty.
(** abi.rs 839-873 [should_process_struct].  TxContext, which cannot be in a struct, is left out. *)
Definition to_process (t : mty) : bool := match t with MStruct _ _ _ _ _ => true | _ => false end.
Definition fields_of (t : mty) : list mty := match t with MStruct _ _ _ _ fs => fs | _ => [] end.
Definition entry_of (t : mty) : abi_struct := (gname (gof t), map gof (fields_of t)).
(** abi.rs 519-613 [process_structs]: the set of structs still to do, in the order in which the hash set happens to give them, the structs already seen, the
    result, and the structs seen in the end. *)
Inductive process_structs : list mty -> list mty -> list abi_struct -> list mty -> Prop :=
| ps_end : forall P, process_structs [] P [] P
| ps_seen : forall t ts P l P', In t P -> process_structs ts P l P' -> process_structs (t :: ts) P l P'
| ps_new : forall t ts P cs l1 P1 l2 P2, ~ In t P -> (forall c, In c cs <-> In c (fields_of t) /\ to_process c = true) ->
    process_structs cs (t :: P) l1 P1 -> process_structs ts P1 l2 P2 -> process_structs (t :: ts) P (entry_of t :: l1 ++ l2) P2.

(** abi.rs 145-418 [process_functions] and 420-517 [process_storage_struct], for one parameter. *)
Inductive param := Hidden | Listed (g : gty) | Generic | Failed.
Definition abi_param (t : mty) : param :=
  let t := match t with MRef i => i | _ => t end in
  match t with
  | MSigner | MTxContext => Hidden
  | MParam => Generic
  | MStruct _ _ key _ fs => if key then match fs with MUid :: _ => Listed (gof t) | MNamedId :: _ => Hidden | _ => Failed end else Listed (gof t)
  | MEnum _ _ _ simple => if simple then Listed (gof t) else Failed
  | _ => Listed (gof t)
  end.
(** abi.rs 145-418: all of them.  [None]: the ABI cannot be generated; [Some None]: the function is not in it. *)
Fixpoint abi_params (ts : list mty) : option (option (list gty)) :=
  match ts with
  | [] => Some (Some [])
  | t :: ts' => match abi_param t with
    | Hidden => abi_params ts'
    | Generic => Some None
    | Failed => None
    | Listed g => match abi_params ts' with Some (Some l) => Some (Some (g :: l)) | r => r end
    end
  end.
(** abi.rs 145-418: the structs that the parameters of a function add to those to process. *)
Definition param_struct (t : mty) : list mty :=
  let t := match t with MRef i => i | _ => t end in match t with MStruct _ _ false _ _ => [t] | _ => [] end.
Definition param_structs (ts : list mty) : list mty := List.concat (map param_struct ts).

(** json_format.rs 64-85 [JsonIO], [JsonComponent]: "type" and "components"; the names and "internalType" are left out. *)
Inductive jty := JTy (type : list Z) (components : option (list jty)).
Fixpoint all_some {A : Type} (l : list (option A)) : option (list A) :=
  match l with [] => Some [] | None :: _ => None | Some x :: l' => option_map (cons x) (all_some l') end.
Fixpoint same_text (a b : list Z) : bool := match a, b with [], [] => true | x :: a, y :: b => (x =? y) && same_text a b | _, _ => false end.
(** json_format.rs 317-460 [encode_for_json_abi].  [None]: an error, or the recursion is deeper than [n]. *)
Fixpoint encode_json (n : nat) (structs : list abi_struct) (g : gty) : option jty :=
  match n with
  | O => None
  | S n =>
    match g with
    | GPrim _ | GBytes _ | GString => Some (JTy (gname g) None)
    | GEnum _ _ => Some (JTy (text "uint8") None)
    | GArray i => match encode_json n structs i with Some (JTy s c) => Some (JTy (array_of s) c) | None => None end
    | GStruct _ _ _ key =>
        if key then Some (JTy (text "bytes32") None)
        else match find (fun s => same_text (fst s) (gname g)) structs with
             | Some s => option_map (fun cs => JTy (text "tuple") (Some cs)) (all_some (map (encode_json n structs) (snd s)))
             | None => None
             end
    | GNone => None
    end
  end.
(** json_format.rs 284-308 [process_io], for a list. *)
Definition hidden (g : gty) : bool := match g with GNone => true | _ => false end.
Definition json_inputs (n : nat) (structs : list abi_struct) (gs : list gty) : option (list jty) :=
  all_some (map (encode_json n structs) (filter (fun g => negb (hidden g)) gs)).

(** abi.rs 145-418, json_format.rs 188-270: the name and the inputs of a function. *)
Definition json_function (n : nat) (structs : list abi_struct) (f : list Z) (ts : list mty) : option (option (list Z * list jty)) :=
  match abi_params ts with
  | Some (Some gs) => option_map (fun js => Some (abi_camel f, js)) (json_inputs n structs gs)
  | Some None => Some None
  | None => None
  end.
(** abi.rs 768-837, json_format.rs 106-141 (errors); abi.rs 675-766, json_format.rs 143-186 (events): the name and the inputs. *)
Definition json_item (n : nat) (structs : list abi_struct) (f : list Z) (ts : list mty) : option (list Z * list jty) :=
  option_map (fun js => (f, js)) (json_inputs n structs (map gof ts)).
