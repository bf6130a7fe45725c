(** * Public functions: abi_types/public_function.rs and the calling convention of translation/functions.rs. *)

From Verif Require Import Tac RtAlloc RtErr RtInt RtInt2 RtEq RtMul RtDiv RtShift SpecInt RtSwap RtAscii RtCopy Ops SpecAbi LemAbi SpecVal LemVal SpecSol RtAbi RtPack RtPack2 RtUnpack RtUnpack2 LemSol RtStor RtDyn RtRouter SpecRouter LemRouter RtCall.
Ltac Zify.zify_post_hook ::= idtac.

(** wasm_builder_extensions.rs 323-367 [add_propagate_error_instructions] with the router's return block.
    Simplification: as in [run_wrapper], leaving for the return block is a return of the wrapper, whose results
    are then not used. *)
Definition leave : list instr :=
  [ Block "propagate" 0 [ Const 256; Load 4 0; Const 0; Bin I32 Eq; BrIf "propagate"; Const 0; Const 0; Return ] ].

(** abi_types/public_function.rs 150-203 [wrap_public_function], for a function [f] with arguments of the types [ts]
    and results of the types [rs].  Simplification: unpacking and packing, inlined in the source, are functions here. *)
Definition wrap (ep : errtab) (ts : list aty) (f : func) (rs : list aty) : func := Func 1 1 2
 ([ LocalGet 0; Call (decode_args ep ts) ] ++ leave ++ [ Call f ] ++ leave ++
  unpack_return 1 (map mty rs) ++
  match rs with [] => [ Const 0; Const 0 ] | _ => [ Call (encode_args ep rs) ] end).
