(** * Names of types (C88). *)

From Coq Require Import String.
From Verif Require Import SpecInt Spec Tac RtAlloc RtErr RtSwap RtCopy SpecAbi SpecVal RtRouter Comp RtUid CompType LemTypeName RtTypeName ExVec ExObj ExDyn.
Open Scope string_scope.
Open Scope Z_scope.

(** C88.  The name of a type is a string with the bytes the compiler computed for it.  It is in new memory; nothing that was
    there changes. *)
Theorem C88_name_in_memory : forall t w, move_type t -> wok w -> 8 + Z.of_nat (List.length (type_name t)) < 2 ^ 31 ->
  wpf (type_name_get (type_name t)) [] w (resq (fun rs w' => exists p F, rs = [p] /\ extends w w' /\
     vrep (mem w') (TStruct false [TStruct false [TVec TU8]]) (VStruct 0 [VStruct 0 [VVec (map VInt (type_name t))]]) p F /\
     sub F (between (gnext w) (gnext w'))) (oom w (16 + Z.of_nat (List.length (type_name t))))).
Proof. exact type_name_returned. Qed.
Print Assumptions C88_name_in_memory.

(** C88.  Two types have the same name exactly when they are the same type: same module address, module, name and type
    arguments.  So programs can tell types apart by comparing their names. *)
Theorem C88_names_distinct : forall t u, move_type t -> move_type u -> (type_name t = type_name u <-> t = u).
Proof. exact type_name_inj. Qed.
Print Assumptions C88_names_distinct.

Definition pair_of_vectors : mtype := MUser (StructName 2748 "pairs" "Pair") [MVec (MPrim PU8); MUser (StructName 1 "string" "String") []].
Example C88_example :
  move_type pair_of_vectors /\
  type_name pair_of_vectors = ascii_bytes
   "0000000000000000000000000000000000000000000000000000000000000abc::pairs::Pair<vector<u8>,0000000000000000000000000000000000000000000000000000000000000001::string::String>" /\
  wok (w_child (fun _ => 0)) /\ 8 + Z.of_nat (List.length (type_name pair_of_vectors)) < 2 ^ 31 /\
  runs_to 3000 (type_name_get (type_name pair_of_vectors)) [] (w_child (fun _ => 0)) (fun r w' =>
    match r with [p] => let v := load 4 (mem w') (load 4 (mem w') p) in (load 4 (mem w') v =? 170) && (load 1 (mem w') (v + 8 + 169) =? 62) | _ => false end) = true.
Proof.
  split; [cbn; repeat split; try lia; try discriminate; reflexivity|]. split; [vm_compute; reflexivity|]. split; [apply w_child_ok|]. split; vm_compute; reflexivity.
Qed.
