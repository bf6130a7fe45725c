(** * Concrete states for the examples of PropsExt.v. *)

From Verif Require Import SpecInt Spec Tac RtAlloc RtErr RtSwap RtCopy SpecAbi SpecVal LemVal SpecVec SpecSol LemSol ExVec SpecExt RtExt LemExt RtRouter RtAccount.
Ltac Zify.zify_post_hook ::= idtac.

(** A host whose other contracts answer every call with status 0 and the number 11; every account has
    a balance of 3 + 2^200 and a code of 24 bytes. *)
Definition host_ext : hostst :=
  mkHost (keccak host0) (stor host0) (committed host0) [] 161 162 0 1 1 0 0 [] []
    (mkExt (fun _ s c => mkReply 0 (word 11) s c) [] [] (fun _ _ => 3 + 2 ^ 200) (fun _ _ => 24)).

(** A configuration at 1000 (account 42, gas 100000, amount 7), a u256 holding 9 at 1096 and a u32 holding 5 at 1128. *)
Definition m_ext : memory :=
  store 4 (store 32 (store 32 (store 8 (store 1 (store_be 32
    (store 4 (store 4 (store 4 (store 4 (store 4 zmem 1000 1004) 1004 1020) 1008 1052) 1012 1056) 1016 1064)
    1020 42) 1052 0) 1056 100000) 1064 7) 1096 9) 1128 5.
Definition w_ext : world := mkW m_ext 1 100 1132 (65536 - 1132) 0 host_ext.
Definition c_ext : config := mkConfig 42 false 100000 7.

Lemma w_ext_running : running ep0 w_ext.
Proof.
  split; [|split; [exact ep0_ok|vm_compute; reflexivity]].
  unfold wok, w_ext; cbn [pages maxpages gnext gavail mem]. repeat (split; [lia|]).
  intros a Ha. unfold m_ext. rewrite ?rd_store_out by lia. rewrite rd_store_be_out by lia. rewrite ?rd_store_out by lia. reflexivity.
Qed.
Lemma w_ext_config : configured (mem w_ext) c_ext 1000 (between 1000 1096).
Proof.
  unfold configured, config_ty, config_val. cbn [vrep map mem w_ext].
  eexists 0, _, (between 1004 1096). split; [reflexivity|]. split; [reflexivity|]. cbn [List.length]. split; [nums|]. split; [nums|]. split; [nums|].
  cbn [fields]. exists (between 1004 1096), empty. split; [|nums]. unfold field_of. cbn [is_stack].
  change (load 4 m_ext 1000) with 1004.
  eexists 0, _, (between 1020 1096). split; [reflexivity|]. split; [reflexivity|]. cbn [List.length map]. split; [nums|]. split; [nums|]. split; [nums|].
  cbn [fields]. exists (between 1020 1052), (between 1052 1096). split; [nums|]. split; [|nums].
  exists (between 1052 1053), (between 1056 1096). split; [nums|]. split; [|nums].
  exists (between 1056 1064), (between 1064 1096). split; [nums|]. split; [|nums].
  exists (between 1064 1096), empty. split; [nums|]. nums.
Qed.
Lemma w_ext_args : represented (mem w_ext) [AInt TU32; AInt TU256] [VInt 5; VInt 9] [5; 1096] (between 1096 1128).
Proof. cbn [represented mty vrep]. nums. Qed.

(** A program that calls the same external function twice with the same configuration. *)
Definition twice (f : func) : func := Func 1 0 2 [ LocalGet 0; Call f; LocalGet 0; Call f ].
Lemma pays_twice : exists x y w', returns (twice (external_call ep0 false true [1; 2; 3; 4] [] None)) [1000] w_ext [x; y] w' /\
  map c_value (x_calls (h_ext (host w'))) = [7 * 2 ^ 248; 7].
Proof.
  destruct (runs_to_vals 400 (twice (external_call ep0 false true [1; 2; 3; 4] [] None)) [1000] w_ext [1156; 1140]
    (fun w' => zs_eqb (map c_value (x_calls (h_ext (host w')))) [7 * 2 ^ 248; 7])) as (w'&R&E).
  - vm_compute. reflexivity.
  - exists 1156, 1140, w'. split; [exact R|]. revert E. generalize (map c_value (x_calls (h_ext (host w')))). intros l E. apply zs_eqb_eq in E. exact E.
Qed.
Lemma sends_address : exists x w', returns (external_call ep0 false false [1; 2; 3; 4] [AInt TU32] None) [1000; 1128] w_ext [x] w' /\
  map c_data (x_calls (h_ext (host w'))) = [[1; 2; 3; 4] ++ word 1128].
Proof.
  destruct (runs_to_vals 400 (external_call ep0 false false [1; 2; 3; 4] [AInt TU32] None) [1000; 1128] w_ext [1204]
    (fun w' => match map c_data (x_calls (h_ext (host w'))) with [d] => zs_eqb d ([1; 2; 3; 4] ++ word 1128) | _ => false end)) as (w'&R&E).
  - vm_compute. reflexivity.
  - exists 1204, w'. split; [exact R|]. revert E. generalize (map c_data (x_calls (h_ext (host w')))). intros l E.
    destruct l as [|d [|]]; try discriminate. apply zs_eqb_eq in E. rewrite E. reflexivity.
Qed.
