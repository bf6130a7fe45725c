(** * Concrete storage and memory for the examples of PropsPeep.v. *)

From Verif Require Import SpecInt Spec Tac RtAlloc RtErr RtSwap RtCopy SpecAbi SpecVal LemVal SpecVec LemVec ExVec SpecStor SpecLayout RtStor RtStore LemStore RtSave RtLoad RtLoadObj LemPlace LemObj ExObj SpecDyn RtChild ExDyn RtCall SpecMove SpecCache.
Ltac Zify.zify_post_hook ::= idtac.

(** The object 9 of the account 77, with the vector [11; 12; 13]; its type has the hash 5. *)
Definition theirs : held_arg := HeldArg 0 5 [TVec TU64] 77 9 [VVec [VInt 11; VInt 12; VInt 13]].
Definition k_peep : Z := slot_of (host (w_child (fun _ => 0))) 77 9.
Definition d_peep : Z := data_slot hash0 (k_peep + 1).
Definition st_peep (y : Z) : Z :=
  if y =? k_peep then bswap 8 5 else if y =? k_peep + 1 then 3 else if y =? d_peep then 11 + 12 * 2 ^ 64 + 13 * 2 ^ 128 else 0.
(** The memory of ExDyn: the address 77 is at 700, the UID with the id 9 at 612. *)
Lemma theirs_stored : up_to_date (host (w_child st_peep)) st_peep theirs.
Proof.
  intros _. split; [vm_compute; reflexivity|]. cbn [theirs a_types a_vals helds]. split; [|exact I]. apply held_vec. eexists. split; [reflexivity|]. split; [vm_compute; reflexivity|].
  assert (E : data_slot (keccak (host (w_child st_peep))) (fst (room (a_slot (host (w_child st_peep)) theirs, 8) 32)) = d_peep) by (vm_compute; reflexivity).
  rewrite E. cbn [map helds].
  assert (K : forall p n, (let (k, o) := room p 8 in part (st_peep k) (o - 8) 8 = n) -> 0 <= n < 2 ^ 64 -> held (keccak (host (w_child st_peep))) st_peep TU64 (VInt n) p).
  { intros p n X B. cbn [held width]. destruct (room p 8). exists n. auto. }
  do 3 (split; [apply K; [vm_compute; reflexivity|lia]|]). exact I.
Qed.
Lemma theirs_slots : Forall (fun s => snd s < 2 ^ 256) (a_slots (host (w_child st_peep)) theirs).
Proof.
  apply Forall_forall. intros s Hs. assert (E : forallb (fun s => snd s <? 2 ^ 256) (a_slots (host (w_child st_peep)) theirs) = true) by (vm_compute; reflexivity).
  rewrite forallb_forall in E. specialize (E s Hs). apply Z.ltb_lt. exact E.
Qed.
