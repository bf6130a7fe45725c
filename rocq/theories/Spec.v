(** * Vocabulary of the property statements.

    Everything a reader needs to understand the theorems of Props*.v besides the
    machine itself (Wasm.v) and the machine invariant [wok], [live], [aborted]
    (Tac.v, RtErr.v). *)

From Verif Require Import Tac RtAlloc RtErr.

(** Two blocks of memory (address, size) share no byte. *)
Definition disjoint (a b : Z * Z) : Prop := fst a + snd a <= fst b \/ fst b + snd b <= fst a.

(** The histories of a program using the allocator: it allocates blocks of less than
    2 GiB and overwrites memory in any way it likes.  [bl] are the blocks it has been
    given so far. *)
Inductive alloc_history (w : world) : list (Z * Z) -> world -> Prop :=
| AH_start : alloc_history w [] w
| AH_write : forall bl w' m, alloc_history w bl w' -> alloc_history w bl (set_mem w' m)
| AH_alloc : forall bl w' n p w'', alloc_history w bl w' -> 0 <= n < 2147483648 ->
    returns alloc [n] w' [p] w'' -> alloc_history w ((p, n) :: bl) w''.

(** ** A concrete machine used in the examples *)

Definition host0 : hostst :=
  mkHost (fun bs => fold_left (fun a b => a * 256 + b) bs 7 mod 2 ^ 256) (fun _ => 0) (fun _ => 0)
    [] 161 162 0 1 1 0 0 [] [] ext0.

Definition w0 : world := mkW (fun _ => 0) 1 100 600 (65536 - 600) 0 host0.

(** [w0] with bytes written at an address below the heap frontier. *)
Definition wm (m : memory) (next : Z) : world := mkW m 1 100 next (65536 - next) 0 host0.

Definition ep0 : errtab := fun _ => 500.

Lemma ep0_ok : errtab_ok ep0.
Proof. intros e. unfold ep0. lia. Qed.

Lemma w0_ok : wok w0.
Proof. unfold wok, w0; cbn [pages maxpages gnext gavail mem]. repeat (split; [lia|]). reflexivity. Qed.

Definition zmem : memory := fun _ => 0.

Lemma wm_store_ok : forall n m a v next, wok (wm m next) -> a + n <= next -> wok (wm (store n m a v) next).
Proof.
  unfold wok, wm; cbn [pages maxpages gnext gavail mem]. intros. repeat (split; [lia|]).
  intros. rewrite rd_store_out by lia. apply H. lia.
Qed.

Lemma wm_ok : forall next, 468 <= next <= 65536 -> wok (wm zmem next).
Proof. intros. unfold wok, wm; cbn [pages maxpages gnext gavail mem]. repeat (split; [lia|]). reflexivity. Qed.

(** Run a concrete call to its result values. *)
Lemma runs_vals : forall n f args w vs, runs_to n f args w (fun r _ => zs_eqb r vs) = true ->
  exists w', returns f args w vs w'.
Proof.
  intros. apply runs_to_ok in H. destruct H as (r&w'&R&H). apply zs_eqb_eq in H. subst. eauto.
Qed.
Ltac runs n := apply (runs_vals n); vm_compute; reflexivity.
