(** * Histories of id generation. *)

From Verif Require Import Tac.

(** The block as the host reports it: its timestamp and number, 64 bits each. *)
Definition block_of (w : world) : Z * Z := (h_timestamp (host w) mod 2 ^ 64, h_number (host w) mod 2 ^ 64).

(** A history of the contract.  [fresh] generates an id and returns its address; between the generations
    anything may happen (other calls, later blocks, new transactions with a new memory) that leaves the
    counter's storage word [k] alone.  The ids are listed oldest first, each with the block it was
    generated in. *)
Inductive id_history (fresh : func) (k : Z) : world -> list (Z * Z * Z) -> world -> Prop :=
| ih_start : forall w, wok w -> id_history fresh k w [] w
| ih_fresh : forall w l w1 a w2, id_history fresh k w l w1 -> returns fresh [] w1 [a] w2 ->
    id_history fresh k w (l ++ [(block_of w1, load_be 32 (mem w2) a)]) w2
| ih_other : forall w l w1 w2, id_history fresh k w l w1 -> wok w2 -> keccak (host w2) = keccak (host w1) ->
    stor (host w2) k = stor (host w1) k -> id_history fresh k w l w2.
