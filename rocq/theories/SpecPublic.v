(** * Vocabulary for calls of public functions: results of Move functions, errors left for the entry point. *)

From Verif Require Import Tac SpecInt SpecVal SpecSol SpecAbi RtRouter SpecRouter RtCall RtPublic.

(** The code of a Move function with arguments of the types [ts] and results of the types [rs]: one word per argument; one
    word, the address of the block of results, or nothing if there are no results. *)
Definition move_fn (ts rs : list aty) (f : func) : Prop :=
  exists nl b, f = Func (List.length ts) nl (match rs with [] => 0 | _ => 1 end) b.

(** [out] is what such a function returns in state [w] to hand out the values [us]. *)
Definition returned (w : world) (rs : list aty) (us : list val) (out : list Z) : Prop :=
  match rs with
  | [] => us = [] /\ out = []
  | _ => exists p xs, out = [p] /\ live w p (total_size (map mty rs)) /\ values (mem w) p (map mty rs) xs /\ represents w rs us xs
  end.

(** The state [w] carries an error whose revert data is [data]. *)
Definition carries_error (w : world) (data : list Z) : Prop :=
  1 <= pages w /\ abort_flag w <> 0 /\ abort_flag w + 4 < 2 ^ 32 /\
  in_memory w (abort_flag w) (4 + lenz data) /\ load 4 (mem w) (abort_flag w) = lenz data /\ bytes_at (mem w) (abort_flag w + 4) data.

(** Saving borrowed dynamic fields at the end of a transaction may run out of memory, and does not touch the return data. *)
Definition saves_quietly (c : contract) : Prop := forall w, wok w ->
  traps (c_save c) [] w \/ exists w', returns (c_save c) [] w [] w' /\ h_result (host w') = h_result (host w).

(** Between [w] and [w'] an error with the revert data [data] was raised: a fresh block holds its length and its bytes, the
    abort pointer leads to it, and nothing else in use has changed. *)
Definition raised (w w' : world) (data : list Z) : Prop :=
  wok w' /\ host w' = host w /\ maxpages w' = maxpages w /\ abort_flag w' = gnext w /\ live w' (gnext w) (4 + lenz data) /\
  load 4 (mem w') (gnext w) = lenz data /\ bytes_at (mem w') (gnext w + 4) data /\
  (forall a, 0 <= a < gnext w -> ~ within 256 4 a -> rd (mem w') a = rd (mem w) a).
