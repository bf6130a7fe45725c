(** * Calls to other contracts: the lemmas behind PropsExt.v. *)

From Verif Require Import SpecInt Tac RtAlloc RtErr RtSwap RtCopy SpecAbi SpecVal LemVal SpecVec SpecSol LemSol RtUnpack2 SpecExt RtExt.
Ltac Zify.zify_post_hook ::= idtac.

Lemma external_call_ok : forall ep static payable sel ts res vs v xs self c F G w, running ep w -> 65536 * maxpages w <= 2147483648 ->
  List.length sel = 4%nat -> Forall (fun b => 0 <= b < 256) sel -> fold_right and True (map wf_aty ts) ->
  configured (mem w) c self F -> sub F (heap w) -> represented (mem w) ts vs xs G -> sub G (heap w) -> disj F G ->
  let e := enc_args ts vs in lenz e < 2147483640 ->
  let k := wanted static payable c (sel ++ e) in let a := answer (host w) k in let st := r_status a mod 256 in
  Forall (fun b => 0 <= b < 256) (r_data a) -> lenz (r_data a) < 2147483640 ->
  (match res with Some t => wf_aty t /\ (st = 0 -> encodes t v (r_data a)) | None => True end) ->
  let A := amount_at (mem w) self in
  (exists x w', returns (external_call ep static payable sel ts res) (self :: xs) w [x] w' /\
      host w' = called (host w) k /\ call_result res v st (mem w') x (between (gnext w) (gnext w')) /\
      grown w w' (fun y => payable = true /\ between A (A + 32) y) /\ configured (mem w') (after_call payable c) self F) \/
  no_memory (external_call ep static payable sel ts res) (self :: xs) w (call_strings res) (call_cost payable e res v st (r_data a)).
Proof.
  intros ep static payable sel ts res vs v xs self c F G w (Hw&He&Fl) Hm Ls Hs Wf C SF V SG D e Le k a st Fd Ld Hr A.
  destruct (wpf_cases _ _ _ _ _ (external_call_spec ep static payable sel ts res vs v xs self c F G w Hw He Fl Hm Ls Hs Wf C SF V SG D Le Fd Ld Hr)) as [(rs&w'&R&x&->&H1&H2&H3&H4)|[T O]].
  - left. exists x, w'. auto.
  - right. split; assumption.
Qed.

Lemma encodes_enc : forall t v, wf_aty t -> has_aty t v -> encodes t v (enc_args [t] [v]).
Proof.
  intros t v Wt Hv m a Ha Hb B. apply enc_args_decodes; try assumption; try lia.
  - cbn [map fold_right]. auto.
  - cbn [map all_fields]. auto.
Qed.
