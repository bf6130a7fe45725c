(** * Calls made with the published ABI. *)

From Verif Require Import SpecInt SpecVal Spec Tac RtAlloc RtErr RtCopy SpecAbi LemVal SpecSol RtAbi RtPack RtUnpack RtUnpack2 LemSol RtRouter SpecRouter LemRouter RtCall RtPublic SpecPublic LemPublic ExPublic RtArgs SpecAbiRef RtAbiRef LemAbiRef Comp AbiGen SpecAbiGen LemAbiGen AbiOut SpecAbiOut LemAbiOut.
From Coq Require Import String Ascii.
Ltac Zify.zify_post_hook ::= idtac.

Fixpoint idless_plain (t : AbiGen.mty) (H : idless t) {struct H} : plain_type t :=
  match H in idless t return plain_type t with
  | il_prim p => pl_prim p
  | il_string => pl_string
  | il_vec i X => pl_vec i (idless_plain i X)
  | il_struct m n a fs F => pl_struct m n a fs ((fix go fs (F : Forall idless fs) : Forall plain_type fs := match F in Forall _ fs return Forall plain_type fs with
      | Forall_nil _ => Forall_nil _ | Forall_cons t X F' => Forall_cons t (idless_plain t X) (go _ F') end) fs F)
  | il_enum m n g => pl_enum m n g
  end.
Lemma coded_packs : forall ts ps, Forall2 coded ts ps -> Forall (fun t => plain_type (bare t)) ts /\ Forall2 packs ts (map snd ps).
Proof.
  intros ts ps F. induction F as [|t p ts ps (A&B&_) F (IH1&IH2)]; [split; constructor|]. split; constructor; auto; [apply idless_plain; exact A|].
  destruct t; try exact B. apply pk_ref. exact B.
Qed.
Lemma plain_passed : forall ts, Forall (fun t => plain_type (bare t)) ts -> filter passed ts = ts.
Proof.
  intros ts F. induction F as [|t ts Pt F IH]; [reflexivity|]. cbn [filter]. assert (Q : passed t = true) by (unfold passed; destruct Pt; reflexivity). rewrite Q, IH. reflexivity.
Qed.
Lemma apart_incl : forall l l', named_apart l -> incl l' l -> named_apart l'.
Proof. intros l l' A I r r' t t' Ir Ir'. apply A; apply I; assumption. Qed.

Lemma published_call : forall n roots structs P fname Ts Rs name js os c ep w s ps f qs vs rest,
  process_structs roots [] structs P -> Forall (fun t => to_process t = true) roots -> named_apart (roots ++ Ts ++ Rs) ->
  json_function n structs fname Ts = Some (Some (name, js)) -> json_outputs n structs Rs = Some os ->
  Forall2 coded Ts ps -> Forall2 coded Rs qs -> fold_right and True (map (fun p => wf_aty (snd p)) ps) -> fold_right and True (map (fun p => wf_aty (snd p)) qs) ->
  contract_ok c -> errtab_ok ep -> fresh_call w -> selector_ok s -> Z.of_nat (List.length qs) < 65536 -> params_fn ps qs f -> selected c s (wrap_params ep ps f qs) 4 ->
  all_fields (map has_aty (map snd ps)) vs ->
  exists bs cs, Forall2 reads js bs /\ Forall2 reads os cs /\
    let args := s ++ enc_args bs (sees_all Ts vs) ++ rest in
    (h_args (host w) = args -> gnext w + lenz args <= 2147483648 ->
     transaction c w FTrap /\ ctrap w (existsb has_string (map snd ps)) (lenz args + need_params ps vs) \/
     exists xs w1, running ep w1 /\ host w1 = host w /\ given_all (mem w1) ps vs xs (heap w1) /\
       (forall out w2 us, saves_quietly c -> returns f xs w1 out w2 -> running ep w2 -> returned_params w2 qs us out -> all_fields (map has_aty (map snd qs)) us ->
          lenz (enc_args (map snd qs) us) < 2147483648 ->
          transaction c w FTrap \/ exists w', transaction c w (FRet [0] w') /\ h_result (host w') = enc_args cs (sees_all Rs us))).
Proof.
  intros n roots structs P fname Ts Rs name js os c ep w s ps f qs vs rest H Fr A Ej Eo Ct Cr Wp Wq Hc He Fc Hs Lq Pf Sel Tv.
  destruct (coded_packs _ _ Ct) as (Pt&Kt). destruct (coded_packs _ _ Cr) as (Pr&Kr).
  destruct (arguments_published n roots structs P fname Ts name js H Fr) as (bs&Rb&_&Gb); [|eapply Forall_impl; [|exact Pt]; cbv beta; auto|exact Ej|].
  { eapply apart_incl; [exact A|]. intros x X. apply in_app_or in X. apply in_or_app. destruct X as [X|X]; [left; exact X|right; apply in_or_app; left; exact X]. }
  destruct (results_published n roots structs P Rs os H Fr) as (cs&Rc&_&Gc); [|exact Pr|exact Eo|].
  { eapply apart_incl; [exact A|]. intros x X. apply in_app_or in X. apply in_or_app. destruct X as [X|X]; [left; exact X|right; apply in_or_app; right; exact X]. }
  rewrite (plain_passed _ Pt) in Gb. specialize (Gb _ vs Kt Tv). exists bs, cs. split; [exact Rb|]. split; [exact Rc|]. cbv zeta. rewrite Gb. intros Ha La.
  destruct (call_params c ep w s ps f qs vs rest Hc He Fc Hs Wp Wq Lq Pf Sel Tv Ha La) as [T|(xs&w1&X1&X2&_&_&X3&_&_&_&X4)]; [left; exact T|right].
  exists xs, w1. split; [exact X1|]. split; [exact X2|]. split; [exact X3|]. intros out w2 us Sq Rt Rn Rp Tu Lu. destruct (X4 out w2 us Sq Rt Rn Rp Lu) as [T|(w'&T&E)]; [left; exact T|right].
  exists w'. split; [exact T|]. rewrite E. apply Gc; assumption.
Qed.
