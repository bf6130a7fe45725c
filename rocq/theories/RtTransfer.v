(** * Transferring, sharing and freezing objects: native_functions/transfer.rs. *)

From Verif Require Import Tac RtAlloc RtErr RtInt RtInt2 RtEq RtMul RtDiv RtShift RtSwap RtAscii RtCopy RtCopy2 Ops SpecAbi LemAbi SpecVal LemVal SpecStor SpecLayout RtStor LemStor RtStore LemStore RtSave RtLoad RtLoadObj LemPlace LemObj RtChild LemDelete RtDelete SpecMove.
Ltac Zify.zify_post_hook ::= idtac.

(** The type of an object's first field: UID, a struct whose field is an ID, a struct whose field is
    the 32 bytes. *)
Definition uid_ty : ty := TStruct false [TStruct false [TAddress]].

(** runtime/storage.rs 1241-1313 [add_delete_tto_object_fn] for a child of type [t].  Locals: 0 parent_struct_ptr,
    1 child_struct_ptr, 2 child_struct_owner_ptr. *)
Definition delete_tto (ep : errtab) (t : ty) : func := Func 2 1 0
 (match t with
  | TStruct true fs =>
      [ Block "block" 0
          [ LocalGet 1; Call get_struct_owner; LocalSet 2;
            LocalGet 2; Const 32; Call is_zero; BrIf "block";
            LocalGet 0; Call get_id_bytes_ptr; LocalGet 2; Const 32; Call a_equals_b; BrIf "block";
            LocalGet 1; Call (delete_object ep (tl fs)) ] ]
  | _ => []
  end).

(** runtime/storage.rs 1059-1234 [add_check_and_delete_struct_tto_fields_fn].  Locals: 0 parent_struct_ptr,
    1 child_struct_ptr, 2 vector_ptr, 3 len, 4 i, 5 elem_ptr; in the code each field has its own ones. *)
Fixpoint check_tto (ep : errtab) (t : ty) : func :=
  match t with
  | TStruct _ fs => Func 1 5 0
      ((fix go (fs : list ty) (off : Z) : list instr :=
          match fs with
          | [] => []
          | f :: fs' =>
              match f with
              | TStruct _ _ =>
                  [ LocalGet 0; Load 4 off; LocalSet 1;
                    LocalGet 1; Call (check_tto ep f);
                    LocalGet 0; LocalGet 1; Call (delete_tto ep f) ]
              | TVec u =>
                  match u with
                  | TStruct _ _ =>
                      [ LocalGet 0; Load 4 off; LocalTee 2; Load 4 0; LocalSet 3;
                        Block "outer" 0
                          [ LocalGet 3; Un Eqz; BrIf "outer";
                            Block "inner" 0
                              [ Const 0; LocalSet 4;
                                Loop "loop" 0
                                  (vec_elem_ptr 2 4 4 ++
                                   [ Load 4 0; LocalSet 5;
                                     LocalGet 5; Call (check_tto ep u);
                                     LocalGet 0; LocalGet 5; Call (delete_tto ep u);
                                     LocalGet 4; LocalGet 3; Const 1; Bin I32 Sub; Bin I32 Eq; BrIf "inner";
                                     LocalGet 4; Const 1; Bin I32 Add; LocalSet 4; Br "loop" ]) ] ] ]
                  | _ => []
                  end
              | _ => []
              end ++ go fs' (off + 4)
          end) fs 0)
  | _ => Func 1 0 0 []
  end.

(** The instructions for the fields [fs] from offset [off] on. *)
Definition check_tto_fields (ep : errtab) : list ty -> Z -> list instr :=
  fix go (fs : list ty) (off : Z) : list instr :=
  match fs with
  | [] => []
  | f :: fs' =>
      match f with
      | TStruct _ _ =>
          [ LocalGet 0; Load 4 off; LocalSet 1;
            LocalGet 1; Call (check_tto ep f);
            LocalGet 0; LocalGet 1; Call (delete_tto ep f) ]
      | TVec u =>
          match u with
          | TStruct _ _ =>
              [ LocalGet 0; Load 4 off; LocalTee 2; Load 4 0; LocalSet 3;
                Block "outer" 0
                  [ LocalGet 3; Un Eqz; BrIf "outer";
                    Block "inner" 0
                      [ Const 0; LocalSet 4;
                        Loop "loop" 0
                          (vec_elem_ptr 2 4 4 ++
                           [ Load 4 0; LocalSet 5;
                             LocalGet 5; Call (check_tto ep u);
                             LocalGet 0; LocalGet 5; Call (delete_tto ep u);
                             LocalGet 4; LocalGet 3; Const 1; Bin I32 Sub; Bin I32 Eq; BrIf "inner";
                             LocalGet 4; Const 1; Bin I32 Add; LocalSet 4; Br "loop" ]) ] ] ]
          | _ => []
          end
      | _ => []
      end ++ go fs' (off + 4)
  end.

Lemma check_tto_struct : forall ep k fs, check_tto ep (TStruct k fs) = Func 1 5 0 (check_tto_fields ep fs 0).
Proof. reflexivity. Qed.

(** native_functions/transfer.rs 122-139, 258-275, 400-416: what is stored for the object under its owner is deleted,
    and so are wrapped objects under their former owners.  [o]: the local with owner_ptr. *)
Definition leave (ep : errtab) (fs : list ty) (o : nat) : list instr :=
 [ Block "del" 0 [ LocalGet o; Const 32; Call is_zero; BrIf "del"; LocalGet 0; Call (delete_object ep fs) ];
   LocalGet 0; Call (check_tto ep (TStruct true (uid_ty :: fs))) ].

(** native_functions/transfer.rs 22-173 [add_transfer_object_fn].  Locals: 0 struct_ptr, 1 recipient_ptr,
    2 owner_ptr, 3 id_bytes_ptr, 4 slot_ptr, 5 the error.  The second check tests whether 32 is zero and compares that
    many bytes. *)
Definition transfer_object (ep : errtab) (h : Z) (fs : list ty) : func := Func 2 4 0
 ([ LocalGet 0; Const 32; Bin I32 Sub; LocalSet 2;
    Block "shared" 0
      ([ LocalGet 2; Const A_SHARED; Const 32; Call a_equals_b; Un Eqz; BrIf "shared" ] ++
       return_error ep SharedObjectsCannotBeTransferred 5 false);
    Block "frozen" 0
      ([ LocalGet 2; Const A_FROZEN; Const 32; Un Eqz; Call a_equals_b; BrIf "frozen" ] ++
       return_error ep FrozenObjectsCannotBeTransferred 5 false) ] ++
  leave ep fs 2 ++
  [ LocalGet 2; LocalGet 1; Const 32; MemCopy;
    LocalGet 0; Call get_id_bytes_ptr; LocalSet 3;
    Const 32; Call alloc; LocalSet 4;
    LocalGet 1; LocalGet 3; LocalGet 4; Call write_object_slot;
    LocalGet 0; LocalGet 4; Call (save_object ep h fs) ]).

(** native_functions/transfer.rs 258-301, 399-443: the object moves to the mapping of the key at [key]. *)
Definition settle (ep : errtab) (h : Z) (fs : list ty) (key : Z) : list instr :=
  leave ep fs 1 ++
  [ LocalGet 1; Const key; Const 32; MemCopy;
    Const 32; Call alloc; LocalSet 2;
    Const key; LocalGet 0; Call get_id_bytes_ptr; LocalGet 2; Call write_object_slot;
    LocalGet 0; LocalGet 2; Call (save_object ep h fs) ].

(** native_functions/transfer.rs 176-307 [add_share_object_fn].  Locals: 0 struct_ptr, 1 owner_ptr, 2 slot_ptr,
    3 the error. *)
Definition share_object (ep : errtab) (h : Z) (fs : list ty) : func := Func 1 3 0
 [ Block "block" 0
     [ LocalGet 0; Const 32; Bin I32 Sub; LocalSet 1;
       LocalGet 1; Const A_SHARED; Const 32; Call a_equals_b; BrIf "block";
       LocalGet 1; Const A_FROZEN; Const 32; Call a_equals_b;
       If 0 (return_error ep FrozenObjectsCannotBeShared 3 false) (settle ep h fs A_SHARED) ] ].

(** native_functions/transfer.rs 310-448 [add_freeze_object_fn].  Locals as above. *)
Definition freeze_object (ep : errtab) (h : Z) (fs : list ty) : func := Func 1 3 0
 [ Block "block" 0
     [ LocalGet 0; Const 32; Bin I32 Sub; LocalTee 1;
       Const A_FROZEN; Const 32; Call a_equals_b; BrIf "block";
       LocalGet 1; Const A_SHARED; Const 32; Call a_equals_b;
       If 0 (return_error ep SharedObjectsCannotBeFrozen 3 false) (settle ep h fs A_FROZEN) ] ].

(** ** Structs without [key] hold nothing to delete *)

Definition quiet_at (t : ty) : Prop := forall ep w v x F, wok w -> storable t = true -> vrep (mem w) t v x F -> sub F (heap w) ->
  returns (check_tto ep t) [x] w [] w.
Definition quiet (t : ty) : Prop := quiet_at t /\ match t with TVec u => quiet_at u | _ => True end.

Lemma delete_tto_quiet : forall ep fs w a b, returns (delete_tto ep (TStruct false fs)) [a; b] w [] w.
Proof. intros. apply RtDelete.returns_intro. apply wpf_intro; [reflexivity|]. wc. cbn [delete_tto]. ws1. auto. Qed.

Lemma elem_at : forall R m vs1 v vs2 a (F : mset), elems R 4 m (vs1 ++ v :: vs2) a F -> exists F1, R v (load 4 m (a + 4 * Z.of_nat (List.length vs1))) F1 /\ sub F1 F.
Proof.
  intros R m vs1. induction vs1 as [|v1 vs1 IH]; intros v vs2 a F H; cbn [app elems List.length] in *; destruct H as (F1&F2&H1&H2&H3&H4&H5).
  - exists F1. rewrite Z.add_0_r. auto.
  - destruct (IH _ _ _ _ H2) as (F3&X1&X2). exists F3. split; [|eapply sub_trans; eassumption]. replace (a + 4 * Z.of_nat (S (List.length vs1))) with (a + Z.of_nat 4 + 4 * Z.of_nat (List.length vs1)) by lia. exact X1.
Qed.

Lemma check_tto_shape : forall ep t, exists nl b, check_tto ep t = Func 1 nl 0 b.
Proof. intros ep t. destruct t; cbn [check_tto]; eauto. Qed.

Lemma quiet_call : forall t, quiet_at t -> forall ep w v x F r (Q : outcome -> Prop) s l, wok w -> storable t = true -> vrep (mem w) t v x F -> sub F (heap w) ->
  wp r Q s l w -> wp (Call (check_tto ep t) :: r) Q (x :: s) l w.
Proof.
  intros t Qt ep w v x F r Q s l Hw Pl V S K. destruct (check_tto_shape ep t) as (nl&b&E).
  eapply wp_call; [exact E|cbn [List.length]; lia|]. wc. eapply returns_wpf; [eapply Qt; eassumption|]. wc. exact K.
Qed.

Lemma quiet_call2 : forall fs ep w a b r (Q : outcome -> Prop) s l, wp r Q s l w -> wp (Call (delete_tto ep (TStruct false fs)) :: r) Q (b :: a :: s) l w.
Proof. intros. eapply wp_call; [reflexivity|cbn [List.length]; lia|]. wc. eapply returns_wpf; [apply delete_tto_quiet|]. wc. exact H. Qed.

Lemma quiet_loop : forall fs, quiet_at (TStruct false fs) -> forall ep w x y vs cap F G l1 l4 l5 r (Q : outcome -> Prop) s, wok w -> storable (TStruct false fs) = true ->
  sub F (heap w) -> sub G F -> sub (between y (y + 8 + cap * 4)) F -> Z.of_nat (List.length vs) <= cap -> vs <> [] ->
  elems (vrep (mem w) (TStruct false fs)) 4 (mem w) vs (y + 8) G ->
  (forall l4 l5, wp r Q s [x; l1; y; Z.of_nat (List.length vs); l4; l5] w) ->
  wp (Block "inner" 0
        [ Const 0; LocalSet 4;
          Loop "loop" 0
            (vec_elem_ptr 2 4 4 ++
             [ Load 4 0; LocalSet 5;
               LocalGet 5; Call (check_tto ep (TStruct false fs));
               LocalGet 0; LocalGet 5; Call (delete_tto ep (TStruct false fs));
               LocalGet 4; LocalGet 3; Const 1; Bin I32 Sub; Bin I32 Eq; BrIf "inner";
               LocalGet 4; Const 1; Bin I32 Add; LocalSet 4; Br "loop" ]) ] :: r) Q s
    [x; l1; y; Z.of_nat (List.length vs); l4; l5] w.
Proof.
  intros fs Qf ep w x y vs cap F G l1 l4 l5 r Q s Hw Pl SF SG Sy Hc Ne El K. pose proof Hw as (P1&P2&P3&P4&P5&P6).
  set (n := Z.of_nat (List.length vs)) in *. assert (Hn : 0 < n) by (destruct vs; [congruence|unfold n; cbn [List.length]; lia]).
  destruct (heap_block F w y (8 + cap * 4) SF) as (Y1&Y2); [replace (y + (8 + cap * 4)) with (y + 8 + cap * 4) by lia; exact Sy|lia|].
  apply wp_block. ws1. ws1.
  apply (wp_loop (fun k l w' => exists vs1 vs2 l5, vs = vs1 ++ vs2 /\ List.length vs2 = k /\ vs2 <> [] /\
     l = [x; l1; y; n; Z.of_nat (List.length vs1); l5] /\ w' = w) (List.length vs)).
  { exists [], vs, l5. repeat (split; [first [reflexivity|exact Ne]|]). reflexivity. }
  intros k l w' (vs1&vs2&m5&E&Lk&Ne2&->&->). destruct vs2 as [|v vs2]; [congruence|]. cbn [List.length] in Lk.
  assert (En : n = Z.of_nat (List.length vs1) + 1 + Z.of_nat (List.length vs2)) by (unfold n; rewrite E, app_length; cbn [List.length]; lia).
  rewrite E in El. destruct (elem_at _ _ _ _ _ _ _ El) as (F1&V1&S1).
  unfold vec_elem_ptr. cbn [app]. set (i := Z.of_nat (List.length vs1)) in *. assert (Hi : 0 <= i) by (unfold i; lia).
  ws1. ws1. ws1. ws1. ws1. ws1. ws1. ws1. ws1. ws1.
  replace (y + 8 + i * 4) with (y + 8 + 4 * i) by lia.
  eapply (quiet_call _ Qf); [exact Hw|exact Pl|exact V1|eapply sub_trans; [exact S1|eapply sub_trans; eassumption]|].
  ws1. ws1. apply quiet_call2. ws1. ws1. ws1. ws1. ws1. ws1.
  - apply K.
  - ws1. ws1. ws1. ws1. ws1. exists (List.length vs2). split; [lia|]. exists (vs1 ++ [v]), vs2. eexists.
    split; [rewrite <- app_assoc; exact E|]. split; [reflexivity|]. split; [intros ->; cbn in En; lia|].
    split; [|reflexivity]. rewrite app_length. cbn [List.length]. do 5 f_equal. unfold i. lia.
Qed.

Lemma quiet_fields : forall fs, Forall quiet fs -> forall ep w x off vs G F l1 l2 l3 l4 l5 r (Q : outcome -> Prop) s, wok w -> forallb storable fs = true ->
  fields (map (fun t => field_of (mem w) t (vrep (mem w) t)) fs) (mem w) vs (x + off) G -> sub G F -> sub F (heap w) ->
  468 <= x -> 0 <= off -> x + off + 4 * Z.of_nat (List.length fs) <= gnext w ->
  (forall l1 l2 l3 l4 l5, wp r Q s [x; l1; l2; l3; l4; l5] w) ->
  wp (check_tto_fields ep fs off ++ r) Q s [x; l1; l2; l3; l4; l5] w.
Proof.
  intros fs Hq. induction Hq as [|f fs (Qa&Qb) Hq IH]; intros ep w x off vs G F l1 l2 l3 l4 l5 r Q s Hw Pl Fl SG SF Hx Ho He K; cbn [check_tto_fields app].
  - apply K.
  - cbn [forallb] in Pl. apply andb_true_iff in Pl. destruct Pl as (Pf&Pl). cbn [map fields List.length] in Fl, He.
    destruct vs as [|v vs]; [contradiction|]. destruct Fl as (F1&F2&V1&Fl&DF&S1&S2). pose proof Hw as (P1&P2&P3&P4&P5&P6).
    fold (check_tto_fields ep).
    assert (Rest : forall l1 l2 l3 l4 l5, wp (check_tto_fields ep fs (off + 4) ++ r) Q s [x; l1; l2; l3; l4; l5] w).
    { intros. eapply (IH ep w x (off + 4) vs F2 F); try assumption; try lia.
      - rewrite Z.add_assoc. exact Fl.
      - eapply sub_trans; eassumption. }
    assert (SF1 : sub F1 F) by (eapply sub_trans; eassumption).
    destruct f as [| | | | | | | |u|key gs|]; try exact (Rest _ _ _ _ _).
    + destruct u as [| | | | | | | |u|key gs|]; try exact (Rest _ _ _ _ _).
      cbn [storable] in Pf. destruct key; [discriminate|]. unfold field_of in V1. cbn [is_stack vrep] in V1.
      destruct V1 as (us&cap&G1&->&L1&L2&Hc&Hb&Sy&SG1&DG1&El). cbn [esize] in Hb, Sy, El. change (Z.of_nat 4) with 4 in *.
      assert (Sy' : sub (between (load 4 (mem w) (x + off)) (load 4 (mem w) (x + off) + 8 + cap * 4)) F) by (eapply sub_trans; eassumption).
      destruct (heap_block F w (load 4 (mem w) (x + off)) (8 + cap * 4) SF) as (Y1&Y2); [replace (load 4 (mem w) (x + off) + (8 + cap * 4)) with (load 4 (mem w) (x + off) + 8 + cap * 4) by lia; exact Sy'|lia|].
      cbn [app]. ws1. ws1. ws1. ws1. rewrite L1. ws1. apply wp_block. ws1. ws1. apply wp_brif; intros C; unb C; wc; [apply Rest|].
      eapply (quiet_loop gs Qb ep w x _ us cap F G1); try assumption.
      * eapply sub_trans; eassumption.
      * intros ->. discriminate C.
      * intros. apply wp_nil. wc. apply Rest.
    + cbn [storable] in Pf. destruct key; [discriminate|]. unfold field_of in V1. cbn [is_stack] in V1.
      cbn [app]. ws1. ws1. ws1. ws1. eapply (quiet_call _ Qa); [exact Hw|exact Pf|exact V1|eapply sub_trans; eassumption|].
      ws1. ws1. apply quiet_call2. apply Rest.
Qed.

Lemma quiet_plain : forall t, quiet t.
Proof.
  assert (E : forall t, match t with TStruct _ _ => False | _ => True end -> quiet_at t).
  { intros t Ht ep w v x F Hw Pl V S. apply RtDelete.returns_intro. destruct t; try contradiction; cbn [check_tto]; (apply wpf_intro; [reflexivity|]); wc; ws1; auto. }
  apply ty_rec'; try (intros; split; [apply E; exact Logic.I|exact Logic.I]).
  - intros t Ht. split; [apply E; destruct t; try discriminate; exact Logic.I|destruct t; try discriminate; exact Logic.I].
  - intros t (Ha&_). split; [apply E; exact Logic.I|exact Ha].
  - intros key fs Hf. split; [|exact Logic.I]. intros ep w v x F Hw Pl V S. pose proof Hw as (P1&P2&P3&P4&P5&P6).
    cbn [storable] in Pl. destruct key; [discriminate|]. apply andb_true_iff in Pl. destruct Pl as (Pn&Pl). cbn [vrep] in V. destruct V as (o&vs&G&->&Eo&Sx&SG&DG&Fl).
    assert (Ln : 0 < Z.of_nat (List.length fs)) by (destruct fs; [discriminate|cbn [List.length]; lia]).
    destruct (heap_block F w x (4 * Z.of_nat (List.length fs)) S Sx) as (X1&X2); [lia|].
    rewrite check_tto_struct. apply RtDelete.returns_intro. apply wpf_intro; [reflexivity|]. wc.
    rewrite <- (app_nil_r (check_tto_fields ep fs 0)).
    eapply (quiet_fields fs Hf ep w x 0 vs G F); try assumption; try lia.
    + rewrite Z.add_0_r. exact Fl.
    + intros. apply wp_nil. wc. auto.
Qed.

(** An object with such fields. *)
Lemma check_tto_object : forall ep fs w x owner id vs F, wok w -> forallb storable fs = true -> object_at (mem w) fs owner id vs x F -> sub F (heap w) ->
  returns (check_tto ep (TStruct true (uid_ty :: fs))) [x] w [] w.
Proof.
  intros ep fs w x owner id vs F Hw Pl (a&b&c&G&La&Lb&Lc&Li&Lo&Sx&Sa&Sb&Sc&SG&DJ&Fl) SF. pose proof Hw as (P1&P2&P3&P4&P5&P6).
  destruct (heap_block F w (x - 32) (36 + 4 * Z.of_nat (List.length fs)) SF) as (X1&X2); [replace (x - 32 + (36 + 4 * Z.of_nat (List.length fs))) with (x + 4 + 4 * Z.of_nat (List.length fs)) by lia; exact Sx|lia|].
  destruct (heap_block F w a 4 SF Sa) as (A1&A2); [lia|]. destruct (heap_block F w b 4 SF Sb) as (B1&B2); [lia|].
  assert (RI : forall ep', returns (check_tto ep' (TStruct false [TAddress])) [b] w [] w).
  { intros ep'. apply RtDelete.returns_intro. rewrite check_tto_struct. apply wpf_intro; [reflexivity|]. wc. cbn [check_tto_fields app]. ws1. auto. }
  assert (RU : returns (check_tto ep uid_ty) [a] w [] w).
  { apply RtDelete.returns_intro. unfold uid_ty. rewrite check_tto_struct. apply wpf_intro; [reflexivity|]. wc. cbn [check_tto_fields app].
    ws1. ws1. ws1. ws1. rewrite Lb. eapply wp_call; [reflexivity|cbn [List.length]; lia|]. wc. eapply returns_wpf; [apply RI|]. wc. ws1. ws1. apply quiet_call2. ws1. auto. }
  apply RtDelete.returns_intro. rewrite check_tto_struct. apply wpf_intro; [reflexivity|]. wc. rewrite <- (app_nil_r (check_tto_fields ep (uid_ty :: fs) 0)).
  cbn [check_tto_fields app uid_ty]. fold (check_tto_fields ep). fold uid_ty. ws1. ws1. ws1. ws1. rewrite La.
  eapply wp_call; [reflexivity|cbn [List.length]; lia|]. wc. eapply returns_wpf; [exact RU|]. wc. ws1. ws1. unfold uid_ty. apply quiet_call2.
  eapply (quiet_fields fs ltac:(apply Forall_forall; intros; apply quiet_plain) ep w x 4 vs G F); try assumption; try lia.
  intros. apply wp_nil. wc. auto.
Qed.

(** ** Moving an object *)

(** The object stays what it is when only its owner changes. *)
Lemma object_reown : forall m m' fs owner owner' id vs x F, object_at m fs owner id vs x F ->
  (forall y, F y -> ~ within (x - 32) 32 y -> rd m' y = rd m y) -> load_be 32 m' (x - 32) = owner' -> object_at m' fs owner' id vs x F.
Proof.
  intros m m' fs owner owner' id vs x F (a&b&c&G&La&Lb&Lc&Li&Lo&Sx&Sa&Sb&Sc&SG&DJ&Fl) A Eo. exists a, b, c, G.
  assert (R : forall p n, sub (between p (p + n)) F -> (forall y, p <= y < p + n -> ~ within (x - 32) 32 y) -> forall y, p <= y < p + n -> rd m' y = rd m y).
  { intros p n S N y Hy. apply A; [apply S; unfold between; lia|apply N; lia]. }
  assert (N : forall y, union G (union (between a (a + 4)) (union (between b (b + 4)) (between c (c + 32)))) y -> ~ within (x - 32) 32 y).
  { intros y Hy W. apply (DJ y); [unfold between, within in *; lia|exact Hy]. }
  assert (Rx : forall y, x <= y < x + 4 + 4 * Z.of_nat (List.length fs) -> rd m' y = rd m y).
  { intros y Hy. apply A; [apply Sx; unfold between; lia|unfold within; lia]. }
  split; [rewrite <- La; apply load_ext; intros; apply Rx; lia|].
  split; [rewrite <- Lb; apply load_ext; intros; eapply (R a 4); [exact Sa| |lia]; intros y Hy; apply N; unfold union, between; lia|].
  split; [rewrite <- Lc; apply load_ext; intros; eapply (R b 4); [exact Sb| |lia]; intros y Hy; apply N; unfold union, between; lia|].
  split; [rewrite <- Li; apply load_be_ext; intros; eapply (R c 32); [exact Sc| |lia]; intros y Hy; apply N; unfold union, between; lia|].
  split; [exact Eo|]. repeat (split; [assumption|]).
  eapply fields_ext; [| |exact Fl].
  - apply Forall2_map. apply Forall_forall. intros t _ v y G' S'. apply field_of_ext; [apply vrep_ext|].
    intros z Hz. apply S' in Hz. apply A; [apply SG; exact Hz|apply N; left; exact Hz].
  - rewrite map_length. intros y Hy. apply Rx. lia.
Qed.

(** Where a deletion leaves fewer bytes, a vector still does not shrink. *)
Definition less_ok (t : ty) : Prop := forall H st st' v p, (forall x, st' x = 0 \/ st' x = st x) -> no_shrink H st t v p -> no_shrink H st' t v p.
Lemma no_shrink_less : forall t, less_ok t.
Proof.
  assert (L : forall fs, Forall less_ok fs ->
    forall H st st' vs p, (forall x, st' x = 0 \/ st' x = st x) -> no_shrinks H st fs vs p -> no_shrinks H st' fs vs p).
  { intros fs Hf. induction Hf as [|t fs Ht Hf IH]; intros H st st' vs p E N; cbn [no_shrinks] in *; [exact Logic.I|].
    destruct vs as [|v vs]; [exact Logic.I|]. destruct N as (N1&N2). split; [eapply Ht; eassumption|eapply IH; eassumption]. }
  apply ty_rec'; try (intros H st st' v p E N; destruct v; exact Logic.I).
  - intros t Ht H st st' v p E N. destruct t; try discriminate; destruct v; exact Logic.I.
  - intros t Ht H st st' v p E N. destruct v; try exact Logic.I. apply no_shrink_vec in N. apply no_shrink_vec. cbv zeta in *. destruct N as (N1&N2). split.
    + destruct (E (fst (room p 32))) as [->| ->]; [rewrite Z.mod_0_l by lia; lia|exact N1].
    + eapply L; [|exact E|exact N2]. apply Forall_forall. intros u Hu. apply in_map_iff in Hu. destruct Hu as (?&<-&_). exact Ht.
  - intros key fs Hf H st st' v p E N. destruct v; try exact Logic.I. apply no_shrink_struct in N. apply no_shrink_struct. eapply L; eassumption.
  - intros vts IH H st st' v p E N. destruct v as [z|l|o l|g l]; try exact Logic.I. destruct (nth_error vts g) as [fs|] eqn:Ef.
    + apply (no_shrink_enum H st' vts g fs l p 0 Ef). apply (no_shrink_enum H st vts g fs l p 0 Ef) in N. eapply L; [|exact E|exact N].
      constructor; [intros ? ? ? ? ? ? _; destruct v; exact Logic.I|exact (nth_error_Forall _ _ _ _ IH Ef)].
    + cbn [no_shrink]. match goal with |- context[nth_error ?l g] => assert (X : nth_error l g = None) by (apply nth_error_None; rewrite map_length; apply nth_error_None; exact Ef) end.
      rewrite X. exact Logic.I.
Qed.
Lemma no_shrinks_less : forall fs H st st' vs p, (forall x, st' x = 0 \/ st' x = st x) -> no_shrinks H st fs vs p -> no_shrinks H st' fs vs p.
Proof.
  intros fs. induction fs as [|t fs IH]; intros H st st' vs p E N; cbn [no_shrinks] in *; [exact Logic.I|].
  destruct vs as [|v vs]; [exact Logic.I|]. destruct N as (N1&N2). split; [eapply no_shrink_less; eassumption|eapply IH; eassumption].
Qed.

Lemma covers_dec : forall l x, covers l x \/ ~ covers l x.
Proof.
  intros l x. induction l as [|a l IH]; [right; intros (a&[]&_)|]. destruct IH as [C|C]; [left; apply covers_cons; auto|].
  destruct (Z.le_gt_cases (fst a) x); [destruct (Z.le_gt_cases x (snd a)); [left; apply covers_cons; auto|]|]; right; intros X; apply covers_cons in X; destruct X; [lia|auto|lia|auto].
Qed.

Lemma statics_grows : forall x w w', statics w -> wok w -> 500 <= x -> grows (del_mem x) w w' -> statics w'.
Proof.
  intros x w w' (S0&S1&S2&S3&S4) Hw Hx G. pose proof Hw as (P1&P2&P3&P4&P5&P6).
  assert (N : forall a n, 0 <= a -> a + Z.of_nat n <= 64 \/ 96 <= a /\ a + Z.of_nat n <= 128 \/ 160 <= a /\ a + Z.of_nat n <= 260 -> forall y, a <= y < a + Z.of_nat n -> ~ del_mem x y).
  { intros a n Ha B y Hy D. unfold del_mem, slot_mem, within in D. lia. }
  unfold statics. split; [|split; [|split; [|split]]];
    [transitivity (load_be 32 (mem w) 0)|transitivity (load 32 (mem w) 32)|transitivity (load_be 32 (mem w) 96)|transitivity (load_be 32 (mem w) 160)|transitivity (load_be 32 (mem w) 192)];
    try assumption; first [eapply load_grows|eapply load_be_grows]; try exact G; try lia; apply N; lia.
Qed.

Lemma leave_wp : forall ep fs o w x owner id vs vs0 F r (Q : outcome -> Prop) s l, wok w -> errtab_ok ep -> statics w ->
  object_at (mem w) fs owner id vs x F -> sub F (heap w) -> forallb storable fs = true -> owner <> frozen_owner ->
  let H := keccak (host w) in let k := slot_of (host w) owner id in
  (owner <> 0 -> forallb erasable fs = true /\ typeds fs vs0 /\ separate (slots H fs vs0 (k, 8)) /\ shapes H (stor (host w)) fs vs0 (k, 8)) ->
  nth_error l o = Some (x - 32) -> nth_error l 0 = Some x ->
  (nomem w (costs vs0) -> Q OTrap) ->
  (forall w' owner', grows (del_mem x) w w' -> gnext w' <= gnext w + costs vs0 -> object_at (mem w') fs owner' id vs x F ->
     (forall y, covers (slots_under H fs vs0 owner k) y -> stor (host w') y = 0) ->
     (forall y, ~ covers (slots_under H fs vs0 owner k) y -> stor (host w') y = stor (host w) y) -> wp r Q s l w') ->
  wp (leave ep fs o ++ r) Q s l w.
Proof.
  intros ep fs o w x owner id vs vs0 F r Q s l Hw He St Ob SF Pl No H k Old Lo L0 T K. pose proof Hw as (P1&P2&P3&P4&P5&P6).
  pose proof (object_placed w fs owner id vs x F Ob SF) as Pt. pose proof Pt as (X1&X2&Eo&_).
  unfold leave. cbn [app].
  assert (Tail : forall w' owner', grows (del_mem x) w w' -> gnext w' <= gnext w + costs vs0 -> object_at (mem w') fs owner' id vs x F ->
     (forall y, covers (slots_under H fs vs0 owner k) y -> stor (host w') y = 0) ->
     (forall y, ~ covers (slots_under H fs vs0 owner k) y -> stor (host w') y = stor (host w) y) ->
     wp (LocalGet 0 :: Call (check_tto ep (TStruct true (uid_ty :: fs))) :: r) Q s l w').
  { intros w' owner' G N Ob' C1 C2. eapply wp_lget; [exact L0|]. eapply wp_call; [reflexivity|cbn [List.length]; lia|]. wc.
    eapply returns_wpf; [eapply check_tto_object; [apply G|exact Pl|exact Ob'|eapply heap_grows; eassumption]|]. wc. eapply K; eassumption. }
  apply wp_block. eapply wp_lget; [exact Lo|]. ws1. eapply wp_call; [reflexivity|cbn [List.length]; lia|]. wc.
  eapply returns_wpf; [apply is_zero_be; [exact Hw|unfold live; lia]|]. wc. rewrite Eo.
  apply wp_brif; intros C; unb C; wc.
  - apply (Tail w owner); [apply grows_refl; exact Hw|pose proof (costs_nonneg vs0); lia|exact Ob| |]; unfold slots_under; rewrite C; intros y Cy; [|reflexivity].
    destruct Cy as (?&[]&_).
  - destruct (Z.eqb_spec owner 0) as [E0|E0]; [discriminate|]. destruct (Old E0) as (Er&Ty&Sp&Sh). eapply wp_lget; [exact L0|].
    assert (Pf : Forall (fun t => erasable t = true) fs) by (apply Forall_forall; rewrite forallb_forall in Er; exact Er).
    eapply wp_call_spec; [reflexivity|cbn [List.length]; lia| | |].
    + wc. eapply (delete_object_spec ep fs w x owner id vs0); assumption.
    + intros N. apply T. exact N.
    + intros rs w1 (->&G1&N1&Z1&C1&C2). wc. apply wp_nil. wc. apply (Tail w1 0); [exact G1|exact N1| | |]; unfold slots_under; try rewrite (proj2 (Z.eqb_neq owner 0) E0); try assumption.
      eapply object_reown; [exact Ob| |exact Z1]. intros y Hy Ny. pose proof (SF y Hy) as B. unfold heap, between in B. destruct G1 as (_&_&_&_&_&_&G1). apply G1; [lia|].
      unfold del_mem, slot_mem, within in *. lia.
Qed.

(** A frozen object is not deleted; the error is only noted. *)
Lemma leave_frozen : forall ep fs o w x id vs F r (Q : outcome -> Prop) s l, wok w -> errtab_ok ep -> statics w ->
  object_at (mem w) fs frozen_owner id vs x F -> sub F (heap w) -> forallb storable fs = true ->
  nth_error l o = Some (x - 32) -> nth_error l 0 = Some x ->
  (let w' := set_mem w (store 4 (mem w) 256 (ep FrozenObjectsCannotBeDeleted)) in wok w' -> statics w' -> object_at (mem w') fs frozen_owner id vs x F -> wp r Q s l w') ->
  wp (leave ep fs o ++ r) Q s l w.
Proof.
  intros ep fs o w x id vs F r Q s l Hw He St Ob SF Pl Lo L0 K. pose proof Hw as (P1&P2&P3&P4&P5&P6).
  pose proof (object_placed w fs frozen_owner id vs x F Ob SF) as Pt. pose proof Pt as (X1&X2&Eo&_).
  unfold leave. cbn [app].
  apply wp_block. eapply wp_lget; [exact Lo|]. ws1. eapply wp_call; [reflexivity|cbn [List.length]; lia|]. wc.
  eapply returns_wpf; [apply is_zero_be; [exact Hw|unfold live; lia]|]. wc. rewrite Eo. change (frozen_owner =? 0) with false. cbn [b2z].
  apply wp_brif; intros C; unb C; [exfalso; lia|]. wc. eapply wp_lget; [exact L0|].
  eapply wp_call; [reflexivity|cbn [List.length]; lia|]. wc. eapply returns_wpf; [eapply delete_object_frozen; eassumption|]. wc. apply wp_nil. wc.
  cbv zeta in K. set (w1 := set_mem w _) in *.
  assert (F1 : forall y, ~ within 256 4 y -> rd (mem w1) y = rd (mem w) y) by (intros y Hy; unfold within in Hy; cbn [w1 mem set_mem]; apply rd_store_out; lia).
  assert (Hw1 : wok w1) by (apply wok_set_mem; [exact Hw|]; intros y Hy; apply F1; unfold within; lia).
  assert (Ob1 : object_at (mem w1) fs frozen_owner id vs x F).
  { eapply object_agree; [|exact Ob]. intros y Hy. apply SF in Hy. unfold heap, between in Hy. apply F1. unfold within. lia. }
  eapply wp_lget; [exact L0|]. eapply wp_call; [reflexivity|cbn [List.length]; lia|]. wc.
  eapply returns_wpf; [eapply check_tto_object; [exact Hw1|exact Pl|exact Ob1|exact SF]|]. wc. apply K; [exact Hw1| |exact Ob1].
  destruct St as (S0&S1&S2&S3&S4). unfold statics. split; [|split; [|split; [|split]]];
    [transitivity (load_be 32 (mem w) 0)|transitivity (load 32 (mem w) 32)|transitivity (load_be 32 (mem w) 96)|transitivity (load_be 32 (mem w) 160)|transitivity (load_be 32 (mem w) 192)];
    try assumption; first [apply load_ext|apply load_be_ext]; intros; apply F1; unfold within; lia.
Qed.

(** Computing the slot under the key at [kp] and saving the object there; [p]: the memory for the slot number. *)
Lemma arrive_at_wp : forall ep h fs i j w x owner id vs F kp c p r (Q : outcome -> Prop) s l, wok w -> errtab_ok ep -> statics w ->
  object_at (mem w) fs owner id vs x F -> sub F (between 468 p) -> p + 32 = gnext w -> forallb storable fs = true -> 0 <= h < 2 ^ 64 ->
  0 <= kp -> kp + 32 <= p -> load_be 32 (mem w) kp = owner -> 468 <= c -> c + 32 <= p -> load_be 32 (mem w) c = id ->
  let H := keccak (host w) in let k := slot_of (host w) owner id in
  separate (slots H fs vs (k, 8)) -> no_shrinks H (stor (host w)) fs vs (k, 8) ->
  nth_error l i = Some x -> nth_error l j = Some p ->
  (nomem w (costs vs) -> Q OTrap) ->
  (forall w', grows (fun y => (within 64 32 y \/ within 260 128 y) \/ within 404 64 y \/ within p 32 y) w w' -> gnext w' <= gnext w + costs vs -> object_at (mem w') fs owner id vs x F ->
     stor (host w') k mod 2 ^ 64 = bswap 8 h -> helds H (stor (host w')) fs vs (k, 8) ->
     (forall y, ~ covers (slots H fs vs (k, 8)) y -> stor (host w') y = stor (host w) y) -> wp r Q s l w') ->
  wp (Call write_object_slot :: LocalGet i :: LocalGet j :: Call (save_object ep h fs) :: r) Q (p :: c :: kp :: s) l w.
Proof.
  intros ep h fs i j w x owner id vs F kp c p r Q s l Hw He (S0&S1&S2&S3&S4) Ob SF Gp Pl Hh Hkp Hkp2 Lk Hc Hc2 Lc H k Se Ns L0 Lj T K.
  pose proof Hw as (P1&P2&P3&P4&P5&P6).
  destruct (write_object_slot_spec w kp c p Hw S2) as (m1&R1&V1&F1); try (unfold live; lia).
  eapply wp_call; [reflexivity|cbn [List.length]; lia|]. wc. eapply returns_wpf; [exact R1|]. wc. eapply wp_lget; [exact L0|]. eapply wp_lget; [exact Lj|].
  rewrite Lk, Lc in V1. fold k in V1. set (w1 := set_mem w m1) in *. set (M := fun y => (within 64 32 y \/ within 260 128 y) \/ within 404 64 y \/ within p 32 y) in *.
  assert (G1 : grows M w w1).
  { apply grows_set_mem; [exact Hw| |]; unfold M; [intros a Ha; apply F1; tauto|unfold within; intros; lia]. }
  assert (A : forall w', grows M w w' -> object_at (mem w') fs owner id vs x F).
  { intros w' (_&_&_&_&_&_&G). eapply object_agree; [|exact Ob]. intros y Hy. apply SF in Hy. unfold between in Hy. apply G; [lia|]. unfold M, within. lia. }
  eapply wp_call_spec; [reflexivity|cbn [List.length]; lia| | |].
  { wc. eapply (save_object_spec ep h fs w1 x p owner id vs F k).
    - split; [apply G1|]. split; [exact He|]. split; [|change (gnext w1) with (gnext w); lia]. transitivity (load 32 (mem w) 32); [|exact S1]. apply load_ext. intros. apply F1; unfold within; lia.
    - transitivity (load_be 32 (mem w) 0); [|exact S0]. apply load_be_ext. intros. apply F1; unfold within; lia.
    - exact V1.
    - exact Pl.
    - exact Hh.
    - apply A. exact G1.
    - intros y Hy. apply SF in Hy. unfold heap, between in *. change (gnext w1) with (gnext w). lia.
    - intros y Hy Y. apply SF in Hy. unfold between in *. lia.
    - exact Se.
    - exact Ns. }
  { intros N. apply T. exact N. }
  intros rs w2 (->&G2&N2&T2&H2&U2). wc. assert (G : grows M w w2) by (eapply grows_trans; [exact G1|eapply grows_mono; [exact G2|]]; unfold slot_mem, M; intros; tauto).
  apply K; [exact G|exact N2|apply A; exact G|exact T2|exact H2|exact U2].
Qed.
Lemma arrive_wp : forall ep h fs j w x owner id vs F kp c p r (Q : outcome -> Prop) s l, wok w -> errtab_ok ep -> statics w ->
  object_at (mem w) fs owner id vs x F -> sub F (between 468 p) -> p + 32 = gnext w -> forallb storable fs = true -> 0 <= h < 2 ^ 64 ->
  0 <= kp -> kp + 32 <= p -> load_be 32 (mem w) kp = owner -> 468 <= c -> c + 32 <= p -> load_be 32 (mem w) c = id ->
  let H := keccak (host w) in let k := slot_of (host w) owner id in
  separate (slots H fs vs (k, 8)) -> no_shrinks H (stor (host w)) fs vs (k, 8) ->
  nth_error l 0 = Some x -> nth_error l j = Some p ->
  (nomem w (costs vs) -> Q OTrap) ->
  (forall w', grows (fun y => (within 64 32 y \/ within 260 128 y) \/ within 404 64 y \/ within p 32 y) w w' -> gnext w' <= gnext w + costs vs -> object_at (mem w') fs owner id vs x F ->
     stor (host w') k mod 2 ^ 64 = bswap 8 h -> helds H (stor (host w')) fs vs (k, 8) ->
     (forall y, ~ covers (slots H fs vs (k, 8)) y -> stor (host w') y = stor (host w) y) -> wp r Q s l w') ->
  wp (Call write_object_slot :: LocalGet 0 :: LocalGet j :: Call (save_object ep h fs) :: r) Q (p :: c :: kp :: s) l w.
Proof. intros ep h fs j. exact (arrive_at_wp ep h fs 0 j). Qed.

(** What moving the object at [x] to the mapping of [owner'] comes to. *)
Definition moved (h : Z) (fs : list ty) (vs vs0 : list val) (x owner owner' id : Z) (F : mset) (w w' : world) : Prop :=
  let H := keccak (host w) in let k := slot_of (host w) owner id in let k' := slot_of (host w) owner' id in
  grows (del_mem x) w w' /\ gnext w' <= gnext w + 32 + costs vs0 + costs vs /\ object_at (mem w') fs owner' id vs x F /\
  stor (host w') k' mod 2 ^ 64 = bswap 8 h /\ helds H (stor (host w')) fs vs (k', 8) /\
  (forall y, covers (slots_under H fs vs0 owner k) y -> ~ covers (slots H fs vs (k', 8)) y -> stor (host w') y = 0) /\
  (forall y, ~ covers (slots_under H fs vs0 owner k) y -> ~ covers (slots H fs vs (k', 8)) y -> stor (host w') y = stor (host w) y).

(** Writing the new owner before the object. *)
Lemma reown : forall fs w x owner id vs F kp, wok w -> statics w -> object_at (mem w) fs owner id vs x F -> sub F (heap w) ->
  0 <= kp -> kp + 32 <= gnext w -> kp + 32 <= x - 32 \/ x <= kp ->
  let w' := set_mem w (mcopy (mem w) (x - 32) kp 32) in
  grows (del_mem x) w w' /\ statics w' /\ load_be 32 (mem w') kp = load_be 32 (mem w) kp /\ object_at (mem w') fs (load_be 32 (mem w) kp) id vs x F.
Proof.
  intros fs w x owner id vs F kp Hw St Ob SF K1 K2 K3 w'. pose proof Hw as (P1&P2&P3&P4&P5&P6).
  pose proof (object_placed w fs owner id vs x F Ob SF) as (X1&X2&Eo&_).
  assert (O : forall y, ~ within (x - 32) 32 y -> rd (mem w') y = rd (mem w) y) by (intros; apply rd_mcopy_frame; assumption).
  assert (G : grows (del_mem x) w w').
  { apply grows_set_mem; [exact Hw| |]; unfold del_mem, slot_mem, within; [|intros; lia]. intros a Ha. apply O. unfold within. lia. }
  split; [exact G|]. split; [eapply statics_grows; eassumption|]. split; [apply load_be_ext; intros; apply O; unfold within; lia|].
  eapply object_reown; [exact Ob|intros; apply O; assumption|]. apply load_be_ext. intros i Hi. change (Z.of_nat 32) with 32 in Hi. cbn [w' mem set_mem]. rewrite rd_mcopy_in by lia. f_equal. lia.
Qed.

Lemma less_after : forall w w' l, (forall y, covers l y -> stor (host w') y = 0) -> (forall y, ~ covers l y -> stor (host w') y = stor (host w) y) ->
  forall y, stor (host w') y = 0 \/ stor (host w') y = stor (host w) y.
Proof. intros w w' l A B y. destruct (covers_dec l y); auto. Qed.

(** The end of a transfer. *)
Lemma receive_wp : forall ep h fs w x owner id vs F rp l3 l4 l5 r (Q : outcome -> Prop), wok w -> errtab_ok ep -> statics w ->
  object_at (mem w) fs owner id vs x F -> sub F (heap w) -> forallb storable fs = true -> 0 <= h < 2 ^ 64 ->
  468 <= rp -> rp + 32 <= gnext w -> rp + 32 <= x - 32 \/ x <= rp ->
  let H := keccak (host w) in let owner' := load_be 32 (mem w) rp in let k := slot_of (host w) owner' id in
  separate (slots H fs vs (k, 8)) -> no_shrinks H (stor (host w)) fs vs (k, 8) ->
  (oom w (32 + costs vs) -> Q OTrap) ->
  (forall w' l3 l4, grows (del_mem x) w w' -> gnext w' <= gnext w + 32 + costs vs -> object_at (mem w') fs owner' id vs x F ->
     stor (host w') k mod 2 ^ 64 = bswap 8 h -> helds H (stor (host w')) fs vs (k, 8) ->
     (forall y, ~ covers (slots H fs vs (k, 8)) y -> stor (host w') y = stor (host w) y) -> wp r Q [] [x; rp; x - 32; l3; l4; l5] w') ->
  wp ([ LocalGet 2; LocalGet 1; Const 32; MemCopy;
        LocalGet 0; Call get_id_bytes_ptr; LocalSet 3;
        Const 32; Call alloc; LocalSet 4;
        LocalGet 1; LocalGet 3; LocalGet 4; Call write_object_slot;
        LocalGet 0; LocalGet 4; Call (save_object ep h fs) ] ++ r) Q [] [x; rp; x - 32; l3; l4; l5] w.
Proof.
  intros ep h fs w x owner id vs F rp l3 l4 l5 r Q Hw He St Ob SF Pl Hh R1 R2 R3 H owner' k Se Ns T K. pose proof Hw as (P1&P2&P3&P4&P5&P6).
  pose proof (object_placed w fs owner id vs x F Ob SF) as (X1&X2&Eo&_).
  destruct (reown fs w x owner id vs F rp Hw St Ob SF ltac:(lia) R2 R3) as (G1&St1&Lr&Ob1). fold owner' in Lr, Ob1.
  cbn [app]. ws1. ws1. ws1. apply wp_mcopy; [lia|unfold page_size; lia|lia|unfold page_size; lia|]. set (w1 := set_mem w _) in *.
  assert (Hw1 : wok w1) by apply G1. assert (SF1 : sub F (heap w1)) by exact SF. assert (Gn1 : gnext w1 = gnext w) by reflexivity.
  destruct (id_bytes_ok w1 (mem w1) fs owner' id vs x F Ob1 SF1 Hw1 eq_refl) as (c&Ri&Lc&C1&C2&_).
  ws1. eapply wp_call; [reflexivity|cbn [List.length]; lia|]. wc. eapply returns_wpf; [exact Ri|]. wc. ws1. ws1.
  wcall alloc_spec; [exact Hw1|lia|intros O; apply T; eapply oom_mono; [exact O|]; pose proof (costs_nonneg vs); lia|].
  intros rs w2 (->&Al). pose proof (alloc_extends _ _ _ Hw1 Al ltac:(lia)) as Ex. destruct Al as (Hw2&Em&A1&A2&A3&A4&A5).
  wc. ws1. ws1. ws1. ws1.
  assert (G2 : grows (del_mem x) w w2) by (eapply grows_trans; [exact G1|apply grows_extends; exact Ex]).
  assert (H2 : host w2 = host w) by exact A5.
  eapply (arrive_wp ep h fs 4 w2 x owner' id vs F rp c (gnext w1)).
  - exact Hw2.
  - exact He.
  - eapply statics_extends; [exact Hw1|exact St1|exact Ex].
  - rewrite Em. exact Ob1.
  - intros y Hy. apply SF1 in Hy. exact Hy.
  - lia.
  - exact Pl.
  - exact Hh.
  - lia.
  - lia.
  - rewrite Em. exact Lr.
  - exact C1.
  - exact C2.
  - rewrite Em. exact Lc.
  - rewrite H2. exact Se.
  - rewrite H2. exact Ns.
  - reflexivity.
  - reflexivity.
  - intros (N1&N2). apply T. unfold oom in *. change (maxpages w1) with (maxpages w) in A1. lia.
  - rewrite H2. fold H k. intros w3 G3 N3 Ob3 T3 Hd3 U3. apply K; try assumption; [|lia].
    eapply grows_trans; [exact G1|]. destruct Ex as (E1&E2&E3&E4&E5&E6&E7). destruct G3 as (B1&B2&B3&B4&B5&B6&B7).
    unfold grows. rewrite B6 at 1. rewrite E6. repeat (split; [first [assumption|congruence|lia]|]).
    intros y Hy Ny. rewrite B7; [apply E7; lia|lia|]. unfold del_mem, slot_mem, within in *. lia.
Qed.

Lemma moved_intro : forall h fs vs vs0 x owner owner' id F w w1 w2, let H := keccak (host w) in let k := slot_of (host w) owner id in let k' := slot_of (host w) owner' id in
  grows (del_mem x) w w1 -> gnext w1 <= gnext w + costs vs0 ->
  (forall y, covers (slots_under H fs vs0 owner k) y -> stor (host w1) y = 0) ->
  (forall y, ~ covers (slots_under H fs vs0 owner k) y -> stor (host w1) y = stor (host w) y) ->
  grows (del_mem x) w1 w2 -> gnext w2 <= gnext w1 + 32 + costs vs -> object_at (mem w2) fs owner' id vs x F ->
  stor (host w2) k' mod 2 ^ 64 = bswap 8 h -> helds H (stor (host w2)) fs vs (k', 8) ->
  (forall y, ~ covers (slots H fs vs (k', 8)) y -> stor (host w2) y = stor (host w1) y) ->
  moved h fs vs vs0 x owner owner' id F w w2.
Proof.
  intros h fs vs vs0 x owner owner' id F w w1 w2 H k k' G1 N1 C1 C2 G2 N2 Ob T Hd U. unfold moved. fold H k k'.
  split; [eapply grows_trans; [exact G1|exact G2]|]. split; [lia|]. split; [exact Ob|]. split; [exact T|]. split; [exact Hd|].
  split; intros y A B; rewrite U by exact B; auto.
Qed.

Lemma slot_of_keccak : forall h h' a b, keccak h' = keccak h -> slot_of h' a b = slot_of h a b.
Proof. intros h h' a b E. unfold slot_of, hash. rewrite E. reflexivity. Qed.

(** An object that is neither shared nor frozen moves to the recipient. *)
Lemma transfer_object_spec : forall ep h fs w x rp owner id vs vs0 F, wok w -> errtab_ok ep -> statics w ->
  object_at (mem w) fs owner id vs x F -> sub F (heap w) -> forallb storable fs = true -> 0 <= h < 2 ^ 64 ->
  owner <> shared_owner -> owner <> frozen_owner ->
  468 <= rp -> rp + 32 <= gnext w -> rp + 32 <= x - 32 \/ x <= rp ->
  let H := keccak (host w) in let owner' := load_be 32 (mem w) rp in let k := slot_of (host w) owner id in let k' := slot_of (host w) owner' id in
  (owner <> 0 -> forallb erasable fs = true /\ typeds fs vs0 /\ separate (slots H fs vs0 (k, 8)) /\ shapes H (stor (host w)) fs vs0 (k, 8)) ->
  separate (slots H fs vs (k', 8)) -> no_shrinks H (stor (host w)) fs vs (k', 8) ->
  wpf (transfer_object ep h fs) [x; rp] w (resq (fun r w' => r = [] /\ moved h fs vs vs0 x owner owner' id F w w') (oom w (32 + costs vs0 + costs vs))).
Proof.
  intros ep h fs w x rp owner id vs vs0 F Hw He St Ob SF Pl Hh No1 No2 R1 R2 R3 H owner' k k' Old Se Ns. pose proof Hw as (P1&P2&P3&P4&P5&P6).
  pose proof (object_placed w fs owner id vs x F Ob SF) as (X1&X2&Eo&_). pose proof St as (S0&S1&S2&S3&S4).
  pose proof (costs_nonneg vs) as Cn. pose proof (costs_nonneg vs0) as Cn0.
  apply wpf_intro; [reflexivity|]. wc. unfold transfer_object, A_SHARED, A_FROZEN. cbn [app]. ws1. ws1. ws1. ws1.
  apply wp_block. ws1. ws1. ws1. eapply wp_call; [reflexivity|cbn [List.length]; lia|]. wc.
  eapply returns_wpf; [apply (a_equals_b_spec 32); [exact Hw|unfold live; lia|unfold live; lia]|]. wc.
  rewrite eqb_be, Eo, S3, (proj2 (Z.eqb_neq owner shared_owner)) by exact No1. cbn [b2z]. ws1. apply wp_brif; intros C; unb C; [|exfalso; lia]. wc. clear C.
  apply wp_block. ws1. ws1. ws1. ws1. eapply wp_call; [reflexivity|cbn [List.length]; lia|]. wc.
  eapply returns_wpf; [apply (a_equals_b_spec 0); [exact Hw|unfold live; lia|unfold live; lia]|]. wc. cbn [load b2z Z.eqb].
  apply wp_brif; intros C; unb C; [|exfalso; lia]. wc. clear C.
  eapply (leave_wp ep fs 2 w x owner id vs vs0 F); try eassumption; try reflexivity.
  { intros (N1&N2). eapply oom_mono; [exact N2|lia]. }
  intros w1 o1 G1 N1 Ob1 C1 C2. pose proof (keccak_grows _ _ _ G1) as K1. pose proof G1 as (Hw1&_&_&N1'&_).
  assert (E1 : load_be 32 (mem w1) rp = owner').
  { eapply load_be_grows; [exact G1|lia|lia|]. intros y Hy D. unfold del_mem, slot_mem, within in D. lia. }
  assert (Ek : slot_of (host w1) owner' id = k') by (apply slot_of_keccak; exact K1).
  match goal with |- wp ?c _ _ _ _ => rewrite <- (app_nil_r c) end.
  eapply (receive_wp ep h fs w1 x o1 id vs F rp); try assumption.
  - eapply statics_grows; [exact St|exact Hw|exact X1|exact G1].
  - eapply heap_grows; eassumption.
  - lia.
  - rewrite K1, E1, Ek. exact Se.
  - rewrite K1, E1, Ek. eapply no_shrinks_less; [|exact Ns]. eapply less_after; eassumption.
  - intros O. unfold oom in *. pose proof (proj1 (proj2 G1)) as M1. cbn [resq fret] in *. lia.
  - rewrite K1, E1, Ek. intros w2 l3 l4 G2 N2 Ob2 T2 Hd2 U2. apply wp_nil. wc. split; [reflexivity|].
    eapply moved_intro; [exact G1|exact N1|exact C1|exact C2|exact G2|exact N2|exact Ob2|exact T2|exact Hd2|exact U2].
Qed.

(** A shared object is refused. *)
Lemma transfer_object_shared : forall ep h fs w x rp id vs F, wok w -> statics w -> object_at (mem w) fs shared_owner id vs x F -> sub F (heap w) ->
  returns (transfer_object ep h fs) [x; rp] w [] (set_mem w (store 4 (mem w) 256 (ep SharedObjectsCannotBeTransferred))).
Proof.
  intros ep h fs w x rp id vs F Hw St Ob SF. pose proof Hw as (P1&P2&P3&P4&P5&P6).
  pose proof (object_placed w fs shared_owner id vs x F Ob SF) as (X1&X2&Eo&_). pose proof St as (S0&S1&S2&S3&S4).
  apply RtDelete.returns_intro. apply wpf_intro; [reflexivity|]. wc. unfold transfer_object, A_SHARED, A_FROZEN. cbn [app]. ws1. ws1. ws1. ws1.
  apply wp_block. ws1. ws1. ws1. eapply wp_call; [reflexivity|cbn [List.length]; lia|]. wc.
  eapply returns_wpf; [apply (a_equals_b_spec 32); [exact Hw|unfold live; lia|unfold live; lia]|]. wc.
  rewrite eqb_be, Eo, S3, Z.eqb_refl. cbn [b2z]. ws1. apply wp_brif; intros C; unb C; [exfalso; lia|]. wc. werr; [exact Hw|]. auto.
Qed.

(** A frozen object: the check for it never fails, the attempt to delete it does; the error is noted, and the object saved under the
    recipient all the same. *)
Lemma transfer_object_frozen : forall ep h fs w x rp id vs F, wok w -> errtab_ok ep -> statics w ->
  object_at (mem w) fs frozen_owner id vs x F -> sub F (heap w) -> forallb storable fs = true -> 0 <= h < 2 ^ 64 ->
  468 <= rp -> rp + 32 <= gnext w -> rp + 32 <= x - 32 \/ x <= rp ->
  let H := keccak (host w) in let owner' := load_be 32 (mem w) rp in let k' := slot_of (host w) owner' id in
  separate (slots H fs vs (k', 8)) -> no_shrinks H (stor (host w)) fs vs (k', 8) ->
  wpf (transfer_object ep h fs) [x; rp] w (resq (fun r w' => r = [] /\ abort_flag w' = ep FrozenObjectsCannotBeDeleted /\
     stor (host w') k' mod 2 ^ 64 = bswap 8 h /\ helds H (stor (host w')) fs vs (k', 8) /\
     (forall y, ~ covers (slots H fs vs (k', 8)) y -> stor (host w') y = stor (host w) y)) (oom w (32 + costs vs))).
Proof.
  intros ep h fs w x rp id vs F Hw He St Ob SF Pl Hh R1 R2 R3 H owner' k' Se Ns. pose proof Hw as (P1&P2&P3&P4&P5&P6).
  pose proof (object_placed w fs frozen_owner id vs x F Ob SF) as (X1&X2&Eo&_). pose proof St as (S0&S1&S2&S3&S4).
  apply wpf_intro; [reflexivity|]. wc. unfold transfer_object, A_SHARED, A_FROZEN. cbn [app]. ws1. ws1. ws1. ws1.
  apply wp_block. ws1. ws1. ws1. eapply wp_call; [reflexivity|cbn [List.length]; lia|]. wc.
  eapply returns_wpf; [apply (a_equals_b_spec 32); [exact Hw|unfold live; lia|unfold live; lia]|]. wc.
  rewrite eqb_be, Eo, S3. change (frozen_owner =? shared_owner) with false. cbn [b2z]. ws1. apply wp_brif; intros C; unb C; [|exfalso; lia]. wc. clear C.
  apply wp_block. ws1. ws1. ws1. ws1. eapply wp_call; [reflexivity|cbn [List.length]; lia|]. wc.
  eapply returns_wpf; [apply (a_equals_b_spec 0); [exact Hw|unfold live; lia|unfold live; lia]|]. wc. cbn [load b2z Z.eqb].
  apply wp_brif; intros C; unb C; [|exfalso; lia]. wc. clear C.
  eapply (leave_frozen ep fs 2 w x id vs F); try eassumption; try reflexivity.
  intros w1 Hw1 St1 Ob1. cbv zeta.
  assert (E1 : load_be 32 (mem w1) rp = owner').
  { apply load_be_ext. intros i Hi. cbn [w1 mem set_mem]. apply rd_store_out. lia. }
  match goal with |- wp ?c _ _ _ _ => rewrite <- (app_nil_r c) end.
  eapply (receive_wp ep h fs w1 x frozen_owner id vs F rp); try assumption.
  - rewrite E1. exact Se.
  - rewrite E1. exact Ns.
  - intros O. exact O.
  - rewrite E1. intros w2 l3 l4 G2 N2 Ob2 T2 Hd2 U2. apply wp_nil. wc. split; [reflexivity|].
    split; [|split; [exact T2|split; [exact Hd2|exact U2]]].
    transitivity (abort_flag w1).
    + unfold abort_flag. eapply load_grows; [exact G2|lia|cbn [w1 gnext set_mem]; lia|]. intros y Hy D. unfold del_mem, slot_mem, within in D. lia.
    + unfold abort_flag, w1. cbn [mem set_mem]. rewrite load_store_same. apply Z.mod_small. specialize (He FrozenObjectsCannotBeDeleted). change (256 ^ Z.of_nat 4) with 4294967296. lia.
Qed.

(** Sharing and freezing. *)
Lemma settle_wp : forall ep h fs w x owner id vs vs0 F key l2 l3 r (Q : outcome -> Prop), wok w -> errtab_ok ep -> statics w ->
  object_at (mem w) fs owner id vs x F -> sub F (heap w) -> forallb storable fs = true -> 0 <= h < 2 ^ 64 ->
  owner <> frozen_owner -> key = 160 \/ key = 192 ->
  let H := keccak (host w) in let owner' := load_be 32 (mem w) key in let k := slot_of (host w) owner id in let k' := slot_of (host w) owner' id in
  (owner <> 0 -> forallb erasable fs = true /\ typeds fs vs0 /\ separate (slots H fs vs0 (k, 8)) /\ shapes H (stor (host w)) fs vs0 (k, 8)) ->
  separate (slots H fs vs (k', 8)) -> no_shrinks H (stor (host w)) fs vs (k', 8) ->
  (oom w (32 + costs vs0 + costs vs) -> Q OTrap) ->
  (forall w' l2, moved h fs vs vs0 x owner owner' id F w w' -> wp r Q [] [x; x - 32; l2; l3] w') ->
  wp (settle ep h fs key ++ r) Q [] [x; x - 32; l2; l3] w.
Proof.
  intros ep h fs w x owner id vs vs0 F key l2 l3 r Q Hw He St Ob SF Pl Hh No Hk H owner' k k' Old Se Ns T K. pose proof Hw as (P1&P2&P3&P4&P5&P6).
  pose proof (object_placed w fs owner id vs x F Ob SF) as (X1&X2&Eo&_). pose proof (costs_nonneg vs) as Cn. pose proof (costs_nonneg vs0) as Cn0.
  unfold settle. rewrite <- app_assoc.
  eapply (leave_wp ep fs 1 w x owner id vs vs0 F); try eassumption; try reflexivity.
  { intros (N1&N2). apply T. eapply oom_mono; [exact N2|lia]. }
  intros w1 o1 G1 N1 Ob1 C1 C2. pose proof (keccak_grows _ _ _ G1) as K1. pose proof G1 as (Hw1&M1&_&N1'&_).
  pose proof (statics_grows x w w1 St Hw X1 G1) as St1. pose proof (heap_grows _ _ _ _ G1 SF) as SF1. pose proof Hw1 as (Q1&Q2&Q3&Q4&Q5&Q6).
  assert (E1 : load_be 32 (mem w1) key = owner').
  { eapply load_be_grows; [exact G1|lia|lia|]. intros y Hy D. unfold del_mem, slot_mem, within in D. lia. }
  assert (Ek : slot_of (host w1) owner' id = k') by (apply slot_of_keccak; exact K1).
  destruct (reown fs w1 x o1 id vs F key Hw1 St1 Ob1 SF1) as (G2&St2&Lr&Ob2); try lia. rewrite E1 in Lr, Ob2.
  cbn [app]. ws1. ws1. ws1. apply wp_mcopy; [lia|unfold page_size; lia|lia|unfold page_size; lia|]. set (w2 := set_mem w1 _) in *.
  assert (Hw2 : wok w2) by apply G2. assert (SF2 : sub F (heap w2)) by exact SF1. assert (Gn2 : gnext w2 = gnext w1) by reflexivity.
  ws1. wcall alloc_spec; [exact Hw2|lia|intros O; apply T; unfold oom in *; change (maxpages w2) with (maxpages w1) in O; lia|].
  intros rs w3 (->&Al). pose proof (alloc_extends _ _ _ Hw2 Al ltac:(lia)) as Ex. destruct Al as (Hw3&Em&A1&A2&A3&A4&A5).
  assert (Ob3 : object_at (mem w3) fs owner' id vs x F) by (rewrite Em; exact Ob2).
  assert (SF3 : sub F (heap w3)) by (intros y Hy; specialize (SF2 y Hy); unfold heap, between in *; lia).
  destruct (id_bytes_ok w2 (mem w2) fs owner' id vs x F Ob2 SF2 Hw2 eq_refl) as (c&_&Lc&C3&C4&_&_&_&Ec0&_).
  destruct (id_bytes_ok w3 (mem w3) fs owner' id vs x F Ob3 SF3 Hw3 eq_refl) as (c'&Ri&_&_&_&_&_&_&Ec&_).
  assert (Ecc : c' = c) by (rewrite Ec, Ec0, Em; reflexivity). clear Ec. subst c'.
  wc. ws1. ws1. ws1. eapply wp_call; [reflexivity|cbn [List.length]; lia|]. wc. eapply returns_wpf; [exact Ri|]. wc. ws1.
  assert (H3 : host w3 = host w1) by exact A5.
  eapply (arrive_wp ep h fs 2 w3 x owner' id vs F key c (gnext w2)).
  - exact Hw3.
  - exact He.
  - eapply statics_extends; [exact Hw2|exact St2|exact Ex].
  - exact Ob3.
  - exact SF2.
  - lia.
  - exact Pl.
  - exact Hh.
  - lia.
  - lia.
  - rewrite Em. exact Lr.
  - exact C3.
  - exact C4.
  - rewrite Em. exact Lc.
  - rewrite H3, K1, Ek. exact Se.
  - rewrite H3, K1, Ek. eapply no_shrinks_less; [|exact Ns]. eapply less_after; eassumption.
  - reflexivity.
  - reflexivity.
  - intros (O1&O2). apply T. unfold oom in *. change (maxpages w2) with (maxpages w1) in A1. lia.
  - rewrite H3, K1, Ek. fold H. intros w4 G4 N4 Ob4 T4 Hd4 U4. apply K.
    eapply (moved_intro h fs vs vs0 x owner owner' id F w w1 w4); [exact G1|exact N1|exact C1|exact C2| |lia|exact Ob4|exact T4|exact Hd4|exact U4].
    eapply grows_trans; [exact G2|]. destruct Ex as (E1'&E2&E3&E4&E5&E6&E7). destruct G4 as (B1&B2&B3&B4&B5&B6&B7).
    unfold grows. rewrite B6 at 1. rewrite E6. repeat (split; [first [assumption|congruence|lia]|]).
    intros y Hy Ny. rewrite B7; [apply E7; lia|lia|]. unfold del_mem, slot_mem, within in *. lia.
Qed.

Lemma share_object_spec : forall ep h fs w x owner id vs vs0 F, wok w -> errtab_ok ep -> statics w ->
  object_at (mem w) fs owner id vs x F -> sub F (heap w) -> forallb storable fs = true -> 0 <= h < 2 ^ 64 ->
  owner <> shared_owner -> owner <> frozen_owner ->
  let H := keccak (host w) in let k := slot_of (host w) owner id in let k' := slot_of (host w) shared_owner id in
  (owner <> 0 -> forallb erasable fs = true /\ typeds fs vs0 /\ separate (slots H fs vs0 (k, 8)) /\ shapes H (stor (host w)) fs vs0 (k, 8)) ->
  separate (slots H fs vs (k', 8)) -> no_shrinks H (stor (host w)) fs vs (k', 8) ->
  wpf (share_object ep h fs) [x] w (resq (fun r w' => r = [] /\ moved h fs vs vs0 x owner shared_owner id F w w') (oom w (32 + costs vs0 + costs vs))).
Proof.
  intros ep h fs w x owner id vs vs0 F Hw He St Ob SF Pl Hh No1 No2 H k k' Old Se Ns. pose proof Hw as (P1&P2&P3&P4&P5&P6).
  pose proof (object_placed w fs owner id vs x F Ob SF) as (X1&X2&Eo&_). pose proof St as (S0&S1&S2&S3&S4).
  apply wpf_intro; [reflexivity|]. wc. unfold share_object, A_SHARED, A_FROZEN. apply wp_block. ws1. ws1. ws1. ws1. ws1. ws1. ws1.
  eapply wp_call; [reflexivity|cbn [List.length]; lia|]. wc.
  eapply returns_wpf; [apply (a_equals_b_spec 32); [exact Hw|unfold live; lia|unfold live; lia]|]. wc.
  rewrite eqb_be, Eo, S3, (proj2 (Z.eqb_neq owner shared_owner)) by exact No1. cbn [b2z]. apply wp_brif; intros C; unb C; [exfalso; lia|]. wc. clear C.
  ws1. ws1. ws1. eapply wp_call; [reflexivity|cbn [List.length]; lia|]. wc.
  eapply returns_wpf; [apply (a_equals_b_spec 32); [exact Hw|unfold live; lia|unfold live; lia]|]. wc.
  rewrite eqb_be, Eo, S4, (proj2 (Z.eqb_neq owner frozen_owner)) by exact No2. cbn [b2z].
  apply wp_if; intros C; unb C; [exfalso; lia|]. clear C.
  match goal with |- wp ?c _ _ _ _ => rewrite <- (app_nil_r c) end.
  eapply (settle_wp ep h fs w x owner id vs vs0 F 160); try assumption; try lia.
  - rewrite S3. exact Se.
  - rewrite S3. exact Ns.
  - intros O. wc. exact O.
  - rewrite S3. intros w1 l2 Mv. apply wp_nil. wc. apply wp_nil. wc. apply wp_nil. wc. auto.
Qed.

Lemma freeze_object_spec : forall ep h fs w x owner id vs vs0 F, wok w -> errtab_ok ep -> statics w ->
  object_at (mem w) fs owner id vs x F -> sub F (heap w) -> forallb storable fs = true -> 0 <= h < 2 ^ 64 ->
  owner <> shared_owner -> owner <> frozen_owner ->
  let H := keccak (host w) in let k := slot_of (host w) owner id in let k' := slot_of (host w) frozen_owner id in
  (owner <> 0 -> forallb erasable fs = true /\ typeds fs vs0 /\ separate (slots H fs vs0 (k, 8)) /\ shapes H (stor (host w)) fs vs0 (k, 8)) ->
  separate (slots H fs vs (k', 8)) -> no_shrinks H (stor (host w)) fs vs (k', 8) ->
  wpf (freeze_object ep h fs) [x] w (resq (fun r w' => r = [] /\ moved h fs vs vs0 x owner frozen_owner id F w w') (oom w (32 + costs vs0 + costs vs))).
Proof.
  intros ep h fs w x owner id vs vs0 F Hw He St Ob SF Pl Hh No1 No2 H k k' Old Se Ns. pose proof Hw as (P1&P2&P3&P4&P5&P6).
  pose proof (object_placed w fs owner id vs x F Ob SF) as (X1&X2&Eo&_). pose proof St as (S0&S1&S2&S3&S4).
  apply wpf_intro; [reflexivity|]. wc. unfold freeze_object, A_SHARED, A_FROZEN. apply wp_block. ws1. ws1. ws1. ws1. ws1. ws1.
  eapply wp_call; [reflexivity|cbn [List.length]; lia|]. wc.
  eapply returns_wpf; [apply (a_equals_b_spec 32); [exact Hw|unfold live; lia|unfold live; lia]|]. wc.
  rewrite eqb_be, Eo, S4, (proj2 (Z.eqb_neq owner frozen_owner)) by exact No2. cbn [b2z]. apply wp_brif; intros C; unb C; [exfalso; lia|]. wc. clear C.
  ws1. ws1. ws1. eapply wp_call; [reflexivity|cbn [List.length]; lia|]. wc.
  eapply returns_wpf; [apply (a_equals_b_spec 32); [exact Hw|unfold live; lia|unfold live; lia]|]. wc.
  rewrite eqb_be, Eo, S3, (proj2 (Z.eqb_neq owner shared_owner)) by exact No1. cbn [b2z].
  apply wp_if; intros C; unb C; [exfalso; lia|]. clear C.
  match goal with |- wp ?c _ _ _ _ => rewrite <- (app_nil_r c) end.
  eapply (settle_wp ep h fs w x owner id vs vs0 F 192); try assumption; try lia.
  - rewrite S4. exact Se.
  - rewrite S4. exact Ns.
  - intros O. wc. exact O.
  - rewrite S4. intros w1 l2 Mv. apply wp_nil. wc. apply wp_nil. wc. apply wp_nil. wc. auto.
Qed.

(** What is already shared or frozen. *)
Lemma share_settled : forall ep h fs w x owner id vs F, wok w -> statics w -> object_at (mem w) fs owner id vs x F -> sub F (heap w) ->
  owner = shared_owner \/ owner = frozen_owner ->
  returns (share_object ep h fs) [x] w [] (if owner =? shared_owner then w else set_mem w (store 4 (mem w) 256 (ep FrozenObjectsCannotBeShared))).
Proof.
  intros ep h fs w x owner id vs F Hw St Ob SF Ho. pose proof Hw as (P1&P2&P3&P4&P5&P6).
  pose proof (object_placed w fs owner id vs x F Ob SF) as (X1&X2&Eo&_). pose proof St as (S0&S1&S2&S3&S4).
  apply RtDelete.returns_intro. apply wpf_intro; [reflexivity|]. wc. unfold share_object, A_SHARED, A_FROZEN. apply wp_block. ws1. ws1. ws1. ws1. ws1. ws1. ws1.
  eapply wp_call; [reflexivity|cbn [List.length]; lia|]. wc.
  eapply returns_wpf; [apply (a_equals_b_spec 32); [exact Hw|unfold live; lia|unfold live; lia]|]. wc.
  rewrite eqb_be, Eo, S3. apply wp_brif; intros C; unb C; wc.
  - rewrite C. apply wp_nil. wc. auto.
  - rewrite C. assert (owner = frozen_owner) by (destruct (Z.eqb_spec owner shared_owner); [discriminate|tauto]).
    ws1. ws1. ws1. eapply wp_call; [reflexivity|cbn [List.length]; lia|]. wc.
    eapply returns_wpf; [apply (a_equals_b_spec 32); [exact Hw|unfold live; lia|unfold live; lia]|]. wc.
    rewrite eqb_be, Eo, S4, H, Z.eqb_refl. cbn [b2z]. apply wp_if; intros D; unb D; [|exfalso; lia]. werr; [exact Hw|]. auto.
Qed.

Lemma freeze_settled : forall ep h fs w x owner id vs F, wok w -> statics w -> object_at (mem w) fs owner id vs x F -> sub F (heap w) ->
  owner = shared_owner \/ owner = frozen_owner ->
  returns (freeze_object ep h fs) [x] w [] (if owner =? frozen_owner then w else set_mem w (store 4 (mem w) 256 (ep SharedObjectsCannotBeFrozen))).
Proof.
  intros ep h fs w x owner id vs F Hw St Ob SF Ho. pose proof Hw as (P1&P2&P3&P4&P5&P6).
  pose proof (object_placed w fs owner id vs x F Ob SF) as (X1&X2&Eo&_). pose proof St as (S0&S1&S2&S3&S4).
  apply RtDelete.returns_intro. apply wpf_intro; [reflexivity|]. wc. unfold freeze_object, A_SHARED, A_FROZEN. apply wp_block. ws1. ws1. ws1. ws1. ws1. ws1.
  eapply wp_call; [reflexivity|cbn [List.length]; lia|]. wc.
  eapply returns_wpf; [apply (a_equals_b_spec 32); [exact Hw|unfold live; lia|unfold live; lia]|]. wc.
  rewrite eqb_be, Eo, S4. apply wp_brif; intros C; unb C; wc.
  - rewrite C. apply wp_nil. wc. auto.
  - rewrite C. assert (owner = shared_owner) by (destruct (Z.eqb_spec owner frozen_owner); [discriminate|tauto]).
    ws1. ws1. ws1. eapply wp_call; [reflexivity|cbn [List.length]; lia|]. wc.
    eapply returns_wpf; [apply (a_equals_b_spec 32); [exact Hw|unfold live; lia|unfold live; lia]|]. wc.
    rewrite eqb_be, Eo, S3, H, Z.eqb_refl. cbn [b2z]. apply wp_if; intros D; unb D; [|exfalso; lia]. werr; [exact Hw|]. auto.
Qed.
