(** * Theorems about the words of the error of the children: C79 *)
From Verif Require Import GoBase GoNum GoUtf8 GoFloat Types XmlTypes M_Core M_Errors M_Xml M_Decode M_Childs M_Torn S_Childs P_Decode P_Panic P_State P_Frame P_Childs P_Torn T_Childs.

(** The dynamic type of the errors there are; every error has one, and none has that of nil. *)
Inductive GoType : cerr -> etype -> Prop :=
| TyOpen : GoType COpenErr YOpen
| TySyntax msg : GoType (CDec (DScan (XSyntax msg))) YSyntax
| TyRead e : GoType (CDec (DScan (XRead e))) YRead
| TyEnd : GoType (CDec (DScan XEOF)) YString
| TyCtx : GoType (CDec DCtx) YString
| TySent s : GoType (CDec (DErrs (ESent s))) YString
| TyMissing n : GoType (CDec (DErrs (EMissing n))) YMissing
| TyParse n r : GoType (CDec (DErrs (EParse n r))) YParse
| TyError l e p : GoType (CDec (DErrs (Types.EErr l e p))) YError
| TyList l : GoType (CDec (DErrs (EList l))) YList.
Lemma dyn_type e : e <> CDec DNone -> GoType e (dyn e).
Proof. destruct e as [|e]; [constructor|]. destruct e as [|x| |g]; [congruence| |constructor|]; [destruct x|destruct g]; constructor. Qed.
(** If at most one child fails on its own and the caller does not cancel, the error returned has the type its data
    has, and it is one that the machine with indivisible assignments returns, with the same model. *)
Theorem C79_whole_partial : forall reg strict every m jobs m' ty data, Separate reg strict every m jobs ->
  (forall j j' e e', In j jobs -> In j' jobs -> OwnError reg strict every m j e -> OwnError reg strict every m j' e' -> j = j') ->
  torn_return reg strict every false jobs m m' ty data ->
  match data with Some e => exists t, ty = Some t /\ GoType e t | None => ty = None end /\ childs_return reg strict every false jobs m m' data.
Proof.
  intros * S O R. assert (C : childs_return reg strict every false jobs m m' data) by (eapply torn_childs; exact R). split; [|exact C].
  destruct (C48_error_partial _ _ _ _ _ _ _ _ S C) as (_ & E). destruct S as [S1 S2 S3 S4].
  rewrite (torn_whole reg strict every m jobs S1 S2 S3 S4 O m' ty data R). destruct data as [e|]; [|reflexivity]. exists (dyn e). split; [reflexivity|].
  apply dyn_type. intros ->. destruct (E _ eq_refl) as [(j & _ & [[F _]|(de & r & F & N & _)])|[F _]]; congruence.
Qed.
Print Assumptions C79_whole_partial.
(** Whatever fails, whoever cancels, and whatever the children share: the error returned is nil exactly if no error was
    assigned, and its data is that of an error that was. *)
Theorem C79_nil_partial : forall reg strict every outer m jobs m' ty data,
  torn_return reg strict every outer jobs m m' ty data ->
  (ty = None <-> data = None) /\ childs_return reg strict every outer jobs m m' data.
Proof. intros * R. split; [eapply torn_nil; exact R|eapply torn_childs; exact R]. Qed.
Print Assumptions C79_nil_partial.

(** ** False in general *)
Definition bad_a : Job := mkJob "/3D/a.model" (Some ("<model", XEOF)) (fun _ => "").
Definition bad_b : Job := ex_job "/3D/b.model" "<resources><object id=""x""/></resources>".
Definition good_b : Job := ex_job "/3D/b.model" "".
Lemma alone_a : exists msg r, Alone ex_reg true 1000 ex_model bad_a (DScan (XSyntax msg)) r.
Proof. eexists _, _. exists "<model", XEOF. eexists _, _, _. split; [reflexivity|]. split; [vm_compute; reflexivity|]. split; reflexivity. Qed.
Lemma alone_b : exists l e p r, Alone ex_reg true 1000 ex_model bad_b (DErrs (Types.EErr l e p)) r.
Proof. eexists _, _, _, _. exists (match jb_open bad_b with Some (i, _) => i | None => "" end), XEOF. eexists _, _, _. split; [reflexivity|]. split; [vm_compute; reflexivity|]. split; reflexivity. Qed.
Lemma alone_g : exists r, Alone ex_reg true 1000 ex_model good_b DNone r.
Proof. eexists. exists (match jb_open good_b with Some (i, _) => i | None => "" end), XEOF. eexists _, _, _. split; [reflexivity|]. split; [vm_compute; reflexivity|]. split; reflexivity. Qed.
Lemma separate_ab j : jb_path j = "/3D/b.model" -> (exists e r, Alone ex_reg true 1000 ex_model j e r) -> Separate ex_reg true 1000 ex_model [bad_a; j].
Proof.
  intros P A. constructor.
  - repeat constructor; cbn; intuition discriminate.
  - cbn [map]. rewrite P. repeat constructor; cbn; intuition discriminate.
  - intros k [<-|[<-|[]]]; [|unfold IsChild; rewrite P]; repeat split; cbn; auto; discriminate.
  - intros k [<-|[<-|[]]]; right; [|exact A]. destruct alone_a as (msg & r & H). eauto.
Qed.
(** Two children fail: the error returned may have the type *xml.SyntaxError of that of one and the data of that of the
    other, an *Error.  No such value was ever made; calling its methods reads memory as what it is not. *)
Theorem C79_torn_refuted : exists m jobs m' l e p, Separate ex_reg true 1000 m jobs /\
  torn_return ex_reg true 1000 false jobs m m' (Some YSyntax) (Some (CDec (DErrs (Types.EErr l e p)))).
Proof.
  assert (R : exists z l e p, trun ex_reg true 1000 ([0; 0; 0] ++ [1; 1; 1; 1; 1] ++ [1; 0; 0; 1] ++ [0; 1]) (t_init [bad_a; bad_b] ex_model) = Some z /\ t_done z /\
    fst z = Some YSyntax /\ sh_errs (fst (snd z)) = Some (CDec (DErrs (Types.EErr l e p)))).
  { eexists _, _, _, _. split; [vm_compute; reflexivity|]. split; [repeat constructor|split; reflexivity]. }
  destruct R as (z & l & e & p & R & D & E1 & E2). exists ex_model, [bad_a; bad_b], (sh_model (fst (snd z))), l, e, p. split.
  - apply separate_ab; [reflexivity|]. destruct alone_b as (? & ? & ? & r & H). eauto.
  - rewrite <- E1, <- E2. apply (trun_returns ex_reg true 1000 false _ _ _ _ R D).
Qed.
Print Assumptions C79_torn_refuted.
(** One child fails and the caller cancels: the same, with the error of the context. *)
Theorem C79_cancel_refuted : exists m jobs m', Separate ex_reg true 1000 m jobs /\
  (forall j e, In j jobs -> OwnError ex_reg true 1000 m j e -> j = hd bad_a jobs) /\
  torn_return ex_reg true 1000 true jobs m m' (Some YSyntax) (Some (CDec DCtx)).
Proof.
  assert (R : exists y z, trun ex_reg true 1000 ([0; 0; 0] ++ [1; 1; 1]) (t_init [bad_a; good_b] ex_model) = Some y /\ sh_cancel (fst (snd y)) = false /\
    trun ex_reg true 1000 ([1; 1; 1] ++ [0; 0; 1] ++ [0; 1]) (cancelled y) = Some z /\ t_done z /\ fst z = Some YSyntax /\ sh_errs (fst (snd z)) = Some (CDec DCtx)).
  { eexists _, _. split; [vm_compute; reflexivity|]. split; [reflexivity|]. split; [vm_compute; reflexivity|]. split; [repeat constructor|split; reflexivity]. }
  destruct R as (y & z & R & C & Q & D & E1 & E2). exists ex_model, [bad_a; good_b], (sh_model (fst (snd z))). split; [|split].
  - apply separate_ab; [reflexivity|]. destruct alone_g as (r & H). eauto.
  - intros j e [<-|[<-|[]]] O; [reflexivity|]. destruct alone_g as (r & G). destruct O as [[_ O]|(de & r' & _ & N & A)]; [discriminate O|].
    destruct (alone_unique _ _ _ _ _ _ _ _ _ A G). congruence.
  - rewrite <- E1, <- E2. apply (trun_cancel ex_reg true 1000 _ _ _ _ _ _ R C Q D).
Qed.
Print Assumptions C79_cancel_refuted.
(** One of two children fails, the other is cancelled: the error of the context, whole; or it ends before: the syntax
    error, whole. *)
Example C79_nonvacuous : exists m1 m2 msg, Separate ex_reg true 1000 ex_model [bad_a; good_b] /\
  (forall j j' e e', In j [bad_a; good_b] -> In j' [bad_a; good_b] -> OwnError ex_reg true 1000 ex_model j e -> OwnError ex_reg true 1000 ex_model j' e' -> j = j') /\
  torn_return ex_reg true 1000 false [bad_a; good_b] ex_model m1 (Some YString) (Some (CDec DCtx)) /\
  torn_return ex_reg true 1000 false [bad_a; good_b] ex_model m2 (Some YSyntax) (Some (CDec (DScan (XSyntax msg)))).
Proof.
  assert (R1 : exists z, trun ex_reg true 1000 (repeat 0 6 ++ repeat 1 6) (t_init [bad_a; good_b] ex_model) = Some z /\ t_done z /\ fst z = Some YString /\ sh_errs (fst (snd z)) = Some (CDec DCtx)).
  { eexists. split; [vm_compute; reflexivity|]. split; [repeat constructor|split; reflexivity]. }
  assert (R2 : exists z msg, trun ex_reg true 1000 (repeat 1 5 ++ repeat 0 6) (t_init [bad_a; good_b] ex_model) = Some z /\ t_done z /\ fst z = Some YSyntax /\ sh_errs (fst (snd z)) = Some (CDec (DScan (XSyntax msg)))).
  { eexists _, _. split; [vm_compute; reflexivity|]. split; [repeat constructor|split; reflexivity]. }
  destruct R1 as (z1 & R1 & D1 & E1 & F1), R2 as (z2 & msg & R2 & D2 & E2 & F2). exists (sh_model (fst (snd z1))), (sh_model (fst (snd z2))), msg.
  assert (O : forall j e, In j [bad_a; good_b] -> OwnError ex_reg true 1000 ex_model j e -> j = bad_a).
  { intros j e [<-|[<-|[]]] O; [reflexivity|]. destruct alone_g as (r & G). destruct O as [[_ O]|(de & r' & _ & N & A)]; [discriminate O|].
    destruct (alone_unique _ _ _ _ _ _ _ _ _ A G). congruence. }
  split; [apply separate_ab; [reflexivity|]; destruct alone_g as (r & H); eauto|]. split; [intros j j' e e' H H' W W'; rewrite (O _ _ H W), (O _ _ H' W'); reflexivity|]. split.
  - rewrite <- E1, <- F1. apply (trun_returns ex_reg true 1000 false _ _ _ _ R1 D1).
  - rewrite <- E2, <- F2. apply (trun_returns ex_reg true 1000 false _ _ _ _ R2 D2).
Qed.
