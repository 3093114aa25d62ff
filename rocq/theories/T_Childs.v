(** * Theorems about decoding the children concurrently: C48 *)
From Verif Require Import GoBase GoNum GoUtf8 GoFloat Types XmlTypes M_Core M_Errors M_Xml M_Decode M_Childs S_Childs P_Decode P_Panic P_State P_Frame P_Childs.

(** The file decodes, alone and without cancellation, to the error [e] and the resources [r], and nothing is added to
    the Any of the model. *)
Definition Alone (reg : Reg) (strict : bool) (every : nat) (m : Model) (j : Job) (e : derr) (r : Resources) : Prop :=
  exists input fin m' n d, jb_open j = Some (input, fin) /\
    decode_with reg false strict (jb_path j) every (fun _ => false) fin (jb_later j) input m = DRet m' e n d /\
    mo_any m' = mo_any m /\ find_resources m' (jb_path j) = Some r.
(** The error of a child: its file cannot be opened, or decoding it fails. *)
Definition OwnError reg strict every m (j : Job) (e : cerr) : Prop :=
  (e = COpenErr /\ jb_open j = None) \/ exists de r, e = CDec de /\ de <> DNone /\ Alone reg strict every m j de r.
(** Distinct files for distinct children of the model; each cannot be opened, or decodes without a panic and without
    elements of other namespaces in its model element. *)
Record Separate (reg : Reg) (strict : bool) (every : nat) (m : Model) (jobs : list Job) : Prop := {
  sp_keys : NoDup (map fst (mo_childs m));
  sp_paths : NoDup (map jb_path jobs);
  sp_childs : forall j, In j jobs -> IsChild m (jb_path j);
  sp_alone : forall j, In j jobs -> jb_open j = None \/ exists e r, Alone reg strict every m j e r
}.

(** Without an error, every child decodes without error, and the model is the one decoded before with the resources
    of each child those it decodes to alone: nothing depends on the order.  The caller may cancel. *)
Theorem C48_merged_partial : forall reg strict every outer m jobs m', Separate reg strict every m jobs ->
  childs_return reg strict every outer jobs m m' None ->
  (forall j, In j jobs -> exists r, Alone reg strict every m j DNone r) /\
  Merged m (map jb_path jobs) (fun p r => exists j, In j jobs /\ jb_path j = p /\ Alone reg strict every m j DNone r) m'.
Proof.
  intros * [S1 S2 S3 S4] R. destruct (childs_result reg strict every outer m jobs S1 S2 S3 S4 m' None R) as [_ H]. exact (H eq_refl).
Qed.
Print Assumptions C48_merged_partial.
(** If every child decodes without error and the caller does not cancel, there is no error; *)
Theorem C48_no_error_partial : forall reg strict every m jobs m' errs, Separate reg strict every m jobs ->
  (forall j, In j jobs -> exists r, Alone reg strict every m j DNone r) ->
  childs_return reg strict every false jobs m m' errs -> errs = None.
Proof.
  intros * [S1 S2 S3 S4] A R. destruct (childs_result reg strict every false m jobs S1 S2 S3 S4 m' errs R) as [H _]. destruct errs as [e|]; [|reflexivity].
  specialize (H e eq_refl). apply ok_reason in H as [H|(j & Hj & F)]; [discriminate|]. destruct (A j Hj) as (r & X). destruct F as [F|(e' & r' & Y & N)].
  - destruct X as (i & f & m1 & n & d & E & _). congruence.
  - destruct (alone_unique _ _ _ _ _ _ _ _ _ X Y). congruence.
Qed.
Print Assumptions C48_no_error_partial.
(** and two executions give the same model. *)
Theorem C48_schedule_partial : forall reg strict every m jobs m1 e1 m2 e2, Separate reg strict every m jobs ->
  (forall j, In j jobs -> exists r, Alone reg strict every m j DNone r) ->
  childs_return reg strict every false jobs m m1 e1 -> childs_return reg strict every false jobs m m2 e2 -> m1 = m2 /\ e1 = None /\ e2 = None.
Proof.
  intros * S A R1 R2. pose proof (C48_no_error_partial _ _ _ _ _ _ _ S A R1) as ->. pose proof (C48_no_error_partial _ _ _ _ _ _ _ S A R2) as ->.
  split; [|auto]. apply C48_merged_partial in R1 as [_ R1]; [|exact S]. apply C48_merged_partial in R2 as [_ R2]; [|exact S]. clear A.
  destruct R1 as [A1 A2 A3 A4 A5 A6 A7 A8 A9 A10 A11 A12 A13 C1], R2 as [B1 B2 B3 B4 B5 B6 B7 B8 B9 B10 B11 B12 B13 C2].
  assert (C : mo_childs m1 = mo_childs m2).
  { revert C2. revert C1. generalize (mo_childs m), (mo_childs m1), (mo_childs m2). intros l l1 l2 H1. revert l2. induction H1 as [|[k c] [k1 c1] l l1 H1 _ IH]; intros l2 H2; inversion H2 as [|? [k2 c2] ? l2' H3 H4]; subst; [reflexivity|].
    rewrite (IH _ H4). f_equal. clear IH H2 H4. cbn in H1, H3. destruct H1 as (-> & E1 & E2 & F1 & F2), H3 as (-> & G1 & G2 & K1 & K2). f_equal.
    destruct c1 as [r1 rl1 a1], c2 as [r2 rl2 a2]. cbn in *. subst. f_equal.
    destruct (in_dec string_dec k (map jb_path jobs)) as [I|I]; [|rewrite F2, K2 by exact I; reflexivity].
    destruct (F1 I) as (j1 & J1 & P1 & X1), (K1 I) as (j2 & J2 & P2 & X2). assert (j1 = j2).
    { pose proof (sp_paths _ _ _ _ _ S) as N. clear -J1 J2 P1 P2 N. induction jobs as [|j l IH]; [destruct J1|]. inversion N as [|? ? N1 N2]; subst.
      destruct J1 as [<-|J1], J2 as [<-|J2]; [reflexivity| | |apply IH; assumption]; destruct N1; apply in_map_iff; [exists j2|exists j1]; split; congruence. }
    subst j2. destruct (alone_unique _ _ _ _ _ _ _ _ _ X1 X2). assumption. }
  destruct m1, m2. cbn in *. subst. reflexivity.
Qed.
Print Assumptions C48_schedule_partial.
(** If a child fails there is an error: that of a failing child, or that of the context. *)
Theorem C48_error_partial : forall reg strict every outer m jobs m' errs, Separate reg strict every m jobs ->
  childs_return reg strict every outer jobs m m' errs ->
  (forall j e, In j jobs -> OwnError reg strict every m j e -> errs <> None) /\
  (forall e, errs = Some e -> (exists j, In j jobs /\ OwnError reg strict every m j e) \/
     e = CDec DCtx /\ (outer = true \/ exists j own, In j jobs /\ OwnError reg strict every m j own)).
Proof.
  intros * [S1 S2 S3 S4] R. destruct (childs_result reg strict every outer m jobs S1 S2 S3 S4 m' errs R) as [H1 H2]. split.
  - intros j e Hj O ->. destruct (H2 eq_refl) as [A _]. destruct (A j Hj) as (r & X). destruct O as [[_ F]|(de & r' & _ & N & Y)].
    + destruct X as (i & f & m1 & n & d & E & _). congruence.
    + destruct (alone_unique _ _ _ _ _ _ _ _ _ X Y). congruence.
  - intros e ->. destruct (H1 e eq_refl) as [[-> F]|H]; [right|left; exact H]. split; [reflexivity|]. destruct F as [F|(j & Hj & F)]; [auto|]. right. exists j.
    destruct F as [F|(de & r & X & N)]; [exists COpenErr; split; [exact Hj|left; auto]|exists (CDec de); split; [exact Hj|right; exists de, r; auto]].
Qed.
Print Assumptions C48_error_partial.
(** Every execution ends, with all goroutines done. *)
Theorem C48_returns_partial : forall reg strict every outer m jobs, Separate reg strict every m jobs ->
  exists bound, forall n x, csteps reg strict every outer n (c_init jobs m) x -> n <= bound /\ (c_done x \/ exists y, cstep reg strict every outer x y).
Proof.
  intros * [S1 S2 S3 S4]. exists (P_Childs.left (c_init jobs m)). intros n x S. split; [apply left_steps in S; lia|]. eapply can_step; eassumption.
Qed.
Print Assumptions C48_returns_partial.

(** ** False in general *)
Definition ex_reg : Reg := mkReg true true true true.
Definition ex_model : Model := mkModel "/3D/m.model" "" 0 "" res_zero (mkBuild [] []) [] [] []
  [("/3D/a.model", child_zero); ("/3D/b.model", child_zero)] [] [] [] [].
Definition ex_job (p inner : string) : Job :=
  mkJob p (Some ("<model xmlns=""http://schemas.microsoft.com/3dmanufacturing/core/2015/02"" xmlns:x=""u"">" +++ inner +++ "</model>", XEOF)) (fun _ => "").
Definition in_order (a b : nat) (n : nat) : list nat := repeat a n ++ repeat b n.
(** Elements of other namespaces in the model elements: their order is that of the goroutines. *)
Theorem C48_order_refuted : exists m jobs m1 m2, NoDup (map fst (mo_childs m)) /\ NoDup (map jb_path jobs) /\
  (forall j, In j jobs -> IsChild m (jb_path j) /\ exists input m' n d, jb_open j = Some (input, XEOF) /\
     decode_with ex_reg false true (jb_path j) 1000 (fun _ => false) XEOF (jb_later j) input m = DRet m' DNone n d) /\
  childs_return ex_reg true 1000 false jobs m m1 None /\ childs_return ex_reg true 1000 false jobs m m2 None /\ m1 <> m2.
Proof.
  pose (ja := ex_job "/3D/a.model" "<x:a/>"). pose (jb := ex_job "/3D/b.model" "<x:b/>").
  assert (R1 : exists z, run ex_reg true 1000 (in_order 0 1 7) (c_init [ja; jb] ex_model) = Some z /\ c_done z /\ sh_errs (fst z) = None /\ map (fun e => match e with AnyTokens (TStart n _ :: _) => nlocal n | _ => "" end) (mo_any (sh_model (fst z))) = ["a"; "b"]).
  { eexists. split; [vm_compute; reflexivity|]. split; [repeat constructor|split; reflexivity]. }
  assert (R2 : exists z, run ex_reg true 1000 (in_order 1 0 7) (c_init [ja; jb] ex_model) = Some z /\ c_done z /\ sh_errs (fst z) = None /\ map (fun e => match e with AnyTokens (TStart n _ :: _) => nlocal n | _ => "" end) (mo_any (sh_model (fst z))) = ["b"; "a"]).
  { eexists. split; [vm_compute; reflexivity|]. split; [repeat constructor|split; reflexivity]. }
  destruct R1 as (z1 & R1 & D1 & E1 & A1), R2 as (z2 & R2 & D2 & E2 & A2).
  exists ex_model, [ja; jb], (sh_model (fst z1)), (sh_model (fst z2)). split; [repeat constructor; cbn; intuition discriminate|]. split; [repeat constructor; cbn; intuition discriminate|].
  split.
  { intros j [<-|[<-|[]]]; (split; [repeat split; cbn; auto; discriminate|]); eexists _, _, _, _; (split; [reflexivity|]); vm_compute; reflexivity. }
  split; [rewrite <- E1; eapply run_returns; eassumption|]. split; [rewrite <- E2; eapply run_returns; eassumption|]. intros E. rewrite E, A2 in A1. discriminate A1.
Qed.
Print Assumptions C48_order_refuted.
(** The error returned may say nothing but that the context was cancelled: that by the failing child. *)
Theorem C48_error_refuted : exists m jobs m', Separate ex_reg true 1000 m jobs /\
  childs_return ex_reg true 1000 false jobs m m' (Some (CDec DCtx)) /\
  (forall j e, In j jobs -> OwnError ex_reg true 1000 m j e -> e = COpenErr).
Proof.
  pose (ja := mkJob "/3D/a.model" None (fun _ => "")). pose (jb := ex_job "/3D/b.model" "").
  assert (B : exists r, Alone ex_reg true 1000 ex_model jb DNone r).
  { eexists. exists (match jb_open jb with Some (i, _) => i | None => "" end), XEOF. eexists _, _, _. split; [reflexivity|]. split; [vm_compute; reflexivity|]. split; reflexivity. }
  assert (R : exists z, run ex_reg true 1000 ([0; 0; 0] ++ [1; 1; 1; 1; 1]) (c_init [ja; jb] ex_model) = Some z /\ c_done z /\ sh_errs (fst z) = Some (CDec DCtx)).
  { eexists. split; [vm_compute; reflexivity|]. split; [repeat constructor|reflexivity]. }
  destruct R as (z & R & D & E). exists ex_model, [ja; jb], (sh_model (fst z)). split; [|split].
  - constructor; [repeat constructor; cbn; intuition discriminate..| |].
    + intros j [<-|[<-|[]]]; repeat split; cbn; auto; discriminate.
    + intros j [<-|[<-|[]]]; [left; reflexivity|right]. destruct B as (r & B). eauto.
  - rewrite <- E. eapply run_returns; eassumption.
  - intros j e [<-|[<-|[]]] [[-> H]|(de & r & -> & N & A)]; try reflexivity.
    + destruct A as (i & f & m1 & n & d & X & _). discriminate X.
    + destruct B as (r' & B). destruct (alone_unique _ _ _ _ _ _ _ _ _ A B). congruence.
Qed.
Print Assumptions C48_error_refuted.
Definition ex_object : string := "<resources><object id=""1""><mesh><vertices><vertex x=""1"" y=""2"" z=""3""/></vertices></mesh></object></resources>".
Example C48_nonvacuous : exists r m', let jobs := [ex_job "/3D/a.model" ex_object; ex_job "/3D/b.model" ""] in
  Separate ex_reg true 1000 ex_model jobs /\ (forall j, In j jobs -> exists r, Alone ex_reg true 1000 ex_model j DNone r) /\
  Alone ex_reg true 1000 ex_model (ex_job "/3D/a.model" ex_object) DNone r /\ map ob_id (rs_objects r) = [1%N] /\
  childs_return ex_reg true 1000 false jobs ex_model m' None /\
  option_map (fun r => map ob_id (rs_objects r)) (find_resources m' "/3D/a.model") = Some [1%N].
Proof.
  cbv zeta.
  assert (A : exists r, Alone ex_reg true 1000 ex_model (ex_job "/3D/a.model" ex_object) DNone r /\ map ob_id (rs_objects r) = [1%N]).
  { eexists. split; [|shelve]. exists (match jb_open (ex_job "/3D/a.model" ex_object) with Some (i, _) => i | None => "" end), XEOF. eexists _, _, _. split; [reflexivity|]. split; [vm_compute; reflexivity|]. split; [reflexivity|vm_compute; reflexivity].
    Unshelve. reflexivity. }
  assert (B : exists r, Alone ex_reg true 1000 ex_model (ex_job "/3D/b.model" "") DNone r).
  { eexists. exists (match jb_open (ex_job "/3D/b.model" "") with Some (i, _) => i | None => "" end), XEOF. eexists _, _, _. split; [reflexivity|]. split; [vm_compute; reflexivity|]. split; reflexivity. }
  assert (R : exists z, run ex_reg true 1000 ([0; 1; 0; 1; 0; 1; 0; 1; 0; 1] ++ repeat 0 10) (c_init [ex_job "/3D/a.model" ex_object; ex_job "/3D/b.model" ""] ex_model) = Some z /\
    c_done z /\ sh_errs (fst z) = None /\ option_map (fun r => map ob_id (rs_objects r)) (find_resources (sh_model (fst z)) "/3D/a.model") = Some [1%N]).
  { eexists. split; [vm_compute; reflexivity|]. split; [repeat constructor|split; reflexivity]. }
  destruct A as (r & A & I), B as (rb & B), R as (z & R & D & E & O). exists r, (sh_model (fst z)).
  assert (X : forall j, In j [ex_job "/3D/a.model" ex_object; ex_job "/3D/b.model" ""] -> exists r, Alone ex_reg true 1000 ex_model j DNone r) by (intros j [<-|[<-|[]]]; eauto).
  split.
  { constructor; [repeat constructor; cbn; intuition discriminate..| |].
    - intros j [<-|[<-|[]]]; repeat split; cbn; auto; discriminate.
    - intros j Hj. right. destruct (X j Hj) as (r' & H). eauto. }
  split; [exact X|]. split; [exact A|]. split; [exact I|]. split; [|exact O]. rewrite <- E. eapply run_returns; eassumption.
Qed.
