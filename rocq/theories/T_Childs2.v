(** * Theorems: decoding the children concurrently when one of them has elements of other namespaces: C48 *)
From Verif Require Import GoBase GoNum GoUtf8 GoFloat Types XmlTypes M_Core M_Errors M_Xml M_Decode M_Childs S_Childs P_Decode P_Panic P_State P_Frame P_Frame2 P_Childs P_Childs2 T_Childs.
From Verif Require Import Types.

(** The file decodes, alone and without cancellation, to the error [e], the resources [r] and the Any [al] of the model. *)
Definition AloneAny (reg : Reg) (strict : bool) (every : nat) (m : Model) (j : Job) (e : derr) (r : Resources) (al : list AnyElem) : Prop :=
  exists input fin m' n d, jb_open j = Some (input, fin) /\
    decode_with reg false strict (jb_path j) every (fun _ => false) fin (jb_later j) input m = DRet m' e n d /\
    mo_any m' = al /\ find_resources m' (jb_path j) = Some r.
(** As [Separate], but the child at [star] may have elements of other namespaces in its model element. *)
Record OneForeign (reg : Reg) (strict : bool) (every : nat) (m : Model) (jobs : list Job) (star : string) : Prop := {
  of_keys : NoDup (map fst (mo_childs m));
  of_paths : NoDup (map jb_path jobs);
  of_childs : forall j, In j jobs -> IsChild m (jb_path j);
  of_alone : forall j, In j jobs -> jb_open j = None \/ exists e r al, AloneAny reg strict every m j e r al;
  of_only : forall j e r al, In j jobs -> AloneAny reg strict every m j e r al -> jb_path j <> star -> al = mo_any m
}.
(** The model [m] with another Any *)
Definition any_is (al : list AnyElem) (m : Model) : Model :=
  mkModel (mo_path m) (mo_lang m) (mo_units m) (mo_thumb m) (mo_res m) (mo_build m) (mo_atts m) (mo_exts m) (mo_md m) (mo_childs m) (mo_rootrels m) (mo_rels m) al (mo_anyattr m).

(** Without an error the resources are those each child decodes to alone, and the Any of the model is the one the child
    at [star] decodes to alone. *)
Theorem C48_one_foreign_partial : forall reg strict every outer m jobs star m', OneForeign reg strict every m jobs star ->
  childs_return reg strict every outer jobs m m' None ->
  (forall j, In j jobs -> exists r al, AloneAny reg strict every m j DNone r al) /\
  exists al, (~ In star (map jb_path jobs) -> al = mo_any m) /\ (forall j, In j jobs -> jb_path j = star -> exists r, AloneAny reg strict every m j DNone r al) /\
    Merged (any_is al m) (map jb_path jobs) (fun p r => exists j al, In j jobs /\ jb_path j = p /\ AloneAny reg strict every m j DNone r al) m'.
Proof.
  intros * [S1 S2 S3 S4 S5] R. destruct (childs_result2 reg strict every outer m jobs star S1 S2 S3 S4 S5 m' None R) as [_ H]. exact (H eq_refl).
Qed.
Print Assumptions C48_one_foreign_partial.
Lemma one_no_error reg strict every m jobs star m' errs : OneForeign reg strict every m jobs star ->
  (forall j, In j jobs -> exists r al, AloneAny reg strict every m j DNone r al) ->
  childs_return reg strict every false jobs m m' errs -> errs = None.
Proof.
  intros [S1 S2 S3 S4 S5] A R. destruct (childs_result2 reg strict every false m jobs star S1 S2 S3 S4 S5 m' errs R) as [H _]. destruct errs as [e|]; [|reflexivity].
  specialize (H e eq_refl). apply ok_reason2 in H as [H|(j & Hj & F)]; [discriminate|]. destruct (A j Hj) as (r & al & X). destruct F as [F|(e' & r' & al' & Y & N)].
  - destruct X as (i & f & m1 & n & d & E & _). congruence.
  - destruct (alone2_unique _ _ _ _ _ _ _ _ _ _ _ X Y). congruence.
Qed.
(** If every child decodes without error and the caller does not cancel, all executions give the same model. *)
Theorem C48_one_schedule_partial : forall reg strict every m jobs star m1 e1 m2 e2, OneForeign reg strict every m jobs star ->
  (forall j, In j jobs -> exists r al, AloneAny reg strict every m j DNone r al) ->
  childs_return reg strict every false jobs m m1 e1 -> childs_return reg strict every false jobs m m2 e2 -> m1 = m2 /\ e1 = None /\ e2 = None.
Proof.
  intros * S A R1 R2. pose proof (one_no_error _ _ _ _ _ _ _ _ S A R1) as ->. pose proof (one_no_error _ _ _ _ _ _ _ _ S A R2) as ->.
  split; [|auto]. apply (C48_one_foreign_partial _ _ _ _ _ _ star) in R1 as (_ & al1 & N1 & T1 & R1); [|exact S]. apply (C48_one_foreign_partial _ _ _ _ _ _ star) in R2 as (_ & al2 & N2 & T2 & R2); [|exact S].
  assert (E : al1 = al2).
  { destruct (in_dec string_dec star (map jb_path jobs)) as [I|I]; [|rewrite N1, N2 by exact I; reflexivity]. apply in_map_iff in I as (j & P & Hj).
    destruct (T1 j Hj P) as (r1 & X1), (T2 j Hj P) as (r2 & X2). apply (alone2_unique _ _ _ _ _ _ _ _ _ _ _ X1 X2). }
  subst al2. clear A N1 N2 T1 T2.
  destruct R1 as [A1 A2 A3 A4 A5 A6 A7 A8 A9 A10 A11 A12 A13 C1], R2 as [B1 B2 B3 B4 B5 B6 B7 B8 B9 B10 B11 B12 B13 C2].
  assert (C : mo_childs m1 = mo_childs m2).
  { revert C2. revert C1. generalize (mo_childs (any_is al1 m)), (mo_childs m1), (mo_childs m2). intros l l1 l2 H1. revert l2. induction H1 as [|[k c] [k1 c1] l l1 H1 _ IH]; intros l2 H2; inversion H2 as [|? [k2 c2] ? l2' H3 H4]; subst; [reflexivity|].
    rewrite (IH _ H4). f_equal. clear IH H2 H4. cbn in H1, H3. destruct H1 as (-> & E1 & E2 & F1 & F2), H3 as (-> & G1 & G2 & K1 & K2). f_equal.
    destruct c1 as [r1 rl1 a1], c2 as [r2 rl2 a2]. cbn in *. subst. f_equal.
    destruct (in_dec string_dec k (map jb_path jobs)) as [I|I]; [|rewrite F2, K2 by exact I; reflexivity].
    destruct (F1 I) as (j1 & x1 & J1 & P1 & X1), (K1 I) as (j2 & x2 & J2 & P2 & X2). assert (j1 = j2).
    { pose proof (of_paths _ _ _ _ _ _ S) as N. clear -J1 J2 P1 P2 N. induction jobs as [|j l IH]; [destruct J1|]. inversion N as [|? ? N1 N2]; subst.
      destruct J1 as [<-|J1], J2 as [<-|J2]; [reflexivity| | |apply IH; assumption]; destruct N1; apply in_map_iff; [exists j2|exists j1]; split; congruence. }
    subst j2. apply (alone2_unique _ _ _ _ _ _ _ _ _ _ _ X1 X2). }
  destruct m1, m2. cbn in *. subst. reflexivity.
Qed.
Print Assumptions C48_one_schedule_partial.
(** Every execution ends, and the error is that of a failing child or of the context. *)
Theorem C48_one_error_partial : forall reg strict every outer m jobs star, OneForeign reg strict every m jobs star ->
  (exists bound, forall n x, csteps reg strict every outer n (c_init jobs m) x -> n <= bound /\ (c_done x \/ exists y, cstep reg strict every outer x y)) /\
  forall m' e, childs_return reg strict every outer jobs m m' (Some e) ->
    (exists j, In j jobs /\ ((e = COpenErr /\ jb_open j = None) \/ exists de r al, e = CDec de /\ de <> DNone /\ AloneAny reg strict every m j de r al)) \/
    e = CDec DCtx /\ (outer = true \/ exists j, In j jobs /\ (jb_open j = None \/ exists de r al, AloneAny reg strict every m j de r al /\ de <> DNone)).
Proof.
  intros * [S1 S2 S3 S4 S5]. split.
  - exists (P_Childs.left (c_init jobs m)). intros n x S. split; [apply left_steps in S; lia|]. eapply can_step2; eassumption.
  - intros m' e R. destruct (childs_result2 reg strict every outer m jobs star S1 S2 S3 S4 S5 m' (Some e) R) as [H _]. destruct (H e eq_refl) as [[-> F]|X]; [right; auto|left; exact X].
Qed.
Print Assumptions C48_one_error_partial.

Example C48_one_nonvacuous : exists m', let jobs := [ex_job "/3D/a.model" ("<x:a><x:b k=""v""/></x:a>" +++ ex_object +++ "<x:c/>"); ex_job "/3D/b.model" ex_object] in
  OneForeign ex_reg true 1000 T_Childs.ex_model jobs "/3D/a.model" /\ (forall j, In j jobs -> exists r al, AloneAny ex_reg true 1000 T_Childs.ex_model j DNone r al) /\
  childs_return ex_reg true 1000 false jobs T_Childs.ex_model m' None /\ List.length (mo_any m') = 2 /\
  option_map (fun r => map ob_id (rs_objects r)) (find_resources m' "/3D/a.model") = Some [1%N].
Proof.
  cbv zeta. set (ja := ex_job "/3D/a.model" ("<x:a><x:b k=""v""/></x:a>" +++ ex_object +++ "<x:c/>")). set (jb := ex_job "/3D/b.model" ex_object).
  assert (A : exists r al, AloneAny ex_reg true 1000 T_Childs.ex_model ja DNone r al).
  { eexists _, _. exists (match jb_open ja with Some (i, _) => i | None => "" end), XEOF. eexists _, _, _. split; [reflexivity|]. split; [vm_compute; reflexivity|]. split; reflexivity. }
  assert (B : exists r, AloneAny ex_reg true 1000 T_Childs.ex_model jb DNone r []).
  { eexists. exists (match jb_open jb with Some (i, _) => i | None => "" end), XEOF. eexists _, _, _. split; [reflexivity|]. split; [vm_compute; reflexivity|]. split; reflexivity. }
  assert (R : exists z, run ex_reg true 1000 ([0; 1; 0; 1; 0; 1; 0; 1; 0; 1; 0; 1; 0; 1; 0; 1; 0; 1; 0; 1; 0; 1; 0; 1; 0; 1; 0; 1; 0; 1] ++ repeat 0 6) (c_init [ja; jb] T_Childs.ex_model) = Some z /\
    c_done z /\ sh_errs (fst z) = None /\ List.length (mo_any (sh_model (fst z))) = 2 /\ option_map (fun r => map ob_id (rs_objects r)) (find_resources (sh_model (fst z)) "/3D/a.model") = Some [1%N]).
  { eexists. split; [vm_compute; reflexivity|]. split; [repeat constructor|repeat split; reflexivity]. }
  destruct A as (ra & ala & A), B as (rb & B), R as (z & R & D & E & L & O). exists (sh_model (fst z)).
  assert (X : forall j, In j [ja; jb] -> exists r al, AloneAny ex_reg true 1000 T_Childs.ex_model j DNone r al) by (intros j [<-|[<-|[]]]; eauto).
  split.
  { constructor; [repeat constructor; cbn; intuition discriminate..| | |].
    - intros j [<-|[<-|[]]]; repeat split; cbn; auto; discriminate.
    - intros j Hj. right. destruct (X j Hj) as (r' & al & H). eauto.
    - intros j e r al [<-|[<-|[]]] H N; [destruct N; reflexivity|]. destruct (alone2_unique _ _ _ _ _ _ _ _ _ _ _ H B) as (_ & _ & ->). reflexivity. }
  split; [exact X|]. split; [rewrite <- E; eapply run_returns; eassumption|auto].
Qed.
