(** * Theorems: each child is read once, also by a Decoder that is used again: C68 *)
From Coq Require Import Lia.
From Verif Require Import GoBase GoNum GoUtf8 GoFloat Types XmlTypes PkgTypes M_Core M_Errors M_Xml M_Decode M_Package M_Childs M_Decoder M_Reuse S_Package P_Package P_Childs.

Section Reuse.
Context (resolve : string -> string -> string) (p : PkgIn).
(** The files one relationship adds *)
Lemma extract1_files src root m nr r : exists new, forall m' nr', snd (extract1 resolve p src root (m', nr') r) = nr' ++ new /\ (root = false -> new = []) /\
  (snd (extract1 resolve p src root (m, nr) r) = nr ++ new).
Proof.
  unfold extract1. destruct (find_from resolve p (pf_name src) (rel_path r)) as [f|] eqn:F.
  - destruct root.
    + destruct (is_model_rel r) eqn:T.
      * exists [f]. intros m' nr'. cbn [snd]. repeat split; congruence.
      * exists []. intros m' nr'. cbn [snd]. rewrite !app_nil_r. auto.
    + exists []. intros m' nr'. rewrite !app_nil_r. destruct (is_model_rel r); [auto|]. destruct (aget _ _ (mo_childs m')), (aget _ _ (mo_childs m)); auto.
  - exists []. intros m' nr'. cbn [snd]. rewrite !app_nil_r. auto.
Qed.
Lemma extract_files src root : exists new, (root = false -> new = []) /\ forall st, snd (extract resolve p src root st) = snd st ++ new.
Proof.
  unfold extract. generalize (pf_rels src) as l. induction l as [|r l (new & N & IH)].
  - exists []. split; [reflexivity|]. intros st. cbn. rewrite app_nil_r. reflexivity.
  - destruct (extract1_files src root model_zero [] r) as (n1 & H). exists (n1 ++ new). split.
    + intros E. destruct (H model_zero []) as (_ & H1 & _). rewrite (H1 E), (N E). reflexivity.
    + intros [m nr]. cbn [fold_left]. rewrite IH. destruct (H m nr) as (H1 & _). rewrite H1, <- app_assoc. reflexivity.
Qed.
Lemma extracts_files l : forall st, snd (fold_left (fun st c => extract resolve p c false st) l st) = snd st.
Proof.
  induction l as [|c l IH]; intros st; cbn [fold_left]; [reflexivity|]. rewrite IH. destruct (extract_files c false) as (new & N & H).
  rewrite H, (N eq_refl). apply app_nil_r.
Qed.
Lemma process_files l : exists new, forall m nr m' nr' rt,
  match process_rels resolve p l ((m, nr), rt), process_rels resolve p l ((m', nr'), rt) with
  | Some (st, a), Some (st', b) => a = b /\ snd st = nr ++ new /\ snd st' = nr' ++ new
  | None, None => True
  | _, _ => False
  end.
Proof.
  induction l as [|r l (new & IH)]; cbn [process_rels].
  - exists []. intros. cbn [snd]. rewrite !app_nil_r. auto.
  - unfold process_rel. destruct (find_from resolve p "/" (rel_path r)) as [f|].
    + destruct (is_model_rel r).
      * destruct (extract_files f true) as (n1 & _ & H). exists (n1 ++ new). intros m nr m' nr' rt.
        set (s1 := extract resolve p f true (_, nr)). set (s2 := extract resolve p f true (_, nr')).
        assert (E1 : snd (fold_left (fun st c => extract resolve p c false st) (snd s1) s1) = nr ++ n1) by (rewrite extracts_files; apply H).
        assert (E2 : snd (fold_left (fun st c => extract resolve p c false st) (snd s2) s2) = nr' ++ n1) by (rewrite extracts_files; apply H).
        destruct (fold_left _ (snd s1) s1) as [a1 b1], (fold_left _ (snd s2) s2) as [a2 b2]. cbn [snd] in E1, E2. subst b1 b2.
        rewrite !app_assoc. apply IH.
      * exists new. intros. apply IH.
    + destruct (is_model_rel r); [exists []; intros; exact I|]. exists new. intros. apply IH.
Qed.
End Reuse.

(** The first Decode of a Decoder is that of C54; *)
Theorem C68_first : forall reg strict every resolve later p m r,
  decodes_again reg strict every resolve later [] p m r <-> decodes reg strict every resolve later p m r.
Proof.
  intros. split; intros H; destruct H; [eapply DecPackage|eapply DecChild|eapply DecRoot|eapply AgainPackage|eapply AgainChild|eapply AgainRoot]; eassumption.
Qed.
Print Assumptions C68_first.
(** the n-th reads every child n times: the files read are n copies of those of the first. *)
Theorem C68_files : forall resolve p m cs root n, process_opc resolve p model_zero = Some (m, cs, root) ->
  files_after resolve p n = concat (repeat cs n) /\
  exists m', process_opc_again resolve (files_after resolve p n) p model_zero = Some (m', concat (repeat cs (S n)), root).
Proof.
  intros * E. destruct (process_files resolve p (pi_rels p)) as (new & H).
  assert (A : forall nr, exists m', process_opc_again resolve nr p model_zero = Some (m', nr ++ cs, root)).
  { intros nr. specialize (H model_zero [] model_zero nr None). unfold process_opc in E. unfold process_opc_again.
    destruct (process_rels resolve p (pi_rels p) ((model_zero, []), None)) as [[st [f|]]|]; try discriminate.
    destruct (process_rels resolve p (pi_rels p) ((model_zero, nr), None)) as [[st' g]|]; [|contradiction]. destruct H as (<- & H1 & H2).
    injection E as E1 E2 E3. subst. rewrite H2, H1. eexists. reflexivity. }
  assert (F : files_after resolve p n = concat (repeat cs n)).
  { induction n as [|n IH]; [reflexivity|]. cbn [files_after]. rewrite IH. destruct (A (concat (repeat cs n))) as (m' & ->).
    clear. induction n as [|n IH]; cbn [repeat concat]; [symmetry; apply app_nil_r|]. rewrite <- app_assoc. f_equal. exact IH. }
  split; [exact F|]. rewrite F. destruct (A (concat (repeat cs n))) as (m' & ->). exists m'. f_equal. f_equal. f_equal.
  clear. induction n as [|n IH]; cbn [repeat concat]; [symmetry; apply app_nil_r|]. rewrite <- app_assoc. f_equal. exact IH.
Qed.
Print Assumptions C68_files.
(** A package without children is read the same any number of times.  Missing: children, see below. *)
Theorem C68_again_partial : forall reg strict every resolve later p m root n r, process_opc resolve p model_zero = Some (m, [], root) ->
  decodes_again reg strict every resolve later (files_after resolve p n) p model_zero r <-> decodes reg strict every resolve later p model_zero r.
Proof.
  intros * E. destruct (C68_files resolve p m [] root n E) as [-> _]. replace (concat (repeat [] n)) with (@nil PFile); [apply C68_first|].
  induction n; auto.
Qed.
Print Assumptions C68_again_partial.

(** False in general *)
Definition core_file (inner : string) : string := "<model xmlns=""http://schemas.microsoft.com/3dmanufacturing/core/2015/02"">" +++ inner +++ "</model>".
Definition one_object : string := "<resources><object id=""1""><mesh/></object></resources>".
Definition parts_pkg (rels : list Relationship) : PkgIn :=
  mkPI [mkRel "/3D/3dmodel.model" type_3dmodel "r0"]
    [mkPF "/3D/3dmodel.model" "" (Some (core_file "")) rels; mkPF "/3D/other.model" "" (Some (core_file one_object)) []].
Definition child_ids (m : Model) : list (string * list N) := map (fun kc => (fst kc, map ob_id (rs_objects (ch_res (snd kc))))) (mo_childs m).
Definition all_reg : Reg := mkReg true true true true.
Definition linked : PkgIn := parts_pkg [mkRel "/3D/other.model" type_3dmodel "r1"].
Definition linked_twice : PkgIn := parts_pkg [mkRel "/3D/other.model" type_3dmodel "r1"; mkRel "other.model" type_3dmodel "r2"].
(** Relative names are resolved in the folder of the model *)
Definition in_3d (source rel : string) : string := if seq rel "other.model" then "/3D/other.model" else rel.
Lemma ran ks jobs m z : run all_reg true 1000 ks (c_init jobs m) = Some z -> c_done z -> sh_errs (fst z) = None ->
  childs_return all_reg true 1000 false jobs m (sh_model (fst z)) None.
Proof. intros R D <-. eapply run_returns; eassumption. Qed.
(** The second Decode of the same Decoder gives another model: the child has its object twice. *)
Theorem C68_again_refuted : exists p m1 m2,
  decodes all_reg true 1000 in_3d (fun _ _ => "") p model_zero (PModel m1) /\
  decodes_again all_reg true 1000 in_3d (fun _ _ => "") (files_after in_3d p 1) p model_zero (PModel m2) /\
  child_ids m1 = [("/3D/other.model", [1%N])] /\ child_ids m2 = [("/3D/other.model", [1%N; 1%N])].
Proof.
  exists linked. eexists _, _. split; [|split; [|split]].
  - eapply DecRoot; [vm_compute; reflexivity|eapply (ran (repeat 0 11)); [vm_compute; reflexivity|repeat constructor|reflexivity]|]. vm_compute. reflexivity.
  - eapply AgainRoot; [vm_compute; reflexivity|eapply (ran (repeat 0 11 ++ repeat 1 11)); [vm_compute; reflexivity|repeat constructor|reflexivity]|]. vm_compute. reflexivity.
  - reflexivity.
  - reflexivity.
Qed.
Print Assumptions C68_again_refuted.
(** Nor is it once if the root names the child twice. *)
Theorem C68_listed_refuted : exists p m, NoDup (map pf_name (pi_files p)) /\
  (forall f, In f (pi_files p) -> NoDup (map (fun r => (rel_type r, rel_path r)) (pf_rels f))) /\
  decodes all_reg true 1000 in_3d (fun _ _ => "") p model_zero (PModel m) /\ child_ids m = [("/3D/other.model", [1%N; 1%N])].
Proof.
  exists linked_twice. eexists. split; [repeat constructor; cbn; intuition discriminate|]. split; [|split].
  - intros f [<-|[<-|[]]]; repeat constructor; cbn; intuition discriminate.
  - eapply DecRoot; [vm_compute; reflexivity|eapply (ran (repeat 0 11 ++ repeat 1 11)); [vm_compute; reflexivity|repeat constructor|reflexivity]|]. vm_compute. reflexivity.
  - reflexivity.
Qed.
Print Assumptions C68_listed_refuted.
(** A package with an attachment and no children *)
Example C68_nonvacuous : exists m m', let p := mkPI [mkRel "/3D/3dmodel.model" type_3dmodel "r0"; mkRel "/t.png" type_thumbnail "r1"]
    [mkPF "/3D/3dmodel.model" "" (Some (core_file one_object)) []; mkPF "/t.png" "image/png" (Some "png") []] in
  (exists root, process_opc in_3d p model_zero = Some (m, [], root)) /\
  decodes all_reg true 1000 in_3d (fun _ _ => "") p model_zero (PModel m') /\ map at_path (mo_atts m') = ["/t.png"] /\ map ob_id (rs_objects (mo_res m')) = [1%N].
Proof.
  eexists _, _. cbv zeta. split; [eexists; vm_compute; reflexivity|]. split; [|split].
  - eapply DecRoot; [vm_compute; reflexivity|eapply (ran []); [vm_compute; reflexivity|repeat constructor|reflexivity]|]. vm_compute. reflexivity.
  - reflexivity.
  - reflexivity.
Qed.
