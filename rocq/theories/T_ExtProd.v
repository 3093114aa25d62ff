(** * Theorems on the production extension: C28 *)
From Coq Require Import Permutation.
From Verif Require Import GoBase GoFloat Types M_Core S_Core P_Core M_Errors S_Errors P_Errors M_Text S_Text P_Text
  M_Geom S_Geom P_Geom P_Coherency M_Validate S_Validate P_Validate P_Validate2 P_Validate3
  M_ExtValidate S_ExtValidate P_ExtMat P_ExtBeam P_ExtSlices S_ExtProd P_ExtProd P_ExtProd2 T_Geom T_Validate.

(** C28: the errors of the validator are exactly the located violations. *)
Theorem C28_production_reports : forall m path el x,
  In x (located_o (production_validate m path el)) <->
  exists loc k, x = (loc, "", k) /\ ProdViolation m path el loc k.
Proof. exact in_production. Qed.
Print Assumptions C28_production_reports.
(** C28: accepted exactly when conforming. *)
Theorem C28_production_nil : forall m path,
  (production_validate m path VModel = None <-> ProdModelConforms m) /\
  (forall o, production_validate m path (VObject o) = None <-> ProdObjectConforms m path o) /\
  (forall a, production_validate m path (VAsset a) = None).
Proof.
  intros m path. split; [|split; [|reflexivity]].
  - rewrite (nil_no_violation _ _ (nn_production m path VModel) (in_production m path VModel)). unfold ProdModelConforms. split.
    + intros H. split.
      * apply own_conforms. intros e V. exact (H _ _ (PvBuild _ _ _ V)).
      * intros it Hit. destruct (In_nth_error _ _ Hit) as (i & Hi). eapply (ref_conforms m ""). intros e V. exact (H _ _ (PvItem _ _ _ _ _ Hi V)).
    + intros [H1 H2] loc k V. inversion V as [k' V'|i it k' Hi V'| |]; subst.
      * exact (proj2 (own_conforms _ _) H1 _ V').
      * refine (proj2 (ref_conforms m "" KItem (it_any it)) _ _ V'). split; [apply H2; eapply nth_error_In; exact Hi|]. intros u p _ _. left. reflexivity.
  - intros o. rewrite (nil_no_violation _ _ (nn_production m path (VObject o)) (in_production m path (VObject o))). unfold ProdObjectConforms. split.
    + intros H. split.
      * apply own_conforms. intros e V. exact (H _ _ (PvObject _ _ _ _ V)).
      * intros c Hc. destruct (In_nth_error _ _ Hc) as (i & Hi). apply ref_conforms. intros e V. exact (H _ _ (PvComponent _ _ _ _ _ _ Hi V)).
    + intros [H1 H2] loc k V. inversion V as [| |o' k' V'|o' i c k' Hi V']; subst.
      * exact (proj2 (own_conforms _ _) H1 _ V').
      * refine (proj2 (ref_conforms m path KComponent (co_any c)) _ _ V'). apply H2. eapply nth_error_In; exact Hi.
Qed.
Print Assumptions C28_production_nil.

(** C28: SetMissingUUIDs only completes the model: elements with a UUID keep it, elements
    without one receive a value of the random source, nothing else changes. *)
Theorem C28_set_missing_completes : forall fresh m, NoDup (map fst (mo_childs m)) ->
  ModelCompleted (fun u => exists n, u = fresh n) m (set_missing_uuids fresh m).
Proof. intros fresh m Hk. apply (set_missing_spec fresh m Hk). Qed.
Print Assumptions C28_set_missing_completes.

(** C28: afterwards a UUID is there everywhere: refuted, a build with an empty UUID keeps it. *)
Definition ex_empty_build : Model :=
  mkModel "" "" 0 "" (mkRes [] [] []) (mkBuild [] [GBuild ""]) [] [] [] [] [] [] [] [].
Theorem C28_set_missing_refuted : exists m, forall fresh, ~ UuidsComplete (set_missing_uuids fresh m).
Proof.
  exists ex_empty_build. intros fresh [(u & Hc & Hu) _]. apply Hu. apply get_group_spec in Hc. cbn in Hc. congruence.
Qed.
Print Assumptions C28_set_missing_refuted.
(** What holds: when the build has no attribute group or one with a UUID, everything has a
    UUID afterwards.  Missing: the build with an empty UUID. *)
Theorem C28_set_missing_partial : forall fresh m, NoDup (map fst (mo_childs m)) ->
  (forall n, fresh n <> "") -> (forall u, Carries KBuild (bu_any (mo_build m)) u "" -> u <> "") ->
  UuidsComplete (set_missing_uuids fresh m).
Proof.
  intros fresh m Hk Hf Hb. eapply completed_complete; [|exact Hb|apply C28_set_missing_completes; exact Hk].
  intros u (n & ->). apply Hf.
Qed.
Print Assumptions C28_set_missing_partial.
(** C28: no two elements receive the same UUID, as long as the random source does not
    repeat itself and the UUIDs that were there are distinct. *)
Theorem C28_set_missing_distinct_partial : forall fresh m, NoDup (map fst (mo_childs m)) ->
  (forall i j, fresh i = fresh j -> i = j) -> (forall n, ~ In (fresh n) (model_uuids m)) ->
  (forall u, Carries KBuild (bu_any (mo_build m)) u "" -> u <> "") ->
  NoDup (filter (fun u => negb (seq u "")) (model_uuids m)) ->
  NoDup (model_uuids (set_missing_uuids fresh m)).
Proof.
  intros fresh m Hk Hinj Hf Hb Hd. destruct (set_missing_spec fresh m Hk) as [_ H]. destruct (H Hb) as (n & l & l' & P & P' & D).
  eapply Permutation_NoDup; [exact P'|]. eapply draw_nodup; [exact D|exact Hinj| |].
  - intros k C. apply (Hf k). eapply Permutation_in; eassumption.
  - eapply Permutation_NoDup; [|exact Hd]. clear -P. induction P as [|x l l' _ IH|x y l|l1 l2 l3 _ IH1 _ IH2]; cbn [filter].
    + constructor.
    + destruct (negb _); [constructor; exact IH|exact IH].
    + destruct (negb _), (negb _); try constructor; reflexivity.
    + eapply Permutation_trans; eassumption.
Qed.
Print Assumptions C28_set_missing_distinct_partial.

(** C28: after SetMissingUUIDs with a source of valid UUIDs, the validator accepts every
    object and the build, provided the UUIDs that were there are valid and only the root
    part uses paths. *)
Definition ValidOrEmpty (k : ProdKind) (l : AnyAttr) : Prop := forall u p, Carries k l u p -> u = "" \/ ValidUuid u.
Theorem C28_then_valid_partial : forall fresh m, NoDup (map fst (mo_childs m)) ->
  (forall n, ValidUuid (fresh n)) ->
  (forall u, Carries KBuild (bu_any (mo_build m)) u "" -> ValidUuid u) ->
  (forall it, In it (bu_items (mo_build m)) -> ValidOrEmpty KItem (it_any it)) ->
  (forall o, ObjectOf m o -> ValidOrEmpty KObject (ob_any o) /\ forall c, In c (Comps o) -> ValidOrEmpty KComponent (co_any c)) ->
  let m' := set_missing_uuids fresh m in
  production_validate m' (root_path m') VModel = None /\
  (forall o, In o (rs_objects (mo_res m')) -> production_validate m' (root_path m') (VObject o) = None).
Proof.
  intros fresh m Hk Hf Hb Hi Ho m'. pose proof (C28_set_missing_completes fresh m Hk) as C. fold m' in C.
  assert (K : forall k l l', Completed (fun u => exists n, u = fresh n) k l l' -> ValidOrEmpty k l -> HasUuid k l').
  { intros k l l' H V. destruct H as [l u p H Hu|a b u p Hp Ha (n & ->)|l u H (n & ->)].
    - exists u, p. split; [exact H|]. destruct (V _ _ H); [contradiction|assumption].
    - exists (fresh n), p. split; [split; [exact Hp|eauto]|apply Hf].
    - exists (fresh n), "". split; [|apply Hf]. split; [destruct k; exact I || reflexivity|]. exists l, []. auto. }
  clearbody m'. destruct C as [m any its rs cs H1 H2 H3 H4 H5]. destruct (C28_production_nil
    {| mo_path := mo_path m; mo_lang := mo_lang m; mo_units := mo_units m; mo_thumb := mo_thumb m; mo_res := rs;
       mo_build := mkBuild its any; mo_atts := mo_atts m; mo_exts := mo_exts m; mo_md := mo_md m; mo_childs := cs;
       mo_rootrels := mo_rootrels m; mo_rels := mo_rels m; mo_any := mo_any m; mo_anyattr := mo_anyattr m |}
     (root_path (mkModel (mo_path m) (mo_lang m) (mo_units m) (mo_thumb m) rs (mkBuild its any) (mo_atts m)
        (mo_exts m) (mo_md m) cs (mo_rootrels m) (mo_rels m) (mo_any m) (mo_anyattr m)))) as (N1 & N2 & _).
  split.
  - apply N1. split; cbn [mo_build bu_any bu_items].
    + destruct H1 as [l u H1|l u H1 (n & ->)].
      * exists u, "". split; [exact H1|]. apply Hb. exact H1.
      * exists (fresh n), "". split; [|apply Hf]. split; [reflexivity|]. exists l, []. auto.
    + intros it Hit. destruct (pairwise_in _ _ _ _ H2 Hit) as (it0 & Hin & Hii). destruct Hii as [it0 l Hl]. cbn [it_any]. eapply K; [exact Hl|apply Hi; exact Hin].
  - cbn [mo_res]. intros o Hin. apply N2.
    pose proof (fun o H => Ho o (or_introl H)) as Ho'. revert Ho'. destruct H3 as [rs0 l Hl]. intros Ho'. cbn in Hin. destruct (pairwise_in _ _ _ _ Hl Hin) as (o0 & Hin0 & Hoo).
    destruct (Ho' o0 Hin0) as [V1 V2]. destruct Hoo as [o0 l1 cs0 Hl1 Hcs]. split; cbn [ob_any].
    + eapply K; eassumption.
    + intros c Hc. unfold Comps in Hc. cbn [ob_comps] in Hc. unfold Comps in V2. destruct Hcs as [|l0 l0' any' Hp]; [destruct Hc|]. cbn [cs_list] in *.
      destruct (pairwise_in _ _ _ _ Hp Hc) as (c0 & Hc0 & Hcc). destruct Hcc as [c0 l2 Hl2]. cbn [co_any]. split; [eapply K; [exact Hl2|apply V2; exact Hc0]|].
      intros u p _ _. right. reflexivity.
Qed.
Print Assumptions C28_then_valid_partial.

(** A model with missing, empty and present UUIDs. *)
Definition ex_fresh (n : nat) : string :=
  uuid_new (String (ascii_of_nat n) "123456789abcdef").
Definition ex_prod : Model :=
  mkModel "" "" 0 ""
    (mkRes [] [mkObj 2 "" "" "" 0 0 0 mg_zero None
                 (Some (mkComps [mkComp 1 matrix_zero [GComp "" "/a.model"]; mkComp 1 matrix_zero []] [])) [GObj "30313233-3435-4637-b839-616263646566"]] [])
    (mkBuild [mkItem 2 matrix_zero "" mg_zero [GItem "" ""]; ex_item 2] []) [] [] []
    [("/a.model", mkChild (mkRes [] [ex_cobj 1 []] []) [] [])] [] [] [] [].
Example C28_nonvacuous :
  production_validate ex_prod "" VModel <> None /\
  production_validate (set_missing_uuids ex_fresh ex_prod) "" VModel = None /\
  model_uuids (set_missing_uuids ex_fresh ex_prod) =
    [ex_fresh 0; ex_fresh 1; ex_fresh 2; ex_fresh 3; "30313233-3435-4637-b839-616263646566"; ex_fresh 4; ex_fresh 5] /\
  ProdViolation ex_prod "/a.model" (VObject (mkObj 2 "" "" "" 0 0 0 mg_zero None
     (Some (mkComps [mkComp 1 matrix_zero [GComp "x" "/a.model"]] [])) [])) [lv "components"; lvi "component" 0] (ESent "ErrProdRefInNonRoot").
Proof.
  split; [vm_compute; discriminate|]. split; [vm_compute; reflexivity|]. split; [vm_compute; reflexivity|].
  eapply PvComponent; [reflexivity|]. eapply (RuPath _ _ _ _ "x" "/a.model"); try discriminate.
  apply get_group_spec. reflexivity.
Qed.

(** The registered validators are proper: C20 and C21 apply to them. *)
Theorem C20_registry_proper : forall fuel, ProperValidators (registry fuel).
Proof.
  intros fuel ns v m path el. unfold registry.
  destruct (seq ns ns_materials); [intros H; injection H as <-; apply nn_materials|].
  destruct (seq ns ns_beamlattice); [intros H; injection H as <-; apply nn_beamlattice|].
  destruct (seq ns ns_slices).
  - intros H; injection H as <-. destruct (slices_validate fuel m path el) as [e|] eqn:E; [|reflexivity].
    destruct el as [|[| |[]]|o]; cbn [slices_validate] in E; try (injection E as <-; reflexivity).
    + injection E as <-. apply nn_slice_stack.
    + eapply nn_slice_object. exact E.
  - destruct (seq ns ns_production); [intros H; injection H as <-; apply nn_production|discriminate].
Qed.
Print Assumptions C20_registry_proper.
