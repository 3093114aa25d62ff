(** * Theorems: what Validate reports about a model that was saved and read: C86 *)
From Coq Require Import ZArith Reals Lra Permutation.
From Verif Require Import GoBase GoNum GoUtf8 GoFloat Types XmlTypes PkgTypes M_Core M_Errors M_Text M_Validate M_ExtValidate M_Xml M_Decode M_Printer M_Encode M_Package M_Childs M_Decoder
  S_Xml S_Printer S_Text S_Core S_Geom S_Strconv S_Package S_Childs S_PkgTrip S_Validate S_RoundTrip S_Revalid S_Report P_Core P_Validate2 P_Package P_RTBase P_RTText P_RTAttr P_RTExt P_RTCore P_RTModel P_RTPkg
  P_Strconv P_Revalid P_Revalid2 P_Revalid3 P_Firm P_Report T_Printer T_Validate T_ExtProd T_RoundTrip T_Package T_PkgTrip T_Revalid.
From Verif Require Import Types.
Local Open Scope list_scope.

Lemma fold_same (f g : error -> string -> error) (l : list string) : (forall e x, In x l -> f e x = g e x) -> forall e, fold_left f l e = fold_left g l e.
Proof. induction l as [|x l IH]; intros H e; [reflexivity|]. cbn [fold_left]. rewrite H by (left; reflexivity). apply IH. intros; apply H; right; assumption. Qed.

Section Whole.
Context (p : nat) (m m' : Model) (loaded : string -> bool) (fuel : nat) (known : string -> Prop).
Hypothesis X : mo_exts m' = mo_exts m.
Hypothesis MD : mo_md m' = mo_md m.
Hypothesis RS : forall path, find_resources m' path = option_map (rt_res p) (find_resources m path).
Hypothesis R0 : mo_res m' = rt_res p (mo_res m).
Hypothesis B : mo_build m' = rt_build (mo_build m).
Hypothesis PD : path_or_default m' = path_or_default m.
Hypothesis AT : Permutation (mo_atts m) (mo_atts m').
Hypothesis FM : Firm p m.
Hypothesis PF : forall rs, PartRes m rs -> exists pre, ResFits (env_of m) known p pre rs.
Hypothesis IF : forall i, In i (bu_items (mo_build m)) -> TransformFits (it_tr i).
Hypothesis PC : forall k, In k (sorted_childs m) -> PartRes m (ch_res (child_at m k)).
Hypothesis CK : sorted_childs m' = sorted_childs m.
Hypothesis CR : forall k, In k (sorted_childs m) -> ch_res (child_at m' k) = rt_res p (ch_res (child_at m k)).
Hypothesis RR : validate_relationship m' (mo_rootrels m') "" = validate_relationship m (mo_rootrels m) "".
Hypothesis RM : forall q, validate_relationship m' (mo_rels m') q = validate_relationship m (mo_rels m) q.
Hypothesis RC : forall k q, In k (sorted_childs m) -> validate_relationship m' (ch_rels (child_at m' k)) q = validate_relationship m (ch_rels (child_at m k)) q.
Definition Ours (el : VElem) : Prop :=
  match el with VModel => True | VAsset a => exists rs, PartRes m rs /\ In a (rs_assets rs) | VObject o => exists rs, PartRes m rs /\ In o (rs_objects rs) end.
Lemma whole_slices path el : Ours el -> (exists x, In x (mo_exts m) /\ ex_ns x = M_ExtValidate.ns_slices) ->
  slices_validate fuel m' path (rt_el p el) = slices_validate fuel m path el.
Proof.
  intros O U. change (Uses ns_slices m) in U.
  assert (CT : forall rs o cs c, PartRes m rs -> In o (rs_objects rs) -> ob_comps o = Some cs -> In c (cs_list cs) -> TransformFits (co_tr c)).
  { intros rs o cs c PR Io E Ic. destruct (PF rs PR) as (pre & _ & FO & _). rewrite Forall_forall in FO. destruct (FO o Io) as (_ & _ & _ & _ & _ & _ & _ & _ & _ & H). rewrite E in H.
    destruct (ob_mesh o); [destruct H|]. destruct H as (_ & _ & H & _). rewrite Forall_forall in H. destruct (H c Ic) as (_ & T & _). exact T. }
  assert (HT : forall q i st, find_asset m q i = Some (AExt (XSliceStack st)) -> forall s, In s (ss_slices st) -> Height m (sl_top s)).
  { intros q i st E s Is. apply found_ast in E as (rs & PR & I). exists rs, st, s. auto. }
  destruct el as [|a|o]; [reflexivity| |].
  - destruct a as [b|id ts|x]; try reflexivity. destruct x; try reflexivity. destruct O as (rs & PR & I). cbn [rt_el rt_asset rt_ext slices_validate]. f_equal. apply slice_stack_clear; try assumption.
    + apply (fi_tops _ _ FM U).
    + exists rs, s. auto.
    + intros x Ix. exists rs, s, x. auto.
    + intros r st' _. apply HT.
  - destruct O as (rs & PR & I). cbn [rt_el slices_validate]. apply slice_object_clear; try assumption.
    + intros q i o' cs c E. apply found_obj in E as (rs' & PR' & I'). eapply CT; eassumption.
    + intros t H. apply (fi_transforms _ _ FM U). destruct H as [H|(q & i & o' & cs & c & E & EC & Ic & ET)]; [left; exact H|right]. apply found_obj in E as (rs' & PR' & I'). exists rs', o', cs, c. auto.
Qed.
Lemma whole_lattices path el : Ours el -> (exists x, In x (mo_exts m) /\ ex_ns x = M_ExtValidate.ns_beamlattice) ->
  beamlattice_validate m' path (rt_el p el) = beamlattice_validate m path el.
Proof.
  intros O U. change (Uses ns_beam m) in U. destruct el as [|a|o]; [reflexivity|reflexivity|]. destruct O as (rs & PR & I). cbn [rt_el beamlattice_validate].
  eapply lattice_clear; [exact RS| |].
  - destruct (PF rs PR) as (pre & _ & FO & _). rewrite Forall_forall in FO. exists pre. exact (FO o I).
  - intros me g E1 E2. exact (fi_lattices _ _ FM U rs o me g PR I E1 E2).
Qed.
Lemma validate_report : validate loaded (registry fuel) m' = validate loaded (registry fuel) m.
Proof.
  assert (RP : forall path rs, PartRes m rs -> resources_validate (registry fuel) m' path (rt_res p rs) = resources_validate (registry fuel) m path rs).
  { intros path rs PR. apply (resources_report p m m' fuel X RS B PD AT Ours whole_slices whole_lattices); intros y Iy; exists rs; auto. }
  unfold validate. cbv zeta. rewrite RR, PD, CK, RM, MD, (check_rt m m' X).
  assert (VN : validate_namespaces loaded m' = validate_namespaces loaded m) by (unfold validate_namespaces; rewrite X; reflexivity). rewrite VN.
  rewrite (fold_same (fun errs path => if seq path (path_or_default m) then add errs (sent "ErrOPCDuplicatedModelName") else add errs (validate_relationship m' (ch_rels (child_at m' path)) path))
    (fun errs path => if seq path (path_or_default m) then add errs (sent "ErrOPCDuplicatedModelName") else add errs (validate_relationship m (ch_rels (child_at m path)) path)) (sorted_childs m))
    by (intros e x I; rewrite (RC x x I); reflexivity).
  pose proof (ext_rt p m m' fuel X RS B PD AT Ours whole_slices whole_lattices (mo_path m) (mo_path m') VModel (or_intror eq_refl)) as EX. cbn [rt_el] in EX. rewrite EX.
  rewrite (fold_same (fun errs path => match resources_validate (registry fuel) m' path (ch_res (child_at m' path)) with None => errs | Some _ => add errs (wrap_path (resources_validate (registry fuel) m' path (ch_res (child_at m' path))) "resources" path) end)
    (fun errs path => match resources_validate (registry fuel) m path (ch_res (child_at m path)) with None => errs | Some _ => add errs (wrap_path (resources_validate (registry fuel) m path (ch_res (child_at m path))) "resources" path) end) (sorted_childs m))
    by (intros e x I; rewrite (CR x I), (RP _ _ (PC x I)); reflexivity).
  rewrite R0, (RP _ _ (or_introl eq_refl)), B, (build_report p m m' X RS). reflexivity.
Qed.
End Whole.

(** ** A model file: Validate returns the same error, with the same places in the same order, about the model written
    and the model read.  Missing: models that do not meet [ModelFits], and models with slices or beam lattices whose
    numbers are so near each other that the digits that are not written matter ([Firm]), see below. *)
Theorem C86_model_partial : forall reg m fuel loaded, ModelFits (knows reg) 4 m -> Lone m -> Firm 4 m ->
  exists m' n d, unmarshal_model reg (marshal_model m) model_zero = DRet m' DNone n d /\ SameModel 4 m m' /\
    validate loaded (registry fuel) m' = validate loaded (registry fuel) m.
Proof.
  intros reg m fuel loaded F (L1 & L2 & L3 & L4 & L5) NF. destruct (root_run reg DefaultModelPath 4 m model_zero F) as (ts & s2 & D & E & R); try reflexivity.
  destruct (C35_print_scan _ _ _ D) as (evs & d & SC & T).
  destruct (file_run reg true DefaultModelPath 1000 (marshal_model m) model_zero evs d (top_mach s2) SC) as (n & Y); [intros later; apply R, T|reflexivity|].
  exists (rt_model 4 m model_zero), n, d. split; [unfold unmarshal_model; rewrite Y; cbn [top_mach m_st]; rewrite E; reflexivity|].
  split; [apply (model_same (knows reg)), F|].
  apply (validate_report 4 m _ loaded fuel (knows reg)); try reflexivity; try assumption.
  - intros path. unfold find_resources, find_child. rewrite L1, L2. cbn [rt_model mo_path model_zero mo_childs mo_res aget]. destruct (_ || _); reflexivity.
  - unfold path_or_default. rewrite L1. reflexivity.
  - rewrite L3. constructor.
  - intros rs [->|(k & c & I & _)]; [|rewrite L2 in I; destruct I]. destruct F as (_ & _ & H & _). eauto.
  - destruct F as (_ & _ & _ & (H & _) & _). rewrite Forall_forall in H. intros i Ii. destruct (H i Ii) as (_ & T2 & _). exact T2.
  - unfold sorted_childs. rewrite L2. intros k [].
  - unfold sorted_childs. rewrite L2. reflexivity.
  - unfold sorted_childs. rewrite L2. intros k [].
  - rewrite L4. reflexivity.
  - intros q. rewrite L5. reflexivity.
  - unfold sorted_childs. rewrite L2. intros k q [].
Qed.
Print Assumptions C86_model_partial.

(** ** A package, whatever the order of the maps and the schedule of the decoder.  Missing also: relationships that
    break the rules ([RelsFine]). *)
Theorem C86_package_partial : forall reg strict every normalize resolve refuses later p m order1 order2 w q r fuel loaded,
  PackageFits normalize resolve (knows reg) p m -> RelsFine m -> Firm p m ->
  Permutation order1 (mo_childs m) -> Permutation order2 (mo_childs m) ->
  encode normalize resolve refuses p order1 order2 m = Some w -> Carried w q ->
  decodes reg strict every resolve later q model_zero r ->
  exists m', r = PModel m' /\ SamePackage p m m' /\ validate loaded (registry fuel) m' = validate loaded (registry fuel) m.
Proof.
  intros * F (RN & R1 & R2 & R3) NF O1 O2 E C D. destruct (trip reg strict every normalize resolve refuses later p m order1 order2 w q F O1 O2 E C) as [H1 _].
  destruct (H1 r D) as (m' & X & SP & RP). exists m'. split; [exact X|]. split; [exact SP|].
  assert (TO : forall r, In r (all_rels m) -> PartName (rel_path r) /\ In (rel_path r) (map at_path (mo_atts m))).
  { intros x Hx. split; [apply RN, Hx|apply (pf_targets _ _ _ _ _ F), Hx]. }
  pose proof (childs_ok _ _ _ _ _ F) as CO. pose proof (rp_distinct _ _ _ RP) as CO'.
  assert (CI : forall k, In k (sorted_childs m) -> exists c c', child_at m k = c /\ child_at m' k = c' /\ In (k, c) (mo_childs m) /\ In (k, c') (mo_childs m')).
  { intros k Hk. apply sorted_childs_in in Hk as (c & Hc). destruct (rp_children _ _ _ RP k c Hc) as (c' & Hc' & _). exists c, c'.
    split; [apply child_at_in; assumption|]. split; [apply child_at_in; assumption|auto]. }
  apply (validate_report p m _ loaded fuel (knows reg)); try assumption.
  - apply (rp_exts _ _ _ RP).
  - apply (rp_md _ _ _ RP).
  - eapply resources_rt; eassumption.
  - apply (rp_res _ _ _ RP).
  - apply (rp_build _ _ _ RP).
  - eapply default_rt; eassumption.
  - apply (sp_attachments _ _ _ SP).
  - eapply part_fits; eassumption.
  - pose proof (items_fit _ _ _ _ _ F) as H. rewrite Forall_forall in H. exact H.
  - intros k Hk. destruct (CI k Hk) as (c & c' & -> & _ & I & _). right. exists k, c. auto.
  - unfold sorted_childs. symmetry. apply (isort_perm_eq sleb sleb_total sleb_trans sleb_antisym), (sp_names _ _ _ SP).
  - intros k Hk. destruct (CI k Hk) as (c & c' & -> & -> & I & I'). destruct (child_from p m m' SP RP k c' I') as (c1 & I1 & ER & _).
    rewrite ER. f_equal. f_equal. pose proof (in_aget _ _ _ CO I). pose proof (in_aget _ _ _ CO I1). congruence.
  - rewrite (proj2 (proj1 (C22_relationships m (mo_rootrels m) "")) R1). apply C22_relationships.
    apply (rels_kept (mo_atts m) (mo_atts m') (mo_rootrels m) (thumb_rels m)); [eapply atts_distinct; eassumption|apply (sp_attachments _ _ _ SP)|exact R1|apply thumb_types| |apply (sp_rootrels _ _ _ SP)].
    intros x I. apply TO. unfold all_rels. apply in_or_app. left. exact I.
  - intros q'. rewrite (proj2 (proj1 (C22_relationships m (mo_rels m) q')) R2). apply C22_relationships.
    apply (rels_kept (mo_atts m) (mo_atts m') (mo_rels m) (demands (mo_res m))); [eapply atts_distinct; eassumption|apply (sp_attachments _ _ _ SP)|exact R2|apply demands_types| |apply (sp_rels _ _ _ SP)].
    intros x I. apply TO. unfold all_rels. apply in_or_app. right. apply in_or_app. left. exact I.
  - intros k q' Hk. destruct (CI k Hk) as (c & c' & -> & -> & I & I'). destruct (child_from p m m' SP RP k c' I') as (c1 & I1 & _ & RL).
    assert (c1 = c) as -> by (pose proof (in_aget _ _ _ CO I); pose proof (in_aget _ _ _ CO I1); congruence).
    rewrite (proj2 (proj1 (C22_relationships m (ch_rels c) q')) (R3 k c I)). apply C22_relationships.
    apply (rels_kept (mo_atts m) (mo_atts m') (ch_rels c) (demands (ch_res c))); [eapply atts_distinct; eassumption|apply (sp_attachments _ _ _ SP)|exact (R3 k c I)|apply demands_types| |exact RL].
    intros x Ix. apply TO. unfold all_rels. apply in_or_app. right. apply in_or_app. right. apply in_flat_map. exists (k, c). split; [exact I|exact Ix].
Qed.
Print Assumptions C86_package_partial.

(** ** False in general: what is reported need not be reported any more when the model was saved and read *)
Local Notation valid m := (forall fuel, validate (fun _ => true) (registry (S fuel)) m = None).
Local Notation invalid m := (forall fuel, validate (fun _ => true) (registry (S fuel)) m <> None).
(** A slice below the bottom of its stack: 1.00001 and 1.00002 are both written as 1.0000. *)
Definition below_model : Model :=
  ext_model [AExt (XSliceStack (mkSS 7 (near_one 168) [mkSlice (near_one 84) [] []] []))] [] (mkBuild [] [GBuild rt_uuid]).
Theorem C86_numbers_refuted : exists m m' n d, ModelFits (knows reg_all) 4 m /\
  unmarshal_model reg_all (marshal_model m) model_zero = DRet m' DNone n d /\ invalid m /\ valid m'.
Proof.
  exists below_model. eexists _, _, _. split; [|split; [vm_compute; reflexivity|split; [intros fuel; vm_compute; discriminate|intros fuel; vm_compute; reflexivity]]].
  split; [apply ext_head|]. cbv zeta. assert (DS : S_Printer.Declared (env_of below_model) ns_slices) by (split; [discriminate|exists "s"; reflexivity]).
  assert (DP : S_Printer.Declared (env_of below_model) ns_production) by (split; [discriminate|exists "p"; reflexivity]).
  set (e := env_of below_model) in *. clearbody e. fits; try (intros g; discriminate); try (split; intros; reflexivity); auto.
Qed.
Print Assumptions C86_numbers_refuted.
(** A repeated relationship is written once. *)
Definition repeated_model : Model :=
  mkModel "" "" 0 "" res_zero (mkBuild [] []) [mkAtt "tex" "/3D/t.png" "image/png"] [] [] [] [] [mkRel "/3D/t.png" "http://x" "a"; mkRel "/3D/t.png" "http://x" "b"] [] [].
Theorem C86_repeated_refuted : exists m w m', PackageFits (fun n => n) (fun _ n => n) (knows reg_all) 4 m /\ NoNumberRules m /\
  encode (fun n => n) (fun _ n => n) (fun _ _ _ => false) 4 [] [] m = Some w /\
  decodes reg_all true 1000 (fun _ n => n) (fun _ _ => "") (read_of w) model_zero (PModel m') /\ invalid m /\ valid m'.
Proof.
  exists repeated_model. eexists. eexists. split; [|split; [intros x []|split; [vm_compute; reflexivity|split; [|split]]]].
  - constructor.
    + unfold ModelFits, HeadFits. set (e := env_of repeated_model) in *. clearbody e. unfold ExtsFit. cbv zeta. fits; auto.
    + intros k c [].
    + vm_compute. repeat constructor; cbn; intuition discriminate.
    + intros n Hn. split; [|auto]. intros ->. cbn in Hn. repeat (destruct Hn as [Hn|Hn]; [discriminate|]). destruct Hn.
    + intros r Hr. cbn in Hr. repeat (destruct Hr as [<-|Hr]; [discriminate|]). destruct Hr.
    + intros r Hr. cbn in Hr. repeat (destruct Hr as [<-|Hr]; [cbn; auto 8|]). destruct Hr.
    + intros a [<-|[]]. exists (mkRel "/3D/t.png" "http://x" "a"). split; [cbn; auto|reflexivity].
    + split; [|intros k c []]. intros a b Ha Hb X; cbn in Ha, Hb; intuition subst; try reflexivity; discriminate X.
    + split; [intros o me []|]. split; [intros t []|]. intros k c [].
  - eapply DecRoot; [vm_compute; reflexivity| |].
    + exists 0. eexists. split; [constructor|]. split; [constructor|]. split; reflexivity.
    + vm_compute. reflexivity.
  - intros fuel. vm_compute. discriminate.
  - intros fuel. vm_compute. reflexivity.
Qed.
Print Assumptions C86_repeated_refuted.

(** Both theorems speak of models with mistakes: an item of a missing object and one without, a triangle with a vertex
    twice and one beyond the last vertex, a missing property group, two objects of one identifier, an unknown name of
    metadata, a build without UUID *)
Definition flawed_mesh : Mesh :=
  mkMesh [P3 f_zero f_zero f_zero; P3 f_one f_zero f_zero; P3 f_zero f_one f_zero; P3 f_zero f_zero f_one] []
    [mkTri 0 0 1 0 0 0 0 []; mkTri 0 1 9 0 0 0 0 []; mkTri 0 3 2 77 0 1 2 []] [] [] [].
Definition flawed_child : Child :=
  mkChild (mkRes [] [mkObj 1 "c" "" "/3D/Thumb/o.png" 0 0 0 mg_zero (Some flawed_mesh) None [GObj rt_uuid]; mkObj 1 "d" "" "" 5 0 0 mg_zero (Some flawed_mesh) None [GObj rt_uuid]] [])
    [mkRel "/ticket.xml" rel_print_ticket ""] [].
Definition flawed_model : Model :=
  mkModel "" "en-US" 1 "/thumb.png" (mkRes [trip_tex] [mkObj 2 "" "" "" 0 0 0 mg_zero (Some flawed_mesh) None [GObj rt_uuid]] [])
    (mkBuild [mkItem 8 matrix_zero "" mg_zero [GItem rt_uuid "/3D/other.model"]; mkItem 0 matrix_zero "" mg_zero [GItem rt_uuid ""]] [])
    [mkAtt "png" "/thumb.png" "image/png"; mkAtt "tex" "/3D/Texture/t.png" "image/png"; mkAtt "o" "/3D/Thumb/o.png" "image/png"; mkAtt "ticket" "/ticket.xml" ct_print_ticket]
    [mkExt ns_production "p" true; mkExt ns_materials "m" false] [mkMeta (mkName "" "Other") "t" "" false]
    [("/3D/other.model", flawed_child)] [] [] [] [].
Definition flawed_alone : Model :=
  mkModel "" "en-US" 1 "" (mkRes [] [mkObj 2 "" "" "" 0 0 0 mg_zero (Some flawed_mesh) None [GObj rt_uuid]] [])
    (mkBuild [mkItem 8 matrix_zero "" mg_zero [GItem rt_uuid "/3D/other.model"]; mkItem 0 matrix_zero "" mg_zero [GItem rt_uuid ""]] [])
    [] [mkExt ns_production "p" true; mkExt ns_materials "m" false] [mkMeta (mkName "" "Other") "t" "" false] [] [] [] [] [].
(** Slices out of order and one below the bottom of its stack, an item that tilts them, a lattice without a minimal length
    with a beam from a vertex to itself, one to a vertex beyond the last and one with a second radius alone *)
Definition f_three : f32 := S754_finite false 12582912 (-22).
Definition tilted : Matrix := M16 f_one f_zero f_one f_zero f_zero f_one f_zero f_zero f_zero f_zero f_one f_zero f_zero f_zero f_zero f_one.
Definition bent_stack : SliceStack := mkSS 7 f_two [mkSlice f_three [] []; mkSlice f_one [] []] [].
Definition bent_lattice : BeamLattice := mkBL 1 0 0 [mkBeam 0 0 f_two f_three 0 0; mkBeam 1 9 f_one f_one 0 0] [] f_zero f_one 0.
Definition bent_model : Model :=
  ext_model [AExt (XSliceStack bent_stack)] [mkObj 2 "" "" "" 0 0 0 mg_zero (Some (sound_mesh [AnyExt (XBeamLattice bent_lattice)])) None [GObj rt_uuid; GSlice 7 0]]
    (mkBuild [mkItem 2 tilted "" mg_zero [GItem rt_uuid ""]] [GBuild rt_uuid]).
Lemma bent_fits : ModelFits (knows reg_all) 4 bent_model.
Proof.
  split; [apply ext_head|]. cbv zeta. assert (DS : S_Printer.Declared (env_of bent_model) ns_slices) by (split; [discriminate|exists "s"; reflexivity]).
  assert (DP : S_Printer.Declared (env_of bent_model) ns_production) by (split; [discriminate|exists "p"; reflexivity]).
  assert (DB : S_Printer.Declared (env_of bent_model) ns_beam) by (split; [discriminate|exists "b"; reflexivity]).
  assert (O2 : OwnRadius 4 f_two) by (apply (own_above 8388608 22); [reflexivity|discriminate]).
  assert (O3 : OwnRadius 4 f_three) by (apply (own_above 12582912 22); [reflexivity|discriminate]).
  set (e := env_of bent_model) in *. clearbody e. fits; try (intros g; discriminate); try (split; intros; reflexivity); auto.
  - split; [right; split; [exact O2|reflexivity]|right; split; [exact O3|reflexivity]].
  - split; left; [reflexivity|split; reflexivity].
Qed.
Lemma bent_firm : Firm 4 bent_model.
Proof.
  assert (V0 : value f_zero = 0%R) by reflexivity. assert (V1 : value f_one = 1%R) by exact value_one. assert (V2 : value f_two = 2%R) by exact value_two.
  assert (V3 : value f_three = 3%R) by exact value_three.
  assert (D : forall p x y, Finite x -> Finite y -> (p = 3 \/ p = 4) -> (value x = value y \/ 1 <= value x - value y \/ 1 <= value y - value x)%R -> Clear p x y).
  { intros p x y Fx Fy Hp H. split; [exact Fx|]. split; [exact Fy|]. destruct H as [H|H]; [left; exact H|right]. apply Rlt_le_trans with 1%R; [destruct Hp; subst; cbn; lra|].
    destruct H; [rewrite Rabs_pos_eq by lra; lra|rewrite Rabs_left1 by lra; lra]. }
  Ltac clear_tac D V0 V1 V2 V3 := apply D; [first [reflexivity|exact I]|first [reflexivity|exact I]|first [left; reflexivity|right; reflexivity]|rewrite ?V0, ?V1, ?V2, ?V3; lra].
  constructor.
  - intros _ x (rs & st & s & [->|(k & c & [] & ->)] & J & K & ->). destruct J as [J|[]]. injection J as <-.
    assert (HY : forall y, Height bent_model y \/ Bottom bent_model y -> y = f_three \/ y = f_one \/ y = f_two).
    { intros y [(rs & st & s' & [->|(k & c & [] & ->)] & J & L & ->)|(rs & st & [->|(k & c & [] & ->)] & J & ->)]; (destruct J as [J|[]]; injection J as <-; [..]).
      - destruct L as [<-|[<-|[]]]; auto.
      - auto. }
    destruct K as [<-|[<-|[]]]; cbn [sl_top]; (split; [clear_tac D V0 V1 V2 V3|]); intros y Hy; destruct (HY y Hy) as [->|[-> | ->]]; clear_tac D V0 V1 V2 V3.
  - intros _ t [(i & [<-|[]] & ->)|(rs & o & cs & c & [->|(k & c' & [] & ->)] & [<-|[]] & E & _)]; [|discriminate].
    cbn [it_tr m2 m6 m8 m9 m10 tilted]. repeat split; clear_tac D V0 V1 V2 V3.
  - intros _ rs o me g [->|(k & c & [] & ->)] [<-|[]] E J. injection E as <-. destruct J as [J|[]]. injection J as <-.
    cbn [bl_minlen bl_radius bl_beams bent_lattice]. split; [clear_tac D V0 V1 V2 V3|]. split; [clear_tac D V0 V1 V2 V3|].
    intros b [<-|[<-|[]]]; cbn [bm_r1 bm_r2]; split; clear_tac D V0 V1 V2 V3.
Qed.
(** Nothing is asked of the numbers of models without the two extensions. *)
Lemma no_rules_firm p m : NoNumberRules m -> Firm p m.
Proof. intros H. constructor; intros (x & I & E); destruct (H x I) as [H1 H2]; contradiction. Qed.
Example C86_nonvacuous :
  (PackageFits (fun n => n) (fun _ n => n) (knows reg_all) 4 flawed_model /\ RelsFine flawed_model /\ Firm 4 flawed_model /\
   (exists w, encode (fun n => n) (fun _ n => n) (fun _ _ _ => false) 4 (mo_childs flawed_model) (mo_childs flawed_model) flawed_model = Some w /\ Carried w (read_of w)) /\
   List.length (S_Errors.located_o (validate (fun _ => true) (registry 5) flawed_model)) = 18) /\
  ModelFits (knows reg_all) 4 flawed_alone /\ Lone flawed_alone /\ Firm 4 flawed_alone /\ invalid flawed_alone /\
  ModelFits (knows reg_all) 4 bent_model /\ Lone bent_model /\ Firm 4 bent_model /\
  List.length (S_Errors.located_o (validate (fun _ => true) (registry 5) bent_model)) = 7.
Proof.
  split; [split; [|split; [|split; [|split; [eexists; split; [reflexivity|apply read_carried]|vm_compute; reflexivity]]]]|split; [|split; [|split; [|split; [|split; [exact bent_fits|split; [repeat split|split; [exact bent_firm|]]]]]]]].
  - assert (DP : S_Printer.Declared (env_of flawed_model) ns_production) by (split; [discriminate|exists "p"; reflexivity]).
    assert (DM : S_Printer.Declared (env_of flawed_model) ns_materials) by (split; [discriminate|exists "m"; reflexivity]).
    constructor.
    + unfold ModelFits, HeadFits. set (e := env_of flawed_model) in *. clearbody e. unfold ExtsFit. cbv zeta. fits; auto; try (intros g; discriminate).
      * intros _ c [<-|[]]. reflexivity.
      * right. split; [reflexivity|]. intros q r H _ _. cbn in H. repeat (destruct q as [|? q]; [discriminate H|cbn in H; try discriminate H; injection H as _ H]).
    + intros k c [H|[]]. injection H as <- <-. split; [|reflexivity]. set (e := env_of flawed_model) in *. clearbody e. fits; auto.
    + vm_compute. repeat constructor; cbn; intuition discriminate.
    + intros n Hn. split; [|auto]. intros ->. cbn in Hn. repeat (destruct Hn as [Hn|Hn]; [discriminate|]). destruct Hn.
    + intros r Hr. cbn in Hr. repeat (destruct Hr as [<-|Hr]; [discriminate|]). destruct Hr.
    + intros r Hr. cbn in Hr. repeat (destruct Hr as [<-|Hr]; [cbn; auto 8|]). destruct Hr.
    + intros a Ha. cbn in Ha. destruct Ha as [<-|[<-|[<-|[<-|[]]]]].
      * exists (mkRel "/thumb.png" type_thumbnail ""). split; [cbn; auto 10|reflexivity].
      * exists (mkRel "/3D/Texture/t.png" type_texture ""). split; [cbn; auto 10|reflexivity].
      * exists (mkRel "/3D/Thumb/o.png" type_thumbnail ""). split; [cbn; auto 10|reflexivity].
      * exists (mkRel "/ticket.xml" rel_print_ticket ""). split; [cbn; auto 10|reflexivity].
    + split; [|intros k c [H|[]]; injection H as <- <-]; intros a b Ha Hb X; cbn in Ha, Hb; intuition subst; try reflexivity; discriminate X.
    + split; [intros o me [<-|[]] X; injection X as <-; intros t []|]. split; [intros t []|]. intros k c [H|[]]. injection H as <- <-. intros o me [<-|[<-|[]]] X; injection X as <-; intros t [].
  - split; [|split; [|split]].
    + intros r Hr. cbn in Hr. repeat (destruct Hr as [<-|Hr]; [apply part_name; reflexivity|]). destruct Hr.
    + apply (C22_relationships flawed_model _ ""). reflexivity.
    + apply (C22_relationships flawed_model _ ""). reflexivity.
    + intros k c [H|[]]. injection H as <- <-. apply (C22_relationships flawed_model _ ""). vm_compute. reflexivity.
  - apply no_rules_firm. intros x [<-|[<-|[]]]; split; discriminate.
  - assert (DP : S_Printer.Declared (env_of flawed_alone) ns_production) by (split; [discriminate|exists "p"; reflexivity]).
    unfold ModelFits, HeadFits. set (e := env_of flawed_alone) in *. clearbody e. unfold ExtsFit. cbv zeta. fits; auto; try (intros g; discriminate).
    + intros _ c [<-|[]]. reflexivity.
    + right. split; [reflexivity|]. intros q r H _ _. cbn in H. repeat (destruct q as [|? q]; [discriminate H|cbn in H; try discriminate H; injection H as _ H]).
  - repeat split.
  - apply no_rules_firm. intros x [<-|[<-|[]]]; split; discriminate.
  - intros fuel. vm_compute. discriminate.
  - vm_compute. reflexivity.
Qed.
