(** * Theorems: a valid model is valid after it is saved and read: C66 *)
From Coq Require Import ZArith Reals Lra Permutation.
From Verif Require Import GoBase GoNum GoUtf8 GoFloat Types XmlTypes PkgTypes M_Core M_Errors M_Text M_Validate M_ExtValidate M_Xml M_Decode M_Printer M_Encode M_Package M_Childs M_Decoder
  S_Xml S_Printer S_Text S_Core S_Geom S_Strconv S_Package S_Childs S_PkgTrip S_Validate S_RoundTrip S_Revalid P_Package P_RTBase P_RTText P_RTAttr P_RTExt P_RTModel P_RTPkg
  P_Strconv P_Revalid P_Revalid2 P_Revalid3 T_Validate T_ExtProd T_RoundTrip T_Package T_PkgTrip.

(** A model that [Validate] accepts is accepted again after it was encoded and decoded, whatever the order of the
    maps, the schedule of the decoder and the extensions loaded.  Missing: models that do not meet [PackageFits], and
    models whose validity hangs on digits that are not written ([Robust]), see below. *)
Theorem C66_valid_partial : forall reg strict every normalize resolve refuses later p m order1 order2 w q r fuel loaded,
  PackageFits normalize resolve (knows reg) p m -> Robust p m -> SmallVertices m ->
  Permutation order1 (mo_childs m) -> Permutation order2 (mo_childs m) ->
  encode normalize resolve refuses p order1 order2 m = Some w -> Carried w q ->
  decodes reg strict every resolve later q model_zero r ->
  validate loaded (registry fuel) m = None ->
  exists m', r = PModel m' /\ SamePackage p m m' /\ validate loaded (registry fuel) m' = None.
Proof.
  intros * F R SV O1 O2 E C D V. destruct (trip reg strict every normalize resolve refuses later p m order1 order2 w q F O1 O2 E C) as [H1 _].
  destruct (H1 r D) as (m' & X & SP & RP). exists m'. split; [exact X|]. split; [exact SP|].
  apply C20_validate_nil in V; [|apply C20_registry_proper|apply (childs_ok _ _ _ _ _ F)|exact SV].
  apply C20_validate_nil; [apply C20_registry_proper|apply (rp_distinct _ _ _ RP)|eapply small_rt; eassumption|]. eapply conforms_rt; eassumption.
Qed.
Print Assumptions C66_valid_partial.

(** ** False in general *)
Local Notation valid m := (forall fuel, validate (fun _ => true) (registry (S fuel)) m = None).
Local Notation invalid m := (forall fuel, validate (fun _ => true) (registry (S fuel)) m <> None).
Definition near_one (k : positive) : f32 := S754_finite false (8388608 + k) (-23).
(** Slices at 1.00001 and 1.00002 are both written at 1.0000. *)
Definition close_model : Model :=
  ext_model [AExt (XSliceStack (mkSS 7 f_zero [mkSlice (near_one 84) [] []; mkSlice (near_one 168) [] []] []))] [] (mkBuild [] [GBuild rt_uuid]).
Theorem C66_slices_refuted : exists m m' n d, ModelFits (knows reg_all) 4 m /\
  unmarshal_model reg_all (marshal_model m) model_zero = DRet m' DNone n d /\ valid m /\ invalid m'.
Proof.
  exists close_model. eexists _, _, _. split; [|split; [vm_compute; reflexivity|split; [intros fuel; vm_compute; reflexivity|intros fuel; vm_compute; discriminate]]].
  split; [apply ext_head|]. cbv zeta. assert (DS : S_Printer.Declared (env_of close_model) ns_slices) by (split; [discriminate|exists "s"; reflexivity]).
  assert (DP : S_Printer.Declared (env_of close_model) ns_production) by (split; [discriminate|exists "p"; reflexivity]).
  set (e := env_of close_model) in *. clearbody e. fits; try (intros g; discriminate); try (split; intros; reflexivity); auto.
Qed.
Print Assumptions C66_slices_refuted.
(** A shortest beam of 0.00001 is written as 0.0000 and counts as absent. *)
Definition thin_lattice : BeamLattice := mkBL 1 0 0 [mkBeam 0 1 f_one f_one 0 0] [] (S754_finite false 10995116 (-40)) f_one 0.
Definition thin_model : Model :=
  ext_model [] [mkObj 1 "" "" "" 0 0 0 mg_zero (Some (mkMesh [P3 f_zero f_zero f_zero; P3 f_one f_zero f_zero; P3 f_zero f_one f_zero] [] [] [] [] [AnyExt (XBeamLattice thin_lattice)])) None [GObj rt_uuid]]
    (mkBuild [] [GBuild rt_uuid]).
Theorem C66_lattice_refuted : exists m m' n d, ModelFits (knows reg_all) 4 m /\
  unmarshal_model reg_all (marshal_model m) model_zero = DRet m' DNone n d /\ valid m /\ invalid m'.
Proof.
  exists thin_model. eexists _, _, _. split; [|split; [vm_compute; reflexivity|split; [intros fuel; vm_compute; reflexivity|intros fuel; vm_compute; discriminate]]].
  split; [apply ext_head|]. cbv zeta. assert (DB : S_Printer.Declared (env_of thin_model) ns_beam) by (split; [discriminate|exists "b"; reflexivity]).
  assert (DP : S_Printer.Declared (env_of thin_model) ns_production) by (split; [discriminate|exists "p"; reflexivity]).
  set (e := env_of thin_model) in *. clearbody e. fits; auto. split; left; auto.
Qed.
Print Assumptions C66_lattice_refuted.
(** Validate wants the namespace of metadata, the file has its prefix: what is valid in memory is not when it is read. *)
Definition spaced_model : Model :=
  mkModel "" "" 0 "" res_zero (mkBuild [] []) [] [mkExt "http://x" "x" false] [mkMeta (mkName "http://x" "part") "7" "" false] [] [] [] [] [].
Theorem C66_metadata_refuted : exists m m' n d,
  unmarshal_model reg_all (marshal_model m) model_zero = DRet m' DNone n d /\ valid m /\ invalid m'.
Proof. exists spaced_model. eexists _, _, _. split; [vm_compute; reflexivity|]. split; [intros fuel; vm_compute; reflexivity|intros fuel; vm_compute; discriminate]. Qed.
Print Assumptions C66_metadata_refuted.
(** The relationship that is added for a texture may lead to a part whose name is not allowed. *)
Definition hidden_model : Model :=
  mkModel "" "" 0 "" (mkRes [AExt (XTexture2D (mkTex2D 9 "/3D/.t.png" 1 0 0 0))] [] []) (mkBuild [] []) [mkAtt "tex" "/3D/.t.png" "image/png"] [mkExt ns_materials "m" false] [] [] [] [] [] [].
Theorem C66_names_refuted : exists m w m', PackageFits (fun n => n) (fun _ n => n) (knows reg_all) 4 m /\
  encode (fun n => n) (fun _ n => n) (fun _ _ _ => false) 4 [] [] m = Some w /\
  decodes reg_all true 1000 (fun _ n => n) (fun _ _ => "") (read_of w) model_zero (PModel m') /\ valid m /\ invalid m'.
Proof.
  exists hidden_model. eexists. eexists. split; [|split; [vm_compute; reflexivity|split; [|split]]].
  - assert (DM : S_Printer.Declared (env_of hidden_model) ns_materials) by (split; [discriminate|exists "m"; reflexivity]).
    constructor.
    + unfold ModelFits, HeadFits. set (e := env_of hidden_model) in *. clearbody e. unfold ExtsFit. cbv zeta. fits; auto. intros g. discriminate.
    + intros k c [].
    + vm_compute. repeat constructor; cbn; intuition discriminate.
    + intros n Hn. split; [|auto]. intros ->. cbn in Hn. repeat (destruct Hn as [Hn|Hn]; [discriminate|]). destruct Hn.
    + intros r Hr. cbn in Hr. repeat (destruct Hr as [<-|Hr]; [discriminate|]). destruct Hr.
    + intros r Hr. cbn in Hr. repeat (destruct Hr as [<-|Hr]; [cbn; auto 8|]). destruct Hr.
    + intros a [<-|[]]. exists (mkRel "/3D/.t.png" type_texture ""). split; [cbn; auto|reflexivity].
    + split; [|intros k c []]. intros a b Ha Hb X; cbn in Ha, Hb; intuition subst; try reflexivity; discriminate X.
    + split; [intros o me []|]. split; [intros t []|]. intros k c [].
  - eapply DecRoot; [vm_compute; reflexivity| |].
    + exists 0. eexists. split; [constructor|]. split; [constructor|]. split; reflexivity.
    + vm_compute. reflexivity.
  - intros fuel. vm_compute. reflexivity.
  - intros fuel. vm_compute. discriminate.
Qed.
Print Assumptions C66_names_refuted.

(** Two slices, a lattice, a texture, a child with a thumbnail, a print ticket and a placed item *)
Definition sound_lattice : BeamLattice := mkBL 1 0 0 [mkBeam 0 1 f_one f_one 0 0] [] f_one f_one 0.
Definition sound_mesh (l : list AnyElem) : Mesh :=
  mkMesh [P3 f_zero f_zero f_zero; P3 f_one f_zero f_zero; P3 f_zero f_one f_zero; P3 f_zero f_zero f_one] []
    [mkTri 0 2 1 0 0 0 0 []; mkTri 0 1 3 0 0 0 0 []; mkTri 0 3 2 0 0 0 0 []; mkTri 1 2 3 0 0 0 0 []] [] [] l.
Definition sound_stack : SliceStack := mkSS 7 f_zero [mkSlice f_one [] []; mkSlice f_two [P2 f_zero f_zero; P2 f_one f_zero] [mkPoly 0 [mkSeg 1 0 0 0; mkSeg 0 0 0 0]]] [].
Definition sound_child : Child :=
  mkChild (mkRes [] [mkObj 1 "c" "" "/3D/Thumb/o.png" 0 0 0 mg_zero (Some (sound_mesh [])) None [GObj rt_uuid]] []) [mkRel "/ticket.xml" rel_print_ticket ""] [].
Definition sound_model : Model :=
  mkModel "" "en-US" 1 "/thumb.png"
    (mkRes [trip_tex; AExt (XSliceStack sound_stack)]
       [mkObj 2 "" "" "" 0 0 0 mg_zero (Some (sound_mesh [AnyExt (XBeamLattice sound_lattice)])) None [GObj rt_uuid; GSlice 7 0]] [])
    (mkBuild [mkItem 1 matrix_zero "" mg_zero [GItem rt_uuid "/3D/other.model"]; mkItem 2 matrix_zero "" mg_zero [GItem rt_uuid ""]] [GBuild rt_uuid])
    [mkAtt "png" "/thumb.png" "image/png"; mkAtt "tex" "/3D/Texture/t.png" "image/png"; mkAtt "o" "/3D/Thumb/o.png" "image/png"; mkAtt "ticket" "/ticket.xml" ct_print_ticket]
    [mkExt ns_production "p" true; mkExt ns_materials "m" false; mkExt ns_slices "s" false; mkExt ns_beam "b" false] [mkMeta (mkName "" "Title") "t" "" false]
    [("/3D/other.model", sound_child)] [] [] [] [].
Lemma part_name s : bad_part_name s = false -> PartName s.
Proof.
  intros H. destruct s as [|c s]; [discriminate|]. cbn [bad_part_name] in H. apply orb_false_iff in H as [H1 H2]. apply negb_false_iff in H1.
  destruct (ceq_spec c "/"%char) as [->|]; [|discriminate]. split; [exists s; reflexivity|]. intros X. apply contains_spec in X. congruence.
Qed.
Example C66_nonvacuous : PackageFits (fun n => n) (fun _ n => n) (knows reg_all) 4 sound_model /\ Robust 4 sound_model /\ SmallVertices sound_model /\
  (exists w, encode (fun n => n) (fun _ n => n) (fun _ _ _ => false) 4 (mo_childs sound_model) (mo_childs sound_model) sound_model = Some w /\ Carried w (read_of w)) /\
  valid sound_model.
Proof.
  split; [|split; [|split; [|split; [eexists; split; [reflexivity|apply read_carried]|intros fuel; vm_compute; reflexivity]]]].
  - assert (DP : S_Printer.Declared (env_of sound_model) ns_production) by (split; [discriminate|exists "p"; reflexivity]).
    assert (DM : S_Printer.Declared (env_of sound_model) ns_materials) by (split; [discriminate|exists "m"; reflexivity]).
    assert (DS : S_Printer.Declared (env_of sound_model) ns_slices) by (split; [discriminate|exists "s"; reflexivity]).
    assert (DB : S_Printer.Declared (env_of sound_model) ns_beam) by (split; [discriminate|exists "b"; reflexivity]).
    constructor.
    + unfold ModelFits, HeadFits. set (e := env_of sound_model) in *. clearbody e. unfold ExtsFit. cbv zeta. fits; auto.
      * intros _ c [<-|[]]. reflexivity.
      * right. split; [reflexivity|]. intros q r H _ _. cbn in H. repeat (destruct q as [|? q]; [discriminate H|cbn in H; try discriminate H; injection H as _ H]).
      * intros g. discriminate.
      * intros g. discriminate.
      * split; left; auto.
    + intros k c [H|[]]. injection H as <- <-. split; [|reflexivity]. set (e := env_of sound_model) in *. clearbody e. fits; auto.
    + vm_compute. repeat constructor; cbn; intuition discriminate.
    + intros n Hn. split; [|auto]. intros ->. cbn in Hn. repeat (destruct Hn as [Hn|Hn]; [discriminate|]). destruct Hn.
    + intros r Hr. cbn in Hr. repeat (destruct Hr as [<-|Hr]; [discriminate|]). destruct Hr.
    + intros r Hr. cbn in Hr. repeat (destruct Hr as [<-|Hr]; [cbn; auto 8|]). destruct Hr.
    + intros a Ha. cbn in Ha. destruct Ha as [<-|[<-|[<-|[<-|[]]]]].
      * exists (mkRel "/thumb.png" type_thumbnail ""). split; [cbn; auto 10|reflexivity].
      * exists (mkRel "/3D/Texture/t.png" type_texture ""). split; [cbn; auto 10|reflexivity].
      * exists (mkRel "/3D/Thumb/o.png" type_thumbnail ""). split; [cbn; auto 10|reflexivity].
      * exists (mkRel "/ticket.xml" rel_print_ticket ""). split; [cbn; auto 10|reflexivity].
    + split; [|intros k c [H|[]]; injection H as <- <-]; intros a b Ha Hb X; cbn in Ha, Hb; intuition subst; try reflexivity; discriminate X.
    + split; [intros o me [<-|[]] X; injection X as <-; intros t [H|[]]; discriminate|]. split; [intros t []|]. intros k c [H|[]]. injection H as <- <-. intros o me [<-|[]] X. injection X as <-. intros t [].
  - assert (V1 : value f_one = 1%R) by exact value_one.
    assert (V2 : value f_two = 2%R) by exact value_two.
    assert (HH : forall x, Height sound_model x -> x = f_one \/ x = f_two).
    { intros x (rs & st & s & [->|(k & c & [H|[]] & ->)] & I & J & ->).
      - destruct I as [I|[I|[]]]; [discriminate|]. injection I as <-. destruct J as [<-|[<-|[]]]; auto.
      - injection H as <- <-. destruct I. }
    constructor.
    + intros r Hr. cbn in Hr. repeat (destruct Hr as [<-|Hr]; [apply part_name; reflexivity|]). destruct Hr.
    + intros x Hx. destruct (HH x Hx) as [-> | ->]; (split; [reflexivity|]); intros _ _; rewrite ?V1, ?V2, Rabs_pos_eq; lra.
    + intros x y Hx Hy. destruct (HH x Hx) as [-> | ->], (HH y Hy) as [-> | ->]; rewrite ?V1, ?V2; lra.
    + intros rs o me g [->|(k & c & [H|[]] & ->)] I E J.
      * destruct I as [<-|[]]. injection E as <-. destruct J as [J|[]]. injection J as <-. split; intros _ _; cbn [bl_minlen bl_radius sound_lattice]; rewrite V1, Rabs_pos_eq; lra.
      * injection H as <- <-. destruct I as [<-|[]]. injection E as <-. destruct J.
  - intros rs o me [->|(k & c & [H|[]] & ->)] I E.
    + destruct I as [<-|[]]. injection E as <-. reflexivity.
    + injection H as <- <-. destruct I as [<-|[]]. injection E as <-. reflexivity.
Qed.
