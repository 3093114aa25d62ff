(** * Theorems about writing a package and reading it again: C54 *)
From Coq Require Import ZArith Permutation.
From Verif Require Import GoBase GoNum GoUtf8 GoFloat Types XmlTypes PkgTypes M_Core M_Errors M_Text M_Xml M_Decode M_Printer M_Encode M_Package M_Childs M_Decoder
  S_Xml S_Printer S_Text S_Core S_Geom S_Strconv S_RoundTrip S_Package S_Childs S_PkgTrip P_Package P_RTBase P_RTText P_RTAttr P_RTExt P_RTModel P_RTPkg T_RoundTrip T_Package.

(** A model with attachments, child models and relationships is read from the package written for it, by every
    execution of the goroutines that decode the children; and there is one.  Missing: models that do not meet
    [PackageFits], see below. *)
Theorem C54_partial : forall reg strict every normalize resolve refuses later p m order1 order2 w q,
  PackageFits normalize resolve (knows reg) p m ->
  Permutation order1 (mo_childs m) -> Permutation order2 (mo_childs m) ->
  encode normalize resolve refuses p order1 order2 m = Some w -> Carried w q ->
  (forall r, decodes reg strict every resolve later q model_zero r -> exists m', r = PModel m' /\ SamePackage p m m') /\
  exists m', decodes reg strict every resolve later q model_zero (PModel m').
Proof.
  intros * F O1 O2 E C. destruct (trip reg strict every normalize resolve refuses later p m order1 order2 w q F O1 O2 E C) as [H1 H2]. split; [|exact H2].
  intros r Hr. destruct (H1 r Hr) as (m' & X & Y & _). eauto.
Qed.
Print Assumptions C54_partial.

(** ** False in general: an attachment without a relationship is written and not read. *)
Definition lost_model : Model :=
  mkModel "" "" 0 "" res_zero (mkBuild [] []) [mkAtt "data" "/lost.txt" "text/plain"] [] [] [] [] [] [] [].
Definition file_of (a : Part) : PFile := mkPF (pt_name a) (pt_ctype a) (Some (pt_data a)) (pt_rels a).
Definition read_of (w : Pkg) : PkgIn := mkPI (pk_rels w) (map file_of (pk_parts w)).
Lemma same_rels l : SameRels l l.
Proof. induction l; constructor; [|assumption]. repeat split. Qed.
Lemma read_carried w : Carried w (read_of w).
Proof.
  split; [apply same_rels|]. exists (map file_of (pk_parts w)). split; [apply Permutation_refl|]. induction (pk_parts w) as [|a l IH]; cbn [map]; constructor; [|exact IH].
  repeat (split; [reflexivity|]). apply same_rels.
Qed.
Theorem C54_refuted : exists m w m', ModelFits (knows reg_all) 4 m /\ mo_childs m = [] /\
  encode (fun n => n) (fun _ n => n) (fun _ _ _ => false) 4 [] [] m = Some w /\
  decodes reg_all true 1000 (fun _ n => n) (fun _ _ => "") (read_of w) model_zero (PModel m') /\
  List.length (mo_atts m) = 1 /\ mo_atts m' = [].
Proof.
  exists lost_model. eexists. eexists. split; [unfold ModelFits, HeadFits, ExtsFit; cbv zeta; fits|]. split; [reflexivity|]. split; [vm_compute; reflexivity|]. split.
  - eapply DecRoot; [vm_compute; reflexivity| |vm_compute; reflexivity].
    exists 0, (c_init [] (mo_set_pkg "/3D/3dmodel.model" [] [] [] [] model_zero)). split; [constructor|]. split; [constructor|]. split; reflexivity.
  - split; reflexivity.
Qed.
Print Assumptions C54_refuted.

(** A model with a thumbnail, a texture, a child with an object that has a thumbnail, and relationships of its own *)
Definition trip_tex : Asset := AExt (XTexture2D (mkTex2D 9 "/3D/Texture/t.png" 1 0 0 0)).
Definition trip_child : Child :=
  mkChild (mkRes [] [mkObj 1 "c" "" "/3D/Thumb/o.png" 0 0 0 mg_zero (Some (mkMesh [P3 f_zero f_zero f_zero; P3 f_one f_zero f_zero; P3 f_zero f_one f_zero; P3 f_zero f_zero f_one] []
       [mkTri 0 2 1 0 0 0 0 []; mkTri 0 1 3 0 0 0 0 []; mkTri 0 3 2 0 0 0 0 []; mkTri 1 2 3 0 0 0 0 []] [] [] [])) None []] [])
    [mkRel "/doc.txt" "http://x/doc" "d1"; mkRel "/doc.txt" "http://x/doc" "d2"] [].
Definition trip_model : Model :=
  mkModel "" "en-US" 1 "/thumb.png" (mkRes [trip_tex] [] []) (mkBuild [mkItem 1 matrix_zero "" mg_zero [GItem rt_uuid "/3D/other.model"]] [GBuild rt_uuid])
    [mkAtt "png" "/thumb.png" "image/png"; mkAtt "tex" "/3D/Texture/t.png" "image/png"; mkAtt "o" "/3D/Thumb/o.png" "image/png"; mkAtt "text" "/doc.txt" "text/plain"]
    [mkExt ns_production "p" true; mkExt ns_materials "m" false] [] [("/3D/other.model", trip_child)]
    [mkRel "/doc.txt" "http://x/doc" ""] [mkRel "/doc.txt" "http://x/doc" "r7"] [] [].
Example C54_nonvacuous : PackageFits (fun n => n) (fun _ n => n) (knows reg_all) 4 trip_model /\
  exists w, encode (fun n => n) (fun _ n => n) (fun _ _ _ => false) 4 (mo_childs trip_model) (mo_childs trip_model) trip_model = Some w /\ Carried w (read_of w) /\
    map pt_name (pk_parts w) = ["/thumb.png"; "/3D/Texture/t.png"; "/3D/Thumb/o.png"; "/doc.txt"; "/3D/3dmodel.model"; "/3D/other.model"].
Proof.
  split; [|eexists; split; [reflexivity|split; [apply read_carried|reflexivity]]].
  assert (DP : Declared (env_of trip_model) ns_production) by (split; [discriminate|exists "p"; reflexivity]).
  assert (DM : Declared (env_of trip_model) ns_materials) by (split; [discriminate|exists "m"; reflexivity]).
  constructor.
  - unfold ModelFits, HeadFits. set (e := env_of trip_model) in *. clearbody e. unfold ExtsFit. cbv zeta. fits.
    + intros _ c [<-|[]]. reflexivity.
    + intros g. discriminate.
    + auto.
  - intros k c [H|[]]. injection H as <- <-. split; [|reflexivity]. set (e := env_of trip_model) in *. clearbody e. fits. auto.
  - vm_compute. repeat constructor; cbn; intuition discriminate.
  - intros n Hn. split; [|auto]. intros ->. cbn in Hn. repeat (destruct Hn as [Hn|Hn]; [discriminate|]). destruct Hn.
  - intros r Hr. cbn in Hr. repeat (destruct Hr as [<-|Hr]; [discriminate|]). destruct Hr.
  - intros r Hr. cbn in Hr. repeat (destruct Hr as [<-|Hr]; [cbn; auto 8|]). destruct Hr.
  - intros a Ha. cbn in Ha. destruct Ha as [<-|[<-|[<-|[<-|[]]]]].
    + exists (mkRel "/thumb.png" type_thumbnail ""). split; [cbn; auto 10|reflexivity].
    + exists (mkRel "/3D/Texture/t.png" type_texture ""). split; [cbn; auto 10|reflexivity].
    + exists (mkRel "/3D/Thumb/o.png" type_thumbnail ""). split; [cbn; auto 10|reflexivity].
    + exists (mkRel "/doc.txt" "http://x/doc" ""). split; [cbn; auto 10|reflexivity].
  - split; [|intros k c [H|[]]; injection H as <- <-]; intros a b Ha Hb X; cbn in Ha, Hb; intuition subst; try reflexivity; discriminate X.
  - split; [intros o me []|]. split; [intros t []|]. intros k c [H|[]]. injection H as <- <-. intros o me [<-|[]] X. injection X as <-. intros t [].
Qed.
