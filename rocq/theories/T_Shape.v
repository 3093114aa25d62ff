(** * Theorems: the shape of a model that was saved and read: C87 *)
From Coq Require Import ZArith Reals Lra Permutation.
From Verif Require Import GoBase GoNum GoUtf8 GoFloat Types XmlTypes PkgTypes Conc M_Core M_Errors M_Geom M_Coherency M_Text M_Validate M_ExtValidate M_Xml M_Decode M_Printer M_Encode M_Package M_Childs M_Decoder
  S_Xml S_Printer S_Text S_Core S_Geom S_Strconv S_Package S_Childs S_PkgTrip S_Validate S_RoundTrip S_Revalid S_Report S_Shape P_Core P_Package P_RTBase P_RTText P_RTAttr P_RTExt P_RTCore P_RTModel P_RTPkg
  P_Strconv P_Revalid P_Revalid2 P_Revalid3 P_Shape T_RoundTrip T_Package T_PkgTrip T_Revalid T_Report.
From Verif Require Import Types.
Local Open Scope list_scope.

(** ** Coherency: the model read has the results of ValidateCoherency the model saved has. *)
Theorem C87_coherency : forall reg strict every normalize resolve refuses later p m order1 order2 w q r,
  PackageFits normalize resolve (knows reg) p m -> Permutation order1 (mo_childs m) -> Permutation order2 (mo_childs m) ->
  encode normalize resolve refuses p order1 order2 m = Some w -> Carried w q ->
  decodes reg strict every resolve later q model_zero r ->
  exists m', r = PModel m' /\ forall e, model_coherency m' e <-> model_coherency m e.
Proof.
  intros * F O1 O2 E C D. destruct (trip reg strict every normalize resolve refuses later p m order1 order2 w q F O1 O2 E C) as [H1 _].
  destruct (H1 r D) as (m' & X & SP & RP). exists m'. split; [exact X|]. apply (coherency_read p).
  - apply (rp_res _ _ _ RP).
  - exact (childs_ok _ _ _ _ _ F).
  - exact (rp_distinct _ _ _ RP).
  - exact (rp_children _ _ _ RP).
  - intros k c' I. destruct (child_from p m m' SP RP k c' I) as (c & Ic & Ec & _). eauto.
Qed.
Print Assumptions C87_coherency.

(** ** The bounding box: it is that of the model saved, rounded.  Missing: transforms, which are written with three
    decimals whatever the precision and then multiplied; meshes smaller than the precision; coordinates that are not
    finite.  The first two are refuted below. *)
Theorem C87_box_partial : forall reg strict every normalize resolve refuses later p m order1 order2 w q r fuel,
  PackageFits normalize resolve (knows reg) p m -> Untransformed m -> FiniteVertices m -> Sized p m ->
  Permutation order1 (mo_childs m) -> Permutation order2 (mo_childs m) ->
  encode normalize resolve refuses p order1 order2 m = Some w -> Carried w q ->
  decodes reg strict every resolve later q model_zero r ->
  exists m', r = PModel m' /\ ((exists b, model_bbox fuel m b) <-> (exists b, model_bbox fuel m' b)) /\
    forall b b', model_bbox fuel m b -> model_bbox fuel m' b' -> BoxRead p b b'.
Proof.
  intros * F U FV SZ O1 O2 E C D. destruct (trip reg strict every normalize resolve refuses later p m order1 order2 w q F O1 O2 E C) as [H1 _].
  destruct (H1 r D) as (m' & X & SP & RP). exists m'. split; [exact X|].
  assert (RS : forall path, find_resources m' path = option_map (rt_res p) (find_resources m path)) by (eapply resources_rt; eassumption).
  pose proof (rp_build _ _ _ RP) as B. split.
  - apply (model_returns p); assumption.
  - intros b b'. apply model_read; assumption.
Qed.
Print Assumptions C87_box_partial.

(** ** False with transforms: a scale of 1.00024 is written as 1.000, and 8194 becomes 8192. *)
Definition shape_model (t : Matrix) (x : f32) : Model :=
  mkModel "" "" 0 "" (mkRes [] [mkObj 1 "" "" "" 0 0 0 mg_zero (Some (mkMesh [P3 f_zero f_zero f_zero; P3 x f_zero f_zero; P3 f_zero x f_zero] [] [mkTri 0 1 2 0 0 0 0 []] [] [] [])) None []] [])
    (mkBuild [mkItem 1 t "" mg_zero []] []) [] [] [] [] [] [] [] [].
Definition grown : Matrix :=
  let s := S754_finite false 8390656 (-23) in M16 s f_zero f_zero f_zero f_zero s f_zero f_zero f_zero f_zero s f_zero f_zero f_zero f_zero f_one.
Lemma shape_fits t x : ValidMatrix t -> Num x -> PackageFits (fun n => n) (fun _ n => n) (knows reg_all) 4 (shape_model t x).
Proof.
  intros T X. constructor.
  - unfold ModelFits, HeadFits. set (e := env_of (shape_model t x)) in *. clearbody e. unfold ExtsFit. cbv zeta. fits; auto.
    all: unfold ValidMatrix in T; rewrite !Forall_cons_iff in T; intuition.
  - intros k c [].
  - cbn. repeat constructor; cbn; intuition discriminate.
  - intros n Hn. split; [|auto]. intros ->. cbn in Hn. repeat (destruct Hn as [Hn|Hn]; [discriminate|]). destruct Hn.
  - intros r [].
  - intros r [].
  - intros a [].
  - split; [|intros k c []]. intros a b [].
  - split; [intros o me [<-|[]] Y; injection Y as <-; intros g []|]. split; [intros g []|]. intros k c [].
Qed.
Theorem C87_transform_refuted : exists m w m' b b', PackageFits (fun n => n) (fun _ n => n) (knows reg_all) 4 m /\ FiniteVertices m /\ Sized 4 m /\
  encode (fun n => n) (fun _ n => n) (fun _ _ _ => false) 4 [] [] m = Some w /\
  decodes reg_all true 1000 (fun _ n => n) (fun _ _ => "") (read_of w) model_zero (PModel m') /\
  model_bbox 1 m b /\ model_bbox 1 m' b' /\ (value (px (bmax b)) = 8194)%R /\ (value (px (bmax b')) = 8192)%R.
Proof.
  exists (shape_model grown (S754_finite false 8388608 (-10))). eexists. eexists. eexists. eexists.
  split; [apply shape_fits; [repeat constructor|reflexivity]|].
  split; [|split; [|split; [vm_compute; reflexivity|split; [|split; [|split; [|split]]]]]].
  - intros o me v [[<-|[]]|(pc & [] & _)] E. injection E as <-. intros [<-|[<-|[<-|[]]]]; repeat split.
  - intros o me [[<-|[]]|(pc & [] & _)] E _. injection E as <-. eexists _, _. split; [right; left; reflexivity|]. split; [left; reflexivity|].
    cbn [px]. rewrite (value_lit _ _ 8192) by reflexivity. rewrite Rabs_pos_eq by lra. cbn; lra.
  - eapply DecRoot; [vm_compute; reflexivity| |].
    + exists 0. eexists. split; [constructor|]. split; [constructor|]. split; reflexivity.
    + vm_compute. reflexivity.
  - eexists. split; [vm_compute; reflexivity|apply outcome_sequential].
  - eexists. split; [vm_compute; reflexivity|apply outcome_sequential].
  - match goal with |- (value ?x = _)%R => let y := eval vm_compute in x in change x with y end. apply value_lit. reflexivity.
  - match goal with |- (value ?x = _)%R => let y := eval vm_compute in x in change x with y end. apply value_lit. reflexivity.
Qed.
Print Assumptions C87_transform_refuted.
(** False of tiny models: a box of 0.00001 becomes a box of zeroes, which counts as none, so that BoundingBox returns the
    inverted box it starts with. *)
Theorem C87_tiny_refuted : exists m w m' b b', PackageFits (fun n => n) (fun _ n => n) (knows reg_all) 4 m /\ Untransformed m /\ FiniteVertices m /\
  encode (fun n => n) (fun _ n => n) (fun _ _ _ => false) 4 [] [] m = Some w /\
  decodes reg_all true 1000 (fun _ n => n) (fun _ _ => "") (read_of w) model_zero (PModel m') /\
  model_bbox 1 m b /\ model_bbox 1 m' b' /\ (value (px (bmin b)) = 0 /\ 0 < value (px (bmax b)) < 1 /\ 16777216 <= value (px (bmin b')))%R.
Proof.
  exists (shape_model matrix_zero (S754_finite false 8388608 (-40))). eexists. eexists. eexists. eexists.
  split; [apply shape_fits; [repeat constructor|reflexivity]|].
  split; [|split; [|split; [vm_compute; reflexivity|split; [|split; [|split; [|split; [|split]]]]]]].
  - split; [intros it [<-|[]]; reflexivity|intros o c [[<-|[]]|(pc & [] & _)] []].
  - intros o me v [[<-|[]]|(pc & [] & _)] E. injection E as <-. intros [<-|[<-|[<-|[]]]]; repeat split.
  - eapply DecRoot; [vm_compute; reflexivity| |].
    + exists 0. eexists. split; [constructor|]. split; [constructor|]. split; reflexivity.
    + vm_compute. reflexivity.
  - eexists. split; [vm_compute; reflexivity|apply outcome_sequential].
  - eexists. split; [vm_compute; reflexivity|apply outcome_sequential].
  - match goal with |- (value ?x = _)%R => let y := eval vm_compute in x in change x with y end. reflexivity.
  - match goal with |- (_ < value ?x < _)%R => let y := eval vm_compute in x in change x with y end. apply value_below. reflexivity.
  - match goal with |- (_ <= value ?x)%R => let y := eval vm_compute in x in change x with y end. apply value_max.
Qed.
Print Assumptions C87_tiny_refuted.

(** Both theorems apply to a model with several parts; the first to one with incoherent meshes. *)
Example C87_nonvacuous :
  (PackageFits (fun n => n) (fun _ n => n) (knows reg_all) 4 sound_model /\ Untransformed sound_model /\ FiniteVertices sound_model /\ Sized 4 sound_model /\
   exists b, model_bbox 1 sound_model b) /\
  PackageFits (fun n => n) (fun _ n => n) (knows reg_all) 4 flawed_model /\ exists e, model_coherency flawed_model (Some e).
Proof.
  split; [split; [exact (proj1 C66_nonvacuous)|]|split; [exact (proj1 (proj1 C86_nonvacuous))|]].
  - assert (OB : forall o, ObjectOf sound_model o -> Comps o = [] /\ exists l, ob_mesh o = Some (sound_mesh l)).
    { intros o [[<-|[]]|(pc & [<-|[]] & [<-|[]])]; (split; [reflexivity|eexists; reflexivity]). }
    split; [|split; [|split]].
    + split; [intros it [<-|[<-|[]]]; reflexivity|]. intros o c O. destruct (OB o O) as [-> _]. intros [].
    + intros o me v O E. destruct (OB o O) as [_ (l & E')]. rewrite E' in E. injection E as <-. intros [<-|[<-|[<-|[<-|[]]]]]; repeat split.
    + intros o me O E _. destruct (OB o O) as [_ (l & E')]. rewrite E' in E. injection E as <-. eexists _, _. split; [right; left; reflexivity|]. split; [left; reflexivity|].
      cbn [px]. rewrite value_one, Rabs_pos_eq by lra. cbn; lra.
    + eexists. eexists. split; [reflexivity|apply outcome_sequential].
  - eexists. exists (mo_childs flawed_model). eexists. split; [reflexivity|]. split; [apply outcome_sequential|vm_compute; reflexivity].
Qed.
