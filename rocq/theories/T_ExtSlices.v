(** * Theorems on the slices validator: C27, C57 *)
From Verif Require Import GoBase GoFloat Types M_Core S_Core P_Core M_Errors S_Errors P_Errors
  M_Geom S_Geom P_Geom P_Coherency M_Validate S_Validate P_Validate P_Validate2 P_Validate3
  M_ExtValidate S_ExtValidate P_ExtMat P_ExtBeam P_ExtSlices P_ExtSlices2 T_Geom T_Validate.

(** C27: when the validator returns, the errors are exactly the located violations. *)
Theorem C27_slices_reports : forall fuel m path el e x, NoDup (map fst (mo_childs m)) ->
  slices_validate fuel m path el = Some e ->
  (In x (located_o e) <-> exists loc k, x = (loc, "", k) /\ SlicesViolation m path el loc k).
Proof.
  intros fuel m path el e x Hok H. destruct el as [|a|o]; cbn [slices_validate] in H.
  - injection H as <-. split; [intros []|]. intros (loc & k & _ & V). inversion V.
  - destruct (match a with AExt (XSliceStack _) => true | _ => false end) eqn:E.
    + destruct a as [| |[]]; try discriminate. injection H as <-.
      change (In x (L (slice_stack_validate m path s)) <-> exists loc k, x = (loc, "", k) /\ SlicesViolation m path (VAsset (AExt (XSliceStack s))) loc k).
      rewrite in_slice_stack by exact Hok. split.
      * intros (loc & k & -> & V). do 2 eexists. split; [reflexivity|]. constructor; exact V.
      * intros (loc & k & -> & V). inversion V; subst. eauto.
    + assert (e = None) as -> by (destruct a as [| |[]]; try discriminate; injection H as <-; reflexivity).
      split; [intros []|]. intros (loc & k & _ & V). inversion V; subst. discriminate.
  - rewrite (in_slice_object fuel m path o e x Hok H). split.
    + intros (k & -> & V). do 2 eexists. split; [reflexivity|]. constructor; exact V.
    + intros (loc & k & -> & V). inversion V; subst. eauto.
Qed.
Print Assumptions C27_slices_reports.

(** C27 for stacks: refuted.  (1) A stack whose polygon names a vertex that does not
    exist is accepted.  (2) A stack with a NaN height is accepted.  (3) A conforming
    stack with a slice at height zero is refused. *)
Definition ex_p2 : Point2D := P2 f_zero f_one.
Definition ex_stack (top : f32) (v : N) : SliceStack :=
  mkSS 5 (fneg f_one) [mkSlice top [ex_p2; ex_p2] [mkPoly 0 [mkSeg 1 0 0 0; mkSeg v 0 0 0]]] [].
Definition ex_empty_model : Model := ex_bmodel [] [].
Theorem C27_stack_refuted :
  (exists st, slice_stack_validate ex_empty_model "" st = None /\ ~ StackConforms ex_empty_model "" st /\
     forall s, In s (ss_slices st) -> OrdinaryHeight (sl_top s)) /\
  (exists st, slice_stack_validate ex_empty_model "" st = None /\ ~ StackConforms ex_empty_model "" st /\ IndicesInRange st) /\
  (exists st, StackConforms ex_empty_model "" st /\ slice_stack_validate ex_empty_model "" st <> None).
Proof.
  split; [|split].
  - exists (ex_stack f_one 7). split; [vm_compute; reflexivity|]. split.
    + intros (_ & H & _). destruct (H _ (or_introl eq_refl)) as [_ [[C _]|(_ & _ & C)]]; [discriminate|].
      destruct (C _ (or_introl eq_refl)) as (_ & _ & C'). specialize (C' _ (or_intror (or_introl eq_refl))). vm_compute in C'. discriminate.
    + intros s [<-|[]]. split; [vm_compute; intuition congruence|]. split; [intros (z & E); discriminate|reflexivity].
  - exists (ex_stack S754_nan 0). split; [vm_compute; reflexivity|]. split.
    + intros (_ & H & _). destruct (H _ (or_introl eq_refl)) as [C _]. discriminate.
    + intros s p [<-|[]] [<-|[]]. split; [reflexivity|]. intros g [<-|[<-|[]]]; reflexivity.
  - exists (ex_stack f_zero 0). split; [|vm_compute; discriminate].
    split; [left; split; [discriminate|reflexivity]|]. split; [|split; [|split]].
    + intros s [<-|[]]. split; [reflexivity|]. right. split; [cbn; lia|]. split; [discriminate|].
      intros p [<-|[]]. split; [discriminate|]. split; [reflexivity|]. intros g [<-|[<-|[]]]; reflexivity.
    + intros [|j] s s' H H'; [discriminate|destruct j; discriminate].
    + intros r [].
    + intros [|i] r st' s z H; discriminate.
Qed.
Print Assumptions C27_stack_refuted.

(** What holds for stacks: accepted exactly when conforming, given ordinary heights and
    indices in range.  Missing: the range of the indices, which the validator does not
    check, and the heights zero and NaN. *)
Theorem C27_stack_partial : forall m path st, NoDup (map fst (mo_childs m)) ->
  ss_bottom st <> S754_nan -> IndicesInRange st ->
  (forall s, In s (ss_slices st) -> OrdinaryHeight (sl_top s)) ->
  (forall r st' s, In r (ss_refs st) -> StackIn m (sr_path r) (sr_id r) st' -> In s (ss_slices st') -> OrdinaryHeight (sl_top s)) ->
  forall fuel, (slices_validate fuel m path (VAsset (AExt (XSliceStack st))) = Some None <-> StackConforms m path st).
Proof.
  intros m path st Hok Hb Hi Hs Hr fuel. cbn [slices_validate].
  rewrite <- (stack_conforms m path st Hok Hb Hi Hs Hr).
  rewrite <- (nil_no_violation _ (StackViolation m path st) (nn_slice_stack m path st) (fun x => in_slice_stack m path st x Hok)).
  split; [congruence|intros ->; reflexivity].
Qed.
Print Assumptions C27_stack_partial.

(** C27 for objects: refuted.  A sliced object of the part /a.model.  (1) It is refused
    although only an unrelated object of the root part with the same identifier is
    tilted.  (2) It is accepted although the build tilts it through a component. *)
Definition ex_tilt : Matrix :=
  M16 f_one f_zero f_one f_zero f_zero f_one f_zero f_zero f_zero f_zero f_one f_zero f_zero f_zero f_zero f_one.
Definition ex_sliced (id : N) (cs : list Component) : Object :=
  mkObj id "" "" "" 0 0 0 mg_zero None (Some (mkComps cs [])) [GSlice 5 0].
Definition ex_two_parts (objs : list Object) (its : list Item) : Model :=
  mkModel "" "" 0 "" (mkRes [] objs []) (mkBuild its []) [] [] []
    [("/a.model", mkChild (mkRes [AExt (XSliceStack (ex_stack f_one 0))] [ex_sliced 1 []] []) [] [])] [] [] [] [].
Definition ex_tilted_item : Item := mkItem 1 ex_tilt "" mg_zero [].
Definition ex_tilting : Object := ex_cobj 9 [mkComp 1 ex_tilt [GComp "" "/a.model"]].
Lemma tilt_bad : ~ MayPlace ex_tilt.
Proof. rewrite <- may_not_place. vm_compute. reflexivity. Qed.
Lemma ex_sliced_attr id cs sid res : SliceAttr (ex_sliced id cs) sid res -> sid = 5%N /\ res = 0%N.
Proof. intros H. apply slice_attr in H. cbn in H. injection H as <- <-. auto. Qed.
Lemma ex_stack_in objs its : StackIn (ex_two_parts objs its) "/a.model" 5 (ex_stack f_one 0).
Proof. apply asset_in'; [constructor; [intros []|constructor]|]. vm_compute. reflexivity. Qed.
Lemma ex_stack_closed objs its : AllClosed (ex_two_parts objs its) (ex_stack f_one 0).
Proof. apply all_closed_spec; [constructor; [intros []|constructor]|]. vm_compute. reflexivity. Qed.
Theorem C27_object_refuted :
  (exists m fuel e, SliceObjConforms m "/a.model" (ex_sliced 1 []) /\ ObjIn m "/a.model" 1 (ex_sliced 1 []) /\
     slices_validate fuel m "/a.model" (VObject (ex_sliced 1 [])) = Some (Some e)) /\
  (exists m fuel, ~ SliceObjConforms m "/a.model" (ex_sliced 1 []) /\ ObjIn m "/a.model" 1 (ex_sliced 1 []) /\
     slices_validate fuel m "/a.model" (VObject (ex_sliced 1 [])) = Some None).
Proof.
  assert (O : forall objs its, ObjIn (ex_two_parts objs its) "/a.model" 1 (ex_sliced 1 [])).
  { intros objs its. apply obj_in; [constructor; [intros []|constructor]|]. vm_compute. reflexivity. }
  split.
  - exists (ex_two_parts [ex_cobj 1 []] [ex_tilted_item]), 3. eexists. split; [|split; [apply O|vm_compute; reflexivity]].
    intros sid res Ha. apply ex_sliced_attr in Ha as [-> ->]. split; [discriminate|]. split; [discriminate|].
    exists (ex_stack f_one 0). split; [apply ex_stack_in|]. split; [intros _; apply ex_stack_closed|].
    assert (S : ~ SamePart (ex_two_parts [ex_cobj 1 []] [ex_tilted_item]) "" "/a.model").
    { intros [C|[[_ C]|[_ C]]]; vm_compute in C; discriminate. }
    split.
    + intros it q [<-|[]] Hq HS _. apply any_path_spec in Hq. vm_compute in Hq. subst q. contradiction.
    + intros file o c q Hp. 
      assert (K : file = "" /\ Comps o = []).
      { induction Hp as [it q' o' Hit Hq Ho|file' o' c' q' o1 _ [_ IH] Hc _].
        - destruct Hit as [<-|[]]. apply any_path_spec in Hq. vm_compute in Hq. subst q'. split; [reflexivity|].
          apply obj_in in Ho; [|constructor; [intros []|constructor]]. vm_compute in Ho. injection Ho as <-. reflexivity.
        - rewrite IH in Hc. destruct Hc. }
      destruct K as [_ K]. rewrite K. intros [].
  - exists (ex_two_parts [ex_tilting] [ex_item 9]), 3. split; [|split; [apply O|vm_compute; reflexivity]].
    intros H. destruct (H 5%N 0%N) as (_ & _ & st & _ & _ & _ & P).
    { apply slice_attr. reflexivity. }
    apply tilt_bad. eapply (P "" ex_tilting (mkComp 1 ex_tilt [GComp "" "/a.model"]) "/a.model").
    + eapply (PlItem _ (ex_item 9)); [left; reflexivity|apply any_path_spec; reflexivity|].
      apply obj_in; [constructor; [intros []|constructor]|]. vm_compute. reflexivity.
    + left. reflexivity.
    + apply target_file. reflexivity.
    + left. reflexivity.
    + reflexivity.
Qed.
Print Assumptions C27_object_refuted.

(** What holds for objects: in the root part of a model that keeps everything in the root
    part and in which no object contains itself directly, the validator accepts exactly the
    conforming objects.  Missing: models with several parts. *)
Theorem C27_object_partial : forall m path o fuel e, NoDup (map fst (mo_childs m)) ->
  SinglePart m -> (path = "" \/ path = root_path m) -> slices_validate fuel m path (VObject o) = Some e ->
  (e = None <-> SliceObjConforms m path o).
Proof.
  intros m path o fuel e Hok Hs Hp H. cbn [slices_validate] in H.
  assert (Hp' : SamePart m "" path).
  { destruct Hp as [->| ->]; [left; reflexivity|right; left; auto]. }
  rewrite <- (slice_obj_conforms m path o Hok Hp' Hs).
  rewrite (nil_no_violation e (fun loc k => loc = [] /\ SliceObjViolation m path o k) (nn_slice_object _ _ _ _ _ H)).
  - split.
    + intros K k V. apply (K [] k). auto.
    + intros K loc k [_ V]. exact (K _ V).
  - intros x. rewrite (in_slice_object fuel m path o e x Hok H). split.
    + intros (k & -> & V). eauto.
    + intros (loc & k & -> & -> & V). eauto.
Qed.
Print Assumptions C27_object_partial.

(** A stack of two slices, a stack of references, a closed and an open sliced object. *)
Definition ex_two : SliceStack :=
  mkSS 5 f_zero [mkSlice f_one [ex_p2; ex_p2] [mkPoly 0 [mkSeg 1 0 0 0; mkSeg 0 0 0 0]]; mkSlice (fadd f_one f_one) [] []] [].
Definition ex_open : SliceStack := mkSS 6 f_zero [mkSlice f_one [ex_p2; ex_p2] [mkPoly 0 [mkSeg 1 0 0 0]]] [].
Definition ex_sliced_model : Model :=
  mkModel "" "" 0 "" (mkRes [AExt (XSliceStack ex_two); AExt (XSliceStack ex_open)]
                            [ex_sliced 1 []; ex_cobj 2 [mkComp 1 matrix_zero []]] []) (mkBuild [ex_item 2] []) [] [] [] [] [] [] [] [].
Example C27_nonvacuous :
  SinglePart ex_sliced_model /\ IndicesInRange ex_two /\ (forall s, In s (ss_slices ex_two) -> OrdinaryHeight (sl_top s)) /\
  slices_validate 3 ex_sliced_model "" (VAsset (AExt (XSliceStack ex_two))) = Some None /\
  slices_validate 3 ex_sliced_model "" (VObject (ex_sliced 1 [])) = Some None /\
  SlicesViolation ex_sliced_model "" (VObject (mkObj 1 "" "" "" 0 0 0 mg_zero None None [GSlice 6 1])) [] (ESent "ErrSlicePolygonNotClosed") /\
  SlicesViolation ex_sliced_model "" (VAsset (AExt (XSliceStack (mkSS 7 f_zero [] [mkSRef 0 ""])))) [lvi "sliceref" 0] (EMissing "slicepath").
Proof.
  split; [|split; [|split; [|split; [|split; [|split]]]]].
  - split.
    + intros it [<-|[]]. apply any_path_spec. reflexivity.
    + intros o c [<-|[<-|[]]] Hc; cbn in Hc; [destruct Hc|]. destruct Hc as [<-|[]]. split; [apply any_path_spec; reflexivity|discriminate].
  - intros s p [<-|[<-|[]]] Hp; cbn in Hp; [|destruct Hp]. destruct Hp as [<-|[]]. split; [reflexivity|]. intros g [<-|[<-|[]]]; reflexivity.
  - intros s [<-|[<-|[]]]; (split; [vm_compute; intuition congruence|]); (split; [intros (z & E); vm_compute in E; discriminate|reflexivity]).
  - vm_compute. reflexivity.
  - vm_compute. reflexivity.
  - apply SvSliced. eapply (SoOpen _ _ _ 6 1 ex_open).
    + exists [], []. split; [reflexivity|intros ? ? []].
    + discriminate.
    + apply asset_in'; [constructor|]. vm_compute. reflexivity.
    + left. reflexivity.
    + rewrite <- (all_closed_spec ex_sliced_model ex_open); [vm_compute; discriminate|constructor].
  - apply SvStack, StRef. eapply RfPath; reflexivity.
Qed.

(** C57: the validator returns on models whose components do not form cycles, with the
    same result for every sufficient fuel.  Missing: models with cycles. *)
Theorem C57_slices_terminates_partial : forall m, Acyclic m ->
  exists fuel, forall path el, exists e, slices_validate fuel m path el = Some e /\
    forall fuel', fuel <= fuel' -> slices_validate fuel' m path el = Some e.
Proof.
  intros m H. destruct (slices_terminates m H) as (fuel & K). exists fuel. intros path el. destruct (K path el) as (e & E).
  exists e. split; [exact E|]. intros fuel' Hl. eapply slices_mono; eassumption.
Qed.
Print Assumptions C57_slices_terminates_partial.
Example C57_nonvacuous : Acyclic ex_sliced_model /\ ~ Acyclic ex_cycle.
Proof.
  split.
  - exists (fun o => N.to_nat (ob_id o)). intros o c o' [Ho|(pc & [] & _)] Hc [Ho'|(pc' & [] & _)] E.
    destruct Ho as [<-|[<-|[]]]; cbn in Hc; [destruct Hc|]. destruct Hc as [<-|[]]. rewrite E. cbn. lia.
  - intros (rank & H).
    set (a := ex_cobj 1 [mkComp 2 matrix_zero []]). set (b := ex_cobj 2 [mkComp 1 matrix_zero []]).
    assert (Ia : ObjectOf ex_cycle a) by (left; left; reflexivity).
    assert (Ib : ObjectOf ex_cycle b) by (left; right; left; reflexivity).
    pose proof (H a (mkComp 2 matrix_zero []) b Ia (or_introl eq_refl) Ib eq_refl).
    pose proof (H b (mkComp 1 matrix_zero []) a Ib (or_introl eq_refl) Ia eq_refl). lia.
Qed.
(** C57: refuted in general: on two objects that contain each other, one of them sliced,
    the recursion never ends, although the core rules accept the model. *)
Definition ex_sliced_cycle : Model :=
  mkModel "" "" 0 "" (mkRes [AExt (XSliceStack ex_two)]
    [ex_sliced 1 [mkComp 2 matrix_zero []]; ex_cobj 2 [mkComp 1 matrix_zero []]] []) (mkBuild [ex_item 1] []) [] [mkExt slice_ns "s" true] [] [] [] [] [] [].
Lemma sliced_cycle_diverges fuel :
  obj_transforms fuel ex_sliced_cycle "" 1 (ex_sliced 1 [mkComp 2 matrix_zero []]) = None /\
  obj_transforms fuel ex_sliced_cycle "" 1 (ex_cobj 2 [mkComp 1 matrix_zero []]) = None.
Proof.
  induction fuel as [|f [IH1 IH2]]; [split; reflexivity|].
  split; cbn [obj_transforms ob_comps ex_sliced ex_cobj cs_list comps_transforms].
  - change (find_object ex_sliced_cycle (comp_path (mkComp 2 matrix_zero []) "") (co_oid (mkComp 2 matrix_zero [])))
      with (Some (ex_cobj 2 [mkComp 1 matrix_zero []])). cbv beta iota. rewrite IH2. reflexivity.
  - change (find_object ex_sliced_cycle (comp_path (mkComp 1 matrix_zero []) "") (co_oid (mkComp 1 matrix_zero [])))
      with (Some (ex_sliced 1 [mkComp 2 matrix_zero []])). cbv beta iota. rewrite IH1. reflexivity.
Qed.
Theorem C57_validate_refuted : exists m o,
  validate (fun _ => true) (fun _ => None) m = None /\ Declared m slice_ns /\ In o (rs_objects (mo_res m)) /\
  forall fuel, slices_validate fuel m "" (VObject o) = None.
Proof.
  exists ex_sliced_cycle, (ex_sliced 1 [mkComp 2 matrix_zero []]). split; [vm_compute; reflexivity|].
  split; [eexists; split; [left; reflexivity|reflexivity]|]. split; [left; reflexivity|].
  - intros fuel. cbn [slices_validate]. unfold slice_object_validate. change (get_slice_attr (ob_any (ex_sliced 1 [mkComp 2 matrix_zero []]))) with (Some (5%N, 0%N)).
    cbv beta iota. change (5 =? 0)%N with false. cbv beta iota.
    change (res_find_asset ex_sliced_cycle "" 5) with (Some (AExt (XSliceStack ex_two))). cbv beta iota zeta.
    assert (E : items_transforms fuel ex_sliced_cycle "" 1 [ex_item 1] = None).
    { cbn [items_transforms]. cbv zeta.
      change ((it_oid (ex_item 1) =? 1)%N && seq (if seq (item_path (ex_item 1)) "" then "" else item_path (ex_item 1)) "" &&
        has_transform (it_tr (ex_item 1)) && negb (valid_transform (it_tr (ex_item 1)))) with false. cbv iota.
      change (find_object ex_sliced_cycle (if seq (item_path (ex_item 1)) "" then "" else item_path (ex_item 1)) (it_oid (ex_item 1)))
        with (Some (ex_sliced 1 [mkComp 2 matrix_zero []])). cbv iota.
      rewrite (proj1 (sliced_cycle_diverges fuel)). reflexivity. }
    change (bu_items (mo_build ex_sliced_cycle)) with [ex_item 1].
    change (ob_id (ex_sliced 1 [mkComp 2 matrix_zero []])) with 1%N. rewrite E. reflexivity.
Qed.
Print Assumptions C57_validate_refuted.
