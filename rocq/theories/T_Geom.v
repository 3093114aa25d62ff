(** * Property theorems C10-C16 and the second half of C56 *)
From Coq Require Import Permutation.
From Verif Require Import GoBase GoFloat Types M_Core M_Geom S_Core S_Geom P_Core P_Geom Conc.

Definition f_two : f32 := S754_finite false 8388608 (-22).
Definition ex_pt (x y z : f32) : Point3D := P3 x y z.
Definition ex_mesh (vs : list Point3D) : Mesh := mkMesh vs [] [] [] [] [].
Definition ex_mobj (id : N) (vs : list Point3D) : Object :=
  mkObj id "" "" "" 0 0 0 mg_zero (Some (ex_mesh vs)) None [].
Definition ex_cobj (id : N) (cs : list Component) : Object :=
  mkObj id "" "" "" 0 0 0 mg_zero None (Some (mkComps cs [])) [].
Definition ex_tri_pts : list Point3D := [ex_pt f_one f_zero f_two; ex_pt f_zero (fneg f_one) f_one; ex_pt f_one f_zero f_two].

(** C10 *)
Theorem C10_builder_indices : forall oor vs0 ps mb is,
  (N.of_nat (List.length vs0 + List.length ps) <= 2 ^ 32)%N ->
  add_all oor (new_builder vs0) ps = (mb, is) ->
  List.length is = List.length ps /\
  (exists new, mb_verts mb = vs0 ++ new) /\
  (forall k p i, nth_error ps k = Some p -> nth_error is k = Some i ->
     exists v, nth_error (mb_verts mb) (N.to_nat i) = Some v /\ SameCell oor v p /\
       exists j, j <= k /\ nth_error ps j = Some v /\ nth_error is j = Some i) /\
  (forall k k' p p' i i', nth_error ps k = Some p -> nth_error is k = Some i ->
     nth_error ps k' = Some p' -> nth_error is k' = Some i' -> (i = i' <-> SameCell oor p p')) /\
  (forall i j p q, List.length vs0 <= i < j -> nth_error (mb_verts mb) i = Some p ->
     nth_error (mb_verts mb) j = Some q -> ~ SameCell oor p q).
Proof.
  intros oor vs0 ps mb is Hb E.
  destruct (add_all_spec oor _ ps (new_builder vs0) mb is (binv_new oor vs0) eq_refl Hb E) as (Hi & Hl & Hn & Hk).
  split; [exact Hl|split; [exact Hn|split; [|split]]].
  - intros k p i Hp Hpi. destruct (Hk k p i Hp Hpi) as (L & v & Hv & Ec & [Lt|Hj]); [cbn in Lt; lia|].
    exists v. split; [exact Hv|split; [apply same_cell_spec; exact Ec|exact Hj]].
  - intros k k' p p' i i' Hp Hpi Hp' Hpi'. rewrite same_cell_spec.
    destruct (Hk k p i Hp Hpi) as (L & v & Hv & Ec & _). destruct (Hk k' p' i' Hp' Hpi') as (L' & v' & Hv' & Ec' & _).
    split.
    + intros <-. rewrite Hv in Hv'. injection Hv' as <-. congruence.
    + intros Ep. destruct Hi as (_ & _ & _ & Hu). apply N2Nat.inj. apply (Hu _ _ v v'); auto. congruence.
  - intros i j p q Hij Hp Hq Hs. apply same_cell_spec in Hs.
    destruct Hi as (_ & _ & _ & Hu). assert (i = j) by (apply (Hu i j p q); auto; lia). lia.
Qed.
Print Assumptions C10_builder_indices.
Theorem C10_equal_points_equal_indices : forall oor vs0 ps mb is k k' p i i',
  (N.of_nat (List.length vs0 + List.length ps) <= 2 ^ 32)%N ->
  add_all oor (new_builder vs0) ps = (mb, is) ->
  nth_error ps k = Some p -> nth_error is k = Some i ->
  nth_error ps k' = Some p -> nth_error is k' = Some i' -> i = i'.
Proof.
  intros oor vs0 ps mb is k k' p i i' Hb E H1 H2 H3 H4.
  destruct (C10_builder_indices oor vs0 ps mb is Hb E) as (_ & _ & _ & H & _).
  apply (H k k' p p i i'); auto. apply same_cell_spec. reflexivity.
Qed.
Print Assumptions C10_equal_points_equal_indices.
(** With CalculateConnectivity switched off each call appends. *)
Theorem C10_no_connectivity : forall oor vs0 tree ps,
  (N.of_nat (List.length vs0 + List.length ps) <= 2 ^ 32)%N ->
  let (mb, is) := add_all oor (mkMB false vs0 tree) ps in
  mb_verts mb = vs0 ++ ps /\ is = map N.of_nat (List.seq (List.length vs0) (List.length ps)).
Proof.
  intros oor vs0 tree ps Hb. pose proof (add_all_off oor ps (mkMB false vs0 tree) eq_refl Hb) as H.
  destruct (add_all oor (mkMB false vs0 tree) ps). exact H.
Qed.
Print Assumptions C10_no_connectivity.
Example C10_nonvacuous :
  snd (add_all (fun _ => 0%Z) (new_builder [ex_pt f_one f_one f_one]) ex_tri_pts) = [1%N; 2%N; 1%N] /\
  snd (add_all (fun _ => 0%Z) (mkMB false [ex_pt f_one f_one f_one] []) ex_tri_pts) = [1%N; 2%N; 3%N].
Proof. vm_compute. auto. Qed.

(** C11: refuted.  The x coordinates are the neighbouring float32 values 8912907 * 2^-19 and
    8912908 * 2^-19 (about 17.00002, 1.9 microns apart); both are in the range of the int32
    conversion, so that the platform does not matter. *)
Theorem C11_merge_refuted :
  exists x y, Finite x /\ Finite y /\ ApartMicrons 1 x y /\
    forall oor, snd (add_all oor (new_builder []) [ex_pt x f_zero f_zero; ex_pt y f_zero f_zero]) = [0%N; 0%N].
Proof.
  exists (S754_finite false 8912907 (-19)), (S754_finite false 8912908 (-19)).
  split; [reflexivity|split; [reflexivity|split; [reflexivity|]]]. intros oor. vm_compute. reflexivity.
Qed.
Print Assumptions C11_merge_refuted.
(** On amd64, where the conversion of a float64 out of the int32 range gives -2^31, points more
    than 2147.5 units from the origin are merged whatever their distance: here 3000 and 5000. *)
Theorem C11_merge_far_refuted :
  exists x y, Finite x /\ Finite y /\ ApartMicrons 1999999999 x y /\
    snd (add_all (fun _ => (- 2147483648)%Z) (new_builder [])
           [ex_pt x f_zero f_zero; ex_pt y f_zero f_zero]) = [0%N; 0%N].
Proof.
  exists (S754_finite false 12288000 (-12)), (S754_finite false 10240000 (-11)).
  split; [reflexivity|split; [reflexivity|split; [reflexivity|]]]. vm_compute. reflexivity.
Qed.
Print Assumptions C11_merge_far_refuted.

(** C12 *)
Theorem C12_mesh_box_tight : forall me,
  (forall p, In p (me_verts me) -> FinitePoint p) ->
  (me_verts me = [] -> mesh_bbox me = mkBox (P3 f_zero f_zero f_zero) (P3 f_zero f_zero f_zero)) /\
  (me_verts me <> [] ->
     (forall p, In p (me_verts me) -> Inside p (mesh_bbox me)) /\ Touches (me_verts me) (mesh_bbox me)).
Proof.
  intros me H. split.
  - intros E. unfold mesh_bbox. rewrite E. reflexivity.
  - intros Hn. apply verts_bbox_spec; assumption.
Qed.
Print Assumptions C12_mesh_box_tight.
Example C12_nonvacuous : (forall p, In p (me_verts (ex_mesh ex_tri_pts)) -> FinitePoint p) /\
  mesh_bbox (ex_mesh ex_tri_pts) = mkBox (P3 f_zero (fneg f_one) f_one) (P3 f_one f_zero f_two).
Proof.
  split; [|reflexivity]. intros p [<-|[<-|[<-|[]]]]; repeat split; reflexivity.
Qed.
(** With infinite coordinates only, the box does not touch the vertices: +Inf gives f_max. *)
Theorem C12_infinite_refuted :
  exists me p, me_verts me = [p] /\ px p = S754_infinity false /\ ~ Le (px p) (px (bmin (mesh_bbox me))).
Proof.
  exists (ex_mesh [ex_pt (S754_infinity false) f_zero f_zero]), (ex_pt (S754_infinity false) f_zero f_zero).
  repeat split; discriminate.
Qed.
Print Assumptions C12_infinite_refuted.

(** C13.  A box with a NaN makes the result depend on the schedule. *)
Definition ex_item (id : N) : Item := mkItem id matrix_zero "" mg_zero [].
Definition ex_bmodel (objs : list Object) (its : list Item) : Model :=
  mkModel "" "" 0 "" (mkRes [] objs []) (mkBuild its []) [] [] [] [] [] [] [] [].
Definition ex_nan_model : Model :=
  ex_bmodel [ex_mobj 1 [ex_pt f_one f_one f_one; ex_pt f_two f_two f_two];
             ex_mobj 2 [ex_pt S754_nan f_one f_one]] [ex_item 1; ex_item 2].
Theorem C13_schedule_refuted :
  exists fuel m r1 r2, model_bbox fuel m r1 /\ model_bbox fuel m r2 /\
    px (bmin r1) = S754_nan /\ px (bmin r2) = f_one.
Proof.
  set (f1 := fun box => extend box (mul_box matrix_zero (mesh_bbox (ex_mesh [ex_pt f_one f_one f_one; ex_pt f_two f_two f_two])))).
  set (f2 := fun box => extend box (mul_box matrix_zero (mesh_bbox (ex_mesh [ex_pt S754_nan f_one f_one])))).
  exists 1, ex_nan_model, (f2 (f1 limit_box)), (f1 (f2 limit_box)).
  assert (E : all_some (map (item_task 1 ex_nan_model) (bu_items (mo_build ex_nan_model))) = Some [Some f1; Some f2]) by reflexivity.
  split; [|split; [|split; reflexivity]].
  - exists [Some f1; Some f2]. split; [exact E|]. exact (outcome_sequential limit_box [Some f1; Some f2]).
  - exists [Some f1; Some f2]. split; [exact E|].
    apply (outcome_order limit_box [Some f1; Some f2] [f2; f1]). apply perm_swap.
Qed.
Print Assumptions C13_schedule_refuted.
(** What holds: no box added by a goroutine has a NaN coordinate.  Missing: nothing else; with
    NaN the statement is false. *)
Theorem C13_schedule_partial : forall fuel m r1 r2,
  (forall it o ibox, In it (bu_items (mo_build m)) ->
     find_object m (item_path it) (it_oid it) = Some o ->
     obj_bbox fuel m (item_path it) o = Some ibox -> NotNaNBox (mul_box (it_tr it) ibox)) ->
  model_bbox fuel m r1 -> model_bbox fuel m r2 -> NumEqBox r1 r2.
Proof.
  intros fuel m r1 r2 H. apply model_bbox_schedule. intros it b Hit Hb. unfold item_box in Hb.
  destruct (find_object m (item_path it) (it_oid it)) as [o|] eqn:Eo; [|destruct Hb].
  destruct (obj_bbox fuel m (item_path it) o) as [ib|] eqn:Eb; [|destruct Hb].
  destruct (negb _); [|destruct Hb]. destruct Hb as [<-|[]]. eapply H; eassumption.
Qed.
Print Assumptions C13_schedule_partial.
(** In terms of the input: no vertex has a NaN coordinate and no transform is set. *)
Theorem C13_schedule_untransformed_partial : forall fuel m r1 r2,
  (forall it, In it (bu_items (mo_build m)) -> it_tr it = matrix_zero) ->
  (forall o c, ObjectOf m o -> In c (Comps o) -> co_tr c = matrix_zero) ->
  (forall o me p, ObjectOf m o -> ob_mesh o = Some me -> In p (me_verts me) -> NotNaNPoint p) ->
  model_bbox fuel m r1 -> model_bbox fuel m r2 -> NumEqBox r1 r2.
Proof.
  intros fuel m r1 r2 Hi Hc Hv. apply C13_schedule_partial. intros it o ib Hit Ho Hb.
  rewrite (Hi _ Hit). rewrite mul_box_unset by reflexivity.
  apply (obj_bbox_nn m (item_path it)) with (fuel := fuel) (o := o); auto.
  - intros o' c Ho' Hc'. rewrite (Hc o' c Ho' Hc'). reflexivity.
  - apply find_object_in in Ho. tauto.
Qed.
Print Assumptions C13_schedule_untransformed_partial.
Definition ex_two_model : Model :=
  ex_bmodel [ex_mobj 1 ex_tri_pts; ex_cobj 2 [mkComp 1 matrix_zero []]] [ex_item 1; ex_item 2; ex_item 7].
Example C13_nonvacuous :
  model_bbox 2 ex_two_model (mkBox (P3 f_zero (fneg f_one) f_one) (P3 f_one f_zero f_two)).
Proof.
  exists [Some (fun box => extend box (mul_box matrix_zero (mesh_bbox (ex_mesh ex_tri_pts))));
          Some (fun box => extend box (mul_box matrix_zero (extend limit_box (mul_box matrix_zero (mesh_bbox (ex_mesh ex_tri_pts))))));
          None].
  split; [reflexivity|]. exact (outcome_sequential limit_box [_; _; None]).
Qed.

(** C14: refuted.  The transform (x, y) -> (x - y, x + y), a rotation by 45 degrees with a
    scale, the unit cube, and the corner (1, 0, 0), which goes to x = 1. *)
Definition ex_rot : Matrix :=
  M16 f_one f_one f_zero f_zero  (fneg f_one) f_one f_zero f_zero
      f_zero f_zero f_one f_zero  f_zero f_zero f_zero f_one.
Theorem C14_mulbox_refuted :
  exists t b p, m15 t = f_one /\ Inside p b /\ ~ Inside (mul3d t p) (mul_box t b).
Proof.
  exists ex_rot, (mkBox (P3 f_zero f_zero f_zero) (P3 f_one f_one f_one)), (P3 f_one f_zero f_zero).
  split; [reflexivity|split; [vm_compute; auto 10|]]. intros [[_ H] _]. vm_compute in H. discriminate.
Qed.
Print Assumptions C14_mulbox_refuted.

(** C15, what holds of the bounding box: on models without component cycles it returns.
    The refutation for accepted models is in T_Validate. *)
Theorem C15_bounding_box_terminates_partial : forall m, Acyclic m -> exists fuel r, model_bbox fuel m r.
Proof. exact model_bbox_terminates. Qed.
Print Assumptions C15_bounding_box_terminates_partial.
(** More fuel does not change a result: [None] means that the recursion goes on. *)
Theorem C15_fuel_irrelevant : forall m path fuel fuel' o b, fuel <= fuel' ->
  obj_bbox fuel m path o = Some b -> obj_bbox fuel' m path o = Some b.
Proof. intros m path fuel fuel' o b Hl H. exact (obj_bbox_mono m path fuel o b H fuel' Hl). Qed.
Print Assumptions C15_fuel_irrelevant.
Example C15_nonvacuous : Acyclic ex_two_model.
Proof.
  exists (fun o => N.to_nat (ob_id o)). intros o c o1 [Ho|(pc & [] & _)] Hc [Ho1|(pc1 & [] & _)] E.
  destruct Ho as [<-|[<-|[]]]; [destruct Hc|]. destruct Hc as [<-|[]]. cbn in E. rewrite E. cbn. lia.
Qed.

(** C16: refuted.  The root's object 1 has a component in /a.model; the object there has a
    component without path, which designates object 2 of /a.model but is looked up in the root. *)
Definition ex_nested : Model :=
  mkModel "" "" 0 "" (mkRes [] [ex_cobj 1 [mkComp 1 matrix_zero [GComp "" "/a.model"]];
                               ex_mobj 2 [ex_pt f_one f_one f_one]] [])
    (mkBuild [ex_item 1] []) [] [] []
    [("/a.model", mkChild (mkRes [] [ex_cobj 1 [mkComp 2 matrix_zero []]; ex_mobj 2 [ex_pt f_two f_two f_two]] []) [] [])]
    [] [] [] [].
Theorem C16_resolution_refuted :
  exists m o fuel b b', ChildsOk m /\ find_object m "" 1 = Some o /\
    obj_bbox fuel m "" o = Some b /\ CodeBoxOf m "" o b' /\ ~ NumEqBox b b'.
Proof.
  exists ex_nested, (ex_cobj 1 [mkComp 1 matrix_zero [GComp "" "/a.model"]]), 3,
    (mkBox (P3 f_one f_one f_one) (P3 f_one f_one f_one)), (mkBox (P3 f_two f_two f_two) (P3 f_two f_two f_two)).
  assert (Hm : ChildsOk ex_nested) by (repeat constructor; intros []).
  split; [exact Hm|split; [reflexivity|split; [reflexivity|split]]].
  - apply BoxComps; [reflexivity|discriminate|].
    eapply BCAdd with (file' := "/a.model").
    + apply target_spec; [exact Hm|]. split; reflexivity.
    + apply BoxComps; [reflexivity|discriminate|].
      eapply BCAdd with (file' := "/a.model").
      * apply target_spec; [exact Hm|]. split; reflexivity.
      * apply BoxMesh. reflexivity.
      * apply BCNil.
    + match goal with |- BoxOfComps _ _ _ _ _ _ ?acc _ ?b => assert (E : acc = b) by (vm_compute; reflexivity) end.
      rewrite <- E. apply BCNil.
  - intros [[[_ H] _] _]. vm_compute in H. discriminate.
Qed.
Print Assumptions C16_resolution_refuted.
(** What holds: the box is the right one when an object reached through an explicit path has no
    component without path.  Missing: models with such a component, where the code is wrong. *)
Theorem C16_resolution_partial : forall m path fuel o b,
  ChildsOk m ->
  (forall o1 c p o2 c', ObjectOf m o1 -> In c (Comps o1) -> CarriedPath (co_any c) p -> p <> "" ->
     Target m c "" p o2 -> ob_mesh o2 = None -> In c' (Comps o2) -> ~ CarriedPath (co_any c') "") ->
  ObjectOf m o -> obj_bbox fuel m path o = Some b -> CodeBoxOf m path o b.
Proof.
  intros m path fuel o b Hm HE Ho H. apply (obj_bbox_boxof m path Hm) with (fuel := fuel); auto.
  intros o1 c p o2 c' H1 H2 H3 H4 H5 H6 H7 H8.
  apply (HE o1 c p o2 c' H1 H2); auto.
  - apply any_path_spec; exact H3.
  - apply target_spec; [exact Hm|]. split; [|exact H5]. unfold comp_path. rewrite H3.
    apply seq_false in H4. rewrite H4. reflexivity.
  - apply any_path_spec; exact H8.
Qed.
Print Assumptions C16_resolution_partial.
Definition ex_shallow : Model :=
  mkModel "" "" 0 "" (mkRes [] [ex_cobj 1 [mkComp 2 matrix_zero [GComp "" "/a.model"]; mkComp 2 matrix_zero []];
                               ex_mobj 2 [ex_pt f_one f_one f_one]] [])
    (mkBuild [ex_item 1] []) [] [] []
    [("/a.model", mkChild (mkRes [] [ex_mobj 2 [ex_pt f_two f_two f_two]] []) [] [])]
    [] [] [] [].
Example C16_nonvacuous : ChildsOk ex_shallow /\
  (forall o1 c p o2 c', ObjectOf ex_shallow o1 -> In c (Comps o1) -> CarriedPath (co_any c) p -> p <> "" ->
     Target ex_shallow c "" p o2 -> ob_mesh o2 = None -> In c' (Comps o2) -> ~ CarriedPath (co_any c') "") /\
  obj_bbox 2 ex_shallow "" (ex_cobj 1 [mkComp 2 matrix_zero [GComp "" "/a.model"]; mkComp 2 matrix_zero []]) =
    Some (mkBox (P3 f_one f_one f_one) (P3 f_two f_two f_two)).
Proof.
  assert (Hm : ChildsOk ex_shallow) by (repeat constructor; intros []).
  split; [exact Hm|split; [|reflexivity]].
  intros o1 c p o2 c' Ho Hc Hp Hne Ht Hmesh Hc'. exfalso.
  apply target_spec in Ht as [-> Ht]; [|exact Hm].
  destruct Ho as [[<-|[<-|[]]]|(pc & [<-|[]] & [<-|[]])]; cbn in Hc; try contradiction.
  destruct Hc as [<-|[<-|[]]].
  - vm_compute in Ht. injection Ht as <-. discriminate.
  - apply Hne. reflexivity.
Qed.

(** C56, second half: an unset transform (also any matrix whose last entry is zero) leaves a box
    unchanged. *)
Theorem C56_unset_transform_keeps_box : forall b, mul_box matrix_zero b = b.
Proof. intros b. apply mul_box_unset. reflexivity. Qed.
Print Assumptions C56_unset_transform_keeps_box.
