(** * Theorems: what the build places lies in the bounding box: C90 *)
From Coq Require Import ZArith Lia Permutation.
From Verif Require Import GoBase GoFloat Types Conc M_Core M_Errors M_Geom M_Validate M_ExtValidate M_Coherency S_Core S_Errors S_Geom S_Within
  P_Core P_Geom P_Float P_Within T_Geom T_Float T_Renumber.
From Verif Require Import Types.
Local Open Scope list_scope.

(** C90: every point the build of an ordinary model places is in the box BoundingBox returns, whatever the schedule.
    Missing: transforms with a row of mixed signs, models that resolve components in the wrong part (C16), objects all of
    whose points are at the origin; see the refutations. *)
Theorem C90_inside_partial : forall k t n m, Ordinary k t n m ->
  forall fuel r p, model_bbox fuel m r -> BuildPoint m p -> Inside p r.
Proof. intros k t n m O fuel r p B. apply (build_points m k t n O fuel r B). Qed.
Print Assumptions C90_inside_partial.
(** C90: if no transform is set, each face of the box touches a point that is placed. *)
Theorem C90_tight_partial : forall k t n m, Ordinary k t n m ->
  (forall o c, ObjectOf m o -> In c (Comps o) -> unset (co_tr c) = true) -> (forall it, In it (bu_items (mo_build m)) -> unset (it_tr it) = true) ->
  (exists p, BuildPoint m p) -> forall fuel r, model_bbox fuel m r -> FacesTouch (BuildPoint m) r.
Proof. intros k t n m O U1 U2 E fuel r B. apply (build_points m k t n O fuel r B); [split; assumption|exact E]. Qed.
Print Assumptions C90_tight_partial.

(** ** False in general, of models that Validate and ValidateCoherency accept *)
Definition ex_wtri (a b c : N) : Triangle := mkTri a b c 0 0 0 0 [].
Definition ex_wobj (id : N) (vs : list Point3D) : Object :=
  mkObj id "" "" "" 0 0 0 mg_zero (Some (mkMesh vs [] [ex_wtri 0 1 2; ex_wtri 1 0 3; ex_wtri 2 1 3; ex_wtri 0 2 3] [] [] [])) None [].
Definition ex_corner : list Point3D := [ex_pt f_zero f_zero f_zero; ex_pt f_one f_zero f_zero; ex_pt f_zero f_one f_zero; ex_pt f_zero f_zero f_one].
Definition ex_shift : Matrix := M16 f_one f_zero f_zero f_zero  f_zero f_one f_zero f_zero  f_zero f_zero f_one f_zero  f_one f_one f_one f_one.
Definition ex_wmodel (objs : list Object) (id : N) (t : Matrix) : Model := ex_bmodel objs [mkItem id t "" mg_zero []].
Lemma ex_wbox fuel objs id t r : model_bbox fuel (ex_wmodel objs id t) r <-> model_bbox_seq fuel (ex_wmodel objs id t) = Some r.
Proof. exact (single_bbox fuel (ex_wmodel objs id t) (mkItem id t "" mg_zero []) eq_refl r). Qed.
Lemma ex_wpoint objs id t o q : FirstWith ob_id id objs o -> PointOf (ex_wmodel objs id t) "" o q -> BuildPoint (ex_wmodel objs id t) (move t q).
Proof.
  intros F Q. exists (mkItem id t "" mg_zero []), "", o, q. split; [left; reflexivity|]. split; [|split; [exact Q|reflexivity]].
  split; [constructor; intros g []|]. exists (mo_res (ex_wmodel objs id t)). split; [constructor; reflexivity|exact F].
Qed.
(** An object turned by 45 degrees sticks out of the box. *)
Theorem C90_rotated_refuted : exists loaded fuel m r p, validate loaded (registry fuel) m = None /\ model_coherency m None /\
  model_bbox fuel m r /\ BuildPoint m p /\ ~ Inside p r.
Proof.
  set (m := ex_wmodel [ex_wobj 1 ex_corner] 1 ex_rot).
  exists (fun _ => true), 3, m, (mkBox (P3 f_zero f_zero f_zero) (P3 f_zero f_two f_one)), (move ex_rot (ex_pt f_one f_zero f_zero)). split; [vm_compute; reflexivity|]. split.
  - exists [], None. split; [constructor|]. split; [|reflexivity].
    replace (coherency_tasks m []) with [@None (error -> error)] by (vm_compute; reflexivity). apply outcome_sequential.
  - split; [apply ex_wbox; vm_compute; reflexivity|]. split.
    + apply (ex_wpoint _ _ _ (ex_wobj 1 ex_corner)); [exists [], []; repeat split; constructor|]. eapply POMesh; [reflexivity|right; left; reflexivity].
    + intros ((_ & H) & _). revert H. vm_compute. discriminate.
Qed.
Print Assumptions C90_rotated_refuted.
(** An object all of whose vertices are at the origin is left out wherever it is placed, and the box is inside out;
    as a component of an object with a transform it makes the box infinite for practical purposes. *)
Theorem C90_origin_refuted :
  (exists loaded fuel m r p, validate loaded (registry fuel) m = None /\ model_coherency m None /\
     model_bbox fuel m r /\ BuildPoint m p /\ ~ Inside p r /\ Le (px (bmax r)) (px (bmin r)) /\ ~ Le (px (bmin r)) (px (bmax r))) /\
  (exists loaded fuel m r, validate loaded (registry fuel) m = None /\ model_coherency m None /\ (exists p, BuildPoint m p) /\
     (forall p, BuildPoint m p -> NumEqPoint p (P3 f_zero f_zero f_zero)) /\ model_bbox fuel m r /\ px (bmin r) = fneg f_max /\ px (bmax r) = f_max).
Proof.
  split.
  - set (m := ex_wmodel [ex_wobj 1 (repeat point_zero 4)] 1 ex_shift). exists (fun _ => true), 3, m, limit_box, (move ex_shift point_zero). split; [vm_compute; reflexivity|]. split.
    + exists [], None. split; [constructor|]. split; [|reflexivity].
      replace (coherency_tasks m []) with [@None (error -> error)] by (vm_compute; reflexivity). apply outcome_sequential.
    + split; [apply ex_wbox; vm_compute; reflexivity|]. split.
      * apply (ex_wpoint _ _ _ (ex_wobj 1 (repeat point_zero 4))); [exists [], []; repeat split; constructor|]. eapply POMesh; [reflexivity|left; reflexivity].
      * split; [|split; [vm_compute; reflexivity|vm_compute; discriminate]]. intros ((H & _) & _). revert H. vm_compute. discriminate.
  - set (os := [ex_wobj 1 (repeat point_zero 4); ex_cobj 2 [mkComp 1 matrix_zero []]]). set (m := ex_wmodel os 2 identity).
    exists (fun _ => true), 3, m, (mkBox (P3 (fneg f_max) (fneg f_max) (fneg f_max)) (P3 f_max f_max f_max)). split; [vm_compute; reflexivity|]. split; [|split; [|split; [|split; [|split; reflexivity]]]].
    + exists [], None. split; [constructor|]. split; [|reflexivity].
      replace (coherency_tasks m []) with [@None (error -> error); None] by (vm_compute; reflexivity). apply outcome_sequential.
    + exists (move identity (move matrix_zero point_zero)). apply (ex_wpoint _ _ _ (ex_cobj 2 [mkComp 1 matrix_zero []])).
      * exists [ex_wobj 1 (repeat point_zero 4)], []. repeat split. repeat constructor. discriminate.
      * apply (POComp m "" (ex_cobj 2 [mkComp 1 matrix_zero []]) (mkComp 1 matrix_zero []) "" (ex_wobj 1 (repeat point_zero 4))); [reflexivity|left; reflexivity| |eapply POMesh; [reflexivity|left; reflexivity]].
        apply target_spec; [constructor|]. split; reflexivity.
    + assert (V : forall file o p, In o os -> PointOf m file o p -> p = point_zero).
      { intros file o p Ho H. induction H as [file o me p E Hp|file o c file' o' p E Hc Ht Hp IH].
        - destruct Ho as [<-|[<-|[]]]; [|discriminate]. injection E as <-. apply (repeat_spec 4 _ _ Hp).
        - apply target_spec in Ht as [_ Ht]; [|constructor]. apply find_object_in in Ht as ([Ho'|(pc & [] & _)] & _). rewrite (IH Ho').
          destruct Ho as [<-|[<-|[]]]; [discriminate|]. destruct Hc as [<-|[]]. reflexivity. }
      intros p (it & file & o & q & [<-|[]] & (Cp & rs & Ad & (u & v & E & _)) & Hq & ->). cbn [it_tr].
      assert (Hq0 : q = point_zero). { apply (V file o q); [|exact Hq]. assert (R : rs = mo_res m) by (destruct Ad as [| | |c _ _ []]; reflexivity). rewrite R in E. change os with (rs_objects (mo_res m)). rewrite E. apply in_or_app. right. left. reflexivity. }
      rewrite Hq0. vm_compute. auto 10.
    + apply ex_wbox. vm_compute. reflexivity.
Qed.
Print Assumptions C90_origin_refuted.

(** The hypotheses are met by a corner turned by a right angle, moved and stretched twice; the box is that of the moved
    points, with room. *)
Definition ex_wnested : Model := ex_wmodel [ex_wobj 1 ex_corner; ex_cobj 2 [mkComp 1 ex_quarter []]] 2 ex_quarter.
Lemma ex_plain : Plain 1 ex_quarter.
Proof.
  assert (D : forall x, f_valid x = true -> match x with S754_infinity _ | S754_nan => false | _ => true end = true -> (Z.abs (scaled x) <=? 2 ^ 150)%Z = true -> Within 1 x).
  { intros x V F L. split; [destruct x; try discriminate; [exact I|exact V]|]. apply Z.leb_le, L. }
  right. repeat match goal with |- _ /\ _ => split end; try (apply D; reflexivity); [right|left|left]; repeat split; reflexivity.
Qed.
Example C90_nonvacuous : Ordinary 0 1 1 ex_wnested /\ BuildPoint ex_wnested (move ex_quarter (move ex_quarter (ex_pt f_one f_zero f_zero))) /\
  exists r, model_bbox 3 ex_wnested r.
Proof.
  assert (Ob : forall o, ObjectOf ex_wnested o -> o = ex_wobj 1 ex_corner \/ o = ex_cobj 2 [mkComp 1 ex_quarter []]).
  { intros o [[<-|[<-|[]]]|(pc & [] & _)]; auto. }
  assert (Pt : forall file, Addressed ex_wnested file (mo_res ex_wnested) -> PointOf ex_wnested file (ex_cobj 2 [mkComp 1 ex_quarter []]) (move ex_quarter (ex_pt f_one f_zero f_zero))).
  { intros file Ad. apply (POComp ex_wnested file (ex_cobj 2 [mkComp 1 ex_quarter []]) (mkComp 1 ex_quarter []) file (ex_wobj 1 ex_corner)); [reflexivity|left; reflexivity| |eapply POMesh; [reflexivity|right; left; reflexivity]].
    split; [exists ""; split; [constructor; intros g []|left; auto]|]. exists (mo_res ex_wnested). split; [exact Ad|]. exists [], [ex_cobj 2 [mkComp 1 ex_quarter []]]. repeat split. constructor. }
  split; [|split].
  - constructor.
    + constructor.
    + intros o1 c p o2 c' Ho Hc Cp Np. exfalso. apply Ob in Ho as [-> | ->]; [destruct Hc|]. destruct Hc as [<-|[]]. apply any_path_spec in Cp. cbn in Cp. congruence.
    + intros file rs o Ad Ho. assert (R : rs = mo_res ex_wnested) by (destruct Ad as [| | |c _ _ []]; reflexivity). subst rs.
      destruct Ho as [<-|[<-|[]]].
      * exists (ex_pt f_one f_zero f_zero). split; [eapply POMesh; [reflexivity|right; left; reflexivity]|]. intros ((H & _) & _). revert H. vm_compute. discriminate.
      * exists (move ex_quarter (ex_pt f_one f_zero f_zero)). split; [apply Pt, Ad|]. intros (_ & (H & _) & _). revert H. vm_compute. discriminate.
    + intros o me p Ho Em Hp. apply Ob in Ho as [-> | ->]; [|discriminate]. injection Em as <-.
      destruct Hp as [<-|[<-|[<-|[<-|[]]]]]; repeat split; vm_compute; congruence.
    + intros o c Ho Hc. apply Ob in Ho as [-> | ->]; [destruct Hc|]. destruct Hc as [<-|[]]. exact ex_plain.
    + intros it [<-|[]]. exact ex_plain.
    + exists (fun o => N.to_nat (ob_id o) - 1). split.
      * intros o Ho. apply Ob in Ho as [-> | ->]; vm_compute; lia.
      * intros o c file file' o' Ho Hc Ht. apply Ob in Ho as [-> | ->]; [destruct Hc|]. destruct Hc as [<-|[]].
        apply target_spec in Ht as [_ Ht]; [|constructor]. apply find_object_in in Ht as (_ & Ei). cbn in Ei |- *. rewrite Ei. vm_compute. lia.
    + lia.
  - apply (ex_wpoint _ _ _ (ex_cobj 2 [mkComp 1 ex_quarter []])); [exists [ex_wobj 1 ex_corner], []; repeat split; repeat constructor; discriminate|].
    apply Pt. constructor. reflexivity.
  - assert (E : model_bbox_seq 3 ex_wnested <> None) by (vm_compute; discriminate). revert E. unfold ex_wnested.
    destruct (model_bbox_seq 3 _) as [r|] eqn:E; [|congruence]. intros _. exists r. apply ex_wbox, E.
Qed.
