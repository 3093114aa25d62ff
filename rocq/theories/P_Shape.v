(** * Boxes and coherency of what is read again *)
From Coq Require Import ZArith Reals Lra Permutation.
From Flocq Require Import Core.Core IEEE754.BinarySingleNaN.
From Verif Require Import GoBase GoNum GoFloat GoStrconv Types XmlTypes Conc M_Core M_Errors M_Geom M_Coherency M_Text M_Decode S_Core S_Geom S_Strconv S_Text S_RoundTrip S_Revalid S_Shape
  P_Core P_Float P_Geom P_Strconv P_RTText P_RTExt P_RTCore P_Stable P_Revalid P_Revalid2.
From Verif Require Import Types.
Local Open Scope R_scope.

Definition V (p : nat) (c c' : f32) : Prop := Finite c /\ Finite c' /\ value c' = value (rf p c).
Lemma V_rf p x : Finite x -> V p x (rf p x).
Proof. intros H. split; [exact H|]. split; [apply (P_Revalid.rf_finite p x H)|reflexivity]. Qed.
Lemma V_min p a a' b b' : V p a a' -> V p b b' -> V p (fmin a b) (fmin a' b').
Proof.
  intros (Fa & Fa' & Ea) (Fb & Fb' & Eb). unfold fmin.
  destruct (fltb a b) eqn:L, (fltb a' b') eqn:L'; unfold V; repeat split; try assumption.
  - apply fltb_value in L; try assumption. pose proof (rf_le p a b Fa Fb (Rlt_le _ _ L)).
    assert (~ value a' < value b') by (intros C; apply (fltb_value _ _ Fa' Fb') in C; congruence). lra.
  - apply fltb_value in L'; try assumption.
    assert (H : value b <= value a) by (apply Rnot_lt_le; intros C; apply (fltb_value _ _ Fa Fb) in C; congruence).
    pose proof (rf_le p b a Fb Fa H). lra.
Qed.
Lemma V_max p a a' b b' : V p a a' -> V p b b' -> V p (fmax a b) (fmax a' b').
Proof.
  intros (Fa & Fa' & Ea) (Fb & Fb' & Eb). unfold fmax.
  destruct (fltb b a) eqn:L, (fltb b' a') eqn:L'; unfold V; repeat split; try assumption.
  - apply fltb_value in L; try assumption. pose proof (rf_le p b a Fb Fa (Rlt_le _ _ L)).
    assert (~ value b' < value a') by (intros C; apply (fltb_value _ _ Fb' Fa') in C; congruence). lra.
  - apply fltb_value in L'; try assumption.
    assert (H : value a <= value b) by (apply Rnot_lt_le; intros C; apply (fltb_value _ _ Fb Fa) in C; congruence).
    pose proof (rf_le p a b Fa Fb H). lra.
Qed.
Definition PV p (a b : Point3D) : Prop := V p (px a) (px b) /\ V p (py a) (py b) /\ V p (pz a) (pz b).
Definition BV p (a b : Box) : Prop := PV p (bmin a) (bmin b) /\ PV p (bmax a) (bmax b).
Lemma extend_V p a a' b b' : BV p a a' -> BV p b b' -> BV p (extend a b) (extend a' b').
Proof.
  intros ((A1 & A2 & A3) & (A4 & A5 & A6)) ((B1 & B2 & B3) & (B4 & B5 & B6)). unfold BV, PV, extend; cbn [bmin bmax px py pz].
  auto using V_min, V_max.
Qed.
Lemma extend_point_V p a a' b b' : BV p a a' -> PV p b b' -> BV p (extend_point a b) (extend_point a' b').
Proof.
  intros ((A1 & A2 & A3) & (A4 & A5 & A6)) (B1 & B2 & B3). unfold BV, PV, extend_point; cbn [bmin bmax px py pz].
  auto using V_min, V_max.
Qed.
Lemma V_zero p : V p f_zero f_zero.
Proof. split; [exact I|]. split; [exact I|]. symmetry. apply rf_zero; [exact I|reflexivity]. Qed.
Lemma max_big : 16777216 <= value f_max /\ value (fneg f_max) <= -16777216.
Proof.
  assert (E : value f_max = IZR 16777215 * IZR (2 ^ 104)) by (rewrite value_fR; unfold fR, SF2R, F2R, f_max; cbn [Fnum Fexp cond_Zopp]; change (bpow radix2 104) with (IZR (2 ^ 104)); reflexivity).
  assert (E' : value (fneg f_max) = - value f_max) by (rewrite !value_fR; unfold fR, SF2R, F2R, f_max, fneg, SFopp; cbn [Fnum Fexp cond_Zopp negb]; rewrite opp_IZR; lra).
  rewrite E'. assert (16777216 <= value f_max) by (rewrite E, <- mult_IZR; apply IZR_le; vm_compute; discriminate). lra.
Qed.
Lemma V_big p x : Finite x -> 16777216 <= Rabs (value x) -> V p x x.
Proof. intros F H. split; [exact F|]. split; [exact F|]. symmetry. apply rf_big; assumption. Qed.
Lemma BV_limit p : BV p limit_box limit_box.
Proof.
  destruct max_big as [H1 H2].
  assert (V p f_max f_max) by (apply V_big; [reflexivity|rewrite Rabs_pos_eq; lra]).
  assert (V p (fneg f_max) (fneg f_max)) by (apply V_big; [reflexivity|rewrite Rabs_left; lra]).
  unfold BV, PV, limit_box; cbn [bmin bmax px py pz]. auto 10.
Qed.
Lemma BV_zero p : BV p box_zero box_zero.
Proof. pose proof (V_zero p). unfold BV, PV, box_zero, point_zero; cbn [bmin bmax px py pz]. auto 10. Qed.
Lemma mesh_V p vs : (forall v, In v vs -> FinitePoint v) -> BV p (verts_bbox vs) (verts_bbox (map (rt_point p) vs)).
Proof.
  intros H. destruct vs as [|v vs]; [apply BV_zero|]. unfold verts_bbox. cbn [map]. change (rt_point p v :: map (rt_point p) vs) with (map (rt_point p) (v :: vs)).
  generalize (BV_limit p). generalize limit_box at 1 3. generalize limit_box. revert H. generalize (v :: vs). clear v vs.
  induction l as [|v l IH]; intros H b' b HB; [exact HB|]. cbn [map fold_left]. apply IH; [intros; apply H; right; assumption|].
  apply extend_point_V; [exact HB|]. destruct (H v (or_introl eq_refl)) as (X & Y & Z). unfold PV, rt_point; cbn [px py pz]. auto using V_rf.
Qed.

(** ** Boxes that are not taken for empty ones *)
Definition FiniteBox (b : Box) : Prop := FinitePoint (bmin b) /\ FinitePoint (bmax b).
Definition Large (p : nat) (b : Box) : Prop :=
  (value (px (bmin b)) <= - / 10 ^ p \/ value (py (bmin b)) <= - / 10 ^ p \/ value (pz (bmin b)) <= - / 10 ^ p) \/
  (/ 10 ^ p <= value (px (bmax b)) \/ / 10 ^ p <= value (py (bmax b)) \/ / 10 ^ p <= value (pz (bmax b))).
Lemma BV_finite p a b : BV p a b -> FiniteBox a.
Proof. intros ((A1 & A2 & A3) & (A4 & A5 & A6)). repeat split; (apply A1 || apply A2 || apply A3 || apply A4 || apply A5 || apply A6). Qed.
Lemma fmin_value x y : Finite x -> Finite y -> value (fmin x y) <= value x /\ value (fmin x y) <= value y.
Proof.
  intros Fx Fy. unfold fmin. destruct (fltb x y) eqn:L; [apply fltb_value in L; try assumption; lra|].
  assert (~ value x < value y) by (intros C; apply (fltb_value _ _ Fx Fy) in C; congruence). lra.
Qed.
Lemma fmax_value x y : Finite x -> Finite y -> value x <= value (fmax x y) /\ value y <= value (fmax x y).
Proof.
  intros Fx Fy. unfold fmax. destruct (fltb y x) eqn:L; [apply fltb_value in L; try assumption; lra|].
  assert (~ value y < value x) by (intros C; apply (fltb_value _ _ Fy Fx) in C; congruence). lra.
Qed.
Lemma large_extend p a b : FiniteBox a -> FiniteBox b -> Large p a \/ Large p b -> Large p (extend a b).
Proof.
  intros ((A1 & A2 & A3) & (A4 & A5 & A6)) ((B1 & B2 & B3) & (B4 & B5 & B6)) H. unfold Large, extend in *; cbn [bmin bmax px py pz] in *.
  pose proof (fmin_value _ _ A1 B1). pose proof (fmin_value _ _ A2 B2). pose proof (fmin_value _ _ A3 B3).
  pose proof (fmax_value _ _ A4 B4). pose proof (fmax_value _ _ A5 B5). pose proof (fmax_value _ _ A6 B6).
  set (u := / 10 ^ p) in *. clearbody u. intuition lra.
Qed.
Lemma large_max p x : 16777216 <= x -> / 10 ^ p <= x.
Proof.
  intros H. apply Rle_trans with 1; [|lra]. rewrite <- Rinv_1. apply Rinv_le_contravar; [lra|]. apply pow_R1_Rle. lra.
Qed.
Definition Good (p : nat) (b : Box) : Prop := b = box_zero \/ b = limit_box \/ Large p b.
Lemma nonzero_coord p x x' : V p x x' -> / 10 ^ p <= Rabs (value x) -> feqb x f_zero = false /\ feqb x' f_zero = false.
Proof.
  intros (F & F' & E) H. assert (0 < / 10 ^ p) by (apply Rinv_0_lt_compat, pow_lt; lra).
  split; match goal with |- ?c = false => destruct c eqn:Q; [exfalso|reflexivity] end; apply feqb_value in Q; try assumption; try exact I; change (value f_zero) with 0 in Q.
  - rewrite Q, Rabs_R0 in H. lra.
  - rewrite E in Q. exact (rf_nonzero p x F H Q).
Qed.
Lemma large_zero p b b' : Large p b -> BV p b b' -> box_eqb b box_zero = false /\ box_eqb b' box_zero = false.
Proof.
  intros L ((A1 & A2 & A3) & (A4 & A5 & A6)). assert (0 < / 10 ^ p) by (apply Rinv_0_lt_compat, pow_lt; lra).
  assert (N : forall x x', V p x x' -> value x <= - / 10 ^ p \/ / 10 ^ p <= value x -> feqb x f_zero = false /\ feqb x' f_zero = false).
  { intros x x' HV HH. apply (nonzero_coord p); [exact HV|]. destruct HH; [rewrite Rabs_left1; lra|rewrite Rabs_pos_eq; lra]. }
  unfold box_eqb, point_eqb, box_zero, point_zero; cbn [bmin bmax px py pz].
  destruct L as [[L|[L|L]]|[L|[L|L]]];
    [destruct (N _ _ A1 (or_introl L)) as [-> ->]|destruct (N _ _ A2 (or_introl L)) as [-> ->]|destruct (N _ _ A3 (or_introl L)) as [-> ->]
    |destruct (N _ _ A4 (or_intror L)) as [-> ->]|destruct (N _ _ A5 (or_intror L)) as [-> ->]|destruct (N _ _ A6 (or_intror L)) as [-> ->]];
    rewrite ?andb_false_r; split; reflexivity.
Qed.
Lemma good_zero p b b' : Good p b -> BV p b b' -> box_eqb b' box_zero = box_eqb b box_zero.
Proof.
  intros [-> |[-> |L]] HB.
  - replace (box_eqb box_zero box_zero) with true by reflexivity. destruct HB as ((A1 & A2 & A3) & (A4 & A5 & A6)).
    assert (N : forall x', V p f_zero x' -> feqb x' f_zero = true).
    { intros x' (F & F' & E). apply feqb_value; [exact F'|exact I|]. rewrite E. apply rf_zero; [exact I|reflexivity]. }
    cbn [bmin bmax px py pz box_zero point_zero] in *. unfold box_eqb, point_eqb, box_zero, point_zero; cbn [bmin bmax px py pz].
    rewrite !N by assumption. reflexivity.
  - replace (box_eqb limit_box box_zero) with false by reflexivity. destruct HB as ((A1 & _) & _). cbn [bmin px limit_box] in A1.
    destruct (nonzero_coord p _ _ A1) as [_ E]; [destruct max_big; rewrite Rabs_pos_eq by lra; apply large_max; lra|].
    unfold box_eqb, point_eqb, box_zero, point_zero; cbn [bmin bmax px py pz]. rewrite E. reflexivity.
  - destruct (large_zero p b b' L HB) as [-> ->]. reflexivity.
Qed.
Lemma mesh_large p vs v x : (forall v, In v vs -> FinitePoint v) -> In v vs -> (x = px v \/ x = py v \/ x = pz v) -> / 10 ^ p <= Rabs (value x) -> Large p (verts_bbox vs).
Proof.
  intros F I X H. assert (NE : vs <> []) by (intros ->; destruct I). destruct (verts_bbox_spec vs NE F) as [IN _]. destruct (IN v I) as ((X1 & X2) & (Y1 & Y2) & (Z1 & Z2)).
  destruct (F v I) as (Fx & Fy & Fz). destruct (BV_finite p _ _ (mesh_V p vs F)) as ((A1 & A2 & A3) & (A4 & A5 & A6)).
  unfold Le in *. apply fleb_value in X1; try assumption. apply fleb_value in X2; try assumption. apply fleb_value in Y1; try assumption. apply fleb_value in Y2; try assumption.
  apply fleb_value in Z1; try assumption. apply fleb_value in Z2; try assumption. unfold Large. set (u := / 10 ^ p) in *. clearbody u.
  assert (S : value x <= - u \/ u <= value x) by (unfold Rabs in H; destruct (Rcase_abs (value x)); [left|right]; lra).
  destruct X as [->|[-> | ->]]; destruct S; [left; left|right; left|left; right; left|right; right; left|left; right; right|right; right; right]; lra.
Qed.

(** ** Objects and models *)
Section Shape.
Context (p : nat) (m m' : Model).
Hypothesis RS : forall path, find_resources m' path = option_map (rt_res p) (find_resources m path).
Hypothesis B : mo_build m' = rt_build (mo_build m).
Hypothesis U : Untransformed m.
Hypothesis FV : FiniteVertices m.
Hypothesis SZ : Sized p m.

Definition BoxesRead (b b' : option Box) : Prop :=
  match b, b' with Some b, Some b' => Good p b /\ BV p b b' | None, None => True | _, _ => False end.
Definition Started (b : Box) : Prop := b = limit_box \/ Large p b.
Lemma started_extend a b b' : Started a -> FiniteBox a -> BV p b b' -> Good p b -> box_eqb b box_zero = false -> Started (extend a b).
Proof.
  intros S Fa HB G Z. pose proof (BV_finite _ _ _ HB) as Fb. destruct G as [-> |[-> |L]]; [discriminate| |right; apply large_extend; auto].
  destruct S as [-> |L]; [left; reflexivity|right; apply large_extend; auto].
Qed.
Lemma rt_unset t : t = matrix_zero -> rt_tr t = matrix_zero.
Proof. intros ->. reflexivity. Qed.
Lemma comps_read path rec rec' : (forall o, ObjectOf m o -> BoxesRead (rec o) (rec' (rt_obj p o))) ->
  forall cs b b', (forall c, In c cs -> co_tr c = matrix_zero) -> Started b -> BV p b b' ->
  BoxesRead (comps_bbox m path rec b cs) (comps_bbox m' path rec' b' (map rt_comp1 cs)).
Proof.
  intros R. induction cs as [|c cs IH]; intros b b' C S HB; cbn [map comps_bbox]; [split; [destruct S; unfold Good; auto|exact HB]|].
  change (comp_path (rt_comp1 c) path) with (comp_path c path). cbn [rt_comp1 co_oid co_tr]. rewrite (find_object_rt p m m' RS).
  assert (C' : forall x, In x cs -> co_tr x = matrix_zero) by (intros; apply C; right; assumption).
  destruct (find_object m (comp_path c path) (co_oid c)) as [o|] eqn:E; cbn [option_map]; [|apply IH; assumption].
  apply find_object_in in E as [O _]. specialize (R o O). destruct (rec o) as [cb|], (rec' (rt_obj p o)) as [cb'|]; try exact R; try destruct R.
  rename H into G, H0 into HC. rewrite (good_zero p cb cb' G HC). rewrite (C c (or_introl eq_refl)), (rt_unset _ eq_refl), !mul_box_unset by reflexivity.
  destruct (box_eqb cb box_zero) eqn:Z; cbn [negb]; apply IH; try assumption.
  - eapply started_extend; try eassumption. eapply BV_finite, HB.
  - apply extend_V; assumption.
Qed.
Lemma obj_read path : forall fuel o, ObjectOf m o -> BoxesRead (obj_bbox fuel m path o) (obj_bbox fuel m' path (rt_obj p o)).
Proof.
  induction fuel as [|fuel IH]; intros o O; [exact I|]. cbn [obj_bbox]. cbn [rt_obj ob_mesh]. destruct (ob_mesh o) as [me|] eqn:E; cbn [option_map].
  - unfold mesh_bbox. cbn [rt_mesh me_verts]. split; [|apply mesh_V; intros v Hv; eapply FV; eassumption].
    destruct (me_verts me) as [|v vs] eqn:EV; [left; reflexivity|]. right. right. rewrite <- EV.
    destruct (SZ o me O E) as (w & x & I & X & H); [rewrite EV; discriminate|]. eapply mesh_large; try eassumption. intros u Hu. eapply FV; eassumption.
  - replace (comps_of (rt_obj p o)) with (map rt_comp1 (comps_of o)) by (unfold comps_of; cbn [rt_obj ob_comps]; destruct (ob_comps o); reflexivity).
    pose proof (fun c => proj2 U o c O) as C. change (Comps o) with (comps_of o) in C.
    destruct (comps_of o) as [|c cs] eqn:EC; cbn [map]; [split; [left; reflexivity|apply BV_zero]|].
    change (rt_comp1 c :: map rt_comp1 cs) with (map rt_comp1 (c :: cs)). apply comps_read; [exact IH|exact C|left; reflexivity|apply BV_limit].
Qed.

Lemma item_read fuel it : In it (bu_items (mo_build m)) ->
  (item_task fuel m it = None <-> item_task fuel m' (rt_item it) = None) /\ Forall2 (BV p) (item_box fuel m it) (item_box fuel m' (rt_item it)).
Proof.
  intros I. unfold item_task, item_box. change (item_path (rt_item it)) with (item_path it). cbn [rt_item it_oid it_tr]. rewrite (find_object_rt p m m' RS).
  destruct (find_object m (item_path it) (it_oid it)) as [o|] eqn:E; cbn [option_map]; [|split; [split; discriminate|constructor]].
  apply find_object_in in E as [O _]. pose proof (obj_read (item_path it) fuel o O) as R.
  destruct (obj_bbox fuel m (item_path it) o) as [b|], (obj_bbox fuel m' (item_path it) (rt_obj p o)) as [b'|]; try destruct R; [|split; [split; reflexivity|constructor]].
  rename H into G, H0 into HB. rewrite (good_zero p b b' G HB), (proj1 U it I), (rt_unset _ eq_refl), !mul_box_unset by reflexivity.
  destruct (box_eqb b box_zero); cbn [negb]; split; try (split; discriminate); constructor; [exact HB|constructor].
Qed.
Lemma all_some_none {A} (l : list (option A)) : all_some l = None <-> In None l.
Proof.
  induction l as [|[x|] l IH]; cbn; [split; [discriminate|intros []]| |split; auto].
  destruct (all_some l); split; try discriminate; [intros [C|C]; [discriminate|apply IH in C; discriminate]|intros _; right; apply IH; reflexivity|reflexivity].
Qed.
Lemma boxes_read fuel : Forall2 (BV p) (concat (map (item_box fuel m) (bu_items (mo_build m)))) (concat (map (item_box fuel m') (bu_items (mo_build m')))).
Proof.
  rewrite B. cbn [rt_build bu_items]. rewrite map_map. generalize (fun it => item_read fuel it). generalize (bu_items (mo_build m)). induction l as [|it l IH]; intros H; [constructor|].
  cbn [map concat]. apply Forall2_app; [apply H; left; reflexivity|apply IH; intros; apply H; right; assumption].
Qed.
Lemma fold_V bs bs' : Forall2 (BV p) bs bs' -> forall b b', BV p b b' -> BV p (fold_left extend bs b) (fold_left extend bs' b').
Proof. induction 1; intros b b' HB; [exact HB|]. cbn [fold_left]. apply IHForall2, extend_V; assumption. Qed.
Lemma finite_box_nn b : FiniteBox b -> NotNaNBox b.
Proof. intros ((A1 & A2 & A3) & (A4 & A5 & A6)). repeat split; apply finite_nn; assumption. Qed.
Lemma BV_right a b : BV p a b -> FiniteBox b.
Proof. intros ((A1 & A2 & A3) & (A4 & A5 & A6)). repeat split; (apply A1 || apply A2 || apply A3 || apply A4 || apply A5 || apply A6). Qed.
Lemma model_returns fuel : (exists b, model_bbox fuel m b) <-> (exists b, model_bbox fuel m' b).
Proof.
  unfold model_bbox. rewrite B. cbn [rt_build bu_items]. pose proof (fun it => item_read fuel it) as H. destruct (bu_items (mo_build m)) as [|i l]; cbn [map]; [reflexivity|].
  assert (E : all_some (map (item_task fuel m) (i :: l)) = None <-> all_some (map (item_task fuel m') (map rt_item (i :: l))) = None).
  { rewrite !all_some_none, !in_map_iff. split.
    - intros (x & E & Hx). exists (rt_item x). split; [apply (H x Hx), E|apply in_map, Hx].
    - intros (y & E & Hy). apply in_map_iff in Hy as (x & <- & Hx). exists x. split; [apply (H x Hx), E|exact Hx]. }
  cbn [map] in E. split; intros (b & ts & E1 & _).
  - destruct (all_some (item_task fuel m' (rt_item i) :: map (item_task fuel m') (map rt_item l))) as [ts'|] eqn:Q; [|apply proj2 in E; specialize (E eq_refl); cbn [map] in E1; congruence].
    exists (apply_all (updates ts') limit_box), ts'. split; [reflexivity|apply outcome_sequential].
  - destruct (all_some (item_task fuel m i :: map (item_task fuel m) l)) as [ts'|] eqn:Q; [|apply proj1 in E; specialize (E eq_refl); cbn [map] in E1; congruence].
    exists (apply_all (updates ts') limit_box), ts'. split; [reflexivity|apply outcome_sequential].
Qed.
Lemma num_value x y : Finite x -> Finite y -> NumEq x y <-> value x = value y.
Proof. intros Fx Fy. unfold NumEq, Le. rewrite !fleb_value by assumption. lra. Qed.
Lemma fold_finite bs b : Forall FiniteBox bs -> FiniteBox b -> FiniteBox (fold_left extend bs b).
Proof.
  intros H. revert b. induction H as [|x bs Hx _ IH]; intros b Hb; [exact Hb|]. apply IH.
  destruct Hx as ((A1 & A2 & A3) & (A4 & A5 & A6)), Hb as ((B1 & B2 & B3) & (B4 & B5 & B6)). unfold FiniteBox, FinitePoint, extend; cbn [bmin bmax px py pz].
  repeat split; match goal with |- Finite (?f ?a ?b) => unfold f; destruct (fltb _ _); assumption end.
Qed.
Lemma all_finite bs bs' : Forall2 (BV p) bs bs' -> Forall FiniteBox bs /\ Forall FiniteBox bs'.
Proof. induction 1 as [|x y l l' H _ [I1 I2]]; [split; constructor|]. split; constructor; try assumption; [eapply BV_finite|eapply BV_right]; exact H. Qed.
Lemma model_read fuel b b' : model_bbox fuel m b -> model_bbox fuel m' b' -> BoxRead p b b'.
Proof.
  assert (CR : forall x y z w, V p x y -> Finite z -> Finite w -> NumEq z x -> NumEq w y -> CoordRead p z w).
  { intros x y z w (Fx & Fy & E) Fz Fw E1 E2. exists (rf p z). split.
    - apply rf_rounded. destruct z; [reflexivity|destruct Fz|destruct Fz|exact Fz].
    - pose proof (proj1 (P_Revalid.rf_finite p z Fz)) as F. apply (num_value z x Fz Fx) in E1. apply (num_value w y Fw Fy) in E2. apply num_value; try assumption. rewrite E2, E.
      apply Rle_antisym; apply rf_le; try assumption; lra. }
  assert (BR : forall x y z w, BV p x y -> FiniteBox z -> FiniteBox w -> NumEqBox z x -> NumEqBox w y -> BoxRead p z w).
  { intros x y z w ((A1 & A2 & A3) & (A4 & A5 & A6)) ((F1 & F2 & F3) & (F4 & F5 & F6)) ((G1 & G2 & G3) & (G4 & G5 & G6)) ((N1 & N2 & N3) & (N4 & N5 & N6)) ((M1 & M2 & M3) & (M4 & M5 & M6)).
    split; (split; [|split]).
    - exact (CR _ _ _ _ A1 F1 G1 N1 M1).
    - exact (CR _ _ _ _ A2 F2 G2 N2 M2).
    - exact (CR _ _ _ _ A3 F3 G3 N3 M3).
    - exact (CR _ _ _ _ A4 F4 G4 N4 M4).
    - exact (CR _ _ _ _ A5 F5 G5 N5 M5).
    - exact (CR _ _ _ _ A6 F6 G6 N6 M6). }
  unfold model_bbox. pose proof (boxes_read fuel) as R.
  destruct (bu_items (mo_build m)) as [|i l] eqn:E; destruct (bu_items (mo_build m')) as [|i' l'] eqn:E'; rewrite B in E'; cbn [rt_build bu_items] in E'; rewrite E in E'; try discriminate E'.
  - intros -> ->. apply (BR _ _ _ _ (BV_zero p)); repeat split.
  - intros (ts & T & O) (ts' & T' & O'). apply (outcome_boxes _ _ _ _ _ T) in O as (bs & P1 & ->). apply (outcome_boxes _ _ _ _ _ T') in O' as (bs' & P2 & ->).
    set (l1 := concat _) in R, P1. set (l2 := concat _) in R, P2. clearbody l1 l2.
    destruct (all_finite _ _ R) as [F1 F2].
    apply (BR _ _ _ _ (fold_V _ _ R _ _ (BV_limit p))).
    + apply fold_finite; [rewrite P1; exact F1|repeat split].
    + apply fold_finite; [rewrite P2; exact F2|repeat split].
    + apply extend_perm; [exact P1|apply limit_box_nn|rewrite P1; eapply Forall_impl; [|exact F1]; apply finite_box_nn].
    + apply extend_perm; [exact P2|apply limit_box_nn|rewrite P2; eapply Forall_impl; [|exact F2]; apply finite_box_nn].
Qed.
End Shape.

(** ** Coherency *)
Lemma mesh_coherency_rt p o me : mesh_coherency (rt_mesh p o me) = mesh_coherency me.
Proof.
  unfold mesh_coherency. cbn [rt_mesh me_verts me_tris]. rewrite !map_length.
  assert (E : flat_map face_pairs (map (with_defaults o) (me_tris me)) = flat_map face_pairs (me_tris me)).
  { induction (me_tris me) as [|t l IH]; [reflexivity|]. cbn [map flat_map]. rewrite IH. f_equal. unfold with_defaults, face_pairs. repeat (destruct (_ : bool)); reflexivity. }
  rewrite E. reflexivity.
Qed.
Lemma coherency_task_rt p w i o : coherency_task w i (rt_obj p o) = coherency_task w i o.
Proof.
  unfold coherency_task, is_solid. cbn [rt_obj ob_mesh ob_type]. destruct (ob_mesh o) as [me|]; cbn [option_map]; [|reflexivity]. rewrite mesh_coherency_rt. reflexivity.
Qed.
Lemma mapi_rt {A B C} (f : nat -> B -> C) (h : nat -> A -> C) (g : A -> B) l : (forall i a, f i (g a) = h i a) -> mapi f (map g l) = mapi h l.
Proof.
  intros H. unfold mapi. generalize 0%nat. induction l as [|a l IH]; intros n; [reflexivity|]. cbn. rewrite H, IH. reflexivity.
Qed.
Section Coherency.
Context (p : nat) (m m' : Model).
Hypothesis R0 : mo_res m' = rt_res p (mo_res m).
Hypothesis D : NoDup (map fst (mo_childs m)).
Hypothesis D' : NoDup (map fst (mo_childs m')).
Hypothesis C1 : forall k c, In (k, c) (mo_childs m) -> exists c', In (k, c') (mo_childs m') /\ ch_res c' = rt_res p (ch_res c).
Hypothesis C2 : forall k c', In (k, c') (mo_childs m') -> exists c, In (k, c) (mo_childs m) /\ ch_res c' = rt_res p (ch_res c).
Definition parts_of (f : Resources -> Resources) (l : list (string * Child)) : list (string * Resources) := map (fun kc => (fst kc, f (ch_res (snd kc)))) l.
Lemma parts_nodup f l : NoDup (map fst l) -> NoDup (parts_of f l).
Proof. intros H. apply (NoDup_map_inv fst). unfold parts_of. rewrite map_map. exact H. Qed.
Lemma parts_perm : Permutation (parts_of (fun r => r) (mo_childs m')) (parts_of (rt_res p) (mo_childs m)).
Proof.
  apply NoDup_Permutation; [apply parts_nodup, D'|apply parts_nodup, D|]. intros (k & r). unfold parts_of. rewrite !in_map_iff. split.
  - intros ((k0 & c') & E & I). cbn [fst snd] in E. injection E as <- <-. destruct (C2 k0 c' I) as (c & Ic & E). exists (k0, c). split; [cbn [fst snd]; rewrite E; reflexivity|exact Ic].
  - intros ((k0 & c) & E & I). cbn [fst snd] in E. injection E as <- <-. destruct (C1 k0 c I) as (c' & Ic & E). exists (k0, c'). split; [cbn [fst snd]; rewrite E; reflexivity|exact Ic].
Qed.
Definition part_tasks (l : list (string * Resources)) : list (@task error) :=
  flat_map (fun pr => mapi (coherency_task (fun e => wrap_path e "resources" (fst pr))) (rs_objects (snd pr))) l.
Lemma tasks_rt cs cs' : parts_of (fun r => r) cs' = parts_of (rt_res p) cs -> coherency_tasks m' cs' = coherency_tasks m cs.
Proof.
  intros E. unfold coherency_tasks. f_equal.
  - rewrite R0. cbn [rt_res rs_objects]. apply mapi_rt. intros; apply coherency_task_rt.
  - assert (T : forall l, flat_map (fun pc => mapi (coherency_task (fun e => wrap_path e "resources" (fst pc))) (rs_objects (ch_res (snd pc)))) l = part_tasks (parts_of (fun r => r) l)).
    { intros l. unfold part_tasks, parts_of. rewrite !flat_map_concat_map, map_map. reflexivity. }
    rewrite T, E. unfold part_tasks, parts_of. rewrite !flat_map_concat_map, map_map. f_equal. apply map_ext. intros (k & c). cbn [fst snd rt_res rs_objects]. apply mapi_rt. intros; apply coherency_task_rt.
Qed.
Lemma coherency_read r : model_coherency m' r <-> model_coherency m r.
Proof.
  split; intros (cs & errs & P & O & ->).
  - assert (Q : Permutation (parts_of (fun r => r) cs) (parts_of (rt_res p) (mo_childs m))) by (rewrite <- parts_perm; apply Permutation_map, P).
    apply perm_map_inv in Q as (k & E & PK). exists k, errs. split; [exact PK|]. rewrite <- (tasks_rt k cs E). auto.
  - assert (Q : Permutation (parts_of (rt_res p) cs) (parts_of (fun r => r) (mo_childs m'))) by (rewrite parts_perm; apply Permutation_map, P).
    apply perm_map_inv in Q as (k & E & PK). exists k, errs. split; [exact PK|]. rewrite (tasks_rt cs k (eq_sym E)). auto.
Qed.
End Coherency.
Lemma value_lit m q v : Zpos m = (v * 2 ^ Zpos q)%Z -> value (S754_finite false m (Zneg q)) = IZR v.
Proof.
  intros E. unfold value. rewrite Rmult_1_l. cbn [powerRZ]. assert (P : 0 < 2 ^ Pos.to_nat q) by (apply pow_lt; lra).
  apply Rmult_eq_reg_r with (2 ^ Pos.to_nat q); [|lra]. rewrite Rmult_assoc, Rinv_l, Rmult_1_r by lra. rewrite pow_IZR, positive_nat_Z, <- mult_IZR, E. reflexivity.
Qed.
Lemma value_max : 16777216 <= value f_max.
Proof. apply max_big. Qed.
Lemma value_below m q : (Zpos m < 2 ^ Zpos q)%Z -> 0 < value (S754_finite false m (Zneg q)) < 1.
Proof.
  intros E. unfold value. rewrite Rmult_1_l. cbn [powerRZ]. assert (P : 0 < 2 ^ Pos.to_nat q) by (apply pow_lt; lra). assert (M : 0 < IZR (Zpos m)) by (apply IZR_lt; reflexivity).
  split; [apply Rmult_lt_0_compat; [exact M|apply Rinv_0_lt_compat, P]|]. apply Rmult_lt_reg_r with (2 ^ Pos.to_nat q); [exact P|]. rewrite Rmult_assoc, Rinv_l, Rmult_1_r, Rmult_1_l by lra.
  rewrite pow_IZR, positive_nat_Z. apply IZR_lt, E.
Qed.
