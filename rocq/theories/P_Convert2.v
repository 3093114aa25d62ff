(** * Proofs about saving what was imported from an STL file (C82) *)
From Coq Require Import ZArith Lia Reals Permutation.
From Verif Require Import GoBase GoNum GoFloat GoStrconv Types XmlTypes PkgTypes M_Core M_Geom M_Coherency S_Core S_Geom S_Strconv S_Xml S_Printer S_RoundTrip S_Package S_PkgTrip
  S_Revalid S_Coherency S_Validate P_Coherency M_Stl S_Stl P_Stl S_Convert P_Convert.
From Verif Require Import Types.
Local Open Scope list_scope.

Lemma unused_u32 rs : U32 (unused_id rs).
Proof.
  unfold U32, unused_id. destruct (rs_assets rs), (rs_objects rs); try reflexivity; apply (N.mod_lt _ (2 ^ 32)); discriminate.
Qed.
Section Saved.
Context (m m' : Model) (id : N) (mesh : Mesh).
Notation o := (mkObj id "" "" "" 0 0 0 mg_zero (Some mesh) None []).
Hypothesis im : Imported m m' id mesh.
Hypothesis u32 : U32 id.
Hypothesis points : Forall PointFits (me_verts mesh).
Hypothesis small : (N.of_nat (List.length (me_verts mesh)) <= 2 ^ 32)%N.
Hypothesis tris : forall x, In x (me_tris mesh) ->
  (forall v, In v [t_v1 x; t_v2 x; t_v3 x] -> (v < N.of_nat (List.length (me_verts mesh)))%N) /\ x = triangle (t_v1 x) (t_v2 x) (t_v3 x).
Hypothesis bare : me_vany mesh = [] /\ me_tany mesh = [] /\ me_any mesh = [] /\ me_ext mesh = [].
Lemma any_nil e known skip parent : AnyFits e known skip parent [].
Proof. split; constructor. Qed.
Lemma mesh_fits e known p : MeshFits e known p mesh.
Proof using points small tris bare.
  destruct bare as (B1 & B2 & B3 & B4). unfold MeshFits. rewrite B1, B2, B3, B4. split; [exact points|]. split; [apply any_nil|].
  split; [|split; [apply any_nil|split; [apply any_nil|exact I]]].
  assert (G : forall l, (forall x, In x l -> In x (me_tris mesh)) -> TrisFit e known l); [|exact (G _ (fun x H => H))].
  induction l as [|x l IH]; intros S; [constructor|]. destruct (tris x (S x (or_introl eq_refl))) as [R ->].
  assert (K : forall v, In v [t_v1 x; t_v2 x; t_v3 x] -> U32 v) by (intros v Hv; specialize (R v Hv); revert R small; unfold U32; change (2 ^ 32)%N with 4294967296%N; lia).
  constructor; [|apply any_nil|left; reflexivity|apply IH; intros y Hy; apply S; right; exact Hy].
  unfold NumsFit. cbn [triangle t_v1 t_v2 t_v3 t_pid t_p1 t_p2 t_p3]. split; [apply K; cbn; auto|]. split; [apply K; cbn; auto|]. split; [apply K; cbn; auto|]. repeat split.
Qed.
Lemma meta_zero e known l : GroupMetaFits e known l mg_zero.
Proof. split; [constructor|]. split; [apply any_nil|reflexivity]. Qed.
Lemma obj_fits e known p l : ObjFits e known p l o.
Proof using u32 points small tris bare.
  unfold ObjFits. cbn [ob_id ob_name ob_part ob_thumb ob_pid ob_pindex ob_type ob_md ob_any ob_mesh ob_comps].
  split; [exact u32|]. do 3 (split; [constructor|]). do 2 (split; [reflexivity|]). split; [split; discriminate|]. split; [apply meta_zero|]. split; [apply any_nil|apply mesh_fits].
Qed.
Lemma env_im : env_of m' = env_of m.
Proof using im. unfold env_of. rewrite (im_exts _ _ _ _ im). reflexivity. Qed.
Lemma zero_transform : TransformFits matrix_zero.
Proof. left. left. unfold ZeroMatrix, is_zero. cbn. repeat split; exists false; reflexivity. Qed.
Lemma model_fits known p : ModelFits known p m -> ModelFits known p m'.
Proof using im u32 points small tris bare.
  unfold ModelFits, HeadFits. cbv zeta. rewrite env_im, (im_exts _ _ _ _ im), (im_md _ _ _ _ im), (im_res _ _ _ _ im), (im_build _ _ _ _ im).
  replace (mo_units m') with (mo_units m) by (symmetry; apply im). replace (mo_lang m') with (mo_lang m) by (symmetry; apply im).
  replace (mo_thumb m') with (mo_thumb m) by (symmetry; apply im). replace (mo_anyattr m') with (mo_anyattr m) by (symmetry; apply im).
  replace (mo_any m') with (mo_any m) by (symmetry; apply im).
  intros (H & M & (R1 & R2 & R3) & (B1 & B2) & A). split; [exact H|]. split; [exact M|]. split; [split; [exact R1|split; [|exact R3]]|split; [split; [|exact B2]|exact A]].
  - cbn [rs_objects]. apply Forall_app. split; [exact R2|]. constructor; [apply obj_fits|constructor].
  - cbn [bu_items]. apply Forall_app. split; [exact B1|]. constructor; [|constructor]. unfold ItemFits. cbn [it_oid it_tr it_part it_md it_any].
    split; [exact u32|]. split; [exact zero_transform|]. split; [constructor|]. split; [apply meta_zero|apply any_nil].
Qed.
Lemma demands_im : demands (mo_res m') = demands (mo_res m).
Proof using im. rewrite (im_res _ _ _ _ im). unfold demands. cbn [rs_assets rs_objects]. rewrite flat_map_app. cbn [flat_map demand_object ob_thumb app]. rewrite app_nil_r. reflexivity. Qed.
Lemma package_rels_im : package_rels m' = package_rels m.
Proof using im. unfold package_rels, thumb_rels. rewrite (im_rootrels _ _ _ _ im). replace (mo_thumb m') with (mo_thumb m) by (symmetry; apply im). reflexivity. Qed.
Lemma part_rels_im : part_rels (mo_rels m') (mo_res m') = part_rels (mo_rels m) (mo_res m).
Proof using im. unfold part_rels. rewrite demands_im, (im_rels _ _ _ _ im). reflexivity. Qed.
Lemma all_rels_im : all_rels m' = all_rels m.
Proof using im. unfold all_rels. rewrite package_rels_im, part_rels_im, (im_childs _ _ _ _ im). reflexivity. Qed.
Lemma all_paths_im : all_paths m' = all_paths m.
Proof using im. unfold all_paths, S_PkgTrip.root_path. rewrite (im_path _ _ _ _ im), (im_childs _ _ _ _ im), (im_atts _ _ _ _ im). reflexivity. Qed.
Lemma package_fits normalize resolve known p : PackageFits normalize resolve known p m -> PackageFits normalize resolve known p m'.
Proof using im u32 points small tris bare.
  intros [F1 F2 F3 F4 F5 F6 F7 F8 F9]. constructor.
  - exact (model_fits _ _ F1).
  - rewrite env_im, (im_childs _ _ _ _ im). exact F2.
  - rewrite all_paths_im. exact F3.
  - rewrite all_paths_im. exact F4.
  - rewrite all_rels_im. exact F5.
  - rewrite all_rels_im, (im_atts _ _ _ _ im). exact F6.
  - rewrite all_rels_im, (im_atts _ _ _ _ im). exact F7.
  - rewrite part_rels_im, (im_childs _ _ _ _ im). exact F8.
  - destruct F9 as (T1 & T2 & T3). split; [|split; [replace (mo_any m') with (mo_any m) by (symmetry; apply im); exact T2|rewrite (im_childs _ _ _ _ im); exact T3]].
    intros x me Hx E. rewrite (im_res _ _ _ _ im) in Hx. cbn [rs_objects] in Hx. apply in_app_iff in Hx as [Hx|[<-|[]]]; [exact (T1 x me Hx E)|].
    injection E as <-. destruct bare as (_ & _ & _ & ->). intros t [].
Qed.
Lemma height_im x : Height m' x -> Height m x.
Proof using im.
  intros (rs & st & s & [->|(k & c & Hc & ->)] & I & J & E).
  - exists (mo_res m), st, s. rewrite (im_res _ _ _ _ im) in I. split; [left; reflexivity|auto].
  - rewrite (im_childs _ _ _ _ im) in Hc. exists (ch_res c), st, s. split; [right; exists k, c; auto|auto].
Qed.
Lemma robust_im p : Robust p m -> Robust p m'.
Proof using im bare.
  intros [R1 R2 R3 R4]. constructor.
  - rewrite all_rels_im. exact R1.
  - intros x H. apply R2, height_im, H.
  - intros x y H1 H2. apply R3; apply height_im; assumption.
  - intros rs x me g [->|(k & c & Hc & ->)] I E J.
    + rewrite (im_res _ _ _ _ im) in I. cbn [rs_objects] in I. apply in_app_iff in I as [I|[<-|[]]]; [exact (R4 _ x me g (or_introl eq_refl) I E J)|].
      injection E as <-. destruct bare as (_ & _ & _ & B). rewrite B in J. destruct J.
    + rewrite (im_childs _ _ _ _ im) in Hc. exact (R4 (ch_res c) x me g (or_intror (ex_intro _ k (ex_intro _ c (conj Hc eq_refl)))) I E J).
Qed.
(** What is read again *)
Lemma defaults_id x : In x (me_tris mesh) -> with_defaults o x = x.
Proof using tris. intros I. destruct (tris x I) as [_ ->]. reflexivity. Qed.
Lemma read_mesh p m'' : SameRes p (mo_res m') (mo_res m'') ->
  exists before o' mesh', rs_objects (mo_res m'') = before ++ [o'] /\ List.length before = List.length (rs_objects (mo_res m)) /\ ob_id o' = id /\
    ob_mesh o' = Some mesh' /\ me_tris mesh' = me_tris mesh /\ Forall2 (SamePoint p) (me_verts mesh) (me_verts mesh').
Proof using im tris.
  intros (_ & F & _). rewrite (im_res _ _ _ _ im) in F. cbn [rs_objects] in F. apply Forall2_app_inv_l in F as (l1 & l2 & F1 & F2 & E).
  inversion F2 as [|x o' y l S F3]; subst. inversion F3; subst. destruct S as (S1 & _ & _ & _ & _ & _ & _ & _ & _ & SM & _). cbn [ob_mesh] in SM.
  destruct (ob_mesh o') as [mesh'|] eqn:EM; [|destruct SM]. destruct SM as (V & _ & T & _).
  exists l1, o', mesh'. split; [exact E|]. split; [symmetry; exact (Forall2_length _ _ _ F1)|]. split; [exact S1|]. split; [exact EM|]. split; [|exact V].
  rewrite T. rewrite <- (map_id (me_tris mesh)) at 2. apply map_ext_in. exact defaults_id.
Qed.
Lemma saved_triangles oor p ts mesh' : Forall2 (TriangleOf oor mesh) (me_tris mesh) ts -> me_tris mesh' = me_tris mesh ->
  Forall2 (SamePoint p) (me_verts mesh) (me_verts mesh') -> Forall2 (SavedTriangle oor p mesh') (me_tris mesh') ts.
Proof using.
  clear. intros F -> V. induction F as [|x [[a b] c] l l' (H1 & H2 & H3 & _) F IH]; [constructor|]. constructor; [|exact IH].
  assert (K : forall i q, Corner oor mesh i q -> SavedCorner oor p mesh' i q).
  { intros i q (v & Hv & S). destruct (forall2_nth1 _ _ _ V _ _ Hv) as (w & Hw & R). exists v, w. auto. }
  split; [exact (K _ _ H1)|]. split; [exact (K _ _ H2)|exact (K _ _ H3)].
Qed.
Lemma coherent_same mesh' : me_tris mesh' = me_tris mesh -> List.length (me_verts mesh') = List.length (me_verts mesh) -> (Coherent mesh' <-> Coherent mesh).
Proof using. clear. intros T V. unfold Coherent, Oriented, occurrences, edges_of. rewrite T, V. reflexivity. Qed.
End Saved.
