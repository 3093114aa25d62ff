(** * Proofs: writing what was read from a text gives that text *)
From Coq Require Import ZArith Reals Lra.
From Verif Require Import GoBase GoNum GoUtf8 GoFloat Types XmlTypes M_Core M_Errors M_Text M_Xml M_Decode M_Printer M_Encode
  S_Xml S_Printer S_Text S_Core S_Geom S_Strconv S_RoundTrip S_Stable P_Core P_Strconv P_RTText P_RTExt P_RTCore P_RTModel GoStrconv.
Local Open Scope R_scope.

(** ** Numbers *)
Lemma num_finite x : Finite x -> Num x.
Proof. destruct x; cbn; intros F; try reflexivity; try contradiction. exact F. Qed.
Lemma finite_dec x : Finite x \/ ~ Finite x.
Proof. destruct x as [s|s| |s m e]; cbn [Finite]; auto. destruct (f_valid (S754_finite s m e)); [left; reflexivity|right; discriminate]. Qed.
Lemma rf_finite p x : Finite x -> Finite (rf p x) /\ negative (rf p x) = negative x /\ scaled_of (rf p x) p = scaled_of x p.
Proof.
  intros F. pose proof (read_back x p F) as R. cbv zeta in R. unfold rf. rewrite (format_finite p x F), parse_text. cbn [fst]. tauto.
Qed.
Lemma rf_other p x : Num x -> ~ Finite x -> rf p x = x.
Proof. intros N F. unfold rf. rewrite parse_other by assumption. reflexivity. Qed.
Lemma rf_text p x : Num x -> format_f p (rf p x) = format_f p x.
Proof.
  intros N. destruct (finite_dec x) as [F|F].
  - destruct (rf_finite p x F) as (F' & S & E). rewrite !format_finite, S, E by assumption. reflexivity.
  - rewrite rf_other by assumption. reflexivity.
Qed.
Lemma rf_near p x y : Finite x -> rf p x = y -> Rabs (value x - decimal_value p (negative y) (scaled_of y p)) <= / 2 / 10 ^ p.
Proof.
  intros F <-. destruct (rf_finite p x F) as (_ & -> & ->). apply half_unit, F.
Qed.
Lemma far_zero p x : Num x -> Far p x 0 -> ~ is_zero (rf p x).
Proof.
  intros N [F|F] [s E].
  - rewrite rf_other in E by assumption. subst x. apply F. exact I.
  - destruct (finite_dec x) as [FX|FX]; [|rewrite rf_other in E by assumption; subst x; apply FX; exact I].
    pose proof (rf_near p x _ FX E) as H. cbn [negative scaled_of] in H. unfold decimal_value in H. cbn in H.
    replace ((if s then -1 else 1) * (0 / 10 ^ p)) with 0 in H by (unfold Rdiv; rewrite Rmult_0_l, Rmult_0_r; reflexivity). lra.
Qed.
Lemma far_one x : Num x -> rf 3 x = one32 -> ~ Far 3 x 1.
Proof.
  intros N E [F|F].
  - rewrite rf_other in E by assumption. subst x. apply F. reflexivity.
  - destruct (finite_dec x) as [FX|FX]; [|rewrite rf_other in E by assumption; subst x; apply FX; reflexivity].
    pose proof (rf_near 3 x _ FX E) as H. assert (D : decimal_value 3 (negative one32) (scaled_of one32 3) = 1).
    { change (scaled_of one32 3) with 1000%N. unfold decimal_value. cbn. field. }
    rewrite D in H. lra.
Qed.
Lemma feqb_same x y : feqb x y = true -> ~ is_zero x -> x = y.
Proof.
  unfold feqb, SFeqb, SFcompare. destruct x as [s|s| |s m e], y as [s'|s'| |s' m' e']; try discriminate.
  all: try (intros _ H; exfalso; apply H; exists s; reflexivity).
  all: try (destruct s; try destruct s'; discriminate || reflexivity).
  intros H _. assert (X : e = e' /\ m = m' /\ s = s').
  { destruct s, s'; try discriminate; destruct (Z.compare_spec e e') as [->|L|L]; try discriminate.
    - destruct (Pos.compare_cont Eq m m') eqn:E; try discriminate. apply Pos.compare_eq in E. auto.
    - destruct (Pos.compare_cont Eq m m') eqn:E; try discriminate. apply Pos.compare_eq in E. auto. }
  destruct X as (-> & -> & ->). reflexivity.
Qed.

(** ** Transforms *)
Lemma rt_tr_entries t : ValidMatrix t -> has_transform t = true -> exists t', rt_tr t = t' /\
  m0 t' = rf 3 (m0 t) /\ m1 t' = rf 3 (m1 t) /\ m2 t' = rf 3 (m2 t) /\ m4 t' = rf 3 (m4 t) /\ m5 t' = rf 3 (m5 t) /\ m6 t' = rf 3 (m6 t) /\
  m8 t' = rf 3 (m8 t) /\ m9 t' = rf 3 (m9 t) /\ m10 t' = rf 3 (m10 t) /\ m12 t' = rf 3 (m12 t) /\ m13 t' = rf 3 (m13 t) /\ m14 t' = rf 3 (m14 t) /\ m15 t' = f_one.
Proof.
  intros H HT. unfold rt_tr. rewrite HT. unfold ValidMatrix in H. unfold parse_matrix, matrix_string.
  rewrite fields_join by (apply Forall_map, Forall_forall; intros x _; apply format_word).
  cbn [map List.length Nat.eqb negb]. rewrite !Forall_cons_iff in H. destruct H as (H0 & H1 & H2 & H4 & H5 & H6 & H8 & H9 & H10 & H12 & H13 & H14 & _).
  cbn [parse_floats].
  rewrite (proj1 (rf_ok 3 _ H0)), (proj1 (rf_ok 3 _ H1)), (proj1 (rf_ok 3 _ H2)), (proj1 (rf_ok 3 _ H4)), (proj1 (rf_ok 3 _ H5)), (proj1 (rf_ok 3 _ H6)),
    (proj1 (rf_ok 3 _ H8)), (proj1 (rf_ok 3 _ H9)), (proj1 (rf_ok 3 _ H10)), (proj1 (rf_ok 3 _ H12)), (proj1 (rf_ok 3 _ H13)), (proj1 (rf_ok 3 _ H14)).
  eexists. split; [reflexivity|]. cbn [fst m0 m1 m2 m3 m4 m5 m6 m7 m8 m9 m10 m11 m12 m13 m14 m15]. repeat split.
Qed.
Lemma transform_stable t : TransformFits t -> TransformSettled t ->
  has_transform (rt_tr t) = has_transform t /\ (has_transform t = true -> matrix_string (rt_tr t) = matrix_string t).
Proof.
  intros F S. destruct (has_transform t) eqn:HT.
  - assert (V : ValidMatrix t). { destruct F as [F|F]; [|exact F]. apply has_transform_spec in F. congruence. }
    assert (S' : ~ NoTransform t) by (intros X; apply has_transform_spec in X; congruence).
    destruct (rt_tr_entries t V HT) as (t' & -> & E0 & E1 & E2 & E4 & E5 & E6 & E8 & E9 & E10 & E12 & E13 & E14 & E15).
    unfold ValidMatrix in V. rewrite !Forall_cons_iff in V. destruct V as (H0 & H1 & H2 & H4 & H5 & H6 & H8 & H9 & H10 & H12 & H13 & H14 & _).
    split.
    + apply not_false_iff_true. intros X. apply has_transform_spec in X as [X|X].
      * unfold ZeroMatrix in X. rewrite E15 in X. destruct X as (_ & _ & _ & _ & _ & _ & _ & _ & _ & _ & _ & _ & _ & _ & _ & (s & X)). discriminate X.
      * unfold IdentityMatrix in X. rewrite E0, E1, E2, E4, E5, E6, E8, E9, E10, E12, E13, E14 in X.
        destruct X as (X0 & X1 & X2 & _ & X4 & X5 & X6 & _ & X8 & X9 & X10 & _ & X12 & X13 & X14 & _).
        destruct S as [S|S]; [exact (S' S)|]. 
        destruct S as [S|[S|[S|[S|[S|[S|[S|[S|[S|[S|[S|S]]]]]]]]]]]; revert S; first [apply far_one; assumption|intros S; eapply far_zero; [|exact S|]; assumption].
    + intros _. unfold matrix_string. cbn [map]. rewrite E0, E1, E2, E4, E5, E6, E8, E9, E10, E12, E13, E14, !rf_text by assumption. reflexivity.
  - unfold rt_tr. rewrite HT. split; [reflexivity|discriminate].
Qed.

(** ** Elements of the extensions *)
Lemma map_stable {A B} (P : A -> Prop) (f : A -> A) (g : A -> B) l : Forall P l -> (forall x, P x -> g (f x) = g x) -> map g (map f l) = map g l.
Proof. intros F H. rewrite map_map. apply map_ext_Forall. eapply Forall_impl; [|exact F]. exact H. Qed.
Lemma flat_stable {A B} (P : A -> Prop) (f : A -> A) (g : A -> list B) l : Forall P l -> (forall x, P x -> g (f x) = g x) -> flat_map g (map f l) = flat_map g l.
Proof. intros F H. induction F as [|x l Hx F IH]; [reflexivity|]. cbn. rewrite IH, H by assumption. reflexivity. Qed.
Section Ext.
  Context (p : nat).
  Lemma radius_eq x y : OwnRadius p x -> Num y -> ~ Finite y \/ / 10 ^ p < Rabs (value x - value y) -> feqb (rf p x) (rf p y) = false.
  Proof.
    intros O N D. apply not_true_iff_false. intros E. pose proof (proj2 (own_written p x O)) as NZ. destruct O as (F & _).
    apply feqb_same in E; [|intros [s Z]; rewrite Z in NZ; destruct s; discriminate].
    destruct (rf_finite p x F) as (F1 & S1 & K1). destruct D as [D|D].
    - rewrite (rf_other p y N D) in E. rewrite E in F1. contradiction.
    - destruct (finite_dec y) as [FY|FY]; [|rewrite (rf_other p y N FY) in E; rewrite E in F1; contradiction].
      pose proof (half_unit x p F) as HX. pose proof (rf_near p y _ FY eq_refl) as HY. rewrite <- E, S1, K1 in HY.
      set (d := decimal_value p (negative x) (scaled_of x p)) in *.
      assert (T : Rabs (value x - value y) <= / 2 / 10 ^ p + / 2 / 10 ^ p).
      { replace (value x - value y) with ((value x - d) - (value y - d)) by ring. eapply Rle_trans; [apply Rabs_triang|]. rewrite Rabs_Ropp. lra. }
      assert (/ 2 / 10 ^ p + / 2 / 10 ^ p = / 10 ^ p) by (field; apply pow_nonzero; lra). lra.
  Qed.
  Lemma own_pos x : OwnRadius p x -> fltb f_zero (rf p x) = true.
  Proof.
    intros O. pose proof (proj2 (own_written p x O)) as NZ. destruct O as (F & S & _). destruct (rf_finite p x F) as (F1 & S1 & _). rewrite S in S1.
    destruct (rf p x) as [s|s| |s m e]; cbn in *; try contradiction; subst; [discriminate|reflexivity].
  Qed.
  Lemma beam_stable g b : Num (bl_radius g) -> RadiiFit p g b -> RadiusSettled p g (bm_r1 b) -> RadiusSettled p g (bm_r2 b) ->
    beam_attrs p (rt_lattice p g) (rt_beam p g b) = beam_attrs p g b.
  Proof.
    intros HR [H1 H2] S1 S2.
    assert (W : forall x, fltb f_zero x && negb (feqb x x) = false).
    { intros x. destruct (fltb f_zero x) eqn:E; [|reflexivity]. rewrite (nan_eq _ E). reflexivity. }
    assert (OW : forall r, OwnRadius p r -> feqb r (bl_radius g) = false -> RadiusSettled p g r -> feqb (rf p r) (rf p (bl_radius g)) = false).
    { intros r O E S. apply radius_eq; [exact O|exact HR|]. destruct S as [S|S]; [|exact S]. exfalso. rewrite <- S in E.
      destruct (own_written p r O) as [P _]. rewrite (nan_eq _ P) in E. discriminate. }
    assert (R1 : bm_r1 (rt_beam p g b) = rf p (bm_r1 b)).
    { unfold rt_beam, beam_read, beam_of, rt_head. cbn [bm_r1 bl_radius].
      destruct H1 as [->|[O N]]; [rewrite W; reflexivity|]. destruct (own_written _ _ O) as [-> E]. rewrite N. cbn [andb negb]. rewrite E. reflexivity. }
    assert (R2 : bm_r2 (rt_beam p g b) = rf p (bm_r2 b)).
    { change (bm_r2 (rt_beam p g b)) with (if feqb (bm_r2 (fst (beam_read p g b))) f_zero then bm_r1 (rt_beam p g b) else bm_r2 (fst (beam_read p g b))).
      rewrite R1. unfold beam_read. cbn [fst bm_r2]. destruct H2 as [[E1 E2]|[O N]].
      - rewrite E2, W, E1. reflexivity.
      - destruct (own_written _ _ O) as [-> E]. rewrite N. cbn [andb negb]. rewrite E. reflexivity. }
    assert (C1 : bm_c1 (rt_beam p g b) = bm_c1 b) by (unfold rt_beam, beam_read, beam_of, rt_head; cbn; destruct (N.eqb_spec (bm_c1 b) (bl_cap g)) as [->|]; reflexivity).
    assert (C2 : bm_c2 (rt_beam p g b) = bm_c2 b) by (unfold rt_beam, beam_read, beam_of, rt_head; cbn; destruct (N.eqb_spec (bm_c2 b) (bl_cap g)) as [->|]; reflexivity).
    unfold beam_attrs. rewrite R1, R2, C1, C2. change (bl_radius (rt_lattice p g)) with (rf p (bl_radius g)). change (bl_cap (rt_lattice p g)) with (bl_cap g).
    change (bm_i1 (rt_beam p g b)) with (bm_i1 b). change (bm_i2 (rt_beam p g b)) with (bm_i2 b).
    assert (A : forall l r, (r = bl_radius g \/ (OwnRadius p r /\ feqb r (bl_radius g) = false)) -> RadiusSettled p g r ->
      opt (fltb f_zero (rf p r) && negb (feqb (rf p r) (rf p (bl_radius g)))) (lattr l (ffmt p (rf p r))) =
      opt (fltb f_zero r && negb (feqb r (bl_radius g))) (lattr l (ffmt p r))).
    { intros l r [->|[O E]] S; [rewrite !W; reflexivity|]. rewrite (own_pos r O), (OW r O E S), E, (proj1 (own_written p r O)). unfold ffmt.
      rewrite rf_text by (apply num_finite, O). reflexivity. }
    rewrite (A "r1" _ H1 S1). rewrite (A "r2"); [reflexivity| |exact S2]. destruct H2 as [[_ ->]|H2]; [left; reflexivity|right; exact H2].
  Qed.
  Context (e : Env) (known : string -> Prop).
  Lemma ext_stable x : ExtFits e known p x -> ExtSettled p x -> write_ext p (rt_ext p x) = write_ext p x.
  Proof.
    destruct x as [t|g|g|g|g|g|g]; cbn [ExtFits rt_ext ExtSettled write_ext]; intros F S; try reflexivity.
    - destruct F as (_ & _ & _ & _ & F). unfold write_texgroup, rt_texg. cbn [tg_id tg_tex tg_coords]. do 2 f_equal.
      apply (map_stable _ _ _ _ F). intros c [H1 H2]. unfold ffmt. cbn. rewrite !rf_text by assumption. reflexivity.
    - destruct F as (_ & _ & _ & _ & _ & F). unfold write_composite, rt_comp. cbn [cm_id cm_mat cm_indices cm_comps]. do 2 f_equal.
      apply (map_stable _ _ _ _ F). intros c H. do 3 f_equal. f_equal. apply (map_stable _ _ _ _ H). intros y Hy. apply rf_text, Hy.
    - destruct F as (_ & _ & _ & FB & FS & _). unfold write_stack, rt_stack. cbn [ss_id ss_bottom ss_slices ss_refs].
      assert (B : opt (negb (feqb (if feqb (ss_bottom g) f_zero then f_zero else rf p (ss_bottom g)) f_zero))
                    (lattr "zbottom" (ffmt p (if feqb (ss_bottom g) f_zero then f_zero else rf p (ss_bottom g)))) =
                  opt (negb (feqb (ss_bottom g) f_zero)) (lattr "zbottom" (ffmt p (ss_bottom g)))).
      { destruct (feqb (ss_bottom g) f_zero) eqn:E; [reflexivity|]. destruct S as [[s S]|S]; [rewrite S in E; destruct s; discriminate|].
        assert (X : feqb (rf p (ss_bottom g)) f_zero = false).
        { apply not_true_iff_false. intros X. apply feqb_zero in X. exact (far_zero p _ FB S X). }
        rewrite X. unfold ffmt. rewrite rf_text by exact FB. reflexivity. }
      rewrite B. f_equal.
      + f_equal. apply (flat_stable _ _ _ _ FS). intros s (H1 & H2 & _). unfold write_slice, rt_slice. cbn [sl_top sl_verts sl_polys]. f_equal.
        * unfold ffmt. rewrite rf_text by exact H1. reflexivity.
        * f_equal. unfold write_slice_vertices. do 2 f_equal. apply (map_stable _ _ _ _ H2). intros v [V1 V2]. unfold ffmt. cbn. rewrite !rf_text by assumption. reflexivity.
    - destruct F as (_ & _ & _ & _ & _ & FM & FR & _ & FB & _). unfold write_lattice. change (bl_minlen (rt_lattice p g)) with (rf p (bl_minlen g)).
      change (bl_radius (rt_lattice p g)) with (rf p (bl_radius g)). unfold ffmt at 1 2. rewrite !rf_text by assumption.
      change (write_sets (rt_lattice p g)) with (write_sets g). f_equal. f_equal. unfold write_beams. change (bl_beams (rt_lattice p g)) with (map (rt_beam p g) (bl_beams g)). do 2 f_equal.
      assert (FF : Forall (fun b => RadiiFit p g b /\ RadiusSettled p g (bm_r1 b) /\ RadiusSettled p g (bm_r2 b)) (bl_beams g)).
      { rewrite Forall_forall in *. intros b I. destruct (FB b I) as (_ & _ & H & _). destruct (S b I). auto. }
      rewrite map_map. apply map_ext_Forall. eapply Forall_impl; [|exact FF]. intros b (H1 & H2 & H3). cbv beta.
      rewrite beam_stable by assumption. reflexivity.
  Qed.
  Lemma elems_stable l : ElemsFit e known p l -> Forall (ElemSettled p) l -> write_any p (map (rt_elem p) l) = write_any p l.
  Proof.
    destruct l as [|[ts|x] [|y l]]; cbn [ElemsFit]; intros F S; try reflexivity; try contradiction. cbn. inversion S as [|? ? S1 _]; subst. apply ext_stable; assumption.
  Qed.
  (** ** Core elements *)
  Lemma tri_stable o t : tri_values (ob_pid o) (ob_pindex o) (with_defaults o t) = tri_values (ob_pid o) (ob_pindex o) t.
  Proof.
    unfold with_defaults. destruct (t_pid t =? 0)%N eqn:E; [|reflexivity]. unfold tri_values. cbn [t_v1 t_v2 t_v3 t_pid t_p1 t_p2 t_p3]. rewrite E.
    destruct (ob_pid o =? 0)%N; [reflexivity|]. rewrite !N.eqb_refl. reflexivity.
  Qed.
  Lemma tris_stable o l : forall arr, write_tris (ob_pid o) (ob_pindex o) arr (map (with_defaults o) l) = write_tris (ob_pid o) (ob_pindex o) arr l.
  Proof.
    induction l as [|t l IH]; intros arr; [reflexivity|]. cbn [map write_tris]. unfold tri_step. rewrite tri_stable.
    assert (A : t_any (with_defaults o t) = t_any t) by (unfold with_defaults; destruct (_ =? _)%N; reflexivity). rewrite A.
    destruct (fold_left _ _ _) as [arr' s]. rewrite IH. reflexivity.
  Qed.
  Context (prefixes : list string).
  Lemma mesh_stable o m : MeshFits e known p m -> Forall (ElemSettled p) (me_ext m) -> write_mesh p (rt_obj p o) (rt_mesh p o m) = write_mesh p o m.
  Proof.
    intros (F1 & _ & _ & _ & _ & F2) S. unfold write_mesh, rt_mesh. cbn [me_any me_ext]. f_equal. f_equal; [|f_equal].
    - unfold write_vertices. cbn [me_vany me_verts]. do 2 f_equal. apply (map_stable _ _ _ _ F1). intros v (H1 & H2 & H3). unfold ffmt, rt_point. cbn [px py pz].
      rewrite !rf_text by assumption. reflexivity.
    - unfold write_triangles. cbn [me_tany me_tris rt_obj ob_pid ob_pindex]. rewrite tris_stable. reflexivity.
    - apply elems_stable; assumption.
  Qed.
  Lemma comps_stable c : Forall (CompFits e known) (cs_list c) -> Forall (fun c => TransformSettled (co_tr c)) (cs_list c) -> write_components (rt_comps c) = write_components c.
  Proof.
    intros F S. unfold write_components, rt_comps. cbn [cs_any cs_list]. do 2 f_equal.
    assert (FF : Forall (fun c => TransformFits (co_tr c) /\ TransformSettled (co_tr c)) (cs_list c)).
    { rewrite Forall_forall in *. intros x I. destruct (F x I) as (_ & H & _). auto. }
    apply (map_stable _ _ _ _ FF). intros x [H1 H2]. unfold rt_comp1. cbn [co_oid co_tr co_any]. destruct (transform_stable _ H1 H2) as [-> E].
    destruct (has_transform (co_tr x)); [rewrite E by reflexivity|]; reflexivity.
  Qed.
  Lemma object_stable o : ObjFits e known p prefixes o -> ObjSettled p o -> write_object p (rt_obj p o) = write_object p o.
  Proof.
    intros F [S1 S2]. unfold write_object. assert (A : object_attrs (rt_obj p o) = object_attrs o).
    { unfold object_attrs, rt_obj. cbn. destruct (ob_mesh o); reflexivity. }
    rewrite A. cbn [ob_thumb rt_obj ob_md]. do 3 f_equal. destruct F as (_ & _ & _ & _ & _ & _ & _ & _ & _ & F).
    change (ob_mesh (rt_obj p o)) with (option_map (rt_mesh p o) (ob_mesh o)). change (ob_comps (rt_obj p o)) with (option_map rt_comps (ob_comps o)).
    destruct (ob_mesh o) as [m|]; [destruct (ob_comps o); [contradiction|]|destruct (ob_comps o) as [c|]; [|reflexivity]]; cbn [option_map].
    - apply mesh_stable; [exact F|]. apply S1. reflexivity.
    - destruct F as (_ & _ & F & _). apply comps_stable; [exact F|]. apply S2. reflexivity.
  Qed.
  Lemma item_stable i : ItemFits e known prefixes i -> TransformSettled (it_tr i) -> write_item (rt_item i) = write_item i.
  Proof.
    intros (_ & F & _) S. unfold write_item. assert (A : item_attrs (rt_item i) = item_attrs i).
    { unfold item_attrs, rt_item. cbn [it_oid it_tr it_part it_any]. destruct (transform_stable _ F S) as [-> E].
      destruct (has_transform (it_tr i)); [rewrite E by reflexivity|]; reflexivity. }
    rewrite A. reflexivity.
  Qed.
End Ext.
Lemma model_stable known p m M : ModelFits known p m -> Settled p m -> write_model p (rt_model p m M) = write_model p m.
Proof.
  intros (_ & _ & (FA & FO & _) & (FI & _) & FE) (SA & SO & SI & SE).
  assert (both : forall A (P Q : A -> Prop) l, Forall P l -> Forall Q l -> Forall (fun x => P x /\ Q x) l).
  { intros A P Q l H1 H2. rewrite Forall_forall in *. auto. }
  unfold write_model. f_equal. change (mo_md (rt_model p m M)) with (mo_md m). f_equal. f_equal; [|f_equal].
  - unfold write_resources. cbn [rt_model mo_res rt_res rs_assets rs_objects rs_any]. f_equal. f_equal.
    + apply (flat_stable _ _ _ _ (both _ _ _ _ FA SA)). intros a [H1 H2]. destruct a as [b|id ts|x]; cbn in *; try reflexivity. destruct H1 as [H1 _]. eapply ext_stable; eassumption.
    + apply (flat_stable _ _ _ _ (both _ _ _ _ FO SO)). intros o [H1 H2]. eapply object_stable; eassumption.
  - unfold write_build. cbn [rt_model mo_build rt_build bu_items bu_any]. do 2 f_equal. apply (flat_stable _ _ _ _ (both _ _ _ _ FI SI)). intros i [H1 H2]. eapply item_stable; eassumption.
  - cbn [rt_model mo_any]. eapply elems_stable; eassumption.
Qed.
