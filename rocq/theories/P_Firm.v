(** * The rules that compare numbers, where these are clear *)
From Coq Require Import ZArith Reals Lra Permutation.
From Verif Require Import GoBase GoNum GoFloat GoStrconv Types XmlTypes M_Core M_Errors M_Geom M_Text M_Validate M_ExtValidate M_Decode S_Geom S_Strconv S_Text S_RoundTrip S_Revalid S_Report
  P_Core P_Strconv P_RTText P_RTExt P_RTCore P_Stable P_Revalid P_Revalid2.
From Verif Require Import Types.

Lemma bool_iff (a b : bool) : (a = true <-> b = true) -> a = b.
Proof. destruct a, b; intuition. Qed.
Lemma clear_lt p x y : Clear p x y -> ((value (rf p x) < value (rf p y))%R <-> (value x < value y)%R).
Proof.
  intros (Fx & Fy & D). split; intros L.
  - destruct (Rle_or_lt (value y) (value x)) as [C|C]; [|exact C]. pose proof (rf_le p y x Fy Fx C). lra.
  - destruct D as [D|D]; [lra|]. apply rf_lt; [assumption|assumption|]. rewrite Rabs_left in D; lra.
Qed.
Lemma clear_sym p x y : Clear p x y -> Clear p y x.
Proof. intros (Fx & Fy & D). split; [exact Fy|]. split; [exact Fx|]. destruct D as [D|D]; [auto|]. right. rewrite Rabs_minus_sym. exact D. Qed.
Lemma clear_fltb p x y : Clear p x y -> fltb (rf p x) (rf p y) = fltb x y.
Proof.
  intros C. pose proof C as (Fx & Fy & _). destruct (rf_finite p x Fx) as (Gx & _). destruct (rf_finite p y Fy) as (Gy & _).
  apply bool_iff. rewrite !fltb_value by assumption. apply clear_lt, C.
Qed.
Lemma clear_fleb p x y : Clear p x y -> fleb (rf p x) (rf p y) = fleb x y.
Proof.
  intros C. pose proof C as (Fx & Fy & _). destruct (rf_finite p x Fx) as (Gx & _). destruct (rf_finite p y Fy) as (Gy & _).
  apply bool_iff. rewrite !fleb_value by assumption. pose proof (clear_lt p y x (clear_sym _ _ _ C)) as L. split; intros K; apply Rnot_lt_le; intros N; apply L in N; lra.
Qed.
Lemma clear_feqb p x y : Clear p x y -> feqb (rf p x) (rf p y) = feqb x y.
Proof.
  intros C. pose proof C as (Fx & Fy & _). destruct (rf_finite p x Fx) as (Gx & _). destruct (rf_finite p y Fy) as (Gy & _).
  apply bool_iff. rewrite !feqb_value by assumption. pose proof (clear_lt p y x (clear_sym _ _ _ C)) as L1. pose proof (clear_lt p x y C) as L2.
  split; intros K.
  - destruct (Rtotal_order (value x) (value y)) as [T|[T|T]]; [apply L2 in T; lra|exact T|apply L1 in T; lra].
  - destruct (Rtotal_order (value (rf p x)) (value (rf p y))) as [T|[T|T]]; [apply L2 in T; lra|exact T|apply L1 in T; lra].
Qed.
Lemma rf_fzero p : feqb (rf p f_zero) f_zero = true.
Proof. apply zero_stays. reflexivity. Qed.
(** A number compared with one that rounding keeps *)
Lemma feqb_right x y z : Finite x -> Finite y -> Finite z -> feqb y z = true -> feqb x y = feqb x z.
Proof. intros Fx Fy Fz E. apply feqb_value in E; [|assumption|assumption]. apply bool_iff. rewrite !feqb_value by assumption. rewrite E. reflexivity. Qed.
Lemma fltb_right x y z : Finite x -> Finite y -> Finite z -> feqb y z = true -> fltb x y = fltb x z.
Proof. intros Fx Fy Fz E. apply feqb_value in E; [|assumption|assumption]. apply bool_iff. rewrite !fltb_value by assumption. rewrite E. reflexivity. Qed.
Lemma clear_zero p x : Clear p x f_zero -> feqb (rf p x) f_zero = feqb x f_zero.
Proof.
  intros C. rewrite <- (clear_feqb p x f_zero C). destruct C as (Fx & Fy & _). destruct (rf_finite p x Fx) as (Gx & _). destruct (rf_finite p f_zero Fy) as (Gy & _).
  symmetry. apply feqb_right; try assumption. apply rf_fzero.
Qed.
Lemma clear_one x : Clear 3 x f_one -> feqb (rf 3 x) f_one = feqb x f_one.
Proof.
  intros C. rewrite <- (clear_feqb 3 x f_one C). destruct C as (Fx & Fy & _). destruct (rf_finite 3 x Fx) as (Gx & _). destruct (rf_finite 3 f_one Fy) as (Gy & _).
  symmetry. apply feqb_right; (assumption || (apply one_stays; reflexivity)).
Qed.

Section Firm.
Context (p : nat) (m m' : Model) (fuel : nat).
Hypothesis X : mo_exts m' = mo_exts m.
Hypothesis RS : forall path, find_resources m' path = option_map (rt_res p) (find_resources m path).
Hypothesis B : mo_build m' = rt_build (mo_build m).

(** ** Beam lattices *)
Lemma radius_clear g b : RadiiFit p g b -> Clear p (bl_radius g) f_zero -> Clear p (bm_r1 b) (bm_r2 b) -> Clear p (bm_r1 b) (bl_radius g) ->
  let b' := rt_beam p g b in
  negb (feqb (bm_r1 b') f_zero) && negb (feqb (bm_r1 b') (rf p (bl_radius g))) && negb (feqb (bm_r1 b') (bm_r2 b')) =
  negb (feqb (bm_r1 b) f_zero) && negb (feqb (bm_r1 b) (bl_radius g)) && negb (feqb (bm_r1 b) (bm_r2 b)).
Proof.
  intros [H1 H2] CR C2 C1. cbv zeta. unfold rt_beam, beam_of, beam_read. cbn [bm_r1 bm_r2 rt_head bl_radius].
  assert (POS : forall x, OwnRadius p x -> fltb f_zero x = true /\ feqb (rf p x) f_zero = false /\ feqb x f_zero = false).
  { intros x (F & _ & O). pose proof (pow10_pos p). assert (0 < / 10 ^ p)%R by (apply Rinv_0_lt_compat; lra). split; [|split].
    - apply fltb_value; [exact I|exact F|]. cbn [value f_zero]. lra.
    - destruct (feqb (rf p x) f_zero) eqn:E; [|reflexivity]. exfalso. apply feqb_value in E; [|apply rf_finite, F|exact I]. revert E. apply rf_nonzero; [exact F|]. rewrite Rabs_pos_eq; lra.
    - destruct (feqb x f_zero) eqn:E; [|reflexivity]. exfalso. apply feqb_value in E; [|exact F|exact I]. cbn [value f_zero] in E. lra. }
  assert (RR : feqb (rf p (bl_radius g)) (rf p (bl_radius g)) = true) by (destruct CR as (F & _); apply feqb_value; try (apply rf_finite, F); reflexivity).
  destruct H1 as [E1|[O1 N1]].
  - assert (R : feqb (bl_radius g) (bl_radius g) = true) by (destruct CR as (F & _); apply feqb_value; try exact F; reflexivity).
    rewrite E1, R, !andb_false_r. change (feqb f_zero f_zero) with true. cbv iota. rewrite RR, !andb_false_r. reflexivity.
  - destruct (POS _ O1) as (P1 & Z1 & Y1). rewrite P1, N1, Y1. cbn [andb negb]. rewrite Z1, (clear_feqb _ _ _ C1), N1. cbn [andb negb].
    destruct H2 as [[E1 _]|[O2 N2]].
    { exfalso. rewrite <- E1 in N1. destruct O1 as (F & _). assert (feqb (bm_r1 b) (bm_r1 b) = true) as Q by (apply feqb_value; auto). congruence. }
    destruct (POS _ O2) as (P2 & Z2 & _). rewrite P2, N2. cbn [andb negb]. rewrite Z2, (clear_feqb _ _ _ C2), ?Z1. reflexivity.
Qed.
Lemma loop_in {A} (f g : nat -> A -> error -> error) l : (forall i x e, In x l -> f i x e = g i x e) -> forall i e, loop f i l e = loop g i l e.
Proof. induction l as [|x l IH]; intros H i e; [reflexivity|]. cbn [loop]. rewrite H by (left; reflexivity). apply IH. intros; apply H; right; assumption. Qed.
Lemma lattice_clear e known path o : (exists prefixes, ObjFits e known p prefixes o) ->
  (forall me g, ob_mesh o = Some me -> In (AnyExt (XBeamLattice g)) (me_ext me) -> Clear p (bl_minlen g) f_zero /\ Clear p (bl_radius g) f_zero /\
     forall b, In b (bl_beams g) -> Clear p (bm_r1 b) (bm_r2 b) /\ Clear p (bm_r1 b) (bl_radius g)) ->
  lattice_validate m' path (rt_obj p o) = lattice_validate m path o.
Proof.
  intros [pre OF] VI.
  unfold lattice_validate. cbn [rt_obj ob_mesh ob_type ob_id]. destruct (ob_mesh o) as [me|] eqn:EM; [|reflexivity]. cbn [option_map rt_mesh me_ext me_verts]. rewrite get_lattice_rt, map_length.
  destruct (get_lattice (me_ext me)) as [g|] eqn:EG; [|reflexivity]. cbn [option_map].
  assert (IN : In (AnyExt (XBeamLattice g)) (me_ext me)).
  { clear - EG. revert EG. induction (me_ext me) as [|[ts|[]] l IH]; cbn [get_lattice]; try discriminate; try (intros K; right; apply IH, K). intros K. injection K as ->. left. reflexivity. }
  destruct (VI me g eq_refl IN) as (VM & VR & VB).
  assert (FB : Forall (fun b => RadiiFit p g b) (bl_beams g)).
  { destruct OF as (_ & _ & _ & _ & _ & _ & _ & _ & _ & OF). rewrite EM in OF. destruct (ob_comps o); [destruct OF|]. destruct OF as (_ & _ & _ & _ & _ & EF).
    unfold ElemsFit in EF. destruct (me_ext me) as [|x [|y l]]; [destruct IN| |destruct x; destruct EF]. destruct IN as [->|[]]. destruct EF as (_ & _ & _ & _ & _ & N1 & N2 & _ & FB & _).
    revert FB. apply Forall_impl. intros b (_ & _ & R & _). exact R. }
  cbv zeta. cbn [rt_lattice rt_head bl_minlen bl_radius bl_clip bl_clipmesh bl_repmesh bl_beams bl_sets].
  rewrite !(clear_zero p) by assumption. rewrite !(ref_mesh_rt p m m' RS), loop_map.
  rewrite (loop_in (fun i x => beam_validate (List.length (me_verts me)) (rf p (bl_radius g)) i (rt_beam p g x)) (beam_validate (List.length (me_verts me)) (bl_radius g))); [reflexivity|].
  intros i b er Ib. destruct (VB b Ib) as [C2 C1]. unfold beam_validate. rewrite Forall_forall in FB. pose proof (radius_clear g b (FB b Ib) VR C2 C1) as Q. cbv zeta in Q. rewrite Q. reflexivity.
Qed.

(** ** Slices *)
Lemma transform_clear t : TransformFits t -> Clear 3 (m2 t) f_zero /\ Clear 3 (m6 t) f_zero /\ Clear 3 (m8 t) f_zero /\ Clear 3 (m9 t) f_zero /\ Clear 3 (m10 t) f_one ->
  has_transform (rt_tr t) && negb (valid_transform (rt_tr t)) = has_transform t && negb (valid_transform t).
Proof.
  intros F (C2 & C6 & C8 & C9 & C10). destruct (has_transform t) eqn:E.
  - assert (V : ValidMatrix t) by (destruct F as [F|F]; [exfalso; apply has_transform_spec in F; rewrite F in E; discriminate|exact F]).
    destruct (rt_tr_entries t V E) as (t' & -> & _ & _ & E2 & _ & _ & E6 & E8 & E9 & E10 & _ & _ & _ & E15).
    assert (VV : valid_transform t' = valid_transform t).
    { unfold valid_transform. rewrite E2, E6, E8, E9, E10, !clear_zero, clear_one by assumption. reflexivity. }
    rewrite VV. destruct (valid_transform t) eqn:VT; [rewrite andb_false_r; reflexivity|]. rewrite andb_true_r. cbn [negb andb].
    destruct (has_transform t') eqn:H; [reflexivity|exfalso]. apply andb_false_iff in H as [H|H]; apply negb_false_iff in H.
    + unfold matrix_eqb in H. rewrite E15 in H. rewrite !andb_true_iff in H. cbn in H. decompose [and] H. discriminate.
    + revert VV. unfold valid_transform. unfold matrix_eqb in H. rewrite !andb_true_iff in H. cbn in H. decompose [and] H. intros VV.
      repeat match goal with K : feqb _ _ = true |- _ => rewrite K in VV end. discriminate.
  - unfold rt_tr. rewrite E. reflexivity.
Qed.
Hypothesis ITF : forall i, In i (bu_items (mo_build m)) -> TransformFits (it_tr i).
Hypothesis COF : forall path id o cs c, find_object m path id = Some o -> ob_comps o = Some cs -> In c (cs_list cs) -> TransformFits (co_tr c).
Hypothesis ITC : forall t, (exists i, In i (bu_items (mo_build m)) /\ t = it_tr i) \/ (exists path id o cs c, find_object m path id = Some o /\ ob_comps o = Some cs /\ In c (cs_list cs) /\ t = co_tr c) ->
  Clear 3 (m2 t) f_zero /\ Clear 3 (m6 t) f_zero /\ Clear 3 (m8 t) f_zero /\ Clear 3 (m9 t) f_zero /\ Clear 3 (m10 t) f_one.
Lemma andb4 a b c d : a && b && c && d = a && b && (c && d). Proof. destruct a, b, c, d; reflexivity. Qed.
Lemma comps_clear path id rec rec' oid cs :
  (forall c, In c cs -> has_transform (rt_tr (co_tr c)) && negb (valid_transform (rt_tr (co_tr c))) = has_transform (co_tr c) && negb (valid_transform (co_tr c))) ->
  (forall c o, In c cs -> find_object m (comp_path c path) (co_oid c) = Some o -> rec' (rt_obj p o) = rec o) ->
  comps_transforms m' path id rec' oid (map rt_comp1 cs) = comps_transforms m path id rec oid cs.
Proof.
  induction cs as [|c cs IH]; intros F R; [reflexivity|]. specialize (IH (fun c' I => F c' (or_intror I)) (fun c' o I => R c' o (or_intror I))).
  cbn [map comps_transforms rt_comp1 co_oid co_tr]. change (comp_path (rt_comp1 c) path) with (comp_path c path). rewrite !andb4, (F c (or_introl eq_refl)), (find_object_rt p m m' RS).
  destruct (_ && _ && (_ && _)); [reflexivity|]. destruct (_ && _); [reflexivity|]. destruct (find_object m (comp_path c path) (co_oid c)) as [o|] eqn:EO; [|exact IH]. cbn [option_map].
  rewrite (R c o (or_introl eq_refl) EO), IH. reflexivity.
Qed.
Lemma obj_clear path id f : forall o, (exists q i, find_object m q i = Some o) -> obj_transforms f m' path id (rt_obj p o) = obj_transforms f m path id o.
Proof.
  induction f as [|f IH]; intros o (q & i & E); [reflexivity|]. cbn [obj_transforms rt_obj ob_comps ob_id].
  destruct (ob_comps o) as [cs|] eqn:EC; [|reflexivity]. cbn [option_map rt_comps cs_list]. apply comps_clear.
  - intros c Ic. apply transform_clear; [eapply COF; eassumption|]. apply ITC. right. exists q, i, o, cs, c. auto.
  - intros c o' _ E'. apply IH. eauto.
Qed.
Lemma items_clear path id its : (forall i, In i its -> In i (bu_items (mo_build m))) ->
  items_transforms fuel m' path id (map rt_item its) = items_transforms fuel m path id its.
Proof.
  induction its as [|c its IH]; intros S; [reflexivity|]. specialize (IH (fun i I => S i (or_intror I))). cbn [map items_transforms rt_item it_oid it_tr].
  change (item_path (rt_item c)) with (item_path c). set (tp := if seq (item_path c) "" then path else item_path c). pose proof (S c (or_introl eq_refl)) as Ic.
  rewrite !andb4, transform_clear by (try apply ITF; try apply ITC; try left; eauto). rewrite (find_object_rt p m m' RS).
  destruct (_ && _ && (_ && _)); [reflexivity|]. destruct (find_object m tp (it_oid c)) as [o|] eqn:EO; [|exact IH]. cbn [option_map]. rewrite obj_clear by eauto. rewrite IH. reflexivity.
Qed.
Lemma slice_object_clear path o : slice_object_validate fuel m' path (rt_obj p o) = slice_object_validate fuel m path o.
Proof.
  unfold slice_object_validate. cbn [rt_obj ob_any ob_id ob_type]. destruct (get_slice_attr (ob_any o)) as [[sid res]|]; [|reflexivity]. rewrite X.
  destruct (sid =? 0)%N; [reflexivity|]. rewrite (res_find_asset_rt p m m' RS). destruct (res_find_asset m path sid) as [[b|id ts|[]]|]; cbn [option_map rt_asset rt_ext]; try reflexivity.
  rewrite B. cbn [rt_build bu_items]. rewrite items_clear by auto. rewrite (all_closed_rt p m m' RS). reflexivity.
Qed.
Hypothesis TOPS : forall x, Height m x -> Clear p x f_zero /\ forall y, Height m y \/ Bottom m y -> Clear p x y.
Definition LastIs (a b : f32) : Prop := (a = f_lowest /\ b = f_lowest) \/ (Height m a /\ b = rf p a).
Lemma last_clear x a b : Height m x -> LastIs a b -> fleb (rf p x) b = fleb x a.
Proof.
  intros H [[-> ->]|[Ha ->]]; destruct (TOPS x H) as [(F & _) T]; [|apply clear_fleb, T; auto].
  destruct (fleb x f_lowest) eqn:E; [|apply lowest_stays; assumption].
  assert (FL : Finite f_lowest) by reflexivity. destruct (rf_finite p x F) as (G & _). apply fleb_value; [exact G|exact FL|]. apply fleb_value in E; [|exact F|exact FL].
  rewrite (rf_big p x F); [exact E|].
  assert (F24 : Finite f_24) by reflexivity. assert (V24 : (value f_24 = -16777216)%R) by (unfold value, f_24; rewrite powerRZ_1; lra).
  assert (fltb f_lowest f_24 = true) as LL by (vm_compute; reflexivity). apply fltb_value in LL; [|exact FL|exact F24]. rewrite Rabs_left1; lra.
Qed.
Lemma bottom_clear x b : Clear p x b -> fltb (rf p x) (bottom_rt p b) = fltb x b.
Proof.
  intros C. pose proof C as (F & Fb & _). unfold bottom_rt. destruct (feqb b f_zero) eqn:Z; [|apply clear_fltb, C].
  rewrite <- (clear_fltb p x b C). destruct (rf_finite p x F) as (G & _). destruct (rf_finite p b Fb) as (Gb & _). symmetry. apply fltb_right; try assumption; [exact I|]. apply zero_stays, Z.
Qed.
Lemma slices_clear bottom : Bottom m bottom -> forall l j a b errs, (forall s, In s l -> Height m (sl_top s)) -> LastIs a b ->
  slices_loop (bottom_rt p bottom) j (map (rt_slice p) l) b errs = slices_loop bottom j l a errs.
Proof.
  intros HB. induction l as [|s l IH]; intros j a b errs HT LO; [reflexivity|]. cbn [map slices_loop rt_slice sl_top sl_verts sl_polys].
  pose proof (HT s (or_introl eq_refl)) as Hs. destruct (TOPS _ Hs) as [C0 CY].
  rewrite (clear_zero p _ C0), (bottom_clear _ _ (CY _ (or_intror HB))), (last_clear _ _ _ Hs LO), is_nil_map, map_length. apply IH; [intros; apply HT; right; assumption|]. right. auto.
Qed.
Lemma refs_clear path : forall l i a b errs,
  (forall r st, In r l -> find_asset m (sr_path r) (sr_id r) = Some (AExt (XSliceStack st)) -> forall s, In s (ss_slices st) -> Height m (sl_top s)) -> LastIs a b ->
  refs_loop m' path i l b errs = refs_loop m path i l a errs.
Proof.
  induction l as [|r l IH]; intros i a b errs HT LO; [reflexivity|]. cbn [refs_loop]. pose proof (fun r' st I => HT r' st (or_intror I)) as HT'.
  destruct (seq (sr_path r) ""); [destruct (sr_id r =? 0)%N; apply IH; assumption|]. destruct (seq (sr_path r) path); [destruct (sr_id r =? 0)%N; apply IH; assumption|].
  destruct (sr_id r =? 0)%N; cbn [negb]; [apply IH; assumption|]. rewrite (find_asset_rt p m m' RS).
  destruct (find_asset m (sr_path r) (sr_id r)) as [[bb|id ts|[]]|] eqn:EF; cbn [option_map rt_asset rt_ext]; try (apply IH; assumption).
  rename s into st. cbn [rt_stack ss_refs ss_slices]. pose proof (HT r st (or_introl eq_refl) EF) as HS.
  assert (LO' : LastIs (match rev (ss_slices st) with s1 :: _ => sl_top s1 | [] => a end) (match rev (map (rt_slice p) (ss_slices st)) with s1 :: _ => sl_top s1 | [] => b end)).
  { rewrite <- map_rev. destruct (rev (ss_slices st)) as [|s1 sl] eqn:ER; [exact LO|]. right. split; [|reflexivity]. apply HS, in_rev. rewrite ER. left. reflexivity. }
  rewrite (IH _ _ _ _ HT' LO'). f_equal. destruct (ss_slices st) as [|s0 sl]; [reflexivity|]. cbn [map rt_slice sl_top]. rewrite (last_clear _ _ _ (HS s0 (or_introl eq_refl)) LO). reflexivity.
Qed.
Lemma slice_stack_clear path st : Bottom m (ss_bottom st) -> (forall s, In s (ss_slices st) -> Height m (sl_top s)) ->
  (forall r st', In r (ss_refs st) -> find_asset m (sr_path r) (sr_id r) = Some (AExt (XSliceStack st')) -> forall s, In s (ss_slices st') -> Height m (sl_top s)) ->
  slice_stack_validate m' path (rt_stack p st) = slice_stack_validate m path st.
Proof.
  intros NB H1 H2. unfold slice_stack_validate. cbn [rt_stack ss_slices ss_refs ss_bottom]. rewrite !is_nil_map.
  rewrite (refs_clear path (ss_refs st) 0 f_lowest f_lowest None H2) by (left; auto). change (if feqb (ss_bottom st) f_zero then f_zero else rf p (ss_bottom st)) with (bottom_rt p (ss_bottom st)).
  rewrite (slices_clear _ NB _ 0 f_lowest f_lowest None H1) by (left; auto). reflexivity.
Qed.
End Firm.
From Flocq Require Import Core.Core IEEE754.BinarySingleNaN.
From Verif Require Import P_Float.
Lemma value_three : (value (S754_finite false 12582912 (-22)) = 3)%R.
Proof. rewrite value_fR. unfold fR, SF2R, F2R. cbn [Fnum Fexp cond_Zopp]. change (bpow radix2 (-22)) with (/ IZR 4194304)%R. lra. Qed.
