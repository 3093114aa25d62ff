(** * Theorems about saving, reading and saving again *)
From Coq Require Import ZArith Reals Lra.
From Verif Require Import GoBase GoNum GoUtf8 GoFloat Types XmlTypes M_Core M_Errors M_Text M_Xml M_Decode M_Printer M_Encode M_Validate
  S_Xml S_Printer S_Text S_Core S_Geom S_Strconv S_RoundTrip S_Stable P_Printer P_Strconv P_Text P_RTBase P_RTText P_RTAttr P_RTExt P_RTCore P_RTModel P_Stable
  T_Printer T_RoundTrip GoStrconv.

(** [t'] is what is in the file after it held [t] and was read and saved [n] times. *)
Inductive Resaved (reg : Reg) : nat -> string -> string -> Prop :=
| Resaved_0 t : Resaved reg 0 t t
| Resaved_S k t m n d t' : unmarshal_model reg t model_zero = DRet m DNone n d -> Resaved reg k (marshal_model m) t' -> Resaved reg (S k) t t'.

(** ** C64: a file that is read and saved any number of times stays the same, byte for byte, and what is read
    from it stays the same *)
Theorem C64_fixed_partial reg m : ModelFits (knows reg) 4 m -> Settled 4 m ->
  exists m' n d, unmarshal_model reg (marshal_model m) model_zero = DRet m' DNone n d /\ SameModel 4 m m' /\
    marshal_model m' = marshal_model m /\ unmarshal_model reg (marshal_model m') model_zero = DRet m' DNone n d.
Proof.
  intros F S. destruct (root_run reg DefaultModelPath 4 m model_zero F) as (ts & s2 & D & E & R); try reflexivity.
  destruct (C35_print_scan _ _ _ D) as (evs & d & SC & T).
  destruct (file_run reg true DefaultModelPath 1000 (marshal_model m) model_zero evs d (top_mach s2) SC) as (n & X); [intros later; apply R, T|reflexivity|].
  assert (U : unmarshal_model reg (marshal_model m) model_zero = DRet (rt_model 4 m model_zero) DNone n d).
  { unfold unmarshal_model. rewrite X. cbn [top_mach m_st]. rewrite E. reflexivity. }
  assert (W : marshal_model (rt_model 4 m model_zero) = marshal_model m).
  { unfold marshal_model. rewrite (model_stable (knows reg)) by assumption. reflexivity. }
  exists (rt_model 4 m model_zero), n, d. split; [exact U|]. split; [apply (model_same (knows reg)), F|]. split; [exact W|]. rewrite W. exact U.
Qed.
Print Assumptions C64_fixed_partial.
Theorem C64_resaved_partial reg m : ModelFits (knows reg) 4 m -> Settled 4 m ->
  forall k, Resaved reg k (marshal_model m) (marshal_model m) /\ forall t, Resaved reg k (marshal_model m) t -> t = marshal_model m.
Proof.
  intros F S. destruct (C64_fixed_partial reg m F S) as (m' & n & d & U & _ & W & _). induction k as [|k [IH1 IH2]].
  - split; [constructor|]. intros t H. inversion H; reflexivity.
  - split; [econstructor; [exact U|rewrite W; exact IH1]|]. intros t H. inversion H as [|k' t0 m0 n0 d0 t' H1 H2]; subst.
    rewrite U in H1. injection H1 as <- <- <-. apply IH2. rewrite W in H2. exact H2.
Qed.
Print Assumptions C64_resaved_partial.
(** The same with any number of decimals and the header that [Encoder.Encode] writes, for one more save *)
Theorem C64_header_partial reg p m : ModelFits (knows reg) p m -> Settled p m ->
  exists m' n d, unmarshal_model reg (xml_header +++ print (write_model p m)) model_zero = DRet m' DNone n d /\
    print (write_model p m') = print (write_model p m).
Proof.
  intros F S. destruct (root_run reg DefaultModelPath p m model_zero F) as (ts & s2 & D & E & R); try reflexivity.
  destruct (C35_header _ _ _ D) as (evs & d & SC & T).
  destruct (file_run reg true DefaultModelPath 1000 _ model_zero evs d (top_mach s2) SC) as (n & X); [|reflexivity|].
  - intros later. destruct evs as [|ev evs]; [discriminate|]. cbn [map] in T. injection T as T1 T2. destruct ev as [x a|x|now r]; try discriminate. cbn [on_events on_event].
    exact (R later evs T2).
  - exists (rt_model p m model_zero), n, d. split; [unfold unmarshal_model; rewrite X; cbn [top_mach m_st]; rewrite E; reflexivity|].
    rewrite (model_stable (knows reg)) by assumption. reflexivity.
Qed.
Print Assumptions C64_header_partial.

(** ** Without [Settled] it is false *)
(** 1.00001, 0.00001 and -0.00001 *)
Definition f_near_one : f32 := S754_finite false 8388692 (-23).
Definition f_tiny (s : bool) : f32 := S754_finite s 10995116 (-40).
(** The second radius of a beam is written as the radius of the lattice, so it is not written when the file is saved
    again, and then it is the first radius that is read: nothing but saving changes a beam from a cone to a cylinder. *)
Definition near_lattice : BeamLattice := mkBL 0 0 0 [mkBeam 0 1 f_two f_near_one 0 0] [] f_one f_one 0.
Definition beams_of (m : Model) : list Beam :=
  flat_map (fun o => match ob_mesh o with Some me => flat_map (fun x => match x with AnyExt (XBeamLattice g) => bl_beams g | _ => [] end) (me_ext me) | None => [] end)
    (rs_objects (mo_res m)).
Definition near_model : Model := ext_model [] [lattice_obj [P3 f_zero f_zero f_zero; P3 f_one f_zero f_zero] near_lattice] (mkBuild [] []).
Lemma near_fits : ModelFits (knows reg_all) 4 near_model.
Proof.
  assert (O2 : OwnRadius 4 f_two) by (apply (own_above 8388608 22); [reflexivity|discriminate]).
  assert (O3 : OwnRadius 4 f_near_one) by (apply (own_above 8388692 23); [reflexivity|discriminate]).
  split; [apply ext_head|]. split; [constructor|]. split; [|split; [split; [constructor|split; constructor]|exact I]].
  split; [constructor|]. split; [|split; constructor]. constructor; [|constructor]. unfold ObjFits, lattice_obj. cbn [ob_id ob_name ob_part ob_thumb ob_pid ob_pindex ob_type ob_md ob_any ob_mesh ob_comps].
  do 9 (split; [fits; auto|]). split; [cbn [me_verts]; fits|]. do 4 (split; [fits|]). cbn [me_ext ElemsFit].
  split; [discriminate|]. split; [split; [discriminate|exists "b"; reflexivity]|]. cbn [bl_clip bl_clipmesh bl_repmesh bl_beams bl_sets bl_minlen bl_radius bl_cap near_lattice].
  do 6 (split; [first [reflexivity|discriminate]|]). split; [|fits]. constructor; [|constructor]. split; [reflexivity|]. split; [reflexivity|]. split; [|split; discriminate].
  split; right; (split; [assumption|reflexivity]).
Qed.
Theorem C64_radius_refuted : exists m m1 n1 d1 m2 n2 d2, ModelFits (knows reg_all) 4 m /\
  unmarshal_model reg_all (marshal_model m) model_zero = DRet m1 DNone n1 d1 /\
  unmarshal_model reg_all (marshal_model m1) model_zero = DRet m2 DNone n2 d2 /\
  marshal_model m1 <> marshal_model m /\ map bm_r2 (beams_of m1) = [f_one] /\ map bm_r2 (beams_of m2) = [f_two].
Proof.
  exists near_model. eexists _, _, _, _, _, _. split; [apply near_fits|]. split; [vm_compute; reflexivity|]. split; [vm_compute; reflexivity|].
  split; [vm_compute; discriminate|]. split; vm_compute; reflexivity.
Qed.
Print Assumptions C64_radius_refuted.
(** A transform that is written as the identity is gone when the file is saved again. *)
Definition near_identity : Matrix :=
  M16 f_one f_zero f_zero f_zero f_zero f_one f_zero f_zero f_zero f_zero f_one f_zero (f_tiny false) f_zero f_zero f_one.
Definition item_model (t : Matrix) : Model := ext_model [] [] (mkBuild [mkItem 1 t "" mg_zero []] []).
Lemma item_fits t : ValidMatrix t -> ModelFits (knows reg_all) 4 (item_model t).
Proof.
  intros V. split; [apply ext_head|]. split; [constructor|]. split; [split; [constructor|split; [constructor|split; constructor]]|]. split; [|exact I].
  split; [|split; constructor]. constructor; [|constructor]. unfold ItemFits. cbn [it_oid it_tr it_part it_md it_any].
  split; [reflexivity|]. split; [right; exact V|]. fits. auto.
Qed.
Theorem C64_transform_refuted : exists m m1 n1 d1 m2 n2 d2, ModelFits (knows reg_all) 4 m /\
  unmarshal_model reg_all (marshal_model m) model_zero = DRet m1 DNone n1 d1 /\
  unmarshal_model reg_all (marshal_model m1) model_zero = DRet m2 DNone n2 d2 /\
  marshal_model m1 <> marshal_model m /\ Forall (fun i => IdentityMatrix (it_tr i)) (bu_items (mo_build m1)) /\
  map it_tr (bu_items (mo_build m2)) = [matrix_zero].
Proof.
  exists (item_model near_identity). eexists _, _, _, _, _, _. split; [apply item_fits; repeat constructor|]. split; [vm_compute; reflexivity|]. split; [vm_compute; reflexivity|].
  split; [vm_compute; discriminate|]. split; [|vm_compute; reflexivity]. repeat constructor; eexists; reflexivity.
Qed.
Print Assumptions C64_transform_refuted.
(** The bottom of a stack of slices that is written as zero is not written again. *)
Definition bottom_model (x : f32) : Model := ext_model [AExt (XSliceStack (mkSS 1 x [] []))] [] (mkBuild [] []).
Theorem C64_bottom_refuted : exists m m1 n1 d1, ModelFits (knows reg_all) 4 m /\
  unmarshal_model reg_all (marshal_model m) model_zero = DRet m1 DNone n1 d1 /\ marshal_model m1 <> marshal_model m.
Proof.
  exists (bottom_model (f_tiny true)). eexists _, _, _. split; [|split; [vm_compute; reflexivity|vm_compute; discriminate]].
  split; [apply ext_head|]. split; [constructor|]. split; [|split; [split; [constructor|split; constructor]|exact I]].
  split; [|split; [constructor|split; constructor]]. constructor; [|constructor]. split; [|discriminate].
  split; [discriminate|]. split; [split; [discriminate|exists "s"; reflexivity]|]. fits; auto.
Qed.
Print Assumptions C64_bottom_refuted.

(** A model with an assembly that is moved, and a lattice with a conical beam *)
Definition moved : Matrix := M16 f_one f_zero f_zero f_zero f_zero f_one f_zero f_zero f_zero f_zero f_one f_zero f_one f_one f_one f_one.
Lemma value_ratio m q k : Zpos m = (k * 2 ^ Zpos q)%Z -> value (S754_finite false m (Zneg q)) = IZR k.
Proof.
  intros E. unfold value. rewrite Rmult_1_l. cbn [powerRZ]. rewrite pow_IZR, positive_nat_Z, E, mult_IZR, Rmult_assoc, Rinv_r, Rmult_1_r; [reflexivity|].
  apply IZR_neq. apply Z.pow_nonzero; discriminate.
Qed.
Example C64_nonvacuous : (ModelFits (knows reg_all) 4 rt_example /\ Settled 4 rt_example) /\
  Settled 4 (ext_model [AExt (XSliceStack (mkSS 1 f_one [] []))] [lattice_obj [P3 f_zero f_zero f_zero; P3 f_one f_zero f_zero; P3 f_zero f_one f_zero] rt_lattice] (mkBuild [] [])) /\
  (ModelFits (knows reg_all) 4 (item_model moved) /\ Settled 4 (item_model moved)).
Proof.
  assert (V1 : value f_one = 1%R) by (apply (value_ratio 8388608 23 1); reflexivity).
  assert (V2 : value f_two = 2%R) by (change f_two with (S754_finite false 8388608 (-22)); apply (value_ratio 8388608 22 2); reflexivity).
  assert (V3 : value (fadd f_two f_one) = 3%R) by (change (fadd f_two f_one) with (S754_finite false 12582912 (-22)); apply (value_ratio 12582912 22 3); reflexivity).
  assert (FO : forall p, Far p f_one 0).
  { intros p. right. rewrite V1, Rminus_0_r, Rabs_R1. assert (1 <= 10 ^ p)%R by (apply pow_R1_Rle; lra). unfold Rdiv. assert (/ 10 ^ p <= 1)%R by (rewrite <- Rinv_1; apply Rinv_le_contravar; lra). lra. }
  assert (FM : TransformSettled moved) by (right; do 11 right; apply FO).
  split; [split; [exact C39_nonvacuous|]|split; [|split]].
  - split; [|split; [|split]].
    + repeat constructor.
    + constructor; [|constructor; [|constructor]]; split; try discriminate.
      * intros m [= <-]. repeat constructor.
      * intros c [= <-]. constructor; [exact FM|constructor].
    + constructor; [|constructor]. left. left. repeat split; eexists; reflexivity.
    + constructor.
  - split; [|split; [|split]]; [| |constructor|constructor].
    + constructor; [|constructor]. right. apply FO.
    + constructor; [|constructor]. split; [|discriminate]. intros m [= <-]. constructor; [|constructor]. cbn [ElemSettled ExtSettled bl_beams rt_lattice].
      constructor; [|constructor; [|constructor; [|constructor]]]; split; cbn [bm_r1 bm_r2]; try (left; reflexivity); right; right; cbn [bl_radius rt_lattice]; rewrite ?V1, ?V2, ?V3, Rabs_pos_eq by lra; lra.
  - apply item_fits. repeat constructor.
  - split; [constructor|]. split; [constructor|]. split; [|constructor]. constructor; [exact FM|constructor].
Qed.
