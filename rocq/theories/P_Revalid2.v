(** * Validity of what is read: the validators of the extensions *)
From Coq Require Import ZArith Reals Lra Lia Permutation.
From Verif Require Import GoBase GoNum GoFloat GoStrconv Types XmlTypes M_Core M_Errors P_Errors M_Geom M_Text M_Validate M_ExtValidate M_Decode S_Geom S_Strconv S_Text S_Validate S_RoundTrip
  P_Core P_Float P_Strconv P_RTText P_RTExt P_RTCore P_Stable S_Revalid P_Revalid.

(** ** Errors that are nil *)
Lemma add_none e x : add e x = None <-> e = None /\ x = None.
Proof. unfold add. rewrite append_nil. split; [intros [H F]; inversion F; auto|intros [-> ->]; auto]. Qed.
Lemma add_if_none c e x : add_if c e x = None <-> e = None /\ (c = true -> x = None).
Proof.
  unfold add_if. destruct c; [rewrite add_none; intuition|]. split; [intros ->; split; [reflexivity|discriminate]|intros [-> _]; reflexivity].
Qed.
Lemma sent_some s : sent s <> None. Proof. discriminate. Qed.
Lemma missing_some s : missing s <> None. Proof. discriminate. Qed.
Lemma at_some e n i : e <> None -> at_index e n i <> None.
Proof. destruct e; [intros _; discriminate|intros H; destruct (H eq_refl)]. Qed.
Lemma if_some c e x : x <> None -> add_if c e x = None <-> e = None /\ c = false.
Proof.
  intros H. rewrite add_if_none. destruct c; split; intros [-> K]; split; try reflexivity; try discriminate. destruct (H (K eq_refl)).
Qed.
Lemma if_sent c e s : add_if c e (sent s) = None <-> e = None /\ c = false.
Proof. apply if_some, sent_some. Qed.
Lemma if_missing c e s : add_if c e (missing s) = None <-> e = None /\ c = false.
Proof. apply if_some, missing_some. Qed.
Lemma if_at c e x n i : x <> None -> add_if c e (at_index x n i) = None <-> e = None /\ c = false.
Proof. intros H. apply if_some, at_some, H. Qed.
Lemma loop_none {A} (f : nat -> A -> error -> error) (P : nat -> A -> Prop) :
  (forall i x e, f i x e = None <-> e = None /\ P i x) -> forall l i e, loop f i l e = None <-> e = None /\ forall j x, nth_error l j = Some x -> P (i + j)%nat x.
Proof.
  intros H. induction l as [|x l IH]; intros i e; cbn [loop].
  - split; [intros ->; split; [reflexivity|intros [|j] x; discriminate]|intros [-> _]; reflexivity].
  - rewrite IH, H. split.
    + intros [[-> Px] Q]. split; [reflexivity|]. intros [|j] y E; cbn [nth_error] in E.
      * injection E as <-. rewrite Nat.add_0_r. exact Px.
      * rewrite <- Nat.add_succ_comm. apply Q, E.
    + intros [-> Q]. split; [split; [reflexivity|]|].
      * rewrite <- (Nat.add_0_r i). apply Q. reflexivity.
      * intros j y E. rewrite Nat.add_succ_comm. apply Q. exact E.
Qed.

Lemma is_nil_map {A B} (f : A -> B) l : is_nil (map f l) = is_nil l.
Proof. destruct l; reflexivity. Qed.
Lemma existsb_perm {A} (f : A -> bool) l l' : Permutation l l' -> existsb f l' = existsb f l.
Proof.
  intros H. apply eq_true_iff_eq. rewrite !existsb_exists. split; intros (x & I & E); exists x; split; try exact E.
  - apply Permutation_in with l'; [apply Permutation_sym, H|exact I].
  - apply Permutation_in with l; assumption.
Qed.

Section Revalid.
Context (p : nat) (m m' : Model).
Hypothesis X : mo_exts m' = mo_exts m.
Hypothesis RS : forall path, find_resources m' path = option_map (rt_res p) (find_resources m path).
Hypothesis B : mo_build m' = rt_build (mo_build m).
Hypothesis PD : path_or_default m' = path_or_default m.
Hypothesis AT : Permutation (mo_atts m) (mo_atts m').

Lemma asset_id_rt a : asset_id (rt_asset p a) = asset_id a.
Proof. destruct a as [b|id ts|[]]; reflexivity. Qed.
Lemma find_ast_rt id l : find_ast id (map (rt_asset p) l) = option_map (rt_asset p) (find_ast id l).
Proof. induction l as [|a l IH]; [reflexivity|]. cbn [map find_ast]. rewrite asset_id_rt. destruct (_ =? _)%N; [reflexivity|exact IH]. Qed.
Lemma find_obj_rt id l : find_obj id (map (rt_obj p) l) = option_map (rt_obj p) (find_obj id l).
Proof. induction l as [|a l IH]; [reflexivity|]. cbn [map find_obj rt_obj ob_id]. destruct (_ =? _)%N; [reflexivity|exact IH]. Qed.
Lemma find_asset_rt path id : find_asset m' path id = option_map (rt_asset p) (find_asset m path id).
Proof. unfold find_asset. rewrite RS. destruct (find_resources m path) as [rs|]; [|reflexivity]. apply find_ast_rt. Qed.
Lemma res_find_asset_rt path id : res_find_asset m' path id = option_map (rt_asset p) (res_find_asset m path id).
Proof. apply find_asset_rt. Qed.
Lemma find_object_rt path id : find_object m' path id = option_map (rt_obj p) (find_object m path id).
Proof. unfold find_object. rewrite RS. destruct (find_resources m path) as [rs|]; [|reflexivity]. apply find_obj_rt. Qed.

(** ** Materials *)
Lemma multi_pids_rt path pids : forall j colors undef errs, multi_pids m' path j pids colors undef errs = multi_pids m path j pids colors undef errs.
Proof.
  induction pids as [|pid r IH]; intros j colors undef errs; [reflexivity|]. cbn [multi_pids]. rewrite find_asset_rt.
  destruct (find_asset m path pid) as [[b|id ts|[]]|]; cbn [option_map rt_asset rt_ext rt_comp cm_comps]; rewrite ?map_length, IH; reflexivity.
Qed.
Lemma materials_rt path a : materials_validate m' path (VAsset (rt_asset p a)) = materials_validate m path (VAsset a).
Proof.
  destruct a as [b|id ts|[t|g|g|g|g|g|g]]; try reflexivity; cbn [rt_asset rt_ext materials_validate].
  - unfold texture_validate. rewrite (existsb_perm _ _ _ AT). reflexivity.
  - unfold tex_group_validate. cbn [rt_texg tg_id tg_tex tg_coords]. rewrite is_nil_map, find_asset_rt.
    destruct (_ =? _)%N; [reflexivity|]. destruct (find_asset m path _) as [[b|id ts|[]]|]; reflexivity.
  - unfold composite_validate. cbn [rt_comp cm_id cm_mat cm_indices cm_comps]. rewrite is_nil_map, find_asset_rt.
    destruct (cm_mat g =? 0)%N; [reflexivity|]. destruct (find_asset m path _) as [[b|id ts|[]]|]; reflexivity.
  - unfold multi_validate. rewrite multi_pids_rt. reflexivity.
Qed.

(** ** Production *)
Lemma path_uuid_rt path u q : path_uuid_validate m' path u q = path_uuid_validate m path u q.
Proof. unfold path_uuid_validate. rewrite PD. reflexivity. Qed.
Lemma loop_map {A C} (f : nat -> C -> error -> error) (g : A -> C) l : forall i e, loop f i (map g l) e = loop (fun i x => f i (g x)) i l e.
Proof. induction l as [|x l IH]; intros i e; [reflexivity|]. cbn [map loop]. apply IH. Qed.
Lemma loop_ext {A} (f g : nat -> A -> error -> error) l : (forall i x e, f i x e = g i x e) -> forall i e, loop f i l e = loop g i l e.
Proof. intros H. induction l as [|x l IH]; intros i e; [reflexivity|]. cbn [loop]. rewrite H. apply IH. Qed.
Lemma production_model_rt path : production_validate m' path VModel = production_validate m path VModel.
Proof.
  cbn [production_validate]. unfold prod_model_validate. rewrite B. cbn [rt_build bu_any bu_items]. rewrite loop_map. apply loop_ext.
  intros i x e. cbn [rt_item it_any]. destruct (get_item_attr _) as [[u q]|]; [rewrite path_uuid_rt|]; reflexivity.
Qed.
Lemma production_object_rt path o : production_validate m' path (VObject (rt_obj p o)) = production_validate m path (VObject o).
Proof.
  cbn [production_validate]. unfold prod_object_validate. cbn [rt_obj ob_any ob_comps]. destruct (ob_comps o) as [cs|]; [|reflexivity]. cbn [option_map rt_comps cs_list].
  rewrite loop_map. match goal with |- context[loop ?f 0 (cs_list cs) None] => rewrite (loop_ext f (fun i c cerrs =>
    let err := match get_comp_attr (co_any c) with Some (u, q) => add None (path_uuid_validate m path u q) | None => add None (missing "UUID") end in
    match err with None => cerrs | Some _ => add cerrs (at_index err "component" i) end)) end; [reflexivity|].
  intros i x e. cbn [rt_comp1 co_any]. destruct (get_comp_attr _) as [[u q]|]; [rewrite path_uuid_rt|]; reflexivity.
Qed.

(** ** Beam lattices *)
Lemma get_lattice_rt l : get_lattice (map (rt_elem p) l) = option_map (rt_lattice p) (get_lattice l).
Proof. induction l as [|[ts|[]] l IH]; try exact IH; reflexivity. Qed.
Lemma ref_loop_rt l id self : ref_mesh_loop (map (rt_obj p) l) id self = ref_mesh_loop l id self.
Proof.
  induction l as [|o l IH]; [reflexivity|]. cbn [map ref_mesh_loop rt_obj ob_id ob_mesh ob_type]. rewrite IH. destruct (_ =? _)%N; [reflexivity|]. destruct (_ =? _)%N; [|reflexivity].
  destruct (ob_mesh o) as [me|]; [|reflexivity]. cbn [option_map rt_mesh me_ext]. rewrite get_lattice_rt. destruct (get_lattice _); reflexivity.
Qed.
Lemma ref_mesh_rt path id self : ref_mesh_validate m' path id self = ref_mesh_validate m path id self.
Proof.
  unfold ref_mesh_validate. destruct (_ =? _)%N; [reflexivity|]. rewrite RS. destruct (find_resources m path) as [rs|]; [|reflexivity]. apply ref_loop_rt.
Qed.
Lemma beam_none n r i b e : beam_validate n r i b e = None <-> e = None /\
  (bm_i1 b =? bm_i2 b)%N = false /\ ((N.of_nat n <=? bm_i1 b) || (N.of_nat n <=? bm_i2 b))%N = false /\
  negb (feqb (bm_r1 b) f_zero) && negb (feqb (bm_r1 b) r) && negb (feqb (bm_r1 b) (bm_r2 b)) = false.
Proof.
  unfold beam_validate. rewrite if_at by apply sent_some. destruct (bm_i1 b =? bm_i2 b)%N.
  - rewrite add_none. split; [intros [[_ H] _]; destruct (at_some _ _ _ (sent_some _) H)|intros (_ & H & _); discriminate].
  - rewrite if_at by apply sent_some. tauto.
Qed.
Lemma radius_kept g b : Num (bl_radius g) -> RadiiFit p g b ->
  negb (feqb (bm_r1 b) f_zero) && negb (feqb (bm_r1 b) (bl_radius g)) && negb (feqb (bm_r1 b) (bm_r2 b)) = false ->
  let b' := rt_beam p g b in
  negb (feqb (bm_r1 b') f_zero) && negb (feqb (bm_r1 b') (rf p (bl_radius g))) && negb (feqb (bm_r1 b') (bm_r2 b')) = false.
Proof.
  intros HR [H1 H2] V. assert (W : feqb (bm_r1 b) f_zero = true \/ feqb (bm_r1 b) (bl_radius g) = true \/ feqb (bm_r1 b) (bm_r2 b) = true).
  { destruct (feqb (bm_r1 b) f_zero); [auto|]. destruct (feqb (bm_r1 b) (bl_radius g)); [auto|]. destruct (feqb (bm_r1 b) (bm_r2 b)); [auto|discriminate]. }
  clear V. assert (G : forall b' : Beam, feqb (bm_r1 b') f_zero = true \/ feqb (bm_r1 b') (rf p (bl_radius g)) = true \/ feqb (bm_r1 b') (bm_r2 b') = true ->
     negb (feqb (bm_r1 b') f_zero) && negb (feqb (bm_r1 b') (rf p (bl_radius g))) && negb (feqb (bm_r1 b') (bm_r2 b')) = false).
  { intros b' [-> | [-> | ->]]; [reflexivity|apply andb_false_intro1, andb_false_r|apply andb_false_r]. }
  cbv zeta. apply G. clear G. unfold rt_beam, beam_of, beam_read. cbn [bm_r1 bm_r2 rt_head bl_radius].
  assert (POS : forall x, OwnRadius p x -> fltb f_zero x = true /\ feqb (rf p x) f_zero = false).
  { intros x (F & _ & O). pose proof (pow10_pos p). assert (0 < / 10 ^ p)%R by (apply Rinv_0_lt_compat; lra). split.
    - apply fltb_value; [exact I|exact F|]. cbn [value f_zero]. lra.
    - destruct (feqb (rf p x) f_zero) eqn:E; [|reflexivity]. exfalso. apply feqb_value in E; [|apply rf_finite, F|exact I]. revert E. apply rf_nonzero; [exact F|]. rewrite Rabs_pos_eq; lra. }
  destruct H1 as [E1|[O1 N1]].
  - right. left. rewrite E1 in *.
    assert (NN : bl_radius g <> S754_nan) by (intros E; rewrite E in W; destruct W as [W|[W|W]]; discriminate).
    assert (R : feqb (bl_radius g) (bl_radius g) = true).
    { destruct (bl_radius g) as [s|s| |s mm e]; [reflexivity|destruct s; reflexivity|destruct (NN eq_refl)|]. apply feqb_value; [exact HR|exact HR|reflexivity]. }
    rewrite R. rewrite andb_false_r. change (feqb f_zero f_zero) with true. cbv iota.
    destruct (bl_radius g) as [s|s| |s mm e]; [|rewrite rf_other by (exact HR || (intros [])); destruct s; reflexivity|destruct (NN eq_refl)|];
      apply feqb_same; try exact R; exact HR || exact I.
  - right. right. destruct (POS _ O1) as [P1 Z1]. rewrite P1, N1. cbn [andb negb]. rewrite Z1.
    destruct H2 as [[E1 _]|[O2 N2]].
    { exfalso. rewrite <- E1 in N1. destruct O1 as (F & _). assert (feqb (bm_r1 b) (bm_r1 b) = true) as Q by (apply feqb_value; auto). congruence. }
    destruct (POS _ O2) as [P2 Z2]. rewrite P2, N2. cbn [andb negb]. rewrite Z2. apply feqb_same; [apply O1|apply O2|].
    destruct W as [W|[W|W]]; [|congruence|exact W]. exfalso. destruct O1 as (F & _ & O). apply feqb_value in W; [|exact F|exact I]. cbn [value f_zero] in W.
    pose proof (pow10_pos p). assert (0 < / 10 ^ p)%R by (apply Rinv_0_lt_compat; lra). lra.
Qed.
Lemma visible_kept x : Num x -> Visible p x -> feqb x f_zero = false -> feqb (rf p x) f_zero = false.
Proof.
  intros N V E. assert (D : Finite x \/ ~ Finite x) by (destruct x; cbn; [auto|tauto|tauto|left; exact N]). destruct D as [F|F].
  - destruct (feqb (rf p x) f_zero) eqn:E'; [|reflexivity]. exfalso. apply feqb_value in E'; [|apply rf_finite, F|exact I]. revert E'. apply rf_nonzero; [exact F|]. apply V; [exact F|].
    intros Z. assert (feqb x f_zero = true) by (apply feqb_value; [exact F|exact I|exact Z]). congruence.
  - rewrite rf_other by assumption. exact E.
Qed.
Lemma wrap_some e n : e <> None -> wrap e n <> None.
Proof. destruct e; [intros _; discriminate|intros H; destruct (H eq_refl)]. Qed.
Lemma match_none (e : error) n n' : match e with None => None | Some _ => wrap (wrap e n) n' end = None <-> e = None.
Proof. destruct e; [|tauto]. split; discriminate. Qed.
Lemma if_add (c : bool) e x : (if c then add e x else e) = None <-> e = None /\ (c = true -> x = None).
Proof. apply add_if_none. Qed.
Lemma lattice_none_rt e known path o : ObjFits e known p [] o \/ (exists prefixes, ObjFits e known p prefixes o) ->
  (forall me g, ob_mesh o = Some me -> In (AnyExt (XBeamLattice g)) (me_ext me) -> Visible p (bl_minlen g) /\ Visible p (bl_radius g)) ->
  lattice_validate m path o = None -> lattice_validate m' path (rt_obj p o) = None.
Proof.
  intros OF VI. assert (OF' : exists pre, ObjFits e known p pre o) by (destruct OF as [OF|OF]; [eauto|exact OF]). clear OF. destruct OF' as [pre OF].
  unfold lattice_validate. cbn [rt_obj ob_mesh ob_type ob_id]. destruct (ob_mesh o) as [me|] eqn:EM; [|reflexivity]. cbn [option_map rt_mesh me_ext me_verts]. rewrite get_lattice_rt, map_length.
  destruct (get_lattice (me_ext me)) as [g|] eqn:EG; [|reflexivity]. cbn [option_map].
  assert (IN : In (AnyExt (XBeamLattice g)) (me_ext me)).
  { clear - EG. revert EG. induction (me_ext me) as [|[ts|[]] l IH]; cbn [get_lattice]; try discriminate; try (intros K; right; apply IH, K). intros K. injection K as ->. left. reflexivity. }
  destruct (VI me g eq_refl IN) as [VM VR].
  assert (GF : Num (bl_minlen g) /\ Num (bl_radius g) /\ Forall (fun b => RadiiFit p g b) (bl_beams g)).
  { destruct OF as (_ & _ & _ & _ & _ & _ & _ & _ & _ & OF). rewrite EM in OF. destruct (ob_comps o); [destruct OF|]. destruct OF as (_ & _ & _ & _ & _ & EF).
    unfold ElemsFit in EF. destruct (me_ext me) as [|x [|y l]]; [destruct IN| |destruct x; destruct EF]. destruct IN as [->|[]]. destruct EF as (_ & _ & _ & _ & _ & N1 & N2 & _ & FB & _).
    split; [exact N1|]. split; [exact N2|]. revert FB. apply Forall_impl. intros b (_ & _ & R & _). exact R. }
  destruct GF as (NM & NR & FB).
  cbv zeta. rewrite !match_none.
  cbn [rt_lattice rt_head bl_minlen bl_radius bl_clip bl_clipmesh bl_repmesh bl_beams bl_sets].
  rewrite !(loop_none _ (fun i set => existsb (fun ref => (N.of_nat (List.length (bs_refs set)) <=? ref)%N) (bs_refs set) = false)) by (intros; apply if_at, sent_some).
  rewrite (loop_none _ _ (beam_none _ _)), loop_map.
  rewrite (loop_none _ _ (fun i x e => beam_none (List.length (me_verts me)) (rf p (bl_radius g)) i (rt_beam p g x) e)).
  rewrite !if_add, !if_sent, !if_missing, !ref_mesh_rt.
  intros (((((((H1 & H2) & H3) & H4) & H5) & H6) & H7) & H8). split; [|exact H8]. split.
  - split; [|exact H6]. split; [|exact H5]. split; [|exact H4]. split; [split; [exact H1|]|]; apply visible_kept; assumption.
  - intros j b Hb. destruct (H7 j b Hb) as (K1 & K2 & K3). split; [exact K1|]. split; [exact K2|]. apply radius_kept; [exact NR| |exact K3]. rewrite Forall_forall in FB. apply FB.
    apply nth_error_In with j, Hb.
Qed.

(** ** Slices *)
Lemma matrix_rt t : ValidMatrix t -> has_transform t = true ->
  m2 (rt_tr t) = rf 3 (m2 t) /\ m6 (rt_tr t) = rf 3 (m6 t) /\ m8 (rt_tr t) = rf 3 (m8 t) /\ m9 (rt_tr t) = rf 3 (m9 t) /\ m10 (rt_tr t) = rf 3 (m10 t).
Proof.
  intros H E. destruct (rt_tr_entries t H E) as (t' & -> & _ & _ & E2 & _ & _ & E6 & E8 & E9 & E10 & _). auto.
Qed.
Lemma m10_valid t : ValidMatrix t -> f_valid (m10 t) = true.
Proof. intros H. unfold ValidMatrix in H. rewrite !Forall_cons_iff in H. tauto. Qed.
Lemma transform_kept t : TransformFits t -> has_transform (rt_tr t) && negb (valid_transform (rt_tr t)) = true ->
  has_transform t && negb (valid_transform t) = true.
Proof.
  intros F. destruct (has_transform t) eqn:E.
  - assert (V : ValidMatrix t).
    { destruct F as [F|F]; [exfalso|exact F]. apply has_transform_spec in F. rewrite F in E. discriminate. }
    destruct (matrix_rt t V E) as (E2 & E6 & E8 & E9 & E10). destruct (valid_transform t) eqn:VT; [|reflexivity]. intros K. exfalso.
    assert (valid_transform (rt_tr t) = true) as Q; [|rewrite Q in K; rewrite andb_false_r in K; discriminate].
    revert VT. unfold valid_transform. rewrite E2, E6, E8, E9, E10, !andb_true_iff. intros ((((A & C) & D) & G) & J).
    repeat split; try (apply zero_stays; assumption). apply one_stays; [exact J|apply m10_valid, V].
  - unfold rt_tr. rewrite E. intros K. exact K.
Qed.
(** What the walk over the items gives afterwards, if it is not stopped before *)
Definition Kept (a b : option bool) : Prop := a = Some false \/ b = a.
Lemma comps_rt path id rec rec' oid cs :
  Forall (fun c => TransformFits (co_tr c)) cs ->
  (forall c o, In c cs -> find_object m (comp_path c path) (co_oid c) = Some o -> Kept (rec o) (rec' (rt_obj p o))) ->
  Kept (comps_transforms m path id rec oid cs) (comps_transforms m' path id rec' oid (map rt_comp1 cs)).
Proof.
  induction cs as [|c cs IH]; intros F R; [right; reflexivity|]. inversion F as [|c0 cs0 F1 F2]; subst.
  specialize (IH F2 (fun c' o I => R c' o (or_intror I))). cbn [map comps_transforms rt_comp1 co_oid co_tr].
  change (comp_path (rt_comp1 c) path) with (comp_path c path).
  destruct ((co_oid c =? id)%N && seq (comp_path c path) path) eqn:E1.
  - cbn [andb]. pose proof (transform_kept (co_tr c) F1) as TK.
    destruct (has_transform (co_tr c) && negb (valid_transform (co_tr c))); [left; reflexivity|].
    destruct (has_transform (rt_tr (co_tr c)) && negb (valid_transform (rt_tr (co_tr c)))); [discriminate (TK eq_refl)|].
    destruct ((co_oid c =? oid)%N && seq (comp_path c path) path); [right; reflexivity|]. rewrite find_object_rt.
    destruct (find_object m (comp_path c path) (co_oid c)) as [o|] eqn:EO; [|exact IH]. cbn [option_map].
    destruct (R c o (or_introl eq_refl) EO) as [-> | ->]; [left; reflexivity|]. destruct (rec o) as [[|]|]; [exact IH|right; reflexivity|right; reflexivity].
  - cbn [andb].
    destruct ((co_oid c =? oid)%N && seq (comp_path c path) path); [right; reflexivity|]. rewrite find_object_rt.
    destruct (find_object m (comp_path c path) (co_oid c)) as [o|] eqn:EO; [|exact IH]. cbn [option_map].
    destruct (R c o (or_introl eq_refl) EO) as [-> | ->]; [left; reflexivity|]. destruct (rec o) as [[|]|]; [exact IH|right; reflexivity|right; reflexivity].
Qed.
(** All components of objects that can be found *)
Hypothesis CF : forall path id o cs, find_object m path id = Some o -> ob_comps o = Some cs -> Forall (fun c => TransformFits (co_tr c)) (cs_list cs).
Lemma obj_rt path id fuel : forall o, (forall cs, ob_comps o = Some cs -> Forall (fun c => TransformFits (co_tr c)) (cs_list cs)) ->
  Kept (obj_transforms fuel m path id o) (obj_transforms fuel m' path id (rt_obj p o)).
Proof.
  induction fuel as [|f IH]; intros o H; [right; reflexivity|]. cbn [obj_transforms rt_obj ob_comps ob_id].
  destruct (ob_comps o) as [cs|]; [|right; reflexivity]. cbn [option_map rt_comps cs_list]. apply comps_rt; [apply H; reflexivity|].
  intros c o' _ E. apply IH. intros cs' E'. apply (CF _ _ _ _ E E').
Qed.
Lemma items_rt path id fuel its : Forall (fun i => TransformFits (it_tr i)) its ->
  Kept (items_transforms fuel m path id its) (items_transforms fuel m' path id (map rt_item its)).
Proof.
  induction its as [|c its IH]; intros F; [right; reflexivity|]. inversion F as [|c0 its0 F1 F2]; subst. specialize (IH F2).
  cbn [map items_transforms rt_item it_oid it_tr].
  change (item_path (rt_item c)) with (item_path c).
  set (tp := if seq (item_path c) "" then path else item_path c).
  destruct ((it_oid c =? id)%N && seq tp path) eqn:E1; cbn [andb].
  - pose proof (transform_kept (it_tr c) F1) as TK.
    destruct (has_transform (it_tr c) && negb (valid_transform (it_tr c))); [left; reflexivity|].
    destruct (has_transform (rt_tr (it_tr c)) && negb (valid_transform (rt_tr (it_tr c)))); [discriminate (TK eq_refl)|].
    rewrite find_object_rt. destruct (find_object m tp (it_oid c)) as [o|] eqn:EO; [|exact IH]. cbn [option_map].
    destruct (obj_rt path id fuel o (fun cs E => CF _ _ _ _ EO E)) as [-> | ->]; [left; reflexivity|]. destruct (obj_transforms _ m _ _ _) as [[|]|]; [exact IH|right; reflexivity|right; reflexivity].
  - rewrite find_object_rt. destruct (find_object m tp (it_oid c)) as [o|] eqn:EO; [|exact IH]. cbn [option_map].
    destruct (obj_rt path id fuel o (fun cs E => CF _ _ _ _ EO E)) as [-> | ->]; [left; reflexivity|]. destruct (obj_transforms _ m _ _ _) as [[|]|]; [exact IH|right; reflexivity|right; reflexivity].
Qed.
Lemma stack_closed_rt s : stack_closed (rt_stack p s) = stack_closed s.
Proof. unfold stack_closed. cbn [rt_stack ss_slices]. induction (ss_slices s) as [|x l IH]; [reflexivity|]. cbn [map forallb]. rewrite IH. reflexivity. Qed.
Lemma all_closed_rt s : all_closed m' (rt_stack p s) = all_closed m s.
Proof.
  unfold all_closed. rewrite stack_closed_rt. cbn [rt_stack ss_refs]. f_equal. induction (ss_refs s) as [|r l IH]; [reflexivity|]. cbn [forallb]. rewrite IH, find_asset_rt. f_equal.
  destruct (find_asset m _ _) as [[b|id ts|[]]|]; try reflexivity. cbn [option_map rt_asset rt_ext]. apply stack_closed_rt.
Qed.
Definition or_nil (x : option error) : error := match x with Some e => e | None => None end.
Lemma slice_object_rt fuel path o : Forall (fun i => TransformFits (it_tr i)) (bu_items (mo_build m)) ->
  or_nil (slice_object_validate fuel m path o) = None -> or_nil (slice_object_validate fuel m' path (rt_obj p o)) = None.
Proof.
  intros F. unfold slice_object_validate. cbn [rt_obj ob_any ob_id ob_type]. destruct (get_slice_attr (ob_any o)) as [[sid res]|]; [|reflexivity]. rewrite X.
  destruct (sid =? 0)%N; [exact (fun H => H)|]. rewrite res_find_asset_rt. destruct (res_find_asset m path sid) as [[b|id ts|[]]|]; cbn [option_map rt_asset rt_ext]; try exact (fun H => H).
  rewrite B. cbn [rt_build bu_items]. destruct (items_rt path (ob_id o) fuel (bu_items (mo_build m)) F) as [K|K].
  - rewrite K. cbn [or_nil negb]. rewrite !if_sent. intros (((_ & H) & _) & _). discriminate.
  - rewrite K. destruct (items_transforms _ m _ _ _) as [ok|]; [|exact (fun H => H)]. rewrite all_closed_rt. exact (fun H => H).
Qed.

(** The heights of the slices *)
Hypothesis TOPS : forall x, Height m x -> Finite x /\ Visible p x.
Hypothesis APART : forall x y, Height m x -> Height m y -> (value x < value y)%R -> (value x + 2 / 10 ^ p < value y)%R.
Definition LastOk (a b : f32) : Prop := (a = f_lowest /\ b = f_lowest) \/ (Height m a /\ b = rf p a).
Lemma last_kept x a b : Height m x -> LastOk a b -> fleb x a = false -> fleb (rf p x) b = false.
Proof.
  intros H [[-> ->]|[Ha ->]] E; destruct (TOPS x H) as [F _]; [apply lowest_stays; assumption|]. destruct (TOPS a Ha) as [Fa _].
  destruct (fleb (rf p x) (rf p a)) eqn:E'; [exfalso|reflexivity]. apply fleb_value in E'; try (apply rf_finite; assumption).
  assert (L : (value a < value x)%R).
  { destruct (Rle_or_lt (value x) (value a)) as [C|C]; [|exact C]. apply fleb_value in C; try assumption. congruence. }
  pose proof (rf_lt p a x Fa F (APART a x Ha H L)). lra.
Qed.
Definition bottom_rt (b : f32) : f32 := if feqb b f_zero then f_zero else rf p b.
Lemma bottom_kept x b : Finite x -> Num b -> fltb x b = false -> fltb (rf p x) (bottom_rt b) = false.
Proof.
  intros F N E. destruct (rf_finite p x F) as (F' & _). unfold bottom_rt.
  assert (G : Finite b -> (value b <= value x)%R).
  { intros Fb. destruct (Rle_or_lt (value b) (value x)) as [C|C]; [exact C|]. apply fltb_value in C; try assumption. congruence. }
  destruct (feqb b f_zero) eqn:Z.
  - assert (Fb : Finite b) by (destruct b as [?| [|] | |[|]]; try discriminate; exact I). specialize (G Fb). apply feqb_value in Z; [|exact Fb|exact I]. cbn [value f_zero] in Z.
    destruct (fltb (rf p x) f_zero) eqn:E'; [exfalso|reflexivity]. apply fltb_value in E'; [|exact F'|exact I].
    pose proof (rf_le p f_zero x I F) as L. cbn [value f_zero] in L, E'. rewrite (rf_zero p f_zero I eq_refl) in L. rewrite Z in G. specialize (L G). lra.
  - assert (D : Finite b \/ ~ Finite b) by (destruct b; cbn; [auto|tauto|tauto|left; exact N]). destruct D as [Fb|Fb].
    + destruct (fltb (rf p x) (rf p b)) eqn:E'; [exfalso|reflexivity]. apply fltb_value in E'; [|exact F'|apply rf_finite, Fb].
      pose proof (rf_le p b x Fb F (G Fb)). lra.
    + rewrite (rf_other p b Fb N). clear - F' E F Fb N. destruct b as [?|s| |]; [destruct (Fb I)| | |destruct (Fb N)].
      * destruct s; [destruct (rf p x) as [?|[|]| |[|]]; try contradiction; reflexivity|]. exfalso. destruct x as [?|[|]| |[|]]; try contradiction; discriminate.
      * destruct (rf p x) as [?|[|]| |[|]]; reflexivity.
Qed.
Lemma slices_loop_rt bottom : Num bottom -> forall l j a b errs errs', (forall s, In s l -> Height m (sl_top s)) -> LastOk a b -> (errs = None -> errs' = None) ->
  slices_loop bottom j l a errs = None -> errs = None /\ slices_loop (bottom_rt bottom) j (map (rt_slice p) l) b errs' = None.
Proof.
  intros NB. induction l as [|s l IH]; intros j a b errs errs' HT LO EE E; [split; [exact E|apply EE, E]|]. revert E. cbn [map slices_loop rt_slice sl_top sl_verts sl_polys].
  pose proof (HT s (or_introl eq_refl)) as Hs. destruct (TOPS _ Hs) as [Fs Vs]. intros E.
  match type of E with slices_loop _ _ _ _ ?x = None => set (e1 := x) in E end. match goal with |- _ /\ slices_loop _ _ _ _ ?x = None => set (e2 := x) end.
  assert (K : e1 = None -> errs = None /\ e2 = None).
  { subst e1 e2. rewrite is_nil_map, map_length.
    assert (Q : forall e, add_if (fleb (sl_top s) a) (if feqb (sl_top s) f_zero then add errs (at_index (missing "ztop") "slice" j)
          else add_if (fltb (sl_top s) bottom) errs (at_index (sent "ErrSliceSmallTopZ") "slice" j)) (at_index (sent "ErrSliceNoMonotonic") "slice" j) = e ->
        e = None -> errs = None /\ add_if (fleb (rf p (sl_top s)) b) (if feqb (rf p (sl_top s)) f_zero then add errs' (at_index (missing "ztop") "slice" j)
          else add_if (fltb (rf p (sl_top s)) (bottom_rt bottom)) errs' (at_index (sent "ErrSliceSmallTopZ") "slice" j)) (at_index (sent "ErrSliceNoMonotonic") "slice" j) = None).
    { intros e <-. rewrite !if_at by apply sent_some. destruct (feqb (sl_top s) f_zero) eqn:Z.
      - rewrite add_none. intros [[_ C] _]. destruct (at_some _ _ _ (missing_some _) C).
      - rewrite (visible_kept _ (finite_valid _ Fs) Vs Z), !if_at by apply sent_some. intros ((E0 & B0) & L0). split; [exact E0|].
        split; [split; [apply EE, E0|apply bottom_kept; assumption]|]. apply (last_kept _ a); assumption. }
    match goal with |- (if _ then ?x else _) = None -> _ => pose proof (Q x eq_refl) as Q' end.
    clear Q. destruct (is_nil (sl_polys s) && is_nil (sl_verts s)); [exact Q'|].
    match goal with |- context[loop ?f 0 (sl_polys s) None] => destruct (loop f 0 (sl_polys s) None) as [ge|] end.
    - rewrite add_none. intros [_ C]. discriminate.
    - revert Q'. rewrite !if_at by apply sent_some. intros Q' ((E0 & C1) & C2). destruct (Q' E0) as [E1 E2]. split; [exact E1|]. split; [split; [exact E2|exact C1]|exact C2]. }
  assert (K2 : e1 = None -> e2 = None) by (intros C; apply K, C).
  destruct (IH (S j) (sl_top s) (rf p (sl_top s)) e1 e2 (fun s' I => HT s' (or_intror I)) (or_intror (conj Hs eq_refl)) K2 E) as [A C]. split; [apply K, A|exact C].
Qed.
Lemma refs_loop_rt path : forall l i a b errs errs',
  (forall r st, In r l -> find_asset m (sr_path r) (sr_id r) = Some (AExt (XSliceStack st)) -> forall s, In s (ss_slices st) -> Height m (sl_top s)) ->
  LastOk a b -> (errs = None -> errs' = None) ->
  refs_loop m path i l a errs = None -> errs = None /\ refs_loop m' path i l b errs' = None.
Proof.
  induction l as [|r l IH]; intros i a b errs errs' HT LO EE E; [split; [exact E|apply EE, E]|]. revert E. cbn [refs_loop].
  assert (HT' : forall r st, In r l -> find_asset m (sr_path r) (sr_id r) = Some (AExt (XSliceStack st)) -> forall s, In s (ss_slices st) -> Height m (sl_top s)) by (intros r' st I; apply HT; right; exact I).
  assert (BAD : forall e1 e2, e1 <> None -> refs_loop m path (S i) l a e1 = None -> errs = None /\ refs_loop m' path (S i) l b e2 = None).
  { intros e1 e2 N C. destruct (IH (S i) a b e1 e2 HT' LO (fun K => False_ind _ (N K)) C) as [K _]. destruct (N K). }
  assert (NA : forall e s, add e (at_index (sent s) "sliceref" i) <> None) by (intros e s C; apply add_none in C as [_ C]; destruct (at_some _ _ _ (sent_some _) C)).
  assert (NM : forall e s, add e (at_index (missing s) "sliceref" i) <> None) by (intros e s C; apply add_none in C as [_ C]; destruct (at_some _ _ _ (missing_some _) C)).
  destruct (seq (sr_path r) "").
  { destruct (sr_id r =? 0)%N; cbn [negb]; apply BAD; apply NM. }
  destruct (seq (sr_path r) path).
  { destruct (sr_id r =? 0)%N; cbn [negb]; apply BAD; [apply NM|apply NA]. }
  destruct (sr_id r =? 0)%N; cbn [negb]; [apply BAD, NM|]. rewrite find_asset_rt.
  destruct (find_asset m (sr_path r) (sr_id r)) as [[bb|id ts|[]]|] eqn:EF; cbn [option_map rt_asset rt_ext]; try (apply BAD, NA).
  rename s into st. cbn [rt_stack ss_refs ss_slices]. pose proof (HT r st (or_introl eq_refl) EF) as HS.
  assert (LO' : LastOk (match rev (ss_slices st) with s1 :: _ => sl_top s1 | [] => a end) (match rev (map (rt_slice p) (ss_slices st)) with s1 :: _ => sl_top s1 | [] => b end)).
  { rewrite <- map_rev. destruct (rev (ss_slices st)) as [|s1 sl] eqn:ER; [exact LO|]. right. split; [|reflexivity]. apply HS, in_rev. rewrite ER. left. reflexivity. }
  intros E. match type of E with refs_loop _ _ _ _ _ ?x = None => set (e1 := x) in E end. match goal with |- _ /\ refs_loop _ _ _ _ _ ?x = None => set (e2 := x) end.
  assert (K : e1 = None -> errs = None /\ e2 = None).
  { subst e1 e2. destruct (ss_slices st) as [|s0 sl]; cbn [map].
    - rewrite !if_at by apply sent_some. intros [A C]. split; [exact A|]. split; [apply EE, A|exact C].
    - rewrite !if_at by apply sent_some. intros [[A C] D]. split; [exact A|]. split; [split; [apply EE, A|exact C]|]. cbn [rt_slice sl_top]. apply (last_kept _ a); [|exact LO|exact D].
      apply HS. left. reflexivity. }
  destruct (IH (S i) _ _ e1 e2 HT' LO' (fun C => proj2 (K C)) E) as [A C]. split; [apply K, A|exact C].
Qed.
Lemma slice_stack_rt path st : Num (ss_bottom st) -> (forall s, In s (ss_slices st) -> Height m (sl_top s)) ->
  (forall r st', In r (ss_refs st) -> find_asset m (sr_path r) (sr_id r) = Some (AExt (XSliceStack st')) -> forall s, In s (ss_slices st') -> Height m (sl_top s)) ->
  slice_stack_validate m path st = None -> slice_stack_validate m' path (rt_stack p st) = None.
Proof.
  intros NB H1 H2. unfold slice_stack_validate. cbn [rt_stack ss_slices ss_refs ss_bottom]. rewrite !add_none, !if_sent, !is_nil_map. intros (((_ & A) & C) & D).
  split; [split; [split; [reflexivity|exact A]|]|].
  - apply (refs_loop_rt path (ss_refs st) 0 f_lowest f_lowest None None H2 (or_introl (conj eq_refl eq_refl)) (fun H => H) C).
  - apply (slices_loop_rt _ NB (ss_slices st) 0 f_lowest f_lowest None None H1 (or_introl (conj eq_refl eq_refl)) (fun H => H) D).
Qed.
End Revalid.
