(** * Validity of what is read: the model *)
From Coq Require Import ZArith Reals Lra Lia Permutation.
From Verif Require Import GoBase GoNum GoUtf8 GoFloat GoStrconv Types XmlTypes PkgTypes M_Core M_Errors P_Errors M_Geom M_Text M_Validate M_ExtValidate M_Decode
  S_Core S_Errors S_Geom S_Strconv S_Text S_Package S_PkgTrip S_Validate S_RoundTrip P_Core P_Float P_Strconv P_RTText P_RTExt P_RTCore P_Stable P_RTPkg P_Validate2 T_Validate T_ExtProd S_Revalid P_Revalid P_Revalid2.

(** ** Relationships *)
Lemma firsts_in {A} (R : A -> A -> Prop) seen l out : Firsts R seen l out -> forall x, In x out -> In x l.
Proof. induction 1 as [|seen x l out N H IH|seen x l out y I R1 H IH]; intros z Hz; [exact Hz| |right; apply IH, Hz]. destruct Hz as [->|Hz]; [left; reflexivity|right; apply IH, Hz]. Qed.
Lemma firsts_distinct seen l out : Firsts SameKey seen l out ->
  NoDup (map (fun r => (rel_path r, rel_type r)) out) /\ forall x y, In x out -> In y seen -> ~ SameKey y x.
Proof.
  induction 1 as [seen|seen x l out N H [IH1 IH2]|seen x l out y I R1 H [IH1 IH2]]; [split; [constructor|intros x y []]| |split; assumption].
  split.
  - cbn [map]. constructor; [|exact IH1]. intros C. apply in_map_iff in C as (z & E & Hz). injection E as E1 E2. apply (IH2 z x Hz); [apply in_or_app; right; left; reflexivity|]. split; congruence.
  - intros z y [<-|Hz] Hy; [apply N, Hy|]. apply IH2; [exact Hz|apply in_or_app; left; exact Hy].
Qed.
Lemma same_in l l' : SameRels l l' -> forall r', In r' l' -> exists r, In r l /\ SameRel r r'.
Proof.
  induction 1 as [|r r' l l' S H IH]; intros z Hz; [destruct Hz|]. destruct Hz as [<-|Hz]; [exists r; split; [left; reflexivity|exact S]|].
  destruct (IH z Hz) as (w & Hw & Sw). exists w. split; [right; exact Hw|exact Sw].
Qed.
Lemma same_nth l l' : SameRels l l' -> forall i r', nth_error l' i = Some r' -> exists r, nth_error l i = Some r /\ SameRel r r'.
Proof.
  induction 1 as [|r r' l l' S H IH]; intros i z Hz; [destruct i; discriminate|]. destruct i; [injection Hz as <-; exists r; auto|apply IH, Hz].
Qed.
Lemma same_keys l l' : SameRels l l' -> map (fun r => (rel_path r, rel_type r)) l' = map (fun r => (rel_path r, rel_type r)) l.
Proof. induction 1 as [|r r' l l' (E1 & E2 & _) H IH]; [reflexivity|]. cbn [map]. rewrite E1, E2, IH. reflexivity. Qed.
Lemma fold_slower a b : eq_fold a b = true <-> slower a = slower b.
Proof. unfold eq_fold. apply seq_true. Qed.
Lemma designates_any atts atts' q a : NoDup (map (fun x => slower (at_path x)) atts) -> Permutation atts atts' -> Designates atts' q a -> Designates atts q a.
Proof.
  intros ND PE (bf & af & E & EQ & _). assert (I : In a atts) by (apply Permutation_in with atts'; [apply Permutation_sym, PE|rewrite E; apply in_or_app; right; left; reflexivity]).
  apply in_split in I as (b1 & a1 & E1). exists b1, a1. split; [exact E1|]. split; [exact EQ|]. apply Forall_forall. intros x Hx. destruct (eq_fold (at_path x) q) eqn:EX; [exfalso|reflexivity].
  apply fold_slower in EX, EQ. rewrite E1, map_app in ND. cbn [map] in ND. apply NoDup_remove_2 in ND. apply ND, in_or_app. left. rewrite EQ, <- EX. apply (in_map (fun x => slower (at_path x))), Hx.
Qed.
Lemma rels_kept atts atts' own added l' :
  NoDup (map (fun x => slower (at_path x)) atts) -> Permutation atts atts' ->
  RelsConform atts own -> (forall r, In r added -> rel_type r <> print_ticket_type) ->
  (forall r, In r (own ++ added) -> PartName (rel_path r) /\ In (rel_path r) (map at_path atts)) ->
  RelsRead (own ++ added) l' -> RelsConform atts' l'.
Proof.
  intros ND PE (C1 & C2 & C3 & C4) NT OK (out & W & S). destruct (firsts_distinct _ _ _ W) as [D _]. pose proof (firsts_in _ _ _ _ W) as SUB.
  assert (OWN : forall r, In r out -> rel_type r = print_ticket_type -> In r own).
  { intros r Hr T. apply SUB, in_app_or in Hr as [Hr|Hr]; [exact Hr|destruct (NT r Hr T)]. }
  split; [|split; [rewrite (same_keys _ _ S); exact D|split]].
  - intros r' Hr'. destruct (same_in _ _ S r' Hr') as (r & Hr & E1 & E2 & _). rewrite E1. destruct (OK r (SUB r Hr)) as [P1 P2]. split; [exact P1|].
    apply in_map_iff in P2 as (a & Ea & Ia). exists a. split; [apply Permutation_in with atts; assumption|]. rewrite Ea. apply eq_fold_refl.
  - intros r' a Hr' T Da. destruct (same_in _ _ S r' Hr') as (r & Hr & E1 & E2 & _). rewrite E1 in Da. rewrite E2 in T. apply (C3 r a (OWN r Hr T) T). apply (designates_any atts atts'); assumption.
  - intros i j r' r2' Hi Hj T1 T2. destruct (same_nth _ _ S i r' Hi) as (r & Ri & E1 & E2 & _). destruct (same_nth _ _ S j r2' Hj) as (r2 & Rj & E3 & E4 & _). rewrite E2 in T1. rewrite E4 in T2.
    pose proof (OWN r (nth_error_In _ _ Ri) T1) as O1. pose proof (OWN r2 (nth_error_In _ _ Rj) T2) as O2.
    apply In_nth_error in O1 as (k1 & K1). apply In_nth_error in O2 as (k2 & K2). pose proof (C4 k1 k2 r r2 K1 K2 T1 T2) as EK. subst k2. rewrite K1 in K2. injection K2 as <-.
    apply (NoDup_nth_error (map (fun r => (rel_path r, rel_type r)) out)); [exact D| |].
    + rewrite map_length. apply nth_error_Some. congruence.
    + rewrite !nth_error_map, Ri, Rj. reflexivity.
Qed.
Lemma demands_types r x : In x (demands r) -> rel_type x <> print_ticket_type.
Proof.
  unfold demands. rewrite in_app_iff, !in_flat_map. intros [(a & _ & H)|(o & _ & H)].
  - destruct a as [b|id ts|[]]; try destruct H. subst x. discriminate. destruct H.
  - unfold demand_object in H. destruct (ob_thumb o); [destruct H|]. destruct H as [<-|[]]. discriminate.
Qed.
Lemma thumb_types m x : In x (thumb_rels m) -> rel_type x <> print_ticket_type.
Proof. unfold thumb_rels. destruct (mo_thumb m); [intros []|]. intros [<-|[]]. discriminate. Qed.

(** ** The model *)
Section Kept.
Context (normalize : string -> string) (resolve : string -> string -> string) (known : string -> Prop) (p : nat) (m m' : Model) (fuel : nat) (loaded : string -> Prop).
Context (F : PackageFits normalize resolve known p m) (R : Robust p m) (SP : SamePackage p m m') (RP : RtPackage p m m').
Local Notation root := (S_PkgTrip.root_path m).
Lemma root_default : root = path_or_default m.
Proof. unfold S_PkgTrip.root_path, path_or_default. destruct (mo_path m); reflexivity. Qed.
Lemma root_some : root <> "".
Proof. unfold S_PkgTrip.root_path. destruct (mo_path m); discriminate. Qed.
Lemma distinct_paths : NoDup (all_paths m).
Proof. apply (NoDup_map_inv slower). exact (pf_distinct _ _ _ _ _ F). Qed.
Lemma childs_ok : ChildsOk m.
Proof.
  pose proof distinct_paths as H. unfold all_paths in H. apply NoDup_cons_iff in H as [_ H]. unfold ChildsOk. revert H. generalize (map fst (mo_childs m)) (map at_path (mo_atts m)).
  intros a b. induction a as [|x a IH]; intros H; [constructor|]. cbn [app] in H. apply NoDup_cons_iff in H as [H1 H2]. constructor; [intros C; apply H1, in_or_app; auto|apply IH, H2].
Qed.
Lemma atts_distinct : NoDup (map (fun x => slower (at_path x)) (mo_atts m)).
Proof.
  pose proof (pf_distinct _ _ _ _ _ F) as H. unfold all_paths in H. cbn [map] in H. apply NoDup_cons_iff in H as [_ H]. rewrite map_app, !map_map in H.
  revert H. generalize (map (fun x : string * Child => slower (fst x)) (mo_childs m)). intros a. induction a as [|x a IH]; intros H; [exact H|]. cbn [app] in H. apply NoDup_cons_iff in H as [_ H]. apply IH, H.
Qed.
Lemma child_not_root k c : In (k, c) (mo_childs m) -> k <> root.
Proof.
  intros H E. pose proof distinct_paths as D. unfold all_paths in D. apply NoDup_cons_iff in D as [D _]. apply D, in_or_app. left. rewrite <- E. apply (in_map fst _ _ H).
Qed.
Lemma child_from k c' : In (k, c') (mo_childs m') -> exists c, In (k, c) (mo_childs m) /\ ch_res c' = rt_res p (ch_res c) /\ RelsRead (part_rels (ch_rels c) (ch_res c)) (ch_rels c').
Proof.
  intros H. assert (K : In k (map fst (mo_childs m))) by (apply Permutation_in with (map fst (mo_childs m')); [apply Permutation_sym, (sp_names _ _ _ SP)|apply (in_map fst _ _ H)]).
  apply in_map_iff in K as ((k0 & c) & E & I). cbn [fst] in E. subst k0. exists c. split; [exact I|].
  assert (U : forall x, In (k, x) (mo_childs m') -> x = c').
  { intros x Hx. pose proof (rp_distinct _ _ _ RP) as ND. pose proof (in_aget (mo_childs m') k x ND Hx). pose proof (in_aget (mo_childs m') k c' ND H). congruence. }
  destruct (rp_children _ _ _ RP k c I) as (c1 & I1 & E1). rewrite (U _ I1) in E1. destruct (sp_children _ _ _ SP k c I) as (c2 & I2 & _ & _ & RR). rewrite (U _ I2) in RR. auto.
Qed.
Lemma resources_rt path : find_resources m' path = option_map (rt_res p) (find_resources m path).
Proof.
  unfold find_resources. rewrite (sp_path _ _ _ SP), (rp_res _ _ _ RP).
  assert (E : forall a, (seq a "" || seq a root || (seq root "" && seq a DefaultModelPath)) = (seq a "" || seq a (mo_path m) || (seq (mo_path m) "" && seq a DefaultModelPath))).
  { intros a. assert (seq root "" = false) as Q by (apply seq_false; apply root_some). rewrite Q. cbn [andb]. rewrite orb_false_r. unfold S_PkgTrip.root_path. destruct (mo_path m) as [|ch s].
    - destruct (seq a ""); reflexivity.
    - cbn [andb seq String.eqb]. rewrite orb_false_r. reflexivity. }
  rewrite E. destruct (_ || _); [reflexivity|]. unfold find_child. destruct (aget seq path (mo_childs m')) as [c'|] eqn:A'.
  - apply aget_in in A'. destruct (child_from path c' A') as (c & I & Ec & _). rewrite (in_aget (mo_childs m) path c childs_ok I). cbn [option_map]. rewrite Ec. reflexivity.
  - destruct (aget seq path (mo_childs m)) as [c|] eqn:A; [|reflexivity]. apply aget_in in A. destruct (rp_children _ _ _ RP path c A) as (c1 & I1 & _).
    rewrite (in_aget _ path c1 (rp_distinct _ _ _ RP) I1) in A'. discriminate.
Qed.
Lemma default_rt : path_or_default m' = path_or_default m.
Proof.
  rewrite <- root_default. unfold path_or_default at 1. rewrite (sp_path _ _ _ SP). assert (seq root "" = false) as -> by (apply seq_false; apply root_some). reflexivity.
Qed.

(** *** Which resources there are, and how they fit *)
Lemma found_part path rs : find_resources m path = Some rs -> PartRes m rs.
Proof.
  unfold find_resources. destruct (_ || _); [intros E; injection E as <-; left; reflexivity|]. destruct (find_child m path) as [c|] eqn:A; [|discriminate]. intros E. injection E as <-.
  right. exists path, c. split; [apply aget_in, A|reflexivity].
Qed.
Lemma part_fits rs : PartRes m rs -> exists pre, ResFits (env_of m) known p pre rs.
Proof.
  intros [->|(k & c & I & ->)].
  - destruct (pf_model _ _ _ _ _ F) as (_ & _ & H & _). eauto.
  - destruct (pf_childs _ _ _ _ _ F k c I) as [H _]. eauto.
Qed.
Lemma found_obj path id o : find_object m path id = Some o -> exists rs, PartRes m rs /\ In o (rs_objects rs).
Proof.
  unfold find_object. destruct (find_resources m path) as [rs|] eqn:E; [|discriminate]. intros H. exists rs. split; [apply (found_part path), E|].
  apply find_obj_spec in H as (b & a & -> & _). apply in_or_app. right. left. reflexivity.
Qed.
Lemma found_ast path id o : find_asset m path id = Some o -> exists rs, PartRes m rs /\ In o (rs_assets rs).
Proof.
  unfold find_asset. destruct (find_resources m path) as [rs|] eqn:E; [|discriminate]. intros H. exists rs. split; [apply (found_part path), E|].
  apply find_ast_spec in H as (b & a & -> & _). apply in_or_app. right. left. reflexivity.
Qed.
Lemma comps_fit rs o cs : PartRes m rs -> In o (rs_objects rs) -> ob_comps o = Some cs -> Forall (fun c => TransformFits (co_tr c)) (cs_list cs).
Proof.
  intros PR I E. destruct (part_fits rs PR) as (pre & _ & FO & _). rewrite Forall_forall in FO. destruct (FO o I) as (_ & _ & _ & _ & _ & _ & _ & _ & _ & H). rewrite E in H.
  destruct (ob_mesh o); [destruct H|]. destruct H as (_ & _ & H & _). revert H. apply Forall_impl. intros c (_ & T & _). exact T.
Qed.
Lemma items_fit : Forall (fun i => TransformFits (it_tr i)) (bu_items (mo_build m)).
Proof. destruct (pf_model _ _ _ _ _ F) as (_ & _ & _ & (H & _) & _). revert H. apply Forall_impl. intros i (_ & T & _). exact T. Qed.

(** *** The validators *)
Definition ElemNil (m : Model) (path : string) (el : VElem) : Prop :=
  forall e v, In e (mo_exts m) -> registry fuel (ex_ns e) = Some v -> v m path el = None.
Lemma elem_nil n path el : ElemConforms (Reports (registry fuel)) n path el <-> ElemNil n path el.
Proof.
  split.
  - intros H e v I E. apply (C20_registry_proper fuel _ _ _ _ _ E). destruct (located_o (v n path el)) as [|x l] eqn:L; [reflexivity|]. exfalso. apply (H e x I). exists v. split; [exact E|]. rewrite L. left. reflexivity.
  - intros H e x I (v & E & IX). rewrite (H e v I E) in IX. destruct IX.
Qed.
Lemma elem_kept path path' el el' :
  (materials_validate m path el = None -> materials_validate m' path' el' = None) ->
  (beamlattice_validate m path el = None -> beamlattice_validate m' path' el' = None) ->
  (or_nil (slices_validate fuel m path el) = None -> or_nil (slices_validate fuel m' path' el') = None) ->
  (production_validate m path el = None -> production_validate m' path' el' = None) ->
  ElemNil m path el -> ElemNil m' path' el'.
Proof.
  intros H1 H2 H3 H4 H e v I. rewrite (rp_exts _ _ _ RP) in I. pose proof (H e) as K. revert K. unfold registry. intros K E.
  destruct (seq (ex_ns e) ns_materials); [injection E as <-; apply H1, K; auto|].
  destruct (seq (ex_ns e) ns_beamlattice); [injection E as <-; apply H2, K; auto|].
  destruct (seq (ex_ns e) ns_slices); [injection E as <-; apply H3; exact (K _ I eq_refl)|].
  destruct (seq (ex_ns e) ns_production); [injection E as <-; apply H4, K; auto|discriminate].
Qed.
Lemma model_elem path path' : ElemNil m path VModel -> ElemNil m' path' VModel.
Proof.
  apply elem_kept; try reflexivity. intros H. change (production_validate m' path' VModel) with (production_validate m' path VModel).
  rewrite (production_model_rt m m' (rp_build _ _ _ RP) default_rt). exact H.
Qed.
Lemma asset_elem rs path a : PartRes m rs -> In a (rs_assets rs) -> ElemNil m path (VAsset a) -> ElemNil m' path (VAsset (rt_asset p a)).
Proof.
  intros PR I. apply elem_kept; try reflexivity.
  - rewrite (materials_rt p m m' resources_rt (sp_attachments _ _ _ SP)). exact (fun H => H).
  - destruct a as [b|id ts|[t|g|g|g|g|st|g]]; try (intros _; reflexivity). cbn [slices_validate rt_asset rt_ext or_nil].
    apply (slice_stack_rt p m m' resources_rt (ro_tops _ _ R) (ro_apart _ _ R)).
    + destruct (part_fits rs PR) as (pre & FA & _). rewrite Forall_forall in FA. destruct (FA _ I) as [(_ & _ & _ & N & _) _]. exact N.
    + intros s Hs. exists rs, st, s. auto.
    + intros r st' _ E s Hs. destruct (found_ast _ _ _ E) as (rs' & PR' & I'). exists rs', st', s. auto.
Qed.
Lemma object_elem rs path o : PartRes m rs -> In o (rs_objects rs) -> ElemNil m path (VObject o) -> ElemNil m' path (VObject (rt_obj p o)).
Proof.
  intros PR I. apply elem_kept; try reflexivity.
  - cbn [beamlattice_validate]. destruct (part_fits rs PR) as (pre & _ & FO & _). rewrite Forall_forall in FO.
    apply (lattice_none_rt p m m' resources_rt (env_of m) known). { right. exists pre. apply FO, I. }
    intros me g E IG. apply (ro_lattices _ _ R rs o me g PR I E IG).
  - cbn [slices_validate]. apply (slice_object_rt p m m' (rp_exts _ _ _ RP) resources_rt (rp_build _ _ _ RP)).
    + intros q id o' cs E. destruct (found_obj _ _ _ E) as (rs' & PR' & I'). apply (comps_fit rs' o' cs PR' I').
    + apply items_fit.
  - rewrite (production_object_rt p m m' default_rt). exact (fun H => H).
Qed.

(** *** The rules of the core *)
Lemma childs_ok' : ChildsOk m'.
Proof. exact (rp_distinct _ _ _ RP). Qed.
Lemma asset_in_rt path id a' : AssetIn m' path id a' <-> exists a, AssetIn m path id a /\ a' = rt_asset p a.
Proof.
  rewrite <- (asset_in m' path id a' childs_ok'), (res_find_asset_rt p m m' resources_rt). split.
  - destruct (res_find_asset m path id) as [a|] eqn:E; [|discriminate]. cbn [option_map]. intros H. injection H as <-. exists a. split; [apply asset_in; [apply childs_ok|exact E]|reflexivity].
  - intros (a & H & ->). apply asset_in in H; [|apply childs_ok]. rewrite H. reflexivity.
Qed.
Lemma obj_in_rt path id a : ObjIn m path id a -> ObjIn m' path id (rt_obj p a).
Proof.
  intros H. apply obj_in in H; [|apply childs_ok]. apply (obj_in m' path id _ childs_ok'). rewrite (find_object_rt p m m' resources_rt), H. reflexivity.
Qed.
Lemma size_rt a n : GroupSize (rt_asset p a) n -> GroupSize a n.
Proof.
  destruct a as [b|id ts|[t|g|g|g|g|g|g]]; cbn [rt_asset rt_ext]; intros H; inversion H; subst; try constructor.
  - cbn [rt_texg tg_coords]. rewrite map_length. constructor.
  - cbn [rt_comp cm_comps]. rewrite map_length. constructor.
Qed.
Lemma declared_rt ns : S_Validate.Declared m ns -> S_Validate.Declared m' ns.
Proof. unfold S_Validate.Declared. rewrite (rp_exts _ _ _ RP). exact (fun H => H). Qed.
Lemma meta_rt l : MetaConforms m l -> MetaConforms m' l.
Proof. intros [H D]. split; [|exact D]. intros md I. destruct (H md I) as (A & B & C). split; [exact A|]. split; [exact B|]. intros N. apply declared_rt, C, N. Qed.
Lemma mesh_rt path o me : MeshConforms m path o me -> MeshConforms m' path (rt_obj p o) (rt_mesh p o me).
Proof.
  intros [H1 H2]. split.
  - intros S. destruct (H1 S) as [A B]. cbn [rt_mesh me_verts me_tris me_ext]. rewrite !map_length. split; [exact A|]. destruct B as [B|B]; [left; exact B|right]. destruct (me_ext me); [destruct (B eq_refl)|discriminate].
  - cbn [rt_mesh me_verts me_tris]. rewrite map_length. intros t' I. apply in_map_iff in I as (t & <- & I). destruct (H2 t I) as (A & B & C). unfold with_defaults. destruct (N.eqb_spec (t_pid t) 0) as [Z|Z].
    + cbn [t_v1 t_v2 t_v3 t_pid t_p1 t_p2 t_p3]. split; [exact A|]. split; [exact B|]. intros _ N. exfalso. apply N. repeat split.
    + split; [exact A|]. split; [exact B|]. intros _ N. destruct (C Z N) as [(a & Ha) D]. split; [exists (rt_asset p a); apply asset_in_rt; exists a; auto|].
      intros a' n q Ha' GS. apply asset_in_rt in Ha' as (a2 & Ha2 & ->). apply (D a2 n q Ha2). apply size_rt, GS.
Qed.
Lemma obj_conforms_rt path o : ObjConforms m path o -> ObjConforms m' path (rt_obj p o).
Proof.
  intros (H1 & H2 & H3). split; [exact H1|]. split; [exact H2|]. destruct H3 as [(me & E1 & E2 & A & B)|(cs & E1 & E2 & A & B)].
  - left. exists (rt_mesh p o me). cbn [rt_obj ob_mesh ob_comps ob_pid ob_pindex]. rewrite E1, E2. split; [reflexivity|]. split; [reflexivity|]. split; [|apply mesh_rt, B].
    intros N. destruct (A N) as [(a & Ha) D]. split; [exists (rt_asset p a); apply asset_in_rt; exists a; auto|].
    intros a' n Ha' GS. apply asset_in_rt in Ha' as (a2 & Ha2 & ->). apply (D a2 n Ha2). apply size_rt, GS.
  - right. exists (rt_comps cs). cbn [rt_obj ob_mesh ob_comps ob_pid]. rewrite E1, E2. split; [reflexivity|]. split; [reflexivity|]. cbn [rt_comps cs_list]. split.
    + intros N. apply A. intros C. apply N. rewrite C. reflexivity.
    + intros c' I. apply in_map_iff in I as (c & <- & I). destruct (B c I) as (C1 & q & r & T & O & N). split; [exact C1|]. exists q, (rt_obj p r). split; [exact T|]. split; [apply obj_in_rt, O|exact N].
Qed.
Lemma filter_rt {A} (f : A -> A) (k : A -> N) id l : (forall a, k (f a) = k a) -> List.length (filter (fun a => (k a =? id)%N) (map f l)) = List.length (filter (fun a => (k a =? id)%N) l).
Proof. intros H. induction l as [|a l IH]; [reflexivity|]. cbn [map filter]. rewrite H. destruct (_ =? _)%N; cbn [List.length]; rewrite IH; reflexivity. Qed.
Local Notation RC := (ResConforms (Reports (registry fuel))).
Lemma res_rt path rs : PartRes m rs -> RC m path rs -> RC m' path (rt_res p rs).
Proof.
  intros PR (H1 & H2 & H3 & H4). split; [|split; [|split]].
  - intros k N. unfold id_count. cbn [rt_res rs_assets rs_objects]. rewrite (filter_rt (rt_asset p) asset_id k _ (asset_id_rt p)), (filter_rt (rt_obj p) ob_id k _ (fun _ => eq_refl)). apply H1, N.
  - intros b I. cbn [rt_res rs_assets] in I. apply in_map_iff in I as (a & E & I). destruct a as [b'|id ts|[]]; try discriminate. injection E as ->. apply H2, I.
  - intros a' I. cbn [rt_res rs_assets] in I. apply in_map_iff in I as (a & <- & I). apply elem_nil, (asset_elem rs); [exact PR|exact I|]. apply elem_nil, H3, I.
  - intros o' I. cbn [rt_res rs_objects] in I. apply in_map_iff in I as (o & <- & I). destruct (H4 o I) as [A B]. split; [apply obj_conforms_rt, A|].
    apply elem_nil, (object_elem rs); [exact PR|exact I|]. apply elem_nil, B.
Qed.
Lemma item_rt it : ItemConforms m it -> ItemConforms m' (rt_item it).
Proof. intros (A & (q & o & C & O & T) & M). split; [exact A|]. split; [|apply meta_rt, M]. exists q, (rt_obj p o). split; [exact C|]. split; [apply obj_in_rt, O|exact T]. Qed.
Lemma targets_ok r : In r (all_rels m) -> PartName (rel_path r) /\ In (rel_path r) (map at_path (mo_atts m)).
Proof. intros H. split; [apply (ro_names _ _ R), H|apply (pf_targets _ _ _ _ _ F), H]. Qed.
Theorem conforms_rt : Conforms loaded (Reports (registry fuel)) m -> Conforms loaded (Reports (registry fuel)) m'.
Proof.
  intros (H1 & H2 & H3 & H4 & H5 & H6 & H7 & H8).
  assert (PR0 : S_Validate.root_path m' = S_Validate.root_path m) by exact default_rt.
  split; [rewrite (rp_exts _ _ _ RP); exact H1|]. split; [|split; [|split; [|split; [|split; [|split]]]]].
  - apply (rels_kept (mo_atts m) (mo_atts m') (mo_rootrels m) (thumb_rels m)); [apply atts_distinct|apply (sp_attachments _ _ _ SP)|exact H2|apply thumb_types| |apply (sp_rootrels _ _ _ SP)].
    intros r I. apply targets_ok. unfold all_rels. apply in_or_app. left. exact I.
  - apply (rels_kept (mo_atts m) (mo_atts m') (mo_rels m) (demands (mo_res m))); [apply atts_distinct|apply (sp_attachments _ _ _ SP)|exact H3|apply demands_types| |apply (sp_rels _ _ _ SP)].
    intros r I. apply targets_ok. unfold all_rels. apply in_or_app. right. apply in_or_app. left. exact I.
  - rewrite (rp_md _ _ _ RP). apply meta_rt, H4.
  - apply elem_nil, (model_elem (mo_path m)), elem_nil, H5.
  - rewrite PR0, (rp_res _ _ _ RP). apply res_rt; [left; reflexivity|exact H6].
  - intros k c' I. destruct (child_from k c' I) as (c & Ic & Er & Rr). destruct (H7 k c Ic) as (A & B & C). split; [rewrite PR0; exact A|]. split.
    + apply (rels_kept (mo_atts m) (mo_atts m') (ch_rels c) (demands (ch_res c))); [apply atts_distinct|apply (sp_attachments _ _ _ SP)|exact B|apply demands_types| |exact Rr].
      intros r Ir. apply targets_ok. unfold all_rels. apply in_or_app. right. apply in_or_app. right. apply in_flat_map. exists (k, c). split; [exact Ic|exact Ir].
    + rewrite Er. apply res_rt; [right; eauto|exact C].
  - rewrite (rp_build _ _ _ RP). cbn [rt_build bu_items]. intros it' I. apply in_map_iff in I as (it & <- & I). apply item_rt, H8, I.
Qed.
Lemma small_rt : SmallVertices m -> SmallVertices m'.
Proof.
  intros H rs o me PR I E. assert (Q : exists rs0, PartRes m rs0 /\ rs = rt_res p rs0).
  { destruct PR as [->|(k & c' & Ic & ->)]; [exists (mo_res m); split; [left; reflexivity|apply (rp_res _ _ _ RP)]|]. destruct (child_from k c' Ic) as (c & Ic' & Er & _). exists (ch_res c). split; [right; eauto|exact Er]. }
  destruct Q as (rs0 & PR0 & ->). cbn [rt_res rs_objects] in I. apply in_map_iff in I as (o0 & <- & I). cbn [rt_obj ob_mesh] in E. destruct (ob_mesh o0) as [me0|] eqn:E0; [|discriminate]. cbn [option_map] in E. injection E as <-.
  cbn [rt_mesh me_verts]. rewrite map_length. apply (H rs0 o0 me0 PR0 I E0).
Qed.
End Kept.
