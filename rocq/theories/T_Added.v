(** * Theorems: what Validate reports about a model to which something was added: C88 *)
From Coq Require Import ZArith Lia.
From Verif Require Import GoBase GoFloat Types M_Core M_Errors M_Geom M_Validate M_ExtValidate S_Core S_Errors S_Geom S_Validate S_ExtValidate S_ExtProd S_Added
  P_Core P_Errors P_Geom P_Validate P_Validate2 P_Validate3 P_ExtSlices P_ExtSlices2 P_Added T_Core T_Geom T_Validate T_ExtMat T_ExtBeam T_ExtSlices T_ExtProd.
From Verif Require Import Types.
Local Open Scope list_scope.

(** The validator of the slices extension returns (C57). *)
Definition Returns (fuel : nat) (m : Model) : Prop := forall path el, exists e, slices_validate fuel m path el = Some e.

Lemma small_added m m' : Added m m' -> SmallVertices m' -> SmallVertices m.
Proof.
  intros A S rs o me [->|(p & c & I & ->)] J M.
  - destruct (ad_res _ _ A) as (a & os & _ & E & _). apply (S (mo_res m') o me); [left; reflexivity|rewrite E; apply in_or_app; left; exact J|exact M].
  - destruct (ad_child m m' A p c I) as (c' & I' & G). destruct G as (_ & _ & (a & os & _ & E & _)). cbn [snd] in E.
    apply (S (ch_res c') o me); [right; eauto|rewrite E; apply in_or_app; left; exact J|exact M].
Qed.

(** C88: whatever Validate reports about a model that was valid before resources, objects, items, metadata, relationships,
    attachments or parts were appended to it is located at something that was appended, with one exception: objects with
    slices that the validator of the slices extension now finds, and did not find before, placed with a rotation. *)
Theorem C88_added : forall loaded fuel m m', validate loaded (registry fuel) m = None -> Returns fuel m ->
  Added m m' -> SmallVertices m' ->
  forall loc p k, In (loc, p, k) (located_o (validate loaded (registry fuel) m')) ->
    NewPlace m m' loc p \/ (k = ESent "ErrSliceInvalidTranform" /\ Displaced m m' loc p).
Proof.
  intros loaded fuel m m' V R A S loc p k I.
  apply C20_validate_nil in V; [|apply C20_registry_proper|exact (ad_ok m m' A)|exact (small_added m m' A S)].
  apply C21_validate_reports in I; [|apply C20_registry_proper|exact (ad_ok' m m' A)|exact S].
  eapply (added_places m m' A fuel); [|exact V|exact I]. intros q el E. destruct (R q el) as (e & X). congruence.
Qed.
Print Assumptions C88_added.

(** C88: so without the slices extension a valid model stays valid unless Validate reports something at what was added. *)
Theorem C88_valid_partial : forall loaded fuel m m', validate loaded (registry fuel) m = None -> Returns fuel m ->
  ~ In slice_ns (map ex_ns (mo_exts m)) -> Added m m' -> SmallVertices m' ->
  (forall loc p k, NewPlace m m' loc p -> ~ In (loc, p, k) (located_o (validate loaded (registry fuel) m'))) ->
  validate loaded (registry fuel) m' = None.
Proof.
  intros loaded fuel m m' V R NS A S H.
  assert (Z : forall x, ~ In x (located_o (validate loaded (registry fuel) m'))).
  { intros [[loc p] k] I. destruct (C88_added loaded fuel m m' V R A S loc p k I) as [N|[_ D]]; [exact (H _ _ _ N I)|]. destruct D. contradiction. }
  apply (nn_validate loaded (registry fuel) (C20_registry_proper fuel)).
  destruct (located_o (validate loaded (registry fuel) m')) as [|x l]; [reflexivity|]. destruct (Z x). left. reflexivity.
Qed.
Print Assumptions C88_valid_partial.

(** Adding an object under an unused identifier *)
Lemma with_object_added m o m' : WithObject m o m' -> NoDup (map fst (mo_childs m)) ->
  (forall p, In p (map fst (mo_childs m)) -> p <> "" /\ p <> root_path m) -> Added m m'.
Proof.
  intros -> ND NM. assert (LN : forall A (l : list A), Longer l l) by (intros A l; exists []; symmetry; apply app_nil_r).
  constructor; cbn [mo_path mo_exts mo_atts mo_md mo_rootrels mo_rels mo_res mo_build mo_childs]; try reflexivity; try apply LN; [| |exact ND|exact NM].
  - exists [], [o]. cbn [rs_assets rs_objects]. split; [symmetry; apply app_nil_r|]. split; [reflexivity|]. intros x y [].
  - exists (mo_childs m), []. split; [symmetry; apply app_nil_r|]. clear -LN. induction (mo_childs m) as [|[p c] l IH]; constructor; [|exact IH].
    split; [reflexivity|]. split; [apply LN|]. exists [], []. split; [symmetry; apply app_nil_r|]. split; [symmetry; apply app_nil_r|]. intros x y [].
Qed.
Theorem C88_object_partial : forall loaded fuel m o m', validate loaded (registry fuel) m = None -> Returns fuel m ->
  ~ In slice_ns (map ex_ns (mo_exts m)) -> NoDup (map fst (mo_childs m)) -> ~ In "" (map fst (mo_childs m)) ->
  DistinctIds (mo_res m) -> (N.of_nat (List.length (rs_assets (mo_res m)) + List.length (rs_objects (mo_res m))) < 2 ^ 32 - 1)%N ->
  ob_id o = unused_id (mo_res m) -> WithObject m o m' -> SmallVertices m' ->
  (validate loaded (registry fuel) m' = None <->
   ObjConforms m' (root_path m) o /\ ElemConforms (Reports (registry fuel)) m' (root_path m) (VObject o)).
Proof.
  intros loaded fuel m o m' V RT NS ND NE DI FR ID WO S.
  assert (NM : forall p, In p (map fst (mo_childs m)) -> p <> "" /\ p <> root_path m).
  { intros p I. split; [intros ->; contradiction|]. intros ->. apply in_map_iff in I as ([q c] & E & I). cbn in E. subst q.
    assert (X : SmallVertices m).
    { rewrite WO in S. intros rs o' me [->|K] J M; [|exact (S rs o' me (or_intror K) J M)].
      apply (S _ o' me (or_introl eq_refl)); [cbn; apply in_or_app; left; exact J|exact M]. }
    apply C20_validate_nil in V; [|apply C20_registry_proper|exact ND|exact X]. destruct V as (_ & _ & _ & _ & _ & _ & C & _). destruct (C _ _ I) as [C1 _]. apply C1. reflexivity. }
  pose proof (with_object_added m o m' WO ND NM) as A.
  assert (RN : forall q el, slices_validate fuel m q el <> None) by (intros q el E; destruct (RT q el) as (e & X); congruence).
  destruct (C01_unused_id_fresh_and_lowest _ DI FR) as (N0 & NU & _).
  apply C20_validate_nil in V; [|apply C20_registry_proper|exact ND|exact (small_added m m' A S)].
  rewrite C20_validate_nil; [|apply C20_registry_proper|exact (ad_ok' m m' A)|exact S].
  split.
  - intros (_ & _ & _ & _ & _ & (_ & _ & _ & C) & _). rewrite (ad_root m m' A) in C. apply C. rewrite WO. cbn. apply in_or_app. right. left. reflexivity.
  - intros [CO CE]. apply no_violation_conforms; [intros ns; destruct (loaded ns); [left; reflexivity|right; discriminate]|exact (ad_ok' m m' A)|].
    destruct V as (C1 & C2 & C3 & C4 & C5 & C6 & C7 & C8).
    assert (RE : ~ exists o sid res, SliceAttr o sid res /\ NewlyBad m m' (root_path m) o) by (intros (? & ? & ? & _ & _ & _ & X); contradiction).
    intros x W. destruct W as [i k W|e I E L|c I|p c i k I N W|i k W|i k W|l q k W|p c l q k I W|l q k W|i it l k E W].
    + rewrite WO in W. exact (proj2 (rels_conform _ _) C2 i k W).
    + rewrite (ad_exts _ _ A) in I. exact (L (C1 e I E)).
    + destruct (ad_names _ _ A (root_path m')) as [_ H]; [apply (in_map fst) in I; exact I|exact (H eq_refl)].
    + rewrite WO in I, W. destruct (C7 _ _ I) as (_ & C & _). exact (proj2 (rels_conform _ _) C i k W).
    + rewrite WO in W. exact (proj2 (rels_conform _ _) C3 i k W).
    + apply (proj2 (meta_conforms m' _) (meta_exts m m' _ (ad_exts _ _ A) C4) i k). rewrite WO in W |- *. exact W.
    + rewrite (ad_path _ _ A) in W. apply (model_old m m' A fuel RN) in W as (i & k' & _ & L); [|exact C5]. rewrite WO in L. cbn in L. lia.
    + assert (I' : In (p, c) (mo_childs m)) by (rewrite WO in I; exact I). destruct (C7 _ _ I') as (NR & _ & C).
      assert (G : Grown (ch_res c) (ch_res c)) by (exists [], []; rewrite !app_nil_r; repeat split; intros ? ? []).
      destruct (NM p) as [NE' _]; [apply (in_map fst) in I'; exact I'|].
      destruct (res_old m m' A fuel RN p _ _ _ (addr_child m p c I' NE' NR) G C W) as [(i & a & nm & l' & k' & _ & L & E & _)|[(i & o' & l' & k' & _ & L & E & _)|(i & o' & sid & res & _ & _ & _ & _ & _ & X)]]; [| |contradiction].
      * assert (i < List.length (rs_assets (ch_res c))) by (apply nth_error_Some; congruence). lia.
      * assert (i < List.length (rs_objects (ch_res c))) by (apply nth_error_Some; congruence). lia.
    + rewrite (ad_root _ _ A) in W.
      destruct (res_old m m' A fuel RN _ _ _ _ (addr_root m) (ad_res _ _ A) C6 W) as [(i & a & nm & l' & k' & _ & L & E & _)|[(i & o' & l' & k' & _ & L & E & Y)|(i & o' & sid & res & _ & _ & _ & _ & _ & X)]]; [| |contradiction].
      * rewrite WO in E. cbn [mo_res rs_assets] in E. assert (i < List.length (rs_assets (mo_res m))) by (apply nth_error_Some; congruence). lia.
      * rewrite WO in E. cbn [mo_res rs_objects] in E. rewrite nth_error_app2 in E by exact L.
        destruct (i - List.length (rs_objects (mo_res m))) as [|n] eqn:D; [|destruct n; discriminate E]. injection E as <-.
        destruct Y as [(_ & [(a & J & K)|(j & o' & J & E & K)])|[Y|Y]].
        -- rewrite WO in J. cbn [mo_res rs_assets] in J. apply NU. left. exists a. rewrite <- ID. auto.
        -- rewrite WO in E. cbn [mo_res rs_objects] in E. rewrite nth_error_app1 in E by lia. apply NU. right. exists o'. rewrite <- ID. split; [eapply nth_error_In, E|exact K].
        -- exact (proj2 (obj_conforms m' _ o (ad_ok' m m' A)) CO _ _ Y).
        -- destruct Y as [e x I Y]. exact (CE e x I Y).
    + assert (I : In it (bu_items (mo_build m))) by (rewrite WO in E; eapply nth_error_In, E). 
      destruct (C8 it I) as (N & (q & o' & P & O & Ty) & M). destruct W as [Z|q' Z P' D|q' o2 Z P' O' Ty'|j k W].
      * contradiction.
      * apply any_path_spec in P as <-. apply any_path_spec in P' as <-. exact (D o' (obj_grow m m' A _ _ _ O)).
      * apply any_path_spec in P as <-. apply any_path_spec in P' as <-. rewrite (obj_back m m' A _ _ _ _ O O') in Ty'. contradiction.
      * apply (meta_exts _ _ _ (ad_exts _ _ A)) in M. exact (proj2 (meta_conforms m' _) M _ _ W).
Qed.
Print Assumptions C88_object_partial.

(** ** Examples and the exception *)
Lemma returns_flat f m : (forall q id o, find_object m q id = Some o -> ob_comps o = None) -> Returns (S f) m.
Proof.
  intros H q [|a|o]; cbn [slices_validate]; [eauto|destruct a as [| |[]]; eauto|].
  assert (K : forall its, items_transforms (S f) m q (ob_id o) its <> None).
  { induction its as [|it r IH]; cbn [items_transforms]; [discriminate|].
    match goal with |- context [if ?c && ?d && ?e && ?g then _ else _] => destruct (c && d && e && g) end; [discriminate|].
    destruct (find_object m _ (it_oid it)) as [o1|] eqn:E; [|exact IH]. cbn [obj_transforms]. rewrite (H _ _ _ E). exact IH. }
  unfold slice_object_validate. destruct (get_slice_attr (ob_any o)) as [[sid res]|]; [|eauto]. cbv zeta.
  destruct (sid =? 0)%N; [eauto|]. destruct (res_find_asset m q sid) as [[| |[]]|]; eauto.
  specialize (K (bu_items (mo_build m))). destruct (items_transforms _ _ _ _ _) as [b|]; [eauto|contradiction].
Qed.
Definition ex_atri (a b c : N) : Triangle := mkTri a b c 0 0 0 0 [].
Definition ex_amesh : Mesh :=
  mkMesh (repeat point_zero 4) [] [ex_atri 0 1 2; ex_atri 1 0 3; ex_atri 2 1 3; ex_atri 0 2 3] [] [] [].
Definition ex_aobj (id : N) (any : AnyAttr) : Object := mkObj id "" "" "" 0 0 0 mg_zero (Some ex_amesh) None any.
(** An object with slices in a part, next to [objs], and a built object in the root part, next to [roots] *)
Definition ex_amodel (roots objs : list Object) (exts : list Extension) : Model :=
  mkModel "" "" 0 "" (mkRes [] (ex_aobj 2 [] :: roots) []) (mkBuild [ex_item 2] []) [] exts []
    [("/a.model", mkChild (mkRes [AExt (XSliceStack (ex_stack f_one 0))] (ex_aobj 1 [GSlice 5 0] :: objs) []) [] [])] [] [] [] [].
Definition ex_aslices : list Extension := [mkExt slice_ns "s" false].
Definition ex_turning : Object := ex_cobj 2 [mkComp 1 ex_tilt []].
Lemma ex_anames roots objs exts : NoDup (map fst (mo_childs (ex_amodel roots objs exts))) /\
  (forall p, In p (map fst (mo_childs (ex_amodel roots objs exts))) -> p <> "" /\ p <> root_path (ex_amodel roots objs exts)).
Proof. split; [constructor; [intros []|constructor]|]. intros p [<-|[]]. split; discriminate. Qed.
Lemma ex_asmall roots objs exts : (forall o, In o (roots ++ objs) -> ob_mesh o = None \/ ob_mesh o = Some ex_amesh) -> SmallVertices (ex_amodel roots objs exts).
Proof.
  intros H rs o me K J M.
  assert (X : ob_mesh o = None \/ ob_mesh o = Some ex_amesh).
  { destruct K as [->|(p & c & [[= <- <-]|[]] & ->)]; cbn in J; (destruct J as [<-|J]; [right; reflexivity|]); apply H, in_or_app; auto. }
  destruct X as [X|X]; rewrite X in M; [discriminate|]. injection M as <-. reflexivity.
Qed.
Lemma ex_areturns f exts : Returns (S f) (ex_amodel [] [] exts).
Proof.
  apply returns_flat. intros q id o E. apply obj_in in E; [|apply ex_anames]. destruct E as (rs & A & b & a & E & _).
  assert (I : In o (rs_objects rs)) by (rewrite E; apply in_or_app; right; left; reflexivity).
  assert (K : rs_objects rs = [ex_aobj 2 []] \/ rs_objects rs = [ex_aobj 1 [GSlice 5 0]]).
  { destruct A as [_|_ _|_ _|c _ _ [[= _ <-]|[]]]; [left; reflexivity..|right; reflexivity]. }
  destruct K as [K|K]; rewrite K in I; destruct I as [<-|[]]; reflexivity.
Qed.
Lemma ex_added roots objs exts : Added (ex_amodel [] [] exts) (ex_amodel roots objs exts).
Proof.
  assert (LN : forall A (l : list A), Longer l l) by (intros A l; exists []; symmetry; apply app_nil_r).
  constructor; try reflexivity; try apply LN; [| |apply ex_anames|apply ex_anames].
  - exists [], roots. split; [reflexivity|]. split; [reflexivity|]. intros x y [].
  - eexists [_], []. split; [reflexivity|]. constructor; [|constructor]. split; [reflexivity|]. split; [apply LN|].
    exists [], objs. split; [reflexivity|]. split; [reflexivity|]. intros x y [].
Qed.

(** C88: the exception is not only met when a sliced object is placed with a rotation.  The validator of the slices
    extension follows the placements in the part of the sliced object and not in the part they belong to (C16, C27),
    so an object that is added and that the build does not place can make Validate report an object that was there. *)
Theorem C88_sliced_refuted : exists loaded fuel m m', validate loaded (registry fuel) m = None /\ Returns fuel m /\ Added m m' /\ SmallVertices m' /\
  mo_build m' = mo_build m /\ (forall file o, Placed m' file o -> Placed m file o) /\
  exists loc p k, In (loc, p, k) (located_o (validate loaded (registry fuel) m')) /\ ~ NewPlace m m' loc p.
Proof.
  exists (fun _ => true), 3, (ex_amodel [] [] ex_aslices), (ex_amodel [] [ex_turning] ex_aslices).
  split; [vm_compute; reflexivity|]. split; [apply ex_areturns|]. split; [apply ex_added|].
  split; [apply ex_asmall; intros o [<-|[]]; left; reflexivity|]. split; [reflexivity|]. split.
  - assert (K : forall file o, Placed (ex_amodel [] [ex_turning] ex_aslices) file o -> file = "" /\ o = ex_aobj 2 []).
    { intros file o P. induction P as [it q o I Q O|file o c q o1 P [-> ->] I T]; [|destruct I].
      destruct I as [<-|[]]. apply any_path_spec in Q as <-. split; [reflexivity|].
      apply obj_in in O; [|apply ex_anames]. vm_compute in O. injection O as <-. reflexivity. }
    intros file o P. destruct (K _ _ P) as [-> ->]. eapply (PlItem _ (ex_item 2)); [left; reflexivity|apply any_path_spec; reflexivity|].
    apply obj_in; [apply ex_anames|]. reflexivity.
  - exists [lv "model"; lv "resources"; lvi "object" 0], "/a.model", (ESent "ErrSliceInvalidTranform"). split.
    + vm_compute. left. reflexivity.
    + intros H. inversion H as [| | | |p rs rs' i a nm loc P P' L E AN|p rs i loc P L| |p loc I N]; subst.
      * inversion P as [|p c I]; subst. destruct I as [[= <-]|[]]. cbn in L. lia.
      * inversion P as [|p c I]; subst. destruct I as [[= <-]|[]]. cbn in L. lia.
      * apply N. left. reflexivity.
Qed.
Print Assumptions C88_sliced_refuted.

(** C88: why [Added] leaves out assets that take the identifier of an object: the only thing that is reported then is
    the object, which was there before. *)
Theorem C88_identifier_refuted : exists loaded fuel m a m' i o, validate loaded (registry fuel) m = None /\ WithAsset m a m' /\
  nth_error (rs_objects (mo_res m)) i = Some o /\ asset_id a = ob_id o /\
  located_o (validate loaded (registry fuel) m') = [([lv "model"; lv "resources"; lvi "object" i], "", ESent "ErrDuplicatedID")].
Proof.
  exists (fun _ => true), 3, (ex_amodel [] [] []), (ABase (mkBM 2 [mkBase "red" (mkRGBA 255 0 0 255) []] [])). do 3 eexists.
  split; [vm_compute; reflexivity|]. split; [reflexivity|]. split; [instantiate (2 := 0); reflexivity|]. split; [reflexivity|]. vm_compute. reflexivity.
Qed.
Print Assumptions C88_identifier_refuted.

(** The hypotheses are met by a model with a sliced object to which a valid object and one with a component that does not
    exist are added; the second is reported, at its place. *)
Example C88_nonvacuous :
  validate (fun _ => true) (registry 3) (ex_amodel [] [] []) = None /\ Returns 3 (ex_amodel [] [] []) /\
  Added (ex_amodel [] [] []) (ex_amodel [ex_aobj 7 []; ex_cobj 8 [mkComp 9 matrix_zero []]] [] []) /\ SmallVertices (ex_amodel [ex_aobj 7 []; ex_cobj 8 [mkComp 9 matrix_zero []]] [] []) /\
  (exists loc p k, located_o (validate (fun _ => true) (registry 3) (ex_amodel [ex_aobj 7 []; ex_cobj 8 [mkComp 9 matrix_zero []]] [] [])) = [(loc, p, k)] /\
     NewPlace (ex_amodel [] [] []) (ex_amodel [ex_aobj 7 []; ex_cobj 8 [mkComp 9 matrix_zero []]] [] []) loc p) /\
  DistinctIds (mo_res (ex_amodel [] [] [])) /\ unused_id (mo_res (ex_amodel [] [] [])) = 1%N /\
  WithObject (ex_amodel [] [] []) (ex_aobj 1 []) (ex_amodel [ex_aobj 1 []] [] []) /\
  validate (fun _ => true) (registry 3) (ex_amodel [ex_aobj 1 []] [] []) = None.
Proof.
  split; [vm_compute; reflexivity|]. split; [apply ex_areturns|]. split; [apply ex_added|].
  split; [apply ex_asmall; intros o [<-|[<-|[]]]; [right|left]; reflexivity|]. split.
  - do 3 eexists. split; [vm_compute; reflexivity|]. 
    match goal with |- NewPlace ?a ?b ?l ?p => change (NewPlace a b (lv "model" :: lv "resources" :: lvi "object" 2 :: skipn 3 l) "") end.
    eapply NpObject; [apply PoRoot|]. cbn. lia.
  - split; [|split; [reflexivity|split; [reflexivity|vm_compute; reflexivity]]].
    intros k. unfold id_count. cbn [mo_res ex_amodel rs_assets rs_objects filter List.length ob_id ex_aobj]. destruct (N.eqb_spec 2 k) as [<-|N]; cbn; [split; [reflexivity|split; reflexivity]|congruence].
Qed.
