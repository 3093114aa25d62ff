(** * Theorems on Model.Validate: C15 (refutation), C20, C21, C22, C23 *)
From Verif Require Import GoBase GoFloat Types M_Core S_Core P_Core M_Errors S_Errors P_Errors
  M_Geom S_Geom P_Geom M_Coherency P_Coherency M_Validate S_Validate P_Validate P_Validate2 P_Validate3
  T_Geom T_Coherency.

(** A registered validator returns nil or an error with at least one member. *)
Definition ProperValidators (validators : string -> option (Model -> string -> VElem -> error)) : Prop :=
  forall ns v m path el, validators ns = Some v -> located_o (v m path el) = [] -> v m path el = None.
(** What the validator registered for a namespace reports. *)
Definition Reports (validators : string -> option (Model -> string -> VElem -> error))
    (ns : string) (m : Model) (path : string) (el : VElem) (x : Loc) : Prop :=
  exists v, validators ns = Some v /\ In x (located_o (v m path el)).

(** C21: the errors Validate reports are exactly the located violations. *)
Theorem C21_validate_reports : forall loaded validators m x,
  ProperValidators validators -> NoDup (map fst (mo_childs m)) -> SmallVertices m ->
  (In x (located_o (validate loaded validators m)) <->
   Violation (fun ns => loaded ns = true) (Reports validators) m x).
Proof. intros loaded validators m x Hv Hok Hs. apply (in_validate loaded validators m x Hok Hs). Qed.
Print Assumptions C21_validate_reports.

(** C20: Validate returns nil exactly on the conforming models. *)
Theorem C20_validate_nil : forall loaded validators m,
  ProperValidators validators -> NoDup (map fst (mo_childs m)) -> SmallVertices m ->
  (validate loaded validators m = None <->
   Conforms (fun ns => loaded ns = true) (Reports validators) m).
Proof.
  intros loaded validators m Hv Hok Hs.
  rewrite <- (no_violation_conforms (fun ns => loaded ns = true)
                (fun ns => match loaded ns as b return b = true \/ b <> true with
                           | true => or_introl eq_refl | false => or_intror (fun H => False_ind _ (eq_ind false (fun b => if b then False else True) I true H)) end)
                (Reports validators) m Hok).
  split.
  - intros E x Hx. apply (in_validate loaded validators m x Hok Hs) in Hx. rewrite E in Hx. exact Hx.
  - intros H. apply (nn_validate loaded validators Hv).
    destruct (located_o (validate loaded validators m)) as [|x l] eqn:E; [reflexivity|].
    exfalso. apply (H x). apply (in_validate loaded validators m x Hok Hs). rewrite E. left. reflexivity.
Qed.
Print Assumptions C20_validate_nil.
(** C20, without extensions. *)
Theorem C20_core_validate_nil : forall m, mo_exts m = [] -> NoDup (map fst (mo_childs m)) -> SmallVertices m ->
  (validate (fun _ => false) (fun _ => None) m = None <->
   Conforms (fun _ => False) (fun _ _ _ _ _ => False) m).
Proof.
  intros m He Hok Hs. rewrite C20_validate_nil; [|intros ns v m' p el H; discriminate|exact Hok|exact Hs].
  unfold Conforms, ResConforms, ElemConforms. rewrite He.
  assert (N1 : forall ns m p el x, ~ Reports (fun _ => None) ns m p el x) by (intros ? ? ? ? ? (v & H & _); discriminate).
  split.
  - intros (H1 & H2 & H3 & H4 & H5 & (H6 & H7 & H8 & H9) & H10 & H11).
    split; [intros e []|]. split; [exact H2|]. split; [exact H3|]. split; [exact H4|]. split; [intros e x []|].
    split; [split; [exact H6|]; split; [exact H7|]; split; [intros a Ha e x []|]|].
    { intros o Ho. split; [apply H9; exact Ho|intros e x []]. }
    split; [|exact H11]. intros p c Hc. apply H10 in Hc as (A & B & D1 & D2 & D3 & D4).
    split; [exact A|]. split; [exact B|]. split; [exact D1|]. split; [exact D2|]. split; [intros a Ha e x []|].
    intros o Ho. split; [apply D4; exact Ho|intros e x []].
  - intros (H1 & H2 & H3 & H4 & H5 & (H6 & H7 & H8 & H9) & H10 & H11).
    split; [intros e []|]. split; [exact H2|]. split; [exact H3|]. split; [exact H4|]. split; [intros e x []|].
    split; [split; [exact H6|]; split; [exact H7|]; split; [intros a Ha e x []|]|].
    { intros o Ho. split; [apply H9; exact Ho|intros e x []]. }
    split; [|exact H11]. intros p c Hc. apply H10 in Hc as (A & B & D1 & D2 & D3 & D4).
    split; [exact A|]. split; [exact B|]. split; [exact D1|]. split; [exact D2|]. split; [intros a Ha e x []|].
    intros o Ho. split; [apply D4; exact Ho|intros e x []].
Qed.
Print Assumptions C20_core_validate_nil.

(** A root part with base materials, a painted tetrahedron, a relationship and items;
    a child part with a components object.  Painting with index 2 or an item with
    an unknown object is a violation. *)
Definition ex_vtri (a b c p : N) : Triangle := mkTri a b c 1 p p p [].
Definition ex_vmesh (p : N) : Mesh :=
  mkMesh (repeat point_zero 4) [] [ex_vtri 0 1 2 0; ex_vtri 1 0 3 1; ex_vtri 2 1 3 0; ex_vtri 0 2 3 p] [] [] [].
Definition ex_vbase : BaseMaterials :=
  mkBM 1 [mkBase "red" (mkRGBA 255 0 0 255) []; mkBase "blue" (mkRGBA 0 0 255 255) []] [].
Definition ex_vmodel (p id : N) : Model :=
  mkModel "" "" 0 ""
    (mkRes [ABase ex_vbase]
       [mkObj 2 "" "" "" 1 0 0 mg_zero (Some (ex_vmesh p)) None []] [])
    (mkBuild [ex_item id] []) [mkAtt "x" "/Thumb.png" "image/png"] [] [mkMeta (mkName "" "Title") "t" "" false]
    [("/a.model", mkChild (mkRes [] [ex_cobj 1 [mkComp 2 matrix_zero [GComp "" "/3D/3dmodel.model"]]] []) [] [])]
    [] [mkRel "/thumb.png" "type" ""] [] [].
Lemma ex_vmodel_ok p id : NoDup (map fst (mo_childs (ex_vmodel p id))) /\ SmallVertices (ex_vmodel p id).
Proof.
  split; [repeat constructor; intros []|].
  intros rs o me [->|(q & c & [E|[]] & ->)] Ho Hm.
  - destruct Ho as [<-|[]]. injection Hm as <-. reflexivity.
  - injection E as <- <-. destruct Ho as [<-|[]]. discriminate.
Qed.
Example C20_nonvacuous : Conforms (fun _ => False) (fun _ _ _ _ _ => False) (ex_vmodel 1 2) /\ ~ Conforms (fun _ => False) (fun _ _ _ _ _ => False) (ex_vmodel 2 2).
Proof.
  split.
  - apply C20_core_validate_nil; [reflexivity|apply ex_vmodel_ok..|]. vm_compute. reflexivity.
  - rewrite <- C20_core_validate_nil; [|reflexivity|apply ex_vmodel_ok..]. vm_compute. discriminate.
Qed.
Example C21_nonvacuous :
  Violation (fun _ => False) (fun _ _ _ _ _ => False) (ex_vmodel 2 5)
    ([lv "model"; lv "resources"; lvi "object" 0; lv "mesh"; lvi "triangle" 3], "", ESent "ErrIndexOutOfBounds") /\
  Violation (fun _ => False) (fun _ _ _ _ _ => False) (ex_vmodel 2 5)
    ([lv "model"; lv "build"; lvi "item" 0], "", ESent "ErrMissingResource").
Proof.
  assert (Hok : ChildsOk (ex_vmodel 2 5)) by apply ex_vmodel_ok. split.
  - eapply VRes, SvObj with (i := 0); [reflexivity|]. eapply OvMesh; [reflexivity|].
    eapply MeProperty with (i := 3) (p := 2%N) (a := ABase ex_vbase) (n := 2);
      [reflexivity|discriminate|intros (_ & H & _); discriminate| |apply (GsBase ex_vbase)|left; reflexivity|vm_compute; discriminate].
    apply asset_in; [exact Hok|]. reflexivity.
  - eapply VItem with (i := 0) (loc := []); [reflexivity|]. eapply IvMissing with (q := ""); [discriminate| |].
    + apply any_path_spec. reflexivity.
    + apply obj_none; [exact Hok|]. vm_compute. reflexivity.
Qed.

(** C22: a list of relationships is accepted exactly when it conforms; each defect is
    reported at its relationship. *)
Theorem C22_relationships : forall m l path,
  (validate_relationship m l path = None <-> RelsConform (mo_atts m) l) /\
  (forall x, In x (located_o (validate_relationship m l path)) <->
     exists i k, x = ([lvi "relationship" i], path, k) /\ RelViolation (mo_atts m) l i k).
Proof.
  intros m l path. split; [|intros x; apply in_relationship]. rewrite <- rels_conform. split.
  - intros E i k H. assert (C : In ([lvi "relationship" i], path, k) (located_o (validate_relationship m l path))).
    { apply in_relationship. exists i, k. auto. }
    rewrite E in C. exact C.
  - intros H. apply nn_relationship.
    destruct (located_o (validate_relationship m l path)) as [|x r] eqn:E; [reflexivity|].
    assert (C : In x (located_o (validate_relationship m l path))) by (rewrite E; left; reflexivity).
    apply in_relationship in C as (i & k & -> & C). destruct (H i k C).
Qed.
Print Assumptions C22_relationships.
Example C22_nonvacuous :
  RelsConform [mkAtt "x" "/Thumb.png" "image/png"; mkAtt "y" "/t.xml" print_ticket_content]
    [mkRel "/thumb.PNG" "type" ""; mkRel "/t.xml" print_ticket_type ""] /\
  RelViolation [mkAtt "x" "/t.xml" "text/xml"] [mkRel "/t.xml" print_ticket_type ""] 0 (ESent "ErrOPCContentType").
Proof.
  split.
  - apply (C22_relationships (mkModel "" "" 0 "" (mkRes [] [] []) (mkBuild [] [])
      [mkAtt "x" "/Thumb.png" "image/png"; mkAtt "y" "/t.xml" print_ticket_content] [] [] [] [] [] [] []) _ ""). vm_compute. reflexivity.
  - eapply RvContent; [reflexivity|reflexivity| |].
    + apply find_attachment_spec. reflexivity.
    + cbn. discriminate.
Qed.

(** C23: refuted.  Validate accepts the name T\u0130TLE, which is not one of the
    reserved names up to letter case. *)
Theorem C23_reserved_refuted : exists md, nspace (md_name md) = "" /\
  (forall m, metadata_validate m md = None) /\
  (forall n, In n reserved_names -> ~ IgnoringCase (nlocal (md_name md)) n).
Proof.
  exists (mkMeta (mkName "" (String "T" (String "196" (String "176" "TLE")))) "" "" false).
  split; [reflexivity|]. split; [intros m; reflexivity|].
  intros n Hn H. cbn [md_name nlocal] in H.
  assert (Hl : forall s t, IgnoringCase s t -> String.length s = String.length t) by (induction 1; cbn; congruence).
  cbn in Hn. repeat (destruct Hn as [<-|Hn]; [first [discriminate (Hl _ _ H) |
    inversion H as [| |? ? ? ? H1 H2|? ? ? ? H1 H2]; vm_compute in H2; discriminate H2]|]). exact Hn.
Qed.
Print Assumptions C23_reserved_refuted.

Lemma ascii_tail c s : AllAscii (String c s) -> (bN c < 128)%N /\ AllAscii s.
Proof.
  intros H. split; [apply (H "" c s); reflexivity|]. intros a d b ->. apply (H (String c a) d b). reflexivity.
Qed.
Lemma lowers_ignoring s t : AllAscii s -> sall (fun c => negb (is_upper c)) t = true ->
  (LowersTo s t <-> IgnoringCase s t).
Proof.
  revert t. induction s as [|c s IH]; intros t Ha Ht.
  - split; intros H; inversion H; constructor.
  - apply ascii_tail in Ha as [Hc Ha]. split; intros H.
    + inversion H as [|? ? t' H1 H2 H3|? d ? t' H1 H2 H3|? t' H1 E|? t' H1 E]; subst;
        cbn [sall] in Ht; try (apply andb_true_iff in Ht as [Ht1 Ht2]).
      * apply IcSame. apply IH; assumption.
      * eapply IcUpper; [exact H1|exact H2|]. apply IH; assumption.
      * exfalso. vm_compute in Hc. discriminate.
      * exfalso. vm_compute in Hc. discriminate.
    + inversion H as [|? ? t' H3|? d ? t' H1 H2 H3|? d ? t' H1 H2 H3]; subst;
        cbn [sall] in Ht; apply andb_true_iff in Ht as [Ht1 Ht2]; apply negb_true_iff in Ht1.
      * apply LwSame; [exact Hc| |apply IH; assumption]. intros [L1 L2]. unfold is_upper in Ht1.
        apply andb_false_iff in Ht1 as [E|E]; apply N.leb_gt in E; lia.
      * eapply LwUpper; [exact H1|exact H2|apply IH; assumption].
      * exfalso. unfold is_upper in Ht1. apply andb_false_iff in Ht1 as [E|E]; apply N.leb_gt in E; lia.
Qed.
Lemma metadata_nil m md : nspace (md_name md) = "" -> nlocal (md_name md) <> "" ->
  (metadata_validate m md = None <-> Reserved (nlocal (md_name md))).
Proof.
  intros Hs Hn. split.
  - intros E. destruct (reserved_dec (nlocal (md_name md))) as [D|D]; [exact D|]. exfalso.
    assert (C : In ([], "", ESent "ErrMetadataName") (located_o (metadata_validate m md))).
    { apply in_metadata. exists (ESent "ErrMetadataName"). split; [reflexivity|]. right; left. auto. }
    rewrite E in C. exact C.
  - intros H. apply nn_metadata. destruct (located_o (metadata_validate m md)) as [|x l] eqn:E; [reflexivity|].
    assert (C : In x (located_o (metadata_validate m md))) by (rewrite E; left; reflexivity).
    apply in_metadata in C as (k & -> & [[C _]|[(_ & _ & C & _)|(_ & C & _)]]); contradiction.
Qed.
(** What holds: names without bytes above 127 are accepted exactly when they are one of
    the nine names up to letter case.  Missing: the other names. *)
Theorem C23_reserved_partial : forall m md, nspace (md_name md) = "" -> nlocal (md_name md) <> "" ->
  AllAscii (nlocal (md_name md)) ->
  (metadata_validate m md = None <->
   exists n, In n reserved_names /\ IgnoringCase (nlocal (md_name md)) n).
Proof.
  intros m md Hs Hn Ha. rewrite metadata_nil by assumption.
  assert (Hl : forall n, In n reserved_names -> sall (fun c => negb (is_upper c)) n = true).
  { intros n H. cbn in H. repeat (destruct H as [<-|H]; [reflexivity|]). destruct H. }
  split; intros (n & H1 & H2); exists n; (split; [exact H1|]); apply lowers_ignoring; auto.
Qed.
Print Assumptions C23_reserved_partial.
(** The exact set of accepted names: those whose rune by rune lower case is reserved. *)
Theorem C23_reserved_exact : forall m md, nspace (md_name md) = "" -> nlocal (md_name md) <> "" ->
  (metadata_validate m md = None <-> Reserved (nlocal (md_name md))).
Proof. exact metadata_nil. Qed.
Print Assumptions C23_reserved_exact.
Example C23_nonvacuous : AllAscii "liCenseTerms" /\ IgnoringCase "liCenseTerms" "licenseterms" /\
  ~ (exists n, In n reserved_names /\ IgnoringCase "titles" n).
Proof.
  assert (A : forall s, sall (fun c => (bN c <? 128)%N) s = true -> AllAscii s).
  { intros s H a c b ->. induction a as [|d a IH]; cbn [sall append] in H; apply andb_true_iff in H as [H1 H2]; [apply N.ltb_lt; exact H1|auto]. }
  split; [apply A; reflexivity|]. split.
  - apply lowers_ignoring; [apply A; reflexivity|reflexivity|]. apply to_lower_spec. split; reflexivity.
  - pose proof (C23_reserved_partial (ex_vmodel 1 2) (mkMeta (mkName "" "titles") "" "" false) eq_refl
      ltac:(discriminate) (A "titles" eq_refl)) as H. cbn [md_name nlocal] in H. rewrite <- H. vm_compute. discriminate.
Qed.

(** C15: refuted.  Two components objects that contain each other are accepted by
    Validate, and the bounding box recursion on them never ends. *)
Definition ex_cycle : Model :=
  ex_bmodel [ex_cobj 1 [mkComp 2 matrix_zero []]; ex_cobj 2 [mkComp 1 matrix_zero []]] [ex_item 1].
Lemma cycle_diverges fuel : obj_bbox fuel ex_cycle "" (ex_cobj 1 [mkComp 2 matrix_zero []]) = None /\
  obj_bbox fuel ex_cycle "" (ex_cobj 2 [mkComp 1 matrix_zero []]) = None.
Proof.
  induction fuel as [|f [IH1 IH2]]; [split; reflexivity|].
  split; cbn [obj_bbox ob_mesh ex_cobj comps_of ob_comps cs_list comps_bbox].
  - change (find_object ex_cycle (comp_path (mkComp 2 matrix_zero []) "") (co_oid (mkComp 2 matrix_zero [])))
      with (Some (ex_cobj 2 [mkComp 1 matrix_zero []])). cbv beta iota. rewrite IH2. reflexivity.
  - change (find_object ex_cycle (comp_path (mkComp 1 matrix_zero []) "") (co_oid (mkComp 1 matrix_zero [])))
      with (Some (ex_cobj 1 [mkComp 2 matrix_zero []])). cbv beta iota. rewrite IH1. reflexivity.
Qed.
Theorem C15_bounding_box_refuted : exists m,
  (forall loaded validators, validate loaded validators m = None) /\
  (forall fuel r, ~ model_bbox fuel m r).
Proof.
  exists ex_cycle. split.
  - intros loaded validators. vm_compute. reflexivity.
  - intros fuel r H. unfold model_bbox in H.
    change (bu_items (mo_build ex_cycle)) with [ex_item 1] in H. destruct H as (ts & H & _).
    assert (E : item_task fuel ex_cycle (ex_item 1) = None).
    { unfold item_task.
      change (find_object ex_cycle (item_path (ex_item 1)) (it_oid (ex_item 1))) with (Some (ex_cobj 1 [mkComp 2 matrix_zero []])).
      cbv beta iota. change (item_path (ex_item 1)) with "". rewrite (proj1 (cycle_diverges fuel)). reflexivity. }
    cbn [map all_some] in H. rewrite E in H. discriminate.
Qed.
Print Assumptions C15_bounding_box_refuted.
