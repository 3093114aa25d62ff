(** * Theorems about exactly when the bounding box returns, and about the validator of slices: C15, C57 *)
From Verif Require Import GoBase GoFloat Types M_Core S_Core P_Core M_Errors M_Geom S_Geom P_Geom M_Validate M_ExtValidate S_Cycle P_ExtSlices2 P_Cycle T_Geom T_Validate T_ExtSlices.

(** C15: BoundingBox returns exactly if no object of the build contains, as its components are looked up, an object that
    contains itself.  Missing for C15: validation does not exclude that, C15_bounding_box_refuted. *)
Theorem C15_exact_partial : forall m, ChildsOk m -> (exists fuel r, model_bbox fuel m r) <-> ~ Cyclic m.
Proof. exact model_bbox_exact. Qed.
Print Assumptions C15_exact_partial.
(** C57: the validator of slices returns, with one result, on whatever it is given if no object of the build contains, as
    its components are looked up, an object that contains itself.  Missing: models with such objects, where it may
    return (because of a component it refuses before) or not, C57_validate_refuted. *)
Theorem C57_reachable_partial : forall m path el, ChildsOk m -> ~ CyclicFrom m path ->
  exists fuel e, forall fuel', fuel <= fuel' -> slices_validate fuel' m path el = Some e.
Proof. exact slices_returns. Qed.
Print Assumptions C57_reachable_partial.

(** Objects that contain each other beside the build *)
Definition ex_beside : Model := ex_bmodel [ex_cobj 1 [mkComp 2 matrix_zero []]; ex_cobj 2 [mkComp 1 matrix_zero []]; ex_mobj 3 ex_tri_pts] [ex_item 3].
Lemma beside_shows it f o : In it (bu_items (mo_build ex_beside)) -> CarriedPath (it_any it) f -> (exists rs, Addressed ex_beside f rs /\ FirstWith ob_id (it_oid it) (rs_objects rs) o) -> o = ex_mobj 3 ex_tri_pts.
Proof.
  intros [<-|[]] C H. apply any_path_spec in C. subst f. apply find_object_spec in H; [|constructor]. injection H as <-. reflexivity.
Qed.
Example C15_exact_nonvacuous : ChildsOk ex_beside /\ ~ Cyclic ex_beside /\ ~ CyclicFrom ex_beside "" /\ ~ Acyclic ex_beside /\ ChildsOk ex_cycle /\ Cyclic ex_cycle.
Proof.
  split; [constructor|]. split; [|split; [|split; [|split; [constructor|]]]].
  - intros (it & f & o & x & I & (C & S) & M & P). pose proof (beside_shows _ _ _ I C S) as ->. inversion M as [? E|? y ? (B & _) _]; subst; [|discriminate B].
    destruct P as (y & (B & _) & _). discriminate B.
  - intros (it & f & o & x & I & C & S & M & P).
    assert (o = ex_mobj 3 ex_tri_pts) as ->. { destruct I as [<-|[]]. apply any_path_spec in C. subst f. apply find_object_spec in S; [|constructor]. injection S as <-. reflexivity. }
    assert (Z : forall y, ~ Contains ex_beside "" (ex_mobj 3 ex_tri_pts) y) by (intros y (c & f' & B & _); exact B).
    inversion M as [? E|? y ? B _]; subst; [|destruct (Z _ B)]. destruct P as (y & B & _). destruct (Z _ B).
  - intros (rank & H). pose (a := ex_cobj 1 [mkComp 2 matrix_zero []]). pose (b := ex_cobj 2 [mkComp 1 matrix_zero []]).
    assert (Ia : ObjectOf ex_beside a) by (left; left; reflexivity). assert (Ib : ObjectOf ex_beside b) by (left; right; left; reflexivity).
    pose proof (H a (mkComp 2 matrix_zero []) b Ia (or_introl eq_refl) Ib eq_refl).
    pose proof (H b (mkComp 1 matrix_zero []) a Ib (or_introl eq_refl) Ia eq_refl). lia.
  - pose (a := ex_cobj 1 [mkComp 2 matrix_zero []]). pose (b := ex_cobj 2 [mkComp 1 matrix_zero []]).
    assert (AB : Below ex_cycle "" a b).
    { split; [reflexivity|]. exists (mkComp 2 matrix_zero []), "". split; [left; reflexivity|]. apply target_spec; [constructor|]. split; reflexivity. }
    assert (BA : Below ex_cycle "" b a).
    { split; [reflexivity|]. exists (mkComp 1 matrix_zero []), "". split; [left; reflexivity|]. apply target_spec; [constructor|]. split; reflexivity. }
    exists (ex_item 1), "", a, a. split; [left; reflexivity|]. split; [apply shows_spec; [constructor|split; reflexivity]|]. split; [constructor|].
    exists b. split; [exact AB|]. eapply MMore; [exact BA|constructor].
Qed.
