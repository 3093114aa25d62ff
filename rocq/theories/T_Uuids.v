(** * Theorems on UUIDs and SetMissingUUIDs: C95 *)
From Coq Require Import Permutation.
From Verif Require Import GoBase GoFloat Types M_Core M_Errors M_Geom M_Validate M_ExtValidate M_Coherency S_Core S_Same S_Uuids P_Core P_Same P_Uuids P_UuidSet
  T_Geom T_Coherency T_Same T_Renumber.
From Verif Require Import Types.
Local Open Scope list_scope.

Lemma plain_keys m : map fst (mo_childs (plain m)) = map fst (mo_childs m).
Proof. cbn [plain mo_childs]. rewrite map_map. reflexivity. Qed.
(** C95: UUIDs matter to nobody but the validator of the production extension: models that differ in UUIDs only have the
    same bounding box and the same coherency, Validate returns the same if that extension is not declared, and the
    lookups find the same. *)
Theorem C95_box : forall fuel m m' r, NoDup (map fst (mo_childs m)) -> SameButUuids m m' ->
  (model_bbox fuel m' r <-> model_bbox fuel m r).
Proof.
  intros fuel m m' r D S. rewrite <- (pl_bbox m'), <- (pl_bbox m). apply sa_bbox; [rewrite plain_keys; exact D|exact S].
Qed.
Print Assumptions C95_box.
Theorem C95_coherency : forall m m' r, SameButUuids m m' -> (model_coherency m' r <-> model_coherency m r).
Proof. intros m m' r S. rewrite <- (pl_coherency m'), <- (pl_coherency m). apply sa_coherency, S. Qed.
Print Assumptions C95_coherency.
Theorem C95_validate : forall fuel loaded m m', NoDup (map fst (mo_childs m)) -> SameButUuids m m' ->
  (forall e, In e (mo_exts m) -> ex_ns e <> "http://schemas.microsoft.com/3dmanufacturing/production/2015/06") ->
  validate loaded (registry fuel) m' = validate loaded (registry fuel) m.
Proof.
  intros fuel loaded m m' D S N. assert (K : ~ In M_ExtValidate.ns_production (map ex_ns (mo_exts m))).
  { intros C. apply in_map_iff in C as (e & E & I). exact (N e I E). }
  assert (K' : ~ In M_ExtValidate.ns_production (map ex_ns (mo_exts m'))).
  { pose proof (f_equal (map fst) (sm_exts _ _ S)) as E. rewrite !map_map in E. cbn [plain mo_exts] in E. change (fun x => fst (ext_seen x)) with ex_ns in E. rewrite E. exact K. }
  rewrite <- (pl_validate m' fuel K'), <- (pl_validate m fuel K). apply sa_validate; [rewrite plain_keys; exact D|exact S].
Qed.
Print Assumptions C95_validate.
Theorem C95_lookups : forall m m' path id, NoDup (map fst (mo_childs m)) -> SameButUuids m m' ->
  option_map plain_object (find_object m' path id) = option_map plain_object (find_object m path id) /\
  find_asset m' path id = find_asset m path id.
Proof.
  intros m m' path id D S. rewrite <- (pl_object m'), <- (pl_object m), <- (pl_asset m'), <- (pl_asset m).
  split; [apply sa_object|apply sa_asset]; try (rewrite plain_keys; exact D); exact S.
Qed.
Print Assumptions C95_lookups.
(** C95: SetMissingUUIDs changes nothing but UUIDs, a second call changes nothing at all, and it does not depend on the
    order in which the map of parts is iterated. *)
Theorem C95_only_uuids : forall fresh m, NoDup (map fst (mo_childs m)) -> SameButUuids m (set_missing_uuids fresh m).
Proof. exact set_missing_same. Qed.
Print Assumptions C95_only_uuids.
Theorem C95_again : forall fresh fresh' m, NoDup (map fst (mo_childs m)) -> (forall n, fresh n <> "") ->
  Reordered (set_missing_uuids fresh m) (set_missing_uuids fresh' (set_missing_uuids fresh m)).
Proof. exact set_missing_again. Qed.
Print Assumptions C95_again.
Theorem C95_order : forall fresh m m', NoDup (map fst (mo_childs m)) -> Reordered m m' ->
  Reordered (set_missing_uuids fresh m) (set_missing_uuids fresh m').
Proof. exact set_missing_order. Qed.
Print Assumptions C95_order.

(** A model with a part, an item that names it, and a mesh that is not coherent *)
Definition ex_uuid_model : Model :=
  mkModel "" "" 0 "" (mkRes [] [ex_cobj 1 [mkComp 1 matrix_zero [GComp "" "/a.model"]]] [])
    (mkBuild [mkItem 1 matrix_zero "" mg_zero [GItem "u" ""]; mkItem 7 matrix_zero "" mg_zero [GUnknown "x" []; GItem "" "/a.model"]] [])
    [] [mkExt M_ExtValidate.ns_slices "s" false] [] [("/b.model", mkChild (mkRes [] [coh_obj 0 tetra] []) [] []); ("/a.model", mkChild (mkRes [] [coh_obj 0 flipped] []) [] [])] [] [] [] [].
Definition ex_fresh (n : nat) : string := "id".
Example C95_nonvacuous : NoDup (map fst (mo_childs ex_uuid_model)) /\ (forall n, ex_fresh n <> "") /\
  (forall e, In e (mo_exts ex_uuid_model) -> ex_ns e <> "http://schemas.microsoft.com/3dmanufacturing/production/2015/06") /\
  validate (fun _ => true) (registry 3) ex_uuid_model <> None /\
  bu_items (mo_build (set_missing_uuids ex_fresh ex_uuid_model)) =
    [mkItem 1 matrix_zero "" mg_zero [GItem "u" ""]; mkItem 7 matrix_zero "" mg_zero [GUnknown "x" []; GItem "id" "/a.model"]] /\
  bu_any (mo_build (set_missing_uuids ex_fresh ex_uuid_model)) = [GBuild "id"] /\
  set_missing_uuids ex_fresh ex_uuid_model <> ex_uuid_model.
Proof.
  split; [constructor; [intros [H|[]]; discriminate|constructor; [intros []|constructor]]|]. split; [discriminate|].
  split; [intros e [<-|[]]; discriminate|]. split; [vm_compute; discriminate|]. split; [reflexivity|]. split; [reflexivity|].
  intros H. apply (f_equal (fun m => bu_any (mo_build m))) in H. discriminate.
Qed.
(** With the production extension declared Validate does look at UUIDs: the model is accepted after the call only. *)
Definition ex_prod_model : Model :=
  mkModel "" "" 0 "" (mkRes [] [coh_obj 0 tetra] []) (mkBuild [mkItem 1 matrix_zero "" mg_zero []] []) []
    [mkExt M_ExtValidate.ns_production "p" false] [] [] [] [] [] [].
Example C95_production : validate (fun _ => true) (registry 3) ex_prod_model <> None /\
  validate (fun _ => true) (registry 3) (set_missing_uuids (fun _ => "aaaaaaaa-aaaa-4aaa-8aaa-aaaaaaaaaaaa") ex_prod_model) = None.
Proof. split; vm_compute; [discriminate|reflexivity]. Qed.
