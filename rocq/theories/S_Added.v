(** * Specification: a model to which something was added *)
From Verif Require Import GoBase GoFloat Types S_Core S_Geom S_Validate S_ExtValidate.

Definition Longer {A} (l l' : list A) : Prop := exists r, l' = l ++ r.
(** Assets and objects were appended; no asset took the identifier of an object that was there. *)
Definition Grown (rs rs' : Resources) : Prop :=
  exists a o, rs_assets rs' = rs_assets rs ++ a /\ rs_objects rs' = rs_objects rs ++ o /\
    forall x y, In x a -> In y (rs_objects rs) -> asset_id x <> ob_id y.
Definition PartGrown (x y : string * Child) : Prop :=
  fst y = fst x /\ Longer (ch_rels (snd x)) (ch_rels (snd y)) /\ Grown (ch_res (snd x)) (ch_res (snd y)).
Record Added (m m' : Model) : Prop := {
  ad_path : mo_path m' = mo_path m;
  ad_exts : mo_exts m' = mo_exts m;
  ad_atts : Longer (mo_atts m) (mo_atts m');
  ad_md : Longer (mo_md m) (mo_md m');
  ad_rootrels : Longer (mo_rootrels m) (mo_rootrels m');
  ad_rels : Longer (mo_rels m) (mo_rels m');
  ad_res : Grown (mo_res m) (mo_res m');
  ad_bany : bu_any (mo_build m') = bu_any (mo_build m);
  ad_items : Longer (bu_items (mo_build m)) (bu_items (mo_build m'));
  ad_childs : exists old new, mo_childs m' = old ++ new /\ Forall2 PartGrown (mo_childs m) old;
  (** the parts have names of their own *)
  ad_keys : NoDup (map fst (mo_childs m'));
  ad_names : forall p, In p (map fst (mo_childs m')) -> p <> "" /\ p <> root_path m' }.

(** The resources of a part, with the path that errors about them carry *)
Inductive PartOf (m : Model) : string -> Resources -> Prop :=
| PoRoot : PartOf m "" (mo_res m)
| PoChild p c : In (p, c) (mo_childs m) -> PartOf m p (ch_res c).
(** The places of [m'] that are not in [m] *)
Inductive NewPlace (m m' : Model) : list Level -> string -> Prop :=
| NpRootRel i : List.length (mo_rootrels m) <= i -> NewPlace m m' [lv "model"; lvi "relationship" i] ""
| NpRel i : List.length (mo_rels m) <= i -> NewPlace m m' [lv "model"; lvi "relationship" i] (root_path m)
| NpChildRel p c i : In (p, c) (mo_childs m) -> List.length (ch_rels c) <= i ->
    NewPlace m m' [lv "model"; lvi "relationship" i] p
| NpMeta i : List.length (mo_md m) <= i -> NewPlace m m' [lv "model"; lvi "metadata" i] ""
| NpAsset p rs rs' i a nm loc : PartOf m p rs -> PartOf m' p rs' -> List.length (rs_assets rs) <= i ->
    nth_error (rs_assets rs') i = Some a -> AssetName a nm ->
    NewPlace m m' (lv "model" :: lv "resources" :: lvi nm i :: loc) p
| NpObject p rs i loc : PartOf m p rs -> List.length (rs_objects rs) <= i ->
    NewPlace m m' (lv "model" :: lv "resources" :: lvi "object" i :: loc) p
| NpItem i loc : List.length (bu_items (mo_build m)) <= i ->
    NewPlace m m' (lv "model" :: lv "build" :: lvi "item" i :: loc) ""
| NpPart p loc : In p (map fst (mo_childs m')) -> ~ In p (map fst (mo_childs m)) -> NewPlace m m' loc p.
(** An object with slices of [m] that is placed in [m'], but not in [m], in a way that slices do not allow, as the
    validator follows the placements *)
Inductive Displaced (m m' : Model) : list Level -> string -> Prop :=
| DpObject p file rs i o sid res : PartOf m p rs -> file = (if seq p "" then root_path m else p) ->
    nth_error (rs_objects rs) i = Some o -> SliceAttr o sid res -> In slice_ns (map ex_ns (mo_exts m)) ->
    BadBuild m' file (ob_id o) -> ~ BadBuild m file (ob_id o) ->
    Displaced m m' [lv "model"; lv "resources"; lvi "object" i] p.

(** The model with one more object in the root part, as by [append(m.Resources.Objects, o)] *)
Definition WithObject (m : Model) (o : Object) (m' : Model) : Prop :=
  m' = mkModel (mo_path m) (mo_lang m) (mo_units m) (mo_thumb m)
    (mkRes (rs_assets (mo_res m)) (rs_objects (mo_res m) ++ [o]) (rs_any (mo_res m)))
    (mo_build m) (mo_atts m) (mo_exts m) (mo_md m) (mo_childs m) (mo_rootrels m) (mo_rels m) (mo_any m) (mo_anyattr m).
(** The same for an asset *)
Definition WithAsset (m : Model) (a : Asset) (m' : Model) : Prop :=
  m' = mkModel (mo_path m) (mo_lang m) (mo_units m) (mo_thumb m)
    (mkRes (rs_assets (mo_res m) ++ [a]) (rs_objects (mo_res m)) (rs_any (mo_res m)))
    (mo_build m) (mo_atts m) (mo_exts m) (mo_md m) (mo_childs m) (mo_rootrels m) (mo_rels m) (mo_any m) (mo_anyattr m).
