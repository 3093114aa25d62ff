(** * Specification of the production extension *)
From Verif Require Import GoBase GoFloat Types S_Core S_Geom S_Text S_Validate S_ExtValidate.

(** The attribute group with a UUID that an element of each kind carries. *)
Inductive ProdKind := KItem | KObject | KComponent | KBuild.
Definition prod_group (k : ProdKind) (uuid path : string) : AttrGroup :=
  match k with KItem => GItem uuid path | KComponent => GComp uuid path | KObject => GObj uuid | KBuild => GBuild uuid end.
(** The groups without path: those of objects and of the build. *)
Definition PathOk (k : ProdKind) (path : string) : Prop :=
  match k with KItem | KComponent => True | KObject | KBuild => path = "" end.
Definition NoGroup (k : ProdKind) (l : AnyAttr) : Prop := forall u p, ~ In (prod_group k u p) l.
(** The first group of the kind has UUID [u] and path [p]. *)
Definition Carries (k : ProdKind) (l : AnyAttr) (u p : string) : Prop :=
  PathOk k p /\ exists a b, l = a ++ prod_group k u p :: b /\ NoGroup k a.

(** ** Validation *)
(** A UUID in one of the forms the uuid package accepts. *)
Definition ValidUuid (u : string) : Prop := UuidTextLoose u.
Inductive RefUuidViolation (m : Model) (path : string) (k : ProdKind) (l : AnyAttr) : gerr -> Prop :=
| RuNone : NoGroup k l -> RefUuidViolation m path k l (EMissing "UUID")
| RuEmpty p : Carries k l "" p -> RefUuidViolation m path k l (EMissing "UUID")
| RuBad u p : Carries k l u p -> u <> "" -> ~ ValidUuid u -> RefUuidViolation m path k l (ESent "ErrUUID")
| RuPath u p : Carries k l u p -> p <> "" -> path <> "" -> path <> root_path m ->
    RefUuidViolation m path k l (ESent "ErrProdRefInNonRoot").
Inductive OwnUuidViolation (k : ProdKind) (l : AnyAttr) : gerr -> Prop :=
| OuNone : NoGroup k l -> OwnUuidViolation k l (EMissing "UUID")
| OuBad u p : Carries k l u p -> ~ ValidUuid u -> OwnUuidViolation k l (ESent "ErrUUID").
Inductive ProdViolation (m : Model) (path : string) : VElem -> list Level -> gerr -> Prop :=
| PvBuild k : OwnUuidViolation KBuild (bu_any (mo_build m)) k -> ProdViolation m path VModel [lv "build"] k
| PvItem i it k : nth_error (bu_items (mo_build m)) i = Some it -> RefUuidViolation m "" KItem (it_any it) k ->
    ProdViolation m path VModel [lv "build"; lvi "item" i] k
| PvObject o k : OwnUuidViolation KObject (ob_any o) k -> ProdViolation m path (VObject o) [] k
| PvComponent o i c k : nth_error (Comps o) i = Some c -> RefUuidViolation m path KComponent (co_any c) k ->
    ProdViolation m path (VObject o) [lv "components"; lvi "component" i] k.

(** The rules: UUIDs everywhere, paths only in the root part. *)
Definition HasUuid (k : ProdKind) (l : AnyAttr) : Prop := exists u p, Carries k l u p /\ ValidUuid u.
Definition PathAllowed (m : Model) (path : string) (k : ProdKind) (l : AnyAttr) : Prop :=
  forall u p, Carries k l u p -> p <> "" -> path = "" \/ path = root_path m.
Definition ProdModelConforms (m : Model) : Prop :=
  HasUuid KBuild (bu_any (mo_build m)) /\ forall it, In it (bu_items (mo_build m)) -> HasUuid KItem (it_any it).
Definition ProdObjectConforms (m : Model) (path : string) (o : Object) : Prop :=
  HasUuid KObject (ob_any o) /\
  forall c, In c (Comps o) -> HasUuid KComponent (co_any c) /\ PathAllowed m path KComponent (co_any c).

(** ** SetMissingUUIDs *)
(** The attributes [l'] are [l] with a UUID drawn from [New] where there was none. *)
Inductive Completed (New : string -> Prop) (k : ProdKind) : AnyAttr -> AnyAttr -> Prop :=
| CmKept l u p : Carries k l u p -> u <> "" -> Completed New k l l
| CmFilled a b u p : PathOk k p -> NoGroup k a -> New u ->
    Completed New k (a ++ prod_group k "" p :: b) (a ++ prod_group k u p :: b)
| CmAdded l u : NoGroup k l -> New u -> Completed New k l (l ++ [prod_group k u ""]).
(** Two lists with the same elements up to [R]. *)
Definition Pairwise {A} (R : A -> A -> Prop) (l l' : list A) : Prop :=
  List.length l = List.length l' /\ forall i x y, nth_error l i = Some x -> nth_error l' i = Some y -> R x y.
Section Filled.
  Variable New : string -> Prop.
  Inductive ItemCompleted : Item -> Item -> Prop :=
  | ItC it l : Completed New KItem (it_any it) l ->
      ItemCompleted it (mkItem (it_oid it) (it_tr it) (it_part it) (it_md it) l).
  Inductive CompCompleted : Component -> Component -> Prop :=
  | CoC c l : Completed New KComponent (co_any c) l -> CompCompleted c (mkComp (co_oid c) (co_tr c) l).
  Inductive CompsCompleted : option Components -> option Components -> Prop :=
  | CsNone : CompsCompleted None None
  | CsSome l l' any : Pairwise CompCompleted l l' -> CompsCompleted (Some (mkComps l any)) (Some (mkComps l' any)).
  Inductive ObjCompleted : Object -> Object -> Prop :=
  | ObC o l cs : Completed New KObject (ob_any o) l -> CompsCompleted (ob_comps o) cs ->
      ObjCompleted o (mkObj (ob_id o) (ob_name o) (ob_part o) (ob_thumb o) (ob_pid o) (ob_pindex o) (ob_type o)
                            (ob_md o) (ob_mesh o) cs l).
  Inductive ResCompleted : Resources -> Resources -> Prop :=
  | RsC rs l : Pairwise ObjCompleted (rs_objects rs) l -> ResCompleted rs (mkRes (rs_assets rs) l (rs_any rs)).
  Inductive ChildCompleted : Child -> Child -> Prop :=
  | ChC c rs : ResCompleted (ch_res c) rs -> ChildCompleted c (mkChild rs (ch_rels c) (ch_any c)).
  (** The same child parts, each completed. *)
  Definition ChildsCompleted (l l' : list (string * Child)) : Prop :=
    (forall p c, In (p, c) l -> exists c', In (p, c') l' /\ ChildCompleted c c') /\
    (forall p c', In (p, c') l' -> exists c, In (p, c) l /\ ChildCompleted c c').
  (** The build keeps an empty UUID (see C28_set_missing_refuted). *)
  Inductive BuildCompleted : AnyAttr -> AnyAttr -> Prop :=
  | BuKept l u : Carries KBuild l u "" -> BuildCompleted l l
  | BuAdded l u : NoGroup KBuild l -> New u -> BuildCompleted l (l ++ [GBuild u]).
  Inductive ModelCompleted : Model -> Model -> Prop :=
  | MoC m any its rs cs : BuildCompleted (bu_any (mo_build m)) any -> Pairwise ItemCompleted (bu_items (mo_build m)) its ->
      ResCompleted (mo_res m) rs -> ChildsCompleted (mo_childs m) cs -> NoDup (map fst cs) ->
      ModelCompleted m (mkModel (mo_path m) (mo_lang m) (mo_units m) (mo_thumb m) rs (mkBuild its any) (mo_atts m)
        (mo_exts m) (mo_md m) cs (mo_rootrels m) (mo_rels m) (mo_any m) (mo_anyattr m)).
End Filled.
(** A non-empty UUID everywhere. *)
Definition UuidsComplete (m : Model) : Prop :=
  (exists u, Carries KBuild (bu_any (mo_build m)) u "" /\ u <> "") /\
  (forall it, In it (bu_items (mo_build m)) -> exists u p, Carries KItem (it_any it) u p /\ u <> "") /\
  (forall o, ObjectOf m o -> (exists u, Carries KObject (ob_any o) u "" /\ u <> "") /\
     forall c, In c (Comps o) -> exists u p, Carries KComponent (co_any c) u p /\ u <> "").

(** ** The UUIDs of a model *)
Fixpoint uuid_of (k : ProdKind) (l : AnyAttr) : string :=
  match l with
  | [] => ""
  | g :: r => match k, g with
              | KItem, GItem u _ | KComponent, GComp u _ | KObject, GObj u | KBuild, GBuild u => u
              | _, _ => uuid_of k r
              end
  end.
Definition object_uuids (o : Object) : list string :=
  uuid_of KObject (ob_any o) :: map (fun c => uuid_of KComponent (co_any c)) (Comps o).
Definition part_uuids (rs : Resources) : list string := flat_map object_uuids (rs_objects rs).
Definition model_uuids (m : Model) : list string :=
  uuid_of KBuild (bu_any (mo_build m)) :: map (fun it => uuid_of KItem (it_any it)) (bu_items (mo_build m)) ++
  flat_map (fun pc => part_uuids (ch_res (snd pc))) (mo_childs m) ++ part_uuids (mo_res m).
