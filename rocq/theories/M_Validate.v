(** * Model.Validate (validate.go 17-367) *)
From Verif Require Import GoBase GoFloat Types M_Core M_Errors.

(** core.go 24, 42 *)
Definition rel_print_ticket : string := "http://schemas.microsoft.com/3dmanufacturing/2013/01/printticket".
Definition ct_print_ticket : string := "application/vnd.ms-printing.printticket+xml".

(** [errs = errors.Append(errs, x)] *)
Definition add (errs x : error) : error := append errs [x].
Definition sent (s : string) : error := Some (ESent s).
Definition missing (f : string) : error := Some (EMissing f).
(** [if c { errs = errors.Append(errs, x) }] *)
Definition add_if (c : bool) (errs x : error) : error := if c then add errs x else errs.
(** errors.WrapIndex with an int index *)
Definition at_index (e : error) (name : string) (i : nat) : error := wrap_index e name (Z.of_nat i).

(** [for i, x := range l { errs = f(i, x, errs) }] *)
Fixpoint loop {A} (f : nat -> A -> error -> error) (i : nat) (l : list A) (errs : error) : error :=
  match l with [] => errs | x :: r => loop f (S i) r (f i x errs) end.

(** strings.ToLower, as far as comparison with ASCII names needs it: the runes
    that map to an ASCII letter are A-Z, U+0130 (bytes C4 B0, to "i") and U+212A
    (bytes E2 84 AA, to "k"); all other bytes of non-ASCII runes are kept, so the
    result is wrong only inside its non-ASCII part. *)
Fixpoint to_lower (s : string) : string :=
  match s with
  | EmptyString => EmptyString
  | String c r =>
      if ceq c "196"%char then
        match r with
        | String d r' => if ceq d "176"%char then String "i" (to_lower r') else String c (to_lower r)
        | EmptyString => String c EmptyString
        end
      else if ceq c "226"%char then
        match r with
        | String d (String e r') =>
            if ceq d "132"%char && ceq e "170"%char then String "k" (to_lower r') else String c (to_lower r)
        | _ => String c (to_lower r)
        end
      else String (lower c) (to_lower r)
  end.

(** validate.go 101-104 *)
Definition allowed_names : list string :=
  ["application"; "copyright"; "creationdate"; "description"; "designer";
   "licenseterms"; "modificationdate"; "rating"; "title"].

(** sort.SearchStrings: binary search of the least index whose element is >= x;
    each round halves [j - i], so [length a] rounds are enough. *)
Fixpoint search_strings (rounds : nat) (a : list string) (x : string) (i j : nat) : nat :=
  match rounds with
  | O => i
  | S k =>
      if (i <? j)%nat then
        let h := ((i + j) / 2)%nat in
        if negb (sleb x (nth h a "")) then search_strings k a x (h + 1) j
        else search_strings k a x i h
      else i
  end.
Definition name_allowed (local : string) : bool :=
  let nm := to_lower local in
  let n := search_strings (List.length allowed_names) allowed_names nm 0 (List.length allowed_names) in
  negb ((List.length allowed_names <=? n)%nat || negb (seq (nth n allowed_names "") nm)).

(** validate.go 106-130, Metadata.validate *)
Definition metadata_validate (m : Model) (md : Metadata) : error :=
  if seq (nlocal (md_name md)) "" then missing "name"
  else if seq (nspace (md_name md)) "" then
    add_if (negb (name_allowed (nlocal (md_name md)))) None (sent "ErrMetadataName")
  else
    let has_ext := existsb (fun ext => seq (ex_ns ext) (nspace (md_name md))) (mo_exts m) in
    add_if (negb has_ext) None (sent "ErrMetadataNamespace").

(** validate.go 132-144, checkMetadadata; [names] is the map of names seen *)
Fixpoint check_metadata_from (m : Model) (i : nat) (l : list Metadata) (names : list Name) (errs : error) : error :=
  match l with
  | [] => errs
  | md :: r =>
      let errs := add errs (at_index (metadata_validate m md) "metadata" i) in
      let errs := add_if (existsb (name_eqb (md_name md)) names) errs
                         (at_index (sent "ErrMetadataDuplicated") "metadata" i) in
      check_metadata_from m (S i) r (md_name md :: names) errs
  end.
Definition check_metadata (m : Model) (l : list Metadata) : error := check_metadata_from m 0 l [] None.

(** validate.go 360-367, findAttachment.  strings.EqualFold is modelled with
    ASCII case folding: other runes must be equal bytes. *)
Fixpoint find_attachment (l : list Attachment) (path : string) : option Attachment :=
  match l with
  | [] => None
  | a :: r => if eq_fold (at_path a) path then Some a else find_attachment r path
  end.

(** validate.go 325-351, the loop of validateRelationship *)
Definition bad_part_name (p : string) : bool :=
  match p with
  | EmptyString => true
  | String c _ => negb (ceq c "/"%char) || contains p "/."
  end.
Definition rel_eqb (x y : string * string) : bool := seq (fst x) (fst y) && seq (snd x) (snd y).
Fixpoint validate_rels_from (m : Model) (i : nat) (l : list Relationship) (visited : list (string * string))
    (ticket : bool) (errs : error) : error :=
  match l with
  | [] => errs
  | r :: rest =>
      let found := find_attachment (mo_atts m) (rel_path r) in
      let '(errs, visited) :=
        if bad_part_name (rel_path r) then
          (add errs (at_index (sent "ErrOPCPartName") "relationship" i), visited)
        else
          let errs := add_if (match found with Some _ => false | None => true end) errs
                             (at_index (sent "ErrOPCRelTarget") "relationship" i) in
          let errs := add_if (existsb (rel_eqb (rel_path r, rel_type r)) visited) errs
                             (at_index (sent "ErrOPCDuplicatedRel") "relationship" i) in
          (errs, (rel_path r, rel_type r) :: visited) in
      let '(errs, ticket) :=
        if seq (rel_type r) rel_print_ticket then
          match found with
          | Some a =>
              let errs := add_if (negb (seq (at_ctype a) ct_print_ticket)) errs
                                 (at_index (sent "ErrOPCContentType") "relationship" i) in
              let errs := add_if ticket errs (at_index (sent "ErrOPCDuplicatedTicket") "relationship" i) in
              (errs, true)
          | None => (errs, ticket)
          end
        else (errs, ticket) in
      validate_rels_from m (S i) rest visited ticket errs
  end.
(** validate.go 352-357: the path is stored in the members of type *Error *)
Definition set_path1 (path : string) (e : gerr) : gerr :=
  match e with EErr t x _ => EErr t x path | _ => e end.
(** validate.go 320-358, validateRelationship *)
Definition validate_relationship (m : Model) (l : list Relationship) (path : string) : error :=
  let errs := validate_rels_from m 0 l [] false None in
  if negb (seq path "") then
    match errs with
    | Some (EList es) => Some (EList (map (set_path1 path) es))
    | _ => errs
    end
  else errs.

Section Validate.
  (** The registry of specs (spec/spec.go 25-41): [loaded ns] tells whether a spec
      is registered, [validators ns] is its Validate method if it has one.  A
      validator is taken to return; M_ExtValidate covers the one that may not. *)
  Context (loaded : string -> bool)
          (validators : string -> option (Model -> string -> VElem -> error)).

  (** validate.go 49-53, 184-188, 242-246: all validators on one element *)
  Definition ext_validate (m : Model) (path : string) (el : VElem) (errs : error) : error :=
    fold_left (fun errs ext => match validators (ex_ns ext) with
                               | Some v => add errs (v m path el)
                               | None => errs
                               end) (mo_exts m) errs.

  (** validate.go 309-318, validateNamespaces *)
  Definition validate_namespaces (m : Model) : error :=
    if existsb (fun ext => ex_req ext && negb (loaded (ex_ns ext))) (mo_exts m)
    then sent "ErrRequiredExt" else None.

  (** validate.go 75-88, Item.validate; ObjectTypeOther is 1 *)
  Definition item_validate (m : Model) (it : Item) : error :=
    let opath := item_path it in
    let errs :=
      if (it_oid it =? 0)%N then add None (missing "objectid")
      else match find_object m opath (it_oid it) with
           | Some obj => add_if (ob_type obj =? 1)%Z None (sent "ErrOtherItem")
           | None => add None (sent "ErrMissingResource")
           end in
    add errs (check_metadata m (mg_list (it_md it))).

  (** validate.go 90-99, Build.validate *)
  Definition build_validate (m : Model) (b : Build) : error :=
    loop (fun i it errs =>
            let err := item_validate m it in
            match err with None => errs | Some _ => add errs (at_index err "item" i) end)
         0 (bu_items b) None.

  (** image/color: [c == color.RGBA{}] *)
  Definition is_zero_color (c : RGBA) : bool :=
    ((cR c =? 0) && (cG c =? 0) && (cB c =? 0) && (cA c =? 0))%N.

  (** validate.go 147-164, BaseMaterials.Validate *)
  Definition base_validate (b : BaseMaterials) : error :=
    let errs := add_if (bs_id b =? 0)%N None (sent "ErrMissingID") in
    let errs := add_if (match bs_mats b with [] => true | _ => false end) errs (sent "ErrEmptyResourceProps") in
    loop (fun j ba errs =>
            let errs := add_if (seq (ba_name ba) "") errs (at_index (missing "name") "base" j) in
            add_if (is_zero_color (ba_color ba)) errs (at_index (missing "displaycolor") "base" j))
         0 (bs_mats b) errs.

  (** spec.PropertyGroup (spec/spec.go 80-82): the assets with a Len method
      (core.go 353, materials/materials.go 155, 176, 204, 233) *)
  Definition group_len (a : Asset) : option nat :=
    match a with
    | ABase b => Some (List.length (bs_mats b))
    | AExt (XTex2DGroup g) => Some (List.length (tg_coords g))
    | AExt (XColorGroup g) => Some (List.length (cg_colors g))
    | AExt (XComposite g) => Some (List.length (cm_comps g))
    | AExt (XMulti g) => Some (List.length (mp_multis g))
    | _ => None
    end.
  (** XMLName().Local of an asset (core.go 363, spec/unknown.go 36-42,
      materials/materials.go 130, 165, 186, 214, 243, slices/slices.go 118).  A beam lattice is
      not an asset. *)
  Definition asset_local (a : Asset) : string :=
    match a with
    | ABase _ => "basematerials"
    | AUnknown _ (TStart n _ :: _) => nlocal n
    | AUnknown _ _ => ""
    | AExt (XTexture2D _) => "texture2d"
    | AExt (XTex2DGroup _) => "texture2dgroup"
    | AExt (XColorGroup _) => "colorgroup"
    | AExt (XComposite _) => "compositematerials"
    | AExt (XMulti _) => "multiproperties"
    | AExt (XSliceStack _) => "slicestack"
    | AExt (XBeamLattice _) => ""
    end.

  (** [res.FindAsset] where [res, _ := m.FindResources(path)]: a nil [res] would
      panic.  P_Validate.validate_paths_found shows that Validate only asks for
      paths that are found. *)
  Definition res_find_asset (m : Model) (path : string) (id : N) : option Asset :=
    match find_resources m path with Some rs => rs_find_asset rs id | None => None end.

  (** validate.go 264-287, the loop of validateMesh; [nodeCount] is a uint32 *)
  Definition triangle_validate (m : Model) (path : string) (o : Object) (node_count : N)
      (i : nat) (t : Triangle) (errs : error) : error :=
    let errs := add_if ((t_v1 t =? t_v2 t) || (t_v1 t =? t_v3 t) || (t_v2 t =? t_v3 t))%N errs
                       (at_index (sent "ErrDuplicatedIndices") "triangle" i) in
    let errs := add_if ((node_count <=? t_v1 t) || (node_count <=? t_v2 t) || (node_count <=? t_v3 t))%N errs
                       (at_index (sent "ErrIndexOutOfBounds") "triangle" i) in
    if negb (t_pid t =? 0)%N then
      if ((t_pid t =? ob_pid o) && (t_p1 t =? ob_pindex o) &&
          (t_p2 t =? ob_pindex o) && (t_p3 t =? ob_pindex o))%N then errs
      else match res_find_asset m path (t_pid t) with
           | Some a =>
               match group_len a with
               | Some l =>
                   let l := N.of_nat l in
                   add_if ((l <=? t_p1 t) || (l <=? t_p2 t) || (l <=? t_p3 t))%N errs
                          (at_index (sent "ErrIndexOutOfBounds") "triangle" i)
               | None => errs
               end
           | None => add errs (at_index (sent "ErrMissingResource") "triangle" i)
           end
    else errs.
  (** validate.go 249-288, validateMesh *)
  Definition mesh_validate (m : Model) (path : string) (o : Object) (me : Mesh) : error :=
    let errs :=
      if (ob_type o =? 0)%Z || (ob_type o =? 3)%Z then
        let errs := add_if (List.length (me_verts me) <? 3)%nat None (sent "ErrInsufficientVertices") in
        add_if ((List.length (me_tris me) <=? 3)%nat && match me_ext me with [] => true | _ => false end)
               errs (sent "ErrInsufficientTriangles")
      else None in
    let node_count := (N.of_nat (List.length (me_verts me)) mod 2 ^ 32)%N in
    loop (triangle_validate m path o node_count) 0 (me_tris me) errs.

  (** validate.go 290-307, validateComponents *)
  Definition components_validate (m : Model) (path : string) (o : Object) (cs : list Component) : error :=
    let errs := loop (fun j c errs =>
      if (co_oid c =? 0)%N then add errs (at_index (missing "objectid") "component" j)
      else match find_object m (comp_path c path) (co_oid c) with
           | Some ref => add_if ((ob_id ref =? ob_id o)%N && seq (comp_path c path) path) errs
                                (at_index (sent "ErrRecursion") "component" j)
           | None => add errs (at_index (sent "ErrMissingResource") "component" j)
           end) 0 cs None in
    match errs with None => None | Some _ => wrap errs "components" end.

  (** validate.go 205-247, Object.Validate *)
  Definition object_validate (m : Model) (path : string) (o : Object) : error :=
    let errs := add_if (ob_id o =? 0)%N None (sent "ErrMissingID") in
    let errs := add_if (negb (ob_pindex o =? 0)%N && (ob_pid o =? 0)%N) errs (missing "pid") in
    let errs := add_if (match ob_mesh o, ob_comps o with
                        | Some _, Some _ | None, None => true | _, _ => false end)
                       errs (sent "ErrInvalidObject") in
    let errs :=
      match ob_mesh o with
      | Some me =>
          let errs :=
            if negb (ob_pid o =? 0)%N then
              match res_find_asset m path (ob_pid o) with
              | Some a =>
                  match group_len a with
                  | Some l => add_if (N.of_nat l <=? ob_pindex o)%N errs (sent "ErrIndexOutOfBounds")
                  | None => errs
                  end
              | None => add errs (sent "ErrMissingResource")
              end
            else errs in
          let err := mesh_validate m path o me in
          match err with None => errs | Some _ => add errs (wrap err "mesh") end
      | None => errs
      end in
    let errs :=
      match ob_comps o with
      | Some cs =>
          match cs_list cs with
          | [] => errs
          | l => add (add_if (negb (ob_pid o =? 0)%N) errs (sent "ErrComponentsPID"))
                     (components_validate m path o l)
          end
      | None => errs
      end in
    ext_validate m path (VObject o) errs.

  (** validate.go 169-190, the assets loop of Resources.validate; [seen] is the
      map of identifiers, which also holds 0 *)
  Fixpoint assets_validate (m : Model) (path : string) (i : nat) (l : list Asset) (seen : list N)
      (errs : error) : error * list N :=
    match l with
    | [] => (errs, seen)
    | a :: r =>
        let id := asset_id a in
        let aerrs := add_if (negb (id =? 0)%N && existsb (N.eqb id) seen) None (sent "ErrDuplicatedID") in
        let aerrs := match a with ABase b => add aerrs (base_validate b) | _ => aerrs end in
        let aerrs := ext_validate m path (VAsset a) aerrs in
        assets_validate m path (S i) r (id :: seen) (add errs (at_index aerrs (asset_local a) i))
    end.
  (** validate.go 191-200, the objects loop *)
  Fixpoint objects_validate (m : Model) (path : string) (i : nat) (l : list Object) (seen : list N)
      (errs : error) : error :=
    match l with
    | [] => errs
    | o :: r =>
        let id := ob_id o in
        let errs := add_if (negb (id =? 0)%N && existsb (N.eqb id) seen) errs
                           (at_index (sent "ErrDuplicatedID") "object" i) in
        objects_validate m path (S i) r (id :: seen)
          (add errs (at_index (object_validate m path o) "object" i))
    end.
  (** validate.go 166-201, Resources.validate *)
  Definition resources_validate (m : Model) (path : string) (rs : Resources) : error :=
    let '(errs, seen) := assets_validate m path 0 (rs_assets rs) [] None in
    objects_validate m path 0 (rs_objects rs) seen errs.

  (** [m.Childs[path]] for a key of the map *)
  Definition child_at (m : Model) (path : string) : Child :=
    match find_child m path with Some c => c | None => child_zero end.

  (** validate.go 30-73, Model.Validate *)
  Definition validate (m : Model) : error :=
    let errs := add None (validate_relationship m (mo_rootrels m) "") in
    let errs := add errs (validate_namespaces m) in
    let root := path_or_default m in
    let errs := fold_left (fun errs path =>
      if seq path root then add errs (sent "ErrOPCDuplicatedModelName")
      else add errs (validate_relationship m (ch_rels (child_at m path)) path)) (sorted_childs m) errs in
    let errs := add errs (validate_relationship m (mo_rels m) root) in
    let errs := add errs (check_metadata m (mo_md m)) in
    let errs := ext_validate m (mo_path m) VModel errs in
    let errs := fold_left (fun errs path =>
      let err := resources_validate m path (ch_res (child_at m path)) in
      match err with None => errs | Some _ => add errs (wrap_path err "resources" path) end)
      (sorted_childs m) errs in
    let err := resources_validate m root (mo_res m) in
    let errs := match err with None => errs | Some _ => add errs (wrap err "resources") end in
    let err := build_validate m (mo_build m) in
    let errs := match err with None => errs | Some _ => add errs (wrap err "build") end in
    match errs with None => None | Some _ => wrap errs "model" end.
End Validate.
