(** * Resources, lookups, walks and enumerations (core.go, extension enums) *)
From Verif Require Import GoBase GoFloat Types.

(** core.go 139-164, the identifiers collected by UnusedID: ids[0] = 0, then the
    assets, then the objects. *)
Definition collect_ids (rs : Resources) : list N :=
  0%N :: map asset_id (rs_assets rs) ++ map ob_id (rs_objects rs).

(** core.go 154-158: first index [i] with [ids[i] != i]; [lowest] keeps the
    value 0 when there is none. *)
Fixpoint first_gap (i : N) (ids : list N) : N :=
  match ids with
  | [] => 0
  | id :: r => if negb (id =? i)%N then i else first_gap (i + 1) r
  end.

(** core.go 139-164, Resources.UnusedID.  [int] has 64 bits, so only the final
    conversion to uint32 can wrap. *)
Definition unused_id (rs : Resources) : N :=
  match rs_assets rs, rs_objects rs with
  | [], [] => 1
  | _, _ =>
      let ids := isort N.leb (collect_ids rs) in
      let lowest := first_gap 0 ids in
      let lowest := if (lowest =? 0)%N then (last ids 0 + 1)%N else lowest in
      (lowest mod 2 ^ 32)%N
  end.

(** core.go 167-174, Resources.FindObject *)
Fixpoint find_obj (id : N) (l : list Object) : option Object :=
  match l with
  | [] => None
  | o :: r => if (ob_id o =? id)%N then Some o else find_obj id r
  end.
Definition rs_find_object (rs : Resources) (id : N) : option Object := find_obj id (rs_objects rs).

(** core.go 177-184, Resources.FindAsset *)
Fixpoint find_ast (id : N) (l : list Asset) : option Asset :=
  match l with
  | [] => None
  | a :: r => if (asset_id a =? id)%N then Some a else find_ast id r
  end.
Definition rs_find_asset (rs : Resources) (id : N) : option Asset := find_ast id (rs_assets rs).

(** core.go 229-234, Model.PathOrDefault *)
Definition path_or_default (m : Model) : string :=
  if seq (mo_path m) "" then DefaultModelPath else mo_path m.

(** Lookup in the Childs map. *)
Definition find_child (m : Model) (path : string) : option Child := aget seq path (mo_childs m).

(** core.go 264-272, Model.FindResources *)
Definition find_resources (m : Model) (path : string) : option Resources :=
  if seq path "" || seq path (mo_path m) || (seq (mo_path m) "" && seq path DefaultModelPath)
  then Some (mo_res m)
  else match find_child m path with
       | Some c => Some (ch_res c)
       | None => None
       end.

(** core.go 275-280, Model.FindAsset *)
Definition find_asset (m : Model) (path : string) (id : N) : option Asset :=
  match find_resources m path with Some rs => rs_find_asset rs id | None => None end.

(** core.go 283-288, Model.FindObject *)
Definition find_object (m : Model) (path : string) (id : N) : option Object :=
  match find_resources m path with Some rs => rs_find_object rs id | None => None end.

(** validate.go 17-27, Model.sortedChilds *)
Definition sorted_childs (m : Model) : list string := isort sleb (map fst (mo_childs m)).

(** core.go 295-311 and 318-334, WalkAssets and WalkObjects.  The callback is a
    function on an arbitrary state (its side effects) that may return an error.
    [m.Childs[path]] cannot miss, because [path] is one of the keys. *)
Section Walk.
  Context {St E A : Type} (items : Resources -> list A) (fn : St -> string -> A -> St * option E).
  Fixpoint walk_list (st : St) (path : string) (l : list A) : St * option E :=
    match l with
    | [] => (st, None)
    | a :: r =>
        match fn st path a with
        | (st', Some e) => (st', Some e)
        | (st', None) => walk_list st' path r
        end
    end.
  Fixpoint walk_childs (m : Model) (st : St) (paths : list string) : St * option E :=
    match paths with
    | [] => (st, None)
    | p :: r =>
        match find_child m p with
        | None => (st, None)
        | Some c =>
            match walk_list st p (items (ch_res c)) with
            | (st', Some e) => (st', Some e)
            | (st', None) => walk_childs m st' r
            end
        end
    end.
  Definition walk (m : Model) (st : St) : St * option E :=
    match walk_childs m st (sorted_childs m) with
    | (st', Some e) => (st', Some e)
    | (st', None) => walk_list st' "" (items (mo_res m))
    end.
End Walk.
Definition walk_objects {St E} := @walk St E Object rs_objects.
Definition walk_assets {St E} := @walk St E Asset rs_assets.

(** core.go 384-394 and 451-461, Item.ObjectPath and Component.ObjectPath: the
    groups with an ObjectPath method are those of production/production.go 89-92, 112-115. *)
Fixpoint any_path (l : AnyAttr) : string :=
  match l with
  | [] => ""
  | GItem _ p :: r | GComp _ p :: r => if negb (seq p "") then p else any_path r
  | _ :: r => any_path r
  end.
Definition item_path (it : Item) : string := any_path (it_any it).
Definition comp_path (c : Component) (dflt : string) : string :=
  let p := any_path (co_any c) in if seq p "" then dflt else p.

(** Go's [==] on Matrix: entry-wise float comparison. *)
Definition matrix_eqb (a b : Matrix) : bool :=
  feqb (m0 a) (m0 b) && feqb (m1 a) (m1 b) && feqb (m2 a) (m2 b) && feqb (m3 a) (m3 b) &&
  feqb (m4 a) (m4 b) && feqb (m5 a) (m5 b) && feqb (m6 a) (m6 b) && feqb (m7 a) (m7 b) &&
  feqb (m8 a) (m8 b) && feqb (m9 a) (m9 b) && feqb (m10 a) (m10 b) && feqb (m11 a) (m11 b) &&
  feqb (m12 a) (m12 b) && feqb (m13 a) (m13 b) && feqb (m14 a) (m14 b) && feqb (m15 a) (m15 b).

(** math.go 121-123, Identity *)
Definition identity : Matrix :=
  M16 f_one f_zero f_zero f_zero  f_zero f_one f_zero f_zero
      f_zero f_zero f_one f_zero  f_zero f_zero f_zero f_one.

(** core.go 397-399 and 464-466, HasTransform *)
Definition has_transform (t : Matrix) : bool :=
  negb (matrix_eqb t matrix_zero) && negb (matrix_eqb t identity).

(** ** Enumerations: one parsing table and one printing table each, as in Go. *)
Definition parse_enum {A} (table : list (string * A)) (s : string) : option A := aget seq s table.
Definition print_enum (table : list (N * string)) (c : N) : string :=
  match aget N.eqb c table with Some s => s | None => "" end.

(** core.go 59-68 (Units.String), 569-579 (newUnits) *)
Definition units_string : N -> string := print_enum
  [(0%N, "millimeter"); (1%N, "micron"); (2%N, "centimeter"); (3%N, "inch"); (4%N, "foot"); (5%N, "meter")].
Definition new_units : string -> option N := parse_enum
  [("millimeter", 0%N); ("micron", 1%N); ("centimeter", 2%N); ("inch", 3%N); ("foot", 4%N); ("meter", 5%N)].

(** core.go 82-90 (ObjectType.String), 558-567 (newObjectType); int8 values *)
Definition object_type_string (t : Z) : string :=
  match aget Z.eqb t [(0%Z, "model"); (1%Z, "other"); (2%Z, "support"); (3%Z, "solidsupport"); (4%Z, "surface")] with
  | Some s => s | None => "" end.
Definition new_object_type : string -> option Z := parse_enum
  [("model", 0%Z); ("other", 1%Z); ("support", 2%Z); ("solidsupport", 3%Z); ("surface", 4%Z)].

(** materials/materials.go 48-58, 247-253: Texture2DType, starting at 1 *)
Definition tex_type_string : N -> string := print_enum [(1%N, "image/png"); (2%N, "image/jpeg")].
Definition new_tex_type : string -> option N := parse_enum [("image/png", 1%N); ("image/jpeg", 2%N)].

(** materials/materials.go 64-79, 264-272: TileStyle *)
Definition tile_string : N -> string := print_enum
  [(0%N, "wrap"); (1%N, "mirror"); (2%N, "clamp"); (3%N, "none")].
Definition new_tile : string -> option N := parse_enum
  [("wrap", 0%N); ("mirror", 1%N); ("clamp", 2%N); ("none", 3%N)].

(** materials/materials.go 85-97, 255-262: TextureFilter *)
Definition filter_string : N -> string := print_enum [(0%N, "auto"); (1%N, "linear"); (2%N, "nearest")].
Definition new_filter : string -> option N := parse_enum [("auto", 0%N); ("linear", 1%N); ("nearest", 2%N)].

(** materials/materials.go 103-112, 274-280: BlendMethod *)
Definition blend_string : N -> string := print_enum [(0%N, "mix"); (1%N, "multiply")].
Definition new_blend : string -> option N := parse_enum [("mix", 0%N); ("multiply", 1%N)].

(** beamlattice/beamlattice.go 37-61: ClipMode *)
Definition clip_string : N -> string := print_enum [(0%N, "none"); (1%N, "inside"); (2%N, "outside")].
Definition new_clip : string -> option N := parse_enum [("none", 0%N); ("inside", 1%N); ("outside", 2%N)].

(** beamlattice/beamlattice.go 64-88: CapMode *)
Definition cap_string : N -> string := print_enum [(0%N, "sphere"); (1%N, "hemisphere"); (2%N, "butt")].
Definition new_cap : string -> option N := parse_enum [("sphere", 0%N); ("hemisphere", 1%N); ("butt", 2%N)].

(** slices/slices.go 75-97: MeshResolution *)
Definition resolution_string : N -> string := print_enum [(0%N, "fullres"); (1%N, "lowres")].
Definition new_resolution : string -> option N := parse_enum [("fullres", 0%N); ("lowres", 1%N)].
