(** * Specification: the types of attribute values, and the errors a start tag must give

    The types are those of the 3MF schemas; which of them the reader checks is part of the table below. *)
From Coq Require Import ZArith.
From Verif Require Import GoBase GoFloat GoStrconv Types XmlTypes S_Core S_Text S_Errors.

(** A decimal number below 2^32. *)
Definition UintText (s : string) : Prop :=
  s <> "" /\ sall is_digit s = true /\
  (fold_left (fun a c => (a * 10 + (bN c - 48))%N) (chars s) 0%N < 2 ^ 32)%N.
(** A text strconv.ParseFloat takes for a float32; C60 says which these are. *)
Definition FloatText (s : string) : Prop := snd (parse_float s) = true.

Inductive vtype :=
| TUint | TFloat
| TMatrix                      (* twelve numbers *)
| TColour | TUuid
| TWord (ws : list string)     (* one of these words *)
| TUints | TFloats.            (* a list, each element of which counts *)
Definition TUnits := TWord (map snd spec_units).
Definition TObjType := TWord (map snd spec_object_type).
Definition TClip := TWord (map snd spec_clip).
Definition TCap := TWord (map snd spec_cap).
Definition TRes := TWord (map snd spec_resolution).

(** [n] of the elements of [l] are not [P]. *)
Inductive Wrong (P : string -> Prop) : list string -> nat -> Prop :=
| WNil : Wrong P [] 0
| WGood s l n : P s -> Wrong P l n -> Wrong P (s :: l) n
| WBad s l n : ~ P s -> Wrong P l n -> Wrong P (s :: l) (S n).

(** The number of errors in a value. *)
Definition Flaw (t : vtype) (v : string) (n : nat) : Prop :=
  match t with
  | TUint => Wrong UintText [v] n
  | TFloat => Wrong FloatText [v] n
  | TMatrix => Wrong (fun v => List.length (fields v) = 12%nat /\ Forall FloatText (fields v)) [v] n
  | TColour => Wrong (fun v => exists c, ColourText v c) [v] n
  | TUuid => Wrong UuidTextLoose [v] n
  | TWord ws => Wrong (fun v => In v ws) [v] n
  | TUints => Wrong UintText (fields v) n
  | TFloats => Wrong FloatText (fields v) n
  end.

(** A rule for an attribute: its type and whether errors are marked as those of a required attribute. *)
Definition rule := option (vtype * bool).
Definition req (t : vtype) : rule := Some (t, true).
Definition opt (t : vtype) : rule := Some (t, false).
Definition table (l : list (string * rule)) (a : string) : rule :=
  match aget seq a l with Some r => r | None => None end.

(** The core specification: element and attribute, without namespace. *)
Definition core_rule (el a : string) : rule :=
  if seq el "model" then table [("unit", opt TUnits)] a
  else if seq el "item" then table [("objectid", req TUint); ("transform", opt TMatrix)] a
  else if seq el "basematerials" then table [("id", req TUint)] a
  else if seq el "base" then table [("displaycolor", req TColour)] a
  else if seq el "object" then
    table [("id", req TUint); ("type", opt TObjType); ("pid", opt TUint); ("pindex", opt TUint)] a
  else if seq el "component" then table [("objectid", req TUint); ("transform", opt TMatrix)] a
  else if seq el "vertex" then req TFloat               (* whatever its name *)
  else if seq el "triangle" then
    if existsb (seq a) ["pid"; "p1"; "p2"; "p3"] then opt TUint else req TUint
  else None.
(** Attributes of other specifications on core elements. *)
Definition foreign_rule (ns el a : string) : rule :=
  if seq ns ns_production then
    if existsb (seq el) ["build"; "item"; "object"; "component"] then table [("UUID", req TUuid)] a else None
  else if seq ns ns_slices then
    if seq el "object" then table [("slicestackid", req TUint); ("meshresolution", opt TRes)] a else None
  else None.
(** Elements of other specifications. *)
Definition mat_rule (el a : string) : rule :=
  if seq el "colorgroup" then table [("id", req TUint)] a
  else if seq el "color" then table [("color", req TColour)] a
  else if seq el "texture2dgroup" then table [("id", req TUint); ("texid", req TUint)] a
  else if seq el "tex2coord" then req TFloat
  else if seq el "texture2d" then table [("id", req TUint)] a
  else if seq el "compositematerials" then
    table [("id", req TUint); ("matid", req TUint); ("matindices", req TUints)] a
  else if seq el "composite" then table [("values", req TFloats)] a
  else if seq el "multiproperties" then table [("id", req TUint); ("pids", req TUints)] a
  else if seq el "multi" then table [("pindices", req TUints)] a
  else None.
Definition slice_rule (el a : string) : rule :=
  if seq el "slicestack" then table [("id", req TUint); ("zbottom", opt TFloat)] a
  else if seq el "sliceref" then table [("slicestackid", req TUint)] a
  else if seq el "slice" then table [("ztop", req TFloat)] a
  else if seq el "vertex" then req TFloat
  else if seq el "polygon" then table [("startv", req TUint)] a
  else if seq el "segment" then if seq a "v2" then req TUint else opt TUint
  else None.
Definition beam_rule (el a : string) : rule :=
  if seq el "beamlattice" then
    table [("radius", req TFloat); ("minlength", req TFloat); ("precision", req TFloat);
           ("clippingmode", opt TClip); ("clipping", opt TClip); ("clippingmesh", opt TUint);
           ("representationmesh", opt TUint); ("cap", opt TCap)] a
  else if seq el "beam" then
    table [("v1", req TUint); ("v2", req TUint); ("r1", opt TFloat); ("r2", opt TFloat)] a
  else if seq el "ref" then table [("index", req TUint)] a
  else None.
(** Elements of which only the first attribute of the known name is looked at; a second one of the same name is
    no well-formed XML. *)
Definition first_only (el : Name) : bool :=
  if seq (nspace el) ns_materials then existsb (seq (nlocal el)) ["colorgroup"; "color"]
  else if seq (nspace el) ns_slices then existsb (seq (nlocal el)) ["slice"; "polygon"]
  else if seq (nspace el) ns_beam then existsb (seq (nlocal el)) ["ref"]
  else false.

Section Rules.
(** The namespaces of the registered extensions, and whether the file is the root model *)
Context (known : string -> bool) (isroot : bool).
(** [inres]: the element is a child of the resources.  The slices reader does not look at namespaces. *)
Definition attr_rule (inres : bool) (el : Name) (a : Attr) : rule :=
  let l := nlocal (aname a) in
  let plain := seq (nspace (aname a)) "" in
  if seq (nspace el) ns_core then
    if plain then if seq (nlocal el) "model" && negb isroot then None else core_rule (nlocal el) l
    else if known (nspace (aname a)) then foreign_rule (nspace (aname a)) (nlocal el) l
    else None
  else if known (nspace el) then
    if seq (nspace el) ns_materials then if plain then mat_rule (nlocal el) l else None
    else if seq (nspace el) ns_slices then slice_rule (nlocal el) l
    else if seq (nspace el) ns_beam then if plain then beam_rule (nlocal el) l else None
    else None
  else if inres && plain then table [("id", req TUint)] l
  else None.
Definition attr_first (inres : bool) (el : Name) : bool :=
  if seq (nspace el) ns_core then false
  else if known (nspace el) then first_only el
  else inres.
End Rules.

(** The errors of one attribute, and those of all attributes in order. *)
Inductive AttrFlaws (r : rule) (a : Attr) : list gerr -> Prop :=
| AFNone : r = None -> AttrFlaws r a []
| AFRule t b n : r = Some (t, b) -> Flaw t (avalue a) n ->
    AttrFlaws r a (repeat (EParse (nlocal (aname a)) b) n).
Inductive Flaws (r : Attr -> rule) (first : bool) : list Attr -> list gerr -> Prop :=
| FNil : Flaws r first [] []
| FStop a l es : first = true -> r a <> None -> AttrFlaws (r a) a es -> Flaws r first (a :: l) es
| FCons a l es es' : first = false \/ r a = None -> AttrFlaws (r a) a es -> Flaws r first l es' ->
    Flaws r first (a :: l) (es ++ es').

(** The groups of attributes of other specifications that reading can leave on a core element; they matter when
    it goes on reading into a model that is not empty. *)
Definition group_at (known : string -> bool) (el : string) (g : AttrGroup) : Prop :=
  match g with
  | GUnknown ns _ => known ns = false
  | GBuild _ => el = "build" /\ known ns_production = true
  | GItem _ _ => el = "item" /\ known ns_production = true
  | GObj _ => el = "object" /\ known ns_production = true
  | GComp _ _ => el = "component" /\ known ns_production = true
  | GSlice _ _ => el = "object" /\ known ns_slices = true
  end.
Definition ModelGroups (known : string -> bool) (path : string) (m : Model) : Prop :=
  Forall (group_at known "model") (mo_anyattr m) /\
  Forall (group_at known "build") (bu_any (mo_build m)) /\
  (forall r, Addressed m path r -> Forall (group_at known "resources") (rs_any r)).

(** The elements and their children that the reader knows. *)
Definition cn (l : string) := mkName ns_core l.
Definition root_structure : list (Name * Name) :=
  [(cn "model", cn "build"); (cn "model", cn "metadata"); (cn "build", cn "item"); (cn "item", cn "metadatagroup")].
Definition structure : list (Name * Name) :=
  let m := mkName ns_materials in let s := mkName ns_slices in let b := mkName ns_beam in
  [(cn "model", cn "resources"); (cn "resources", cn "object"); (cn "resources", cn "basematerials");
   (cn "basematerials", cn "base"); (cn "object", cn "metadatagroup"); (cn "metadatagroup", cn "metadata");
   (cn "object", cn "mesh"); (cn "mesh", cn "vertices"); (cn "vertices", cn "vertex"); (cn "mesh", cn "triangles");
   (cn "triangles", cn "triangle"); (cn "object", cn "components"); (cn "components", cn "component");
   (cn "resources", m "colorgroup"); (m "colorgroup", m "color"); (cn "resources", m "texture2dgroup");
   (m "texture2dgroup", m "tex2coord"); (cn "resources", m "texture2d"); (cn "resources", m "compositematerials");
   (m "compositematerials", m "composite"); (cn "resources", m "multiproperties"); (m "multiproperties", m "multi");
   (cn "resources", s "slicestack"); (s "slicestack", s "slice"); (s "slicestack", s "sliceref");
   (s "slice", s "vertices"); (s "vertices", s "vertex"); (s "slice", s "polygon"); (s "polygon", s "segment");
   (cn "mesh", b "beamlattice"); (b "beamlattice", b "beams"); (b "beams", b "beam");
   (b "beamlattice", b "beamsets"); (b "beamsets", b "beamset"); (b "beamset", b "ref")].
(** [c] is to be read as a child of [p]. *)
Definition Expected (known : string -> bool) (isroot : bool) (p c : Name) : Prop :=
  (In (p, c) structure \/ (isroot = true /\ In (p, c) root_structure)) /\
  (nspace c = ns_core \/ known (nspace c) = true).

(** A list with some of the elements of another one, in the same order; the elements that are open after some
    events, the innermost first. *)
Inductive SubList {A} : list A -> list A -> Prop :=
| SLNil l : SubList [] l
| SLTake x l l' : SubList l l' -> SubList (x :: l) (x :: l')
| SLSkip x l l' : SubList l l' -> SubList l (x :: l').
Fixpoint nest (open : list Name) (evs : list event) : option (list Name) :=
  match evs with
  | [] => Some open
  | EvStart n _ :: r => nest (n :: open) r
  | EvEnd n :: r => match open with o :: os => if name_eqb o n then nest os r else None | [] => None end
  | EvChar _ _ :: r => nest open r
  end.
(** The new last element of a list is at index [i]. *)
Definition Lands {A} (i : Z) (before after : list A) : Prop :=
  exists x, after = before ++ [x] /\ i = Z.of_nat (List.length before).
(** A tag whose element, and all elements around it, the innermost first, are to be read. *)
Inductive Chain (known : string -> bool) (isroot : bool) : list Name -> Prop :=
| ChRoot : Chain known isroot [cn "model"]
| ChIn p c l : Chain known isroot (p :: l) -> Expected known isroot p c -> Chain known isroot (c :: p :: l).
(** Events inside the root element, from one list of open elements to another; no element is inside one of its
    own name. *)
Inductive Within : list Name -> list event -> list Name -> Prop :=
| WiNil open : Within open [] open
| WiStart n a open evs open' : open <> [] -> ~ In n open -> Within (n :: open) evs open' ->
    Within open (EvStart n a :: evs) open'
| WiEnd n open evs open' : open <> [] -> Within open evs open' -> Within (n :: open) (EvEnd n :: evs) open'
| WiChar s r open evs open' : Within open evs open' -> Within open (EvChar s r :: evs) open'.
Definition in_resources (open : list Name) : bool :=
  match open with p :: _ => name_eqb p (cn "resources") | [] => false end.
Definition is_char (e : event) : Prop := match e with EvChar _ _ => True | _ => False end.
