(** * Specifications for bounding boxes and the mesh builder *)
From Verif Require Import GoBase GoFloat Types S_Core.

(** An ordinary float32: a number, neither NaN nor infinite. *)
Definition Finite (x : f32) : Prop :=
  match x with
  | S754_zero _ => True
  | S754_finite _ _ _ => f_valid x = true
  | _ => False
  end.
Definition FinitePoint (p : Point3D) : Prop := Finite (px p) /\ Finite (py p) /\ Finite (pz p).
Definition NotNaN (x : f32) : Prop := x <> S754_nan.
Definition NotNaNPoint (p : Point3D) : Prop := NotNaN (px p) /\ NotNaN (py p) /\ NotNaN (pz p).
Definition NotNaNBox (b : Box) : Prop := NotNaNPoint (bmin b) /\ NotNaNPoint (bmax b).

(** [x <= y] as numbers *)
Definition Le (x y : f32) : Prop := fleb x y = true.
(** Equality as numbers: only the sign of a zero may differ. *)
Definition NumEq (x y : f32) : Prop := Le x y /\ Le y x.
Definition NumEqPoint (p q : Point3D) : Prop := NumEq (px p) (px q) /\ NumEq (py p) (py q) /\ NumEq (pz p) (pz q).
Definition NumEqBox (a b : Box) : Prop := NumEqPoint (bmin a) (bmin b) /\ NumEqPoint (bmax a) (bmax b).

Definition Inside (p : Point3D) (b : Box) : Prop :=
  (Le (px (bmin b)) (px p) /\ Le (px p) (px (bmax b))) /\
  (Le (py (bmin b)) (py p) /\ Le (py p) (py (bmax b))) /\
  (Le (pz (bmin b)) (pz p) /\ Le (pz p) (pz (bmax b))).
(** Each of the six faces touches one of the points. *)
Definition Touches (vs : list Point3D) (b : Box) : Prop :=
  (exists p, In p vs /\ px p = px (bmin b)) /\ (exists p, In p vs /\ px p = px (bmax b)) /\
  (exists p, In p vs /\ py p = py (bmin b)) /\ (exists p, In p vs /\ py p = py (bmax b)) /\
  (exists p, In p vs /\ pz p = pz (bmin b)) /\ (exists p, In p vs /\ pz p = pz (bmax b)).

(** ** Floor and grid cells *)
(** [z] is the largest integer not above [x]. *)
Definition IsFloor (x : f32) (z : Z) : Prop :=
  match x with
  | S754_zero _ => z = 0%Z
  | S754_finite s m e =>
      let v := if s then Zneg m else Zpos m in
      if (0 <=? e)%Z then z = (v * 2 ^ e)%Z
      else (z * 2 ^ (- e) <= v < (z + 1) * 2 ^ (- e))%Z
  | _ => False
  end.
Definition Int32 (z : Z) : Prop := (- 2147483648 <= z <= 2147483647)%Z.
(** The cell index of a coordinate: the floor of the float32 quotient by 1e-6 when it is an
    int32; otherwise whatever the platform's conversion gives. *)
Definition CellIndex (oor : f32 -> Z) (x : f32) (z : Z) : Prop :=
  let q := fdiv x (S754_finite false 8796093 (-43)) in
  (exists f, IsFloor q f /\ Int32 f /\ z = f) \/
  ((forall f, IsFloor q f -> ~ Int32 f) /\ z = oor q).
Definition SameCell (oor : f32 -> Z) (p q : Point3D) : Prop :=
  (exists z, CellIndex oor (px p) z /\ CellIndex oor (px q) z) /\
  (exists z, CellIndex oor (py p) z /\ CellIndex oor (py q) z) /\
  (exists z, CellIndex oor (pz p) z /\ CellIndex oor (pz q) z).

(** ** Objects and the part they are written in *)
(** The path a component or item carries (production extension), "" for none. *)
Definition group_path (g : AttrGroup) : string :=
  match g with GItem _ p | GComp _ p => p | _ => "" end.
Inductive CarriedPath : AnyAttr -> string -> Prop :=
| CPNone l : (forall g, In g l -> group_path g = "") -> CarriedPath l ""
| CPSome a g b : (forall g', In g' a -> group_path g' = "") -> group_path g <> "" ->
    CarriedPath (a ++ g :: b) (group_path g).
(** The file in which the target of a component written in [file] lives. *)
Definition TargetFile (c : Component) (file file' : string) : Prop :=
  exists p, CarriedPath (co_any c) p /\ ((p = "" /\ file' = file) \/ (p <> "" /\ file' = p)).
(** The object a component written in [file] designates. *)
Definition Target (m : Model) (c : Component) (file file' : string) (o : Object) : Prop :=
  TargetFile c file file' /\
  exists rs, Addressed m file' rs /\ FirstWith ob_id (co_oid c) (rs_objects rs) o.
Definition Comps (o : Object) : list Component :=
  match ob_comps o with Some cs => cs_list cs | None => [] end.

(** The box of an object written in [file], each component being resolved in the file where it
    is written; [mesh_box], [start] and [add] are the arithmetic of boxes. *)
Section BoxOf.
  Variable m : Model.
  Variable mesh_box : Mesh -> Box.
  Variable start : Box.
  Variable add : Box -> Matrix -> Box -> Box.
  Variable zero : Box.
  Inductive BoxOf : string -> Object -> Box -> Prop :=
  | BoxMesh file o me : ob_mesh o = Some me -> BoxOf file o (mesh_box me)
  | BoxEmpty file o : ob_mesh o = None -> Comps o = [] -> BoxOf file o zero
  | BoxComps file o b : ob_mesh o = None -> Comps o <> [] -> BoxOfComps file start (Comps o) b -> BoxOf file o b
  with BoxOfComps : string -> Box -> list Component -> Box -> Prop :=
  | BCNil file acc : BoxOfComps file acc [] acc
  | BCSkip file acc c r b : (forall file' o, ~ Target m c file file' o) ->
      BoxOfComps file acc r b -> BoxOfComps file acc (c :: r) b
  | BCAdd file acc c r file' o cb b : Target m c file file' o -> BoxOf file' o cb ->
      BoxOfComps file (add acc (co_tr c) cb) r b -> BoxOfComps file acc (c :: r) b.
End BoxOf.

(** All objects of a model with the path of their part. *)
Definition ObjectOf (m : Model) (o : Object) : Prop :=
  In o (rs_objects (mo_res m)) \/ exists pc, In pc (mo_childs m) /\ In o (rs_objects (ch_res (snd pc))).
(** Component references go from higher to lower ranks: there is no cycle. *)
Definition Acyclic (m : Model) : Prop :=
  exists rank : Object -> nat, forall o c o',
    ObjectOf m o -> In c (Comps o) -> ObjectOf m o' -> ob_id o' = co_oid c -> rank o' < rank o.

(** A finite float32 as an integer multiple of 2^-149. *)
Definition scaled (x : f32) : Z :=
  match x with
  | S754_finite s m e => (if s then Zneg m else Zpos m) * 2 ^ (e + 149)
  | _ => 0
  end%Z.
(** [x] and [y] differ by more than [n] millionths. *)
Definition ApartMicrons (n : Z) (x y : f32) : Prop :=
  (n * 2 ^ 149 < 1000000 * Z.abs (scaled x - scaled y))%Z.
(** At most 16 units from the origin. *)
Definition Within16 (x : f32) : Prop := (Z.abs (scaled x) <= 16 * 2 ^ 149)%Z.

(** The coefficients of a row of a transform have the same sign. *)
Definition RowSigns (a b c : f32) : Prop :=
  (Le f_zero a /\ Le f_zero b /\ Le f_zero c) \/ (Le a f_zero /\ Le b f_zero /\ Le c f_zero).
(** The twelve entries the 3MF format stores are ordinary numbers. *)
Definition FiniteMatrix (t : Matrix) : Prop :=
  Finite (m0 t) /\ Finite (m1 t) /\ Finite (m2 t) /\ Finite (m4 t) /\ Finite (m5 t) /\ Finite (m6 t) /\
  Finite (m8 t) /\ Finite (m9 t) /\ Finite (m10 t) /\ Finite (m12 t) /\ Finite (m13 t) /\ Finite (m14 t).
