(** * Boxes, transforms, bounding boxes and the mesh builder (math.go, core.go) *)
From Verif Require Import GoBase GoFloat Types M_Core Conc.

(** math.go 242-247 and 249-254 *)
Definition fmin (x y : f32) : f32 := if fltb x y then x else y.
Definition fmax (x y : f32) : f32 := if fltb y x then x else y.

(** math.go 205-210, newLimitBox; 203, emptyBox *)
Definition limit_box : Box := mkBox (P3 f_max f_max f_max) (P3 (fneg f_max) (fneg f_max) (fneg f_max)).
Definition box_zero : Box := mkBox point_zero point_zero.

(** math.go 212-225, Box.extend *)
Definition extend (b v : Box) : Box :=
  mkBox (P3 (fmin (px (bmin b)) (px (bmin v))) (fmin (py (bmin b)) (py (bmin v))) (fmin (pz (bmin b)) (pz (bmin v))))
        (P3 (fmax (px (bmax b)) (px (bmax v))) (fmax (py (bmax b)) (py (bmax v))) (fmax (pz (bmax b)) (pz (bmax v)))).
(** math.go 227-240, Box.extendPoint *)
Definition extend_point (b : Box) (v : Point3D) : Box :=
  mkBox (P3 (fmin (px (bmin b)) (px v)) (fmin (py (bmin b)) (py v)) (fmin (pz (bmin b)) (pz v)))
        (P3 (fmax (px (bmax b)) (px v)) (fmax (py (bmax b)) (py v)) (fmax (pz (bmax b)) (pz v))).

(** Go's [==] on Point3D and Box *)
Definition point_eqb (a b : Point3D) : bool := feqb (px a) (px b) && feqb (py a) (py b) && feqb (pz a) (pz b).
Definition box_eqb (a b : Box) : bool := point_eqb (bmin a) (bmin b) && point_eqb (bmax a) (bmax b).

(** a*x + b*y + c*z + d, evaluated left to right *)
Definition dot4 (a x b y c z d : f32) : f32 := fadd (fadd (fadd (fmul a x) (fmul b y)) (fmul c z)) d.
(** math.go 158-164, Mul3D *)
Definition mul3d (t : Matrix) (v : Point3D) : Point3D :=
  P3 (dot4 (m0 t) (px v) (m4 t) (py v) (m8 t) (pz v) (m12 t))
     (dot4 (m1 t) (px v) (m5 t) (py v) (m9 t) (pz v) (m13 t))
     (dot4 (m2 t) (px v) (m6 t) (py v) (m10 t) (pz v) (m14 t)).
(** math.go 177-195, MulBox *)
Definition mul_box (t : Matrix) (b : Box) : Box :=
  if feqb (m15 t) f_zero then b else
  let lo := mul3d t (bmin b) in
  let hi := mul3d t (bmax b) in
  let sw (x y : f32) := if fltb y x then (y, x) else (x, y) in
  let '(x0, x1) := sw (px lo) (px hi) in
  let '(y0, y1) := sw (py lo) (py hi) in
  let '(z0, z1) := sw (pz lo) (pz hi) in
  mkBox (P3 x0 y0 z0) (P3 x1 y1 z1).

(** core.go 500-509, Mesh.BoundingBox *)
Definition verts_bbox (vs : list Point3D) : Box :=
  match vs with [] => box_zero | _ => fold_left extend_point vs limit_box end.
Definition mesh_bbox (me : Mesh) : Box := verts_bbox (me_verts me).

(** core.go 416-433, Object.boundingBox.  [None]: the recursion has not ended within
    [fuel] nested calls.  As in the code, [path] is passed unchanged to the
    recursive call. *)
Section ObjBox.
  Variable m : Model.
  Variable path : string.
  Variable rec : Object -> option Box.
  Fixpoint comps_bbox (box : Box) (cs : list Component) : option Box :=
    match cs with
    | [] => Some box
    | c :: r =>
        match find_object m (comp_path c path) (co_oid c) with
        | Some o =>
            match rec o with
            | None => None
            | Some cbox =>
                comps_bbox (if negb (box_eqb cbox box_zero) then extend box (mul_box (co_tr c) cbox) else box) r
            end
        | None => comps_bbox box r
        end
    end.
End ObjBox.
Definition comps_of (o : Object) : list Component :=
  match ob_comps o with None => [] | Some cs => cs_list cs end.
Fixpoint obj_bbox (fuel : nat) (m : Model) (path : string) (o : Object) : option Box :=
  match fuel with
  | O => None
  | S f =>
      match ob_mesh o with
      | Some me => Some (mesh_bbox me)
      | None =>
          match comps_of o with
          | [] => Some box_zero
          | cs => comps_bbox m path (obj_bbox f m path) limit_box cs
          end
      end
  end.

(** core.go 246-258: what the goroutine of one item does.  [None]: it does not return. *)
Definition item_task (fuel : nat) (m : Model) (it : Item) : option (task Box) :=
  match find_object m (item_path it) (it_oid it) with
  | None => Some None
  | Some o =>
      match obj_bbox fuel m (item_path it) o with
      | None => None
      | Some ibox =>
          if negb (box_eqb ibox box_zero)
          then Some (Some (fun box => extend box (mul_box (it_tr it) ibox)))
          else Some None
      end
  end.
Fixpoint all_some {A} (l : list (option A)) : option (list A) :=
  match l with
  | [] => Some []
  | None :: _ => None
  | Some x :: r => match all_some r with Some r' => Some (x :: r') | None => None end
  end.
(** core.go 237-261, Model.BoundingBox: [model_bbox fuel m r] says that [r] is a box some
    schedule returns. *)
Definition model_bbox (fuel : nat) (m : Model) (r : Box) : Prop :=
  match bu_items (mo_build m) with
  | [] => r = box_zero
  | its =>
      exists ts, all_some (map (item_task fuel m) its) = Some ts /\ outcome limit_box ts r
  end.
(** The outcome of the schedule that runs the goroutines one after the other. *)
Definition model_bbox_seq (fuel : nat) (m : Model) : option Box :=
  match bu_items (mo_build m) with
  | [] => Some box_zero
  | its => match all_some (map (item_task fuel m) its) with
           | Some ts => Some (apply_all (updates ts) limit_box)
           | None => None
           end
  end.

(** ** MeshBuilder *)
(** The float32 constant micronsAccuracy = 1e-6 (math.go 45): 8796093 * 2^-43 is the float32
    nearest to 10^-6. *)
Definition micron : f32 := S754_finite false 8796093 (-43).
(** math.Floor of the (exactly converted) float64, then its integer value.  [None] for NaN and
    infinities. *)
Definition floorZ (x : f32) : option Z :=
  match x with
  | S754_zero _ => Some 0%Z
  | S754_finite s m e =>
      let v := if s then Zneg m else Zpos m in
      Some (if (0 <=? e)%Z then (v * 2 ^ e)%Z else (v / 2 ^ (- e))%Z)
  | _ => None
  end.
(** math.go 47-54, newvec3IFromVec3.  The conversion float64 -> int32 is implementation defined
    when the value does not fit; [oor] stands for whatever the platform does. *)
Section Builder.
  Variable oor : f32 -> Z.
  Definition cell1 (x : f32) : Z :=
    let q := fdiv x micron in
    match floorZ q with
    | Some z => if ((- 2147483648 <=? z) && (z <=? 2147483647))%Z then z else oor q
    | None => oor q
    end.
  Definition cell := (Z * Z * Z)%type.
  Definition cell_of (p : Point3D) : cell := (cell1 (px p), cell1 (py p), cell1 (pz p)).
  Definition cell_eqb (a b : cell) : bool :=
    let '(x, y, z) := a in let '(x', y', z') := b in (x =? x')%Z && (y =? y')%Z && (z =? z')%Z.

  (** core.go 513-521: the builder with the vertices of its mesh and the vectorTree map *)
  Record MB := mkMB { mb_conn : bool; mb_verts : list Point3D; mb_tree : list (cell * N) }.
  (** core.go 524-530, NewMeshBuilder *)
  Definition new_builder (verts : list Point3D) : MB := mkMB true verts [].
  (** core.go 533-545, AddVertex *)
  Definition add_vertex (mb : MB) (p : Point3D) : MB * N :=
    let found := if mb_conn mb then aget cell_eqb (cell_of p) (mb_tree mb) else None in
    match found with
    | Some i => (mb, i)
    | None =>
        let vs := mb_verts mb ++ [p] in
        let i := ((N.of_nat (List.length vs) + 2 ^ 32 - 1) mod 2 ^ 32)%N in
        (mkMB (mb_conn mb) vs (if mb_conn mb then aset cell_eqb (cell_of p) i (mb_tree mb) else mb_tree mb), i)
    end.
  Fixpoint add_all (mb : MB) (ps : list Point3D) : MB * list N :=
    match ps with
    | [] => (mb, [])
    | p :: r => let (mb1, i) := add_vertex mb p in
                let (mb2, is) := add_all mb1 r in (mb2, i :: is)
    end.
End Builder.
