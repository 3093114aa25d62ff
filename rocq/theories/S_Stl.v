(** * Specification of the STL importer *)
From Coq Require Import ZArith.
From Verif Require Import GoBase GoNum GoFloat GoStrconv Types S_Core S_Geom S_Strconv.

(** ** Text *)
Definition newline : string := String "010" "".
Definition NoNewline (l : string) : Prop := forall c, In c (chars l) -> c <> "010"%char.
(** The lines of a text; the last one may lack its newline *)
Inductive LinesOf : list string -> string -> Prop :=
| LiNil : LinesOf [] ""
| LiLast l : l <> "" -> NoNewline l -> LinesOf [l] l
| LiCons l ls s : NoNewline l -> LinesOf ls s -> LinesOf (l :: ls) (l +++ newline +++ s).
(** "vertex x y z"; what is not a number counts as 0 *)
Definition number (w : string) (x : f32) : Prop := exists ok, parse_float w = (x, ok).
Definition VertexLine (l : string) (p : Point3D) : Prop :=
  exists x y z, Words ["vertex"; x; y; z] l /\ number x (px p) /\ number y (py p) /\ number z (pz p).
(** The points of the vertex lines, in order; other lines mean nothing *)
Inductive VertexLines : list string -> list Point3D -> Prop :=
| VeNil : VertexLines [] []
| VePoint l ls p ps : VertexLine l p -> VertexLines ls ps -> VertexLines (l :: ls) (p :: ps)
| VeOther l ls ps : (forall p, ~ VertexLine l p) -> VertexLines ls ps -> VertexLines (l :: ls) ps.
(** The complete groups of three *)
Inductive Threes : list Point3D -> list (Point3D * Point3D * Point3D) -> Prop :=
| ThEnd ps : List.length ps < 3 -> Threes ps []
| ThMore a b c ps ts : Threes ps ts -> Threes (a :: b :: c :: ps) ((a, b, c) :: ts).

(** ** Binary *)
Definition le32 (n : N) (w : string) : Prop :=
  exists a b c d, w = String a (String b (String c (String d ""))) /\ n = (bN a + 2 ^ 8 * bN b + 2 ^ 16 * bN c + 2 ^ 24 * bN d)%N.
(** IEEE 754 binary32: sign, eight bits of exponent, 23 bits of fraction *)
Definition ieee_bits (x : f32) (n : N) : Prop :=
  let sign (s : bool) := (if s then 2 ^ 31 else 0)%N in
  match x with
  | S754_zero s => n = sign s
  | S754_infinity s => n = (sign s + 255 * 2 ^ 23)%N
  | S754_nan => exists s f, n = (sign s + 255 * 2 ^ 23 + f)%N /\ (0 < f < 2 ^ 23)%N
  | S754_finite s m e =>
      if (Npos m <? 2 ^ 23)%N then n = (sign s + Npos m)%N
      else n = (sign s + Z.to_N (e + 150) * 2 ^ 23 + (Npos m - 2 ^ 23))%N
  end.
Definition StoredFloat (x : f32) (w : string) : Prop := f_valid x = true /\ exists n, le32 n w /\ ieee_bits x n.
Definition StoredPoint (p : Point3D) (w : string) : Prop :=
  exists a b c, w = a +++ b +++ c /\ StoredFloat (px p) a /\ StoredFloat (py p) b /\ StoredFloat (pz p) c.
(** A facet: twelve bytes of normal, three corners, two more bytes *)
Definition Facet (t : Point3D * Point3D * Point3D) (w : string) : Prop :=
  let '(a, b, c) := t in
  exists nrm wa wb wc att, w = nrm +++ wa +++ wb +++ wc +++ att /\ String.length nrm = 12 /\ String.length att = 2 /\
    StoredPoint a wa /\ StoredPoint b wb /\ StoredPoint c wc.
Inductive Facets : list (Point3D * Point3D * Point3D) -> string -> Prop :=
| FaNil rest : Facets [] rest
| FaCons t ts w rest : Facet t w -> Facets ts rest -> Facets (t :: ts) (w +++ rest).
(** A header of eighty bytes, the number of facets and what follows *)
Definition BinaryFile (n : N) (body data : string) : Prop :=
  exists h w, data = h +++ w +++ body /\ String.length h = 80 /\ le32 n w.

(** ** The result *)
(** A corner: a vertex that is the point, up to the accuracy of merging *)
Definition Corner (oor : f32 -> Z) (m : Mesh) (i : N) (p : Point3D) : Prop :=
  exists v, nth_error (me_verts m) (N.to_nat i) = Some v /\ SameCell oor v p.
Definition TriangleOf (oor : f32 -> Z) (m : Mesh) (x : Triangle) (t : Point3D * Point3D * Point3D) : Prop :=
  let '(a, b, c) := t in
  Corner oor m (t_v1 x) a /\ Corner oor m (t_v2 x) b /\ Corner oor m (t_v3 x) c /\
  t_pid x = 0%N /\ t_p1 x = 0%N /\ t_p2 x = 0%N /\ t_p3 x = 0%N /\ t_any x = [].
(** One triangle for each three points, and no vertex that is not one of [ps] *)
Definition MeshOf (oor : f32 -> Z) (ps : list Point3D) (ts : list (Point3D * Point3D * Point3D)) (m : Mesh) : Prop :=
  Forall2 (TriangleOf oor m) (me_tris m) ts /\ (forall v, In v (me_verts m) -> In v ps) /\
  me_vany m = [] /\ me_tany m = [] /\ me_any m = [] /\ me_ext m = [].
(** The model with one more object, of the mesh only, and one more build item that places it *)
Definition Imported (m m' : Model) (id : N) (mesh : Mesh) : Prop :=
  let o := mkObj id "" "" "" 0 0 0 mg_zero (Some mesh) None [] in
  mo_res m' = mkRes (rs_assets (mo_res m)) (rs_objects (mo_res m) ++ [o]) (rs_any (mo_res m)) /\
  mo_build m' = mkBuild (bu_items (mo_build m) ++ [mkItem id matrix_zero "" mg_zero []]) (bu_any (mo_build m)) /\
  mo_path m' = mo_path m /\ mo_lang m' = mo_lang m /\ mo_units m' = mo_units m /\ mo_thumb m' = mo_thumb m /\
  mo_atts m' = mo_atts m /\ mo_exts m' = mo_exts m /\ mo_md m' = mo_md m /\ mo_childs m' = mo_childs m /\
  mo_rootrels m' = mo_rootrels m /\ mo_rels m' = mo_rels m /\ mo_any m' = mo_any m /\ mo_anyattr m' = mo_anyattr m.

(** Format detection: text begins with "solid", in any case, and the bytes looked at are all ASCII *)
Definition LooksText (data : string) : Prop :=
  (exists r, eq_fold (stake 5 data) "solid" = true /\ data = stake 5 data +++ r) /\
  forall c, In c (chars (stake 300 data)) -> (bN c < 128)%N.
