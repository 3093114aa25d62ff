(** * Specifications for lookups, walks and enumerations

    Nothing here refers to the model of the code, only to the data types. *)
From Coq Require Import Permutation.
From Verif Require Import GoBase GoFloat Types.

(** The identifiers in use in a part. *)
Definition IdInUse (rs : Resources) (k : N) : Prop :=
  (exists a, In a (rs_assets rs) /\ asset_id a = k) \/
  (exists o, In o (rs_objects rs) /\ ob_id o = k).

(** How many resources carry an identifier. *)
Definition id_count (rs : Resources) (k : N) : nat :=
  List.length (filter (fun a => (asset_id a =? k)%N) (rs_assets rs)) +
  List.length (filter (fun o => (ob_id o =? k)%N) (rs_objects rs)).

(** All identifiers are legal (non-zero, 32 bits) and pairwise distinct. *)
Definition DistinctIds (rs : Resources) : Prop :=
  forall k, id_count rs k <> 0 -> id_count rs k = 1 /\ (0 < k < 2 ^ 32)%N.

(** [g] is the lowest positive identifier not in use. *)
Definition LowestUnused (rs : Resources) (g : N) : Prop :=
  (0 < g)%N /\ ~ IdInUse rs g /\ (forall k, (0 < k < g)%N -> IdInUse rs k).

(** The part a path addresses. *)
Inductive Addressed (m : Model) (path : string) : Resources -> Prop :=
| AddrEmpty : path = "" -> Addressed m path (mo_res m)
| AddrRoot : mo_path m <> "" -> path = mo_path m -> Addressed m path (mo_res m)
| AddrDefault : mo_path m = "" -> path = DefaultModelPath -> Addressed m path (mo_res m)
| AddrChild c : path <> "" ->
    path <> (if seq (mo_path m) "" then DefaultModelPath else mo_path m) ->
    In (path, c) (mo_childs m) -> Addressed m path (ch_res c).

(** [x] is the first element of [l] whose key is [k]. *)
Definition FirstWith {A} (key : A -> N) (k : N) (l : list A) (x : A) : Prop :=
  exists before after, l = before ++ x :: after /\ key x = k /\ Forall (fun y => key y <> k) before.

(** The list of visits of a walk: children in ascending order of their path,
    then the root with the empty path. *)
Inductive Ascending : list string -> Prop :=
| Asc0 : Ascending []
| Asc1 s : Ascending [s]
| Asc2 s t l : sleb s t = true -> s <> t -> Ascending (t :: l) -> Ascending (s :: t :: l).

Definition Visits {A} (items : Resources -> list A) (m : Model) (v : list (string * A)) : Prop :=
  exists cs : list (string * Child),
    Permutation cs (mo_childs m) /\ Ascending (map fst cs) /\
    v = concat (map (fun pc => map (fun x => (fst pc, x)) (items (ch_res (snd pc)))) cs)
        ++ map (fun x => ("", x)) (items (mo_res m)).

(** Calling [fn] on the visits one after the other up to the first error. *)
Inductive CallAll {St E A} (fn : St -> string -> A -> St * option E) :
  St -> list (string * A) -> St * option E -> Prop :=
| CallNone st : CallAll fn st [] (st, None)
| CallError st p x l st' e : fn st p x = (st', Some e) -> CallAll fn st ((p, x) :: l) (st', Some e)
| CallNext st p x l st' r :
    fn st p x = (st', None) -> CallAll fn st' l r -> CallAll fn st ((p, x) :: l) r.

(** Keys of a Go map are distinct. *)
Definition ChildsOk (m : Model) : Prop := NoDup (map fst (mo_childs m)).

(** The texts of the enumerated attributes, from the 3MF specifications
    (millimeter is the unit with code 0, and so on). *)
Definition spec_units : list (N * string) :=
  [(0%N, "millimeter"); (1%N, "micron"); (2%N, "centimeter"); (3%N, "inch"); (4%N, "foot"); (5%N, "meter")].
Definition spec_object_type : list (Z * string) :=
  [(0%Z, "model"); (1%Z, "other"); (2%Z, "support"); (3%Z, "solidsupport"); (4%Z, "surface")].
Definition spec_tex_type : list (N * string) := [(1%N, "image/png"); (2%N, "image/jpeg")].
Definition spec_tile : list (N * string) := [(0%N, "wrap"); (1%N, "mirror"); (2%N, "clamp"); (3%N, "none")].
Definition spec_filter : list (N * string) := [(0%N, "auto"); (1%N, "linear"); (2%N, "nearest")].
Definition spec_blend : list (N * string) := [(0%N, "mix"); (1%N, "multiply")].
Definition spec_clip : list (N * string) := [(0%N, "none"); (1%N, "inside"); (2%N, "outside")].
Definition spec_cap : list (N * string) := [(0%N, "sphere"); (1%N, "hemisphere"); (2%N, "butt")].
Definition spec_resolution : list (N * string) := [(0%N, "fullres"); (1%N, "lowres")].

(** [print] and [parse] realise a table: printing gives the text of each value,
    and the accepted texts are exactly those of the table, with their value. *)
Definition EnumOk {A} (table : list (A * string)) (print : A -> string) (parse : string -> option A) : Prop :=
  (forall v s, In (v, s) table -> print v = s /\ parse (print v) = Some v) /\
  (forall v, ~ In v (map fst table) -> print v = "") /\
  (forall s v, parse s = Some v <-> In (v, s) table).

(** A matrix whose entries are all zeros (of either sign), and a matrix equal to
    the identity up to the sign of its zeros. *)
Definition is_zero (x : f32) : Prop := exists s, x = S754_zero s.
Definition one32 : f32 := S754_finite false 8388608 (-23).   (* 2^23 * 2^-23 *)
Definition ZeroMatrix (t : Matrix) : Prop :=
  is_zero (m0 t) /\ is_zero (m1 t) /\ is_zero (m2 t) /\ is_zero (m3 t) /\
  is_zero (m4 t) /\ is_zero (m5 t) /\ is_zero (m6 t) /\ is_zero (m7 t) /\
  is_zero (m8 t) /\ is_zero (m9 t) /\ is_zero (m10 t) /\ is_zero (m11 t) /\
  is_zero (m12 t) /\ is_zero (m13 t) /\ is_zero (m14 t) /\ is_zero (m15 t).
Definition IdentityMatrix (t : Matrix) : Prop :=
  m0 t = one32 /\ is_zero (m1 t) /\ is_zero (m2 t) /\ is_zero (m3 t) /\
  is_zero (m4 t) /\ m5 t = one32 /\ is_zero (m6 t) /\ is_zero (m7 t) /\
  is_zero (m8 t) /\ is_zero (m9 t) /\ m10 t = one32 /\ is_zero (m11 t) /\
  is_zero (m12 t) /\ is_zero (m13 t) /\ is_zero (m14 t) /\ m15 t = one32.
Definition MatrixValid (t : Matrix) : Prop :=
  Forall (fun x => f_valid x = true)
    [m0 t; m1 t; m2 t; m3 t; m4 t; m5 t; m6 t; m7 t; m8 t; m9 t; m10 t; m11 t; m12 t; m13 t; m14 t; m15 t].
