(** * Specification: how far a moved point may be off (C61) *)
From Coq Require Import Reals.
From Verif Require Import GoBase GoFloat Types S_Geom S_Strconv S_Matrix.
Local Open Scope R_scope.

(** The matrix in real numbers *)
Definition reals (t : Matrix) (r c : nat) : R := value (entry t r c).
(** The row vector (x, y, z, 1) times a matrix of real numbers: its column [c] *)
Definition rmoved (m : nat -> nat -> R) (x y z : R) (c : nat) : R := x * m 0%nat c + y * m 1%nat c + z * m 2%nat c + m 3%nat c.
Definition coord (p : Point3D) (c : nat) : f32 := match c with 0%nat => px p | 1%nat => py p | _ => pz p end.
(** The linear part is at most [L], the translation at most [T] *)
Definition Bounded (t : Matrix) (L T : R) : Prop := FiniteEntries t /\
  (forall r c, (r < 3)%nat -> (c < 3)%nat -> Rabs (reals t r c) <= L) /\ (forall c, (c < 3)%nat -> Rabs (reals t 3 c) <= T).
(** The last column of a transform *)
Definition RAffine (t : Matrix) : Prop := reals t 0 3 = 0 /\ reals t 1 3 = 0 /\ reals t 2 3 = 0 /\ reals t 3 3 = 1.
Definition BoundedPoint (p : Point3D) (C : R) : Prop := forall c, (c < 3)%nat -> Finite (coord p c) /\ Rabs (value (coord p c)) <= C.
(** The unit of rounding of float32 *)
Definition unit32 : R := / 16777216.
(** [x] is a number, at most [e] from [r] *)
Definition Off (x : f32) (r e : R) : Prop := Finite x /\ Rabs (value x - r) <= e.
