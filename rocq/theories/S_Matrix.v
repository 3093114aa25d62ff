(** * Specification of matrix products *)
From Coq Require Import ZArith Reals.
From Verif Require Import GoBase GoFloat Types S_Geom S_Strconv.

(** [x] is the integer [n] *)
Definition Whole (x : f32) (n : Z) : Prop := Finite x /\ value x = IZR n.
(** The entry in row [r] and column [c] *)
Definition entry (t : Matrix) (r c : nat) : f32 :=
  nth (4 * r + c) [m0 t; m1 t; m2 t; m3 t; m4 t; m5 t; m6 t; m7 t; m8 t; m9 t; m10 t; m11 t; m12 t; m13 t; m14 t; m15 t] f_zero.
Definition WholeMatrix (t : Matrix) (z : nat -> nat -> Z) : Prop :=
  forall r c, r < 4 -> c < 4 -> Whole (entry t r c) (z r c).
Definition Within (b : Z) (z : nat -> nat -> Z) : Prop := forall r c, r < 4 -> c < 4 -> (Z.abs (z r c) <= b)%Z.
Definition WholePoint (p : Point3D) (x y z : Z) : Prop := Whole (px p) x /\ Whole (py p) y /\ Whole (pz p) z.

(** The product of integer matrices, rows by columns *)
Definition product (p q : nat -> nat -> Z) (r c : nat) : Z :=
  (p r 0%nat * q 0%nat c + p r 1%nat * q 1%nat c + p r 2%nat * q 2%nat c + p r 3%nat * q 3%nat c)%Z.
(** The row vector (x, y, z, 1) times a matrix: its column [c] *)
Definition moved (m : nat -> nat -> Z) (x y z : Z) (c : nat) : Z :=
  (x * m 0%nat c + y * m 1%nat c + z * m 2%nat c + m 3%nat c)%Z.
(** The last column of a transform *)
Definition Affine (m : nat -> nat -> Z) : Prop := m 0 3 = 0%Z /\ m 1 3 = 0%Z /\ m 2 3 = 0%Z /\ m 3 3 = 1%Z.

Definition FiniteEntries (t : Matrix) : Prop := forall r c, r < 4 -> c < 4 -> Finite (entry t r c).
Definition NumEqMatrix (s t : Matrix) : Prop := forall r c, r < 4 -> c < 4 -> NumEq (entry s r c) (entry t r c).
