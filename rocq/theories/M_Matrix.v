(** * Products of matrices (math.go) *)
From Verif Require Import GoBase GoFloat Types M_Geom.

(** a*x + b*y + c*z + d*w, evaluated left to right *)
Definition dot4w (a x b y c z d w : f32) : f32 := fadd (fadd (fadd (fmul a x) (fmul b y)) (fmul c z)) (fmul d w).
(** math.go 135-154, Matrix.Mul: [a] is the receiver *)
Definition mat_mul (a b : Matrix) : Matrix :=
  M16 (dot4w (m0 a) (m0 b) (m4 a) (m1 b) (m8 a) (m2 b) (m12 a) (m3 b))
      (dot4w (m1 a) (m0 b) (m5 a) (m1 b) (m9 a) (m2 b) (m13 a) (m3 b))
      (dot4w (m2 a) (m0 b) (m6 a) (m1 b) (m10 a) (m2 b) (m14 a) (m3 b))
      (dot4w (m3 a) (m0 b) (m7 a) (m1 b) (m11 a) (m2 b) (m15 a) (m3 b))
      (dot4w (m0 a) (m4 b) (m4 a) (m5 b) (m8 a) (m6 b) (m12 a) (m7 b))
      (dot4w (m1 a) (m4 b) (m5 a) (m5 b) (m9 a) (m6 b) (m13 a) (m7 b))
      (dot4w (m2 a) (m4 b) (m6 a) (m5 b) (m10 a) (m6 b) (m14 a) (m7 b))
      (dot4w (m3 a) (m4 b) (m7 a) (m5 b) (m11 a) (m6 b) (m15 a) (m7 b))
      (dot4w (m0 a) (m8 b) (m4 a) (m9 b) (m8 a) (m10 b) (m12 a) (m11 b))
      (dot4w (m1 a) (m8 b) (m5 a) (m9 b) (m9 a) (m10 b) (m13 a) (m11 b))
      (dot4w (m2 a) (m8 b) (m6 a) (m9 b) (m10 a) (m10 b) (m14 a) (m11 b))
      (dot4w (m3 a) (m8 b) (m7 a) (m9 b) (m11 a) (m10 b) (m15 a) (m11 b))
      (dot4w (m0 a) (m12 b) (m4 a) (m13 b) (m8 a) (m14 b) (m12 a) (m15 b))
      (dot4w (m1 a) (m12 b) (m5 a) (m13 b) (m9 a) (m14 b) (m13 a) (m15 b))
      (dot4w (m2 a) (m12 b) (m6 a) (m13 b) (m10 a) (m14 b) (m14 a) (m15 b))
      (dot4w (m3 a) (m12 b) (m7 a) (m13 b) (m11 a) (m14 b) (m15 a) (m15 b)).
(** math.go 168-173, Mul2D *)
Definition mul2d (t : Matrix) (v : Point2D) : Point2D :=
  P2 (fadd (fadd (fmul (m0 t) (p2x v)) (fmul (m4 t) (p2y v))) (m12 t))
     (fadd (fadd (fmul (m1 t) (p2x v)) (fmul (m5 t) (p2y v))) (m13 t)).
(** math.go 126-131, Translate *)
Definition translate (t : Matrix) (x y z : f32) : Matrix :=
  M16 (m0 t) (m1 t) (m2 t) (m3 t) (m4 t) (m5 t) (m6 t) (m7 t) (m8 t) (m9 t) (m10 t) (m11 t)
      (fadd (m12 t) x) (fadd (m13 t) y) (fadd (m14 t) z) (m15 t).
