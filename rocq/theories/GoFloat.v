(** * float32 arithmetic

    A Go [float32] is a [spec_float] (Coq's executable IEEE 754 datatype) with
    precision 24 and maximal exponent 128.  All NaNs are one value: go3mf never
    looks at a NaN payload. *)
From Coq Require Import ZArith.
From Coq Require Export SpecFloat.
From Verif Require Import GoBase.

Definition f32 := spec_float.
Definition f_prec : Z := 24.
Definition f_emax : Z := 128.
Definition f_valid (x : f32) : bool := valid_binary f_prec f_emax x.

Definition f_zero : f32 := S754_zero false.
Definition f_one : f32 := S754_finite false 8388608 (-23).
(** math.MaxFloat32 = 0x1p127 * (1 + (1 - 0x1p-23)). *)
Definition f_max : f32 := S754_finite false 16777215 104.

(** [x + y], [x * y], [x / y] on float32.  On the platforms where Go fuses
    [x*y + z] into one rounding (arm64, ppc64, s390x) the value may differ;
    the model rounds each operation, as amd64 does. *)
Definition fadd (x y : f32) : f32 := SFadd f_prec f_emax x y.
Definition fmul (x y : f32) : f32 := SFmul f_prec f_emax x y.
Definition fdiv (x y : f32) : f32 := SFdiv f_prec f_emax x y.
Definition fneg (x : f32) : f32 := SFopp x.

(** [x < y], [x == y], [x <= y]: false as soon as one side is a NaN. *)
Definition fltb (x y : f32) : bool := SFltb x y.
Definition feqb (x y : f32) : bool := SFeqb x y.
Definition fleb (x y : f32) : bool := SFleb x y.

Definition is_nan (x : f32) : bool := match x with S754_nan => true | _ => false end.

(** Structural equality, to be distinguished from Go's [==]. *)
Definition f_same (x y : f32) : bool :=
  match x, y with
  | S754_zero a, S754_zero b => Bool.eqb a b
  | S754_infinity a, S754_infinity b => Bool.eqb a b
  | S754_nan, S754_nan => true
  | S754_finite a m e, S754_finite b n f => Bool.eqb a b && Pos.eqb m n && Z.eqb e f
  | _, _ => false
  end.
Lemma f_same_spec x y : reflect (x = y) (f_same x y).
Proof.
  destruct x, y; cbn; try (constructor; congruence);
    try (destruct (Bool.eqb_spec s s0); constructor; congruence).
  destruct (Bool.eqb_spec s s0), (Pos.eqb_spec m m0), (Z.eqb_spec e e0); cbn; constructor; congruence.
Qed.
