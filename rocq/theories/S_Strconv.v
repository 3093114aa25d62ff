(** * Specifications for the decimal texts of numbers and transforms *)
From Coq Require Import ZArith Reals.
From Verif Require Import GoBase GoNum GoFloat Types S_Geom.
Local Open Scope R_scope.

(** The real number a finite float32 stands for *)
Definition value (x : f32) : R :=
  match x with
  | S754_finite s m e => (if s then -1 else 1) * IZR (Zpos m) * powerRZ 2 e
  | _ => 0
  end.
Definition negative (x : f32) : bool :=
  match x with S754_zero s | S754_infinity s | S754_finite s _ _ => s | S754_nan => false end.

(** [t] is the decimal number [k / 10^p], negative if [neg], with exactly [p] decimals and at least one digit
    before the point *)
Definition Decimal (p : nat) (neg : bool) (k : N) (t : string) : Prop :=
  exists i f, t = (if neg then "-" else "") +++ i +++ (if Nat.eqb p 0 then "" else "." +++ f) /\
    i <> ""%string /\ sall is_digit i = true /\ sall is_digit f = true /\ String.length f = p /\ dec_val (i +++ f) = k.
Definition decimal_value (p : nat) (neg : bool) (k : N) : R :=
  (if neg then -1 else 1) * (IZR (Z.of_N k) / 10 ^ p).

(** No float32 is nearer to [d] than [y] *)
Definition NearestTo (d : R) (y : f32) : Prop :=
  Finite y /\ forall z, Finite z -> Rabs (value y - d) <= Rabs (value z - d).

(** What reading a number written with [p] decimals gives: a non-finite value is kept; a finite one becomes
    the float32 nearest to a decimal that differs from it by at most half a unit of the last place. *)
Definition Rounded (p : nat) (x y : f32) : Prop :=
  (Finite x /\ negative y = negative x /\
   exists k, Rabs (value x - decimal_value p (negative x) k) <= / 2 / 10 ^ p /\
             NearestTo (decimal_value p (negative x) k) y)
  \/ (~ Finite x /\ y = x).

(** A transform that was written and read: the last column is constant, the rest rounded to three decimals *)
Definition RoundedMatrix (a b : Matrix) : Prop :=
  Rounded 3 (m0 a) (m0 b) /\ Rounded 3 (m1 a) (m1 b) /\ Rounded 3 (m2 a) (m2 b) /\ m3 b = f_zero /\
  Rounded 3 (m4 a) (m4 b) /\ Rounded 3 (m5 a) (m5 b) /\ Rounded 3 (m6 a) (m6 b) /\ m7 b = f_zero /\
  Rounded 3 (m8 a) (m8 b) /\ Rounded 3 (m9 a) (m9 b) /\ Rounded 3 (m10 a) (m10 b) /\ m11 b = f_zero /\
  Rounded 3 (m12 a) (m12 b) /\ Rounded 3 (m13 a) (m13 b) /\ Rounded 3 (m14 a) (m14 b) /\ m15 b = f_one.
Definition ValidMatrix (t : Matrix) : Prop :=
  Forall (fun x => f_valid x = true) [m0 t; m1 t; m2 t; m4 t; m5 t; m6 t; m8 t; m9 t; m10 t; m12 t; m13 t; m14 t].

(** [s] is twelve words that are read by [read], separated by white space *)
Definition Blank (w : string) : Prop := sall is_space w = true.
Inductive Words : list string -> string -> Prop :=
| WNil w : Blank w -> Words [] w
| WCons w x l r : Blank w -> x <> ""%string -> sall (fun c => negb (is_space c)) x = true ->
    Words l r -> (l = [] \/ exists c r', r = String c r' /\ is_space c = true) -> Words (x :: l) (w +++ x +++ r).
