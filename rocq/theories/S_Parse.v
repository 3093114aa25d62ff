(** * Specification of the numbers a reader accepts *)
From Coq Require Import ZArith Reals.
From Verif Require Import GoBase GoNum GoFloat Types S_Geom S_Strconv.
Local Open Scope R_scope.

(** An optional sign *)
Definition SignText (neg : bool) (t : string) : Prop :=
  (neg = true /\ t = "-"%string) \/ (neg = false /\ (t = ""%string \/ t = "+"%string)).
(** Decimal or hexadecimal digits and their value *)
Definition hex_pos (c : ascii) : option nat := String.index 0 (String (lower c) "") "0123456789abcdef".
Definition digit (hex : bool) (c : ascii) : bool :=
  if hex then match hex_pos c with Some _ => true | None => false end else is_digit c.
Fixpoint hex_number (v : N) (s : string) : N :=
  match s with
  | EmptyString => v
  | String c r => hex_number (16 * v + match hex_pos c with Some n => N.of_nat n | None => 0 end)%N r
  end.
Definition digits_value (hex : bool) (s : string) : N := if hex then hex_number 0 s else dec_val s.
(** An exponent, in decimal digits, and its value: optional in a decimal number *)
Definition ExponentText (hex : bool) (k : Z) (t : string) : Prop :=
  (hex = false /\ k = 0%Z /\ t = ""%string) \/
  exists c neg sg d, lower c = (if hex then "p"%char else "e"%char) /\ SignText neg sg /\ d <> ""%string /\ sall is_digit d = true /\
    t = String c (sg +++ d) /\ k = (if neg then - Z.of_N (dec_val d) else Z.of_N (dec_val d))%Z.
(** Underscores that separate digits: a digit stands before (or the prefix of a hexadecimal number) and after *)
Fixpoint unscore (t : string) : string :=
  match t with EmptyString => ""%string | String c r => if ceq c "_" then unscore r else String c (unscore r) end.
Definition Separated (hex : bool) (t : string) : Prop :=
  forall a b, t = a +++ String "_" b ->
    ((hex = true /\ a = ""%string) \/ exists a' c, a = a' +++ String c "" /\ digit hex c = true) /\
    exists c b', b = String c b' /\ digit hex c = true.
Definition Prefix (hex : bool) (t : string) : Prop :=
  if hex then t = "0x"%string \/ t = "0X"%string else t = ""%string.
(** [t] is the sign [neg], the digits of [d], [p] of them after the point, and the exponent [k] *)
Definition Numeral (hex neg : bool) (d : N) (p : nat) (k : Z) (t : string) : Prop :=
  exists sg px q i pt f ex, t = sg +++ px +++ q /\ SignText neg sg /\ Prefix hex px /\ Separated hex q /\
    unscore q = i +++ pt +++ ex /\ sall (digit hex) i = true /\ sall (digit hex) f = true /\
    (pt = "." +++ f \/ (pt = ""%string /\ f = ""%string)) /\ i +++ f <> ""%string /\ ExponentText hex k ex /\
    d = digits_value hex (i +++ f) /\ p = String.length f.
(** A hexadecimal digit is worth four binary ones and the exponent is one of two *)
Definition numeral_value (hex neg : bool) (d : N) (p : nat) (k : Z) : R :=
  (if neg then -1 else 1) * IZR (Z.of_N d) *
  (if hex then powerRZ 2 (k - 4 * Z.of_nat p) else powerRZ 10 (k - Z.of_nat p)).
(** A number as the schema of 3MF allows it (ST_Number): decimal, no underscores, digits on both sides of
    a point except that none are needed before it *)
Definition StNumber (t : string) : Prop :=
  exists neg sg i pt f k ex, t = sg +++ i +++ pt +++ ex /\ SignText neg sg /\
    sall is_digit i = true /\ sall is_digit f = true /\ ExponentText false k ex /\
    ((i <> ""%string /\ pt = ""%string) \/ (pt = "." +++ f /\ f <> ""%string)).
(** The words for the infinities and for no number, in any case *)
Definition InfText (neg : bool) (t : string) : Prop :=
  exists sg w, t = sg +++ w /\ SignText neg sg /\ (slower w = "inf"%string \/ slower w = "infinity"%string).
Definition NanText (t : string) : Prop := slower t = "nan"%string.

(** Half-way between two float32s the one with the even mantissa is taken *)
Definition EvenMantissa (y : f32) : Prop :=
  match y with S754_zero _ => True | S754_finite _ m _ => Z.even (Zpos m) = true | _ => False end.
Definition TiesEven (v : R) (y : f32) : Prop :=
  forall z, Finite z -> Rabs (value z - v) = Rabs (value y - v) -> value z = value y \/ EvenMantissa y.
(** From here on a number is nearer to 2^128 than to every float32 (or half-way) *)
Definition float_limit : R := powerRZ 2 128 - powerRZ 2 103.
