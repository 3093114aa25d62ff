(** * Decimal text of a float32: strconv.FormatFloat(x, 'f', prec, 32) and strconv.ParseFloat(s, 32) *)
From Coq Require Import ZArith.
From Verif Require Import GoBase GoNum GoFloat.

(** [a / b] rounded to the nearest integer, to the even one at half-way (decimal.Round of package strconv) *)
Definition div_even (a b : N) : N :=
  let q := (a / b)%N in
  match (2 * (a mod b) ?= b)%N with
  | Lt => q
  | Gt => (q + 1)%N
  | Eq => if N.even q then q else (q + 1)%N
  end.
(** [m * 2^e * 10^p] rounded likewise *)
Definition scaled (m : positive) (e : Z) (p : nat) : N :=
  let n := (Npos m * 10 ^ N.of_nat p)%N in
  if (0 <=? e)%Z then (n * 2 ^ Z.to_N e)%N else div_even n (2 ^ Z.to_N (- e)).
(** [n] in exactly [p] digits *)
Fixpoint pad_dec (p : nat) (n : N) : string :=
  match p with O => "" | S q => pad_dec q (n / 10) +++ String (digit_char (n mod 10)) "" end.
(** The decimal [n / 10^p] with [p] decimals *)
Definition fixed_dec (p : nat) (n : N) : string :=
  fmt_dec (n / 10 ^ N.of_nat p) +++
  match p with O => "" | _ => "." +++ pad_dec p (n mod 10 ^ N.of_nat p) end.
Definition sign_str (s : bool) : string := if s then "-" else "".
(** strconv.FormatFloat(x, 'f', p, 32) for [p >= 0], also fmt's "%.pf" of a float32.  A negative precision
    (the shortest text that reads back as [x]) is not modelled. *)
Definition format_f (p : nat) (x : f32) : string :=
  match x with
  | S754_nan => "NaN"
  | S754_infinity s => if s then "-Inf" else "+Inf"
  | S754_zero s => sign_str s +++ fixed_dec p 0
  | S754_finite s m e => sign_str s +++ fixed_dec p (scaled m e p)
  end.

(** An optional sign; true for "-" *)
Definition opt_sign (s : string) : bool * string :=
  match s with
  | String c r => if ceq c "-" then (true, r) else if ceq c "+" then (false, r) else (false, s)
  | EmptyString => (false, s)
  end.
(** The digits of a mantissa: hexadecimal ones if [hex] *)
Definition is_hex (c : ascii) : bool := is_digit c || ((97 <=? bN (lower c)) && (bN (lower c) <=? 102))%N.
Definition is_dig (hex : bool) (c : ascii) : bool := if hex then is_hex c else is_digit c.
(** The digits at the head before and after the point ([dot]: it has been seen), skipping underscores, and what follows *)
Fixpoint mantissa (hex dot : bool) (s : string) : string * string * string :=
  match s with
  | EmptyString => ("", "", s)
  | String c r =>
      if ceq c "_" then mantissa hex dot r
      else if ceq c "." then if dot then ("", "", s) else mantissa hex true r
      else if is_dig hex c then
        let '(i, f, t) := mantissa hex dot r in if dot then (i, String c f, t) else (String c i, f, t)
      else ("", "", s)
  end.
(** The digits at the head, skipping underscores *)
Fixpoint exp_digits (s : string) : string * string :=
  match s with
  | EmptyString => ("", s)
  | String c r =>
      if ceq c "_" then exp_digits r
      else if is_digit c then let (a, b) := exp_digits r in (String c a, b) else ("", s)
  end.
(** The exponent of the text: digits are ignored once 10000 is reached *)
Fixpoint exp_val (e : N) (s : string) : N :=
  match s with
  | EmptyString => e
  | String c r => exp_val (if (e <? 10000)%N then e * 10 + (bN c - 48) else e)%N r
  end.
(** The exponent part, nothing else may follow: [None] is a syntax error.  Hexadecimal numbers must have one. *)
Definition exp_part (hex : bool) (s : string) : option Z :=
  match s with
  | EmptyString => if hex then None else Some 0%Z
  | String c r =>
      if ceq (lower c) (if hex then "p" else "e") then
        let (neg, r) := opt_sign r in
        match r with
        | String c' _ =>
            if is_digit c' then
              let (d, r) := exp_digits r in
              if seq r "" then Some (if neg then (- Z.of_N (exp_val 0 d))%Z else Z.of_N (exp_val 0 d)) else None
            else None
        | EmptyString => None
        end
      else None
  end.
(** "0x" and something after it *)
Definition hex_prefix (s : string) : bool :=
  match s with String a (String b (String _ _)) => ceq a "0" && ceq (lower b) "x" | _ => false end.
Definition after_prefix (s : string) : string := match s with String _ (String _ r) => r | _ => "" end.
(** underscoreOK: underscores stand between digits, or between the base prefix and a digit.  [digit]: the last
    character was a digit or the prefix; [under]: it was an underscore. *)
Fixpoint under_ok (hex digit under : bool) (s : string) : bool :=
  match s with
  | EmptyString => negb under
  | String c r =>
      if is_dig hex c then under_ok hex true false r
      else if ceq c "_" then digit && under_ok hex false true r
      else negb under && under_ok hex false false r
  end.
Definition underscore_ok (s : string) : bool :=
  let (_, r) := opt_sign s in
  match r with
  | String a (String b q) =>
      if ceq a "0" && (ceq (lower b) "b" || ceq (lower b) "o" || ceq (lower b) "x")
      then under_ok (ceq (lower b) "x") true false q
      else under_ok false false false r
  | _ => under_ok false false false r
  end.
(** readFloat on the whole text [s], which is [r] without its sign: whether it is hexadecimal, the digits, the number
    of them after the point, the exponent *)
Definition read_float (s r : string) : option (bool * string * nat * Z) :=
  let hex := hex_prefix r in
  let '(i, f, t) := mantissa hex false (if hex then after_prefix r else r) in
  if seq (i +++ f) "" then None
  else match exp_part hex t with
       | Some e => if underscore_ok s then Some (hex, i +++ f, String.length f, e) else None
       | None => None
       end.
Definition hex_digit_val (c : ascii) : N := if is_digit c then (bN c - 48)%N else (bN (lower c) - 87)%N.
Fixpoint hex_val_aux (n : N) (s : string) : N :=
  match s with EmptyString => n | String c r => hex_val_aux (n * 16 + hex_digit_val c) r end.
Definition hex_val (s : string) : N := hex_val_aux 0 s.
(** The float32 nearest to [d * 10^e] (ties to even), infinite from 2^128 - 2^103 on *)
Definition dec_round (neg : bool) (d : N) (e : Z) : f32 :=
  match d with
  | N0 => S754_zero neg
  | Npos m =>
      let a := if (0 <=? e)%Z then (m * Z.to_pos (10 ^ e))%positive else m in
      let b := if (0 <=? e)%Z then 1%positive else Z.to_pos (10 ^ (- e)) in
      let '(q, ex, l) := SFdiv_core_binary f_prec f_emax (Zpos a) 0 (Zpos b) 0 in
      binary_round_aux f_prec f_emax neg q ex l
  end.
(** The float32 nearest to [d * 2^e] *)
Definition hex_round (neg : bool) (d : N) (e : Z) : f32 :=
  match d with
  | N0 => S754_zero neg
  | Npos m => binary_round f_prec f_emax neg m e
  end.
(** strconv.ParseFloat(s, 32): the value and whether the error is nil; 0 on a syntax error, the infinity on
    a range error. *)
Definition parse_float (s : string) : f32 * bool :=
  let (neg, r) := opt_sign s in
  if seq (slower r) "inf" || seq (slower r) "infinity" then (S754_infinity neg, true)
  else if seq (slower s) "nan" then (S754_nan, true)
  else
    match read_float s r with
    | None => (f_zero, false)
    | Some (hex, d, p, e) =>
        let x := if hex then hex_round neg (hex_val d) (e - 4 * Z.of_nat p) else dec_round neg (dec_val d) (e - Z.of_nat p) in
        (x, match x with S754_infinity _ => false | _ => true end)
    end.
