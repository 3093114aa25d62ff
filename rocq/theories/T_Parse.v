(** * C60: what the text of a number means *)
From Coq Require Import ZArith Reals Lra Lia.
From Verif Require Import GoBase GoNum GoFloat Types S_Geom S_Strconv P_Float P_Strconv S_Parse P_ParseText P_Parse GoStrconv.
Local Open Scope R_scope.

(** C60: a number, decimal or hexadecimal, with or without an exponent (below 100000), is read as the float32 nearest to it,
    the even one at half-way, and keeps its sign even if it is zero. *)
Theorem C60_meaning : forall hex neg d p k t, Numeral hex neg d p k t -> (Z.abs k < 100000)%Z ->
  Rabs (numeral_value hex neg d p k) < float_limit ->
  exists y, parse_float t = (y, true) /\ negative y = neg /\
    NearestTo (numeral_value hex neg d p k) y /\ TiesEven (numeral_value hex neg d p k) y.
Proof.
  intros hex neg d p k t H Hk L. rewrite (parse_numeral hex neg d p k t H Hk).
  destruct (rounded_value hex neg d p k) as [A _]. cbv zeta in A.
  destruct A as (F & E & S); [apply small_iff; exact L|]. eexists. split; [f_equal|].
  - clear -F. destruct (rounded _ _ _ _ _); try reflexivity. destruct F.
  - split; [exact S|]. split; [|apply even_tie; assumption]. split; [exact F|].
    intros z Fz. rewrite !value_fR, E. apply rnd_nearest. exact Fz.
Qed.
Print Assumptions C60_meaning.
(** C60: a number beyond the range of float32 is an error, and the value given along with the error is the infinity of its sign. *)
Theorem C60_range : forall hex neg d p k t, Numeral hex neg d p k t -> (Z.abs k < 100000)%Z ->
  float_limit <= Rabs (numeral_value hex neg d p k) -> parse_float t = (S754_infinity neg, false).
Proof.
  intros hex neg d p k t H Hk L. rewrite (parse_numeral hex neg d p k t H Hk).
  destruct (rounded_value hex neg d p k) as [_ A]. cbv zeta in A.
  rewrite A; [reflexivity|]. intros S. apply small_iff in S. lra.
Qed.
Print Assumptions C60_range.
(** C60: the words for the infinities and for no number are read as such, in any case, and apart from these only
    numbers are accepted without an error: no white space, second point, exponent without digits, trailing text... *)
Theorem C60_accepts : forall t,
  (forall neg, InfText neg t -> parse_float t = (S754_infinity neg, true)) /\
  (NanText t -> parse_float t = (S754_nan, true)) /\
  (snd (parse_float t) = true -> (exists hex neg d p k, Numeral hex neg d p k t) \/ (exists neg, InfText neg t) \/ NanText t).
Proof. intros t. split; [intros neg; apply parse_inf|]. split; [apply parse_nan|apply parse_accepts]. Qed.
Print Assumptions C60_accepts.
(** C60: every number that the schema of 3MF allows is a decimal number in the sense of C60_meaning and C60_range. *)
Theorem C60_schema : forall t, StNumber t -> exists neg d p k, Numeral false neg d p k t.
Proof. exact st_numeral. Qed.
Print Assumptions C60_schema.
(** C60 does not hold the other way round: hexadecimal numbers and digits separated by underscores are
    accepted although the schema does not allow them. *)
Theorem C60_refuted : exists t u y z, parse_float t = (y, true) /\ Finite y /\ ~ StNumber t /\ Numeral true false 31 1 4 t /\
  parse_float u = (z, true) /\ Finite z /\ ~ StNumber u /\ Numeral false false 1000 0 0 u.
Proof.
  exists "0x1.fp4"%string, "1_000"%string, (S754_finite false 16252928 (-19)), (S754_finite false 16384000 (-14)).
  assert (A : ~ StNumber "0x1.fp4") by (intros H; apply st_chars in H; discriminate).
  assert (B : ~ StNumber "1_000") by (intros H; apply st_chars in H; discriminate).
  split; [vm_compute; reflexivity|]. split; [reflexivity|]. split; [exact A|]. split.
  { exists "", "0x", "1.fp4", "1", ".f", "f", "p4". split; [reflexivity|]. split; [right; auto|]. split; [left; reflexivity|].
    split; [apply plain_separated; reflexivity|]. do 3 (split; [reflexivity|]). split; [left; reflexivity|]. split; [discriminate|].
    split; [|split; reflexivity]. right. exists "p"%char, false, "", "4". split; [reflexivity|]. split; [right; auto|]. split; [discriminate|].
    split; [reflexivity|]. split; reflexivity. }
  split; [vm_compute; reflexivity|]. split; [reflexivity|]. split; [exact B|].
  exists "", "", "1_000", "1000", "", "", "". split; [reflexivity|]. split; [right; auto|]. split; [reflexivity|].
  split; [apply separated_checked, under_ok_checked; reflexivity|]. do 3 (split; [reflexivity|]). split; [right; auto|]. split; [discriminate|].
  split; [left; auto|]. split; reflexivity.
Qed.
Print Assumptions C60_refuted.
(** "-12.5E-3", "1e39", "-iNf": and texts that are refused *)
Example C60_nonvacuous :
  StNumber "-12.5E-3" /\ Numeral false true 125 1 (-3) "-12.5E-3" /\ Rabs (numeral_value false true 125 1 (-3)) < float_limit /\
  Numeral false false 1 0 39 "1e39" /\ float_limit <= Rabs (numeral_value false false 1 0 39) /\
  InfText true "-iNf" /\ NanText "NaN" /\
  parse_float "-12.5E-3" = (S754_finite true 13421773 (-30), true) /\
  parse_float "1e39" = (S754_infinity false, false) /\
  Forall (fun t => parse_float t = (f_zero, false)) [""; "."; "+"; "1e"; "1e+"; " 1"; "1 "; "1.2.3"; "1,5"; "-nan"; "1e5x"; "--1"; "e5"; "0x1"; "0x.p1"; "1__0"; "_1"; "1_"; "1_.5"; "1e_5"; "0_x1p1"; "0b1"]%string.
Proof.
  assert (E1 : ExponentText false (-3) "E-3").
  { right. exists "E"%char, true, "-", "3". split; [reflexivity|]. split; [left; auto|]. split; [discriminate|]. split; [reflexivity|]. split; reflexivity. }
  split. { exists true, "-", "12", ".5", "5", (-3)%Z, "E-3". split; [reflexivity|]. split; [left; auto|]. do 2 (split; [reflexivity|]). split; [exact E1|].
    right. split; [reflexivity|discriminate]. }
  split. { apply (plain_numeral true "-" "12" ".5" "5" (-3) "E-3"); try reflexivity; [left; auto|left; reflexivity|discriminate|exact E1]. }
  split. { unfold numeral_value. rewrite !Rabs_mult. change (-3 - Z.of_nat 1)%Z with (-4)%Z.
    assert (E : powerRZ 10 (-4) = / 10000) by (unfold powerRZ; rewrite pow_IZR; reflexivity). rewrite E.
    assert (L : float_limit = IZR (2 ^ 128 - 2 ^ 103)) by (unfold float_limit, powerRZ; rewrite !pow_IZR, <- minus_IZR; reflexivity). rewrite L.
    rewrite (Rabs_left (-1)), (Rabs_pos_eq (IZR (Z.of_N 125))), (Rabs_pos_eq (/ 10000)) by (cbn [Z.of_N]; lra).
    cbn [Z.of_N]. apply Rlt_trans with 1; [lra|]. apply IZR_lt. reflexivity. }
  split. { apply (plain_numeral false "" "1" "" "" 39 "e39"); try reflexivity; [right; auto|right; auto|discriminate|].
    right. exists "e"%char, false, "", "39". split; [reflexivity|]. split; [right; auto|]. split; [discriminate|]. split; [reflexivity|]. split; reflexivity. }
  split. { unfold numeral_value. cbn [Z.of_N]. rewrite !Rmult_1_l. change (39 - Z.of_nat 0)%Z with 39%Z.
    assert (E : powerRZ 10 39 = IZR (10 ^ 39)) by (unfold powerRZ; rewrite pow_IZR; reflexivity). rewrite E.
    assert (L : float_limit = IZR (2 ^ 128 - 2 ^ 103)) by (unfold float_limit, powerRZ; rewrite !pow_IZR, <- minus_IZR; reflexivity). rewrite L.
    rewrite Rabs_pos_eq by (apply IZR_le; discriminate). apply IZR_le. vm_compute. discriminate. }
  split. { exists "-", "iNf". split; [reflexivity|]. split; [left; auto|left; reflexivity]. }
  split; [reflexivity|]. split; [vm_compute; reflexivity|]. split; [vm_compute; reflexivity|].
  repeat constructor.
Qed.
