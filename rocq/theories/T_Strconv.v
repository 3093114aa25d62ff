(** * C42 and C43: the decimal texts of coordinates and transforms *)
From Coq Require Import ZArith Reals Lra.
From Verif Require Import GoBase GoNum GoFloat GoStrconv Types S_Geom S_Strconv P_Strconv M_Decode M_Encode.
Local Open Scope R_scope.

(** C42: a finite number written with [p] decimals is a decimal at most half a unit of the last place away;
    the text is read without error as the float32 nearest to that decimal, of the same sign, and that float32
    is written as the same text. *)
Theorem C42_text_round_trip : forall p x, Finite x -> exists k y,
  Decimal p (negative x) k (format_f p x) /\
  Rabs (value x - decimal_value p (negative x) k) <= / 2 / 10 ^ p /\
  parse_float (format_f p x) = (y, true) /\
  negative y = negative x /\
  NearestTo (decimal_value p (negative x) k) y /\
  format_f p y = format_f p x.
Proof.
  intros p x F. destruct (parse_format p x F) as (y & E & Fy & S & N & T). exists (scaled_of x p), y.
  split; [apply format_decimal; exact F|]. split; [apply half_unit; exact F|]. auto.
Qed.
Print Assumptions C42_text_round_trip.
(** C42, the values that are not finite: they are kept. *)
Theorem C42_not_finite : forall p x, ~ Finite x -> f_valid x = true -> parse_float (format_f p x) = (x, true).
Proof. exact parse_other. Qed.
Print Assumptions C42_not_finite.
(** 0.1f with 3, 0 and 12 decimals; 16777217 is not a float32: 1.23456794e9 is kept *)
Example C42_nonvacuous :
  Finite (S754_finite false 13421773 (-27)) /\
  format_f 3 (S754_finite false 13421773 (-27)) = "0.100" /\
  format_f 12 (S754_finite true 13421773 (-27)) = "-0.100000001490" /\
  format_f 0 (S754_finite true 13421773 (-27)) = "-0" /\
  parse_float "0.100" = (S754_finite false 13421773 (-27), true) /\
  parse_float "16777217" = (S754_finite false 8388608 1, true) /\
  parse_float "-0" = (S754_zero true, true) /\
  ~ Finite (S754_infinity true).
Proof. cbn [Finite]. repeat split; try (vm_compute; reflexivity). tauto. Qed.

(** C43: a transform that is written is read back with every entry rounded to three decimals and the
    constant last column. *)
Theorem C43_transform_round_trip : forall t, ValidMatrix t -> exists t',
  parse_matrix (matrix_string t) = (t', true) /\ RoundedMatrix t t'.
Proof.
  intros t V. unfold parse_matrix, matrix_string.
  rewrite (words_fields _ _ (words_join _ (proj2 (Forall_map (format_f 3) word _) (proj2 (Forall_forall _ _) (fun x _ => format_word 3 x))))).
  unfold ValidMatrix in V. cbn [map List.length Nat.eqb negb parse_floats].
  repeat match type of V with
  | Forall _ (?x :: _) =>
      let Hx := fresh "Hx" in pose proof (Forall_inv V) as Hx; apply Forall_inv_tail in V;
      let y := fresh "y" in let E := fresh "E" in let R := fresh "R" in
      destruct (parse_rounded 3 x Hx) as (y & E & R); rewrite E; clear E
  end.
  eexists. split; [reflexivity|]. unfold RoundedMatrix. cbn. tauto.
Qed.
Print Assumptions C43_transform_round_trip.
(** C43: a text is accepted exactly if it is twelve numbers separated by white space. *)
Theorem C43_twelve_numbers : forall s,
  snd (parse_matrix s) = true <->
  exists l, Words l s /\ List.length l = 12%nat /\ Forall (fun w => snd (parse_float w) = true) l.
Proof.
  assert (K : forall l, Forall (fun w => snd (parse_float w) = true) l <-> exists r, parse_floats l = Some r /\ List.length r = List.length l).
  { induction l as [|a l IH]; cbn [parse_floats].
    - split; [intros _; exists []; auto|constructor].
    - rewrite Forall_cons_iff, IH. destruct (parse_float a) as [x ok]. cbn [snd]. split.
      + intros (-> & r & E & L). rewrite E. exists (x :: r). cbn. auto.
      + intros (r & E & L). destruct ok; [|discriminate]. split; [reflexivity|].
        destruct (parse_floats l) as [r'|]; [|discriminate]. exists r'. injection E as <-. cbn in L. split; [reflexivity|congruence]. }
  intros s. unfold parse_matrix. split.
  - intros H. exists (fields s). split; [apply fields_words|].
    destruct (Nat.eqb_spec (List.length (fields s)) 12) as [E|E]; [|discriminate]. split; [exact E|]. apply K.
    cbn [negb] in H. destruct (parse_floats (fields s)) as [r|]; [|discriminate]. exists r. split; [reflexivity|]. rewrite E.
    do 13 (destruct r as [|? r]; try discriminate). reflexivity.
  - intros (l & W & L & F). rewrite (words_fields _ _ W), L. cbn [Nat.eqb negb]. apply K in F. destruct F as (r & -> & Lr). rewrite L in Lr.
    do 12 (destruct r as [|? r]; try discriminate). destruct r; [reflexivity|discriminate].
Qed.
Print Assumptions C43_twelve_numbers.
Example C43_nonvacuous :
  ValidMatrix (M16 f_one f_zero f_zero f_zero f_zero f_one f_zero f_zero f_zero f_zero f_one f_zero (S754_finite true 13421773 (-27)) f_one f_one f_one) /\
  matrix_string (M16 f_one f_zero f_zero f_zero f_zero f_one f_zero f_zero f_zero f_zero f_one f_zero (S754_finite true 13421773 (-27)) f_one f_one f_one)
    = "1.000 0.000 0.000 0.000 1.000 0.000 0.000 0.000 1.000 -0.100 1.000 1.000" /\
  snd (parse_matrix "1 0 0  0 1 0  0 0 1  1e1 -2 .5 ") = true /\
  snd (parse_matrix "1 0 0 0 1 0 0 0 1 1 2") = false /\
  snd (parse_matrix "1 0 0 0 1 0 0 0 1 1 2 3 4") = false /\
  snd (parse_matrix "1 0 0 0 1 0 0 0 1 1 2 x") = false.
Proof. repeat split; try (vm_compute; reflexivity). repeat constructor. Qed.
