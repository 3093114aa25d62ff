(** * Theorems: numbers that are written without loss: C42 *)
From Coq Require Import ZArith Reals Lra Lia.
From Verif Require Import GoBase GoNum GoFloat GoStrconv Types S_Geom S_Strconv S_Text S_RoundTrip P_Strconv P_RTText P_Stable P_Revalid.
Local Open Scope R_scope.

(** C42, a number with at most [p] decimals is kept. *)
Theorem C42_exact : forall p x z, Finite x -> value x * 10 ^ p = IZR z ->
  parse_float (format_f p x) = (x, true) /\ forall y, Rounded p x y -> y = x.
Proof.
  intros p x z F E. assert (P : 0 < 10 ^ p) by (apply pow_lt; lra).
  assert (R : forall y, Rounded p x y -> y = x).
  { intros y [(_ & S & k & D & NF & NN)|[C _]]; [|contradiction].
    assert (DV : decimal_value p (negative x) k = value x).
    { unfold decimal_value in *. set (s := if negative x then -1 else 1) in *. assert (EI : exists i, s * (IZR (Z.of_N k) / 10 ^ p) * 10 ^ p = IZR i).
      { exists ((if negative x then -1 else 1) * Z.of_N k)%Z. rewrite mult_IZR. unfold s. destruct (negative x); field; lra. }
      destruct EI as [i EI]. set (d := s * (IZR (Z.of_N k) / 10 ^ p)) in *.
      assert (L : Rabs (value x - d) * 10 ^ p <= / 2) by (apply Rmult_le_reg_r with (/ 10 ^ p); [apply Rinv_0_lt_compat, P|]; rewrite Rmult_assoc, Rinv_r, Rmult_1_r by lra; exact D).
      rewrite <- (Rabs_pos_eq (10 ^ p)) in L at 1 by lra. rewrite <- Rabs_mult, Rmult_minus_distr_r, E, EI, <- minus_IZR, <- abs_IZR in L.
      assert (Z.abs (z - i) < 1)%Z by (apply lt_IZR; lra). assert (z = i) as -> by lia. apply Rmult_eq_reg_r with (10 ^ p); lra. }
    rewrite DV in NN. specialize (NN x F). replace (value x - value x) with 0 in NN by ring. rewrite Rabs_R0, Rabs_minus_sym in NN.
    assert (V : value x = value y) by (destruct (Req_dec (value x - value y) 0) as [Q|Q]; [lra|]; apply Rabs_no_R0 in Q; pose proof (Rabs_pos (value x - value y)); lra).
    apply (feqb_value x y F NF) in V. destruct x as [sx|sx| |sx m e]; [|destruct F|destruct F|].
    - destruct y as [sy|sy| |sy m' e']; [cbn in S; congruence|destruct NF|destruct NF|destruct sx, sy; discriminate V].
    - symmetry. apply (P_Stable.feqb_same _ _ V). intros (s0 & C); discriminate C. }
  split; [|exact R]. assert (NX : Num x) by (destruct x; [reflexivity|destruct F|destruct F|exact F]).
  destruct (rf_ok p x NX) as [-> H]. rewrite (R _ H). reflexivity.
Qed.
Print Assumptions C42_exact.
(** With 149 decimals every number is kept: 2^-149 is the unit of the smallest ones. *)
Theorem C42_lossless : forall p x, (149 <= p)%nat -> Finite x -> parse_float (format_f p x) = (x, true) /\ forall y, Rounded p x y -> y = x.
Proof.
  intros p x L F. assert (E : exists z, value x * 10 ^ p = IZR z).
  { destruct x as [s|s| |s m e]; [exists 0%Z; cbn [value]; ring|destruct F|destruct F|].
    assert (B : (-149 <= e)%Z).
    { revert F. unfold Finite, f_valid. cbn [valid_binary]. unfold bounded. rewrite andb_true_iff. intros [H1 _]. unfold canonical_mantissa, fexp in H1. apply Zeq_is_eq_bool in H1.
      unfold f_emax, f_prec, emin in *. lia. }
    assert (Q : exists i, powerRZ 2 e * 10 ^ p = IZR i).
    { destruct e as [|n|n]; cbn [powerRZ].
      - exists (10 ^ Z.of_nat p)%Z. rewrite Rmult_1_l. apply pow_IZR.
      - exists (2 ^ Z.of_nat (Pos.to_nat n) * 10 ^ Z.of_nat p)%Z. rewrite mult_IZR, <- !pow_IZR. reflexivity.
      - assert (Pos.to_nat n <= p)%nat by lia. exists (2 ^ Z.of_nat (p - Pos.to_nat n) * 5 ^ Z.of_nat p)%Z. rewrite mult_IZR, <- !pow_IZR.
        assert (2 ^ Pos.to_nat n <> 0) by (apply pow_nonzero; lra). apply Rmult_eq_reg_l with (2 ^ Pos.to_nat n); [|assumption]. rewrite <- !Rmult_assoc, Rinv_r, Rmult_1_l, <- pow_add by assumption.
        replace (Pos.to_nat n + (p - Pos.to_nat n))%nat with p by lia. rewrite <- Rpow_mult_distr. replace (2 * 5) with 10 by lra. reflexivity. }
    destruct Q as [i Q]. exists ((if s then -1 else 1) * Z.pos m * i)%Z. rewrite !mult_IZR, <- Q. cbn [value]. destruct s; ring. }
  destruct E as [z E]. exact (C42_exact p x z F E).
Qed.
Print Assumptions C42_lossless.
(** 0.5, 1.25 and -3.0625 are kept with four decimals, 0.1f with 149 *)
Example C42_exact_nonvacuous :
  Finite (S754_finite true 12845056 (-22)) /\ value (S754_finite true 12845056 (-22)) * 10 ^ 4 = IZR (-30625) /\
  Finite (S754_finite false 13421773 (-27)) /\ format_f 4 (S754_finite true 12845056 (-22)) = "-3.0625"%string /\
  parse_float (format_f 4 (S754_finite false 1 (-149))) = (f_zero, true) /\ parse_float (format_f 149 (S754_finite false 1 (-149))) = (S754_finite false 1 (-149), true).
Proof.
  split; [reflexivity|]. split; [|split; [reflexivity|split; [vm_compute; reflexivity|split; vm_compute; reflexivity]]].
  unfold value. change (powerRZ 2 (-22)) with (/ 2 ^ Pos.to_nat 22). rewrite (pow_IZR 2), positive_nat_Z. change (2 ^ 22)%Z with 4194304%Z. lra.
Qed.
