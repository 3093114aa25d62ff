(** * Proofs about the decimal texts of numbers and transforms *)
From Coq Require Import ZArith Reals Lra Lia.
From Flocq Require Import Core.Core IEEE754.BinarySingleNaN.
From Verif Require Import GoBase GoNum GoFloat Types S_Geom P_Geom P_Float S_Strconv S_Parse P_ParseText GoStrconv.

(** ** Digits *)
Lemma slen_app a b : String.length (a +++ b) = String.length a + String.length b.
Proof. induction a as [|c a IH]; cbn; [reflexivity|]. rewrite IH. reflexivity. Qed.
Lemma pad_dec_spec p n : String.length (pad_dec p n) = p /\ sall is_digit (pad_dec p n) = true /\
  forall v, dec_val_aux v (pad_dec p n) = (v * 10 ^ N.of_nat p + n mod 10 ^ N.of_nat p)%N.
Proof.
  revert n. induction p as [|p IH]; intros n.
  - cbn. repeat split. intros v. rewrite N.mul_1_r, N.mod_1_r. lia.
  - destruct (IH (n / 10)%N) as (H1 & H2 & H3). cbn [pad_dec]. 
    assert (Hm : (n mod 10 < 10)%N) by (apply N.mod_lt; lia).
    destruct (digit_char_spec _ Hm) as [D1 D2]. rewrite slen_app, H1, sall_app, H2. cbn [String.length sall].
    rewrite D1. repeat split; [lia|]. intros v. rewrite dec_val_aux_app, H3. cbn [dec_val_aux]. rewrite D2.
    rewrite Nat2N.inj_succ, N.pow_succ_r'.
    rewrite (N.mod_mul_r n 10 (10 ^ N.of_nat p)); [|lia|apply N.pow_nonzero; lia].
    rewrite (N.add_comm 48), N.add_sub. ring.
Qed.
Lemma fixed_dec_spec p n : exists i f,
  fixed_dec p n = i +++ (if Nat.eqb p 0 then "" else "." +++ f) /\
  i <> ""%string /\ sall is_digit i = true /\ sall is_digit f = true /\ String.length f = p /\ dec_val (i +++ f) = n.
Proof.
  unfold fixed_dec. destruct (fmt_dec_spec (n / 10 ^ N.of_nat p)) as (H1 & H2 & H3).
  destruct (pad_dec_spec p (n mod 10 ^ N.of_nat p)) as (L1 & L2 & L3).
  assert (Hp : (10 ^ N.of_nat p <> 0)%N) by (apply N.pow_nonzero; lia).
  exists (fmt_dec (n / 10 ^ N.of_nat p)), (pad_dec p (n mod 10 ^ N.of_nat p)).
  assert (Hv : dec_val (fmt_dec (n / 10 ^ N.of_nat p) +++ pad_dec p (n mod 10 ^ N.of_nat p)) = n).
  { unfold dec_val. rewrite dec_val_aux_app. fold (dec_val (fmt_dec (n / 10 ^ N.of_nat p))). rewrite H3, L3.
    rewrite N.mod_mod by exact Hp. rewrite N.mul_comm. symmetry. apply N.div_mod. exact Hp. }
  split; [destruct p; reflexivity|]. repeat split; assumption.
Qed.

(** ** Rounding to an integer, to the even one at half-way *)
Local Open Scope R_scope.
Definition Near (r : R) (n : Z) : Prop := Rabs (r - IZR n) <= / 2 /\ (Rabs (r - IZR n) = / 2 -> Z.even n = true).
Lemma near_unique r n n' : Near r n -> Near r n' -> n = n'.
Proof.
  intros [H1 E1] [H2 E2]. destruct (Z.eq_dec n n') as [|Hne]; [assumption|exfalso].
  assert (K : n' = (n + 1)%Z \/ n' = (n - 1)%Z).
  { assert (A : (IZR n' - IZR n) <= 1) by (apply Rabs_le_inv in H1, H2; lra).
    assert (B : -1 <= (IZR n' - IZR n)) by (apply Rabs_le_inv in H1, H2; lra).
    rewrite <- minus_IZR in A, B. apply le_IZR in A. apply (le_IZR (-1)) in B. lia. }
  assert (A : Rabs (r - IZR n) = / 2 /\ Rabs (r - IZR n') = / 2).
  { destruct K as [-> | ->]; rewrite ?plus_IZR, ?minus_IZR in *; apply Rabs_le_inv in H1, H2.
    - assert (r - IZR n = / 2) by lra. replace (r - (IZR n + 1)) with (- / 2) by lra. rewrite H, Rabs_Ropp.
      rewrite Rabs_pos_eq by lra. auto.
    - assert (r - IZR n = - / 2) by lra. replace (r - (IZR n - 1)) with (/ 2) by lra. rewrite H, Rabs_Ropp.
      rewrite Rabs_pos_eq by lra. auto. }
  destruct A as [A1 A2]. specialize (E1 A1). specialize (E2 A2).
  destruct K as [-> | ->]; [rewrite Z.even_add in E2|rewrite Z.even_sub in E2]; rewrite E1 in E2; discriminate.
Qed.
Lemma near_exact n : Near (IZR n) n.
Proof.
  unfold Near. replace (IZR n - IZR n) with 0 by lra. rewrite Rabs_R0. split; [lra|]. intros. lra.
Qed.
Lemma div_even_near a b : (0 < b)%N -> Near (IZR (Z.of_N a) / IZR (Z.of_N b)) (Z.of_N (div_even a b)).
Proof.
  intros Hb. unfold div_even. pose proof (N.div_mod a b ltac:(lia)) as E. pose proof (N.mod_lt a b ltac:(lia)) as Hm.
  set (q := (a / b)%N) in *. set (r := (a mod b)%N) in *. clearbody q r.
  assert (B : 0 < IZR (Z.of_N b)) by (apply IZR_lt; lia).
  assert (Ea : IZR (Z.of_N a) / IZR (Z.of_N b) = IZR (Z.of_N q) + IZR (Z.of_N r) / IZR (Z.of_N b)).
  { rewrite E, N2Z.inj_add, N2Z.inj_mul, plus_IZR, mult_IZR. field. lra. }
  assert (R0 : 0 <= IZR (Z.of_N r)) by (apply IZR_le; lia).
  set (t := IZR (Z.of_N r) / IZR (Z.of_N b)) in *.
  assert (Et : IZR (Z.of_N r) = t * IZR (Z.of_N b)) by (unfold t; field; lra).
  assert (T0 : 0 <= t). { unfold t. apply Rmult_le_pos; [exact R0|]. left. apply Rinv_0_lt_compat. exact B. }
  assert (T1 : t < 1).
  { apply (Rmult_lt_reg_r (IZR (Z.of_N b))); [exact B|]. rewrite <- Et, Rmult_1_l. apply IZR_lt. lia. }
  rewrite Ea. destruct (N.compare_spec (2 * r) b) as [C|C|C].
  - assert (t = / 2).
    { apply (Rmult_eq_reg_r (IZR (Z.of_N b))); [|lra]. rewrite <- Et, <- C, N2Z.inj_mul, mult_IZR. cbn [Z.of_N]. lra. }
    destruct (N.even q) eqn:Ev.
    + split.
      * replace (IZR (Z.of_N q) + t - IZR (Z.of_N q)) with (/ 2) by lra. rewrite Rabs_pos_eq; lra.
      * intros _. rewrite <- Ev. destruct q; reflexivity.
    + rewrite N2Z.inj_add. unfold Near. rewrite plus_IZR. cbn [Z.of_N]. split.
      * replace (IZR (Z.of_N q) + t - (IZR (Z.of_N q) + 1)) with (- / 2) by lra. rewrite Rabs_Ropp, Rabs_pos_eq; lra.
      * intros _. rewrite Z.even_add. replace (Z.even (Z.of_N q)) with false by (rewrite <- Ev; destruct q; reflexivity). reflexivity.
  - assert (t < / 2).
    { apply (Rmult_lt_reg_r (IZR (Z.of_N b))); [exact B|]. rewrite <- Et. assert (2 * IZR (Z.of_N r) < IZR (Z.of_N b)); [|lra].
      rewrite <- mult_IZR. apply IZR_lt. lia. }
    unfold Near. replace (IZR (Z.of_N q) + t - IZR (Z.of_N q)) with t by lra. rewrite Rabs_pos_eq by lra. split; intros; lra.
  - assert (/ 2 < t).
    { apply (Rmult_lt_reg_r (IZR (Z.of_N b))); [exact B|]. rewrite <- Et. assert (IZR (Z.of_N b) < 2 * IZR (Z.of_N r)); [|lra].
      rewrite <- mult_IZR. apply IZR_lt. lia. }
    rewrite N2Z.inj_add. unfold Near. rewrite plus_IZR. cbn [Z.of_N].
    replace (IZR (Z.of_N q) + t - (IZR (Z.of_N q) + 1)) with (- (1 - t)) by lra. rewrite Rabs_Ropp, Rabs_pos_eq by lra.
    split; intros; lra.
Qed.

(** The absolute value of a float *)
Definition mag (m : positive) (e : Z) : R := IZR (Zpos m) * bpow radix2 e.
Lemma pow10_IZR p : IZR (Z.of_N (10 ^ N.of_nat p)) = 10 ^ p.
Proof.
  rewrite N2Z.inj_pow, nat_N_Z. cbn [Z.of_N]. rewrite <- pow_IZR. reflexivity.
Qed.
Lemma pow2_IZR n : IZR (Z.of_N (2 ^ n)) = bpow radix2 (Z.of_N n).
Proof.
  rewrite N2Z.inj_pow. change (Z.of_N 2) with (radix_val radix2). rewrite IZR_Zpower by lia. reflexivity.
Qed.
Lemma scaled_near m e p : Near (mag m e * 10 ^ p) (Z.of_N (scaled m e p)).
Proof.
  unfold scaled, mag. destruct (Z.leb_spec 0 e).
  - replace (IZR (Z.pos m) * bpow radix2 e * 10 ^ p) with (IZR (Z.of_N (N.pos m * 10 ^ N.of_nat p * 2 ^ Z.to_N e))); [apply near_exact|].
    rewrite !N2Z.inj_mul, !mult_IZR, pow10_IZR, pow2_IZR, Z2N.id by lia. cbn [Z.of_N]. ring.
  - replace (IZR (Z.pos m) * bpow radix2 e * 10 ^ p) with (IZR (Z.of_N (N.pos m * 10 ^ N.of_nat p)) / IZR (Z.of_N (2 ^ Z.to_N (- e)))).
    + apply div_even_near. apply N.neq_0_lt_0. apply N.pow_nonzero. lia.
    + rewrite !N2Z.inj_mul, !mult_IZR, pow10_IZR, pow2_IZR, Z2N.id by lia. cbn [Z.of_N].
      rewrite bpow_opp. unfold Rdiv. rewrite Rinv_inv. ring.
Qed.

(** ** Floats and their values *)
Lemma bpow_powerRZ2 e : powerRZ 2 e = bpow radix2 e.
Proof. rewrite bpow_powerRZ. reflexivity. Qed.
Lemma value_fR x : value x = fR x.
Proof.
  destruct x as [| | |s m e]; try reflexivity. unfold value, fR, SF2R, F2R. cbn [Fnum Fexp].
  rewrite bpow_powerRZ2. destruct s; unfold cond_Zopp; [rewrite opp_IZR|]; ring.
Qed.
Lemma value_abs s m e : Rabs (value (S754_finite s m e)) = mag m e.
Proof.
  unfold value, mag. rewrite bpow_powerRZ2. rewrite !Rabs_mult. rewrite (Rabs_pos_eq (IZR (Z.pos m))) by (apply IZR_le; lia).
  rewrite (Rabs_pos_eq (bpow radix2 e)) by apply bpow_ge_0. destruct s; [rewrite Rabs_left by lra|rewrite Rabs_R1]; ring.
Qed.
Lemma pow10_pos p : 0 < 10 ^ p.
Proof. apply pow_lt. lra. Qed.

(** What a number of the text denotes *)
Lemma dec_round_correct neg k p :
  let d := decimal_value p neg k in
  small d -> Finite (dec_round neg k (- Z.of_nat p)) /\ fR (dec_round neg k (- Z.of_nat p)) = rnd d /\
  negative (dec_round neg k (- Z.of_nat p)) = neg.
Proof.
  intros d Hd. unfold dec_round. destruct k as [|m].
  - cbn. repeat split. unfold d, decimal_value. cbn. unfold Rdiv. rewrite Rmult_0_l, Rmult_0_r, round_0; [reflexivity|apply valid_rnd_N].
  - set (a := if (0 <=? - Z.of_nat p)%Z then (m * Z.to_pos (10 ^ (- Z.of_nat p)))%positive else m).
    set (b := if (0 <=? - Z.of_nat p)%Z then 1%positive else Z.to_pos (10 ^ (- - Z.of_nat p))).
    pose proof (Bdiv_correct_aux fprec femax Hprec Hmax mode_NE neg a 0 false b 0) as K.
    cbv zeta in K. 
    assert (Ed : F2R (Float radix2 (cond_Zopp neg (Z.pos a)) 0) / F2R (Float radix2 (cond_Zopp false (Z.pos b)) 0) = d).
    { unfold F2R. cbn [Fnum Fexp bpow]. rewrite !Rmult_1_r. cbn [cond_Zopp]. unfold d, decimal_value. cbn [Z.of_N].
      assert (Hab : IZR (Z.pos a) / IZR (Z.pos b) = IZR (Z.pos m) / 10 ^ p).
      { unfold a, b. destruct p as [|p].
        - cbn [Z.of_nat Z.opp Z.leb]. rewrite Z.pow_0_r. cbn [Z.to_pos pow]. rewrite Pos.mul_1_r. reflexivity.
        - replace (0 <=? - Z.of_nat (S p))%Z with false by (symmetry; apply Z.leb_gt; lia).
          rewrite Z.opp_involutive. rewrite Z2Pos.id by (apply Z.pow_pos_nonneg; lia). rewrite <- pow_IZR. reflexivity. }
      rewrite <- Hab. destruct neg; cbn [cond_Zopp]; [rewrite opp_IZR|]; unfold Rdiv; ring. }
    rewrite Ed in K. destruct K as [K1 K2]. rewrite Rlt_bool_true in K2 by exact Hd.
    destruct (SFdiv_core_binary f_prec f_emax (Z.pos a) 0 (Z.pos b) 0) as [[q ex] l] eqn:Eq.
    change (SFdiv_core_binary f_prec f_emax) with (SFdiv_core_binary fprec femax) in Eq.
    rewrite Eq in K1, K2. rewrite xorb_false_r in K1, K2.
    change (binary_round_aux f_prec f_emax neg q ex l) with (SpecFloat.binary_round_aux fprec femax neg q ex l).
    rewrite binary_round_aux_equiv. destruct K2 as (K2 & K3 & K4). split; [|split; [exact K2|]].
    + clear -K1 K3. destruct (BinarySingleNaN.binary_round_aux fprec femax mode_NE neg q ex l); cbn in *; auto; discriminate.
    + clear -K4 K3. destruct (BinarySingleNaN.binary_round_aux fprec femax mode_NE neg q ex l); cbn in *; auto; discriminate.
Qed.
Lemma finite_generic z : Finite z -> generic_format radix2 (SpecFloat.fexp fprec femax) (fR z).
Proof.
  intros H. destruct (toB z (finite_valid z H)) as (b & <-). rewrite fR_B. apply generic_format_B2R.
Qed.
Lemma rnd_nearest d z : Finite z -> Rabs (rnd d - d) <= Rabs (fR z - d).
Proof.
  intros Hz. assert (V : Valid_exp (SpecFloat.fexp fprec femax)) by (apply fexp_correct; reflexivity).
  destruct (round_N_pt radix2 (SpecFloat.fexp fprec femax) (fun x => negb (Z.even x)) d) as [_ H].
  apply H. apply finite_generic. exact Hz.
Qed.

(** ** Writing and reading *)
Definition scaled_of (x : f32) (p : nat) : N := match x with S754_finite _ m e => scaled m e p | _ => 0%N end.
Lemma scaled_of_near x p : Near (Rabs (value x) * 10 ^ p) (Z.of_N (scaled_of x p)).
Proof.
  destruct x as [s|s| |s m e]; try (cbn [value scaled_of Z.of_N]; rewrite Rabs_R0, Rmult_0_l; apply near_exact).
  cbn [scaled_of]. rewrite value_abs. apply scaled_near.
Qed.
Lemma format_finite p x : Finite x -> format_f p x = sign_str (negative x) +++ fixed_dec p (scaled_of x p).
Proof. destruct x; intros H; try (exfalso; exact H); reflexivity. Qed.
Lemma value_sign x : Finite x -> value x = (if negative x then -1 else 1) * Rabs (value x).
Proof.
  destruct x as [s|s| |s m e]; intros H; try (exfalso; exact H); cbn [negative]; [cbn [value]; rewrite Rabs_R0; ring|].
  rewrite value_abs. unfold value, mag. rewrite bpow_powerRZ2. ring.
Qed.
Lemma sigma_abs (b : bool) r : Rabs ((if b then -1 else 1) * r) = Rabs r.
Proof. rewrite Rabs_mult. destruct b; [rewrite Rabs_left by lra|rewrite Rabs_R1]; lra. Qed.
(** The distance between a float and a decimal of the same sign *)
Lemma dist x p k : Finite x ->
  Rabs (value x - decimal_value p (negative x) k) = Rabs (Rabs (value x) * 10 ^ p - IZR (Z.of_N k)) / 10 ^ p.
Proof.
  intros H. rewrite (value_sign x H) at 1. unfold decimal_value. rewrite <- Rmult_minus_distr_l, sigma_abs.
  pose proof (pow10_pos p) as P. rewrite <- (Rabs_pos_eq (10 ^ p)) at 3 by lra. unfold Rdiv at 2. rewrite <- Rabs_inv, <- Rabs_mult.
  f_equal. field. lra.
Qed.
Lemma half_unit x p : Finite x -> Rabs (value x - decimal_value p (negative x) (scaled_of x p)) <= / 2 / 10 ^ p.
Proof.
  intros H. rewrite dist by exact H. unfold Rdiv. apply Rmult_le_compat_r.
  - left. apply Rinv_0_lt_compat, pow10_pos.
  - apply scaled_of_near.
Qed.
Lemma finite_lt x : Finite x -> Rabs (value x) < bpow radix2 128.
Proof.
  intros H. rewrite value_fR. destruct (toB x (finite_valid x H)) as (b & <-). rewrite fR_B. apply (abs_B2R_lt_emax fprec femax).
Qed.
Lemma mag_small s m e : f_valid (S754_finite s m e) = true -> (e < 0)%Z -> mag m e < 16777216.
Proof.
  intros V He. unfold f_valid in V. cbn [valid_binary] in V. unfold SpecFloat.bounded in V. rewrite andb_true_iff in V. destruct V as [V _].
  unfold SpecFloat.canonical_mantissa, SpecFloat.fexp in V. apply Zeq_is_eq_bool in V. unfold f_emax, f_prec, SpecFloat.emin in V.
  assert (D : (Zpos (digits2_pos m) <= 24)%Z) by lia. apply digits2_small in D. change (2 ^ 24)%Z with 16777216%Z in D.
  unfold mag. apply Rle_lt_trans with (IZR (Z.pos m) * 1).
  - apply Rmult_le_compat_l; [apply IZR_le; lia|]. change 1 with (bpow radix2 0). apply bpow_le. lia.
  - rewrite Rmult_1_r. apply IZR_lt. exact D.
Qed.
Lemma written_small x p : Finite x -> small (decimal_value p (negative x) (scaled_of x p)).
Proof.
  intros H. set (d := decimal_value p (negative x) (scaled_of x p)).
  destruct (Rle_or_lt 16777216 (Rabs (value x))) as [Hb|Hs].
  - assert (Ed : d = fR x).
    { rewrite <- value_fR. unfold d. pose proof (dist x p (scaled_of x p) H) as D.
      destruct x as [s|s| |s m e]; try (exfalso; exact H); [cbn [value] in Hb; rewrite Rabs_R0 in Hb; lra|].
      cbn [negative scaled_of] in *. rewrite value_abs in *. destruct (Z_lt_le_dec e 0) as [He|He].
      { pose proof (mag_small s m e H He). lra. }
      assert (Es : IZR (Z.of_N (scaled m e p)) = mag m e * 10 ^ p).
      { unfold scaled, mag. replace (0 <=? e)%Z with true by (symmetry; apply Z.leb_le; exact He).
        rewrite !N2Z.inj_mul, !mult_IZR, pow10_IZR, pow2_IZR, Z2N.id by lia. cbn [Z.of_N]. ring. }
      rewrite Es in D. replace (mag m e * 10 ^ p - mag m e * 10 ^ p) with 0 in D by ring. rewrite Rabs_R0 in D.
      unfold Rdiv in D. rewrite Rmult_0_l in D.
      destruct (Req_dec (value (S754_finite s m e) - decimal_value p s (scaled m e p)) 0) as [E|E]; [lra|].
      apply Rabs_no_R0 in E. lra. }
    unfold small. rewrite Ed. rewrite round_generic; [|apply valid_rnd_N|apply finite_generic; exact H].
    rewrite <- value_fR. apply finite_lt. exact H.
  - unfold small. pose proof (rnd_nearest d x H) as N. rewrite <- value_fR in N.
    pose proof (half_unit x p H) as U. fold d in U.
    assert (P1 : / 2 / 10 ^ p <= / 2).
    { unfold Rdiv. rewrite <- (Rmult_1_r (/ 2)) at 2. apply Rmult_le_compat_l; [lra|].
      rewrite <- Rinv_1. apply Rinv_le_contravar; [lra|]. apply pow_R1_Rle. lra. }
    apply Rlt_trans with 16777218.
    + apply Rabs_lt_inv in Hs. apply Rabs_lt.
      assert (A : Rabs (rnd d - d) <= / 2) by lra. assert (B : Rabs (value x - d) <= / 2) by lra.
      apply Rabs_le_inv in A, B. lra.
    + apply Rlt_trans with (bpow radix2 25); [|apply bpow_lt; lia].
      replace (bpow radix2 25) with 33554432; [lra|]. cbn. reflexivity.
Qed.
Lemma near_le a b n : Near a n -> Rabs (b - IZR n) <= Rabs (a - IZR n) -> Near b n.
Proof. intros [H1 H2] H. split; [lra|]. intros E. apply H2. lra. Qed.
(** The value read is nearest to the decimal, and is written as before *)
Lemma read_back x p : Finite x ->
  let y := dec_round (negative x) (scaled_of x p) (- Z.of_nat p) in
  Finite y /\ negative y = negative x /\ NearestTo (decimal_value p (negative x) (scaled_of x p)) y /\ scaled_of y p = scaled_of x p.
Proof.
  intros H y. destruct (dec_round_correct (negative x) (scaled_of x p) p (written_small x p H)) as (F & E & S).
  fold y in F, E, S. set (d := decimal_value p (negative x) (scaled_of x p)) in *.
  assert (HN : NearestTo d y).
  { split; [exact F|]. intros z Hz. rewrite !value_fR, E. apply rnd_nearest. exact Hz. }
  split; [exact F|]. split; [exact S|]. split; [exact HN|].
  pose proof (proj2 HN x H) as D. unfold d in D.
  pose proof (dist x p (scaled_of x p) H) as Dx. pose proof (dist y p (scaled_of x p) F) as Dy. rewrite S in Dy. rewrite Dx, Dy in D.
  apply Rmult_le_reg_r in D; [|apply Rinv_0_lt_compat, pow10_pos].
  apply N2Z.inj. apply (near_unique (Rabs (value y) * 10 ^ p)); [apply scaled_of_near|].
  eapply near_le; [apply scaled_of_near|exact D].
Qed.

(** ** Texts *)
Lemma parse_text p neg k : parse_float (sign_str neg +++ fixed_dec p k) =
  (dec_round neg k (- Z.of_nat p), match dec_round neg k (- Z.of_nat p) with S754_infinity _ => false | _ => true end).
Proof.
  destruct (fixed_dec_spec p k) as (i & f & E & Hi & Di & Df & Lf & V). rewrite E.
  assert (N : Numeral false neg (dec_val (i +++ f)) (String.length f) 0 (sign_str neg +++ i +++ (if Nat.eqb p 0 then "" else "." +++ f) +++ "")).
  { apply plain_numeral; [destruct neg; [left|right]; auto|exact Di|exact Df| | |left; auto].
    - destruct p; [|left; reflexivity]. right. destruct f; [auto|discriminate].
    - intros X. apply Hi. destruct i; [reflexivity|discriminate]. }
  rewrite sapp_nil_r in N. rewrite (parse_numeral _ _ _ _ _ _ N) by reflexivity. rewrite V, Lf. reflexivity.
Qed.
Lemma parse_format p x : Finite x -> exists y, parse_float (format_f p x) = (y, true) /\ Finite y /\
  negative y = negative x /\ NearestTo (decimal_value p (negative x) (scaled_of x p)) y /\ format_f p y = format_f p x.
Proof.
  intros H. destruct (read_back x p H) as (F & S & N & E). eexists. split; [|split; [exact F|split; [exact S|split; [exact N|]]]].
  - rewrite format_finite, parse_text by exact H. f_equal. clear -F. destruct (dec_round _ _ _); try reflexivity. destruct F.
  - rewrite !format_finite, S, E by assumption. reflexivity.
Qed.
Lemma format_decimal p x : Finite x -> Decimal p (negative x) (scaled_of x p) (format_f p x).
Proof.
  intros H. rewrite format_finite by exact H. destruct (fixed_dec_spec p (scaled_of x p)) as (i & f & E & K).
  exists i, f. rewrite E. split; [reflexivity|exact K].
Qed.
Lemma parse_other p x : ~ Finite x -> f_valid x = true -> parse_float (format_f p x) = (x, true).
Proof. destruct x as [s|s| |s m e]; intros H V; cbn in H; try (exfalso; tauto). - destruct s; reflexivity. - reflexivity. Qed.
Lemma parse_rounded p x : f_valid x = true -> exists y, parse_float (format_f p x) = (y, true) /\ Rounded p x y.
Proof.
  intros V. assert (D : Finite x \/ ~ Finite x) by (destruct x; cbn; auto).
  destruct D as [F|F].
  - destruct (parse_format p x F) as (y & E & Fy & S & N & _). exists y. split; [exact E|]. left.
    split; [exact F|]. split; [exact S|]. exists (scaled_of x p). split; [apply half_unit; exact F|exact N].
  - exists x. split; [apply parse_other; assumption|]. right. auto.
Qed.

(** ** Words *)
Definition word (x : string) : Prop := x <> ""%string /\ sall (fun c => negb (is_space c)) x = true.
Lemma fields_blank cur w r : Blank w -> w <> ""%string -> cur <> ""%string -> fields_aux cur (w +++ r) = cur :: fields_aux "" r.
Proof.
  intros Hw Hne Hc. destruct w as [|a w]; [congruence|]. unfold Blank in Hw. cbn in Hw. rewrite andb_true_iff in Hw. destruct Hw as [Ha Hw].
  cbn [String.append fields_aux]. rewrite Ha. destruct cur as [|c0 cur]; [congruence|]. f_equal. clear -Hw.
  induction w as [|a w IH]; [reflexivity|]. cbn in Hw. rewrite andb_true_iff in Hw. destruct Hw as [Ha Hw]. cbn [String.append fields_aux]. rewrite Ha. auto.
Qed.
Lemma fields_skip w r : Blank w -> fields_aux "" (w +++ r) = fields_aux "" r.
Proof.
  intros Hw. induction w as [|a w IH]; [reflexivity|]. unfold Blank in *. cbn in Hw. rewrite andb_true_iff in Hw. destruct Hw as [Ha Hw].
  cbn [String.append fields_aux]. rewrite Ha. auto.
Qed.
Lemma fields_word cur x r : sall (fun c => negb (is_space c)) x = true -> fields_aux cur (x +++ r) = fields_aux (cur +++ x) r.
Proof.
  revert cur. induction x as [|a x IH]; intros cur H; [rewrite sapp_nil_r; reflexivity|].
  cbn in H. rewrite andb_true_iff in H. destruct H as [Ha H]. apply negb_true_iff in Ha.
  cbn [String.append fields_aux]. rewrite Ha, IH by exact H. rewrite sapp_assoc. reflexivity.
Qed.
Lemma words_fields l s : Words l s -> fields s = l.
Proof.
  unfold fields. intros H. induction H as [w Hw|w x l r Hw Hx Sx Hr IH Hs].
  - rewrite <- (sapp_nil_r w), fields_skip by exact Hw. reflexivity.
  - rewrite fields_skip, fields_word by assumption. cbn [String.append].
    destruct r as [|c r].
    + destruct Hs as [->|(c & r' & E & _)]; [|discriminate]. cbn. destruct x; congruence.
    + assert (Hc : is_space c = true).
      { destruct Hs as [->|(c' & r' & E & Ec)]; [|congruence]. inversion Hr as [w' Hw' E1 E2|]. subst. unfold Blank in Hw'. cbn in Hw'.
        rewrite andb_true_iff in Hw'. tauto. }
      cbn [fields_aux] in IH |- *. rewrite Hc in IH |- *. destruct x; [congruence|]. f_equal. exact IH.
Qed.
Lemma fields_words_aux s : forall cur, sall (fun c => negb (is_space c)) cur = true ->
  (cur = ""%string -> Words (fields_aux cur s) s) /\
  (cur <> ""%string -> Words (fields_aux cur s) (cur +++ s)).
Proof.
  induction s as [|c s IH]; intros cur Hc; split; intros E.
  - subst cur. cbn. constructor. reflexivity.
  - cbn. destruct cur as [|a cur']; [congruence|]. apply (WCons "" (String a cur') [] ""); [reflexivity|discriminate|exact Hc| |left; reflexivity].
    constructor. reflexivity.
  - subst cur. cbn [fields_aux]. destruct (is_space c) eqn:Es.
    + destruct (IH ""%string eq_refl) as [K _]. specialize (K eq_refl). inversion K as [w Hw E1 E2|w x l r Hw Hx Sx Hr Hs E1 E2].
      * constructor. unfold Blank in *. cbn. rewrite Es. exact Hw.
      * change (String c (w +++ x +++ r)) with (String c w +++ x +++ r). constructor; try assumption. unfold Blank in *. cbn. rewrite Es. exact Hw.
    + destruct (IH (String c "")) as [_ K]; [cbn; rewrite Es; reflexivity|]. specialize (K ltac:(discriminate)). exact K.
  - cbn [fields_aux]. destruct (is_space c) eqn:Es.
    + replace (match cur with "" => fields_aux "" s | String _ _ => cur :: fields_aux "" s end) with (cur :: fields_aux "" s) by (destruct cur; [congruence|reflexivity]).
      change (cur +++ String c s) with ("" +++ cur +++ String c s).
      constructor; [reflexivity|exact E|exact Hc| |right; eauto]. destruct (IH ""%string eq_refl) as [K _]. specialize (K eq_refl). inversion K as [w Hw E1 E2|w x l r Hw Hx Sx Hr Hs E1 E2].
      * constructor. unfold Blank in *. cbn. rewrite Es. exact Hw.
      * change (String c (w +++ x +++ r)) with (String c w +++ x +++ r). constructor; try assumption. unfold Blank in *. cbn. rewrite Es. exact Hw.
    + destruct (IH (cur +++ String c "")) as [_ K]; [rewrite sall_app, Hc; cbn; rewrite Es; reflexivity|].
      specialize (K ltac:(destruct cur; discriminate)). rewrite sapp_assoc in K. exact K.
Qed.
Lemma fields_words s : Words (fields s) s.
Proof. exact (proj1 (fields_words_aux s ""%string eq_refl) eq_refl). Qed.
Lemma words_join l : Forall word l -> Words l (sjoin " " l).
Proof.
  intros H. induction H as [|x l [Hx Sx] Hl IH]; [constructor; reflexivity|].
  destruct l as [|y l].
  - cbn [sjoin]. rewrite <- (sapp_nil_r x) at 2. apply (WCons "" x [] ""); [reflexivity|exact Hx|exact Sx|exact IH|left; reflexivity].
  - change (sjoin " " (x :: y :: l)) with ("" +++ x +++ " " +++ sjoin " " (y :: l)).
    constructor; try assumption; [reflexivity| |right; exists " "%char, (sjoin " " (y :: l)); split; reflexivity].
    revert IH. generalize (sjoin " " (y :: l)) as t. intros t IH. inversion IH as [|w x' l' r Hw Hx' Sx' Hr Hs E1 E2]. subst.
    change (" " +++ w +++ y +++ r) with (String " " w +++ y +++ r). constructor; assumption.
Qed.
Lemma digit_nospace s : sall is_digit s = true -> sall (fun c => negb (is_space c)) s = true.
Proof.
  induction s as [|c s IH]; [reflexivity|]. cbn. rewrite !andb_true_iff. intros [H1 H2]. split; [|auto].
  unfold is_digit in H1. unfold is_space. rewrite andb_true_iff, N.leb_le, N.leb_le in H1. apply negb_true_iff, orb_false_iff.
  split; [apply N.eqb_neq; lia|]. apply andb_false_iff. right. apply N.leb_gt. lia.
Qed.
Lemma fixed_dec_word p n : word (fixed_dec p n).
Proof.
  destruct (fixed_dec_spec p n) as (i & f & E & Hi & Di & Df & _). rewrite E. split.
  - destruct i; [congruence|discriminate].
  - rewrite sall_app, (digit_nospace i Di). destruct (Nat.eqb p 0); [reflexivity|]. cbn. apply digit_nospace. exact Df.
Qed.
Lemma format_word p x : word (format_f p x).
Proof.
  destruct x as [s|s| |s m e]; try (destruct s); try (split; [discriminate|reflexivity]); cbn [format_f sign_str String.append]; try apply fixed_dec_word.
  - destruct (fixed_dec_word p 0) as [H1 H2]. split; [discriminate|]. cbn. exact H2.
  - destruct (fixed_dec_word p (scaled m e p)) as [H1 H2]. split; [discriminate|]. cbn. exact H2.
Qed.
