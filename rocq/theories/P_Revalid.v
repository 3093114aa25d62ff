(** * Rounding and validity: heights, radii and transforms as they are read again *)
From Coq Require Import ZArith Reals Lra Lia.
From Flocq Require Import Core.Core IEEE754.BinarySingleNaN.
From Verif Require Import GoBase GoNum GoFloat GoStrconv Types M_Core M_Geom M_Text S_Geom S_Strconv S_Text S_RoundTrip P_Float P_Strconv P_RTText.
Local Open Scope R_scope.

Definition dval (p : nat) (x : f32) : R := decimal_value p (negative x) (scaled_of x p).
Lemma rf_finite p x : Finite x -> Finite (rf p x) /\ value (rf p x) = rnd (dval p x) /\ negative (rf p x) = negative x.
Proof.
  intros H. destruct (parse_format p x H) as (y & E & Fy & S & N & _). unfold rf. rewrite E. cbn [fst].
  destruct (dec_round_correct (negative x) (scaled_of x p) p (written_small x p H)) as (F & EV & S').
  rewrite (format_finite p x H), parse_text in E. injection E as <- _. rewrite value_fR. auto.
Qed.
Lemma rf_other p x : ~ Finite x -> f_valid x = true -> rf p x = x.
Proof. intros H V. unfold rf. rewrite parse_other; auto. Qed.
Lemma dval_int p x : exists z, dval p x * 10 ^ p = IZR z.
Proof.
  exists ((if negative x then -1 else 1) * Z.of_N (scaled_of x p))%Z. unfold dval, decimal_value. rewrite mult_IZR. pose proof (pow10_pos p).
  destruct (negative x); field; lra.
Qed.
Lemma dval_near p x : Finite x -> Rabs (value x - dval p x) * 10 ^ p <= / 2.
Proof.
  intros H. pose proof (half_unit x p H) as U. pose proof (pow10_pos p). change (decimal_value p (negative x) (scaled_of x p)) with (dval p x) in U.
  apply Rmult_le_compat_r with (r := 10 ^ p) in U; [|lra]. replace (/ 2 / 10 ^ p * 10 ^ p) with (/ 2) in U by (field; lra). exact U.
Qed.
Lemma dval_eq p x y : Finite x -> Finite y -> value x = value y -> dval p x = dval p y.
Proof.
  intros Hx Hy E. assert (K : scaled_of x p = scaled_of y p).
  { apply N2Z.inj. apply (near_unique (Rabs (value x) * 10 ^ p)); [apply scaled_of_near|]. rewrite E. apply scaled_of_near. }
  unfold dval, decimal_value. rewrite K.
  destruct (N.eq_dec (scaled_of y p) 0) as [Z|Z]; [rewrite Z; cbn [Z.of_N]; unfold Rdiv; rewrite Rmult_0_l, !Rmult_0_r; reflexivity|].
  assert (Vx : value x <> 0).
  { intros V. apply Z. rewrite <- K. destruct x as [s|s| |s m e]; try reflexivity. exfalso. pose proof (value_abs s m e) as A. rewrite V, Rabs_R0 in A. unfold mag in A.
    symmetry in A. apply Rmult_integral in A as [A|A]; [apply eq_IZR in A; discriminate|]. pose proof (bpow_gt_0 radix2 e). lra. }
  pose proof (value_sign x Hx) as Sx. pose proof (value_sign y Hy) as Sy. rewrite <- E in Sy. pose proof (Rabs_pos_lt _ Vx).
  destruct (negative x), (negative y); lra.
Qed.
Lemma dval_le p x y : Finite x -> Finite y -> value x <= value y -> dval p x <= dval p y.
Proof.
  intros Hx Hy [L|E]; [|right; apply dval_eq; assumption].
  destruct (Rle_or_lt (dval p x) (dval p y)) as [D|D]; [exact D|exfalso]. pose proof (pow10_pos p) as P.
  destruct (dval_int p x) as [zx Zx]. destruct (dval_int p y) as [zy Zy]. pose proof (dval_near p x Hx) as Nx. pose proof (dval_near p y Hy) as Ny.
  assert (zy < zx)%Z by (apply lt_IZR; rewrite <- Zx, <- Zy; apply Rmult_lt_compat_r; lra).
  assert (IZR zy + 1 <= IZR zx) by (rewrite <- plus_IZR; apply IZR_le; lia).
  rewrite <- (Rabs_pos_eq (10 ^ p)), <- Rabs_mult in Nx, Ny by lra. apply Rabs_le_inv in Nx, Ny. rewrite Rmult_minus_distr_r in Nx, Ny.
  assert (value x * 10 ^ p < value y * 10 ^ p) by (apply Rmult_lt_compat_r; lra). lra.
Qed.
Lemma rf_le p x y : Finite x -> Finite y -> value x <= value y -> value (rf p x) <= value (rf p y).
Proof.
  intros Hx Hy L. destruct (rf_finite p x Hx) as (_ & -> & _). destruct (rf_finite p y Hy) as (_ & -> & _). apply rnd_le, dval_le; assumption.
Qed.
(** Numbers more than two units apart stay apart. *)
Lemma rf_lt p x y : Finite x -> Finite y -> value x + 2 / 10 ^ p < value y -> value (rf p x) < value (rf p y).
Proof.
  intros Hx Hy L. pose proof (pow10_pos p) as P. destruct (rf_finite p x Hx) as (_ & Ex & _). destruct (rf_finite p y Hy) as (_ & Ey & _).
  destruct (Rle_or_lt (value (rf p y)) (value (rf p x))) as [C|C]; [exfalso|exact C].
  assert (E : value (rf p y) = value (rf p x)).
  { apply Rle_antisym; [exact C|]. apply rf_le; try assumption. assert (0 < 2 / 10 ^ p) by (apply Rdiv_lt_0_compat; lra). lra. }
  pose proof (rnd_nearest (dval p x) x Hx) as Nx. pose proof (rnd_nearest (dval p y) y Hy) as Ny. rewrite <- value_fR in Nx, Ny. rewrite <- Ex in Nx. rewrite <- Ey, E in Ny.
  pose proof (half_unit x p Hx) as Ux. pose proof (half_unit y p Hy) as Uy. fold (dval p x) in Ux. fold (dval p y) in Uy.
  set (h := / 2 / 10 ^ p) in *. assert (T : 2 / 10 ^ p = 4 * h) by (unfold h; field; lra). rewrite T in L.
  set (z := value (rf p x)) in *. pose proof (Rle_trans _ _ _ Nx Ux) as A. pose proof (Rle_trans _ _ _ Ny Uy) as B. apply Rabs_le_inv in Ux, Uy, A, B. lra.
Qed.
Lemma rf_nonzero p x : Finite x -> / 10 ^ p <= Rabs (value x) -> value (rf p x) <> 0.
Proof.
  intros Hx V. pose proof (pow10_pos p) as P. destruct (rf_finite p x Hx) as (_ & Ex & _). intros Z.
  pose proof (rnd_nearest (dval p x) x Hx) as N. rewrite <- value_fR, <- Ex, Z in N. pose proof (half_unit x p Hx) as U. fold (dval p x) in U.
  set (h := / 2 / 10 ^ p) in *. assert (T : / 10 ^ p = 2 * h) by (unfold h; field; lra). assert (0 < h) by (unfold h, Rdiv; apply Rmult_lt_0_compat; [lra|apply Rinv_0_lt_compat; lra]).
  rewrite T in V. pose proof (Rle_trans _ _ _ N U) as A. rewrite Rminus_0_l, Rabs_Ropp in A.
  pose proof (Rabs_triang (value x - dval p x) (dval p x)) as Tr. replace (value x - dval p x + dval p x) with (value x) in Tr by ring.
  (* equality only if the number is one unit away and the decimal in the middle, which is no decimal *)
  assert (Q : Rabs (dval p x) = h) by lra. destruct (dval_int p x) as [z Hz].
  assert (W : IZR (2 * Z.abs z) = 1).
  { rewrite mult_IZR, abs_IZR, <- Hz, Rabs_mult, Q, (Rabs_pos_eq (10 ^ p)) by lra. unfold h. field. lra. }
  change 1 with (IZR 1) in W. apply eq_IZR in W. lia.
Qed.
Lemma rf_zero p x : Finite x -> value x = 0 -> value (rf p x) = 0.
Proof.
  intros Hx V. destruct (rf_finite p x Hx) as (_ & -> & _). rewrite (dval_eq p x f_zero Hx I) by (rewrite V; reflexivity).
  unfold dval, decimal_value. cbn. unfold Rdiv. rewrite Rmult_0_l, Rmult_0_r. apply round_0, valid_rnd_N.
Qed.
Lemma rf_big p x : Finite x -> 16777216 <= Rabs (value x) -> value (rf p x) = value x.
Proof.
  intros H Hb. destruct (rf_finite p x H) as (_ & -> & _). rewrite value_fR. rewrite <- (rnd_fR x H). f_equal. rewrite <- value_fR. unfold dval.
  pose proof (dist x p (scaled_of x p) H) as D.
  destruct x as [s|s| |s m e]; try (exfalso; exact H); [cbn [value] in Hb; rewrite Rabs_R0 in Hb; lra|].
  cbn [negative scaled_of] in *. rewrite value_abs in *. destruct (Z_lt_le_dec e 0) as [He|He].
  { pose proof (mag_small s m e H He). lra. }
  assert (Es : IZR (Z.of_N (GoStrconv.scaled m e p)) = mag m e * 10 ^ p).
  { unfold GoStrconv.scaled, mag. replace (0 <=? e)%Z with true by (symmetry; apply Z.leb_le; exact He).
    rewrite !N2Z.inj_mul, !mult_IZR, pow10_IZR, pow2_IZR, Z2N.id by lia. cbn [Z.of_N]. ring. }
  rewrite Es in D. replace (mag m e * 10 ^ p - mag m e * 10 ^ p) with 0 in D by ring. rewrite Rabs_R0 in D.
  unfold Rdiv in D. rewrite Rmult_0_l in D.
  destruct (Req_dec (value (S754_finite s m e) - decimal_value p s (GoStrconv.scaled m e p)) 0) as [E|E]; [lra|].
  apply Rabs_no_R0 in E. lra.
Qed.

(** ** Comparisons *)
Lemma fltb_value x y : Finite x -> Finite y -> fltb x y = true <-> value x < value y.
Proof. intros Hx Hy. rewrite !value_fR. apply fltb_R; assumption. Qed.
Lemma fleb_value x y : Finite x -> Finite y -> fleb x y = true <-> value x <= value y.
Proof. intros Hx Hy. rewrite !value_fR. apply Le_R; assumption. Qed.
Lemma feqb_value x y : Finite x -> Finite y -> feqb x y = true <-> value x = value y.
Proof.
  intros Hx Hy. rewrite !value_fR. destruct (toB x (finite_valid x Hx)) as (bx & <-), (toB y (finite_valid y Hy)) as (b_y & <-).
  apply finite_B in Hx, Hy. rewrite !fR_B. pose proof (Beqb_correct fprec femax bx b_y Hx Hy) as H.
  unfold Beqb in H. unfold feqb. rewrite H. split.
  - intros E. revert E. case Req_bool_spec; [auto|discriminate].
  - intros E. apply Req_bool_true; exact E.
Qed.
Lemma feqb_same p x y : Finite x -> Finite y -> feqb x y = true -> feqb (rf p x) (rf p y) = true.
Proof.
  intros Hx Hy E. apply feqb_value in E; try assumption. apply feqb_value; try (apply rf_finite; assumption).
  apply Rle_antisym; apply rf_le; try assumption; lra.
Qed.
Lemma zero_stays p x : feqb x f_zero = true -> feqb (rf p x) f_zero = true.
Proof.
  intros E. assert (F : Finite x) by (destruct x as [?| [|] | |[|]]; try discriminate; exact I).
  apply feqb_value; [apply rf_finite, F|exact I|]. apply rf_zero; [exact F|]. apply feqb_value in E; [exact E|exact F|exact I].
Qed.
Lemma one_stays x : feqb x f_one = true -> f_valid x = true -> feqb (rf 3 x) f_one = true.
Proof.
  intros E V. assert (F : Finite x) by (destruct x as [?| [|] | |[|]]; try discriminate; exact V).
  replace f_one with (rf 3 f_one) by (vm_compute; reflexivity). apply feqb_same; [exact F|reflexivity|exact E].
Qed.
Definition f_24 : f32 := S754_finite true 8388608 1.
Lemma lowest_stays p x : Finite x -> fleb x (fneg f_max) = false -> fleb (rf p x) (fneg f_max) = false.
Proof.
  intros F E. assert (FL : Finite (fneg f_max)) by reflexivity. destruct (rf_finite p x F) as (F' & _).
  destruct (fleb (rf p x) _) eqn:E'; [|reflexivity]. apply fleb_value in E'; try assumption.
  assert (L : value (fneg f_max) < value x).
  { destruct (Rle_or_lt (value x) (value (fneg f_max))) as [C|C]; [|exact C]. apply (fleb_value x _ F FL) in C. rewrite E in C. discriminate. }
  destruct (Rle_or_lt 16777216 (Rabs (value x))) as [Hb|Hs].
  { rewrite rf_big in E' by assumption. lra. }
  assert (F24 : Finite f_24) by reflexivity. assert (V24 : value f_24 = -16777216) by (unfold value, f_24; rewrite powerRZ_1; lra).
  assert (fltb (fneg f_max) f_24 = true) as LL by (vm_compute; reflexivity). apply fltb_value in LL; [|exact FL|exact F24].
  assert (G : value (rf p f_24) <= value (rf p x)).
  { apply rf_le; try assumption. rewrite V24. apply Rabs_lt_inv in Hs. lra. }
  rewrite rf_big in G; [lra|exact F24|]. rewrite V24, Rabs_left by lra. lra.
Qed.
Lemma value_one : value f_one = 1.
Proof. rewrite value_fR. unfold fR, SF2R, F2R, f_one. cbn [Fnum Fexp cond_Zopp]. change (bpow radix2 (-23)) with (/ IZR 8388608). lra. Qed.
Lemma value_two : value (S754_finite false 8388608 (-22)) = 2.
Proof. rewrite value_fR. unfold fR, SF2R, F2R. cbn [Fnum Fexp cond_Zopp]. change (bpow radix2 (-22)) with (/ IZR 4194304). lra. Qed.
