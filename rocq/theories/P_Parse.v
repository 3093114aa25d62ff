(** * Proofs about the numbers a reader accepts: rounding *)
From Coq Require Import ZArith Reals Lra Lia.
From Flocq Require Import Core.Core IEEE754.BinarySingleNaN.
From Verif Require Import GoBase GoNum GoFloat Types S_Geom P_Geom P_Float S_Strconv P_Strconv S_Parse P_ParseText GoStrconv.
Local Open Scope R_scope.

(** ** Where rounding overflows *)
Lemma limit_bpow : float_limit = bpow radix2 128 - bpow radix2 103.
Proof. unfold float_limit. rewrite !bpow_powerRZ2. reflexivity. Qed.
Local Instance VE : Valid_exp (SpecFloat.fexp fprec femax).
Proof. apply (fexp_correct fprec femax). reflexivity. Qed.
Local Instance EN : Exists_NE radix2 (SpecFloat.fexp fprec femax).
Proof. apply (exists_NE_FLT radix2 (SpecFloat.emin fprec femax) fprec). right. reflexivity. Qed.
Definition fmax : R := bpow radix2 128 - bpow radix2 104.
Lemma fmax_F2R : fmax = F2R (Float radix2 16777215 104).
Proof. unfold fmax, F2R. cbn [Fnum Fexp]. change 128%Z with (24 + 104)%Z. rewrite bpow_plus. 
  replace (bpow radix2 24) with 16777216 by (cbn; reflexivity). ring. Qed.
Lemma fmax_generic : generic_format radix2 (SpecFloat.fexp fprec femax) fmax.
Proof.
  assert (F : Finite (S754_finite false 16777215 104)) by reflexivity.
  apply finite_generic in F. rewrite fmax_F2R. exact F.
Qed.
Lemma bpow_104 : bpow radix2 104 = 2 * bpow radix2 103.
Proof. change 104%Z with (1 + 103)%Z. rewrite bpow_plus. reflexivity. Qed.
Lemma rnd_limit : rnd float_limit = bpow radix2 128.
Proof.
  rewrite limit_bpow. set (r := bpow radix2 128 - bpow radix2 103).
  assert (P : 0 < bpow radix2 103) by apply bpow_gt_0.
  assert (Q : bpow radix2 128 = 33554432 * bpow radix2 103).
  { change 128%Z with (25 + 103)%Z. rewrite bpow_plus. replace (bpow radix2 25) with 33554432 by (cbn; reflexivity). reflexivity. }
  assert (Q' : bpow radix2 127 = 16777216 * bpow radix2 103).
  { change 127%Z with (24 + 103)%Z. rewrite bpow_plus. replace (bpow radix2 24) with 16777216 by (cbn; reflexivity). reflexivity. }
  assert (M : Core.Raux.mag radix2 r = 128%Z :> Z).
  { apply mag_unique. rewrite Rabs_pos_eq; unfold r; [|lra]. change (128 - 1)%Z with 127%Z. split; lra. }
  unfold round. assert (C : cexp radix2 (SpecFloat.fexp fprec femax) r = 104%Z) by (unfold cexp; rewrite M; reflexivity).
  unfold scaled_mantissa. rewrite C. rewrite bpow_opp.
  assert (E : r * / bpow radix2 104 = 16777216 - / 2).
  { unfold r. rewrite bpow_104, Q. field. lra. }
  rewrite E. cbn [round_mode].
  assert (Fl : Zfloor (16777216 - / 2) = 16777215%Z) by (apply Zfloor_imp; rewrite plus_IZR; lra).
  assert (Z : ZnearestE (16777216 - / 2) = 16777216%Z).
  { unfold Znearest. rewrite Fl. rewrite Rcompare_Eq by lra. cbn [Z.even negb]. apply Zceil_imp. rewrite minus_IZR. lra. }
  rewrite Z. unfold F2R. cbn [Fnum Fexp]. rewrite Q, bpow_104. lra.
Qed.
Lemma rnd_opp r : rnd (- r) = - rnd r.
Proof. apply round_NE_opp. Qed.
Lemma rnd_abs r : Rabs (rnd r) = rnd (Rabs r).
Proof.
  destruct (Rle_or_lt 0 r) as [H|H].
  - rewrite (Rabs_pos_eq r) by exact H. apply Rabs_pos_eq. apply rnd_le in H. rewrite round_0 in H; [exact H|apply valid_rnd_N].
  - rewrite (Rabs_left r) by exact H. rewrite rnd_opp. apply Rabs_left1. apply Rlt_le, rnd_le in H. rewrite round_0 in H; [exact H|apply valid_rnd_N].
Qed.
Lemma small_iff r : small r <-> Rabs r < float_limit.
Proof.
  unfold small. rewrite rnd_abs. split; intros H.
  - destruct (Rle_or_lt float_limit (Rabs r)) as [L|L]; [|exact L]. apply rnd_le in L. rewrite rnd_limit in L. lra.
  - set (a := Rabs r) in *. destruct (Rle_or_lt a fmax) as [L|L].
    + apply rnd_le in L. rewrite (round_generic _ _ _ fmax) in L by (try apply valid_rnd_N; apply fmax_generic).
      assert (0 < bpow radix2 104) by apply bpow_gt_0. unfold fmax in L. lra.
    + destruct (Rlt_or_le (rnd a) (bpow radix2 128)) as [K|K]; [exact K|exfalso].
      assert (Ff : Finite (S754_finite false 16777215 104)) by reflexivity.
      pose proof (rnd_nearest a _ Ff) as N.
      replace (fR (S754_finite false 16777215 104)) with fmax in N by (rewrite fmax_F2R; reflexivity).
      rewrite limit_bpow in H. unfold fmax in *. rewrite bpow_104 in *.
      assert (0 < bpow radix2 103) by apply bpow_gt_0.
      rewrite Rabs_pos_eq in N by lra. rewrite Rabs_left in N by lra. lra.
Qed.

(** ** Rounding a decimal *)
Lemma bpow10_quot m e : IZR (Z.pos (if (0 <=? e)%Z then (m * Z.to_pos (10 ^ e))%positive else m)) /
  IZR (Z.pos (if (0 <=? e)%Z then 1%positive else Z.to_pos (10 ^ (- e)))) = IZR (Z.pos m) * powerRZ 10 e.
Proof.
  assert (K : forall q, (0 <= q)%Z -> IZR (10 ^ q) = powerRZ 10 q).
  { intros q Hq. rewrite <- (Z2Nat.id q) by exact Hq. rewrite <- pow_powerRZ, <- pow_IZR. reflexivity. }
  destruct (0 <=? e)%Z eqn:E.
  - apply Z.leb_le in E. rewrite Pos2Z.inj_mul, mult_IZR, Z2Pos.id by (apply Z.pow_pos_nonneg; lia). rewrite K by exact E. field.
  - apply Z.leb_gt in E. rewrite Z2Pos.id by (apply Z.pow_pos_nonneg; lia). rewrite K by lia.
    rewrite <- (Z.opp_involutive e) at 2. rewrite (powerRZ_neg' 10 (- e)). reflexivity.
Qed.
Definition dvalue (neg : bool) (d : N) (e : Z) : R := (if neg then -1 else 1) * IZR (Z.of_N d) * powerRZ 10 e.
Lemma dec_round_value neg d e :
  let v := dvalue neg d e in
  (small v -> Finite (dec_round neg d e) /\ fR (dec_round neg d e) = rnd v /\ negative (dec_round neg d e) = neg) /\
  (~ small v -> dec_round neg d e = S754_infinity neg).
Proof.
  intros v. unfold dec_round. destruct d as [|m].
  - assert (V : v = 0) by (unfold v, dvalue; cbn; ring). split.
    + intros _. cbn. rewrite V, round_0 by apply valid_rnd_N. repeat split.
    + intros N. exfalso. apply N. unfold small. rewrite V, round_0, Rabs_R0 by apply valid_rnd_N. apply bpow_gt_0.
  - set (a := if (0 <=? e)%Z then (m * Z.to_pos (10 ^ e))%positive else m).
    set (b := if (0 <=? e)%Z then 1%positive else Z.to_pos (10 ^ (- e))).
    pose proof (Bdiv_correct_aux fprec femax Hprec Hmax mode_NE neg a 0 false b 0) as K. cbv zeta in K.
    assert (Ed : F2R (Float radix2 (cond_Zopp neg (Z.pos a)) 0) / F2R (Float radix2 (cond_Zopp false (Z.pos b)) 0) = v).
    { unfold F2R. cbn [Fnum Fexp bpow]. rewrite !Rmult_1_r. cbn [cond_Zopp]. unfold v, dvalue. cbn [Z.of_N].
      rewrite Rmult_assoc, <- bpow10_quot. fold a b. destruct neg; cbn [cond_Zopp]; [rewrite opp_IZR|]; unfold Rdiv; ring. }
    rewrite Ed in K. destruct K as [K1 K2].
    destruct (SFdiv_core_binary f_prec f_emax (Z.pos a) 0 (Z.pos b) 0) as [[q ex] l] eqn:Eq.
    change (SFdiv_core_binary f_prec f_emax) with (SFdiv_core_binary fprec femax) in Eq.
    rewrite Eq in K1, K2. rewrite xorb_false_r in K1, K2.
    change (binary_round_aux f_prec f_emax neg q ex l) with (SpecFloat.binary_round_aux fprec femax neg q ex l).
    rewrite binary_round_aux_equiv. split; intros S.
    + rewrite Rlt_bool_true in K2 by exact S. destruct K2 as (K2 & K3 & K4). split; [|split; [exact K2|]].
      * clear -K1 K3. destruct (BinarySingleNaN.binary_round_aux fprec femax mode_NE neg q ex l); cbn in *; auto; discriminate.
      * clear -K4 K3. destruct (BinarySingleNaN.binary_round_aux fprec femax mode_NE neg q ex l); cbn in *; auto; discriminate.
    + rewrite Rlt_bool_false in K2 by (apply Rnot_lt_le; exact S). rewrite K2. destruct neg; reflexivity.
Qed.
Lemma even_tie v y : Finite y -> fR y = rnd v -> TiesEven v y.
Proof.
  intros F E z Fz D. rewrite !value_fR in *.
  destruct (round_NE_pt radix2 (SpecFloat.fexp fprec femax) v) as [N [G|U]].
  - destruct G as (g & Eg & Cg & Hg). right.
    destruct y as [s|s| |s m e]; try exact I; try (exfalso; exact F). unfold EvenMantissa.
    assert (Cy : canonical radix2 (SpecFloat.fexp fprec femax) (Float radix2 (cond_Zopp s (Zpos m)) e)).
    { unfold Finite, f_valid in F. cbn [valid_binary] in F. apply (canonical_bounded fprec femax s m e) in F. exact F. }
    change (round radix2 (SpecFloat.fexp fprec femax) ZnearestE v) with (rnd v) in Eg. rewrite <- E in Eg.
    change (fR (S754_finite s m e)) with (F2R (Float radix2 (cond_Zopp s (Zpos m)) e)) in Eg.
    apply (canonical_unique _ _ _ _ Cy Cg) in Eg. subst g. cbn [Fnum] in Hg. destruct s; exact Hg.
  - left. rewrite E. apply U. split; [apply finite_generic; exact Fz|].
    intros g Hg. rewrite D. rewrite E. destruct N as [_ N]. apply N. exact Hg.
Qed.

(** ** Rounding a hexadecimal number *)
Lemma hex_round_value (neg : bool) d e :
  let v := (if neg then -1 else 1) * IZR (Z.of_N d) * powerRZ 2 e in
  (small v -> Finite (hex_round neg d e) /\ fR (hex_round neg d e) = rnd v /\ negative (hex_round neg d e) = neg) /\
  (~ small v -> hex_round neg d e = S754_infinity neg).
Proof.
  intros v. unfold hex_round. destruct d as [|m].
  - assert (V : v = 0) by (unfold v; cbn; ring). split.
    + intros _. cbn. rewrite V, round_0 by apply valid_rnd_N. repeat split.
    + intros N. exfalso. apply N. unfold small. rewrite V, round_0, Rabs_R0 by apply valid_rnd_N. apply bpow_gt_0.
  - pose proof (binary_round_correct fprec femax Hprec Hmax mode_NE neg m e) as K. cbv zeta in K.
    assert (Ed : F2R (Float radix2 (cond_Zopp neg (Z.pos m)) e) = v).
    { unfold F2R. cbn [Fnum Fexp]. unfold v. rewrite bpow_powerRZ2. cbn [Z.of_N]. destruct neg; cbn [cond_Zopp]; [rewrite opp_IZR|]; ring. }
    rewrite Ed in K. change (binary_round f_prec f_emax neg m e) with (SpecFloat.binary_round fprec femax neg m e).
    rewrite binary_round_equiv. destruct K as [K1 K2]. split; intros S.
    + rewrite Rlt_bool_true in K2 by exact S. destruct K2 as (K2 & K3 & K4). split; [|split; [exact K2|]].
      * clear -K1 K3. destruct (BinarySingleNaN.binary_round fprec femax mode_NE neg m e); cbn in *; auto; discriminate.
      * clear -K4 K3. destruct (BinarySingleNaN.binary_round fprec femax mode_NE neg m e); cbn in *; auto; discriminate.
    + rewrite Rlt_bool_false in K2 by (apply Rnot_lt_le; exact S). rewrite K2. destruct neg; reflexivity.
Qed.
Lemma rounded_value hex neg d p k :
  let v := numeral_value hex neg d p k in
  (small v -> Finite (rounded hex neg d p k) /\ fR (rounded hex neg d p k) = rnd v /\ negative (rounded hex neg d p k) = neg) /\
  (~ small v -> rounded hex neg d p k = S754_infinity neg).
Proof. destruct hex; [apply hex_round_value|apply dec_round_value]. Qed.
(** The characters of a number that the schema allows *)
Definition st_char (c : ascii) : bool := is_digit c || ceq c "-" || ceq c "+" || ceq c "." || ceq (lower c) "e".
Lemma digits_st t : sall is_digit t = true -> sall st_char t = true.
Proof. induction t as [|c t IH]; cbn; [reflexivity|]. rewrite !andb_true_iff. intros [D H]. unfold st_char. rewrite D. auto. Qed.
Lemma sign_st neg t : SignText neg t -> sall st_char t = true.
Proof. intros [[_ ->]|[_ [->| ->]]]; reflexivity. Qed.
Lemma st_chars t : StNumber t -> sall st_char t = true.
Proof.
  intros (neg & sg & i & pt & f & k & ex & -> & Hs & Di & Df & He & Hp). rewrite !sall_app, (sign_st neg sg Hs), (digits_st i Di).
  cbn [andb]. apply andb_true_iff. split.
  - destruct Hp as [[_ ->]|[-> _]]; [reflexivity|]. exact (digits_st f Df).
  - destruct He as [(_ & _ & ->)|(c & neg' & sg' & d & Hc & Hs' & _ & Dd & -> & _)]; [reflexivity|].
    cbn [sall]. rewrite sall_app, (sign_st neg' sg' Hs'), (digits_st d Dd). unfold st_char. rewrite Hc, ceq_refl, orb_true_r. reflexivity.
Qed.
Lemma st_numeral t : StNumber t -> exists neg d p k, Numeral false neg d p k t.
Proof.
  intros (neg & sg & i & pt & f & k & ex & -> & Hs & Di & Df & He & Hp).
  destruct Hp as [[Hi ->]|[-> Hf]].
  - do 4 eexists. apply (plain_numeral neg sg i "" "" k ex); auto. rewrite sapp_nil_r. exact Hi.
  - do 4 eexists. apply (plain_numeral neg sg i ("." +++ f) f k ex); auto. destruct i; [exact Hf|discriminate].
Qed.
