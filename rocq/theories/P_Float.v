(** * float32 arithmetic and real numbers, through Flocq *)
From Coq Require Import Reals Lra.
From Flocq Require Import Core.Core IEEE754.BinarySingleNaN.
From Verif Require Import GoBase GoFloat Types M_Core M_Geom S_Geom P_Geom.

Notation fprec := 24%Z.
Notation femax := 128%Z.
Local Instance Hprec : FLX.Prec_gt_0 fprec := eq_refl _.
Local Instance Hmax : Prec_lt_emax fprec femax := eq_refl _.
Notation B := (binary_float fprec femax).
Notation rnd := (Generic_fmt.round radix2 (SpecFloat.fexp fprec femax) (round_mode mode_NE)).
Local Open Scope R_scope.

Definition fR (x : f32) : R := SF2R radix2 x.
(** A valid float32 as a Flocq number. *)
Lemma toB x : f_valid x = true -> exists b : B, B2SF b = x.
Proof. intros H. exists (SF2B x H). apply B2SF_SF2B. Qed.
Lemma fR_B (b : B) : fR (B2SF b) = B2R b.
Proof. apply SF2R_B2SF. Qed.
Lemma finite_valid x : Finite x -> f_valid x = true.
Proof. destruct x; cbn [Finite]; try tauto; try reflexivity. Qed.
Lemma finite_B (b : B) : Finite (B2SF b) <-> is_finite b = true.
Proof.
  destruct b as [| | |s m e Hb]; cbn; try (split; [tauto|discriminate]); try (split; auto).
Qed.

(** ** The operations of SpecFloat are those of Flocq (after Flocq's PrimFloat.v) *)
Lemma round_nearest_even_equiv s m l : round_nearest_even m l = choice_mode mode_NE s m l.
Proof. case l; [reflexivity|intro c]. case c; [|reflexivity..]. cbn. unfold Round.cond_incr. now case Z.even. Qed.
Lemma binary_round_aux_equiv sx mx ex lx :
  SpecFloat.binary_round_aux fprec femax sx mx ex lx = BinarySingleNaN.binary_round_aux fprec femax mode_NE sx mx ex lx.
Proof.
  unfold SpecFloat.binary_round_aux, BinarySingleNaN.binary_round_aux. set (mrse' := shr_fexp _ _ _ _ _). case mrse'; intros mrs' e'; cbn.
  now rewrite (round_nearest_even_equiv sx).
Qed.
Lemma binary_round_equiv s m e :
  SpecFloat.binary_round fprec femax s m e = BinarySingleNaN.binary_round fprec femax mode_NE s m e.
Proof.
  unfold SpecFloat.binary_round, BinarySingleNaN.binary_round, shl_align_fexp. set (mez := shl_align _ _ _). case mez as [mz ez].
  apply binary_round_aux_equiv.
Qed.
Lemma binary_normalize_equiv m e szero :
  SpecFloat.binary_normalize fprec femax m e szero
  = B2SF (BinarySingleNaN.binary_normalize fprec femax Hprec Hmax mode_NE m e szero).
Proof.
  case m as [|p|p].
  - reflexivity.
  - simpl. rewrite B2SF_SF2B. apply binary_round_equiv.
  - simpl. rewrite B2SF_SF2B. apply binary_round_equiv.
Qed.
Lemma fmul_equiv (x y : B) : fmul (B2SF x) (B2SF y) = B2SF (Bmult mode_NE x y).
Proof.
  unfold fmul. destruct x as [sx|sx| |sx mx ex Hx], y as [sy|sy| |sy my ey Hy]; try reflexivity.
  cbn [B2SF SFmul Bmult]. rewrite B2SF_SF2B. apply binary_round_aux_equiv.
Qed.
Lemma fadd_equiv (x y : B) : fadd (B2SF x) (B2SF y) = B2SF (Bplus mode_NE x y).
Proof.
  unfold fadd. destruct x as [sx|sx| |sx mx ex Hx], y as [sy|sy| |sy my ey Hy]; try reflexivity;
    try (cbn; destruct (Bool.eqb sx sy); reflexivity).
  cbn [B2SF SFadd Bplus]. apply binary_normalize_equiv.
Qed.
Lemma fdiv_equiv (x y : B) : fdiv (B2SF x) (B2SF y) = B2SF (Bdiv mode_NE x y).
Proof.
  unfold fdiv. destruct x as [sx|sx| |sx mx ex Hx], y as [sy|sy| |sy my ey Hy]; try reflexivity.
  cbn [B2SF SFdiv Bdiv]. rewrite B2SF_SF2B.
  set (melz := SFdiv_core_binary _ _ _ _ _ _). case melz as [[mz ez] lz]. apply binary_round_aux_equiv.
Qed.

Definition small (r : R) : Prop := Rabs (rnd r) < bpow radix2 128.
Lemma fmul_correct x y : Finite x -> Finite y -> small (fR x * fR y) ->
  Finite (fmul x y) /\ fR (fmul x y) = rnd (fR x * fR y).
Proof.
  intros Hx Hy. destruct (toB x (finite_valid x Hx)) as (bx & <-), (toB y (finite_valid y Hy)) as (b_y & <-).
  rewrite fmul_equiv, !fR_B, finite_B. intros Hs. apply finite_B in Hx, Hy.
  pose proof (Bmult_correct fprec femax Hprec Hmax mode_NE bx b_y) as H. rewrite Rlt_bool_true in H by exact Hs.
  destruct H as (H1 & H2 & _). rewrite H2, Hx, Hy. auto.
Qed.
Lemma fmul_finite x y : Finite x -> Finite y -> Finite (fmul x y) -> small (fR x * fR y).
Proof.
  intros Hx Hy. destruct (toB x (finite_valid x Hx)) as (bx & <-), (toB y (finite_valid y Hy)) as (b_y & <-).
  rewrite fmul_equiv, !fR_B. intros Hs. unfold small.
  pose proof (Bmult_correct fprec femax Hprec Hmax mode_NE bx b_y) as H.
  revert H. case Rlt_bool_spec; [auto|]. intros _ H. rewrite H in Hs. destruct (xorb _ _); destruct Hs.
Qed.
Lemma fadd_correct x y : Finite x -> Finite y -> small (fR x + fR y) ->
  Finite (fadd x y) /\ fR (fadd x y) = rnd (fR x + fR y).
Proof.
  intros Hx Hy. destruct (toB x (finite_valid x Hx)) as (bx & <-), (toB y (finite_valid y Hy)) as (b_y & <-).
  rewrite fadd_equiv, !fR_B, finite_B. intros Hs. apply finite_B in Hx, Hy.
  pose proof (Bplus_correct fprec femax Hprec Hmax mode_NE bx b_y Hx Hy) as H. rewrite Rlt_bool_true in H by exact Hs.
  destruct H as (H1 & H2 & _). auto.
Qed.
Lemma fadd_finite x y : Finite x -> Finite y -> Finite (fadd x y) -> small (fR x + fR y).
Proof.
  intros Hx Hy. destruct (toB x (finite_valid x Hx)) as (bx & <-), (toB y (finite_valid y Hy)) as (b_y & <-).
  rewrite fadd_equiv, !fR_B. intros Hs. unfold small. apply finite_B in Hx, Hy.
  pose proof (Bplus_correct fprec femax Hprec Hmax mode_NE bx b_y Hx Hy) as H.
  revert H. case Rlt_bool_spec; [auto|]. intros _ [H _]. rewrite H in Hs. destruct (Bsign _); destruct Hs.
Qed.
Lemma fadd_operands x y : f_valid x = true -> f_valid y = true -> Finite (fadd x y) -> Finite x /\ Finite y.
Proof.
  intros Vx Vy. destruct x as [|s| |], y as [|s'| |]; cbn [Finite]; auto; try (intros []; fail);
    unfold fadd; cbn; try destruct (Bool.eqb s s'); cbn; tauto.
Qed.
Lemma fmul_valid x y : f_valid x = true -> f_valid y = true -> f_valid (fmul x y) = true.
Proof.
  intros Hx Hy. destruct (toB x Hx) as (bx & <-), (toB y Hy) as (b_y & <-). rewrite fmul_equiv. apply valid_binary_B2SF.
Qed.
Lemma fadd_valid x y : f_valid x = true -> f_valid y = true -> f_valid (fadd x y) = true.
Proof.
  intros Hx Hy. destruct (toB x Hx) as (bx & <-), (toB y Hy) as (b_y & <-). rewrite fadd_equiv. apply valid_binary_B2SF.
Qed.
Lemma fdiv_correct x y : Finite x -> Finite y -> fR y <> 0 -> small (fR x / fR y) ->
  Finite (fdiv x y) /\ fR (fdiv x y) = rnd (fR x / fR y).
Proof.
  intros Hx Hy. destruct (toB x (finite_valid x Hx)) as (bx & <-), (toB y (finite_valid y Hy)) as (b_y & <-).
  rewrite fdiv_equiv, !fR_B, finite_B. intros Hn Hs. apply finite_B in Hx, Hy.
  pose proof (Bdiv_correct fprec femax Hprec Hmax mode_NE bx b_y Hn) as H. rewrite Rlt_bool_true in H by exact Hs.
  destruct H as (H1 & H2 & _). rewrite H2. auto.
Qed.
Lemma Le_R x y : Finite x -> Finite y -> Le x y <-> fR x <= fR y.
Proof.
  intros Hx Hy. destruct (toB x (finite_valid x Hx)) as (bx & <-), (toB y (finite_valid y Hy)) as (b_y & <-).
  apply finite_B in Hx, Hy. rewrite !fR_B. pose proof (Bleb_correct fprec femax bx b_y Hx Hy) as H.
  unfold Bleb in H. unfold Le, fleb. rewrite H. split.
  - intros E. revert E. case Rle_bool_spec; [auto|discriminate].
  - intros E. apply Rle_bool_true; exact E.
Qed.

Lemma rnd_le a b : a <= b -> rnd a <= rnd b.
Proof. intros H. apply round_le; [apply fexp_correct; reflexivity|apply valid_rnd_round_mode|exact H]. Qed.
Lemma small_between a b c : a <= b <= c -> small a -> small c -> small b.
Proof.
  unfold small. intros [H1 H2] Ha Hc. apply rnd_le in H1, H2.
  apply Rabs_lt_inv in Ha, Hc. apply Rabs_lt. lra.
Qed.

(** ** Monotonicity *)
(** [x] is between [l] and [h] (finite floats) *)
Definition btw (l x h : f32) : Prop := Finite x /\ fR l <= fR x <= fR h.
Lemma fmul_mono a l x h : Finite a -> 0 <= fR a -> Finite l -> Finite h -> btw l x h ->
  Finite (fmul a l) -> Finite (fmul a h) -> btw (fmul a l) (fmul a x) (fmul a h).
Proof.
  intros Ha Hp Hl Hh (Hx & H1 & H2) Fl Fh.
  pose proof (fmul_finite _ _ Ha Hl Fl) as Sl. pose proof (fmul_finite _ _ Ha Hh Fh) as Sh.
  assert (K1 : fR a * fR l <= fR a * fR x) by (apply Rmult_le_compat_l; assumption).
  assert (K2 : fR a * fR x <= fR a * fR h) by (apply Rmult_le_compat_l; assumption).
  assert (Sx : small (fR a * fR x)) by (eapply small_between; [split; [exact K1|exact K2]|assumption|assumption]).
  destruct (fmul_correct _ _ Ha Hl Sl) as [_ El]. destruct (fmul_correct _ _ Ha Hh Sh) as [_ Eh].
  destruct (fmul_correct _ _ Ha Hx Sx) as [Fx Ex]. split; [exact Fx|]. rewrite Ex, El, Eh. split; apply rnd_le; assumption.
Qed.
Lemma fmul_anti a l x h : Finite a -> fR a <= 0 -> Finite l -> Finite h -> btw l x h ->
  Finite (fmul a l) -> Finite (fmul a h) -> btw (fmul a h) (fmul a x) (fmul a l).
Proof.
  intros Ha Hp Hl Hh (Hx & H1 & H2) Fl Fh.
  pose proof (fmul_finite _ _ Ha Hl Fl) as Sl. pose proof (fmul_finite _ _ Ha Hh Fh) as Sh.
  assert (K1 : fR a * fR x <= fR a * fR l) by (apply Rmult_le_compat_neg_l; assumption).
  assert (K2 : fR a * fR h <= fR a * fR x) by (apply Rmult_le_compat_neg_l; assumption).
  assert (Sx : small (fR a * fR x)) by (eapply small_between; [split; [exact K2|exact K1]|assumption|assumption]).
  destruct (fmul_correct _ _ Ha Hl Sl) as [_ El]. destruct (fmul_correct _ _ Ha Hh Sh) as [_ Eh].
  destruct (fmul_correct _ _ Ha Hx Sx) as [Fx Ex]. split; [exact Fx|]. rewrite Ex, El, Eh. split; apply rnd_le; assumption.
Qed.
Lemma fadd_mono l x h l' x' h' : Finite l -> Finite h -> Finite l' -> Finite h' ->
  btw l x h -> btw l' x' h' -> Finite (fadd l l') -> Finite (fadd h h') -> btw (fadd l l') (fadd x x') (fadd h h').
Proof.
  intros Hl Hh Hl' Hh' (Hx & H1 & H2) (Hx' & H1' & H2') Fl Fh.
  pose proof (fadd_finite _ _ Hl Hl' Fl) as Sl. pose proof (fadd_finite _ _ Hh Hh' Fh) as Sh.
  assert (Sx : small (fR x + fR x')).
  { apply (small_between (fR l + fR l') _ (fR h + fR h')); [lra|assumption|assumption]. }
  destruct (fadd_correct _ _ Hl Hl' Sl) as [_ El]. destruct (fadd_correct _ _ Hh Hh' Sh) as [_ Eh].
  destruct (fadd_correct _ _ Hx Hx' Sx) as [Fx Ex]. split; [exact Fx|]. rewrite Ex, El, Eh. split; apply rnd_le; lra.
Qed.
Lemma dot4_finite a x b y c z d : Finite a -> Finite x -> Finite b -> Finite y -> Finite c -> Finite z -> Finite d ->
  Finite (dot4 a x b y c z d) ->
  Finite (fmul a x) /\ Finite (fmul b y) /\ Finite (fmul c z) /\ Finite (fadd (fmul a x) (fmul b y)) /\
  Finite (fadd (fadd (fmul a x) (fmul b y)) (fmul c z)).
Proof.
  intros Ha Hx Hb Hy Hc Hz Hd H. unfold dot4 in H.
  assert (V1 := fmul_valid a x (finite_valid _ Ha) (finite_valid _ Hx)).
  assert (V2 := fmul_valid b y (finite_valid _ Hb) (finite_valid _ Hy)).
  assert (V3 := fmul_valid c z (finite_valid _ Hc) (finite_valid _ Hz)).
  assert (V4 := fadd_valid _ _ V1 V2). assert (V5 := fadd_valid _ _ V4 V3).
  destruct (fadd_operands _ _ V5 (finite_valid _ Hd) H) as [F5 _].
  destruct (fadd_operands _ _ V4 V3 F5) as [F4 F3]. destruct (fadd_operands _ _ V1 V2 F4) as [F1 F2]. auto.
Qed.
Lemma dot4_between a b c d xl x xh yl y yh zl z zh :
  Finite a -> Finite b -> Finite c -> Finite d -> RowSigns a b c ->
  Finite xl -> Finite xh -> Finite yl -> Finite yh -> Finite zl -> Finite zh ->
  btw xl x xh -> btw yl y yh -> btw zl z zh ->
  Finite (dot4 a xl b yl c zl d) -> Finite (dot4 a xh b yh c zh d) ->
  btw (dot4 a xl b yl c zl d) (dot4 a x b y c z d) (dot4 a xh b yh c zh d) \/
  btw (dot4 a xh b yh c zh d) (dot4 a x b y c z d) (dot4 a xl b yl c zl d).
Proof.
  intros Ha Hb Hc Hd Hs Hxl Hxh Hyl Hyh Hzl Hzh Bx By Bz Fl Fh.
  destruct (dot4_finite a xl b yl c zl d) as (L1 & L2 & L3 & L4 & L5); auto.
  destruct (dot4_finite a xh b yh c zh d) as (U1 & U2 & U3 & U4 & U5); auto.
  assert (Bd : btw d d d) by (split; [exact Hd|lra]).
  assert (Z : fR f_zero = 0) by reflexivity.
  destruct Hs as [(S1 & S2 & S3)|(S1 & S2 & S3)]; apply Le_R in S1, S2, S3; try assumption; try exact I; rewrite Z in S1, S2, S3.
  - left. unfold dot4 in *. repeat (apply fadd_mono; try assumption); apply fmul_mono; assumption.
  - right. unfold dot4 in *. repeat (apply fadd_mono; try assumption); apply fmul_anti; assumption.
Qed.
Lemma btw_of_Le l x h : Finite l -> Finite h -> Finite x -> Le l x -> Le x h -> btw l x h.
Proof. intros Hl Hh Hx H1 H2. apply Le_R in H1, H2; auto. split; auto. Qed.
Lemma btw_Le l x h : Finite l -> Finite h -> btw l x h -> Le l x /\ Le x h.
Proof. intros Hl Hh (Hx & H1 & H2). split; apply Le_R; auto. Qed.
Lemma fltb_R x y : Finite x -> Finite y -> fltb x y = true <-> fR x < fR y.
Proof.
  intros Hx Hy. destruct (toB x (finite_valid x Hx)) as (bx & <-), (toB y (finite_valid y Hy)) as (b_y & <-).
  apply finite_B in Hx, Hy. rewrite !fR_B. pose proof (Bltb_correct fprec femax bx b_y Hx Hy) as H.
  unfold Bltb in H. unfold fltb. rewrite H. split.
  - intros E. revert E. case Rlt_bool_spec; [auto|discriminate].
  - intros E. apply Rlt_bool_true; exact E.
Qed.
(** Sorting the two corner values *)
Lemma sorted_between l x h : Finite l -> Finite h -> btw l x h \/ btw h x l ->
  Le (if fltb h l then h else l) x /\ Le x (if fltb h l then l else h).
Proof.
  intros Hl Hh H. destruct (fltb h l) eqn:E.
  - apply fltb_R in E; auto. apply btw_Le; auto. destruct H as [(F & H1 & H2)|H]; [exfalso; lra|exact H].
  - assert (E' : ~ fR h < fR l) by (intros K; apply fltb_R in K; auto; congruence).
    apply btw_Le; auto. destruct H as [H|(F & H1 & H2)]; [exact H|]. split; [exact F|lra].
Qed.
Lemma mul_box_contains t b p : feqb (m15 t) f_zero = false -> FiniteMatrix t ->
  RowSigns (m0 t) (m4 t) (m8 t) -> RowSigns (m1 t) (m5 t) (m9 t) -> RowSigns (m2 t) (m6 t) (m10 t) ->
  FinitePoint (bmin b) -> FinitePoint (bmax b) -> FinitePoint p -> Inside p b ->
  FinitePoint (mul3d t (bmin b)) -> FinitePoint (mul3d t (bmax b)) ->
  Inside (mul3d t p) (mul_box t b).
Proof.
  intros H15 (F0&F1&F2&F4&F5&F6&F8&F9&F10&F12&F13&F14) R0 R1 R2 (Xl&Yl&Zl) (Xh&Yh&Zh) (Xp&Yp&Zp)
    ((Hx1&Hx2)&(Hy1&Hy2)&(Hz1&Hz2)) (Lx&Ly&Lz) (Ux&Uy&Uz).
  assert (Bx := btw_of_Le _ _ _ Xl Xh Xp Hx1 Hx2). assert (By := btw_of_Le _ _ _ Yl Yh Yp Hy1 Hy2).
  assert (Bz := btw_of_Le _ _ _ Zl Zh Zp Hz1 Hz2).
  unfold mul_box. rewrite H15. unfold Inside.
  pose proof (dot4_between (m0 t) (m4 t) (m8 t) (m12 t) _ _ _ _ _ _ _ _ _ F0 F4 F8 F12 R0 Xl Xh Yl Yh Zl Zh Bx By Bz Lx Ux) as K0.
  pose proof (dot4_between (m1 t) (m5 t) (m9 t) (m13 t) _ _ _ _ _ _ _ _ _ F1 F5 F9 F13 R1 Xl Xh Yl Yh Zl Zh Bx By Bz Ly Uy) as K1.
  pose proof (dot4_between (m2 t) (m6 t) (m10 t) (m14 t) _ _ _ _ _ _ _ _ _ F2 F6 F10 F14 R2 Xl Xh Yl Yh Zl Zh Bx By Bz Lz Uz) as K2.
  apply sorted_between in K0; [|exact Lx|exact Ux]. apply sorted_between in K1; [|exact Ly|exact Uy].
  apply sorted_between in K2; [|exact Lz|exact Uz]. unfold mul3d in *. cbn [px py pz] in *.
  destruct (fltb (dot4 (m0 t) _ _ _ _ _ _) (dot4 (m0 t) _ _ _ _ _ _)),
    (fltb (dot4 (m1 t) _ _ _ _ _ _) (dot4 (m1 t) _ _ _ _ _ _)),
    (fltb (dot4 (m2 t) _ _ _ _ _ _) (dot4 (m2 t) _ _ _ _ _ _)); cbn [bmin bmax px py pz]; auto.
Qed.

(** ** The identity matrix *)
Lemma rnd_fR x : Finite x -> rnd (fR x) = fR x.
Proof.
  intros Hx. destruct (toB x (finite_valid x Hx)) as (b & <-). rewrite fR_B.
  apply round_generic; [apply valid_rnd_round_mode|apply generic_format_B2R].
Qed.
Lemma small_fR x : Finite x -> small (fR x).
Proof.
  intros Hx. unfold small. rewrite (rnd_fR x Hx). destruct (toB x (finite_valid x Hx)) as (b & <-). rewrite fR_B.
  apply abs_B2R_lt_emax.
Qed.
Lemma fR_zero s : fR (S754_zero s) = 0.
Proof. reflexivity. Qed.
Lemma fR_one : fR f_one = 1.
Proof. unfold fR, f_one, SF2R, F2R. cbn [cond_Zopp Fnum Fexp]. change (bpow radix2 (-23)) with (/ 8388608). lra. Qed.
Lemma fmul_zero x : Finite x -> Finite (fmul f_zero x) /\ fR (fmul f_zero x) = 0.
Proof.
  intros Hx. assert (S : small (fR f_zero * fR x)).
  { change (fR f_zero) with 0. rewrite Rmult_0_l. apply (small_fR f_zero). exact I. }
  destruct (fmul_correct f_zero x I Hx S) as [F E]. split; [exact F|]. rewrite E. change (fR f_zero) with 0. rewrite Rmult_0_l.
  apply round_0. apply valid_rnd_round_mode.
Qed.
Lemma fmul_one x : Finite x -> Finite (fmul f_one x) /\ fR (fmul f_one x) = fR x.
Proof.
  intros Hx. assert (F1 : Finite f_one) by reflexivity.
  assert (S : small (fR f_one * fR x)) by (rewrite fR_one, Rmult_1_l; apply small_fR; exact Hx).
  destruct (fmul_correct f_one x F1 Hx S) as [F E]. split; [exact F|]. rewrite E, fR_one, Rmult_1_l. apply rnd_fR; exact Hx.
Qed.
Lemma fadd_zero_r x y : Finite x -> Finite y -> fR y = 0 -> Finite (fadd x y) /\ fR (fadd x y) = fR x.
Proof.
  intros Hx Hy E. assert (S : small (fR x + fR y)) by (rewrite E, Rplus_0_r; apply small_fR; exact Hx).
  destruct (fadd_correct x y Hx Hy S) as [F E']. split; [exact F|]. rewrite E', E, Rplus_0_r. apply rnd_fR; exact Hx.
Qed.
Lemma fadd_zero_l x y : Finite x -> Finite y -> fR x = 0 -> Finite (fadd x y) /\ fR (fadd x y) = fR y.
Proof.
  intros Hx Hy E. assert (S : small (fR x + fR y)) by (rewrite E, Rplus_0_l; apply small_fR; exact Hy).
  destruct (fadd_correct x y Hx Hy S) as [F E']. split; [exact F|]. rewrite E', E, Rplus_0_l. apply rnd_fR; exact Hy.
Qed.
Lemma identity_point p : FinitePoint p -> 
  FinitePoint (mul3d identity p) /\ fR (px (mul3d identity p)) = fR (px p) /\
  fR (py (mul3d identity p)) = fR (py p) /\ fR (pz (mul3d identity p)) = fR (pz p).
Proof.
  intros (Hx & Hy & Hz). unfold mul3d, identity, dot4. cbn [m0 m1 m2 m4 m5 m6 m8 m9 m10 m12 m13 m14 px py pz].
  destruct p as [x y z]; cbn [px py pz] in *.
  destruct (fmul_one x Hx) as [A1 A2], (fmul_one y Hy) as [B1 B2], (fmul_one z Hz) as [C1 C2].
  destruct (fmul_zero x Hx) as [D1 D2], (fmul_zero y Hy) as [E1 E2], (fmul_zero z Hz) as [G1 G2].
  destruct (fadd_zero_r _ _ A1 E1 E2) as [X1 X2]. destruct (fadd_zero_r _ _ X1 G1 G2) as [X3 X4].
  destruct (fadd_zero_r _ f_zero X3 I (fR_zero false)) as [X5 X6].
  destruct (fadd_zero_l _ _ D1 B1 D2) as [Y1 Y2]. destruct (fadd_zero_r _ _ Y1 G1 G2) as [Y3 Y4].
  destruct (fadd_zero_r _ f_zero Y3 I (fR_zero false)) as [Y5 Y6].
  destruct (fadd_zero_r _ _ D1 E1 E2) as [Z1 Z2]. rewrite D2 in Z2. destruct (fadd_zero_l _ _ Z1 C1 Z2) as [Z3 Z4].
  destruct (fadd_zero_r _ f_zero Z3 I (fR_zero false)) as [Z5 Z6].
  split; [split; [exact X5|split; [exact Y5|exact Z5]]|]. cbn [px py pz].
  rewrite X6, X4, X2, Y6, Y4, Y2, Z6, Z4. auto.
Qed.
Lemma NumEq_R x y : Finite x -> Finite y -> fR x = fR y -> NumEq x y.
Proof. intros Hx Hy E. split; apply Le_R; auto; lra. Qed.
Lemma identity_box b : FinitePoint (bmin b) -> FinitePoint (bmax b) ->
  Le (px (bmin b)) (px (bmax b)) -> Le (py (bmin b)) (py (bmax b)) -> Le (pz (bmin b)) (pz (bmax b)) ->
  NumEqBox (mul_box identity b) b.
Proof.
  intros Hl Hh X Y Z.
  destruct (identity_point _ Hl) as ((Lx & Ly & Lz) & Ex & Ey & Ez).
  destruct (identity_point _ Hh) as ((Ux & Uy & Uz) & Fx & Fy & Fz).
  destruct Hl as (Hlx & Hly & Hlz), Hh as (Hhx & Hhy & Hhz).
  apply Le_R in X, Y, Z; auto.
  unfold mul_box. change (feqb (m15 identity) f_zero) with false. cbv iota zeta.
  assert (K : forall l h, Finite l -> Finite h -> fR l <= fR h -> fltb h l = false).
  { intros l h H1 H2 H3. destruct (fltb h l) eqn:E; [|reflexivity]. apply fltb_R in E; auto. lra. }
  rewrite !K by (auto; lra). split; (split; [|split]); cbn [bmin bmax px py pz]; apply NumEq_R; auto.
Qed.

(** ** Grid cells *)
Lemma finite_emin s m e : f_valid (S754_finite s m e) = true -> (-149 <= e)%Z.
Proof.
  unfold f_valid; cbn [valid_binary]. unfold SpecFloat.bounded. rewrite andb_true_iff. intros [H1 _].
  unfold SpecFloat.canonical_mantissa, SpecFloat.fexp, f_prec, f_emax in H1. apply Zeq_is_eq_bool in H1.
  unfold SpecFloat.emin in H1. lia.
Qed.
Lemma scaled_R x : Finite x -> IZR (scaled x) = fR x * bpow radix2 149.
Proof.
  destruct x as [s|s| |s m e]; cbn [Finite]; intros H; try contradiction.
  - cbn [scaled]. rewrite fR_zero. lra.
  - apply finite_emin in H. unfold scaled, fR, SF2R, F2R. cbn [Fnum Fexp].
    rewrite mult_IZR. change 2%Z with (radix_val radix2). rewrite IZR_Zpower by lia. rewrite bpow_plus, Rmult_assoc.
    f_equal.
Qed.
Lemma IsFloor_R q z : IsFloor q z -> IZR z <= fR q < IZR z + 1.
Proof.
  destruct q as [s|s| |s m e]; cbn [IsFloor]; try tauto.
  - intros ->. rewrite fR_zero. lra.
  - assert (E : fR (S754_finite s m e) = IZR (if s then Zneg m else Zpos m) * bpow radix2 e).
    { unfold fR, SF2R, F2R. cbn [Fnum Fexp]. destruct s; reflexivity. }
    rewrite E. set (v := if s then Zneg m else Zpos m).
    destruct (Z.leb_spec 0 e) as [He|He].
    + intros ->. rewrite mult_IZR. change 2%Z with (radix_val radix2). rewrite IZR_Zpower by exact He. lra.
    + intros [H1 H2]. apply IZR_le in H1. apply IZR_lt in H2. rewrite mult_IZR in H1, H2.
      change 2%Z with (radix_val radix2) in H1, H2. rewrite IZR_Zpower in H1, H2 by lia. rewrite plus_IZR in H2.
      assert (P : bpow radix2 (- e) * bpow radix2 e = 1).
      { rewrite <- bpow_plus. replace (- e + e)%Z with 0%Z by lia. reflexivity. }
      pose proof (bpow_gt_0 radix2 e) as Pe. split.
      * apply (Rmult_le_compat_r _ _ _ (Rlt_le _ _ Pe)) in H1. rewrite Rmult_assoc, P in H1. lra.
      * apply (Rmult_lt_compat_r _ _ _ Pe) in H2. rewrite Rmult_assoc, P in H2. lra.
Qed.
Lemma floor_exists q : Finite q -> exists z, IsFloor q z.
Proof.
  intros H. destruct (floorZ q) as [z|] eqn:E; [exists z; apply floorZ_spec; exact E|].
  destruct q; cbn in *; try contradiction; discriminate.
Qed.
Lemma micron_R : fR micron = 8796093 * / 8796093022208.
Proof. unfold fR, micron, SF2R, F2R. cbn [cond_Zopp Fnum Fexp]. reflexivity. Qed.
Lemma bpow24 : bpow radix2 24 = 16777216.
Proof. reflexivity. Qed.

(** The rounding error of a quotient below 2^24 is at most one half. *)
Lemma rnd_error r : Rabs r < 16777216 -> Rabs (rnd r - r) <= / 2.
Proof.
  intros H.
  assert (V : Valid_exp (SpecFloat.fexp fprec femax)) by (apply fexp_correct; reflexivity).
  destruct (Req_dec r 0) as [->|Hr].
  { rewrite round_0 by apply valid_rnd_round_mode. rewrite Rminus_0_r, Rabs_R0. lra. }
  eapply Rle_trans; [apply (error_le_half_ulp radix2 (SpecFloat.fexp fprec femax) (fun x => negb (Z.even x)) r)|].
  rewrite ulp_neq_0 by exact Hr. assert (cexp radix2 (SpecFloat.fexp fprec femax) r <= 0)%Z.
  { unfold cexp. assert (mag radix2 r <= 24)%Z by (apply mag_le_bpow; [exact Hr|rewrite bpow24; exact H]).
    unfold SpecFloat.fexp, SpecFloat.emin. lia. }
  apply (bpow_le radix2) in H0. change (bpow radix2 0) with 1 in H0. lra.
Qed.
Lemma within16_R x : Finite x -> Within16 x -> Rabs (fR x) <= 16.
Proof.
  intros Hx H. unfold Within16 in H. apply IZR_le in H. rewrite abs_IZR, (scaled_R x Hx), mult_IZR in H.
  change 2%Z with (radix_val radix2) in H. rewrite IZR_Zpower in H by lia.
  rewrite Rabs_mult in H. pose proof (bpow_gt_0 radix2 149) as P. rewrite (Rabs_pos_eq (bpow radix2 149)) in H by lra.
  apply Rmult_le_reg_r with (bpow radix2 149); assumption.
Qed.
Lemma quotient_R x : Finite x -> Within16 x ->
  Finite (fdiv x micron) /\ Rabs (fR (fdiv x micron) - fR x / fR micron) <= / 2 /\ Rabs (fR x / fR micron) < 16777215.
Proof.
  intros Hx Hw. apply within16_R in Hw; [|exact Hx].
  assert (Hm : fR micron <> 0) by (rewrite micron_R; lra).
  assert (Hq : Rabs (fR x / fR micron) < 16777215).
  { unfold Rdiv. rewrite Rabs_mult, micron_R. rewrite (Rabs_pos_eq (/ _)).
    - replace (/ (8796093 * / 8796093022208)) with (8796093022208 / 8796093) by (field; lra). lra.
    - left. apply Rinv_0_lt_compat. lra. }
  assert (He := rnd_error (fR x / fR micron) ltac:(lra)).
  assert (Hs : small (fR x / fR micron)).
  { unfold small. apply Rle_lt_trans with 16777216.
    - apply Rabs_le. apply Rabs_le_inv in He. apply Rabs_lt_inv in Hq. lra.
    - rewrite <- bpow24. apply bpow_lt. lia. }
  destruct (fdiv_correct x micron Hx eq_refl Hm Hs) as [F E]. rewrite E. auto.
Qed.
Lemma apart_R n x y : Finite x -> Finite y -> ApartMicrons n x y -> IZR n / 1000000 < Rabs (fR x - fR y).
Proof.
  intros Hx Hy H. unfold ApartMicrons in H. apply IZR_lt in H. rewrite !mult_IZR, abs_IZR, minus_IZR, !scaled_R in H by assumption.
  change 2%Z with (radix_val radix2) in H. rewrite IZR_Zpower in H by lia.
  replace (fR x * bpow radix2 149 - fR y * bpow radix2 149) with ((fR x - fR y) * bpow radix2 149) in H by ring.
  pose proof (bpow_gt_0 radix2 149) as P. rewrite Rabs_mult, (Rabs_pos_eq (bpow radix2 149)) in H by lra.
  rewrite <- Rmult_assoc in H. apply Rmult_lt_reg_r in H; [|exact P]. lra.
Qed.
Lemma cell_apart oor x y z : Finite x -> Finite y -> Within16 x -> Within16 y -> ApartMicrons 2 x y ->
  CellIndex oor x z -> CellIndex oor y z -> False.
Proof.
  intros Hx Hy Wx Wy Ha Cx Cy. apply apart_R in Ha; auto.
  destruct (quotient_R x Hx Wx) as (Fx & Ex & Bx). destruct (quotient_R y Hy Wy) as (Fy & Ey & By).
  assert (K : forall u, Finite u -> CellIndex oor u z -> Finite (fdiv u micron) ->
     Rabs (fR (fdiv u micron) - fR u / fR micron) <= / 2 -> Rabs (fR u / fR micron) < 16777215 ->
     IZR z <= fR (fdiv u micron) < IZR z + 1).
  { intros u Hu Cu Fu Eu Bu. unfold CellIndex in Cu. change (S754_finite false 8796093 (-43)) with micron in Cu.
    destruct Cu as [(f & Hf & _ & ->)|[Hn _]]; [apply IsFloor_R; exact Hf|]. exfalso.
    destruct (floor_exists _ Fu) as (f & Hf). apply (Hn f Hf). apply IsFloor_R in Hf.
    apply Rabs_le_inv in Eu. apply Rabs_lt_inv in Bu. unfold Int32.
    assert (IZR f < IZR 16777217) by lra. assert (IZR (-16777217) < IZR f) by lra.
    apply lt_IZR in H, H0. lia. }
  pose proof (K x Hx Cx Fx Ex Bx) as Kx. pose proof (K y Hy Cy Fy Ey By) as Ky. clear K.
  assert (D : 2 < Rabs (fR x / fR micron - fR y / fR micron)).
  { replace (fR x / fR micron - fR y / fR micron) with ((fR x - fR y) * / fR micron) by (unfold Rdiv; ring).
    rewrite Rabs_mult, micron_R. rewrite (Rabs_pos_eq (/ _)).
    - replace (/ (8796093 * / 8796093022208)) with (8796093022208 / 8796093) by (field; lra). lra.
    - left. apply Rinv_0_lt_compat. lra. }
  apply Rabs_le_inv in Ex, Ey. revert D. unfold Rabs. destruct (Rcase_abs _); lra.
Qed.
