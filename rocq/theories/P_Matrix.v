(** * Proofs about matrix products *)
From Coq Require Import ZArith Reals Lra Lia.
From Flocq Require Import Core.Core IEEE754.BinarySingleNaN.
From Verif Require Import GoBase GoFloat Types M_Core M_Geom S_Geom P_Geom P_Float S_Strconv P_Strconv S_Matrix M_Matrix.
Local Open Scope R_scope.

(** ** Exact operations *)
Lemma fmul_exact x y z : Finite x -> Finite y -> Finite z -> fR x * fR y = fR z ->
  Finite (fmul x y) /\ fR (fmul x y) = fR z.
Proof.
  intros Fx Fy Fz E. destruct (fmul_correct x y Fx Fy) as [F H]; [rewrite E; apply small_fR; exact Fz|].
  split; [exact F|]. rewrite H, E. apply rnd_fR. exact Fz.
Qed.
Lemma fadd_exact x y z : Finite x -> Finite y -> Finite z -> fR x + fR y = fR z ->
  Finite (fadd x y) /\ fR (fadd x y) = fR z.
Proof.
  intros Fx Fy Fz E. destruct (fadd_correct x y Fx Fy) as [F H]; [rewrite E; apply small_fR; exact Fz|].
  split; [exact F|]. rewrite H, E. apply rnd_fR. exact Fz.
Qed.
(** Integers up to 2^24 are float32s *)
Definition fits (n : Z) : Prop := (Z.abs n <= 16777216)%Z.
Lemma rnd_int n : fits n -> rnd (IZR n) = IZR n.
Proof.
  intros H. apply round_generic; [apply valid_rnd_N|].
  destruct (Z.eq_dec (Z.abs n) 16777216) as [E|E].
  - assert (G : generic_format radix2 (SpecFloat.fexp fprec femax) (bpow radix2 24)) by (apply generic_format_bpow; vm_compute; discriminate).
    destruct (Z.le_gt_cases 0 n) as [P|P].
    + replace (IZR n) with (bpow radix2 24) by (cbn; f_equal; lia). exact G.
    + replace (IZR n) with (- bpow radix2 24) by (cbn; rewrite <- opp_IZR; f_equal; lia). apply generic_format_opp. exact G.
  - replace (IZR n) with (F2R (Float radix2 n 0)) by (unfold F2R; cbn; ring).
    destruct (Z.eq_dec n 0) as [->|N0]; [rewrite F2R_0; apply generic_format_0|].
    apply generic_format_F2R. intros _. unfold cexp, SpecFloat.fexp, SpecFloat.emin.
    assert (M : (Core.Raux.mag radix2 (F2R (Float radix2 n 0)) <= 24)%Z).
    { apply mag_le_bpow; [intros X; apply eq_0_F2R in X; contradiction|].
      unfold F2R. cbn [Fnum Fexp]. change (bpow radix2 0) with 1. rewrite Rmult_1_r, <- abs_IZR, bpow24. apply IZR_lt. unfold fits in H. lia. }
    lia.
Qed.
Lemma small_int n : fits n -> small (IZR n).
Proof.
  intros H. unfold small. rewrite rnd_int by exact H. rewrite <- abs_IZR. apply Rle_lt_trans with 16777216; [apply IZR_le; exact H|].
  rewrite <- bpow24. apply bpow_lt. lia.
Qed.
Lemma whole_R x n : Whole x n <-> Finite x /\ fR x = IZR n.
Proof. unfold Whole. rewrite value_fR. tauto. Qed.
Lemma whole_mul x y n k : Whole x n -> Whole y k -> fits (n * k) -> Whole (fmul x y) (n * k).
Proof.
  rewrite !whole_R. intros [Fx Ex] [Fy Ey] H.
  destruct (fmul_correct x y Fx Fy) as [F E]; [rewrite Ex, Ey, <- mult_IZR; apply small_int; exact H|].
  split; [exact F|]. rewrite E, Ex, Ey, <- mult_IZR. apply rnd_int. exact H.
Qed.
Lemma whole_add x y n k : Whole x n -> Whole y k -> fits (n + k) -> Whole (fadd x y) (n + k).
Proof.
  rewrite !whole_R. intros [Fx Ex] [Fy Ey] H.
  destruct (fadd_correct x y Fx Fy) as [F E]; [rewrite Ex, Ey, <- plus_IZR; apply small_int; exact H|].
  split; [exact F|]. rewrite E, Ex, Ey, <- plus_IZR. apply rnd_int. exact H.
Qed.
Lemma abs_mul_le a b x y : (Z.abs x <= a -> Z.abs y <= b -> Z.abs (x * y) <= a * b)%Z.
Proof. intros H1 H2. rewrite Z.abs_mul. apply Z.mul_le_mono_nonneg; lia. Qed.
Lemma whole_dot4w a x b y c z d w na nx nb ny nc nz nd nw (B C : Z) :
  Whole a na -> Whole x nx -> Whole b nb -> Whole y ny -> Whole c nc -> Whole z nz -> Whole d nd -> Whole w nw ->
  (Z.abs na <= B)%Z -> (Z.abs nb <= B)%Z -> (Z.abs nc <= B)%Z -> (Z.abs nd <= B)%Z ->
  (Z.abs nx <= C)%Z -> (Z.abs ny <= C)%Z -> (Z.abs nz <= C)%Z -> (Z.abs nw <= C)%Z ->
  (4 * (B * C) <= 16777216)%Z ->
  Whole (dot4w a x b y c z d w) (na * nx + nb * ny + nc * nz + nd * nw).
Proof.
  intros. unfold dot4w.
  pose proof (abs_mul_le B C na nx) as P1. pose proof (abs_mul_le B C nb ny) as P2.
  pose proof (abs_mul_le B C nc nz) as P3. pose proof (abs_mul_le B C nd nw) as P4.
  repeat match goal with H : ?A -> _, K : ?A |- _ => specialize (H K) end.
  repeat apply whole_add; try apply whole_mul; auto; unfold fits; lia.
Qed.
Lemma whole_dot4 a x b y c z d na nx nb ny nc nz nd (B C : Z) :
  Whole a na -> Whole x nx -> Whole b nb -> Whole y ny -> Whole c nc -> Whole z nz -> Whole d nd ->
  (Z.abs na <= B)%Z -> (Z.abs nb <= B)%Z -> (Z.abs nc <= B)%Z -> (Z.abs nd <= B)%Z ->
  (Z.abs nx <= C)%Z -> (Z.abs ny <= C)%Z -> (Z.abs nz <= C)%Z -> (3 * (B * C) + B <= 16777216)%Z ->
  Whole (dot4 a x b y c z d) (na * nx + nb * ny + nc * nz + nd).
Proof.
  intros. unfold dot4.
  pose proof (abs_mul_le B C na nx) as P1. pose proof (abs_mul_le B C nb ny) as P2.
  pose proof (abs_mul_le B C nc nz) as P3.
  repeat match goal with H : ?A -> _, K : ?A |- _ => specialize (H K) end.
  repeat apply whole_add; try apply whole_mul; auto; unfold fits; lia.
Qed.

(** ** Matrices *)
Lemma all_entries (P : nat -> nat -> Prop) :
  P 0%nat 0%nat -> P 0%nat 1%nat -> P 0%nat 2%nat -> P 0%nat 3%nat -> P 1%nat 0%nat -> P 1%nat 1%nat -> P 1%nat 2%nat -> P 1%nat 3%nat -> P 2%nat 0%nat -> P 2%nat 1%nat -> P 2%nat 2%nat -> P 2%nat 3%nat -> P 3%nat 0%nat -> P 3%nat 1%nat -> P 3%nat 2%nat -> P 3%nat 3%nat ->
  forall r c, (r < 4)%nat -> (c < 4)%nat -> P r c.
Proof.
  intros. destruct r as [|[|[|[|r]]]]; [| | | |lia]; (destruct c as [|[|[|[|c]]]]; [assumption..|lia]).
Qed.
Definition dot_of (a b : Matrix) (r c : nat) : f32 :=
  dot4w (entry a 0 c) (entry b r 0) (entry a 1 c) (entry b r 1) (entry a 2 c) (entry b r 2) (entry a 3 c) (entry b r 3).
Lemma mul_entry a b r c : (r < 4)%nat -> (c < 4)%nat -> entry (mat_mul a b) r c = dot_of a b r c.
Proof. revert r c. apply all_entries; reflexivity. Qed.
Lemma whole_product a b p q B C : WholeMatrix a p -> WholeMatrix b q -> Within B p -> Within C q ->
  (4 * (B * C) <= 16777216)%Z -> WholeMatrix (mat_mul a b) (product q p) /\ Within (4 * (B * C)) (product q p).
Proof.
  intros Wa Wb Ba Bb H.
  assert (K : forall r c, (r < 4)%nat -> (c < 4)%nat -> Whole (entry (mat_mul a b) r c) (product q p r c) /\ (Z.abs (product q p r c) <= 4 * (B * C))%Z).
  { intros r c Hr Hc. rewrite mul_entry by assumption. split.
    - replace (product q p r c) with (p 0%nat c * q r 0%nat + p 1%nat c * q r 1%nat + p 2%nat c * q r 2%nat + p 3%nat c * q r 3%nat)%Z by (unfold product; ring).
      unfold dot_of. eapply (whole_dot4w _ _ _ _ _ _ _ _ _ _ _ _ _ _ _ _ B C); try apply Wa; try apply Wb; try apply Ba; try apply Bb; lia || exact H.
    - unfold product.
      pose proof (abs_mul_le C B (q r 0%nat) (p 0%nat c) (Bb r 0%nat Hr ltac:(lia)) (Ba 0%nat c ltac:(lia) Hc)).
      pose proof (abs_mul_le C B (q r 1%nat) (p 1%nat c) (Bb r 1%nat Hr ltac:(lia)) (Ba 1%nat c ltac:(lia) Hc)).
      pose proof (abs_mul_le C B (q r 2%nat) (p 2%nat c) (Bb r 2%nat Hr ltac:(lia)) (Ba 2%nat c ltac:(lia) Hc)).
      pose proof (abs_mul_le C B (q r 3%nat) (p 3%nat c) (Bb r 3%nat Hr ltac:(lia)) (Ba 3%nat c ltac:(lia) Hc)). lia. }
  split; intros r c Hr Hc; apply K; assumption.
Qed.
Lemma whole_point a p B C v x y z : WholeMatrix a p -> Within B p -> WholePoint v x y z ->
  (Z.abs x <= C)%Z -> (Z.abs y <= C)%Z -> (Z.abs z <= C)%Z -> (3 * (B * C) + B <= 16777216)%Z ->
  WholePoint (mul3d a v) (moved p x y z 0) (moved p x y z 1) (moved p x y z 2).
Proof.
  intros Wa Ba (Hx & Hy & Hz) Bx By Bz H.
  assert (K : forall c, (c < 4)%nat -> Whole (dot4 (entry a 0 c) (px v) (entry a 1 c) (py v) (entry a 2 c) (pz v) (entry a 3 c)) (moved p x y z c)).
  { intros c Hc. replace (moved p x y z c) with (p 0%nat c * x + p 1%nat c * y + p 2%nat c * z + p 3%nat c)%Z by (unfold moved; ring).
    eapply (whole_dot4 _ _ _ _ _ _ _ _ _ _ _ _ _ _ B C); try apply Wa; try apply Ba; auto with arith; lia. }
  split; [apply (K 0%nat); lia|]. split; [apply (K 1%nat); lia|apply (K 2%nat); lia].
Qed.
Lemma moved_le p x y z B C c : Within B p -> (Z.abs x <= C)%Z -> (Z.abs y <= C)%Z -> (Z.abs z <= C)%Z -> (c < 4)%nat ->
  (Z.abs (moved p x y z c) <= 3 * (B * C) + B)%Z.
Proof.
  intros Ba Bx By Bz Hc. unfold moved.
  pose proof (abs_mul_le C B x (p 0%nat c) Bx (Ba 0%nat c ltac:(lia) Hc)).
  pose proof (abs_mul_le C B y (p 1%nat c) By (Ba 1%nat c ltac:(lia) Hc)).
  pose proof (abs_mul_le C B z (p 2%nat c) Bz (Ba 2%nat c ltac:(lia) Hc)).
  pose proof (Ba 3%nat c ltac:(lia) Hc). lia.
Qed.
Lemma moved_product p q x y z c : Affine q ->
  moved (product q p) x y z c = moved p (moved q x y z 0) (moved q x y z 1) (moved q x y z 2) c.
Proof.
  intros (A0 & A1 & A2 & A3). unfold moved, product. rewrite A0, A1, A2, A3. ring.
Qed.

(** ** Identity *)
Lemma id_entry r c : (r < 4)%nat -> (c < 4)%nat ->
  Finite (entry identity r c) /\ fR (entry identity r c) = if Nat.eqb r c then 1 else 0.
Proof.
  revert r c. apply all_entries; (split; [first [exact I|reflexivity]|]); cbn [entry nth Nat.eqb Nat.mul Nat.add identity m0 m1 m2 m3 m4 m5 m6 m7 m8 m9 m10 m11 m12 m13 m14 m15];
  first [exact fR_one|reflexivity].
Qed.
(** One term of the sum is [x], the others vanish *)
Lemma dot_one (x a b c d e f g h : f32) (p q r s : R) : Finite x ->
  Finite a -> Finite b -> Finite c -> Finite d -> Finite e -> Finite f -> Finite g -> Finite h ->
  fR a * fR b = p -> fR c * fR d = q -> fR e * fR f = r -> fR g * fR h = s ->
  (p = fR x /\ q = 0 /\ r = 0 /\ s = 0) \/ (p = 0 /\ q = fR x /\ r = 0 /\ s = 0) \/
  (p = 0 /\ q = 0 /\ r = fR x /\ s = 0) \/ (p = 0 /\ q = 0 /\ r = 0 /\ s = fR x) ->
  Finite (dot4w a b c d e f g h) /\ fR (dot4w a b c d e f g h) = fR x.
Proof.
  intros Fx Fa Fb Fc Fd Fe Ff Fg Fh Ep Eq Er Es H. unfold dot4w.
  assert (F0 : Finite f_zero) by exact I. assert (Z : fR f_zero = 0) by reflexivity.
  assert (K : exists u v w t uv uvw, Finite u /\ Finite v /\ Finite w /\ Finite t /\ Finite uv /\ Finite uvw /\
    p = fR u /\ q = fR v /\ r = fR w /\ s = fR t /\ fR u + fR v = fR uv /\ fR uv + fR w = fR uvw /\ fR uvw + fR t = fR x).
  { destruct H as [(-> & -> & -> & ->)|[(-> & -> & -> & ->)|[(-> & -> & -> & ->)|(-> & -> & -> & ->)]]].
    - exists x, f_zero, f_zero, f_zero, x, x. rewrite Z. repeat split; auto; lra.
    - exists f_zero, x, f_zero, f_zero, x, x. rewrite Z. repeat split; auto; lra.
    - exists f_zero, f_zero, x, f_zero, f_zero, x. rewrite Z. repeat split; auto; lra.
    - exists f_zero, f_zero, f_zero, x, f_zero, f_zero. rewrite Z. repeat split; auto; lra. }
  destruct K as (u & v & w & t & uv & uvw & Fu & Fv & Fw & Ft & Fuv & Fuvw & E1 & E2 & E3 & E4 & E5 & E6 & E7).
  rewrite E1 in Ep. rewrite E2 in Eq. rewrite E3 in Er. rewrite E4 in Es.
  destruct (fmul_exact a b u Fa Fb Fu Ep) as [G1 H1]. destruct (fmul_exact c d v Fc Fd Fv Eq) as [G2 H2].
  destruct (fmul_exact e f w Fe Ff Fw Er) as [G3 H3]. destruct (fmul_exact g h t Fg Fh Ft Es) as [G4 H4].
  destruct (fadd_exact _ _ uv G1 G2 Fuv) as [G5 H5]; [lra|]. destruct (fadd_exact _ _ uvw G5 G3 Fuvw) as [G6 H6]; [lra|].
  apply fadd_exact; auto. lra.
Qed.
Lemma identity_left t : FiniteEntries t -> NumEqMatrix (mat_mul identity t) t /\ FiniteEntries (mat_mul identity t).
Proof.
  intros F.
  assert (K : forall r c, (r < 4)%nat -> (c < 4)%nat -> Finite (entry (mat_mul identity t) r c) /\ fR (entry (mat_mul identity t) r c) = fR (entry t r c)).
  { intros r c Hr Hc. rewrite mul_entry by assumption. unfold dot_of.
    destruct (id_entry 0 c ltac:(lia) Hc) as [I0 E0]. destruct (id_entry 1 c ltac:(lia) Hc) as [I1 E1].
    destruct (id_entry 2 c ltac:(lia) Hc) as [I2 E2]. destruct (id_entry 3 c ltac:(lia) Hc) as [I3 E3].
    eapply dot_one; try exact eq_refl; try assumption; try (apply F; lia). rewrite E0, E1, E2, E3.
    destruct c as [|[|[|[|c]]]]; cbn [Nat.eqb]; [left|right; left|right; right; left|right; right; right|lia]; repeat split; ring. }
  split; intros r c Hr Hc; destruct (K r c Hr Hc) as [K1 K2]; [apply NumEq_R; auto|exact K1].
Qed.
Lemma identity_right t : FiniteEntries t -> NumEqMatrix (mat_mul t identity) t /\ FiniteEntries (mat_mul t identity).
Proof.
  intros F.
  assert (K : forall r c, (r < 4)%nat -> (c < 4)%nat -> Finite (entry (mat_mul t identity) r c) /\ fR (entry (mat_mul t identity) r c) = fR (entry t r c)).
  { intros r c Hr Hc. rewrite mul_entry by assumption. unfold dot_of.
    destruct (id_entry r 0 Hr ltac:(lia)) as [I0 E0]. destruct (id_entry r 1 Hr ltac:(lia)) as [I1 E1].
    destruct (id_entry r 2 Hr ltac:(lia)) as [I2 E2]. destruct (id_entry r 3 Hr ltac:(lia)) as [I3 E3].
    eapply dot_one; try exact eq_refl; try assumption; try (apply F; lia). rewrite E0, E1, E2, E3.
    destruct r as [|[|[|[|r]]]]; cbn [Nat.eqb]; [left|right; left|right; right; left|right; right; right|lia]; repeat split; ring. }
  split; intros r c Hr Hc; destruct (K r c Hr Hc) as [K1 K2]; [apply NumEq_R; auto|exact K1].
Qed.
(** Literals *)
Lemma whole_lit s m e n : f_valid (S754_finite s m e) = true -> (e <= 0)%Z ->
  (if s then Z.neg m else Z.pos m) = (n * 2 ^ (- e))%Z -> Whole (S754_finite s m e) n.
Proof.
  intros V He E. split; [exact V|]. unfold value. rewrite bpow_powerRZ2.
  assert (P : IZR (2 ^ (- e)) * bpow radix2 e = 1).
  { change 2%Z with (radix_val radix2). rewrite IZR_Zpower by lia. rewrite <- bpow_plus. replace (- e + e)%Z with 0%Z by lia. reflexivity. }
  transitivity (IZR (if s then Z.neg m else Z.pos m) * bpow radix2 e).
  - destruct s; [change (Z.neg m) with (- Z.pos m)%Z; rewrite opp_IZR|]; ring.
  - rewrite E, mult_IZR, Rmult_assoc, P. ring.
Qed.
