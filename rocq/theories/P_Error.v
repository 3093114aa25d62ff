(** * Proofs about rounding in products of matrices *)
From Coq Require Import ZArith Reals Lra Lia.
From Flocq Require Import Core.Core IEEE754.BinarySingleNaN Relative.
From Verif Require Import GoBase GoFloat Types M_Core M_Geom S_Geom P_Geom P_Float S_Strconv P_Strconv S_Matrix M_Matrix P_Matrix S_Error.
Local Open Scope R_scope.

(** Slightly more than the unit of rounding, to cover underflow where the size is at least 1 *)
Definition eps : R := unit32 + / 1152921504606846976.
Lemma rnd_off r : Rabs (rnd r - r) <= unit32 * Rabs r + / 1152921504606846976.
Proof.
  destruct (error_N_FLT radix2 (-149) 24 eq_refl (fun x => negb (Z.even x)) r) as (e & t & He & Ht & _ & E).
  change (rnd r) with (Generic_fmt.round radix2 (FLT_exp (-149) 24) (Znearest (fun x => negb (Z.even x))) r). rewrite E.
  replace (r * (1 + e) + t - r) with (e * r + t) by ring. eapply Rle_trans; [apply Rabs_triang|]. rewrite Rabs_mult. apply Rplus_le_compat.
  - apply Rmult_le_compat_r; [apply Rabs_pos|]. eapply Rle_trans; [exact He|]. assert (X : bpow radix2 (Z.opp 24 + 1) = / IZR 8388608) by reflexivity. unfold unit32. rewrite X. lra.
  - eapply Rle_trans; [exact Ht|]. assert (H : bpow radix2 (-149) <= bpow radix2 (-60)) by (apply bpow_le; lia). change (bpow radix2 (-60)) with (/ IZR 1152921504606846976) in H. lra.
Qed.
(** [x] stands for [r], of size at most [S], and is off by at most [a] times [S] *)
Definition N (x : f32) (r S a : R) : Prop := Finite x /\ Rabs r <= S /\ Rabs (fR x - r) <= a * S.
Lemma n_exact x S a : Finite x -> Rabs (fR x) <= S -> 0 <= a -> N x (fR x) S a.
Proof. intros F H A. split; [exact F|]. split; [exact H|]. rewrite Rminus_diag_eq, Rabs_R0 by reflexivity. apply Rmult_le_pos; [exact A|]. pose proof (Rabs_pos (fR x)). lra. Qed.
Lemma rnd_step q r S b : 1 <= S -> Rabs r <= S -> Rabs (q - r) <= b * S -> 0 <= b -> Rabs (rnd q - r) <= (b * (1 + eps) + eps) * S.
Proof.
  intros HS Hr Hq Hb. pose proof (rnd_off q) as H.
  assert (Q : Rabs q <= (1 + b) * S).
  { replace q with (r + (q - r)) by ring. eapply Rle_trans; [apply Rabs_triang|]. lra. }
  replace (rnd q - r) with ((rnd q - q) + (q - r)) by ring. eapply Rle_trans; [apply Rabs_triang|].
  assert (unit32 * Rabs q <= unit32 * ((1 + b) * S)) by (apply Rmult_le_compat_l; [unfold unit32; lra|exact Q]).
  assert (0 <= b * S) by (apply Rmult_le_pos; lra).
  assert (K : / 1152921504606846976 <= / 1152921504606846976 * ((1 + b) * S)) by lra.
  replace ((b * (1 + eps) + eps) * S) with (eps * ((1 + b) * S) + b * S) by ring. unfold eps at 1. lra.
Qed.
Lemma bpow127 : bpow radix2 127 = 170141183460469231731687303715884105728. Proof. reflexivity. Qed.
Lemma step_small q r S b : Rabs r <= S -> Rabs (rnd q - r) <= b * S -> b <= / 2 -> 0 <= S -> S <= bpow radix2 127 -> small q.
Proof.
  intros Hr Hq Hb HS B. unfold small. replace (rnd q) with (r + (rnd q - r)) by ring. eapply Rle_lt_trans; [apply Rabs_triang|].
  assert (b * S <= / 2 * S) by (apply Rmult_le_compat_r; assumption). change (bpow radix2 128) with (bpow radix2 (127 + 1)). rewrite bpow_plus. change (bpow radix2 1) with 2.
  assert (0 < bpow radix2 127) by apply bpow_gt_0. lra.
Qed.
Lemma n_mul x y r r' S S' a b g : N x r S a -> N y r' S' b -> 0 <= a -> 0 <= b -> 1 <= S * S' -> S * S' <= bpow radix2 127 ->
  (a + b + a * b) * (1 + eps) + eps <= g -> g <= / 2 -> N (fmul x y) (r * r') (S * S') g.
Proof.
  intros (F & H & E) (F' & H' & E') A B One Big G G2.
  assert (P : Rabs (r * r') <= S * S') by (rewrite Rabs_mult; apply Rmult_le_compat; try apply Rabs_pos; assumption).
  assert (Q : Rabs (fR x * fR y - r * r') <= (a + b + a * b) * (S * S')).
  { replace (fR x * fR y - r * r') with ((fR x - r) * r' + (fR y - r') * r + (fR x - r) * (fR y - r')) by ring.
    eapply Rle_trans; [apply Rabs_triang|]. eapply Rle_trans; [apply Rplus_le_compat_r, Rabs_triang|]. rewrite !Rabs_mult.
    assert (Rabs (fR x - r) * Rabs r' <= (a * S) * S') by (apply Rmult_le_compat; try apply Rabs_pos; assumption).
    assert (Rabs (fR y - r') * Rabs r <= (b * S') * S) by (apply Rmult_le_compat; try apply Rabs_pos; assumption).
    assert (Rabs (fR x - r) * Rabs (fR y - r') <= (a * S) * (b * S')) by (apply Rmult_le_compat; try apply Rabs_pos; assumption).
    replace ((a + b + a * b) * (S * S')) with (a * S * S' + b * S' * S + a * S * (b * S')) by ring. lra. }
  assert (AB : 0 <= a + b + a * b) by (pose proof (Rmult_le_pos a b A B); lra).
  pose proof (rnd_step _ _ _ _ One P Q AB) as K.
  assert (K2 : Rabs (rnd (fR x * fR y) - r * r') <= g * (S * S')) by (eapply Rle_trans; [exact K|apply Rmult_le_compat_r; [lra|exact G]]).
  destruct (fmul_correct x y F F') as [F1 E1]; [eapply step_small; [exact P|exact K2|exact G2|lra|exact Big]|].
  split; [exact F1|]. split; [exact P|]. rewrite E1. exact K2.
Qed.
Lemma n_add x y r r' S S' a g : N x r S a -> N y r' S' a -> 0 <= a -> 1 <= S + S' -> S + S' <= bpow radix2 127 ->
  a * (1 + eps) + eps <= g -> g <= / 2 -> N (fadd x y) (r + r') (S + S') g.
Proof.
  intros (F & H & E) (F' & H' & E') A One Big G G2.
  assert (P : Rabs (r + r') <= S + S') by (eapply Rle_trans; [apply Rabs_triang|lra]).
  assert (Q : Rabs (fR x + fR y - (r + r')) <= a * (S + S')).
  { replace (fR x + fR y - (r + r')) with ((fR x - r) + (fR y - r')) by ring. eapply Rle_trans; [apply Rabs_triang|]. lra. }
  pose proof (rnd_step _ _ _ _ One P Q A) as K.
  assert (K2 : Rabs (rnd (fR x + fR y) - (r + r')) <= g * (S + S')) by (eapply Rle_trans; [exact K|apply Rmult_le_compat_r; [lra|exact G]]).
  destruct (fadd_correct x y F F') as [F1 E1]; [eapply step_small; [exact P|exact K2|exact G2|lra|exact Big]|].
  split; [exact F1|]. split; [exact P|]. rewrite E1. exact K2.
Qed.
(** [k] roundings *)
Definition al (k : R) : R := k * (101 / 100 * unit32).
Lemma n_weaken x r S k k' : N x r S (al k) -> 0 <= S -> k <= k' -> N x r S (al k').
Proof. intros (F & H & E) P K. split; [exact F|]. split; [exact H|]. eapply Rle_trans; [exact E|]. apply Rmult_le_compat_r; [exact P|]. unfold al, unit32. lra. Qed.
Lemma n_mulk x y r r' S S' k l : N x r S (al k) -> N y r' S' (al l) -> 0 <= k -> 0 <= l -> k + l <= 10 -> 1 <= S * S' -> S * S' <= bpow radix2 127 ->
  N (fmul x y) (r * r') (S * S') (al (k + l + 1)).
Proof.
  intros H H' K L KL One Big. eapply n_mul; try eassumption.
  - unfold al, unit32. lra.
  - unfold al, unit32. lra.
  - assert (M : al k * al l <= 10 * 10 * (101 / 100 * unit32) * (101 / 100 * unit32)).
    { unfold al. replace (k * (101 / 100 * unit32) * (l * (101 / 100 * unit32))) with (k * l * (101 / 100 * unit32) * (101 / 100 * unit32)) by ring.
      apply Rmult_le_compat_r; [unfold unit32; lra|]. apply Rmult_le_compat_r; [unfold unit32; lra|]. apply Rmult_le_compat; lra. }
    assert (0 <= al k * al l) by (apply Rmult_le_pos; unfold al, unit32; lra).
    assert (M2 : (al k + al l + al k * al l) * eps <= / 100000 * unit32).
    { replace (/ 100000 * unit32) with (/ 1000000 * (10 * unit32)) by field. apply Rmult_le_compat; [unfold al, unit32 in *; lra|unfold eps, unit32; lra|unfold al, unit32 in *; lra|unfold eps, unit32; lra]. }
    unfold al, eps, unit32 in *. lra.
  - unfold al, unit32. lra.
Qed.
Lemma n_addk x y r r' S S' k : N x r S (al k) -> N y r' S' (al k) -> 0 <= k -> k <= 10 -> 1 <= S + S' -> S + S' <= bpow radix2 127 ->
  N (fadd x y) (r + r') (S + S') (al (k + 1)).
Proof.
  intros H H' K L One Big. eapply n_add; try eassumption; unfold al, eps, unit32; lra.
Qed.
(** ** Sums of products *)
Lemma n_dot4 a x b y c z d ra rx rb ry rc rz rd L C T k l : N a ra L (al k) -> N x rx C (al l) -> N b rb L (al k) -> N y ry C (al l) -> N c rc L (al k) -> N z rz C (al l) ->
  N d rd T (al (k + l)) -> 0 <= k -> 0 <= l -> k + l <= 6 -> 1 <= L -> 1 <= C -> 0 <= T -> 3 * (L * C) + T <= bpow radix2 127 ->
  N (dot4 a x b y c z d) (ra * rx + rb * ry + rc * rz + rd) (3 * (L * C) + T) (al (k + l + 4)).
Proof.
  intros Ha Hx Hb Hy Hc Hz Hd K L0 KL HL HC HT Big.
  assert (LC : 1 <= L * C) by (replace 1 with (1 * 1) by ring; apply Rmult_le_compat; lra).
  pose proof (n_mulk _ _ _ _ _ _ _ _ Ha Hx K L0 ltac:(lra) LC ltac:(lra)) as P1.
  pose proof (n_mulk _ _ _ _ _ _ _ _ Hb Hy K L0 ltac:(lra) LC ltac:(lra)) as P2.
  pose proof (n_mulk _ _ _ _ _ _ _ _ Hc Hz K L0 ltac:(lra) LC ltac:(lra)) as P3.
  pose proof (n_addk _ _ _ _ _ _ _ P1 P2 ltac:(lra) ltac:(lra) ltac:(lra) ltac:(lra)) as A1.
  pose proof (n_addk _ _ _ _ _ _ _ A1 (n_weaken _ _ _ _ (k + l + 1 + 1) P3 ltac:(lra) ltac:(lra)) ltac:(lra) ltac:(lra) ltac:(lra) ltac:(lra)) as A2.
  pose proof (n_addk _ _ _ _ _ _ _ A2 (n_weaken _ _ _ _ (k + l + 1 + 1 + 1) Hd HT ltac:(lra)) ltac:(lra) ltac:(lra) ltac:(lra) ltac:(lra)) as A3.
  unfold dot4. replace (3 * (L * C) + T) with (L * C + L * C + L * C + T) by ring. replace (k + l + 4) with (k + l + 1 + 1 + 1 + 1) by ring. exact A3.
Qed.
Lemma n_dot4w a x b y c z d w ra rx rb ry rc rz L C T p : N a ra L 0 -> N x rx C 0 -> N b rb L 0 -> N y ry C 0 -> N c rc L 0 -> N z rz C 0 ->
  N (fmul d w) p T (al 1) -> 1 <= L -> 1 <= C -> 0 <= T -> 3 * (L * C) + T <= bpow radix2 127 ->
  N (dot4w a x b y c z d w) (ra * rx + rb * ry + rc * rz + p) (3 * (L * C) + T) (al 4).
Proof.
  assert (Z0 : forall x r S, N x r S 0 -> N x r S (al 0)) by (intros ? ? ? H; unfold al; rewrite Rmult_0_l; exact H).
  intros Ha Hx Hb Hy Hc Hz Hd HL HC HT Big. apply Z0 in Ha, Hx, Hb, Hy, Hc, Hz.
  assert (LC : 1 <= L * C) by (replace 1 with (1 * 1) by ring; apply Rmult_le_compat; lra).
  pose proof (n_mulk _ _ _ _ _ _ _ _ Ha Hx ltac:(lra) ltac:(lra) ltac:(lra) LC ltac:(lra)) as P1.
  pose proof (n_mulk _ _ _ _ _ _ _ _ Hb Hy ltac:(lra) ltac:(lra) ltac:(lra) LC ltac:(lra)) as P2.
  pose proof (n_mulk _ _ _ _ _ _ _ _ Hc Hz ltac:(lra) ltac:(lra) ltac:(lra) LC ltac:(lra)) as P3.
  pose proof (n_addk _ _ _ _ _ _ _ P1 P2 ltac:(lra) ltac:(lra) ltac:(lra) ltac:(lra)) as A1.
  pose proof (n_addk _ _ _ _ _ _ _ A1 (n_weaken _ _ _ _ (0 + 0 + 1 + 1) P3 ltac:(lra) ltac:(lra)) ltac:(lra) ltac:(lra) ltac:(lra) ltac:(lra)) as A2.
  pose proof (n_addk _ _ _ _ _ _ _ A2 (n_weaken _ _ _ _ (0 + 0 + 1 + 1 + 1) Hd HT ltac:(lra)) ltac:(lra) ltac:(lra) ltac:(lra) ltac:(lra)) as A3.
  unfold dot4w. replace (3 * (L * C) + T) with (L * C + L * C + L * C + T) by ring. replace 4 with (0 + 0 + 1 + 1 + 1 + 1) by ring. exact A3.
Qed.
(** ** Matrices *)
Lemma reals_fR t r c : reals t r c = fR (entry t r c). Proof. apply value_fR. Qed.
Lemma n_exact0 x S : Finite x -> Rabs (fR x) <= S -> N x (fR x) S 0. Proof. intros; apply n_exact; auto; lra. Qed.
Lemma n_al0 x r S : N x r S 0 -> N x r S (al 0). Proof. intros H. unfold al. rewrite Rmult_0_l. exact H. Qed.
Lemma coord_mul3d a v c : (c < 3)%nat -> coord (mul3d a v) c = dot4 (entry a 0 c) (px v) (entry a 1 c) (py v) (entry a 2 c) (pz v) (entry a 3 c).
Proof. intros H. destruct c as [|[|[|c]]]; [reflexivity..|lia]. Qed.
Lemma bounded_mul a v L T C k l x y z (t : nat -> nat -> R) : (forall r c, (r < 3)%nat -> (c < 3)%nat -> N (entry a r c) (t r c) L (al k)) -> (forall c, (c < 3)%nat -> N (entry a 3 c) (t 3%nat c) T (al (k + l))) ->
  N (px v) x C (al l) -> N (py v) y C (al l) -> N (pz v) z C (al l) -> 0 <= k -> 0 <= l -> k + l <= 6 -> 1 <= L -> 1 <= C -> 0 <= T -> 3 * (L * C) + T <= bpow radix2 127 ->
  forall c, (c < 3)%nat -> N (coord (mul3d a v) c) (rmoved t x y z c) (3 * (L * C) + T) (al (k + l + 4)).
Proof.
  intros Ht H3 Hx Hy Hz K L0 KL HL HC HT Big c Hc. rewrite coord_mul3d by exact Hc. unfold rmoved.
  replace (x * t 0%nat c + y * t 1%nat c + z * t 2%nat c + t 3%nat c) with (t 0%nat c * x + t 1%nat c * y + t 2%nat c * z + t 3%nat c) by ring.
  apply n_dot4; auto; apply Ht; lia.
Qed.
Lemma n_off x r S k e : N x r S (al k) -> 0 <= S -> 101 / 100 * k <= e -> Off x r (e * unit32 * S).
Proof.
  intros (F & _ & H) P K. split; [exact F|]. rewrite value_fR. eapply Rle_trans; [exact H|]. apply Rmult_le_compat_r; [exact P|]. unfold al, unit32. lra.
Qed.
Lemma bounded_n t L T : Bounded t L T -> (forall r c, (r < 3)%nat -> (c < 3)%nat -> N (entry t r c) (reals t r c) L 0) /\ (forall c, (c < 3)%nat -> N (entry t 3 c) (reals t 3 c) T 0).
Proof.
  intros (F & HL & HT). split.
  - intros r c Hr Hc. specialize (HL r c Hr Hc). rewrite reals_fR in *. apply n_exact0; [apply F; lia|exact HL].
  - intros c Hc. specialize (HT c Hc). rewrite reals_fR in *. apply n_exact0; [apply F; lia|exact HT].
Qed.
Lemma point_n v C : BoundedPoint v C -> N (px v) (value (px v)) C 0 /\ N (py v) (value (py v)) C 0 /\ N (pz v) (value (pz v)) C 0.
Proof.
  intros H. destruct (H 0%nat ltac:(lia)) as [F0 B0], (H 1%nat ltac:(lia)) as [F1 B1], (H 2%nat ltac:(lia)) as [F2 B2]. cbn [coord] in *. rewrite !value_fR in *.
  split; [apply n_exact0; assumption|]. split; apply n_exact0; assumption.
Qed.
(** The product of real matrices; the second has the last column of a transform *)
Definition rproduct (a b : nat -> nat -> R) (r c : nat) : R :=
  b r 0%nat * a 0%nat c + b r 1%nat * a 1%nat c + b r 2%nat * a 2%nat c + b r 3%nat * a 3%nat c.
Lemma product_n a b La Ta Lb Tb : Bounded a La Ta -> Bounded b Lb Tb -> RAffine b -> 1 <= La -> 1 <= Ta -> 1 <= Lb -> 1 <= Tb ->
  3 * (La * Lb) <= bpow radix2 127 -> 3 * (La * Tb) + Ta <= bpow radix2 127 ->
  (forall r c, (r < 3)%nat -> (c < 3)%nat -> N (entry (mat_mul a b) r c) (rproduct (reals a) (reals b) r c) (3 * (La * Lb)) (al 4)) /\
  (forall c, (c < 3)%nat -> N (entry (mat_mul a b) 3 c) (rproduct (reals a) (reals b) 3 c) (3 * (La * Tb) + Ta) (al 4)).
Proof.
  intros Ba Bb (A0 & A1 & A2 & A3) H1 H2 H3 H4 G1 G2. assert (Fa := proj1 Ba). assert (Fb := proj1 Bb).
  apply bounded_n in Ba as [Na Nat']. apply bounded_n in Bb as [Nb Nbt]. split.
  - intros r c Hr Hc. rewrite mul_entry by lia. unfold rproduct, dot_of.
    assert (Z : reals b r 3 = 0) by (destruct r as [|[|[|r]]]; [assumption..|lia]).
    assert (P : N (fmul (entry a 3 c) (entry b r 3)) 0 0 (al 1)).
    { assert (FA : Finite (entry a 3 c)) by (apply Fa; lia). assert (FB : Finite (entry b r 3)) by (apply Fb; lia). rewrite reals_fR in Z.
      destruct (fmul_exact _ _ f_zero FA FB I) as [F E]; [rewrite Z, (fR_zero false : fR f_zero = 0); ring|]. split; [exact F|]. rewrite Rabs_R0. split; [lra|]. rewrite E, (fR_zero false : fR f_zero = 0), Rminus_0_r, Rabs_R0. lra. }
    rewrite Z. replace (reals b r 0 * reals a 0 c + reals b r 1 * reals a 1 c + reals b r 2 * reals a 2 c + 0 * reals a 3 c)
      with (reals a 0 c * reals b r 0 + reals a 1 c * reals b r 1 + reals a 2 c * reals b r 2 + 0) by ring.
    replace (3 * (La * Lb)) with (3 * (La * Lb) + 0) by ring. apply n_dot4w; auto; try (apply Na; lia); try (apply Nb; lia); lra.
  - intros c Hc. rewrite mul_entry by lia. unfold rproduct, dot_of.
    assert (P : N (fmul (entry a 3 c) (entry b 3 3)) (reals a 3 c * 1) Ta (al 1)).
    { replace Ta with (Ta * 1) by ring. replace 1 with (0 + 0 + 1) at 3 by ring. apply n_mulk; try lra.
      - apply n_al0, Nat'. exact Hc.
      - apply n_al0. rewrite <- A3, reals_fR. apply n_exact0; [apply Fb; lia|]. rewrite <- reals_fR, A3, Rabs_R1. lra.
      - rewrite Rmult_1_r. assert (0 <= La * Tb) by (apply Rmult_le_pos; lra). lra. }
    rewrite A3. replace (reals b 3 0 * reals a 0 c + reals b 3 1 * reals a 1 c + reals b 3 2 * reals a 2 c + 1 * reals a 3 c)
      with (reals a 0 c * reals b 3 0 + reals a 1 c * reals b 3 1 + reals a 2 c * reals b 3 2 + reals a 3 c * 1) by ring.
    apply n_dot4w; auto; try (apply Na; lia); try (apply Nbt; lia); lra.
Qed.
Lemma rmoved_product a b x y z c : b 0%nat 3%nat = 0 -> b 1%nat 3%nat = 0 -> b 2%nat 3%nat = 0 -> b 3%nat 3%nat = 1 ->
  rmoved (rproduct a b) x y z c = rmoved a (rmoved b x y z 0) (rmoved b x y z 1) (rmoved b x y z 2) c.
Proof. intros A0 A1 A2 A3. unfold rmoved, rproduct. rewrite A0, A1, A2, A3. ring. Qed.
