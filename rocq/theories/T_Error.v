(** * Theorems: how far moved points are off: C61 for numbers that are not whole *)
From Coq Require Import ZArith Reals Lra Lia.
From Flocq Require Import Core.Core.
From Verif Require Import GoBase GoFloat Types M_Core M_Geom S_Geom P_Geom P_Float S_Strconv P_Strconv S_Matrix M_Matrix P_Matrix S_Error P_Error T_Matrix.
Local Open Scope R_scope.

(** A point moved by a matrix is off by at most five units of rounding of the size of the terms, whatever the numbers, as long as
    nothing overflows.  The bounds are at least 1 so as to cover underflow. *)
Theorem C61_point_error : forall a v L T C c, Bounded a L T -> BoundedPoint v C -> 1 <= L -> 1 <= T -> 1 <= C -> 3 * (L * C) + T <= 2 ^ 127 -> (c < 3)%nat ->
  Off (coord (mul3d a v) c) (rmoved (reals a) (value (px v)) (value (py v)) (value (pz v)) c) (5 * unit32 * (3 * (L * C) + T)).
Proof.
  intros a v L T C c Ba Bv HL HT HC Big Hc. apply bounded_n in Ba as [Na Nt]. apply point_n in Bv as (Nx & Ny & Nz).
  assert (B127 : 2 ^ 127 = bpow radix2 127) by (rewrite bpow127; cbn; lra). rewrite B127 in Big.
  assert (LC : 0 <= L * C) by (apply Rmult_le_pos; lra).
  apply (n_off _ _ _ (0 + 0 + 4)); [|lra|lra]. apply bounded_mul; try lra; try exact Hc; try (apply n_al0; assumption).
  - intros r c' Hr Hc'. apply n_al0, Na; assumption.
  - intros c' Hc'. rewrite Rplus_0_l. apply n_al0, Nt; assumption.
Qed.
Print Assumptions C61_point_error.
(** Moving by the product and moving by one after the other: both are off by at most nine units of rounding of the size of the
    terms. *)
Theorem C61_compose_error : forall a b v La Ta Lb Tb C c, Bounded a La Ta -> Bounded b Lb Tb -> RAffine b -> BoundedPoint v C ->
  1 <= La -> 1 <= Ta -> 1 <= Lb -> 1 <= Tb -> 1 <= C -> 9 * (La * Lb * C) + 3 * (La * Tb) + Ta <= 2 ^ 127 -> (c < 3)%nat ->
  let exact := fun c => rmoved (reals b) (value (px v)) (value (py v)) (value (pz v)) c in
  let e := 9 * unit32 * (9 * (La * Lb * C) + 3 * (La * Tb) + Ta) in
  Off (coord (mul3d (mat_mul a b) v) c) (rmoved (reals a) (exact 0%nat) (exact 1%nat) (exact 2%nat) c) e /\
  Off (coord (mul3d a (mul3d b v)) c) (rmoved (reals a) (exact 0%nat) (exact 1%nat) (exact 2%nat) c) e.
Proof.
  intros a b v La Ta Lb Tb C c Ba Bb Ab Bv HLa HTa HLb HTb HC Big Hc exact e.
  assert (B127 : 2 ^ 127 = bpow radix2 127) by (rewrite bpow127; cbn; lra). rewrite B127 in Big.
  assert (P1 : 1 <= La * Lb) by (replace 1 with (1 * 1) by ring; apply Rmult_le_compat; lra).
  assert (P2 : La * Lb <= La * Lb * C) by (rewrite <- (Rmult_1_r (La * Lb)) at 1; apply Rmult_le_compat_l; lra).
  assert (P3 : 1 <= La * Tb) by (replace 1 with (1 * 1) by ring; apply Rmult_le_compat; lra).
  assert (P4 : 1 <= Lb * C) by (replace 1 with (1 * 1) by ring; apply Rmult_le_compat; lra).
  assert (P5 : Lb * C <= La * Lb * C) by (replace (La * Lb * C) with (La * (Lb * C)) by ring; rewrite <- (Rmult_1_l (Lb * C)) at 1; apply Rmult_le_compat_r; lra).
  assert (P6 : Tb <= La * Tb) by (rewrite <- (Rmult_1_l Tb) at 1; apply Rmult_le_compat_r; lra).
  pose proof (point_n _ _ Bv) as (Nx & Ny & Nz).
  split.
  - destruct Ab as (A0 & A1 & A2 & A3). unfold exact. rewrite <- rmoved_product by assumption.
    destruct (product_n a b La Ta Lb Tb Ba Bb (conj A0 (conj A1 (conj A2 A3))) HLa HTa HLb HTb ltac:(lra) ltac:(lra)) as [N1 N2].
    unfold e. replace (9 * (La * Lb * C) + 3 * (La * Tb) + Ta) with (3 * (3 * (La * Lb) * C) + (3 * (La * Tb) + Ta)) by ring.
    apply (n_off _ _ _ (4 + 0 + 4)); [|lra|lra]. apply bounded_mul; try lra; try exact Hc; try (apply n_al0; assumption).
    + exact N1.
    + intros c' Hc'. rewrite Rplus_0_r. apply N2. exact Hc'.
  - unfold e. replace (9 * (La * Lb * C) + 3 * (La * Tb) + Ta) with (3 * (La * (3 * (Lb * C) + Tb)) + Ta) by ring.
    apply bounded_n in Bb as [Nb Nbt]. apply bounded_n in Ba as [Na Nat'].
    assert (M : forall c, (c < 3)%nat -> N (coord (mul3d b v) c) (exact c) (3 * (Lb * C) + Tb) (al (0 + 0 + 4))).
    { intros c' Hc'. unfold exact. apply bounded_mul; try lra; try exact Hc'; try (apply n_al0; assumption).
      - intros r c'' Hr Hc''. apply n_al0, Nb; assumption.
      - intros c'' Hc''. rewrite Rplus_0_l. apply n_al0, Nbt; assumption. }
    replace (0 + 0 + 4) with 4 in M by ring.
    assert (Q : 0 <= La * (3 * (Lb * C) + Tb)) by (apply Rmult_le_pos; lra).
    apply (n_off _ _ _ (0 + 4 + 4)); [|lra|lra]. apply bounded_mul; try lra; try exact Hc.
    + intros r c' Hr Hc'. apply n_al0, Na; assumption.
    + intros c' Hc'. apply (n_weaken _ _ _ 0); [apply n_al0, Nat'; exact Hc'|lra|lra].
    + exact (M 0%nat ltac:(lia)).
    + exact (M 1%nat ltac:(lia)).
    + exact (M 2%nat ltac:(lia)).
Qed.
Print Assumptions C61_compose_error.
(** The scalings of [C61_refuted], which do not compose exactly *)
Example C61_error_nonvacuous : let a := scaling (S754_finite false 10485760 (-20)) in let b := scaling (S754_finite false 13421773 (-27)) in
  let v := P3 (S754_finite false 13631488 (-20)) f_zero f_zero in
  Bounded a 10 1 /\ Bounded b 1 1 /\ RAffine b /\ BoundedPoint v 13 /\ 9 * (10 * 1 * 13) + 3 * (10 * 1) + 1 <= 2 ^ 127.
Proof.
  assert (V0 : value f_zero = 0) by (rewrite value_fR; apply (fR_zero false)).
  assert (V1 : value f_one = 1) by (rewrite value_fR; apply fR_one).
  assert (A : value (S754_finite false 10485760 (-20)) = 10) by (rewrite value_fR; change (IZR 10485760 * / IZR 1048576 = 10); lra).
  assert (B : Rabs (value (S754_finite false 13421773 (-27))) <= 1) by (rewrite value_fR; change (Rabs (IZR 13421773 * / IZR 134217728) <= 1); rewrite Rabs_pos_eq; lra).
  assert (D : value (S754_finite false 13631488 (-20)) = 13) by (rewrite value_fR; change (IZR 13631488 * / IZR 1048576 = 13); lra).
  intros a b v.
  assert (R0 : Rabs 0 <= 1) by (rewrite Rabs_R0; lra).
  split; [|split; [|split; [|split]]].
  - split; [unfold FiniteEntries; apply all_entries; vm_compute; auto|]. split.
    + intros r c Hr Hc. unfold reals. destruct r as [|[|[|r]]]; [| | |lia]; (destruct c as [|[|[|c]]]; [| | |lia]); cbn [entry nth a scaling Nat.mul Nat.add m0 m1 m2 m3 m4 m5 m6 m7 m8 m9 m10 m11 m12 m13 m14 m15];
        rewrite ?V0, ?A, ?Rabs_R0; try lra; rewrite Rabs_pos_eq; lra.
    + intros c Hc. unfold reals. destruct c as [|[|[|c]]]; [| | |lia]; cbn [entry nth a scaling Nat.mul Nat.add m0 m1 m2 m3 m4 m5 m6 m7 m8 m9 m10 m11 m12 m13 m14 m15]; rewrite V0; exact R0.
  - split; [unfold FiniteEntries; apply all_entries; vm_compute; auto|]. split.
    + intros r c Hr Hc. unfold reals. destruct r as [|[|[|r]]]; [| | |lia]; (destruct c as [|[|[|c]]]; [| | |lia]); cbn [entry nth b scaling Nat.mul Nat.add m0 m1 m2 m3 m4 m5 m6 m7 m8 m9 m10 m11 m12 m13 m14 m15];
        rewrite ?V0; first [exact B|exact R0].
    + intros c Hc. unfold reals. destruct c as [|[|[|c]]]; [| | |lia]; cbn [entry nth b scaling Nat.mul Nat.add m0 m1 m2 m3 m4 m5 m6 m7 m8 m9 m10 m11 m12 m13 m14 m15]; rewrite V0; exact R0.
  - repeat split; unfold reals; cbn [entry nth b scaling Nat.mul Nat.add m0 m1 m2 m3 m4 m5 m6 m7 m8 m9 m10 m11 m12 m13 m14 m15]; assumption.
  - intros c Hc. destruct c as [|[|[|c]]]; [| | |lia]; (split; [vm_compute; auto|]); cbn [coord v px py pz]; rewrite ?V0, ?D, ?Rabs_R0; try lra. rewrite Rabs_pos_eq; lra.
  - cbn. lra.
Qed.
