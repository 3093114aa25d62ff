(** * C61: matrix products *)
From Coq Require Import ZArith Reals Lra Lia.
From Verif Require Import GoBase GoFloat Types M_Core M_Geom S_Geom P_Geom P_Float S_Strconv P_Strconv S_Matrix M_Matrix P_Matrix.

(** C61: the product of integer matrices is computed exactly as long as it is below 2^24: [a.Mul(b)] is the matrix
    [b] times [a] (rows by columns), so that row vectors are moved by [b] first. *)
Theorem C61_product : forall a b p q B C, WholeMatrix a p -> WholeMatrix b q -> Within B p -> Within C q ->
  (4 * (B * C) <= 2 ^ 24)%Z -> WholeMatrix (mat_mul a b) (product q p).
Proof. intros a b p q B C Wa Wb Ba Bb H. apply (whole_product a b p q B C); assumption. Qed.
Print Assumptions C61_product.
(** C61: likewise the image of a point. *)
Theorem C61_point : forall a p v x y z B C, WholeMatrix a p -> Within B p -> WholePoint v x y z ->
  (Z.abs x <= C)%Z -> (Z.abs y <= C)%Z -> (Z.abs z <= C)%Z -> (3 * (B * C) + B <= 2 ^ 24)%Z ->
  WholePoint (mul3d a v) (moved p x y z 0) (moved p x y z 1) (moved p x y z 2).
Proof. intros a p v x y z B C. apply whole_point. Qed.
Print Assumptions C61_point.
(** C61, partial: moving a point by a product is moving it by [b] and then by [a].  Missing: matrices and points that
    are not integers, or so large that a result is rounded (see the refutation). *)
Theorem C61_compose_partial : forall a b p q v x y z B C, WholeMatrix a p -> WholeMatrix b q -> Within B p -> Within B q ->
  Affine q -> WholePoint v x y z -> (Z.abs x <= C)%Z -> (Z.abs y <= C)%Z -> (Z.abs z <= C)%Z -> (0 <= C)%Z ->
  (12 * (B * B * C) + 4 * (B * B) <= 2 ^ 24)%Z ->
  exists i j k, WholePoint (mul3d (mat_mul a b) v) i j k /\ WholePoint (mul3d a (mul3d b v)) i j k.
Proof.
  intros a b p q v x y z B C Wa Wb Ba Bb Aq Wv Bx By Bz C0 H. change (2 ^ 24)%Z with 16777216%Z in H.
  assert (HB : (1 <= B)%Z).
  { pose proof (Bb 3 3 ltac:(lia) ltac:(lia)) as K. destruct Aq as (_ & _ & _ & E). rewrite E in K. lia. }
  assert (B2 : (B <= B * B)%Z) by nia. assert (BC : (B * C <= B * B * C)%Z) by nia.
  assert (BBC : (0 <= B * B * C)%Z) by nia.
  destruct (whole_product a b p q B B Wa Wb Ba Bb) as [Wm Bm]; [lia|].
  exists (moved (product q p) x y z 0), (moved (product q p) x y z 1), (moved (product q p) x y z 2). split.
  - apply (whole_point _ _ (4 * (B * B)) C); auto. replace (4 * (B * B) * C)%Z with (4 * (B * B * C))%Z by ring. lia.
  - rewrite !(moved_product p q x y z) by exact Aq.
    apply (whole_point _ _ B (3 * (B * C) + B)); auto; try (apply moved_le; auto; lia).
    + apply (whole_point b q B C); auto. lia.
    + replace (B * (3 * (B * C) + B))%Z with (3 * (B * B * C) + B * B)%Z by ring. lia.
Qed.
Print Assumptions C61_compose_partial.
(** C61: the identity changes nothing, for every matrix of finite numbers. *)
Theorem C61_identity : forall t, FiniteEntries t -> NumEqMatrix (mat_mul identity t) t /\ NumEqMatrix (mat_mul t identity) t.
Proof. intros t F. split; [apply identity_left|apply identity_right]; exact F. Qed.
Print Assumptions C61_identity.
(** C61: a translated transform moves points further by the translation. *)
Theorem C61_translate : forall a p v x y z dx dy dz nx ny nz B C, WholeMatrix a p -> Within B p -> WholePoint v x y z ->
  Whole dx nx -> Whole dy ny -> Whole dz nz -> (Z.abs nx <= B)%Z -> (Z.abs ny <= B)%Z -> (Z.abs nz <= B)%Z ->
  (Z.abs x <= C)%Z -> (Z.abs y <= C)%Z -> (Z.abs z <= C)%Z -> (0 <= C)%Z -> (6 * (B * C) + 2 * B <= 2 ^ 24)%Z ->
  WholePoint (mul3d (translate a dx dy dz) v) (moved p x y z 0 + nx) (moved p x y z 1 + ny) (moved p x y z 2 + nz).
Proof.
  intros a p v x y z dx dy dz nx ny nz B C Wa Ba Wv Wx Wy Wz Lx Ly Lz Bx By Bz C0 H. change (2 ^ 24)%Z with 16777216%Z in H.
  assert (HBC : (0 <= B * C)%Z) by (apply Z.mul_nonneg_nonneg; lia).
  set (p' := fun r c => if Nat.eqb r 3 then match c with 0 => (p 3%nat 0%nat + nx)%Z | 1 => (p 3%nat 1%nat + ny)%Z | 2 => (p 3%nat 2%nat + nz)%Z | _ => p r c end else p r c).
  assert (F0 : fits (p 3 0 + nx)) by (pose proof (Ba 3 0 ltac:(lia) ltac:(lia)); unfold fits; lia).
  assert (F1 : fits (p 3 1 + ny)) by (pose proof (Ba 3 1 ltac:(lia) ltac:(lia)); unfold fits; lia).
  assert (F2 : fits (p 3 2 + nz)) by (pose proof (Ba 3 2 ltac:(lia) ltac:(lia)); unfold fits; lia).
  assert (W' : WholeMatrix (translate a dx dy dz) p').
  { unfold WholeMatrix. apply all_entries; try (exact (Wa 0 0 ltac:(lia) ltac:(lia))); try (exact (Wa 0 1 ltac:(lia) ltac:(lia)));
      try (exact (Wa 0 2 ltac:(lia) ltac:(lia))); try (exact (Wa 0 3 ltac:(lia) ltac:(lia)));
      try (exact (Wa 1 0 ltac:(lia) ltac:(lia))); try (exact (Wa 1 1 ltac:(lia) ltac:(lia)));
      try (exact (Wa 1 2 ltac:(lia) ltac:(lia))); try (exact (Wa 1 3 ltac:(lia) ltac:(lia)));
      try (exact (Wa 2 0 ltac:(lia) ltac:(lia))); try (exact (Wa 2 1 ltac:(lia) ltac:(lia)));
      try (exact (Wa 2 2 ltac:(lia) ltac:(lia))); try (exact (Wa 2 3 ltac:(lia) ltac:(lia)));
      try (exact (Wa 3 3 ltac:(lia) ltac:(lia)));
      [exact (whole_add _ _ _ _ (Wa 3 0 ltac:(lia) ltac:(lia)) Wx F0)|exact (whole_add _ _ _ _ (Wa 3 1 ltac:(lia) ltac:(lia)) Wy F1)|
       exact (whole_add _ _ _ _ (Wa 3 2 ltac:(lia) ltac:(lia)) Wz F2)]. }
  assert (B' : Within (2 * B) p').
  { assert (HB : (0 <= B)%Z) by lia. intros r c Hr Hc. pose proof (Ba r c Hr Hc). unfold p'. destruct (Nat.eqb_spec r 3) as [->|]; [|lia].
    pose proof (Ba 3 0 ltac:(lia) ltac:(lia)); pose proof (Ba 3 1 ltac:(lia) ltac:(lia)); pose proof (Ba 3 2 ltac:(lia) ltac:(lia)).
    destruct c as [|[|[|c]]]; lia. }
  pose proof (whole_point _ _ (2 * B) C v x y z W' B' Wv Bx By Bz) as K.
  replace (moved p x y z 0 + nx)%Z with (moved p' x y z 0) by (unfold moved, p'; cbn [Nat.eqb]; ring).
  replace (moved p x y z 1 + ny)%Z with (moved p' x y z 1) by (unfold moved, p'; cbn [Nat.eqb]; ring).
  replace (moved p x y z 2 + nz)%Z with (moved p' x y z 2) by (unfold moved, p'; cbn [Nat.eqb]; ring).
  apply K. lia.
Qed.
Print Assumptions C61_translate.
(** C61: in the plane the first two coordinates are those of the point of height zero, for every matrix and point of
    finite numbers. *)
Theorem C61_plane : forall t v, FiniteEntries t -> Finite (p2x v) -> Finite (p2y v) ->
  let w := mul3d t (P3 (p2x v) (p2y v) f_zero) in
  Finite (p2x (mul2d t v)) -> Finite (p2y (mul2d t v)) ->
  NumEq (p2x (mul2d t v)) (px w) /\ NumEq (p2y (mul2d t v)) (py w).
Proof.
  assert (K : forall a x b y c d, Finite a -> Finite x -> Finite b -> Finite y -> Finite c -> Finite d ->
    Finite (fadd (fadd (fmul a x) (fmul b y)) d) ->
    NumEq (fadd (fadd (fmul a x) (fmul b y)) d) (dot4 a x b y c f_zero d)).
  { intros a x b y c d Fa Fx Fb Fy Fc Fd F. unfold dot4.
    assert (V1 := fmul_valid a x (finite_valid _ Fa) (finite_valid _ Fx)).
    assert (V2 := fmul_valid b y (finite_valid _ Fb) (finite_valid _ Fy)).
    destruct (fadd_operands _ _ (fadd_valid _ _ V1 V2) (finite_valid _ Fd) F) as [F4 _].
    destruct (fmul_exact c f_zero f_zero Fc I I) as [F0 E0]; [rewrite (fR_zero false : fR f_zero = 0%R); ring|].
    destruct (fadd_zero_r _ _ F4 F0 E0) as [F5 E5].
    pose proof (fadd_finite _ _ F4 Fd F) as S.
    destruct (fadd_correct _ _ F4 Fd S) as [_ E]. rewrite <- E5 in S.
    destruct (fadd_correct _ _ F5 Fd S) as [F6 E6]. apply NumEq_R; auto. rewrite E, E6, E5. reflexivity. }
  intros t v F Fx Fy w H1 H2. unfold w, mul3d, mul2d in *. cbn [px py p2x p2y] in *.
  split; apply K; auto; [apply (F 0 0)|apply (F 1 0)|apply (F 2 0)|apply (F 3 0)|apply (F 0 1)|apply (F 1 1)|apply (F 2 1)|apply (F 3 1)]; lia.
Qed.
Print Assumptions C61_plane.

(** C61 is false of float32 in general: a scaling by 0.1 and one by 10 move the point 13 to 13 when multiplied first,
    to 13.000001 when applied one after the other. *)
Definition scaling (x : f32) : Matrix :=
  M16 x f_zero f_zero f_zero f_zero x f_zero f_zero f_zero f_zero x f_zero f_zero f_zero f_zero f_one.
Theorem C61_refuted : exists a b v, FiniteEntries a /\ FiniteEntries b /\ FinitePoint v /\
  FinitePoint (mul3d (mat_mul a b) v) /\ FinitePoint (mul3d a (mul3d b v)) /\
  ~ NumEqPoint (mul3d (mat_mul a b) v) (mul3d a (mul3d b v)).
Proof.
  exists (scaling (S754_finite false 10485760 (-20))), (scaling (S754_finite false 13421773 (-27))).
  exists (P3 (S754_finite false 13631488 (-20)) f_zero f_zero).
  split; [unfold FiniteEntries; apply all_entries; vm_compute; auto|].
  split; [unfold FiniteEntries; apply all_entries; vm_compute; auto|].
  split; [vm_compute; auto|]. split; [vm_compute; auto|]. split; [vm_compute; auto|].
  intros [[_ H] _]. vm_compute in H. discriminate.
Qed.
Print Assumptions C61_refuted.
(** A rotation about z and a translation by (1, 2, 3) *)
Example C61_nonvacuous :
  let i := fun n : Z => binary_normalize f_prec f_emax n 0 false in
  let a := M16 (i 0%Z) (i 1%Z) (i 0%Z) (i 0%Z) (i (-1)%Z) (i 0%Z) (i 0%Z) (i 0%Z) (i 0%Z) (i 0%Z) (i 1%Z) (i 0%Z) (i 0%Z) (i 0%Z) (i 0%Z) (i 1%Z) in
  let b := translate identity (i 1%Z) (i 2%Z) (i 3%Z) in
  (exists p q, WholeMatrix a p /\ WholeMatrix b q /\ Within 3 p /\ Within 3 q /\ Affine q) /\
  WholePoint (P3 (i 5%Z) (i (-7)%Z) (i 11%Z)) 5 (-7) 11 /\
  FiniteEntries b /\
  mul3d (mat_mul a b) (P3 (i 5%Z) (i (-7)%Z) (i 11%Z)) = P3 (i 5%Z) (i 6%Z) (i 14%Z).
Proof.
  intros i a b.
  assert (W : forall n, In n [-7; -1; 0; 1; 2; 3; 5; 11]%Z -> Whole (i n) n).
  { intros n Hn. cbn [In] in Hn.
    repeat (destruct Hn as [<-|Hn]; [first [exact (conj I eq_refl)|apply whole_lit; vm_compute; first [reflexivity|discriminate]]|]).
    destruct Hn. }
  split.
  - exists (fun r c => nth (4 * r + c) [0;1;0;0;-1;0;0;0;0;0;1;0;0;0;0;1]%Z 0%Z), (fun r c => nth (4 * r + c) [1;0;0;0;0;1;0;0;0;0;1;0;1;2;3;1]%Z 0%Z).
    split; [unfold WholeMatrix; apply all_entries; match goal with |- Whole ?x ?n => let n' := eval vm_compute in n in assert (E : x = i n') by (vm_compute; reflexivity); rewrite E; apply (W n'); cbn; auto 20 end|].
    split; [unfold WholeMatrix; apply all_entries; match goal with |- Whole ?x ?n => let n' := eval vm_compute in n in assert (E : x = i n') by (vm_compute; reflexivity); rewrite E; apply (W n'); cbn; auto 20 end|].
    split; [unfold Within; apply all_entries; cbn; lia|]. split; [unfold Within; apply all_entries; cbn; lia|].
    repeat split.
  - split; [repeat split; apply W; cbn; auto 20|]. split; [unfold FiniteEntries; apply all_entries; vm_compute; auto|].
    vm_compute. reflexivity.
Qed.
