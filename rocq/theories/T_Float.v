(** * What holds of C11, C14 and C56 about float32 values (uses the real numbers) *)
From Verif Require Import GoBase GoFloat Types M_Core M_Geom S_Geom P_Geom P_Float T_Geom.

(** C11, what holds: up to 16 units from the origin, points more than two microns apart in some
    coordinate get different indices.  Missing: the distance between one and two microns and
    larger coordinates, where the statement is false. *)
Theorem C11_merge_partial : forall oor vs0 ps mb is k k' p p' i i',
  (N.of_nat (List.length vs0 + List.length ps) <= 2 ^ 32)%N ->
  add_all oor (new_builder vs0) ps = (mb, is) ->
  nth_error ps k = Some p -> nth_error is k = Some i ->
  nth_error ps k' = Some p' -> nth_error is k' = Some i' ->
  (exists f, In f [px; py; pz] /\ Finite (f p) /\ Finite (f p') /\ Within16 (f p) /\ Within16 (f p') /\
     ApartMicrons 2 (f p) (f p')) ->
  i <> i'.
Proof.
  intros oor vs0 ps mb is k k' p p' i i' Hb E H1 H2 H3 H4 (f & Hf & F1 & F2 & W1 & W2 & A) Ei.
  destruct (C10_builder_indices oor vs0 ps mb is Hb E) as (_ & _ & _ & H & _).
  apply (H k k' p p' i i') in Ei; auto. destruct Ei as ((zx & X1 & X2) & (zy & Y1 & Y2) & (zz & Z1 & Z2)).
  destruct Hf as [<-|[<-|[<-|[]]]];
    [exact (cell_apart oor _ _ zx F1 F2 W1 W2 A X1 X2)|exact (cell_apart oor _ _ zy F1 F2 W1 W2 A Y1 Y2)|exact (cell_apart oor _ _ zz F1 F2 W1 W2 A Z1 Z2)].
Qed.
Print Assumptions C11_merge_partial.
Example C11_nonvacuous : 
  (exists f, In f [px; py; pz] /\ Finite (f (P3 f_one f_zero f_zero)) /\ Finite (f (P3 f_one f_two f_zero)) /\
     Within16 (f (P3 f_one f_zero f_zero)) /\ Within16 (f (P3 f_one f_two f_zero)) /\
     ApartMicrons 2 (f (P3 f_one f_zero f_zero)) (f (P3 f_one f_two f_zero))) /\
  snd (add_all (fun _ => 0%Z) (new_builder []) [P3 f_one f_zero f_zero; P3 f_one f_two f_zero]) = [0%N; 1%N].
Proof.
  split; [|reflexivity]. exists py. split; [right; left; reflexivity|]. repeat split; try reflexivity; discriminate.
Qed.

(** C14, what holds: in each row of the transform the coefficients have the same sign (so for
    translations, scalings and rotations by right angles), and the corners do not overflow.
    Missing: rows with mixed signs, for which two corners are not enough. *)
Theorem C14_mulbox_partial : forall t b p,
  feqb (m15 t) f_zero = false -> FiniteMatrix t ->
  RowSigns (m0 t) (m4 t) (m8 t) -> RowSigns (m1 t) (m5 t) (m9 t) -> RowSigns (m2 t) (m6 t) (m10 t) ->
  FinitePoint (bmin b) -> FinitePoint (bmax b) -> FinitePoint p -> Inside p b ->
  FinitePoint (mul3d t (bmin b)) -> FinitePoint (mul3d t (bmax b)) ->
  Inside (mul3d t p) (mul_box t b).
Proof. exact mul_box_contains. Qed.
Print Assumptions C14_mulbox_partial.
(** A rotation by a right angle with a translation. *)
Definition ex_quarter : Matrix :=
  M16 f_zero f_one f_zero f_zero  (fneg f_one) f_zero f_zero f_zero
      f_zero f_zero f_two f_zero  f_one f_two f_one f_one.
Example C14_nonvacuous :
  FiniteMatrix ex_quarter /\ RowSigns (m0 ex_quarter) (m4 ex_quarter) (m8 ex_quarter) /\
  RowSigns (m1 ex_quarter) (m5 ex_quarter) (m9 ex_quarter) /\ RowSigns (m2 ex_quarter) (m6 ex_quarter) (m10 ex_quarter) /\
  mul_box ex_quarter (mkBox (P3 f_zero f_zero f_zero) (P3 f_one f_two f_one)) =
    mkBox (P3 (fneg f_one) f_two f_one) (P3 f_one (S754_finite false 12582912 (-22)) (S754_finite false 12582912 (-22))).
Proof.
  split; [repeat split; reflexivity|]. split; [right; repeat split; reflexivity|].
  split; [left; repeat split; reflexivity|]. split; [left; repeat split; reflexivity|]. vm_compute. reflexivity.
Qed.

(** C56: multiplying by the identity also leaves a box unchanged, so that an unset transform
    and the identity place an object in the same way. *)
Theorem C56_identity_keeps_box : forall b,
  FinitePoint (bmin b) -> FinitePoint (bmax b) ->
  Le (px (bmin b)) (px (bmax b)) -> Le (py (bmin b)) (py (bmax b)) -> Le (pz (bmin b)) (pz (bmax b)) ->
  NumEqBox (mul_box identity b) (mul_box matrix_zero b).
Proof. intros b. rewrite C56_unset_transform_keeps_box. apply identity_box. Qed.
Print Assumptions C56_identity_keeps_box.
Example C56_nonvacuous : FinitePoint (P3 f_zero (fneg f_one) f_one) /\ FinitePoint (P3 f_one f_zero f_two) /\
  mul_box identity (mkBox (P3 f_zero (fneg f_one) f_one) (P3 f_one f_zero f_two)) =
    mkBox (P3 f_zero (fneg f_one) f_one) (P3 f_one f_zero f_two).
Proof. split; [repeat split; reflexivity|split; [repeat split; reflexivity|vm_compute; reflexivity]]. Qed.
