(** * Theorems: how far merged vertices may be apart: C11 up to the range of int32 *)
From Coq Require Import ZArith Reals Lra Lia.
From Flocq Require Import Core.Core.
From Verif Require Import GoBase GoFloat Types M_Core M_Geom S_Geom P_Geom P_Float S_Strconv P_Strconv S_Matrix M_Matrix P_Matrix S_Error P_Error T_Geom.
Local Open Scope R_scope.

Lemma quotient_off x R : Finite x -> Rabs (fR x) <= R -> R <= 2147 ->
  Finite (fdiv x micron) /\ Rabs (fR (fdiv x micron) - fR x / fR micron) <= unit32 * (R / fR micron) + / 1152921504606846976 /\ Rabs (fR (fdiv x micron)) < 2147483648.
Proof.
  intros Fx Hx HR. assert (Hm : fR micron <> 0) by (rewrite micron_R; lra). assert (Pm : 0 < / fR micron) by (rewrite micron_R; apply Rinv_0_lt_compat; lra).
  assert (Hq : Rabs (fR x / fR micron) <= R / fR micron).
  { unfold Rdiv. rewrite Rabs_mult, (Rabs_pos_eq (/ _)) by lra. apply Rmult_le_compat_r; lra. }
  pose proof (rnd_off (fR x / fR micron)) as H.
  assert (H1 : unit32 * Rabs (fR x / fR micron) <= unit32 * (R / fR micron)) by (apply Rmult_le_compat_l; [unfold unit32; lra|exact Hq]).
  assert (B : R / fR micron <= 2147000010).
  { rewrite micron_R. unfold Rdiv. replace (/ (8796093 * / 8796093022208)) with (8796093022208 / 8796093) by (field; lra). lra. }
  assert (L : Rabs (rnd (fR x / fR micron)) < 2147483648).
  { replace (rnd (fR x / fR micron)) with ((rnd (fR x / fR micron) - fR x / fR micron) + fR x / fR micron) by ring. eapply Rle_lt_trans; [apply Rabs_triang|]. unfold unit32 in *. lra. }
  destruct (fdiv_correct x micron Fx eq_refl Hm) as [F E].
  { unfold small. eapply Rlt_le_trans; [exact L|]. change 2147483648 with (bpow radix2 31). apply bpow_le. lia. }
  split; [exact F|]. rewrite E. split; [lra|exact L].
Qed.
Lemma same_cell_near oor x y z R : Finite x -> Finite y -> Rabs (fR x) <= R -> Rabs (fR y) <= R -> R <= 2147 ->
  CellIndex oor x z -> CellIndex oor y z -> Rabs (fR x - fR y) <= / 1000000 + 2 * unit32 * R.
Proof.
  intros Fx Fy Bx By HR Cx Cy. destruct (quotient_off x R Fx Bx HR) as (Qx & Ex & Lx). destruct (quotient_off y R Fy By HR) as (Qy & Ey & Ly).
  assert (K : forall u, CellIndex oor u z -> Finite (fdiv u micron) -> Rabs (fR (fdiv u micron)) < 2147483648 -> IZR z <= fR (fdiv u micron) < IZR z + 1).
  { intros u Cu Fu Bu. unfold CellIndex in Cu. change (S754_finite false 8796093 (-43)) with micron in Cu.
    destruct Cu as [(f & Hf & _ & ->)|[Hn _]]; [apply IsFloor_R; exact Hf|]. exfalso.
    destruct (floor_exists _ Fu) as (f & Hf). apply (Hn f Hf). apply IsFloor_R in Hf. apply Rabs_lt_inv in Bu. unfold Int32.
    assert (A : IZR f < IZR 2147483648) by lra. assert (C : IZR (-2147483649) < IZR f) by lra. apply lt_IZR in A, C. lia. }
  pose proof (K x Cx Qx Lx) as Kx. pose proof (K y Cy Qy Ly) as Ky.
  assert (Pm : 0 < fR micron) by (rewrite micron_R; lra).
  assert (D : Rabs (fR x / fR micron - fR y / fR micron) <= 1 + 2 * (unit32 * (R / fR micron) + / 1152921504606846976)).
  { apply Rabs_le_inv in Ex, Ey. apply Rabs_le. lra. }
  replace (fR x - fR y) with ((fR x / fR micron - fR y / fR micron) * fR micron) by (field; lra). rewrite Rabs_mult, (Rabs_pos_eq (fR micron)) by lra.
  apply (Rmult_le_compat_r (fR micron)) in D; [|lra]. eapply Rle_trans; [exact D|].
  replace ((1 + 2 * (unit32 * (R / fR micron) + / 1152921504606846976)) * fR micron) with (fR micron + 2 * unit32 * R + 2 * / 1152921504606846976 * fR micron) by (field; lra).
  rewrite micron_R. lra.
Qed.
(** C11, what holds in the range where the conversion to int32 is defined: vertices that get the same index are, in every
    coordinate, at most one micron and the rounding of a float32 of their size apart.  (The property asks for one micron.) *)
Theorem C11_near_partial : forall oor vs0 ps mb is k k' p p' i c R,
  (N.of_nat (List.length vs0 + List.length ps) <= 2 ^ 32)%N ->
  add_all oor (new_builder vs0) ps = (mb, is) ->
  nth_error ps k = Some p -> nth_error is k = Some i -> nth_error ps k' = Some p' -> nth_error is k' = Some i ->
  Finite (coord p c) -> Finite (coord p' c) -> Rabs (value (coord p c)) <= R -> Rabs (value (coord p' c)) <= R -> R <= 2147 ->
  Rabs (value (coord p c) - value (coord p' c)) <= / 1000000 + 2 * unit32 * R.
Proof.
  intros oor vs0 ps mb is k k' p p' i c R Hb E H1 H2 H3 H4 F F' B B' HR. rewrite !value_fR in *.
  destruct (C10_builder_indices oor vs0 ps mb is Hb E) as (_ & _ & _ & H & _).
  destruct (proj1 (H k k' p p' i i H1 H2 H3 H4) eq_refl) as ((zx & X1 & X2) & (zy & Y1 & Y2) & (zz & Z1 & Z2)).
  destruct c as [|[|c]]; cbn [coord] in *; [exact (same_cell_near oor _ _ zx R F F' B B' HR X1 X2)|exact (same_cell_near oor _ _ zy R F F' B B' HR Y1 Y2)|exact (same_cell_near oor _ _ zz R F F' B B' HR Z1 Z2)].
Qed.
Print Assumptions C11_near_partial.
(** The vertices of [C11_merge_refuted] *)
Example C11_near_nonvacuous : let x := S754_finite false 8912907 (-19) in let y := S754_finite false 8912908 (-19) in
  snd (add_all (fun _ => 0%Z) (new_builder []) [ex_pt x f_zero f_zero; ex_pt y f_zero f_zero]) = [0%N; 0%N] /\
  Finite x /\ Finite y /\ Rabs (value x) <= 18 /\ Rabs (value y) <= 18.
Proof.
  intros x y. split; [vm_compute; reflexivity|]. split; [reflexivity|]. split; [reflexivity|]. rewrite !value_fR.
  split; [change (Rabs (IZR 8912907 * / IZR 524288) <= 18)|change (Rabs (IZR 8912908 * / IZR 524288) <= 18)]; rewrite Rabs_pos_eq; lra.
Qed.
