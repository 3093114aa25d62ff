(** * Proofs about the points the build places *)
From Coq Require Import ZArith Reals Lra Lia Permutation.
From Flocq Require Import Core.Core IEEE754.BinarySingleNaN.
From Verif Require Import GoBase GoFloat Types Conc M_Core M_Geom S_Core S_Geom S_Within P_Core P_Geom P_Float.
From Verif Require Import Types.
Local Open Scope list_scope.

(** ** Magnitudes *)
Definition wi (k : Z) (x : f32) : Prop := Finite x /\ (Rabs (fR x) <= bpow radix2 k)%R.
Definition wip (k : Z) (p : Point3D) : Prop := wi k (px p) /\ wi k (py p) /\ wi k (pz p).
Lemma within_wi k x : (0 <= k)%Z -> Within k x -> wi k x.
Proof.
  intros K [F H]. split; [exact F|]. apply IZR_le in H. rewrite abs_IZR, (scaled_R x F) in H.
  change 2%Z with (radix_val radix2) in H. rewrite IZR_Zpower in H by lia. rewrite bpow_plus, Rabs_mult in H.
  rewrite (Rabs_pos_eq (bpow radix2 149)) in H by apply bpow_ge_0. rewrite (Rmult_comm (bpow radix2 149)) in H.
  apply Rmult_le_reg_r in H; [exact H|apply bpow_gt_0].
Qed.
Lemma rnd_bound r e : (-149 <= e <= 127)%Z -> (Rabs r <= bpow radix2 e)%R -> (Rabs (rnd r) <= bpow radix2 e)%R.
Proof.
  intros E H. apply abs_round_le_generic; [apply fexp_correct; reflexivity|apply valid_rnd_round_mode| |exact H].
  apply generic_format_bpow. unfold SpecFloat.fexp, SpecFloat.emin. lia.
Qed.
Lemma small_bound r e : (-149 <= e <= 127)%Z -> (Rabs r <= bpow radix2 e)%R -> small r.
Proof.
  intros E H. unfold small. eapply Rle_lt_trans; [apply rnd_bound; eassumption|]. apply bpow_lt. lia.
Qed.
Lemma wi_mono a b x : (a <= b)%Z -> wi a x -> wi b x.
Proof. intros L [F H]. split; [exact F|]. eapply Rle_trans; [exact H|]. apply bpow_le. exact L. Qed.
Lemma wi_mul a b x y : (0 <= a)%Z -> (0 <= b)%Z -> (a + b <= 127)%Z -> wi a x -> wi b y -> wi (a + b) (fmul x y).
Proof.
  intros A B L [Fx Hx] [Fy Hy]. assert (H : (Rabs (fR x * fR y) <= bpow radix2 (a + b))%R).
  { rewrite Rabs_mult, bpow_plus. apply Rmult_le_compat; auto using Rabs_pos. }
  destruct (fmul_correct x y Fx Fy (small_bound _ (a + b) ltac:(lia) H)) as [F E]. split; [exact F|]. rewrite E. apply rnd_bound; [lia|exact H].
Qed.
Lemma wi_add a x y : (0 <= a)%Z -> (a + 1 <= 127)%Z -> wi a x -> wi a y -> wi (a + 1) (fadd x y).
Proof.
  intros A L [Fx Hx] [Fy Hy]. assert (H : (Rabs (fR x + fR y) <= bpow radix2 (a + 1))%R).
  { eapply Rle_trans; [apply Rabs_triang|]. rewrite bpow_plus. change (bpow radix2 1) with 2%R. lra. }
  destruct (fadd_correct x y Fx Fy (small_bound _ (a + 1) ltac:(lia) H)) as [F E]. split; [exact F|]. rewrite E. apply rnd_bound; [lia|exact H].
Qed.
Lemma wi_dot4 t k a x b y c z d : (0 <= t)%Z -> (0 <= k)%Z -> (k + t + 3 <= 127)%Z ->
  wi t a -> wi k x -> wi t b -> wi k y -> wi t c -> wi k z -> wi t d -> wi (k + (t + 3)) (dot4 a x b y c z d).
Proof.
  intros T K L A X B Y C Z D. unfold dot4.
  assert (P1 : wi (t + k) (fmul a x)) by (apply wi_mul; auto; lia). assert (P2 : wi (t + k) (fmul b y)) by (apply wi_mul; auto; lia).
  assert (P3 : wi (t + k) (fmul c z)) by (apply wi_mul; auto; lia).
  replace (k + (t + 3))%Z with (t + k + 1 + 1 + 1)%Z by lia. apply wi_add; try lia; [apply wi_add; try lia; [apply wi_add; auto; lia|]|].
  - revert P3. apply wi_mono. lia.
  - revert D. apply wi_mono. lia.
Qed.
Lemma move_mul3d t p : move t p = if feqb (m15 t) f_zero then p else mul3d t p.
Proof. reflexivity. Qed.
Lemma wi_mul3d t k M p : (0 <= t)%Z -> (0 <= k)%Z -> (k + t + 3 <= 127)%Z -> feqb (m15 M) f_zero = false -> Plain t M -> wip k p -> wip (k + (t + 3)) (mul3d M p).
Proof.
  intros T K L U P (X & Y & Z). destruct P as [P|(P1 & P2 & P3)]; [unfold unset in P; congruence|].
  destruct P1 as (A1 & A2 & A3 & A4 & _), P2 as (B1 & B2 & B3 & B4 & _), P3 as (C1 & C2 & C3 & C4 & _).
  unfold mul3d, wip. cbn [px py pz]. split; [|split]; apply wi_dot4; auto using within_wi.
Qed.
Definition wib (k : Z) (b : Box) : Prop := wip k (bmin b) /\ wip k (bmax b).
Lemma wip_finite k p : wip k p -> FinitePoint p.
Proof. intros ((X & _) & (Y & _) & (Z & _)). repeat split; assumption. Qed.
Lemma wip_mono a b p : (a <= b)%Z -> wip a p -> wip b p.
Proof. intros L (X & Y & Z). repeat split; eapply wi_mono; eassumption. Qed.
Lemma wib_mono a b x : (a <= b)%Z -> wib a x -> wib b x.
Proof. intros L [X Y]. split; eapply wip_mono; eassumption. Qed.
Lemma wi_mul_box t k M b : (0 <= t)%Z -> (0 <= k)%Z -> (k + t + 3 <= 127)%Z -> Plain t M -> wib k b -> wib (k + (t + 3)) (mul_box M b).
Proof.
  intros T K L P [A B]. unfold mul_box. destruct (feqb (m15 M) f_zero) eqn:U; [apply (wib_mono k); [lia|split; assumption]|].
  pose proof (wi_mul3d t k M _ T K L U P A) as (A1 & A2 & A3). pose proof (wi_mul3d t k M _ T K L U P B) as (B1 & B2 & B3).
  destruct (fltb (px (mul3d M (bmax b))) _), (fltb (py (mul3d M (bmax b))) _), (fltb (pz (mul3d M (bmax b))) _); repeat split; cbn [bmin bmax px py pz];
    first [apply A1|apply A2|apply A3|apply B1|apply B2|apply B3].
Qed.
Lemma move_inside t k M b p : (0 <= t)%Z -> (0 <= k)%Z -> (k + t + 3 <= 127)%Z -> Plain t M -> wib k b -> wip k p -> Inside p b -> Inside (move M p) (mul_box M b).
Proof.
  intros T K L P [A B] W I. rewrite move_mul3d. destruct (feqb (m15 M) f_zero) eqn:U; [unfold mul_box; rewrite U; exact I|].
  assert (F : FiniteMatrix M /\ RowSigns (m0 M) (m4 M) (m8 M) /\ RowSigns (m1 M) (m5 M) (m9 M) /\ RowSigns (m2 M) (m6 M) (m10 M)).
  { destruct P as [P|(P1 & P2 & P3)]; [unfold unset in P; congruence|].
    destruct P1 as ((A1 & _) & (A2 & _) & (A3 & _) & (A4 & _) & A5), P2 as ((B1 & _) & (B2 & _) & (B3 & _) & (B4 & _) & B5), P3 as ((C1 & _) & (C2 & _) & (C3 & _) & (C4 & _) & C5).
    repeat split; assumption. }
  destruct F as (F & R1 & R2 & R3). apply mul_box_contains; auto; eauto using wip_finite, wi_mul3d.
Qed.
Lemma wip_move t k M p : (0 <= t)%Z -> (0 <= k)%Z -> (k + t + 3 <= 127)%Z -> Plain t M -> wip k p -> wip (k + (t + 3)) (move M p).
Proof. intros T K L P W. rewrite move_mul3d. destruct (feqb (m15 M) f_zero) eqn:U; [apply (wip_mono k); [lia|exact W]|apply wi_mul3d; assumption]. Qed.

(** ** Unions of boxes *)
Lemma fold_boxes bs k : bs <> [] -> (forall b, In b bs -> wib k b) ->
  let r := fold_left extend bs limit_box in
  (forall b p, In b bs -> Inside p b -> Inside p r) /\
  ((exists b, In b bs /\ px (bmin b) = px (bmin r)) /\ (exists b, In b bs /\ px (bmax b) = px (bmax r)) /\
   (exists b, In b bs /\ py (bmin b) = py (bmin r)) /\ (exists b, In b bs /\ py (bmax b) = py (bmax r)) /\
   (exists b, In b bs /\ pz (bmin b) = pz (bmin r)) /\ (exists b, In b bs /\ pz (bmax b) = pz (bmax r))).
Proof.
  destruct bs as [|b0 bs]; [congruence|]. intros _ W. cbv zeta. rewrite fold_extend. cbn [limit_box bmin bmax px py pz].
  assert (Mi : forall f : Point3D -> f32, (forall p, wip k p -> Finite (f p)) ->
    (forall b, In b (b0 :: bs) -> Le (fold_left fmin (map (fun b => f (bmin b)) (b0 :: bs)) f_max) (f (bmin b))) /\
    exists b, In b (b0 :: bs) /\ f (bmin b) = fold_left fmin (map (fun b => f (bmin b)) (b0 :: bs)) f_max).
  { intros f Hf. rewrite <- (map_map bmin f). destruct (bbox_coord_min f (bmin b0) (map bmin bs)) as [H1 (p & Hp & E)].
    - intros p Hp. change (In p (map bmin (b0 :: bs))) in Hp. apply in_map_iff in Hp as (b & <- & Hb). apply Hf, W, Hb.
    - split; [intros b Hb; apply H1; exact (in_map bmin (b0 :: bs) b Hb)|]. change (In p (map bmin (b0 :: bs))) in Hp. apply in_map_iff in Hp as (b & <- & Hb). eauto. }
  assert (Ma : forall f : Point3D -> f32, (forall p, wip k p -> Finite (f p)) ->
    (forall b, In b (b0 :: bs) -> Le (f (bmax b)) (fold_left fmax (map (fun b => f (bmax b)) (b0 :: bs)) (fneg f_max))) /\
    exists b, In b (b0 :: bs) /\ f (bmax b) = fold_left fmax (map (fun b => f (bmax b)) (b0 :: bs)) (fneg f_max)).
  { intros f Hf. rewrite <- (map_map bmax f). destruct (bbox_coord_max f (bmax b0) (map bmax bs)) as [H1 (p & Hp & E)].
    - intros p Hp. change (In p (map bmax (b0 :: bs))) in Hp. apply in_map_iff in Hp as (b & <- & Hb). apply Hf, W, Hb.
    - split; [intros b Hb; apply H1; exact (in_map bmax (b0 :: bs) b Hb)|]. change (In p (map bmax (b0 :: bs))) in Hp. apply in_map_iff in Hp as (b & <- & Hb). eauto. }
  destruct (Mi px) as [A1 A2]; [intros p H; apply H|]. destruct (Mi py) as [B1 B2]; [intros p H; apply H|]. destruct (Mi pz) as [C1 C2]; [intros p H; apply H|].
  destruct (Ma px) as [D1 D2]; [intros p H; apply H|]. destruct (Ma py) as [E1 E2]; [intros p H; apply H|]. destruct (Ma pz) as [F1 F2]; [intros p H; apply H|].
  clear Mi Ma. split.
  - intros b p Hb ((I1 & I2) & (I3 & I4) & (I5 & I6)). unfold Inside. cbn [bmin bmax px py pz].
    repeat split; eapply Le_trans; try eassumption; [apply A1|apply D1|apply B1|apply E1|apply C1|apply F1]; exact Hb.
  - auto 10.
Qed.
Lemma fold_within bs k : bs <> [] -> (forall b, In b bs -> wib k b) -> wib k (fold_left extend bs limit_box).
Proof.
  intros N W. destruct (fold_boxes bs k N W) as (_ & (a & Ha & E1) & (b & Hb & E2) & (c & Hc & E3) & (d & Hd & E4) & (e & He & E5) & (f & Hf & E6)).
  unfold wib, wip. rewrite <- E1, <- E2, <- E3, <- E4, <- E5, <- E6. repeat split; first [apply (W a Ha)|apply (W b Hb)|apply (W c Hc)|apply (W d Hd)|apply (W e He)|apply (W f Hf)].
Qed.

(** ** Objects *)
Lemma feqb_num x y : NotNaN x -> NotNaN y -> feqb x y = true -> NumEq x y.
Proof. intros X Y E. apply NumEq_key; [assumption..|]. apply feqb_key in E; assumption. Qed.
Lemma squeezed l p h : feqb l f_zero = true -> feqb h f_zero = true -> Le l p -> Le p h -> NumEq p f_zero.
Proof.
  intros L H A B. apply feqb_num in L; [|eapply Le_nn_l; exact A|discriminate]. apply feqb_num in H; [|eapply Le_nn_r; exact B|discriminate].
  split; eapply Le_trans; try eassumption; [apply H|apply L].
Qed.
Lemma zero_inside b p : box_eqb b box_zero = true -> Inside p b -> NumEqPoint p (P3 f_zero f_zero f_zero).
Proof.
  unfold box_eqb, point_eqb. rewrite !Bool.andb_true_iff. intros (((A1 & A2) & A3) & ((B1 & B2) & B3)) ((I1 & I2) & (I3 & I4) & (I5 & I6)).
  repeat split; apply (squeezed _ _ _) with (2 := _) || idtac; cbn [px py pz];
  first [ apply (squeezed _ _ _ A1 B1 I1 I2) | apply (squeezed _ _ _ A2 B2 I3 I4) | apply (squeezed _ _ _ A3 B3 I5 I6) ].
Qed.
Section Within.
  Context (m : Model) (k t : Z) (n : nat) (O : Ordinary k t n m).
  Lemma keys : ChildsOk m.
  Proof. exact (or_keys _ _ _ _ O). Qed.
  Lemma target_at c file file' o : Target m c file file' o -> ObjectOf m o /\ exists rs, Addressed m file' rs /\ In o (rs_objects rs).
  Proof.
    intros T. split; [apply target_spec in T as [_ T]; [|exact keys]; apply find_object_in in T; tauto|].
    destruct T as (_ & rs & A & F). exists rs. split; [exact A|]. clear - F. destruct F as (a & b & E & _). rewrite E. apply in_or_app. right. left. reflexivity.
  Qed.
  Lemma target_unique c file f1 o1 f2 o2 : Target m c file f1 o1 -> Target m c file f2 o2 -> f1 = f2 /\ o1 = o2.
  Proof. intros A B. apply target_spec in A as [-> A]; [|exact keys]. apply target_spec in B as [-> B]; [|exact keys]. split; congruence. Qed.
  Lemma comps_fold file cs : forall acc b, CodeBoxOfComps m file acc cs b -> exists bs, b = fold_left extend bs acc /\
    (forall x, In x bs -> exists c file' o cb, In c cs /\ Target m c file file' o /\ CodeBoxOf m file' o cb /\ x = mul_box (co_tr c) cb) /\
    (forall c file' o, In c cs -> Target m c file file' o -> exists cb, CodeBoxOf m file' o cb /\ (box_eqb cb box_zero = true \/ In (mul_box (co_tr c) cb) bs)).
  Proof.
    induction cs as [|c cs IH]; intros acc b H; inversion H as [|? ? ? ? ? N H'|? ? ? ? file' o cb ? T B H']; subst.
    - exists []. split; [reflexivity|]. split; intros ? *; [intros []|intros []].
    - destruct (IH _ _ H') as (bs & E & I1 & I2). exists bs. split; [exact E|]. split.
      + intros x X. destruct (I1 x X) as (c' & f & o & cb & ? & ?). exists c', f, o, cb. cbn. tauto.
      + intros c' f o [<-|Hc] T; [destruct (N _ _ T)|eauto].
    - destruct (IH _ _ H') as (bs & E & I1 & I2). revert E. unfold add_box. destruct (box_eqb cb box_zero) eqn:Z; intros E.
      + exists bs. split; [exact E|]. split.
        * intros x X. destruct (I1 x X) as (c' & f & o' & cb' & ? & ?). exists c', f, o', cb'. cbn. tauto.
        * intros c' f o' [<-|Hc] T'; [|eauto]. destruct (target_unique _ _ _ _ _ _ T T') as [<- <-]. eauto.
      + exists (mul_box (co_tr c) cb :: bs). split; [exact E|]. split.
        * intros x [<-|X]; [exists c, file', o, cb; cbn; tauto|]. destruct (I1 x X) as (c' & f & o' & cb' & ? & ?). exists c', f, o', cb'. cbn. tauto.
        * intros c' f o' [<-|Hc] T'.
          -- destruct (target_unique _ _ _ _ _ _ T T') as [<- <-]. exists cb. split; [exact B|]. right. left. reflexivity.
          -- destruct (I2 _ _ _ Hc T') as (cb' & B' & [D|D]); exists cb'; split; auto. right. right. exact D.
  Qed.
  Definition At (file : string) (o : Object) : Prop := exists rs, Addressed m file rs /\ In o (rs_objects rs).
  Definition lim (r : nat) : Z := (k + (t + 3) * Z.of_nat r)%Z.
  Lemma lim_room r : r <= n -> (0 <= t /\ 0 <= lim r /\ lim r + t + 3 <= 127)%Z.
  Proof. intros L. pose proof (or_room _ _ _ _ O) as (A & B & C). unfold lim. nia. Qed.
  Lemma lim_S r : (lim (S r) = lim r + (t + 3))%Z.
  Proof. unfold lim. lia. Qed.
  Definition AllUnset : Prop := (forall o c, ObjectOf m o -> In c (Comps o) -> unset (co_tr c) = true) /\ forall it, In it (bu_items (mo_build m)) -> unset (it_tr it) = true.
  Lemma faces_union (P : Point3D -> Prop) bs r : bs <> [] -> (forall b, In b bs -> wib r b) -> (forall b, In b bs -> FacesTouch P b) -> FacesTouch P (fold_left extend bs limit_box).
  Proof.
    intros N W F. destruct (fold_boxes bs r N W) as (_ & (a & Ha & E1) & (b & Hb & E2) & (c & Hc & E3) & (d & Hd & E4) & (e & He & E5) & (f & Hf & E6)).
    apply F in Ha, Hb, Hc, Hd, He, Hf. unfold FacesTouch in *. rewrite <- E1, <- E2, <- E3, <- E4, <- E5, <- E6. tauto.
  Qed.
  Lemma faces_mono (P Q : Point3D -> Prop) b : (forall p, P p -> Q p) -> FacesTouch P b -> FacesTouch Q b.
  Proof. intros H ((p1 & A1 & B1) & (p2 & A2 & B2) & (p3 & A3 & B3) & (p4 & A4 & B4) & (p5 & A5 & B5) & (p6 & A6 & B6)). repeat split; eauto. Qed.
  Lemma mesh_points me : me_verts me <> [] -> (forall p, In p (me_verts me) -> wip k p) ->
    wib k (mesh_bbox me) /\ (forall p, In p (me_verts me) -> Inside p (mesh_bbox me)) /\ FacesTouch (fun p => In p (me_verts me)) (mesh_bbox me).
  Proof.
    intros N W. destruct (verts_bbox_spec (me_verts me) N) as [I T]; [intros p Hp; eapply wip_finite, W, Hp|]. unfold mesh_bbox. split; [|split; [exact I|exact T]].
    destruct T as ((p1 & A1 & B1) & (p2 & A2 & B2) & (p3 & A3 & B3) & (p4 & A4 & B4) & (p5 & A5 & B5) & (p6 & A6 & B6)).
    apply W in A1, A2, A3, A4, A5, A6. unfold wib, wip. rewrite <- B1, <- B2, <- B3, <- B4, <- B5, <- B6. unfold wip in *. tauto.
  Qed.
  Lemma object_points rank (Rn : forall o, ObjectOf m o -> rank o <= n)
    (Rd : forall o c file file' o', ObjectOf m o -> In c (Comps o) -> Target m c file file' o' -> rank o' < rank o) :
    forall r, r <= n -> forall file o b, rank o <= r -> ObjectOf m o -> At file o -> CodeBoxOf m file o b ->
    wib (lim r) b /\ (forall p, PointOf m file o p -> wip (lim r) p /\ Inside p b) /\ (AllUnset -> FacesTouch (PointOf m file o) b).
  Proof.
    induction r as [r IH] using lt_wf_ind. intros Ln file o b Lr Ho (rs & Ad & In_) B. pose proof (lim_room r Ln) as (T0 & K0 & Rm).
    destruct (or_full _ _ _ _ O _ _ _ Ad In_) as (p0 & P0 & N0). pose proof (or_room _ _ _ _ O) as (Rk & _ & _).
    destruct B as [file o me Em|file o Em Ec|file o b Em Ec B].
    - assert (V : forall p, PointOf m file o p -> In p (me_verts me)).
      { intros p H. destruct H as [? ? me' p E' Hp|? ? ? ? ? ? E' ? ? ?]; congruence. }
      destruct (mesh_points me) as (W & I & F).
      + intros E. apply V in P0. rewrite E in P0. destruct P0.
      + intros p Hp. destruct (or_verts _ _ _ _ O _ _ _ Ho Em Hp) as (X & Y & Z). split; [|split]; apply within_wi; assumption.
      + assert (L : (k <= lim r)%Z) by (unfold lim; nia). split; [|split].
        * eapply wib_mono; eassumption.
        * intros p Hp. apply V in Hp. split; [|apply I, Hp]. destruct (or_verts _ _ _ _ O _ _ _ Ho Em Hp) as (X & Y & Z).
          apply (wip_mono k); [exact L|]. split; [|split]; apply within_wi; assumption.
        * intros _. revert F. apply faces_mono. intros p Hp. eapply POMesh; eassumption.
    - exfalso. destruct P0 as [? ? ? ? E' _|? ? c ? ? ? _ Hc _ _]; [congruence|]. rewrite Ec in Hc. destruct Hc.
    - destruct (comps_fold _ _ _ _ B) as (bs & -> & I1 & I2).
      (* each target *)
      assert (Tg : forall c file' o' cb, In c (Comps o) -> Target m c file file' o' -> CodeBoxOf m file' o' cb ->
        wib (lim r) (mul_box (co_tr c) cb) /\ box_eqb cb box_zero = false /\
        (forall p, PointOf m file' o' p -> wip (lim r) (move (co_tr c) p) /\ Inside (move (co_tr c) p) (mul_box (co_tr c) cb)) /\
        (AllUnset -> FacesTouch (PointOf m file o) (mul_box (co_tr c) cb))).
      { intros c file' o' cb Hc Ht Hb. pose proof (Rd _ _ _ _ _ Ho Hc Ht) as Hr. destruct (target_at _ _ _ _ Ht) as (Ho' & At').
        destruct r as [|r']; [lia|]. assert (Ln' : r' <= n) by lia. pose proof (lim_room r' Ln') as (T1 & K1 & Rm').
        destruct (IH r' (Nat.lt_succ_diag_r r') Ln' file' o' cb ltac:(lia) Ho' At' Hb) as (W & P & F). pose proof (or_comps _ _ _ _ O _ _ Ho Hc) as Pl.
        rewrite lim_S. split; [apply wi_mul_box; auto|]. split; [|split].
        - destruct (box_eqb cb box_zero) eqn:Z; [|reflexivity]. exfalso. destruct At' as (rs' & Ad' & In'). destruct (or_full _ _ _ _ O _ _ _ Ad' In') as (q & Q & NQ).
          apply NQ, (zero_inside cb); [exact Z|]. apply P, Q.
        - intros p Hp. destruct (P p Hp) as (Wp & Ip). split; [apply wip_move; auto|]. apply (move_inside t (lim r')); auto.
        - intros U. assert (Uc : feqb (m15 (co_tr c)) f_zero = true) by (apply (proj1 U o c Ho Hc)). unfold mul_box. rewrite Uc. generalize (F U). apply faces_mono.
          intros p Hp. replace p with (move (co_tr c) p) by (rewrite move_mul3d, Uc; reflexivity). eapply POComp; eassumption. }
      assert (Wb : forall x, In x bs -> wib (lim r) x) by (intros x X; destruct (I1 x X) as (c & file' & o' & cb & Hc & Ht & Hb & ->); apply (Tg c file' o' cb Hc Ht Hb)).
      assert (Pt : forall p, PointOf m file o p -> exists c file' o' q cb, In c (Comps o) /\ Target m c file file' o' /\ CodeBoxOf m file' o' cb /\ PointOf m file' o' q /\ p = move (co_tr c) q /\ In (mul_box (co_tr c) cb) bs).
      { intros p H. destruct H as [? ? me' p E' Hp|? ? c file' o' q E' Hc Ht Hq]; [congruence|]. destruct (I2 c file' o' Hc Ht) as (cb & Hb & D).
        destruct (Tg c file' o' cb Hc Ht Hb) as (_ & Z & _). destruct D as [D|D]; [congruence|]. exists c, file', o', q, cb. auto 10. }
      assert (Ne : bs <> []) by (destruct (Pt p0 P0) as (? & ? & ? & ? & ? & _ & _ & _ & _ & _ & H); intros ->; destruct H).
      split; [apply fold_within; assumption|]. split.
      + intros p Hp. destruct (Pt p Hp) as (c & file' & o' & q & cb & Hc & Ht & Hb & Hq & -> & Hi). destruct (Tg c file' o' cb Hc Ht Hb) as (_ & _ & Tp & _).
        destruct (Tp q Hq) as (Wq & Iq). split; [exact Wq|]. destruct (fold_boxes bs (lim r) Ne Wb) as (Fo & _). eapply Fo; eassumption.
      + intros U. eapply faces_union; [exact Ne|exact Wb|]. intros x X. destruct (I1 x X) as (c & file' & o' & cb & Hc & Ht & Hb & ->). apply (Tg c file' o' cb Hc Ht Hb), U.
  Qed.
  (** ** The build *)
  Lemma explicit_deep : ExplicitDeep m.
  Proof.
    intros o1 c p o2 c' H1 H2 H3 H4 H5 H6 H7 H8. apply (or_paths _ _ _ _ O o1 c p o2 c' H1 H2); auto.
    - apply any_path_spec; exact H3.
    - apply target_spec; [exact keys|]. split; [|exact H5]. unfold comp_path. rewrite H3. apply seq_false in H4. rewrite H4. reflexivity.
    - apply any_path_spec; exact H8.
  Qed.
  Lemma item_points fuel it file o : In it (bu_items (mo_build m)) -> ItemTarget m it file o -> obj_bbox fuel m file o <> None ->
    exists x, item_box fuel m it = [x] /\ wib 127 x /\ (forall p, PointOf m file o p -> Inside (move (it_tr it) p) x) /\ (AllUnset -> FacesTouch (BuildPoint m) x).
  Proof.
    intros Hi T B. pose proof T as (Cp & Tg). apply any_path_spec in Cp. apply (find_object_spec _ _ _ _ keys) in Tg as Fo.
    pose proof (find_object_in _ _ _ _ Fo) as (Ho & _). destruct (obj_bbox fuel m file o) as [b|] eqn:Eb; [|congruence].
    pose proof (obj_bbox_boxof m file keys explicit_deep fuel file o b Ho (or_introl eq_refl) Eb) as Cb.
    assert (A : At file o) by (destruct Tg as (rs & Ad & (u & v & E & _)); exists rs; split; [exact Ad|]; rewrite E; apply in_or_app; right; left; reflexivity).
    destruct (or_depth _ _ _ _ O) as (rank & Rn & Rd). destruct (object_points rank Rn Rd n (le_n n) file o b (Rn o Ho) Ho A Cb) as (W & P & F).
    pose proof (lim_room n (le_n n)) as (T0 & K0 & Rm). pose proof (or_items _ _ _ _ O it Hi) as Pl.
    assert (Z : box_eqb b box_zero = false).
    { destruct (box_eqb b box_zero) eqn:Z; [|reflexivity]. exfalso. destruct A as (rs & Ad & In_). destruct (or_full _ _ _ _ O _ _ _ Ad In_) as (q & Q & NQ).
      apply NQ, (zero_inside b); [exact Z|]. apply P, Q. }
    exists (mul_box (it_tr it) b). split; [|split; [|split]].
    - unfold item_box, item_path. rewrite Cp, Fo, Eb, Z. reflexivity.
    - apply (wib_mono (lim n + (t + 3))); [lia|]. apply wi_mul_box; auto.
    - intros p Hp. destruct (P p Hp) as (Wp & Ip). apply (move_inside t (lim n)); auto.
    - intros U. assert (Ui : feqb (m15 (it_tr it)) f_zero = true) by (apply (proj2 U it Hi)). unfold mul_box. rewrite Ui. generalize (F U). apply faces_mono.
      intros p Hp. exists it, file, o, p. split; [exact Hi|]. split; [exact T|]. split; [exact Hp|]. rewrite move_mul3d, Ui. reflexivity.
  Qed.
  Lemma all_some_in {A} (l : list (option A)) ts x : all_some l = Some ts -> In x l -> x <> None.
  Proof.
    revert ts. induction l as [|y l IH]; intros ts H; [intros []|]. revert H. cbn. destruct y as [y|]; [|discriminate].
    destruct (all_some l) as [ts'|]; [|discriminate]. intros _ [<-|Hx]; [discriminate|]. eapply IH; [reflexivity|exact Hx].
  Qed.
  Theorem build_points fuel r : model_bbox fuel m r ->
    (forall p, BuildPoint m p -> Inside p r) /\ (AllUnset -> (exists p, BuildPoint m p) -> FacesTouch (BuildPoint m) r).
  Proof.
    unfold model_bbox. destruct (bu_items (mo_build m)) as [|i is] eqn:Ei.
    - intros ->. split; [|intros _]; [intros p|intros (p & H); revert H]; intros (it & file & o & q & Hi & _); rewrite Ei in Hi; destruct Hi.
    - rewrite <- Ei. intros (ts & Hts & Ho). apply (outcome_boxes _ _ _ _ _ Hts) in Ho as (bs & Pm & ->).
      assert (It : forall it file o, In it (bu_items (mo_build m)) -> ItemTarget m it file o -> obj_bbox fuel m file o <> None).
      { intros it file o Hi (Cp & Tg) N. apply any_path_spec in Cp. apply (find_object_spec _ _ _ _ keys) in Tg as Fo.
        apply (all_some_in _ _ (item_task fuel m it) Hts); [apply in_map, Hi|]. unfold item_task, item_path. rewrite Cp, Fo, N. reflexivity. }
      assert (Bx : forall x, In x bs -> exists it file o, In it (bu_items (mo_build m)) /\ ItemTarget m it file o /\ item_box fuel m it = [x]).
      { intros x Hx. apply (Permutation_in _ Pm) in Hx. apply in_concat in Hx as (l & Hl & Hx). apply in_map_iff in Hl as (it & <- & Hi).
        revert Hx. unfold item_box at 1. destruct (find_object m (item_path it) (it_oid it)) as [o|] eqn:Fo; [|intros []].
        destruct (obj_bbox fuel m (item_path it) o) as [b|] eqn:Eb; [|intros []]. destruct (negb (box_eqb b box_zero)) eqn:Z; [|intros []]. intros [<-|[]].
        exists it, (item_path it), o. split; [exact Hi|]. split; [split; [apply any_path_spec; reflexivity|apply (find_object_spec _ _ _ _ keys), Fo]|].
        unfold item_box. rewrite Fo, Eb, Z. reflexivity. }
      assert (W : forall x, In x bs -> wib 127 x).
      { intros x Hx. destruct (Bx x Hx) as (it & file & o & Hi & T & E). destruct (item_points fuel it file o Hi T (It _ _ _ Hi T)) as (y & E' & Wy & _).
        rewrite E in E'. injection E' as <-. exact Wy. }
      assert (Pt : forall p, BuildPoint m p -> exists x, In x bs /\ Inside p x).
      { intros p (it & file & o & q & Hi & T & Hq & ->). destruct (item_points fuel it file o Hi T (It _ _ _ Hi T)) as (y & E' & _ & Iy & _).
        exists y. split; [|apply Iy, Hq]. apply (Permutation_in _ (Permutation_sym Pm)). apply in_concat. exists [y]. split; [rewrite <- E'; apply in_map, Hi|left; reflexivity]. }
      split.
      + intros p Hp. destruct (Pt p Hp) as (x & Hx & Ix). assert (Ne : bs <> []) by (intros ->; destruct Hx). destruct (fold_boxes bs 127 Ne W) as (Fo & _). eapply Fo; eassumption.
      + intros U (p & Hp). destruct (Pt p Hp) as (x & Hx & _). assert (Ne : bs <> []) by (intros ->; destruct Hx). eapply faces_union; [exact Ne|exact W|].
        intros y Hy. destruct (Bx y Hy) as (it & file & o & Hi & T & E). destruct (item_points fuel it file o Hi T (It _ _ _ Hi T)) as (z & E' & _ & _ & Fz).
        rewrite E in E'. injection E' as <-. apply Fz, U.
  Qed.
End Within.
