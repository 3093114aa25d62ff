(** * Proofs about bounding boxes and the mesh builder *)
From Coq Require Import Permutation.
From Verif Require Import GoBase GoFloat Types M_Core M_Geom S_Core S_Geom P_Core Conc.

(** ** The order of float32 through lexicographic keys *)
Definition key (x : f32) : Z * Z * Z :=
  match x with
  | S754_zero _ => (0, 0, 0)
  | S754_infinity true => (-2, 0, 0)
  | S754_infinity false => (2, 0, 0)
  | S754_finite true m e => (-1, - e, Zneg m)
  | S754_finite false m e => (1, e, Zpos m)
  | S754_nan => (0, 0, 0)
  end%Z.
Definition klt (a b : Z * Z * Z) : Prop :=
  let '(x, y, z) := a in let '(x', y', z') := b in
  (x < x' \/ x = x' /\ (y < y' \/ y = y' /\ z < z'))%Z.

Lemma sf_compare_key x y : NotNaN x -> NotNaN y ->
  SFcompare x y = Some Lt /\ klt (key x) (key y) \/
  SFcompare x y = Some Gt /\ klt (key y) (key x) \/
  SFcompare x y = Some Eq /\ key x = key y.
Proof.
  unfold NotNaN. intros Hx Hy.
  destruct x as [sx|sx| |sx mx ex], y as [sy|sy| |sy my ey]; try congruence;
    try destruct sx; try destruct sy; cbn [SFcompare key klt]; try (left; split; [reflexivity|lia]);
    try (right; left; split; [reflexivity|lia]); try (right; right; split; reflexivity).
  - destruct (Z.compare_spec ex ey) as [->|H|H].
    + change (Pos.compare_cont Eq mx my) with (Pos.compare mx my).
      destruct (Pos.compare_spec mx my) as [->|H|H]; cbn [CompOpp].
      * right; right; auto.
      * right; left. split; [reflexivity|lia].
      * left. split; [reflexivity|lia].
    + right; left. split; [reflexivity|lia].
    + left. split; [reflexivity|lia].
  - destruct (Z.compare_spec ex ey) as [->|H|H].
    + change (Pos.compare_cont Eq mx my) with (Pos.compare mx my).
      destruct (Pos.compare_spec mx my) as [->|H|H].
      * right; right; auto.
      * left. split; [reflexivity|lia].
      * right; left. split; [reflexivity|lia].
    + left. split; [reflexivity|lia].
    + right; left. split; [reflexivity|lia].
Qed.
Lemma fltb_key x y : NotNaN x -> NotNaN y -> fltb x y = true <-> klt (key x) (key y).
Proof.
  intros Hx Hy. unfold fltb, SFltb.
  destruct (sf_compare_key x y Hx Hy) as [[-> H]|[[-> H]|[-> H]]].
  - tauto.
  - split; [discriminate|]. intros H'. exfalso. destruct (key x) as [[? ?] ?], (key y) as [[? ?] ?]; cbn in *; lia.
  - split; [discriminate|]. intros H'. rewrite H in H'. exfalso. destruct (key y) as [[? ?] ?]; cbn in *; lia.
Qed.
Lemma Le_key x y : NotNaN x -> NotNaN y -> Le x y <-> ~ klt (key y) (key x).
Proof.
  intros Hx Hy. unfold Le, fleb, SFleb.
  destruct (sf_compare_key x y Hx Hy) as [[-> H]|[[-> H]|[-> H]]].
  - split; [|reflexivity]. intros _ H'. destruct (key x) as [[? ?] ?], (key y) as [[? ?] ?]; cbn in *; lia.
  - split; [discriminate|tauto].
  - split; [|reflexivity]. intros _ H'. rewrite H in H'. destruct (key y) as [[? ?] ?]; cbn in *; lia.
Qed.
Lemma Le_nn_l x y : Le x y -> NotNaN x.
Proof. intros H ->. discriminate. Qed.
Lemma Le_nn_r x y : Le x y -> NotNaN y.
Proof. intros H ->. destruct x; discriminate. Qed.
Lemma feqb_key x y : NotNaN x -> NotNaN y -> feqb x y = true <-> key x = key y.
Proof.
  intros Hx Hy. unfold feqb, SFeqb.
  destruct (sf_compare_key x y Hx Hy) as [[-> H]|[[-> H]|[-> H]]]; [| |tauto];
    (split; [discriminate|]; intros E; rewrite E in H; exfalso; destruct (key y) as [[? ?] ?]; cbn in *; lia).
Qed.
Lemma NumEq_key x y : NotNaN x -> NotNaN y -> NumEq x y <-> key x = key y.
Proof.
  intros Hx Hy. unfold NumEq. rewrite (Le_key x y), (Le_key y x) by assumption.
  destruct (key x) as [[a b] c], (key y) as [[a' b'] c']; cbn. split.
  - intros H. repeat f_equal; lia.
  - intros H. injection H as -> -> ->. lia.
Qed.
Lemma Le_refl x : NotNaN x -> Le x x.
Proof. intros H. apply Le_key; auto. destruct (key x) as [[? ?] ?]; cbn; lia. Qed.
Lemma Le_trans x y z : Le x y -> Le y z -> Le x z.
Proof.
  intros H1 H2. pose proof (Le_nn_l _ _ H1) as Hx. pose proof (Le_nn_r _ _ H1) as Hy. pose proof (Le_nn_r _ _ H2) as Hz.
  rewrite Le_key in H1, H2 |- * by assumption.
  destruct (key x) as [[? ?] ?], (key y) as [[? ?] ?], (key z) as [[? ?] ?]; cbn in *; lia.
Qed.
Lemma finite_nn x : Finite x -> NotNaN x.
Proof. intros H ->. exact H. Qed.

(** No finite number is outside the limit box. *)
Lemma digits2_small m k : (Zpos (digits2_pos m) <= k)%Z -> (Zpos m < 2 ^ k)%Z.
Proof.
  revert k. induction m as [m IH|m IH|]; intros k H; cbn [digits2_pos] in H.
  - rewrite Pos2Z.inj_succ in H. assert (Hp : (0 < Zpos (digits2_pos m))%Z) by lia.
    specialize (IH (k - 1)%Z ltac:(lia)). replace k with ((k - 1) + 1)%Z by lia.
    rewrite Z.pow_add_r by lia. rewrite Pos2Z.inj_xI. lia.
  - rewrite Pos2Z.inj_succ in H. assert (Hp : (0 < Zpos (digits2_pos m))%Z) by lia.
    specialize (IH (k - 1)%Z ltac:(lia)). replace k with ((k - 1) + 1)%Z by lia.
    rewrite Z.pow_add_r by lia. rewrite Pos2Z.inj_xO. lia.
  - assert (2 ^ 1 <= 2 ^ k)%Z by (apply Z.pow_le_mono_r; lia). lia.
Qed.
Lemma finite_bound s m e : f_valid (S754_finite s m e) = true ->
  (e < 104 \/ e = 104 /\ Zpos m <= 16777215)%Z.
Proof.
  unfold f_valid; cbn [valid_binary]. unfold bounded. rewrite andb_true_iff. intros [H1 H2].
  apply Z.leb_le in H2. unfold f_emax, f_prec in *.
  unfold canonical_mantissa, fexp in H1. apply Zeq_is_eq_bool in H1.
  destruct (Z.eq_dec e 104) as [->|Hne]; [|left; lia]. right. split; [reflexivity|].
  assert (Zpos (digits2_pos m) <= 24)%Z as Hd by (unfold emin in H1; lia).
  apply digits2_small in Hd. change (2 ^ 24)%Z with 16777216%Z in Hd. lia.
Qed.
Lemma f_max_key : key f_max = (1, 104, 16777215)%Z.
Proof. reflexivity. Qed.
Lemma fneg_f_max_key : key (fneg f_max) = (-1, -104, -16777215)%Z.
Proof. reflexivity. Qed.
Lemma finite_le_max x : Finite x -> ~ klt (key f_max) (key x) /\ ~ klt (key x) (key (fneg f_max)).
Proof.
  rewrite f_max_key, fneg_f_max_key.
  destruct x as [s|s| |s m e]; cbn [Finite]; intros H; try contradiction; [cbn; lia|].
  apply finite_bound in H. destruct s; cbn [key klt]; lia.
Qed.

(** ** min and max *)
Lemma fmin_cases x y : fmin x y = x \/ fmin x y = y.
Proof. unfold fmin. destruct (fltb x y); auto. Qed.
Lemma fmax_cases x y : fmax x y = x \/ fmax x y = y.
Proof. unfold fmax. destruct (fltb y x); auto. Qed.
Lemma fmin_nn x y : NotNaN x -> NotNaN y -> NotNaN (fmin x y).
Proof. destruct (fmin_cases x y) as [-> | ->]; auto. Qed.
Lemma fmax_nn x y : NotNaN x -> NotNaN y -> NotNaN (fmax x y).
Proof. destruct (fmax_cases x y) as [-> | ->]; auto. Qed.
(** [le a b] on keys *)
Definition kle (a b : Z * Z * Z) : Prop := ~ klt b a.
Lemma fmin_key x y : NotNaN x -> NotNaN y ->
  kle (key (fmin x y)) (key x) /\ kle (key (fmin x y)) (key y) /\ (key (fmin x y) = key x \/ key (fmin x y) = key y).
Proof.
  intros Hx Hy. unfold fmin. pose proof (fltb_key x y Hx Hy) as H. unfold kle.
  destruct (fltb x y); [assert (K : klt (key x) (key y)) by tauto|assert (K : ~ klt (key x) (key y)) by (intros K; apply H in K; discriminate)];
    destruct (key x) as [[? ?] ?], (key y) as [[? ?] ?]; cbn in *; repeat split; try lia; auto.
Qed.
Lemma fmax_key x y : NotNaN x -> NotNaN y ->
  kle (key x) (key (fmax x y)) /\ kle (key y) (key (fmax x y)) /\ (key (fmax x y) = key x \/ key (fmax x y) = key y).
Proof.
  intros Hx Hy. unfold fmax. pose proof (fltb_key y x Hy Hx) as H. unfold kle.
  destruct (fltb y x); [assert (K : klt (key y) (key x)) by tauto|assert (K : ~ klt (key y) (key x)) by (intros K; apply H in K; discriminate)];
    destruct (key x) as [[? ?] ?], (key y) as [[? ?] ?]; cbn in *; repeat split; try lia; auto.
Qed.

(** ** Folds of min/max *)
Lemma kle_trans a b c : kle a b -> kle b c -> kle a c.
Proof. destruct a as [[? ?] ?], b as [[? ?] ?], c as [[? ?] ?]; unfold kle; cbn; lia. Qed.
Lemma kle_refl a : kle a a.
Proof. destruct a as [[? ?] ?]; unfold kle; cbn; lia. Qed.
Lemma kle_antisym a b : kle a b -> kle b a -> a = b.
Proof. destruct a as [[? ?] ?], b as [[? ?] ?]; unfold kle; cbn; intros; repeat f_equal; lia. Qed.

Lemma fold_min_spec l : forall acc, NotNaN acc -> Forall NotNaN l ->
  let r := fold_left fmin l acc in
  NotNaN r /\ kle (key r) (key acc) /\ (forall x, In x l -> kle (key r) (key x)) /\ (r = acc \/ In r l).
Proof.
  induction l as [|x l IH]; intros acc Ha Hl; cbn.
  - repeat split; auto; [apply kle_refl|tauto].
  - inversion_clear Hl as [|? ? Hx Hl']. destruct (fmin_key acc x Ha Hx) as (K1 & K2 & _).
    destruct (IH (fmin acc x) (fmin_nn _ _ Ha Hx) Hl') as (H1 & H2 & H3 & H4).
    repeat split; auto.
    + eapply kle_trans; eassumption.
    + intros y [<-|Hy]; [eapply kle_trans; eassumption|auto].
    + destruct H4 as [H4|H4]; [|auto]. rewrite H4. destruct (fmin_cases acc x) as [-> | ->]; auto.
Qed.
Lemma fold_max_spec l : forall acc, NotNaN acc -> Forall NotNaN l ->
  let r := fold_left fmax l acc in
  NotNaN r /\ kle (key acc) (key r) /\ (forall x, In x l -> kle (key x) (key r)) /\ (r = acc \/ In r l).
Proof.
  induction l as [|x l IH]; intros acc Ha Hl; cbn.
  - repeat split; auto; [apply kle_refl|tauto].
  - inversion_clear Hl as [|? ? Hx Hl']. destruct (fmax_key acc x Ha Hx) as (K1 & K2 & _).
    destruct (IH (fmax acc x) (fmax_nn _ _ Ha Hx) Hl') as (H1 & H2 & H3 & H4).
    repeat split; auto.
    + eapply kle_trans; eassumption.
    + intros y [<-|Hy]; [eapply kle_trans; eassumption|auto].
    + destruct H4 as [H4|H4]; [|auto]. rewrite H4. destruct (fmax_cases acc x) as [-> | ->]; auto.
Qed.
Lemma fold_min_finite l x : Forall Finite (x :: l) -> In (fold_left fmin (x :: l) f_max) (x :: l).
Proof.
  intros H. cbn [fold_left]. assert (E : fmin f_max x = x).
  { inversion_clear H as [|? ? Hx _]. unfold fmin. destruct (fltb f_max x) eqn:E; [|reflexivity].
    apply fltb_key in E; [|discriminate|apply finite_nn; assumption]. exfalso. exact (proj1 (finite_le_max _ Hx) E). }
  rewrite E. assert (H' : Forall NotNaN (x :: l)) by (eapply Forall_impl; [apply finite_nn|exact H]).
  inversion_clear H' as [|? ? Hx Hl]. destruct (fold_min_spec l x Hx Hl) as (_ & _ & _ & [H4|H4]); [left; symmetry|right]; exact H4.
Qed.
Lemma fold_max_finite l x : Forall Finite (x :: l) -> In (fold_left fmax (x :: l) (fneg f_max)) (x :: l).
Proof.
  intros H. cbn [fold_left]. assert (E : fmax (fneg f_max) x = x).
  { inversion_clear H as [|? ? Hx _]. unfold fmax. destruct (fltb x (fneg f_max)) eqn:E; [|reflexivity].
    apply fltb_key in E; [|apply finite_nn; assumption|discriminate]. exfalso. exact (proj2 (finite_le_max _ Hx) E). }
  rewrite E. assert (H' : Forall NotNaN (x :: l)) by (eapply Forall_impl; [apply finite_nn|exact H]).
  inversion_clear H' as [|? ? Hx Hl]. destruct (fold_max_spec l x Hx Hl) as (_ & _ & _ & [H4|H4]); [left; symmetry|right]; exact H4.
Qed.

(** extendPoint works coordinate by coordinate *)
Lemma fold_extend_point vs : forall b, fold_left extend_point vs b =
  mkBox (P3 (fold_left fmin (map px vs) (px (bmin b))) (fold_left fmin (map py vs) (py (bmin b))) (fold_left fmin (map pz vs) (pz (bmin b))))
        (P3 (fold_left fmax (map px vs) (px (bmax b))) (fold_left fmax (map py vs) (py (bmax b))) (fold_left fmax (map pz vs) (pz (bmax b)))).
Proof.
  induction vs as [|v vs IH]; intros b; cbn.
  - destruct b as [[] []]; reflexivity.
  - rewrite IH. reflexivity.
Qed.
Lemma fold_extend bs : forall b, fold_left extend bs b =
  mkBox (P3 (fold_left fmin (map (fun b => px (bmin b)) bs) (px (bmin b)))
            (fold_left fmin (map (fun b => py (bmin b)) bs) (py (bmin b)))
            (fold_left fmin (map (fun b => pz (bmin b)) bs) (pz (bmin b))))
        (P3 (fold_left fmax (map (fun b => px (bmax b)) bs) (px (bmax b)))
            (fold_left fmax (map (fun b => py (bmax b)) bs) (py (bmax b)))
            (fold_left fmax (map (fun b => pz (bmax b)) bs) (pz (bmax b)))).
Proof.
  induction bs as [|v vs IH]; intros b; cbn.
  - destruct b as [[] []]; reflexivity.
  - rewrite IH. reflexivity.
Qed.
Lemma map_finite (f : Point3D -> f32) vs : (forall p, In p vs -> Finite (f p)) -> Forall Finite (map f vs).
Proof. intros H. apply Forall_forall. intros x Hx. apply in_map_iff in Hx as (p & <- & Hp). auto. Qed.

Lemma bbox_coord_min (f : Point3D -> f32) v vs : (forall p, In p (v :: vs) -> Finite (f p)) ->
  (forall p, In p (v :: vs) -> Le (fold_left fmin (map f (v :: vs)) f_max) (f p)) /\
  exists p, In p (v :: vs) /\ f p = fold_left fmin (map f (v :: vs)) f_max.
Proof.
  intros H. pose proof (map_finite f (v :: vs) H) as HF.
  assert (HN : Forall NotNaN (map f (v :: vs))) by (eapply Forall_impl; [apply finite_nn|exact HF]).
  destruct (fold_min_spec _ f_max ltac:(discriminate) HN) as (H1 & _ & H3 & _).
  split.
  - intros p Hp. apply Le_key; [exact H1|apply finite_nn; auto|]. apply H3. apply in_map; exact Hp.
  - pose proof (fold_min_finite (map f vs) (f v) HF) as Hi.
    change (f v :: map f vs) with (map f (v :: vs)) in Hi. apply in_map_iff in Hi as (p & E & Hp). eauto.
Qed.
Lemma bbox_coord_max (f : Point3D -> f32) v vs : (forall p, In p (v :: vs) -> Finite (f p)) ->
  (forall p, In p (v :: vs) -> Le (f p) (fold_left fmax (map f (v :: vs)) (fneg f_max))) /\
  exists p, In p (v :: vs) /\ f p = fold_left fmax (map f (v :: vs)) (fneg f_max).
Proof.
  intros H. pose proof (map_finite f (v :: vs) H) as HF.
  assert (HN : Forall NotNaN (map f (v :: vs))) by (eapply Forall_impl; [apply finite_nn|exact HF]).
  destruct (fold_max_spec _ (fneg f_max) ltac:(discriminate) HN) as (H1 & _ & H3 & _).
  split.
  - intros p Hp. apply Le_key; [apply finite_nn; auto|exact H1|]. apply H3. apply in_map; exact Hp.
  - pose proof (fold_max_finite (map f vs) (f v) HF) as Hi.
    change (f v :: map f vs) with (map f (v :: vs)) in Hi. apply in_map_iff in Hi as (p & E & Hp). eauto.
Qed.
Lemma verts_bbox_spec vs : vs <> [] -> (forall p, In p vs -> FinitePoint p) ->
  (forall p, In p vs -> Inside p (verts_bbox vs)) /\ Touches vs (verts_bbox vs).
Proof.
  destruct vs as [|v vs]; [congruence|]. intros _ H. unfold verts_bbox. rewrite fold_extend_point.
  cbn [limit_box bmin bmax px py pz].
  destruct (bbox_coord_min px v vs) as [A1 A2]; [apply H|].
  destruct (bbox_coord_min py v vs) as [B1 B2]; [apply H|].
  destruct (bbox_coord_min pz v vs) as [C1 C2]; [apply H|].
  destruct (bbox_coord_max px v vs) as [D1 D2]; [apply H|].
  destruct (bbox_coord_max py v vs) as [E1 E2]; [apply H|].
  destruct (bbox_coord_max pz v vs) as [F1 F2]; [apply H|].
  split.
  - intros p Hp. unfold Inside; cbn [bmin bmax px py pz]. auto 10.
  - unfold Touches; cbn [bmin bmax px py pz]. auto 10.
Qed.

(** ** Schedules *)
Lemma fold_min_perm l l' acc : Permutation l l' -> NotNaN acc -> Forall NotNaN l ->
  NumEq (fold_left fmin l acc) (fold_left fmin l' acc).
Proof.
  intros HP Ha Hl. assert (Hl' : Forall NotNaN l') by (rewrite <- HP; exact Hl).
  destruct (fold_min_spec l acc Ha Hl) as (N1 & A1 & B1 & C1).
  destruct (fold_min_spec l' acc Ha Hl') as (N2 & A2 & B2 & C2).
  apply NumEq_key; auto. apply kle_antisym.
  - destruct C2 as [-> | C2]; [exact A1|]. apply B1. rewrite HP. exact C2.
  - destruct C1 as [-> | C1]; [exact A2|]. apply B2. rewrite <- HP. exact C1.
Qed.
Lemma fold_max_perm l l' acc : Permutation l l' -> NotNaN acc -> Forall NotNaN l ->
  NumEq (fold_left fmax l acc) (fold_left fmax l' acc).
Proof.
  intros HP Ha Hl. assert (Hl' : Forall NotNaN l') by (rewrite <- HP; exact Hl).
  destruct (fold_max_spec l acc Ha Hl) as (N1 & A1 & B1 & C1).
  destruct (fold_max_spec l' acc Ha Hl') as (N2 & A2 & B2 & C2).
  apply NumEq_key; auto. apply kle_antisym.
  - destruct C1 as [-> | C1]; [exact A2|]. apply B2. rewrite <- HP. exact C1.
  - destruct C2 as [-> | C2]; [exact A1|]. apply B1. rewrite HP. exact C2.
Qed.
Lemma NotNaNBox_min {g : Box -> f32} (bs : list Box) :
  (forall b, NotNaNBox b -> NotNaN (g b)) -> Forall NotNaNBox bs -> Forall NotNaN (map g bs).
Proof. intros Hg H. induction H; cbn; constructor; auto. Qed.
Lemma extend_perm bs bs' b : Permutation bs bs' -> NotNaNBox b -> Forall NotNaNBox bs ->
  NumEqBox (fold_left extend bs b) (fold_left extend bs' b).
Proof.
  intros HP ((X & Y & Z) & (X' & Y' & Z')) Hb. rewrite !fold_extend.
  unfold NumEqBox, NumEqPoint; cbn [bmin bmax px py pz].
  split; (split; [|split]); first [apply fold_min_perm|apply fold_max_perm];
    try (apply Permutation_map; exact HP); try assumption;
    (apply NotNaNBox_min; [intros ? ((?&?&?)&(?&?&?)); assumption|assumption]).
Qed.
Lemma limit_box_nn : NotNaNBox limit_box.
Proof. repeat split; discriminate. Qed.

(** The boxes the goroutines add. *)
Definition item_box (fuel : nat) (m : Model) (it : Item) : list Box :=
  match find_object m (item_path it) (it_oid it) with
  | Some o => match obj_bbox fuel m (item_path it) o with
              | Some ibox => if negb (box_eqb ibox box_zero) then [mul_box (it_tr it) ibox] else []
              | None => []
              end
  | None => []
  end.
Lemma updates_items fuel m its ts : all_some (map (item_task fuel m) its) = Some ts ->
  updates ts = map (fun b box => extend box b) (concat (map (item_box fuel m) its)).
Proof.
  revert ts. induction its as [|it its IH]; intros ts; cbn.
  - intros H; injection H as <-. reflexivity.
  - destruct (item_task fuel m it) as [t|] eqn:E; [|discriminate].
    destruct (all_some _) as [ts'|]; [|discriminate]. intros H; injection H as <-.
    unfold updates in *; cbn. rewrite (IH _ eq_refl), map_app. f_equal.
    unfold item_task in E. unfold item_box.
    destruct (find_object _ _ _); [|injection E as <-; reflexivity].
    destruct (obj_bbox _ _ _ _) as [ib|]; [|discriminate].
    destruct (negb _); injection E as <-; reflexivity.
Qed.
Lemma perm_map_inv {A B} (f : A -> B) (l : list A) (l' : list B) :
  Permutation l' (map f l) -> exists k, l' = map f k /\ Permutation k l.
Proof.
  intros H. apply Permutation_map_inv in H as (k & -> & H). exists k; split; auto.
  apply Permutation_sym; exact H.
Qed.
Lemma apply_extend bs : forall b, apply_all (map (fun b' box => extend box b') bs) b = fold_left extend bs b.
Proof. induction bs as [|x bs IH]; intros b; cbn; [reflexivity|]. apply IH. Qed.
Lemma outcome_boxes fuel m its ts r : all_some (map (item_task fuel m) its) = Some ts ->
  outcome limit_box ts r ->
  exists bs, Permutation bs (concat (map (item_box fuel m) its)) /\ r = fold_left extend bs limit_box.
Proof.
  intros Hts Ho. apply outcome_serial in Ho as (order & HP & ->). rewrite (updates_items _ _ _ _ Hts) in HP.
  apply perm_map_inv in HP as (k & -> & HP). exists k. split; [exact HP|]. apply apply_extend.
Qed.
Lemma Forall_concat_map {A B} (P : B -> Prop) (f : A -> list B) l :
  (forall x y, In x l -> In y (f x) -> P y) -> Forall P (concat (map f l)).
Proof.
  intros H. apply Forall_forall. intros y Hy. apply in_concat in Hy as (k & Hk & Hy).
  apply in_map_iff in Hk as (x & <- & Hx). eauto.
Qed.
Lemma model_bbox_schedule fuel m r1 r2 :
  (forall it b, In it (bu_items (mo_build m)) -> In b (item_box fuel m it) -> NotNaNBox b) ->
  model_bbox fuel m r1 -> model_bbox fuel m r2 -> NumEqBox r1 r2.
Proof.
  intros HN. unfold model_bbox. destruct (bu_items (mo_build m)) as [|i is] eqn:Ei.
  - intros -> ->. repeat split; reflexivity.
  - intros (ts & Hts & H1) (ts' & Hts' & H2). rewrite Hts in Hts'; injection Hts' as <-.
    apply (outcome_boxes _ _ _ _ _ Hts) in H1 as (b1 & P1 & ->).
    apply (outcome_boxes _ _ _ _ _ Hts) in H2 as (b2 & P2 & ->).
    apply extend_perm.
    + eapply Permutation_trans; [exact P1|apply Permutation_sym; exact P2].
    + apply limit_box_nn.
    + rewrite P1. apply Forall_concat_map. exact HN.
Qed.

(** Unset transforms keep boxes, so that plain vertices without NaN are enough. *)
Lemma mul_box_unset t b : feqb (m15 t) f_zero = true -> mul_box t b = b.
Proof. intros H. unfold mul_box. rewrite H. reflexivity. Qed.
Lemma extend_nn a b : NotNaNBox a -> NotNaNBox b -> NotNaNBox (extend a b).
Proof.
  intros ((?&?&?)&(?&?&?)) ((?&?&?)&(?&?&?)). unfold extend, NotNaNBox, NotNaNPoint; cbn [bmin bmax px py pz].
  repeat split; first [apply fmin_nn|apply fmax_nn]; assumption.
Qed.
Lemma verts_bbox_nn vs : (forall p, In p vs -> NotNaNPoint p) -> NotNaNBox (verts_bbox vs).
Proof.
  intros H. destruct vs as [|v vs]; [repeat split; discriminate|]. unfold verts_bbox. rewrite fold_extend_point.
  assert (HN : forall f : Point3D -> f32, (forall p, NotNaNPoint p -> NotNaN (f p)) -> Forall NotNaN (map f (v :: vs))).
  { intros f Hf. apply Forall_forall. intros x Hx. apply in_map_iff in Hx as (p & <- & Hp). auto. }
  unfold NotNaNBox, NotNaNPoint; cbn [bmin bmax px py pz limit_box].
  repeat split;
    first [apply (fun l a n f => proj1 (fold_min_spec l a n f)); [discriminate|apply HN; intros ? (?&?&?); assumption]
          |apply (fun l a n f => proj1 (fold_max_spec l a n f)); [discriminate|apply HN; intros ? (?&?&?); assumption]].
Qed.
Lemma find_obj_in l i o : find_obj i l = Some o -> In o l /\ ob_id o = i.
Proof.
  induction l as [|x l IH]; cbn; [discriminate|].
  destruct (N.eqb_spec (ob_id x) i) as [E|E].
  - intros H; injection H as <-. auto.
  - intros H. destruct (IH H); auto.
Qed.
Lemma find_resources_in m path rs : find_resources m path = Some rs ->
  rs = mo_res m \/ exists pc, In pc (mo_childs m) /\ ch_res (snd pc) = rs.
Proof.
  unfold find_resources, find_child. destruct (_ || _)%bool; [intros H; injection H as <-; auto|].
  destruct (aget seq path (mo_childs m)) as [c|] eqn:E; [|discriminate].
  intros H; injection H as <-. right. exists (path, c). split; [|reflexivity].
  apply aget_in; exact E.
Qed.
Lemma find_object_in m path i o : find_object m path i = Some o -> ObjectOf m o /\ ob_id o = i.
Proof.
  unfold find_object. destruct (find_resources m path) as [rs|] eqn:E; [|discriminate].
  intros H. apply find_obj_in in H as [H1 H2]. split; [|exact H2].
  apply find_resources_in in E as [-> |(pc & Hpc & <-)]; [left; exact H1|right; eauto].
Qed.
Lemma comps_bbox_nn m path rec : 
  (forall o b, ObjectOf m o -> rec o = Some b -> NotNaNBox b) ->
  forall cs box b, (forall c, In c cs -> feqb (m15 (co_tr c)) f_zero = true) ->
  NotNaNBox box -> comps_bbox m path rec box cs = Some b -> NotNaNBox b.
Proof.
  intros Hrec. induction cs as [|c cs IH]; intros box b Hc Hb; cbn.
  - intros H; injection H as <-; exact Hb.
  - destruct (find_object m (comp_path c path) (co_oid c)) as [o|] eqn:E.
    + destruct (rec o) as [cb|] eqn:Er; [|discriminate]. apply IH; [intros; apply Hc; right; assumption|].
      destruct (negb _); [|exact Hb]. apply extend_nn; [exact Hb|].
      rewrite mul_box_unset by (apply Hc; left; reflexivity).
      apply find_object_in in E as [E _]. eapply Hrec; eassumption.
    + apply IH; [intros; apply Hc; right; assumption|exact Hb].
Qed.
Lemma obj_bbox_nn m path : 
  (forall o c, ObjectOf m o -> In c (Comps o) -> feqb (m15 (co_tr c)) f_zero = true) ->
  (forall o me p, ObjectOf m o -> ob_mesh o = Some me -> In p (me_verts me) -> NotNaNPoint p) ->
  forall fuel o b, ObjectOf m o -> obj_bbox fuel m path o = Some b -> NotNaNBox b.
Proof.
  intros Hc Hv. induction fuel as [|f IH]; intros o b Ho; cbn [obj_bbox]; [discriminate|].
  destruct (ob_mesh o) as [me|] eqn:Em.
  - intros H; injection H as <-. apply verts_bbox_nn. eauto.
  - destruct (comps_of o) as [|c cs] eqn:Ec.
    + intros H; injection H as <-. repeat split; discriminate.
    + apply comps_bbox_nn; [exact IH| |apply limit_box_nn].
      intros c' Hc'. apply (Hc o); [exact Ho|]. unfold Comps, comps_of in *. rewrite Ec. exact Hc'.
Qed.

(** ** Resolution relative to the file *)
Lemma any_path_spec l p : CarriedPath l p <-> any_path l = p.
Proof.
  assert (K : forall g l', any_path (g :: l') = if seq (group_path g) "" then any_path l' else group_path g).
  { intros g l'. destruct g; cbn [any_path group_path]; try reflexivity; destruct (seq _ ""); reflexivity. }
  split.
  - intros H. destruct H as [l H|a g b H Hg].
    + induction l as [|g l IH]; [reflexivity|]. rewrite K, (H g (or_introl eq_refl)), seq_refl. apply IH.
      intros g' Hg'; apply H; right; exact Hg'.
    + induction a as [|g' a IH]; cbn [app]; rewrite K.
      * apply seq_false in Hg. rewrite Hg. reflexivity.
      * rewrite (H g' (or_introl eq_refl)), seq_refl. apply IH. intros; apply H; right; assumption.
  - intros <-. induction l as [|g l IH].
    + constructor. intros ? [].
    + rewrite K. destruct (seq_spec (group_path g) "") as [E|E].
      * remember (any_path l) as q eqn:Eq. clear Eq. destruct IH as [l H|a g' b H Hg].
        -- constructor. intros g' [<-|Hg']; auto.
        -- apply (CPSome (g :: a)). { intros g'' [<-|H']; auto. } exact Hg.
      * apply (CPSome []); [intros ? []|exact E].
Qed.
Lemma target_file c file file' : TargetFile c file file' <-> file' = comp_path c file.
Proof.
  unfold TargetFile, comp_path. split.
  - intros (p & Hp & H). apply any_path_spec in Hp. rewrite Hp.
    destruct H as [[-> ->]|[Hn ->]]; [rewrite seq_refl; reflexivity|]. apply seq_false in Hn. rewrite Hn. reflexivity.
  - intros ->. exists (any_path (co_any c)). split; [apply any_path_spec; reflexivity|].
    destruct (seq_spec (any_path (co_any c)) ""); auto.
Qed.

Lemma target_spec m c file file' o : ChildsOk m ->
  Target m c file file' o <-> file' = comp_path c file /\ find_object m file' (co_oid c) = Some o.
Proof. intros Hm. unfold Target. rewrite target_file, (find_object_spec _ _ _ _ Hm). tauto. Qed.

(** [add] of the specification, instantiated with the code's arithmetic *)
Definition add_box (acc : Box) (t : Matrix) (cb : Box) : Box :=
  if box_eqb cb box_zero then acc else extend acc (mul_box t cb).
Notation CodeBoxOf m := (BoxOf m mesh_bbox limit_box add_box box_zero).
Notation CodeBoxOfComps m := (BoxOfComps m mesh_bbox limit_box add_box box_zero).

(** A component with an explicit path leads to an object all of whose components have one. *)
Definition ExplicitDeep (m : Model) : Prop :=
  forall o c file' o' c', ObjectOf m o -> In c (Comps o) -> any_path (co_any c) = file' -> file' <> "" ->
    find_object m file' (co_oid c) = Some o' -> ob_mesh o' = None -> In c' (Comps o') -> any_path (co_any c') <> "".

Lemma obj_bbox_boxof m path : ChildsOk m -> ExplicitDeep m ->
  forall fuel file o b, ObjectOf m o ->
  (file = path \/ (ob_mesh o = None -> forall c, In c (Comps o) -> any_path (co_any c) <> "")) ->
  obj_bbox fuel m path o = Some b -> CodeBoxOf m file o b.
Proof.
  intros Hm HE. induction fuel as [|f IH]; intros file o b Ho Hf; cbn [obj_bbox]; [discriminate|].
  destruct (ob_mesh o) as [me|] eqn:Em.
  - intros H; injection H as <-. constructor; exact Em.
  - destruct (comps_of o) as [|c0 cs0] eqn:Ec.
    + intros H; injection H as <-. constructor 2; [exact Em|exact Ec].
    + intros H. constructor 3; [exact Em|unfold Comps, comps_of in *; rewrite Ec; discriminate|].
      change (Comps o) with (comps_of o). rewrite Ec.
      assert (Hin : forall c, In c (c0 :: cs0) -> In c (Comps o)) by (intros c; rewrite <- Ec; auto).
      cut (forall cs acc, (forall c, In c cs -> In c (Comps o)) ->
             comps_bbox m path (obj_bbox f m path) acc cs = Some b -> CodeBoxOfComps m file acc cs b).
      { intros K. apply K; assumption. }
      clear Ec c0 cs0 Hin H.
      induction cs as [|c cs IHc]; intros acc Hin; cbn.
      * intros H; injection H as <-. constructor.
      * assert (Hp : comp_path c path = comp_path c file).
        { destruct Hf as [->|Hf]; [reflexivity|]. unfold comp_path.
          specialize (Hf eq_refl c (Hin c (or_introl eq_refl))). apply seq_false in Hf. rewrite Hf. reflexivity. }
        destruct (find_object m (comp_path c path) (co_oid c)) as [o'|] eqn:Eo.
        -- destruct (obj_bbox f m path o') as [cb|] eqn:Er; [|discriminate]. intros H.
           assert (Ho' : ObjectOf m o') by (apply find_object_in in Eo; tauto).
           eapply BCAdd with (file' := comp_path c file) (o := o') (cb := cb).
           ++ apply target_spec; [exact Hm|]. split; [reflexivity|]. rewrite <- Hp. exact Eo.
           ++ apply IH; [exact Ho'| |exact Er].
              unfold comp_path in *. destruct (seq (any_path (co_any c)) "") eqn:Es.
              ** left. symmetry; exact Hp.
              ** right. intros Hm' c' Hc'. eapply (HE o c _ o' c'); [exact Ho|apply Hin; left; reflexivity|reflexivity| |exact Eo|exact Hm'|exact Hc'].
                 apply seq_false; exact Es.
           ++ unfold add_box. destruct (box_eqb cb box_zero); cbn in H; apply IHc; auto; intros; apply Hin; right; assumption.
        -- intros H. apply BCSkip.
           ++ intros file' o' Ht. apply target_spec in Ht as [-> Ht]; [|exact Hm]. rewrite <- Hp in Ht. congruence.
           ++ apply IHc; auto. intros; apply Hin; right; assumption.
Qed.

(** ** Termination on acyclic component graphs *)
Lemma obj_bbox_terminates m path rank :
  (forall o c o', ObjectOf m o -> In c (Comps o) -> ObjectOf m o' -> ob_id o' = co_oid c -> rank o' < rank o) ->
  forall fuel o, ObjectOf m o -> rank o < fuel -> exists b, obj_bbox fuel m path o = Some b.
Proof.
  intros HR. induction fuel as [|f IH]; intros o Ho Hf; [lia|]. cbn [obj_bbox].
  destruct (ob_mesh o) as [me|]; [eauto|].
  destruct (comps_of o) as [|c0 cs0] eqn:Ec; [eauto|].
  assert (Hin : forall c, In c (c0 :: cs0) -> In c (Comps o)) by (intros c; rewrite <- Ec; auto).
  revert Hin. generalize (c0 :: cs0) as cs, limit_box as acc.
  induction cs as [|c cs IHc]; intros acc Hin; cbn; [eauto|].
  destruct (find_object m (comp_path c path) (co_oid c)) as [o'|] eqn:Eo.
  - apply find_object_in in Eo as [Ho' Hid].
    destruct (IH o' Ho') as (b & ->).
    { specialize (HR o c o' Ho (Hin c (or_introl eq_refl)) Ho' Hid). lia. }
    apply IHc. intros; apply Hin; right; assumption.
  - apply IHc. intros; apply Hin; right; assumption.
Qed.
Lemma obj_bbox_mono m path : forall fuel o b, obj_bbox fuel m path o = Some b ->
  forall fuel', fuel <= fuel' -> obj_bbox fuel' m path o = Some b.
Proof.
  induction fuel as [|f IH]; intros o b; cbn [obj_bbox]; [discriminate|].
  intros H fuel' Hl. destruct fuel' as [|f']; [lia|]. cbn [obj_bbox].
  destruct (ob_mesh o) as [me|]; [exact H|].
  destruct (comps_of o) as [|c0 cs0]; [exact H|].
  revert H. generalize (c0 :: cs0) as cs, limit_box as acc.
  induction cs as [|c cs IHc]; intros acc; cbn; [auto|].
  destruct (find_object m (comp_path c path) (co_oid c)) as [o'|]; [|apply IHc].
  destruct (obj_bbox f m path o') as [cb|] eqn:Er; [|discriminate].
  rewrite (IH _ _ Er f' ltac:(lia)). apply IHc.
Qed.
Lemma all_some_exists {A} (l : list (option A)) : (forall x, In x l -> x <> None) -> exists r, all_some l = Some r.
Proof.
  induction l as [|x l IH]; intros H; cbn; [eauto|].
  destruct x as [x|]; [|exfalso; apply (H None (or_introl eq_refl)); reflexivity].
  destruct IH as (r & ->); [intros; apply H; right; assumption|eauto].
Qed.
Lemma finite_max {A} (f : A -> nat) l : exists n, forall x, In x l -> f x < n.
Proof.
  induction l as [|x l (n & IH)]; [exists 0; intros ? []|].
  exists (S (f x + n)). intros y [<-|Hy]; [lia|]. specialize (IH _ Hy). lia.
Qed.
Lemma model_bbox_terminates m : Acyclic m -> exists fuel r, model_bbox fuel m r.
Proof.
  intros (rank & HR). unfold model_bbox.
  destruct (bu_items (mo_build m)) as [|i is] eqn:Ei; [exists 0; eauto|].
  destruct (finite_max rank (rs_objects (mo_res m) ++ concat (map (fun pc => rs_objects (ch_res (snd pc))) (mo_childs m)))) as (n & Hn).
  assert (Hn' : forall o, ObjectOf m o -> rank o < n).
  { intros o [Ho|(pc & Hpc & Ho)]; apply Hn; apply in_app_iff; [auto|right].
    apply in_concat. eexists; split; [|exact Ho]. apply in_map_iff. eauto. }
  destruct (all_some_exists (map (item_task n m) (i :: is))) as (ts & Hts).
  { intros x Hx. apply in_map_iff in Hx as (it & <- & _). unfold item_task.
    destruct (find_object m (item_path it) (it_oid it)) as [o|] eqn:Eo; [|discriminate].
    apply find_object_in in Eo as [Ho _].
    destruct (obj_bbox_terminates m (item_path it) rank HR n o Ho (Hn' _ Ho)) as (b & ->).
    destruct (negb _); discriminate. }
  destruct (outcome_exists limit_box ts) as (r & Hr). exists n, r, ts. auto.
Qed.

(** ** MeshBuilder *)
Lemma floorZ_spec x z : floorZ x = Some z <-> IsFloor x z.
Proof.
  destruct x as [s|s| |s m e]; cbn; try (split; [discriminate|tauto]).
  - split; [intros H; injection H as <-; reflexivity|intros ->; reflexivity].
  - set (v := if s then Zneg m else Zpos m).
    destruct (Z.leb_spec 0 e) as [He|He].
    + split; [intros H; injection H as <-; reflexivity|intros ->; reflexivity].
    + assert (Hp : (0 < 2 ^ (- e))%Z) by (apply Z.pow_pos_nonneg; lia).
      pose proof (Z.div_mod v (2 ^ (- e))%Z ltac:(lia)) as D. pose proof (Z.mod_pos_bound v _ Hp) as B.
      split.
      * intros H; injection H as <-. nia.
      * intros H. f_equal. symmetry. apply Z.div_unique_pos with (r := (v - z * 2 ^ (- e))%Z); nia.
Qed.
Lemma cell1_spec oor x z : CellIndex oor x z <-> cell1 oor x = z.
Proof.
  unfold CellIndex, cell1, Int32. fold micron. set (q := fdiv x micron).
  destruct (floorZ q) as [f|] eqn:E.
  - apply floorZ_spec in E.
    assert (U : forall f', IsFloor q f' -> f' = f).
    { intros f' Hf'. apply floorZ_spec in Hf', E. congruence. }
    destruct ((- 2147483648 <=? f) && (f <=? 2147483647))%Z eqn:Eb.
    + apply andb_true_iff in Eb as [B1 B2]. apply Z.leb_le in B1, B2. split.
      * intros [(f' & Hf' & _ & ->)|[Hn _]]; [symmetry; auto|]. exfalso. apply (Hn f E). lia.
      * intros <-. left. exists f. repeat split; auto.
    + assert (Hb : ~ (- 2147483648 <= f <= 2147483647)%Z).
      { intros [B1 B2]. apply Z.leb_le in B1, B2. rewrite B1, B2 in Eb. discriminate. }
      split.
      * intros [(f' & Hf' & Hi & ->)|[_ ->]]; [|reflexivity]. rewrite (U _ Hf') in Hi. contradiction.
      * intros <-. right. split; [|reflexivity]. intros f' Hf'. rewrite (U _ Hf'). exact Hb.
  - split.
    + intros [(f' & Hf' & _)|[_ ->]]; [|reflexivity]. apply floorZ_spec in Hf'. congruence.
    + intros <-. right. split; [|reflexivity]. intros f' Hf'. apply floorZ_spec in Hf'. congruence.
Qed.
Lemma same_cell_spec oor p q : SameCell oor p q <-> cell_of oor p = cell_of oor q.
Proof.
  assert (K : forall x y, (exists z, CellIndex oor x z /\ CellIndex oor y z) <-> cell1 oor x = cell1 oor y).
  { intros x y. split.
    - intros (z & H1 & H2). apply cell1_spec in H1, H2. congruence.
    - intros E. exists (cell1 oor x). split; apply cell1_spec; auto. }
  unfold SameCell, cell_of. rewrite !K. split; [intros (-> & -> & ->); reflexivity|].
  intros H. injection H as H1 H2 H3. auto.
Qed.
Lemma cell_eqb_spec a b : reflect (a = b) (cell_eqb a b).
Proof.
  destruct a as [[x y] z], b as [[x' y'] z']; cbn.
  destruct (Z.eqb_spec x x'), (Z.eqb_spec y y'), (Z.eqb_spec z z'); cbn; constructor; congruence.
Qed.

Section BuilderProof.
  Variable oor : f32 -> Z.
  Notation cellp := (cell_of oor).
  (** The tree maps a cell to the index of the vertex stored for it. *)
  Definition BInv (n0 : nat) (mb : MB) : Prop :=
    n0 <= List.length (mb_verts mb) /\
    (forall k, aget cell_eqb k (mb_tree mb) = None ->
       forall i p, n0 <= i -> nth_error (mb_verts mb) i = Some p -> cellp p <> k) /\
    (forall k j, aget cell_eqb k (mb_tree mb) = Some j ->
       n0 <= N.to_nat j /\ exists p, nth_error (mb_verts mb) (N.to_nat j) = Some p /\ cellp p = k) /\
    (forall i j p q, n0 <= i -> n0 <= j -> nth_error (mb_verts mb) i = Some p -> nth_error (mb_verts mb) j = Some q ->
       cellp p = cellp q -> i = j).
  Lemma binv_new vs : BInv (List.length vs) (new_builder vs).
  Proof.
    split; [|split; [|split]]; cbn.
    - lia.
    - intros k _ i p H1 H2. exfalso. assert (i < List.length vs) by (apply nth_error_Some; congruence). lia.
    - discriminate.
    - intros i j p q H1 H2 H3. exfalso. assert (i < List.length vs) by (apply nth_error_Some; congruence). lia.
  Qed.
  Lemma nth_error_snoc {A} (l : list A) x i y : nth_error (l ++ [x]) i = Some y ->
    (i < List.length l /\ nth_error l i = Some y) \/ (i = List.length l /\ y = x).
  Proof.
    intros H. destruct (Nat.lt_ge_cases i (List.length l)) as [L|L].
    - left. rewrite nth_error_app1 in H by exact L. auto.
    - right. rewrite nth_error_app2 in H by exact L.
      destruct (i - List.length l) as [|[|]] eqn:E; cbn in H; try discriminate. injection H as <-. split; [lia|reflexivity].
  Qed.
  Lemma nth_error_last {A} (l : list A) x : nth_error (l ++ [x]) (List.length l) = Some x.
  Proof. rewrite nth_error_app2, Nat.sub_diag by lia. reflexivity. Qed.

  Lemma add_vertex_spec n0 mb p mb' i : BInv n0 mb -> mb_conn mb = true ->
    (N.of_nat (List.length (mb_verts mb)) < 2 ^ 32)%N ->
    add_vertex oor mb p = (mb', i) ->
    BInv n0 mb' /\ mb_conn mb' = true /\
    (exists v, nth_error (mb_verts mb') (N.to_nat i) = Some v /\ cellp v = cellp p) /\ n0 <= N.to_nat i /\
    ((mb_verts mb' = mb_verts mb /\ N.to_nat i < List.length (mb_verts mb)) \/
     (mb_verts mb' = mb_verts mb ++ [p] /\ i = N.of_nat (List.length (mb_verts mb)))).
  Proof.
    intros (H0 & Hnone & Hsome & Huniq) Hc Hb. unfold add_vertex. rewrite Hc.
    destruct (aget cell_eqb (cellp p) (mb_tree mb)) as [j|] eqn:E; cbv zeta.
    - intros H; injection H as <- <-. destruct (Hsome _ _ E) as (Hj & v & Hv & Ev).
      refine (conj (conj H0 (conj Hnone (conj Hsome Huniq))) (conj Hc (conj _ (conj Hj _)))).
      + exists v; auto.
      + left. split; [reflexivity|]. apply nth_error_Some. congruence.
    - assert (Ei : ((N.of_nat (List.length (mb_verts mb ++ [p])) + 2 ^ 32 - 1) mod 2 ^ 32)%N = N.of_nat (List.length (mb_verts mb))).
      { rewrite app_length; cbn. change (2 ^ 32)%N with 4294967296%N in *.
        replace (N.of_nat (List.length (mb_verts mb) + 1) + 4294967296 - 1)%N
          with (N.of_nat (List.length (mb_verts mb)) + 1 * 4294967296)%N by lia.
        rewrite N.mod_add by lia. apply N.mod_small. exact Hb. }
      rewrite Ei. intros H; injection H as <- <-. set (n := List.length (mb_verts mb)) in *.
      split; [|split; [reflexivity|split; [|split; [rewrite Nat2N.id; exact H0|right; split; reflexivity]]]].
      + split; [|split; [|split]]; cbn [mb_verts mb_tree].
        * rewrite app_length; cbn. fold n. lia.
        * intros k Hk i q Hi Hq. destruct (cell_eqb_spec k (cellp p)) as [->|Hne].
          { rewrite (aget_aset_same _ cell_eqb_spec) in Hk. discriminate. }
          rewrite (aget_aset_other _ cell_eqb_spec) in Hk by exact Hne.
          apply nth_error_snoc in Hq as [[_ Hq]|[_ ->]]; [eapply Hnone; eassumption|congruence].
        * intros k j Hk. destruct (cell_eqb_spec k (cellp p)) as [->|Hne].
          { rewrite (aget_aset_same _ cell_eqb_spec) in Hk. injection Hk as <-. rewrite Nat2N.id.
            split; [exact H0|]. exists p. split; [apply nth_error_last|reflexivity]. }
          rewrite (aget_aset_other _ cell_eqb_spec) in Hk by exact Hne.
          destruct (Hsome _ _ Hk) as (Hj & v & Hv & Ev). split; [exact Hj|]. exists v. split; [|exact Ev].
          rewrite nth_error_app1; [exact Hv|]. apply nth_error_Some; congruence.
        * intros i j q q' Hi Hj Hq Hq' Ec.
          apply nth_error_snoc in Hq as [[Li Hq]|[-> ->]]; apply nth_error_snoc in Hq' as [[Lj Hq']|[-> ->]].
          -- eapply Huniq; eassumption.
          -- exfalso. exact (Hnone _ E i q Hi Hq Ec).
          -- exfalso. symmetry in Ec. exact (Hnone _ E j q' Hj Hq' Ec).
          -- reflexivity.
      + exists p. cbn [mb_verts]. rewrite Nat2N.id. split; [apply nth_error_last|reflexivity].
  Qed.
  Lemma add_all_spec n0 ps : forall mb mb' is, BInv n0 mb -> mb_conn mb = true ->
    (N.of_nat (List.length (mb_verts mb) + List.length ps) <= 2 ^ 32)%N ->
    add_all oor mb ps = (mb', is) ->
    BInv n0 mb' /\ List.length is = List.length ps /\
    (exists new, mb_verts mb' = mb_verts mb ++ new) /\
    (forall k p i, nth_error ps k = Some p -> nth_error is k = Some i ->
       n0 <= N.to_nat i /\ exists v, nth_error (mb_verts mb') (N.to_nat i) = Some v /\ cellp v = cellp p /\
       (N.to_nat i < List.length (mb_verts mb) \/ exists j, j <= k /\ nth_error ps j = Some v /\ nth_error is j = Some i)).
  Proof.
    induction ps as [|p ps IH]; intros mb mb' is Hi Hc Hb; cbn [add_all].
    - intros H; injection H as <- <-. split; [exact Hi|split; [reflexivity|split; [exists []; rewrite app_nil_r; reflexivity|]]].
      intros [|k] p i; discriminate.
    - destruct (add_vertex oor mb p) as [mb1 i0] eqn:E1. destruct (add_all oor mb1 ps) as [mb2 is'] eqn:E2.
      intros H; injection H as <- <-. cbn [List.length] in Hb.
      destruct (add_vertex_spec n0 mb p mb1 i0 Hi Hc ltac:(lia) E1) as (I1 & C1 & (v0 & Hv0 & Ev0) & L0 & Hcase).
      assert (Hlen : List.length (mb_verts mb1) <= S (List.length (mb_verts mb))).
      { destruct Hcase as [[-> _]|[-> _]]; [lia|]. rewrite app_length; cbn; lia. }
      destruct (IH mb1 mb2 is' I1 C1 ltac:(lia) E2) as (I2 & Hl & (new & Hnew) & Hk).
      split; [exact I2|split; [cbn; lia|split]].
      + destruct Hcase as [[Ev _]|[Ev _]]; rewrite Ev in Hnew.
        * exists new; exact Hnew.
        * exists (p :: new). rewrite Hnew, <- app_assoc. reflexivity.
      + intros [|k] q i Hq Hi'; cbn in Hq, Hi'.
        * injection Hq as <-. injection Hi' as <-. split; [exact L0|]. exists v0. split; [|split; [exact Ev0|]].
          -- rewrite Hnew. rewrite nth_error_app1; [exact Hv0|]. apply nth_error_Some; congruence.
          -- destruct Hcase as [[_ L]|[Ev Ei]]; [left; exact L|]. right. exists 0. split; [lia|]. split; [|reflexivity].
             cbn. rewrite Ev, Ei, Nat2N.id, nth_error_last in Hv0. exact Hv0.
        * destruct (Hk k q i Hq Hi') as (L & v & Hv & Ec & Hor). split; [exact L|]. exists v.
          split; [exact Hv|split; [exact Ec|]].
          destruct Hor as [Lt|(j & Hj & Hj1 & Hj2)]; [|right; exists (S j); split; [lia|auto]].
          destruct Hcase as [[Ev _]|[Ev Ei]].
          -- left. rewrite Ev in Lt. exact Lt.
          -- rewrite Ev, app_length in Lt; cbn in Lt.
             destruct (Nat.eq_dec (N.to_nat i) (List.length (mb_verts mb))) as [E|Hne]; [|left; lia].
             right. exists 0. split; [lia|]. cbn. assert (i = i0) as -> by (rewrite Ei, <- E, N2Nat.id; reflexivity).
             split; [|reflexivity]. rewrite Hnew, Ev, E, <- app_assoc in Hv.
             rewrite nth_error_app2, Nat.sub_diag in Hv by lia. cbn in Hv. exact Hv.
  Qed.
  Lemma add_all_off ps : forall mb, mb_conn mb = false ->
    (N.of_nat (List.length (mb_verts mb) + List.length ps) <= 2 ^ 32)%N ->
    mb_verts (fst (add_all oor mb ps)) = mb_verts mb ++ ps /\
    snd (add_all oor mb ps) = map N.of_nat (List.seq (List.length (mb_verts mb)) (List.length ps)).
  Proof.
    induction ps as [|p ps IH]; intros mb Hc Hb; cbn [add_all].
    - cbn. rewrite app_nil_r. auto.
    - unfold add_vertex. rewrite Hc. cbv zeta. cbn [List.length] in *.
      assert (Ei : ((N.of_nat (List.length (mb_verts mb ++ [p])) + 2 ^ 32 - 1) mod 2 ^ 32)%N = N.of_nat (List.length (mb_verts mb))).
      { rewrite app_length; cbn. change (2 ^ 32)%N with 4294967296%N in *.
        replace (N.of_nat (List.length (mb_verts mb) + 1) + 4294967296 - 1)%N
          with (N.of_nat (List.length (mb_verts mb)) + 1 * 4294967296)%N by lia.
        rewrite N.mod_add by lia. apply N.mod_small. lia. }
      rewrite Ei.
      specialize (IH (mkMB false (mb_verts mb ++ [p]) (mb_tree mb)) eq_refl).
      cbn [mb_verts] in IH. rewrite app_length in IH; cbn [List.length] in IH.
      destruct IH as [I1 I2]; [lia|].
      destruct (add_all oor (mkMB false (mb_verts mb ++ [p]) (mb_tree mb)) ps) as [mb2 is'].
      cbn [fst snd] in *. rewrite I1, I2, <- app_assoc. split; [reflexivity|]. cbn. rewrite Nat.add_1_r. reflexivity.
  Qed.
End BuilderProof.
