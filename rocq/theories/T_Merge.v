(** * Theorem: two models put together: C100 *)
From Coq Require Import ZArith Lia Permutation.
From Verif Require Import GoBase GoFloat Types M_Errors Conc M_Core M_Geom M_Coherency S_Core S_Geom S_Within S_Union S_Placed S_Coherency S_Merge
  P_Core P_Geom P_Union P_Placed T_Core T_Geom T_Coherency T_Renumber T_Union.
From Verif Require Import Types.
Local Open Scope list_scope.

Lemma first_left {A} (key : A -> N) k l l' x : (forall y, In y l' -> key y <> k) -> FirstWith key k (l ++ l') x <-> FirstWith key k l x.
Proof.
  intros H. split; intros (b & a & E & K & F).
  - revert b E F. induction l as [|y l IH]; intros b E F.
    + exfalso. apply (H x); [|exact K]. cbn in E. rewrite E. apply in_or_app. right. left. reflexivity.
    + destruct b as [|z b]; injection E as <- E.
      * exists [], l. split; [reflexivity|]. split; [exact K|constructor].
      * inversion F; subst. destruct (IH b E) as (b' & a' & E' & _ & F'); [assumption|]. exists (y :: b'), a'. split; [rewrite E'; reflexivity|].
        split; [reflexivity|]. constructor; assumption.
  - exists b, (a ++ l'). split; [rewrite E, <- app_assoc; reflexivity|]. auto.
Qed.
Lemma first_right {A} (key : A -> N) k l l' x : (forall y, In y l -> key y <> k) -> FirstWith key k (l ++ l') x <-> FirstWith key k l' x.
Proof.
  intros H. split; intros (b & a & E & K & F).
  - revert b E F H. induction l as [|y l IH]; intros b E F H.
    + exists b, a. auto.
    + destruct b as [|z b]; injection E as <- E.
      * exfalso. exact (H y (or_introl eq_refl) K).
      * inversion F; subst. apply (IH b E); [assumption|]. intros w Hw. apply H. right. exact Hw.
  - exists (l ++ b), a. split; [rewrite E, app_assoc; reflexivity|]. split; [exact K|]. apply Forall_app. split; [|exact F]. apply Forall_forall. exact H.
Qed.
Lemma first_in {A} (key : A -> N) k l x : FirstWith key k l x -> In x l /\ key x = k.
Proof. intros (b & a & -> & K & _). split; [apply in_or_app; right; left; reflexivity|exact K]. Qed.
Lemma same_path m m' rs : mo_path m = mo_path m' -> forall file, Addressed m file rs ->
  (rs = mo_res m /\ Addressed m' file (mo_res m')) \/ (exists c, In (file, c) (mo_childs m) /\ rs = ch_res c /\ (In (file, c) (mo_childs m') -> Addressed m' file rs)).
Proof.
  intros E file A. destruct A as [H|H1 H2|H1 H2|c H1 H2 H3].
  - left. split; [reflexivity|]. apply AddrEmpty, H.
  - left. split; [reflexivity|]. rewrite E in H1, H2. apply AddrRoot; assumption.
  - left. split; [reflexivity|]. rewrite E in H1. apply AddrDefault; assumption.
  - right. exists c. split; [exact H3|]. split; [reflexivity|]. intros I. rewrite E in H2. apply AddrChild; assumption.
Qed.
Lemma merged_at1 m1 m2 m its file id o : Merged m1 m2 m -> (forall o, ObjectOf m2 o -> ob_id o <> id) -> At (with_items m its) file id o <-> At m1 file id o.
Proof.
  intros G H. unfold At. split; intros (rs & A & F).
  - destruct (same_path (with_items m its) m1 rs (mg_path1 _ _ _ G) file A) as [(-> & A')|(c & I & -> & A')].
    + exists (mo_res m1). split; [exact A'|]. change (mo_res (with_items m its)) with (mo_res m) in F. rewrite (mg_objects _ _ _ G) in F. apply first_left in F; [exact F|].
      intros y Hy. apply H. left. exact Hy.
    + change (mo_childs (with_items m its)) with (mo_childs m) in I. rewrite (mg_childs _ _ _ G) in I. apply in_app_or in I as [I|I].
      * exists (ch_res c). split; [apply A', I|exact F].
      * exfalso. apply first_in in F as (F1 & F2). apply (H o); [right; exists (file, c); auto|exact F2].
  - destruct (same_path m1 (with_items m its) rs (eq_sym (mg_path1 _ _ _ G)) file A) as [(-> & A')|(c & I & -> & A')].
    + exists (mo_res (with_items m its)). split; [exact A'|]. change (mo_res (with_items m its)) with (mo_res m). rewrite (mg_objects _ _ _ G). apply first_left; [|exact F].
      intros y Hy. apply H. left. exact Hy.
    + exists (ch_res c). split; [|exact F]. apply A'. change (mo_childs (with_items m its)) with (mo_childs m). rewrite (mg_childs _ _ _ G). apply in_or_app. left. exact I.
Qed.
Lemma merged_at2 m1 m2 m its file id o : Merged m1 m2 m -> (forall o, ObjectOf m1 o -> ob_id o <> id) -> At (with_items m its) file id o <-> At m2 file id o.
Proof.
  intros G H. unfold At. split; intros (rs & A & F).
  - destruct (same_path (with_items m its) m2 rs (mg_path2 _ _ _ G) file A) as [(-> & A')|(c & I & -> & A')].
    + exists (mo_res m2). split; [exact A'|]. change (mo_res (with_items m its)) with (mo_res m) in F. rewrite (mg_objects _ _ _ G) in F. apply first_right in F; [exact F|].
      intros y Hy. apply H. left. exact Hy.
    + change (mo_childs (with_items m its)) with (mo_childs m) in I. rewrite (mg_childs _ _ _ G) in I. apply in_app_or in I as [I|I].
      * exfalso. apply first_in in F as (F1 & F2). apply (H o); [right; exists (file, c); auto|exact F2].
      * exists (ch_res c). split; [apply A', I|exact F].
  - destruct (same_path m2 (with_items m its) rs (eq_sym (mg_path2 _ _ _ G)) file A) as [(-> & A')|(c & I & -> & A')].
    + exists (mo_res (with_items m its)). split; [exact A'|]. change (mo_res (with_items m its)) with (mo_res m). rewrite (mg_objects _ _ _ G). apply first_right; [|exact F].
      intros y Hy. apply H. left. exact Hy.
    + exists (ch_res c). split; [|exact F]. apply A'. change (mo_childs (with_items m its)) with (mo_childs m). rewrite (mg_childs _ _ _ G). apply in_or_app. right. exact I.
Qed.
Lemma nodup_left {A} (l l' : list A) : NoDup (l ++ l') -> NoDup l.
Proof. induction l as [|x l IH]; intros H; [constructor|]. inversion H; subst. constructor; [intros I; apply H2, in_or_app; left; exact I|apply IH; assumption]. Qed.
Lemma nodup_right {A} (l l' : list A) : NoDup (l ++ l') -> NoDup l'.
Proof. induction l as [|x l IH]; intros H; [exact H|]. inversion H; subst. apply IH; assumption. Qed.
Lemma merged_keys m1 m2 m its : Merged m1 m2 m -> ChildsOk m -> ChildsOk m1 /\ ChildsOk m2 /\ ChildsOk (with_items m its).
Proof.
  intros G K. split; [|split; [|exact K]]; unfold ChildsOk in *; rewrite (mg_childs _ _ _ G), map_app in K.
  - eapply nodup_left, K.
  - eapply nodup_right, K.
Qed.
(** The items of one of the models place in the merged model what they place in their own. *)
Lemma merged_named1 m1 m2 m : Merged m1 m2 m -> Apart m1 m2 -> SameNamed m1 (with_items m (bu_items (mo_build m1))).
Proof.
  intros G (A & _). split; [reflexivity|]. intros file id o N. symmetry. apply (merged_at1 m1 m2 m); [exact G|]. intros o' I E. apply (A o' I). rewrite E. exact N.
Qed.
Lemma merged_named2 m1 m2 m : Merged m1 m2 m -> Apart m1 m2 -> SameNamed m2 (with_items m (bu_items (mo_build m2))).
Proof.
  intros G (_ & A). split; [reflexivity|]. intros file id o N. symmetry. apply (merged_at2 m1 m2 m); [exact G|]. intros o' I E. apply (A o' I). rewrite E. exact N.
Qed.
(** C100: the box of the merged model is the least box around the boxes of the two models.
    Missing: empty builds, and boxes of single items with a NaN (C94_union_refuted). *)
Theorem C100_box_partial : forall fuel m1 m2 m r1 r2 r, Merged m1 m2 m -> Apart m1 m2 -> NoDup (map fst (mo_childs m)) ->
  bu_items (mo_build m1) <> [] -> bu_items (mo_build m2) <> [] ->
  (forall it b, In it (bu_items (mo_build m)) -> model_bbox fuel (with_items m [it]) b -> NotNaNBox b) ->
  model_bbox fuel m1 r1 -> model_bbox fuel m2 r2 -> model_bbox fuel m r -> Union r1 r2 r.
Proof.
  intros fuel m1 m2 m r1 r2 r G A K N1 N2 H B1 B2 B.
  apply (C94_union_partial fuel m (bu_items (mo_build m1)) (bu_items (mo_build m2)) r r1 r2 N1 N2); [rewrite (mg_items _ _ _ G); apply Permutation_refl|exact H|exact B| |].
  - destruct (merged_keys m1 m2 m (bu_items (mo_build m1)) G K) as (K1 & _ & K'). apply (named_bbox m1 _ fuel K1 K' (merged_named1 m1 m2 m G A)), B1.
  - destruct (merged_keys m1 m2 m (bu_items (mo_build m2)) G K) as (_ & K2 & K'). apply (named_bbox m2 _ fuel K2 K' (merged_named2 m1 m2 m G A)), B2.
Qed.
Print Assumptions C100_box_partial.

(** C100: ValidateCoherency reports nothing about the merged model exactly if it reports nothing about the two. *)
Lemma merged_object m1 m2 m o : Merged m1 m2 m -> (exists p i, ObjectAt m p i o) <-> (exists p i, ObjectAt m1 p i o) \/ (exists p i, ObjectAt m2 p i o).
Proof.
  intros G.
  assert (X : forall m, (exists p i, ObjectAt m p i o) <-> ObjectOf m o).
  { intros n. split.
    - intros (p & i & A). destruct A as [i o A|p c i o I A]; [left; eapply nth_error_In, A|right; exists (p, c); split; [exact I|eapply nth_error_In, A]].
    - intros [I|([p c] & I & J)]; [apply In_nth_error in I as (i & E); exists "", i; constructor; exact E|].
      apply In_nth_error in J as (i & E). exists p, i. eapply AtChild; eassumption. }
  rewrite !X. unfold ObjectOf. rewrite (mg_objects _ _ _ G), (mg_childs _ _ _ G). split.
  - intros [I|(pc & I & J)]; apply in_app_or in I as [I|I]; [left; left; exact I|right; left; exact I|left; right; eauto|right; right; eauto].
  - intros [[I|(pc & I & J)]|[I|(pc & I & J)]]; [left|right; exists pc|left|right; exists pc]; try split; try apply in_or_app; auto.
Qed.
Theorem C100_coherency : forall m1 m2 m, Merged m1 m2 m -> NoDup (map fst (mo_childs m)) -> ~ In "" (map fst (mo_childs m)) -> SmallModel m ->
  (model_coherency m None <-> model_coherency m1 None /\ model_coherency m2 None).
Proof.
  assert (Q : forall m, NoDup (map fst (mo_childs m)) -> ~ In "" (map fst (mo_childs m)) -> SmallModel m ->
    (model_coherency m None <-> forall o me, (exists p i, ObjectAt m p i o) -> Solid o -> ob_mesh o = Some me -> Coherent me)).
  { intros m K Z S. destruct (C18_model_coherency m K Z S) as ((r & Hr) & B & _). split.
    - intros H o me (p & i & A) So M. destruct (B None H) as (_ & _ & C). pose proof (proj1 C eq_refl) as N.
      pose proof (S p i o me A M) as Sm. apply (C17_mesh_coherency me Sm). destruct (mesh_coherency me) as [e|] eqn:E; [|reflexivity]. exfalso.
      apply (C17_mesh_coherency me Sm) in E. apply (N (mesh_location i, p, e)). exists p, i, o, me, e. auto.
    - intros H. destruct (B r Hr) as (_ & _ & C). rewrite <- (proj2 C); [exact Hr|]. intros x (p & i & o & me & e & A & So & M & I & _).
      pose proof (S p i o me A M) as Sm. apply (C17_mesh_coherency me Sm) in I.
      assert (N : mesh_coherency me = None) by (apply (C17_mesh_coherency me Sm), (H o me); eauto). congruence. }
  intros m1 m2 m G K Z S. pose proof (merged_object m1 m2 m) as MO.
  assert (S1 : SmallModel m1). { intros p i o me A M. destruct (proj2 (MO o G)) as (p' & i' & A'); [left; eauto|]. exact (S p' i' o me A' M). }
  assert (S2 : SmallModel m2). { intros p i o me A M. destruct (proj2 (MO o G)) as (p' & i' & A'); [right; eauto|]. exact (S p' i' o me A' M). }
  assert (Z1 : ~ In "" (map fst (mo_childs m1))). { intros I. apply Z. rewrite (mg_childs _ _ _ G), map_app. apply in_or_app. left. exact I. }
  assert (Z2 : ~ In "" (map fst (mo_childs m2))). { intros I. apply Z. rewrite (mg_childs _ _ _ G), map_app. apply in_or_app. right. exact I. }
  destruct (merged_keys m1 m2 m [] G K) as (K1 & K2 & _).
  rewrite (Q m K Z S), (Q m1 K1 Z1 S1), (Q m2 K2 Z2 S2). split.
  - intros H. split; intros o me A So M; (apply (H o me); [apply (MO o G); auto|exact So|exact M]).
  - intros (H1 & H2) o me A So M. apply (MO o G) in A as [A|A]; [apply (H1 o me A So M)|apply (H2 o me A So M)].
Qed.
Print Assumptions C100_coherency.
(** C100: a model with an empty build adds nothing to the box, on either side. *)
Theorem C100_empty : forall fuel m1 m2 m, Merged m1 m2 m -> Apart m1 m2 -> NoDup (map fst (mo_childs m)) ->
  (bu_items (mo_build m1) = [] -> forall r, model_bbox fuel m r <-> model_bbox fuel m2 r) /\
  (bu_items (mo_build m2) = [] -> forall r, model_bbox fuel m r <-> model_bbox fuel m1 r).
Proof.
  intros fuel m1 m2 m G A K. split; intros E r; rewrite <- (with_same m), (mg_items _ _ _ G), E; symmetry.
  - cbn [app]. destruct (merged_keys m1 m2 m (bu_items (mo_build m2)) G K) as (_ & K2 & K'). apply (named_bbox m2 _ fuel K2 K' (merged_named2 m1 m2 m G A)).
  - rewrite app_nil_r. destruct (merged_keys m1 m2 m (bu_items (mo_build m1)) G K) as (K1 & _ & K'). apply (named_bbox m1 _ fuel K1 K' (merged_named1 m1 m2 m G A)).
Qed.
Print Assumptions C100_empty.

Definition ex_left : Model := ex_bmodel [ex_mobj 1 [ex_pt f_one f_one f_one; ex_pt f_two f_two f_two]] [ex_item 1].
Definition ex_right (vs : list Point3D) : Model := ex_bmodel [ex_mobj 2 vs] [ex_item 2].
Definition ex_merged (vs : list Point3D) : Model :=
  ex_bmodel [ex_mobj 1 [ex_pt f_one f_one f_one; ex_pt f_two f_two f_two]; ex_mobj 2 vs] [ex_item 1; ex_item 2].
Lemma ex_merge vs : Merged ex_left (ex_right vs) (ex_merged vs) /\ Apart ex_left (ex_right vs).
Proof.
  split; [constructor; reflexivity|]. split.
  - intros o [[<-|[]]|(pc & [] & _)] [(it & [<-|[]] & E)|(o' & c & [[<-|[]]|(pc2 & [] & _)] & [] & _)]; discriminate.
  - intros o [[<-|[]]|(pc & [] & _)] [(it & [<-|[]] & E)|(o' & c & [[<-|[]]|(pc2 & [] & _)] & [] & _)]; discriminate.
Qed.
(** C100: refuted with a NaN. *)
Theorem C100_box_refuted : exists fuel m1 m2 m r1 r2 r, Merged m1 m2 m /\ Apart m1 m2 /\ bu_items (mo_build m1) <> [] /\ bu_items (mo_build m2) <> [] /\
  model_bbox fuel m1 r1 /\ model_bbox fuel m2 r2 /\ model_bbox fuel m r /\ ~ Union r1 r2 r.
Proof.
  set (b1 := mesh_bbox (ex_mesh [ex_pt f_one f_one f_one; ex_pt f_two f_two f_two])). set (b2 := mesh_bbox (ex_mesh [ex_pt S754_nan f_one f_one])).
  exists 1, ex_left, (ex_right [ex_pt S754_nan f_one f_one]), (ex_merged [ex_pt S754_nan f_one f_one]),
    (fold_left extend [b1] limit_box), (fold_left extend [b2] limit_box), (fold_left extend [b2; b1] limit_box).
  destruct (ex_merge [ex_pt S754_nan f_one f_one]) as (G & A). split; [exact G|]. split; [exact A|]. split; [discriminate|]. split; [discriminate|].
  split; [|split; [|split]].
  - rewrite <- (with_same ex_left). apply bbox_char; [discriminate|]. split; [intros it [<-|[]]; discriminate|]. exists [b1]. split; reflexivity.
  - rewrite <- (with_same (ex_right _)). apply bbox_char; [discriminate|]. split; [intros it [<-|[]]; discriminate|]. exists [b2]. split; reflexivity.
  - rewrite <- (with_same (ex_merged _)). apply bbox_char; [discriminate|]. split; [intros it [<-|[<-|[]]]; discriminate|].
    exists [b2; b1]. split; [|reflexivity]. apply (perm_swap b1 b2 []).
  - intros ((H & _) & _). destruct H as [(H & _)|(H & _)]; vm_compute in H; discriminate.
Qed.
Print Assumptions C100_box_refuted.
Example C100_nonvacuous : let vs := [ex_pt f_zero f_one f_one; ex_pt f_one f_two f_one] in
  Merged ex_left (ex_right vs) (ex_merged vs) /\ Apart ex_left (ex_right vs) /\
  (forall it b, In it (bu_items (mo_build (ex_merged vs))) -> model_bbox 1 (with_items (ex_merged vs) [it]) b -> NotNaNBox b) /\
  (exists r, model_bbox 1 (ex_merged vs) r) /\ SmallModel (ex_merged vs).
Proof.
  intros vs. destruct (ex_merge vs) as (G & A). split; [exact G|]. split; [exact A|]. split; [|split].
  - intros it b Hi Hb. apply (single_bbox 1 (with_items (ex_merged vs) [it]) it eq_refl) in Hb. revert Hb.
    destruct Hi as [<-|[<-|[]]]; vm_compute; intros E; injection E as <-; repeat split; discriminate.
  - eexists. rewrite <- (with_same (ex_merged vs)). apply bbox_char; [discriminate|]. split; [intros it [<-|[<-|[]]]; discriminate|].
    eexists. split; [apply Permutation_refl|]. vm_compute. reflexivity.
  - intros p i o me At M. destruct At as [i o At|p c i o [] At]. destruct i as [|[|[|i]]]; cbn in At; try discriminate; injection At as <-; injection M as <-; reflexivity.
Qed.
