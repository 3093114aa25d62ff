(** * Proofs about the box of a build and the boxes of parts of it *)
From Coq Require Import ZArith Lia Permutation.
From Verif Require Import GoBase GoFloat Types Conc M_Core M_Geom S_Core S_Geom S_Within S_Union P_Core P_Geom.
From Verif Require Import Types.
Local Open Scope list_scope.

(** ** Other items leave everything else *)
Lemma with_same m : with_items m (bu_items (mo_build m)) = m.
Proof. destruct m as [? ? ? ? ? [? ?] ? ? ? ? ? ? ? ?]; reflexivity. Qed.
Lemma with_find m its path i : find_object (with_items m its) path i = find_object m path i.
Proof. reflexivity. Qed.
Lemma with_obj m its path : forall fuel o, obj_bbox fuel (with_items m its) path o = obj_bbox fuel m path o.
Proof.
  induction fuel as [|f IH]; intros o; [reflexivity|]. cbn [obj_bbox]. destruct (ob_mesh o); [reflexivity|].
  destruct (comps_of o) as [|c0 cs0]; [reflexivity|]. generalize (c0 :: cs0) as cs, limit_box as acc.
  induction cs as [|c cs IHc]; intros acc; cbn [comps_bbox]; [reflexivity|]. rewrite with_find.
  destruct (find_object m (comp_path c path) (co_oid c)) as [o'|]; [|apply IHc]. rewrite IH.
  destruct (obj_bbox f m path o'); [apply IHc|reflexivity].
Qed.
Lemma with_task fuel m its it : item_task fuel (with_items m its) it = item_task fuel m it.
Proof. unfold item_task. rewrite with_find. destruct (find_object _ _ _); [|reflexivity]. rewrite with_obj. reflexivity. Qed.

(** ** The possible boxes, by the boxes of the items *)
Lemma some_all {A} (l : list (option A)) ts x : all_some l = Some ts -> In x l -> x <> None.
Proof.
  revert ts. induction l as [|y l IH]; intros ts; cbn; [intros _ []|]. destruct y as [y|]; [|discriminate].
  destruct (all_some l) as [r|]; [|discriminate]. intros _ [<-|H]; [discriminate|]. exact (IH r eq_refl H).
Qed.
Lemma bbox_char fuel m its r : its <> [] ->
  (model_bbox fuel (with_items m its) r <->
   (forall it, In it its -> item_task fuel m it <> None) /\
   exists bs, Permutation bs (concat (map (item_box fuel m) its)) /\ r = fold_left extend bs limit_box).
Proof.
  intros Ne. unfold model_bbox. change (bu_items (mo_build (with_items m its))) with its.
  destruct its as [|i0 is0]; [congruence|]. generalize (i0 :: is0) as its. intros its. clear Ne i0 is0.
  assert (E : map (item_task fuel (with_items m its)) its = map (item_task fuel m) its) by (apply map_ext; intros it; apply with_task).
  rewrite E. split.
  - intros (ts & Hts & Ho). split.
    + intros it Hi. apply (some_all _ _ _ Hts), in_map, Hi.
    + exact (outcome_boxes fuel m its ts r Hts Ho).
  - intros (Hs & bs & Pm & ->). destruct (all_some_exists (map (item_task fuel m) its)) as (ts & Hts).
    { intros x Hx. apply in_map_iff in Hx as (it & <- & Hi). exact (Hs it Hi). }
    exists ts. split; [exact Hts|]. rewrite <- apply_extend. apply outcome_order.
    rewrite (updates_items _ _ _ _ Hts). apply Permutation_map, Pm.
Qed.
Lemma boxes_perm fuel m l l' : Permutation l l' -> Permutation (concat (map (item_box fuel m) l)) (concat (map (item_box fuel m) l')).
Proof.
  induction 1; cbn; [constructor|apply Permutation_app_head; assumption| |eapply Permutation_trans; eassumption].
  rewrite !app_assoc. apply Permutation_app_tail, Permutation_app_comm.
Qed.
Lemma order_iff fuel m its : Permutation (bu_items (mo_build m)) its -> forall r, model_bbox fuel m r <-> model_bbox fuel (with_items m its) r.
Proof.
  intros Pm r. rewrite <- (with_same m) at 1. revert Pm. generalize (bu_items (mo_build m)) as l. intros l Pm.
  destruct l as [|i l]. { apply Permutation_nil in Pm as ->. reflexivity. }
  assert (Ne : its <> []) by (intros ->; apply Permutation_sym, Permutation_nil in Pm; discriminate).
  rewrite (bbox_char fuel m (i :: l)) by discriminate. rewrite (bbox_char fuel m its) by exact Ne. split; intros (A & bs & B & C).
  - split; [intros it Hi; apply A, (Permutation_in _ (Permutation_sym Pm)), Hi|]. exists bs. split; [|exact C].
    eapply Permutation_trans; [exact B|apply boxes_perm, Pm].
  - split; [intros it Hi; apply A, (Permutation_in _ Pm), Hi|]. exists bs. split; [|exact C].
    eapply Permutation_trans; [exact B|apply boxes_perm, Permutation_sym, Pm].
Qed.

(** ** Items that place nothing *)
Lemma nothing_task fuel m it : ChildsOk m -> 0 < fuel -> Nothing m it -> item_task fuel m it = Some None.
Proof.
  intros K F N. destruct fuel as [|f]; [lia|]. unfold item_task. destruct (find_object m (item_path it) (it_oid it)) as [o|] eqn:Fo; [|reflexivity].
  assert (T : ItemTarget m it (item_path it) o).
  { split; [apply any_path_spec; reflexivity|apply (find_object_spec _ _ _ _ K), Fo]. }
  destruct (N _ _ T) as [(me & Em & Ev)|(Em & Ec)]; cbn [obj_bbox]; rewrite Em.
  - unfold mesh_bbox. rewrite Ev. reflexivity.
  - change (comps_of o) with (Comps o). rewrite Ec. reflexivity.
Qed.
Lemma task_box fuel m it : item_task fuel m it = Some None -> item_box fuel m it = [].
Proof.
  unfold item_task, item_box. destruct (find_object _ _ _); [|reflexivity]. destruct (obj_bbox _ _ _ _); [|discriminate].
  destruct (negb _); [discriminate|reflexivity].
Qed.
Lemma without_tasks fuel m l l' : ChildsOk m -> 0 < fuel -> Without (Nothing m) l l' ->
  concat (map (item_box fuel m) l) = concat (map (item_box fuel m) l') /\
  ((forall it, In it l -> item_task fuel m it <> None) <-> (forall it, In it l' -> item_task fuel m it <> None)).
Proof.
  intros K F W. induction W as [|x l l' W (E & I)|x l l' Hx W (E & I)].
  - split; [reflexivity|tauto].
  - split; [cbn; rewrite E; reflexivity|]. split; intros H it [<-|Hi]; try (apply H; left; reflexivity).
    + apply (proj1 I); [intros j Hj; apply H; right; exact Hj|exact Hi].
    + apply (proj2 I); [intros j Hj; apply H; right; exact Hj|exact Hi].
  - pose proof (nothing_task fuel m x K F Hx) as T. split; [cbn; rewrite (task_box _ _ _ T); exact E|]. rewrite <- I. split; intros H it Hi.
    + apply H; right; exact Hi.
    + destruct Hi as [<-|Hi]; [rewrite T; discriminate|apply H, Hi].
Qed.
Lemma without_iff fuel m its : ChildsOk m -> 0 < fuel -> Without (Nothing m) (bu_items (mo_build m)) its -> its <> [] ->
  forall r, model_bbox fuel m r <-> model_bbox fuel (with_items m its) r.
Proof.
  intros K F W Ne r. rewrite <- (with_same m) at 1. revert W. generalize (bu_items (mo_build m)) as l. intros l W.
  assert (Nl : l <> []) by (intros ->; inversion W; subst; congruence).
  rewrite (bbox_char fuel m l r Nl), (bbox_char fuel m its r Ne). destruct (without_tasks fuel m l its K F W) as (-> & ->). reflexivity.
Qed.

(** ** The union *)
Lemma kle_total x y : NotNaN x -> NotNaN y -> kle (key x) (key y) \/ kle (key y) (key x).
Proof.
  intros X Y. destruct (fmin_key x y X Y) as (A & B & [E|E]); rewrite E in A, B; auto.
Qed.
Lemma kle_Le x y : NotNaN x -> NotNaN y -> kle (key x) (key y) -> Le x y.
Proof. intros X Y H. apply (Le_key x y X Y). exact H. Qed.
Lemma min_union l1 l2 l acc : NotNaN acc -> Forall NotNaN (l1 ++ l2) -> Permutation l (l1 ++ l2) ->
  Lesser (fold_left fmin l1 acc) (fold_left fmin l2 acc) (fold_left fmin l acc).
Proof.
  intros Ha Hf Pm. assert (Hl : Forall NotNaN l) by (rewrite Pm; exact Hf). apply Forall_app in Hf as (F1 & F2).
  destruct (fold_min_spec l1 acc Ha F1) as (N1 & A1 & B1 & C1), (fold_min_spec l2 acc Ha F2) as (N2 & A2 & B2 & C2), (fold_min_spec l acc Ha Hl) as (N & A & B & C).
  cbv zeta in *. set (r1 := fold_left fmin l1 acc) in *. set (r2 := fold_left fmin l2 acc) in *. set (r := fold_left fmin l acc) in *.
  assert (R1 : kle (key r) (key r1)).
  { destruct C1 as [C1|C1]; [rewrite C1; exact A|]. apply B, (Permutation_in _ (Permutation_sym Pm)), in_or_app. left; exact C1. }
  assert (R2 : kle (key r) (key r2)).
  { destruct C2 as [C2|C2]; [rewrite C2; exact A|]. apply B, (Permutation_in _ (Permutation_sym Pm)), in_or_app. right; exact C2. }
  assert (D : kle (key r1) (key r) \/ kle (key r2) (key r)).
  { destruct C as [C|C]; [left; rewrite C; exact A1|]. apply (Permutation_in _ Pm), in_app_or in C as [C|C]; [left; apply B1, C|right; apply B2, C]. }
  destruct (kle_total r1 r2 N1 N2) as [T|T]; [left|right]; (split; [apply kle_Le; assumption|split; apply kle_Le; try assumption]).
  - destruct D as [D|D]; [exact D|exact (kle_trans _ _ _ T D)].
  - destruct D as [D|D]; [exact (kle_trans _ _ _ T D)|exact D].
Qed.
Lemma max_union l1 l2 l acc : NotNaN acc -> Forall NotNaN (l1 ++ l2) -> Permutation l (l1 ++ l2) ->
  Greater (fold_left fmax l1 acc) (fold_left fmax l2 acc) (fold_left fmax l acc).
Proof.
  intros Ha Hf Pm. assert (Hl : Forall NotNaN l) by (rewrite Pm; exact Hf). apply Forall_app in Hf as (F1 & F2).
  destruct (fold_max_spec l1 acc Ha F1) as (N1 & A1 & B1 & C1), (fold_max_spec l2 acc Ha F2) as (N2 & A2 & B2 & C2), (fold_max_spec l acc Ha Hl) as (N & A & B & C).
  cbv zeta in *. set (r1 := fold_left fmax l1 acc) in *. set (r2 := fold_left fmax l2 acc) in *. set (r := fold_left fmax l acc) in *.
  assert (R1 : kle (key r1) (key r)).
  { destruct C1 as [C1|C1]; [rewrite C1; exact A|]. apply B, (Permutation_in _ (Permutation_sym Pm)), in_or_app. left; exact C1. }
  assert (R2 : kle (key r2) (key r)).
  { destruct C2 as [C2|C2]; [rewrite C2; exact A|]. apply B, (Permutation_in _ (Permutation_sym Pm)), in_or_app. right; exact C2. }
  assert (D : kle (key r) (key r1) \/ kle (key r) (key r2)).
  { destruct C as [C|C]; [left; rewrite C; exact A1|]. apply (Permutation_in _ Pm), in_app_or in C as [C|C]; [left; apply B1, C|right; apply B2, C]. }
  destruct (kle_total r2 r1 N2 N1) as [T|T]; [left|right]; (split; [apply kle_Le; assumption|split; apply kle_Le; try assumption]).
  - destruct D as [D|D]; [exact D|exact (kle_trans _ _ _ D T)].
  - destruct D as [D|D]; [exact (kle_trans _ _ _ D T)|exact D].
Qed.
Lemma fold_union b1 b2 bs : Forall NotNaNBox (b1 ++ b2) -> Permutation bs (b1 ++ b2) ->
  Union (fold_left extend b1 limit_box) (fold_left extend b2 limit_box) (fold_left extend bs limit_box).
Proof.
  intros F Pm. rewrite !fold_extend. unfold Union; cbn [bmin bmax px py pz].
  split; (split; [|split]); first [apply min_union|apply max_union]; try discriminate;
    rewrite <- map_app; first [apply Permutation_map; exact Pm|apply NotNaNBox_min; [intros ? ((?&?&?)&(?&?&?)); assumption|exact F]].
Qed.

(** A box of one item without a NaN *)
Lemma single_nn fuel m it x : item_task fuel m it <> None -> In x (item_box fuel m it) ->
  (forall b, model_bbox fuel (with_items m [it]) b -> NotNaNBox b) -> NotNaNBox x.
Proof.
  intros T Hx H. assert (E : item_box fuel m it = [x]).
  { revert Hx. unfold item_box. destruct (find_object _ _ _); [|intros []]. destruct (obj_bbox _ _ _ _); [|intros []].
    destruct (negb _); [intros [<-|[]]; reflexivity|intros []]. }
  assert (B : model_bbox fuel (with_items m [it]) (extend limit_box x)).
  { apply bbox_char; [discriminate|]. split; [intros j [<-|[]]; exact T|]. exists [x]. cbn [map concat]. rewrite E. split; reflexivity. }
  apply H in B. destruct B as ((A1 & A2 & A3) & (B1 & B2 & B3)). cbn [extend bmin bmax px py pz limit_box] in A1, A2, A3, B1, B2, B3.
  split; (split; [|split]); intros Z.
  - apply A1. rewrite Z. reflexivity.
  - apply A2. rewrite Z. reflexivity.
  - apply A3. rewrite Z. reflexivity.
  - apply B1. rewrite Z. reflexivity.
  - apply B2. rewrite Z. reflexivity.
  - apply B3. rewrite Z. reflexivity.
Qed.
Lemma box_union fuel m xs ys r r1 r2 : xs <> [] -> ys <> [] -> Permutation (bu_items (mo_build m)) (xs ++ ys) ->
  (forall it b, In it (bu_items (mo_build m)) -> model_bbox fuel (with_items m [it]) b -> NotNaNBox b) ->
  model_bbox fuel m r -> model_bbox fuel (with_items m xs) r1 -> model_bbox fuel (with_items m ys) r2 -> Union r1 r2 r.
Proof.
  intros X Y Pm H B B1 B2. apply (order_iff fuel m _ Pm) in B.
  apply bbox_char in B; [|destruct xs; [congruence|discriminate]]. apply bbox_char in B1; [|exact X]. apply bbox_char in B2; [|exact Y].
  destruct B as (S0 & bs & P0 & ->), B1 as (_ & b1 & P1 & ->), B2 as (_ & b2 & P2 & ->).
  assert (Q : Permutation bs (b1 ++ b2)).
  { eapply Permutation_trans; [exact P0|]. rewrite map_app, concat_app. apply Permutation_sym, Permutation_app; assumption. }
  apply fold_union; [|exact Q]. rewrite <- Q, P0. apply Forall_concat_map. intros it x Hi Hx. apply (single_nn fuel m it x); [apply S0, Hi|exact Hx|].
  intros b. apply H. exact (Permutation_in _ (Permutation_sym Pm) Hi).
Qed.
Lemma union_covers a b r : Union a b r -> Covers r a /\ Covers r b.
Proof.
  assert (L : forall x y z, Lesser x y z -> Le z x /\ Le z y).
  { intros x y z [(A & B & C)|(A & B & C)]; split; try assumption; eapply Le_trans; eassumption. }
  assert (G : forall x y z, Greater x y z -> Le x z /\ Le y z).
  { intros x y z [(A & B & C)|(A & B & C)]; split; try assumption; eapply Le_trans; eassumption. }
  intros ((A & B & C) & (D & E & F)). apply L in A, B, C. apply G in D, E, F. unfold Covers. tauto.
Qed.
