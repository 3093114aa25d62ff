(** * Proofs about what the build of a model places *)
From Coq Require Import Lia.
From Verif Require Import GoBase GoFloat Types Conc M_Core M_Geom S_Core S_Geom S_Within S_Placed P_Core P_Geom.
From Verif Require Import Types.
Local Open Scope list_scope.

Definition Both (P : Object -> Object -> Prop) (a b : option Object) : Prop :=
  match a, b with None, None => True | Some x, Some y => P x y | _, _ => False end.
(** Objects whose references lead to alike objects have the same box. *)
Lemma alike_box m m' path (Inv : Object -> Prop) :
  (forall o c, Inv o -> ob_mesh o = None -> In c (Comps o) ->
     Both (fun a b => Alike a b /\ Inv a) (find_object m (comp_path c path) (co_oid c)) (find_object m' (comp_path c path) (co_oid c))) ->
  forall fuel o o', Inv o -> Alike o o' -> obj_bbox fuel m path o = obj_bbox fuel m' path o'.
Proof.
  intros H. induction fuel as [|f IH]; intros o o' I A; [reflexivity|]. cbn [obj_bbox]. unfold Alike in A.
  destruct (ob_mesh o) as [me|] eqn:Em, (ob_mesh o') as [me'|]; try contradiction.
  - unfold mesh_bbox. rewrite A. reflexivity.
  - change (comps_of o) with (Comps o). change (comps_of o') with (Comps o'). rewrite <- A.
    assert (G : forall cs, (forall c, In c cs -> In c (Comps o)) -> forall acc,
      comps_bbox m path (obj_bbox f m path) acc cs = comps_bbox m' path (obj_bbox f m' path) acc cs).
    { induction cs as [|c cs IHc]; intros Hc acc; [reflexivity|]. cbn [comps_bbox].
      assert (Ht : forall c', In c' cs -> In c' (Comps o)) by (intros c' Hc'; apply Hc; right; exact Hc').
      pose proof (H o c I Em (Hc c (or_introl eq_refl))) as B. unfold Both in B.
      destruct (find_object m (comp_path c path) (co_oid c)) as [a|], (find_object m' (comp_path c path) (co_oid c)) as [b|]; try contradiction.
      - destruct B as (B & J). rewrite (IH a b J B). destruct (obj_bbox f m' path b); [apply IHc, Ht|reflexivity].
      - apply IHc, Ht. }
    destruct (Comps o) as [|c0 cs0]; [reflexivity|]. apply G. auto.
Qed.
Lemma tasks_bbox m m' fuel : bu_items (mo_build m) = bu_items (mo_build m') ->
  (forall it, In it (bu_items (mo_build m)) -> item_task fuel m it = item_task fuel m' it) ->
  forall r, model_bbox fuel m r <-> model_bbox fuel m' r.
Proof.
  intros E H r. unfold model_bbox. rewrite <- E. destruct (bu_items (mo_build m)) as [|i l]; [reflexivity|].
  rewrite (map_ext_in _ _ _ H). reflexivity.
Qed.
Lemma alike_task m m' fuel it : 
  Both (fun a b => obj_bbox fuel m (item_path it) a = obj_bbox fuel m' (item_path it) b)
    (find_object m (item_path it) (it_oid it)) (find_object m' (item_path it) (it_oid it)) ->
  item_task fuel m it = item_task fuel m' it.
Proof.
  unfold item_task, Both. destruct (find_object m _ _) as [a|], (find_object m' _ _) as [b|]; try contradiction; [intros ->; reflexivity|reflexivity].
Qed.
Lemma item_target m it file o : ChildsOk m -> ItemTarget m it file o <-> file = item_path it /\ find_object m file (it_oid it) = Some o.
Proof.
  intros K. unfold ItemTarget. rewrite any_path_spec, <- (find_object_spec _ _ _ _ K). unfold item_path. split; intros (A & B); auto.
Qed.

(** ** Objects that are placed *)
Lemma agree_find m m' c file path : ChildsOk m -> ChildsOk m' -> comp_path c file = comp_path c path -> Agree (Target m c file) (Target m' c file) ->
  Both (fun a b => Alike a b /\ Target m c file (comp_path c file) a) (find_object m (comp_path c path) (co_oid c)) (find_object m' (comp_path c path) (co_oid c)).
Proof.
  intros K K' E (A & B). rewrite <- E. unfold Both.
  destruct (find_object m (comp_path c file) (co_oid c)) as [a|] eqn:Fa.
  - assert (Ta : Target m c file (comp_path c file) a) by (apply (target_spec _ _ _ _ _ K); split; [reflexivity|exact Fa]).
    destruct (A _ _ Ta) as (o' & T' & L). apply (target_spec _ _ _ _ _ K') in T' as (_ & ->). split; assumption.
  - destruct (find_object m' (comp_path c file) (co_oid c)) as [b|] eqn:Fb; [|exact I].
    assert (Tb : Target m' c file (comp_path c file) b) by (apply (target_spec _ _ _ _ _ K'); split; [reflexivity|exact Fb]).
    destruct (B _ _ Tb) as (o & T). apply (target_spec _ _ _ _ _ K) in T as (_ & T). congruence.
Qed.
Lemma placed_bbox m m' fuel : ChildsOk m -> ChildsOk m' -> Resolvable m -> SamePlaced m m' -> forall r, model_bbox fuel m r <-> model_bbox fuel m' r.
Proof.
  intros K K' R (Ei & Hi & Hc). apply tasks_bbox; [exact Ei|]. intros it I. apply alike_task.
  set (path := item_path it) in *.
  set (Inv := fun o => exists file, Reached m file o /\ (file = path \/ (ob_mesh o = None -> forall c, In c (Comps o) -> ~ CarriedPath (co_any c) ""))).
  assert (B : forall o o', Inv o -> Alike o o' -> obj_bbox fuel m path o = obj_bbox fuel m' path o').
  { apply alike_box. intros o c (file & Rf & Fp) Em Ic.
    assert (E : comp_path c file = comp_path c path).
    { destruct Fp as [->|Fp]; [reflexivity|]. specialize (Fp Em c Ic). rewrite any_path_spec in Fp. unfold comp_path.
      destruct (any_path (co_any c)) eqn:Ea; [congruence|reflexivity]. }
    pose proof (agree_find m m' c file path K K' E (Hc file o c Rf Em Ic)) as G. unfold Both in *.
    destruct (find_object m (comp_path c path) (co_oid c)) as [a|] eqn:Fa, (find_object m' (comp_path c path) (co_oid c)) as [b|]; try contradiction; [|exact G].
    destruct G as (L & T). split; [exact L|]. exists (comp_path c file). split; [exact (ReComp m file o c _ a Rf Em Ic T)|].
    destruct (string_dec (any_path (co_any c)) "") as [Z|Z].
    - left. rewrite E. unfold comp_path. rewrite Z. reflexivity.
    - right. intros Ma c' Ic'. apply (R o c (any_path (co_any c)) a c'); try assumption.
      + inversion Rf as [it' f' o2 I' T' X Y|f0 o0 c0 f1 o1 Rf0 Em0 Ic0 T0 X Y]; subst.
        * apply (item_target _ _ _ _ K) in T' as (_ & F). apply find_object_in in F. tauto.
        * apply (target_spec _ _ _ _ _ K) in T0 as (_ & F). apply find_object_in in F. tauto.
      + apply any_path_spec. reflexivity.
      + apply (target_spec _ _ _ _ _ K) in T as (_ & F). apply (target_spec _ _ _ _ _ K).
        assert (C : forall p, comp_path c p = any_path (co_any c)).
        { intros p. unfold comp_path. apply seq_false in Z. rewrite Z. reflexivity. }
        rewrite !C in F. rewrite C. split; [reflexivity|exact F]. }
  destruct (Hi it I) as (A1 & A2). unfold Both.
  destruct (find_object m path (it_oid it)) as [a|] eqn:Fa.
  - assert (Ta : ItemTarget m it path a) by (apply (item_target _ _ _ _ K); split; [reflexivity|exact Fa]).
    destruct (A1 _ _ Ta) as (o' & T' & L). apply (item_target _ _ _ _ K') in T' as (_ & ->). apply B; [|exact L].
    exists path. split; [exact (ReItem m it path a I Ta)|left; reflexivity].
  - destruct (find_object m' path (it_oid it)) as [b|] eqn:Fb; [|exact Logic.I].
    assert (Tb : ItemTarget m' it path b) by (apply (item_target _ _ _ _ K'); split; [reflexivity|exact Fb]).
    destruct (A2 _ _ Tb) as (o & T). apply (item_target _ _ _ _ K) in T as (_ & T). congruence.
Qed.

(** ** Objects that something names *)
Lemma alike_refl o : Alike o o.
Proof. unfold Alike. destruct (ob_mesh o); reflexivity. Qed.
Lemma at_find m m' file id : ChildsOk m -> ChildsOk m' -> (forall o, At m file id o <-> At m' file id o) -> find_object m file id = find_object m' file id.
Proof.
  intros K K' H. unfold At in H. destruct (find_object m file id) as [a|] eqn:Fa.
  - symmetry. apply (find_object_spec _ _ _ _ K'), H, (find_object_spec _ _ _ _ K), Fa.
  - destruct (find_object m' file id) as [b|] eqn:Fb; [|reflexivity]. apply (find_object_spec _ _ _ _ K'), H, (find_object_spec _ _ _ _ K) in Fb. congruence.
Qed.
Lemma named_bbox m m' fuel : ChildsOk m -> ChildsOk m' -> SameNamed m m' -> forall r, model_bbox fuel m r <-> model_bbox fuel m' r.
Proof.
  intros K K' (Ei & H). apply tasks_bbox; [exact Ei|]. intros it I. apply alike_task.
  assert (F : find_object m (item_path it) (it_oid it) = find_object m' (item_path it) (it_oid it)).
  { apply (at_find _ _ _ _ K K'). intros o. apply H. left. exists it. auto. }
  rewrite <- F. unfold Both. destruct (find_object m (item_path it) (it_oid it)) as [a|] eqn:Fa; [|exact Logic.I].
  apply (alike_box m m' (item_path it) (ObjectOf m)); [|apply find_object_in in Fa; tauto|apply alike_refl].
  intros o c Io Em Ic. assert (Fc : find_object m (comp_path c (item_path it)) (co_oid c) = find_object m' (comp_path c (item_path it)) (co_oid c)).
  { apply (at_find _ _ _ _ K K'). intros o'. apply H. right. exists o, c. auto. }
  rewrite <- Fc. unfold Both. destruct (find_object m (comp_path c (item_path it)) (co_oid c)) as [b|] eqn:Fb; [|exact Logic.I].
  split; [apply alike_refl|]. apply find_object_in in Fb. tauto.
Qed.
