(** * Theorem: the box of a build depends on what the build places: C97 *)
From Coq Require Import Lia.
From Verif Require Import GoBase GoFloat Types Conc M_Core M_Geom S_Core S_Geom S_Within S_Placed P_Core P_Geom P_Placed T_Core T_Geom T_Renumber.
From Verif Require Import Types.
Local Open Scope list_scope.

(** C97: objects whose identifier no item and no component carries, and everything that is not an object, make no
    difference to BoundingBox, whichever the schedule; nor to whether it returns. *)
Theorem C97_named : forall fuel m m', ChildsOk m -> ChildsOk m' -> SameNamed m m' -> forall r, model_bbox fuel m r <-> model_bbox fuel m' r.
Proof. intros fuel m m' K K' S. apply named_bbox; assumption. Qed.
Print Assumptions C97_named.
(** C97: models whose builds have the same items and place objects with the same geometry have the same boxes.
    Missing: models whose components mislead the code (C16). *)
Theorem C97_placed_partial : forall fuel m m', ChildsOk m -> ChildsOk m' -> Resolvable m -> SamePlaced m m' ->
  forall r, model_bbox fuel m r <-> model_bbox fuel m' r.
Proof. intros fuel m m' K K' R S. apply placed_bbox; assumption. Qed.
Print Assumptions C97_placed_partial.

Lemma agree_same (T T' : string -> Object -> Prop) : (forall f o, T f o <-> T' f o) -> Agree T T'.
Proof.
  intros H. split.
  - intros f o X. exists o. split; [apply H, X|]. unfold Alike. destruct (ob_mesh o); reflexivity.
  - intros f o X. exists o. apply H, X.
Qed.
Lemma agree_item m m' it : ChildsOk m -> ChildsOk m' -> find_object m (item_path it) (it_oid it) = find_object m' (item_path it) (it_oid it) ->
  Agree (ItemTarget m it) (ItemTarget m' it).
Proof. intros K K' E. apply agree_same. intros f o. rewrite (item_target _ _ _ _ K), (item_target _ _ _ _ K'). split; intros (-> & F); (split; [reflexivity|congruence]). Qed.
Lemma agree_comp m m' c file : ChildsOk m -> ChildsOk m' -> find_object m (comp_path c file) (co_oid c) = find_object m' (comp_path c file) (co_oid c) ->
  Agree (Target m c file) (Target m' c file).
Proof. intros K K' E. apply agree_same. intros f o. rewrite (target_spec _ _ _ _ _ K), (target_spec _ _ _ _ _ K'). split; intros (-> & F); (split; [reflexivity|congruence]). Qed.
(** [ex_nested] with a different object 2 in the root model, which the build does not place *)
Definition ex_nested2 : Model :=
  mkModel "" "" 0 "" (mkRes [] [ex_cobj 1 [mkComp 1 matrix_zero [GComp "" "/a.model"]]; ex_mobj 2 [ex_pt f_two f_one f_one]] [])
    (mkBuild [ex_item 1] []) [] [] []
    [("/a.model", mkChild (mkRes [] [ex_cobj 1 [mkComp 2 matrix_zero []]; ex_mobj 2 [ex_pt f_two f_two f_two]] []) [] [])]
    [] [] [] [].
Theorem C97_placed_refuted : exists fuel m m' r, ChildsOk m /\ ChildsOk m' /\ SamePlaced m m' /\ model_bbox fuel m r /\ ~ model_bbox fuel m' r.
Proof.
  exists 3, ex_nested, ex_nested2, (mkBox (P3 f_one f_one f_one) (P3 f_one f_one f_one)).
  assert (K : ChildsOk ex_nested) by (repeat constructor; intros []). assert (K' : ChildsOk ex_nested2) by (repeat constructor; intros []).
  split; [exact K|]. split; [exact K'|]. split; [|split].
  - split; [reflexivity|]. split; [intros it [<-|[]]; apply agree_item; [exact K|exact K'|reflexivity]|].
    assert (W : forall file o, Reached ex_nested file o -> (file = "" /\ o = ex_cobj 1 [mkComp 1 matrix_zero [GComp "" "/a.model"]]) \/
      (file = "/a.model" /\ o = ex_cobj 1 [mkComp 2 matrix_zero []]) \/ (file = "/a.model" /\ o = ex_mobj 2 [ex_pt f_two f_two f_two])).
    { intros file o H. induction H as [it file o I T|file o c file' o' H IH Em Ic T].
      - destruct I as [<-|[]]. apply (item_target _ _ _ _ K) in T as (-> & F). cbv in F. injection F as <-. left. split; reflexivity.
      - apply (target_spec _ _ _ _ _ K) in T as (-> & F). destruct IH as [(-> & ->)|[(-> & ->)|(-> & ->)]].
        + destruct Ic as [<-|[]]. cbv in F. injection F as <-. right. left. split; reflexivity.
        + destruct Ic as [<-|[]]. cbv in F. injection F as <-. right. right. split; reflexivity.
        + destruct Ic. }
    intros file o c H Em Ic. destruct (W file o H) as [(-> & ->)|[(-> & ->)|(-> & ->)]]; [| |destruct Ic];
      (destruct Ic as [<-|[]]; apply agree_comp; [exact K|exact K'|reflexivity]).
  - apply (single_bbox 3 ex_nested (ex_item 1) eq_refl). vm_compute. reflexivity.
  - intros H. apply (single_bbox 3 ex_nested2 (ex_item 1) eq_refl) in H. revert H. vm_compute. discriminate.
Qed.
Print Assumptions C97_placed_refuted.

(** [ex_shallow] with another object and an asset in the root model, and another type of object 2 there *)
Definition ex_shallow2 : Model :=
  mkModel "" "" 0 "" (mkRes [ex_asset 9] [ex_mobj 3 [ex_pt f_zero f_one f_two]; ex_cobj 1 [mkComp 2 matrix_zero [GComp "" "/a.model"]; mkComp 2 matrix_zero []];
                               mkObj 2 "arm" "" "" 0 0 2 mg_zero (Some (ex_mesh [ex_pt f_one f_one f_one])) None []] [])
    (mkBuild [ex_item 1] []) [] [] []
    [("/a.model", mkChild (mkRes [] [ex_mobj 2 [ex_pt f_two f_two f_two]; ex_mobj 3 [ex_pt f_zero f_one f_one]] []) [] [])]
    [] [] [] [].
Example C97_nonvacuous : ChildsOk ex_shallow /\ ChildsOk ex_shallow2 /\ Resolvable ex_shallow /\ SamePlaced ex_shallow ex_shallow2 /\
  exists r, model_bbox 3 ex_shallow2 r.
Proof.
  assert (K : ChildsOk ex_shallow) by (repeat constructor; intros []). assert (K' : ChildsOk ex_shallow2) by (repeat constructor; intros []).
  split; [exact K|]. split; [exact K'|]. split; [exact (proj1 (proj2 C16_nonvacuous))|]. split.
  - split; [reflexivity|]. split; [intros it [<-|[]]; apply agree_item; [exact K|exact K'|reflexivity]|].
    assert (W : forall file o, Reached ex_shallow file o -> ob_mesh o = None -> file = "" /\ Comps o = [mkComp 2 matrix_zero [GComp "" "/a.model"]; mkComp 2 matrix_zero []]).
    { intros file o H. induction H as [it file o I T|file o c file' o' H IH Em Ic T]; intros Mo.
      - destruct I as [<-|[]]. apply (item_target _ _ _ _ K) in T as (-> & F). cbv in F. injection F as <-. split; reflexivity.
      - exfalso. apply (target_spec _ _ _ _ _ K) in T as (-> & F). destruct (IH Em) as (-> & E). rewrite E in Ic.
        destruct Ic as [<-|[<-|[]]]; cbv in F; injection F as <-; discriminate. }
    intros file o c H Em Ic. destruct (W file o H Em) as (-> & E). rewrite E in Ic. destruct Ic as [<-|[<-|[]]].
    + apply agree_comp; [exact K|exact K'|reflexivity].
    + split.
      * intros f o' T. apply (target_spec _ _ _ _ _ K) in T as (-> & F). exists (mkObj 2 "arm" "" "" 0 0 2 mg_zero (Some (ex_mesh [ex_pt f_one f_one f_one])) None []).
        split; [apply (target_spec _ _ _ _ _ K'); split; reflexivity|]. cbv in F. injection F as <-. reflexivity.
      * intros f o' T. apply (target_spec _ _ _ _ _ K') in T as (-> & _). exists (ex_mobj 2 [ex_pt f_one f_one f_one]). apply (target_spec _ _ _ _ _ K). split; reflexivity.
  - eexists. apply (single_bbox 3 ex_shallow2 (ex_item 1) eq_refl). vm_compute. reflexivity.
Qed.
(** [ex_nested] with objects 3 and an asset, which nothing names *)
Definition ex_nested3 : Model :=
  mkModel "" "" 0 "" (mkRes [ex_asset 9] [ex_cobj 1 [mkComp 1 matrix_zero [GComp "" "/a.model"]]; ex_mobj 3 [ex_pt f_zero f_one f_two];
                               ex_mobj 2 [ex_pt f_one f_one f_one]] [])
    (mkBuild [ex_item 1] []) [] [] []
    [("/a.model", mkChild (mkRes [] [ex_mobj 3 []; ex_cobj 1 [mkComp 2 matrix_zero []]; ex_mobj 2 [ex_pt f_two f_two f_two]] []) [] [])]
    [] [] [] [].
Example C97_named_nonvacuous : ChildsOk ex_nested /\ ChildsOk ex_nested3 /\ SameNamed ex_nested ex_nested3.
Proof.
  assert (K : ChildsOk ex_nested) by (repeat constructor; intros []). assert (K' : ChildsOk ex_nested3) by (repeat constructor; intros []).
  split; [exact K|]. split; [exact K'|]. split; [reflexivity|]. intros file id o N.
  assert (E : id = 1%N \/ id = 2%N).
  { destruct N as [(it & [<-|[]] & <-)|(o1 & c & [[<-|[<-|[]]]|(pc & [<-|[]] & [<-|[<-|[]]])] & Ic & <-)]; try (left; reflexivity); first [solve [destruct Ic]|destruct Ic as [<-|[]]; auto]. }
  unfold At. rewrite <- (find_object_spec _ _ _ _ K), <- (find_object_spec _ _ _ _ K').
  unfold find_object, find_resources. cbn [mo_path ex_nested ex_nested3 mo_childs mo_res].
  destruct E as [-> | ->].
  all: match goal with |- context [if ?b then _ else _] => destruct b end; [reflexivity|].
  all: unfold find_child; cbn [mo_childs ex_nested ex_nested3 aget]; match goal with |- context [if ?b then _ else _] => destruct b end; reflexivity.
Qed.
