(** * Theorems: the box of a build is put together from the boxes of its items: C94 *)
From Coq Require Import ZArith Lia Permutation.
From Verif Require Import GoBase GoFloat Types Conc M_Core M_Geom S_Core S_Geom S_Within S_Union P_Core P_Geom P_Union T_Geom T_Renumber.
From Verif Require Import Types.
Local Open Scope list_scope.

(** C94: without items the box is the zero box. *)
Theorem C94_empty : forall fuel m r, bu_items (mo_build m) = [] ->
  (model_bbox fuel m r <-> r = mkBox (P3 f_zero f_zero f_zero) (P3 f_zero f_zero f_zero)).
Proof. intros fuel m r E. unfold model_bbox. rewrite E. reflexivity. Qed.
Print Assumptions C94_empty.
(** C94: the order of the items does not matter: the boxes that can be returned are the same. *)
Theorem C94_order : forall fuel m its, Permutation (bu_items (mo_build m)) its ->
  forall r, model_bbox fuel m r <-> model_bbox fuel (with_items m its) r.
Proof. exact order_iff. Qed.
Print Assumptions C94_order.
(** C94: items that place nothing do not matter, as long as one item stays.  Missing: builds all of whose items place
    nothing, see C94_nothing_refuted. *)
Theorem C94_nothing_partial : forall fuel m its, NoDup (map fst (mo_childs m)) -> 0 < fuel ->
  Without (Nothing m) (bu_items (mo_build m)) its -> its <> [] ->
  forall r, model_bbox fuel m r <-> model_bbox fuel (with_items m its) r.
Proof. exact without_iff. Qed.
Print Assumptions C94_nothing_partial.
(** C94: the box of a build is the least box around the boxes of its parts, whatever the schedules.  Missing: items
    whose own box has a NaN, see C94_union_refuted. *)
Theorem C94_union_partial : forall fuel m xs ys r r1 r2, xs <> [] -> ys <> [] ->
  Permutation (bu_items (mo_build m)) (xs ++ ys) ->
  (forall it b, In it (bu_items (mo_build m)) -> model_bbox fuel (with_items m [it]) b -> NotNaNBox b) ->
  model_bbox fuel m r -> model_bbox fuel (with_items m xs) r1 -> model_bbox fuel (with_items m ys) r2 -> Union r1 r2 r.
Proof. exact box_union. Qed.
Print Assumptions C94_union_partial.
(** C94: items added to a build that has some do not take anything out of the box. *)
Theorem C94_more_partial : forall fuel m more r r', bu_items (mo_build m) <> [] ->
  (forall it b, In it (bu_items (mo_build m) ++ more) -> model_bbox fuel (with_items m [it]) b -> NotNaNBox b) ->
  model_bbox fuel m r -> model_bbox fuel (with_items m (bu_items (mo_build m) ++ more)) r' -> Covers r' r.
Proof.
  intros fuel m more r r' Ne H B B'. destruct more as [|i more].
  - rewrite app_nil_r in B'. rewrite with_same in B'. rewrite app_nil_r in H.
    assert (E : NumEqBox r r').
    { apply (model_bbox_schedule fuel m); [|exact B|exact B']. intros it b Hi Hb. apply (single_nn fuel m it b); [|exact Hb|intros c; apply H, Hi].
      rewrite <- (with_same m) in B. apply bbox_char in B; [|exact Ne]. apply B, Hi. }
    destruct E as (((?&?)&(?&?)&(?&?))&((?&?)&(?&?)&(?&?))). unfold Covers. tauto.
  - apply bbox_char in B' as Bs; [|destruct (bu_items (mo_build m)); discriminate]. destruct Bs as (Sm & _).
    set (m' := with_items m (bu_items (mo_build m) ++ i :: more)).
    destruct (all_some_exists (map (item_task fuel m) (i :: more))) as (ts & Hts).
    { intros x Hx. apply in_map_iff in Hx as (it & <- & Hi). apply Sm, in_or_app. right; exact Hi. }
    assert (B2 : exists r2, model_bbox fuel (with_items m' (i :: more)) r2).
    { exists (fold_left extend (concat (map (item_box fuel m) (i :: more))) limit_box).
      change (with_items m' (i :: more)) with (with_items m (i :: more)). apply bbox_char; [discriminate|]. split.
      - intros it Hi. apply Sm, in_or_app. right; exact Hi.
      - eexists. split; reflexivity. }
    destruct B2 as (r2 & B2). apply (union_covers r r2 r').
    apply (box_union fuel m' (bu_items (mo_build m)) (i :: more)); [exact Ne|discriminate|apply Permutation_refl|exact H|exact B'| |exact B2].
    change (with_items m' (bu_items (mo_build m))) with (with_items m (bu_items (mo_build m))). rewrite with_same. exact B.
Qed.
Print Assumptions C94_more_partial.

(** ** False with a NaN, and of builds that place nothing *)
Theorem C94_union_refuted : exists fuel m xs ys r r1 r2, xs <> [] /\ ys <> [] /\ bu_items (mo_build m) = xs ++ ys /\
  model_bbox fuel m r /\ model_bbox fuel (with_items m xs) r1 /\ model_bbox fuel (with_items m ys) r2 /\ ~ Union r1 r2 r /\ ~ Covers r r2.
Proof.
  set (b1 := mesh_bbox (ex_mesh [ex_pt f_one f_one f_one; ex_pt f_two f_two f_two])). set (b2 := mesh_bbox (ex_mesh [ex_pt S754_nan f_one f_one])).
  exists 1, ex_nan_model, [ex_item 1], [ex_item 2], (fold_left extend [b2; b1] limit_box), (fold_left extend [b1] limit_box), (fold_left extend [b2] limit_box).
  split; [discriminate|]. split; [discriminate|]. split; [reflexivity|]. split; [|split; [|split; [|split]]].
  - rewrite <- (with_same ex_nan_model). apply bbox_char; [discriminate|]. split; [intros it [<-|[<-|[]]]; discriminate|].
    exists [b2; b1]. split; [|reflexivity]. apply (perm_swap b1 b2 []).
  - apply bbox_char; [discriminate|]. split; [intros it [<-|[]]; discriminate|]. exists [b1]. split; reflexivity.
  - apply bbox_char; [discriminate|]. split; [intros it [<-|[]]; discriminate|]. exists [b2]. split; reflexivity.
  - intros ((H & _) & _). destruct H as [(H & _)|(H & _)]; vm_compute in H; discriminate.
  - intros ((H & _) & _). vm_compute in H; discriminate.
Qed.
Print Assumptions C94_union_refuted.
(** An item that places nothing changes the box of a build without items: it becomes an inverted box. *)
Definition ex_void_model : Model := ex_bmodel [ex_mobj 1 []] [ex_item 1; ex_item 7].
Theorem C94_nothing_refuted : exists fuel m r r', Without (Nothing m) (bu_items (mo_build m)) [] /\
  model_bbox fuel m r /\ model_bbox fuel (with_items m []) r' /\ ~ NumEqBox r r' /\
  Le (px (bmax r)) (px (bmin r)) /\ ~ Le (px (bmin r)) (px (bmax r)).
Proof.
  exists 1, ex_void_model, limit_box, box_zero. split; [|split; [|split; [|split; [|split]]]].
  - assert (K : ChildsOk ex_void_model) by constructor.
    assert (T : forall it, item_task 1 ex_void_model it = Some None -> In it [ex_item 1; ex_item 7] -> Nothing ex_void_model it).
    { intros it E Hi file o (Cp & Tg). apply any_path_spec in Cp. apply (find_object_spec _ _ _ _ K) in Tg. subst file. revert Tg.
      destruct Hi as [<-|[<-|[]]]; [|discriminate]. intros F. vm_compute in F. injection F as <-. left. eexists. split; reflexivity. }
    apply WDrop; [apply T; [reflexivity|left; reflexivity]|]. apply WDrop; [apply T; [reflexivity|right; left; reflexivity]|]. constructor.
  - rewrite <- (with_same ex_void_model). apply bbox_char; [discriminate|]. split; [intros it [<-|[<-|[]]]; discriminate|]. exists []. split; [constructor|reflexivity].
  - reflexivity.
  - intros (((H & _) & _) & _). vm_compute in H. discriminate.
  - reflexivity.
  - intros H. vm_compute in H. discriminate.
Qed.
Print Assumptions C94_nothing_refuted.

(** The hypotheses are met by a build of three items, one of which refers to no object. *)
Definition ex_union_model : Model :=
  ex_bmodel [ex_mobj 1 [ex_pt f_one f_one f_one; ex_pt f_two f_two f_two]; ex_mobj 2 [ex_pt f_zero f_one f_one; ex_pt f_one f_two f_one]]
    [ex_item 1; ex_item 7; ex_item 2].
Definition ex_union_box : Box := mkBox (P3 f_zero f_one f_one) (P3 f_two f_two f_two).
Example C94_nonvacuous :
  (forall it b, In it (bu_items (mo_build ex_union_model)) -> model_bbox 1 (with_items ex_union_model [it]) b -> NotNaNBox b) /\
  Without (Nothing ex_union_model) (bu_items (mo_build ex_union_model)) [ex_item 1; ex_item 2] /\
  Permutation (bu_items (mo_build ex_union_model)) ([ex_item 2] ++ [ex_item 1; ex_item 7]) /\
  model_bbox 1 ex_union_model ex_union_box /\
  (exists r1, model_bbox 1 (with_items ex_union_model [ex_item 2]) r1 /\ ~ NumEqBox r1 ex_union_box) /\
  (exists r2, model_bbox 1 (with_items ex_union_model [ex_item 1; ex_item 7]) r2 /\ ~ NumEqBox r2 ex_union_box).
Proof.
  split; [|split; [|split; [|split; [|split]]]].
  - intros it b Hi Hb. apply (single_bbox 1 (with_items ex_union_model [it]) it eq_refl) in Hb. revert Hb.
    destruct Hi as [<-|[<-|[<-|[]]]]; vm_compute; intros E; injection E as <-; repeat split; discriminate.
  - apply WKeep, WDrop; [|apply WKeep; constructor]. intros file o (Cp & Tg). apply any_path_spec in Cp.
    assert (K : ChildsOk ex_union_model) by constructor. apply (find_object_spec _ _ _ _ K) in Tg. subst file. vm_compute in Tg. discriminate.
  - apply Permutation_sym. change ([ex_item 2] ++ [ex_item 1; ex_item 7]) with (ex_item 2 :: [ex_item 1; ex_item 7]). apply (Permutation_cons_append [ex_item 1; ex_item 7] (ex_item 2)).
  - rewrite <- (with_same ex_union_model). apply bbox_char; [discriminate|]. split; [intros it [<-|[<-|[<-|[]]]]; discriminate|].
    eexists. split; [apply Permutation_refl|]. vm_compute. reflexivity.
  - exists (mkBox (P3 f_zero f_one f_one) (P3 f_one f_two f_one)). split.
    + apply bbox_char; [discriminate|]. split; [intros it [<-|[]]; discriminate|]. eexists. split; [apply Permutation_refl|]. vm_compute. reflexivity.
    + intros (_ & H & _). destruct H as (_ & H). vm_compute in H. discriminate.
  - exists (mkBox (P3 f_one f_one f_one) (P3 f_two f_two f_two)). split.
    + apply bbox_char; [discriminate|]. split; [intros it [<-|[<-|[]]]; discriminate|]. eexists. split; [apply Permutation_refl|]. vm_compute. reflexivity.
    + intros ((H & _) & _). destruct H as (H & _). vm_compute in H. discriminate.
Qed.
