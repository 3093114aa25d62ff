(** * Property theorem C103 *)
From Verif Require Import GoBase GoFloat Types M_Core M_Geom S_Core S_Geom P_Core P_Geom T_Geom.
From Verif Require Import Types.
Local Open Scope list_scope.

Lemma built_from oor ps : forall mb mb' is, add_all oor mb ps = (mb', is) ->
  forall v, In v (mb_verts mb') -> In v (mb_verts mb) \/ In v ps.
Proof.
  induction ps as [|p ps IH]; intros mb mb' is; cbn [add_all].
  - intros H; injection H as <- _. auto.
  - destruct (add_vertex oor mb p) as [mb1 i] eqn:E1. destruct (add_all oor mb1 ps) as [mb2 is'] eqn:E2.
    intros H; injection H as <- _. intros v Hv. destruct (IH _ _ _ E2 v Hv) as [H|H]; [|right; right; exact H].
    unfold add_vertex in E1. destruct (if mb_conn mb then _ else _) as [j|]; cbv zeta in E1; injection E1 as <- _.
    + left. exact H.
    + cbn [mb_verts] in H. apply in_app_or in H as [H|[<-|[]]]; [left; exact H|right; left; reflexivity].
Qed.
Lemma touches_more vs ps b : (forall v, In v vs -> In v ps) -> Touches vs b -> Touches ps b.
Proof.
  intros H (T1 & T2 & T3 & T4 & T5 & T6).
  assert (K : forall (f : Point3D -> f32) x, (exists p, In p vs /\ f p = x) -> exists p, In p ps /\ f p = x).
  { intros f x (p & Hp & E). exists p. auto. }
  split; [|split; [|split; [|split; [|split]]]]; apply K; assumption.
Qed.

(** Each face of the box of the mesh is at one of the points added, and each point shares its cell with
    a point in the box.  Missing from the full statement: that the points themselves are in the box. *)
Theorem C103_box_partial : forall oor ps mb is me,
  ps <> [] -> (forall p, In p ps -> FinitePoint p) -> (N.of_nat (List.length ps) <= 2 ^ 32)%N ->
  add_all oor (new_builder []) ps = (mb, is) -> me_verts me = mb_verts mb ->
  Touches ps (mesh_bbox me) /\
  (forall p, In p ps -> exists v, In v ps /\ SameCell oor v p /\ Inside v (mesh_bbox me)).
Proof.
  intros oor ps mb is me Hne Hf Hb E Hme.
  destruct (C10_builder_indices oor [] ps mb is Hb E) as (Hl & _ & Hk & _).
  assert (Sub : forall v, In v (mb_verts mb) -> In v ps).
  { intros v Hv. destruct (built_from oor ps _ _ _ E v Hv) as [[]|H]; exact H. }
  assert (At : forall p, In p ps -> exists v, In v (mb_verts mb) /\ SameCell oor v p).
  { intros p Hp. apply In_nth_error in Hp as (k & Ek). assert (Lk : k < List.length is) by (rewrite Hl; apply nth_error_Some; congruence).
    destruct (nth_error is k) as [i|] eqn:Ei; [|apply nth_error_None in Ei; lia].
    destruct (Hk k p i Ek Ei) as (v & Hv & Hc & _). exists v. split; [eapply nth_error_In; exact Hv|exact Hc]. }
  destruct (C12_mesh_box_tight me) as (_ & T); [intros p Hp; rewrite Hme in Hp; auto|]. rewrite Hme in T.
  destruct T as (T1 & T2).
  { destruct ps as [|p ps']; [congruence|]. destruct (At p (or_introl eq_refl)) as (v & Hv & _). intros X. rewrite X in Hv. destruct Hv. }
  split; [exact (touches_more _ _ _ Sub T2)|].
  intros p Hp. destruct (At p Hp) as (v & Hv & Hc). exists v. auto.
Qed.
Print Assumptions C103_box_partial.
(** If no two different points share a cell, the box is that of the points. *)
Theorem C103_apart_partial : forall oor ps mb is me,
  ps <> [] -> (forall p, In p ps -> FinitePoint p) -> (N.of_nat (List.length ps) <= 2 ^ 32)%N ->
  (forall p q, In p ps -> In q ps -> SameCell oor p q -> p = q) ->
  add_all oor (new_builder []) ps = (mb, is) -> me_verts me = mb_verts mb ->
  (forall p, In p ps -> Inside p (mesh_bbox me)) /\ Touches ps (mesh_bbox me).
Proof.
  intros oor ps mb is me Hne Hf Hb Ha E Hme. destruct (C103_box_partial oor ps mb is me Hne Hf Hb E Hme) as (T & H).
  split; [|exact T]. intros p Hp. destruct (H p Hp) as (v & Hv & Hc & Hi). rewrite <- (Ha v p Hv Hp Hc). exact Hi.
Qed.
Print Assumptions C103_apart_partial.
(** Without connectivity it always is, whatever the mesh has before. *)
Theorem C103_no_connectivity : forall oor vs0 tree ps me,
  (forall p, In p (vs0 ++ ps) -> FinitePoint p) -> vs0 ++ ps <> [] -> (N.of_nat (List.length vs0 + List.length ps) <= 2 ^ 32)%N ->
  me_verts me = mb_verts (fst (add_all oor (mkMB false vs0 tree) ps)) ->
  (forall p, In p (vs0 ++ ps) -> Inside p (mesh_bbox me)) /\ Touches (vs0 ++ ps) (mesh_bbox me).
Proof.
  intros oor vs0 tree ps me Hf Hne Hb Hme. pose proof (C10_no_connectivity oor vs0 tree ps Hb) as H.
  destruct (add_all oor (mkMB false vs0 tree) ps) as [mb is]. destruct H as (H & _). cbn [fst] in Hme. rewrite H in Hme.
  destruct (C12_mesh_box_tight me) as (_ & T); [rewrite Hme; exact Hf|]. rewrite Hme in T. exact (T Hne).
Qed.
Print Assumptions C103_no_connectivity.
(** Refuted: of two points half a micron apart the second is not in the box. *)
Definition c103_far : Point3D := ex_pt (S754_finite false 8796093 (-44)) f_zero f_zero.
Theorem C103_box_refuted : exists ps p, (forall q, In q ps -> FinitePoint q) /\ In p ps /\
  forall oor me, me_verts me = mb_verts (fst (add_all oor (new_builder []) ps)) -> ~ Inside p (mesh_bbox me).
Proof.
  exists [ex_pt f_zero f_zero f_zero; c103_far], c103_far. split; [|split; [right; left; reflexivity|]].
  - intros q [<-|[<-|[]]]; repeat split; reflexivity.
  - intros oor me Hme.
    assert (E : mb_verts (fst (add_all oor (new_builder []) [ex_pt f_zero f_zero f_zero; c103_far])) = [ex_pt f_zero f_zero f_zero]) by (vm_compute; reflexivity).
    rewrite E in Hme. unfold mesh_bbox. rewrite Hme. intros ((_ & H) & _). revert H. vm_compute. discriminate.
Qed.
Print Assumptions C103_box_refuted.
Example C103_nonvacuous : ex_tri_pts <> [] /\ (forall p, In p ex_tri_pts -> FinitePoint p) /\
  (N.of_nat (List.length ex_tri_pts) <= 2 ^ 32)%N /\
  (forall p q, In p ex_tri_pts -> In q ex_tri_pts -> SameCell (fun _ => 0%Z) p q -> p = q) /\
  List.length (mb_verts (fst (add_all (fun _ => 0%Z) (new_builder []) ex_tri_pts))) = 2.
Proof.
  split; [discriminate|]. split; [intros p [<-|[<-|[<-|[]]]]; repeat split; reflexivity|]. split; [vm_compute; discriminate|].
  split; [|vm_compute; reflexivity].
  intros p q Hp Hq Hc. apply same_cell_spec in Hc.
  destruct Hp as [<-|[<-|[<-|[]]]]; destruct Hq as [<-|[<-|[<-|[]]]]; first [reflexivity|exfalso; revert Hc; vm_compute; discriminate].
Qed.
