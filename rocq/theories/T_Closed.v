(** * Theorem: meshes that ValidateCoherency accepts are closed: C98 *)
From Coq Require Import ZArith Lia Permutation.
From Verif Require Import GoBase GoFloat Types M_Errors Conc M_Coherency S_Coherency S_Closed P_Coherency P_Closed T_Coherency.
From Verif Require Import Types.
Local Open Scope list_scope.

(** C98: a mesh without errors has no boundary, a volume that does not depend on the point it is measured from, no net
    area in any direction, and an even number of triangles. *)
Theorem C98_mesh : forall me, SmallMesh me -> mesh_coherency me = None -> Closed (me_tris me).
Proof. intros me S H. apply (C17_mesh_coherency me S) in H as (_ & _ & O). apply oriented_closed, O. Qed.
Print Assumptions C98_mesh.
(** C98: if ValidateCoherency reports nothing this holds for the mesh of every solid object of the model. *)
Theorem C98_model : forall m, NoDup (map fst (mo_childs m)) -> ~ In "" (map fst (mo_childs m)) -> SmallModel m -> model_coherency m None ->
  forall p i o me, ObjectAt m p i o -> Solid o -> ob_mesh o = Some me -> Closed (me_tris me).
Proof.
  intros m H1 H2 S H p i o me A So M. apply C98_mesh; [exact (S p i o me A M)|].
  destruct (C18_model_coherency m H1 H2 S) as (_ & B & _). destruct (B None H) as (_ & _ & C). pose proof (proj1 C eq_refl) as N.
  destruct (mesh_coherency me) as [e|] eqn:E; [|reflexivity]. exfalso.
  apply (C17_mesh_coherency me (S p i o me A M)) in E. apply (N (mesh_location i, p, e)). exists p, i, o, me, e. auto.
Qed.
Print Assumptions C98_model.
Definition ex_points (v : N) : point := match v with 0%N => (0, 0, 0)%Z | 1%N => (4, 0, 0)%Z | 2%N => (0, 4, 0)%Z | _ => (0, 0, -4)%Z end.
Example C98_nonvacuous : SmallMesh tetra /\ mesh_coherency tetra = None /\ volume ex_points (0, 0, 0)%Z (me_tris tetra) <> 0%Z.
Proof. split; [reflexivity|]. split; [reflexivity|]. vm_compute. discriminate. Qed.
Example C98_model_nonvacuous : let m := mkModel "" "" 0 "" (mkRes [] [coh_obj 0 tetra] []) (mkBuild [] []) [] [] [] [] [] [] [] [] in
  SmallModel m /\ model_coherency m None.
Proof.
  intros m. assert (S : SmallModel m).
  { intros p i o me A M. destruct A as [i o A|p c i o [] A]. destruct i as [|[|i]]; cbn in A; try discriminate. injection A as <-. injection M as <-. reflexivity. }
  split; [exact S|]. destruct (C18_model_coherency m (NoDup_nil _) (fun H => H) S) as ((r & Hr) & B & _).
  destruct (B r Hr) as (_ & _ & C). rewrite <- (proj2 C); [exact Hr|]. intros x (p & i & o & me & e & A & _ & M & I & _).
  destruct A as [i o A|p c i o [] A]. destruct i as [|[|i]]; cbn in A; try discriminate. injection A as <-. injection M as <-.
  apply (C17_mesh_coherency tetra) in I; [discriminate|reflexivity].
Qed.
(** What it does not say: a mesh that is accepted may enclose nothing, wherever its vertices are. *)
Definition flat : Mesh := mkMesh (repeat point_zero 6) [] [tri 0 1 2; tri 0 2 1; tri 3 4 5; tri 3 5 4] [] [] [].
Example C98_flat : mesh_coherency flat = None /\ forall at_ q, volume at_ q (me_tris flat) = 0%Z.
Proof.
  split; [reflexivity|]. intros at_ [[q1 q2] q3]. unfold volume. cbn [flat me_tris map tri t_v1 t_v2 t_v3 sum fold_right].
  destruct (at_ 0%N) as [[a1 a2] a3], (at_ 1%N) as [[b1 b2] b3], (at_ 2%N) as [[c1 c2] c3], (at_ 3%N) as [[d1 d2] d3], (at_ 4%N) as [[e1 e2] e3], (at_ 5%N) as [[f1 f2] f3].
  cbn [dot cross minus]. ring.
Qed.
(** An open mesh is not closed in this sense. *)
Example C98_open : ~ NoBoundary [tri 0 1 2; tri 1 0 3; tri 2 1 3].
Proof.
  intros H. specialize (H (fun a b => if (a =? 0)%N && (b =? 2)%N then 1 else if (a =? 2)%N && (b =? 0)%N then -1 else 0)%Z).
  match type of H with ?P -> _ => assert (X : P) end.
  - intros a b. destruct (N.eqb_spec a 0), (N.eqb_spec a 2), (N.eqb_spec b 0), (N.eqb_spec b 2); subst; try discriminate; reflexivity.
  - specialize (H X). vm_compute in H. discriminate.
Qed.
