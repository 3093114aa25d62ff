(** * Theorems on mesh coherency: C17, C18 *)
From Coq Require Import Permutation.
From Verif Require Import GoBase GoFloat Types M_Errors S_Errors P_Errors M_Coherency S_Coherency P_Coherency Conc.

(** C17: Mesh.ValidateCoherency accepts exactly the closed, manifold, oriented
    meshes, and its error says what is wrong first. *)
Theorem C17_mesh_coherency : forall me, SmallMesh me ->
  (mesh_coherency me = None <-> Coherent me) /\
  (forall e, mesh_coherency me = Some e <-> Incoherent me e).
Proof. exact mesh_coherency_spec. Qed.
Print Assumptions C17_mesh_coherency.

Definition tri (a b c : N) : Triangle := mkTri a b c 0 0 0 0 [].
Definition tetra : Mesh :=
  mkMesh (repeat point_zero 4) [] [tri 0 1 2; tri 1 0 3; tri 2 1 3; tri 0 2 3] [] [] [].
Definition flipped : Mesh :=
  mkMesh (repeat point_zero 4) [] [tri 0 1 2; tri 0 1 3; tri 2 1 3; tri 0 2 3] [] [] [].
Example C17_nonvacuous : SmallMesh tetra /\ Coherent tetra /\ SmallMesh flipped /\
  Incoherent flipped (ESent "ErrMeshConsistency").
Proof.
  assert (S1 : SmallMesh tetra) by reflexivity. assert (S2 : SmallMesh flipped) by reflexivity.
  split; [exact S1|]. split; [apply (C17_mesh_coherency tetra S1); reflexivity|].
  split; [exact S2|]. apply (C17_mesh_coherency flipped S2). reflexivity.
Qed.

(** C18: whatever the interleaving of the goroutines and the iteration order of
    the map, Model.ValidateCoherency returns exactly one located error for each
    solid object with an incoherent mesh, and nil exactly when there is none. *)
Theorem C18_model_coherency : forall m,
  NoDup (map fst (mo_childs m)) -> ~ In "" (map fst (mo_childs m)) -> SmallModel m ->
  (exists r, model_coherency m r) /\
  (forall r, model_coherency m r ->
     NoDup (located_o r) /\ (forall x, In x (located_o r) <-> CoherencyError m x) /\
     (r = None <-> forall x, ~ CoherencyError m x)) /\
  (forall r1 r2, model_coherency m r1 -> model_coherency m r2 ->
     Permutation (located_o r1) (located_o r2)).
Proof.
  intros m H1 H2 H3. split; [|split].
  - destruct (outcome_exists None (coherency_tasks m (mo_childs m))) as (r & Hr).
    exists (wrap r "model"), (mo_childs m), r. split; [apply Permutation_refl|]. auto.
  - intros r Hr. destruct (model_coherency_spec m r H1 H2 H3 Hr) as (A & B & C).
    split; [exact A|]. split; [exact B|]. split.
    + intros -> x Hx. apply B in Hx. exact Hx.
    + intros Hno. apply C. destruct (located_o r) as [|x l]; [reflexivity|].
      exfalso. apply (Hno x). apply B. left; reflexivity.
  - intros r1 r2 Hr1 Hr2.
    destruct (model_coherency_spec m r1 H1 H2 H3 Hr1) as (A1 & B1 & _).
    destruct (model_coherency_spec m r2 H1 H2 H3 Hr2) as (A2 & B2 & _).
    apply NoDup_Permutation; [assumption..|]. intros x. rewrite B1, B2. reflexivity.
Qed.
Print Assumptions C18_model_coherency.

Definition coh_obj (ty : Z) (me : Mesh) : Object := mkObj 1 "" "" "" 0 0 ty mg_zero (Some me) None [].
Definition coh_model : Model :=
  mkModel "" "" 0 "" (mkRes [] [coh_obj 0 tetra; coh_obj 3 flipped] []) (mkBuild [] []) [] [] []
    [("/a.model", mkChild (mkRes [] [coh_obj 0 flipped; coh_obj 1 flipped] []) [] [])] [] [] [] [].
Example C18_nonvacuous :
  NoDup (map fst (mo_childs coh_model)) /\ ~ In "" (map fst (mo_childs coh_model)) /\ SmallModel coh_model /\
  CoherencyError coh_model (mesh_location 1, "", ESent "ErrMeshConsistency") /\
  CoherencyError coh_model (mesh_location 0, "/a.model", ESent "ErrMeshConsistency") /\
  ~ CoherencyError coh_model (mesh_location 1, "/a.model", ESent "ErrMeshConsistency").
Proof.
  split; [constructor; [intros []|constructor]|]. split; [intros [H|[]]; discriminate|].
  assert (Hat : forall p i o, ObjectAt coh_model p i o ->
    (p, i, o) = ("", 0, coh_obj 0 tetra) \/ (p, i, o) = ("", 1, coh_obj 3 flipped) \/
    (p, i, o) = ("/a.model", 0, coh_obj 0 flipped) \/ (p, i, o) = ("/a.model", 1, coh_obj 1 flipped)).
  { intros p i o H. destruct H as [i o H|p c i o [H|[]] H'].
    - destruct i as [|[|[|i]]]; cbn in H; try discriminate; injection H as <-; auto.
    - injection H as <- <-. destruct i as [|[|[|i]]]; cbn in H'; try discriminate; injection H' as <-; auto. }
  split.
  { intros p i o me H Hm. apply Hat in H as [H|[H|[H|H]]]; injection H as -> -> ->; injection Hm as <-; reflexivity. }
  split; [|split].
  - exists "", 1, (coh_obj 3 flipped), flipped, (ESent "ErrMeshConsistency").
    split; [apply AtRoot; reflexivity|]. split; [right; reflexivity|]. split; [reflexivity|].
    split; [apply C17_nonvacuous|reflexivity].
  - exists "/a.model", 0, (coh_obj 0 flipped), flipped, (ESent "ErrMeshConsistency").
    split; [eapply AtChild; [left|]; reflexivity|]. split; [left; reflexivity|]. split; [reflexivity|].
    split; [apply C17_nonvacuous|reflexivity].
  - intros (p & i & o & me & e & H & Hs & Hm & _ & E). unfold mesh_location in E. injection E as Ei Ep Ee.
    apply Hat in H as [H|[H|[H|H]]]; injection H as E1 E2 E3; try congruence; subst; try discriminate.
    destruct Hs; discriminate.
Qed.
