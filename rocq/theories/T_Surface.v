(** * Theorems on coherency and surfaces: C91 *)
From Coq Require Import Permutation Lia.
From Verif Require Import GoBase GoFloat Types M_Errors S_Errors P_Errors M_Coherency S_Coherency P_Coherency Conc T_Coherency S_Surface P_Surface.
From Verif Require Import Types.
Local Open Scope list_scope.

(** C91: what Mesh.ValidateCoherency returns does not depend on how the surface is listed: on the order of the
    triangles, the corner each starts from, the numbers of the vertices, the side all triangles face, the coordinates
    and the properties. *)
Theorem C91_relisted : forall f flip me me', SmallMesh me -> Injective f -> Relisted f flip me me' ->
  mesh_coherency me' = mesh_coherency me.
Proof.
  intros f flip me me' Sm I R. destruct (relisted_length _ _ _ _ R) as [L1 L2].
  assert (Sm' : SmallMesh me') by (unfold SmallMesh; rewrite L2; exact Sm).
  destruct (C17_mesh_coherency me Sm) as (N & E). destruct (C17_mesh_coherency me' Sm') as (N' & E').
  destruct (mesh_coherency me) as [e|] eqn:M.
  - apply E'. apply (relisted_incoherent _ _ _ _ _ I R). apply E. reflexivity.
  - apply N'. apply (relisted_coherent _ _ _ _ I R). apply N. reflexivity.
Qed.
Print Assumptions C91_relisted.

(** An accepted mesh has an even number of triangles; so no mesh made from an accepted one by taking away or adding one
    triangle is accepted. *)
Theorem C91_even : forall me, SmallMesh me -> mesh_coherency me = None -> Nat.Even (List.length (me_tris me)).
Proof. intros me Sm H. apply (C17_mesh_coherency me Sm) in H as (_ & _ & O). apply oriented_even, O. Qed.
Print Assumptions C91_even.
Theorem C91_hole : forall me me' l r t, SmallMesh me -> SmallMesh me' -> me_tris me = l ++ t :: r -> me_tris me' = l ++ r ->
  ~ (mesh_coherency me = None /\ mesh_coherency me' = None).
Proof.
  intros me me' l r t Sm Sm' E E' (H & H'). apply C91_even in H; [|exact Sm]. apply C91_even in H'; [|exact Sm'].
  rewrite E in H. rewrite E' in H'. rewrite app_length in H, H'. cbn in H. destruct H as (a & H), H' as (b & H'). lia.
Qed.
Print Assumptions C91_hole.

(** A mesh of two pieces without a common vertex is accepted if both pieces are; if both have four triangles and three
    vertices, exactly if both are. *)
Theorem C91_pieces : forall a b me, SmallMesh me -> Disjoint a b me ->
  3 <= List.length (me_verts a) -> 3 <= List.length (me_verts b) -> 3 <= List.length (me_verts me) ->
  4 <= List.length (me_tris a) -> 4 <= List.length (me_tris b) ->
  (mesh_coherency me = None <-> mesh_coherency a = None /\ mesh_coherency b = None).
Proof.
  intros a b me Sm D Va Vb V Ta Tb. pose proof (disjoint_oriented a b me D) as O. destruct D as (E & _).
  assert (Sa : SmallMesh a) by (unfold SmallMesh in *; rewrite E, app_length in Sm; lia).
  assert (Sb : SmallMesh b) by (unfold SmallMesh in *; rewrite E, app_length in Sm; lia).
  rewrite (proj1 (C17_mesh_coherency me Sm)), (proj1 (C17_mesh_coherency a Sa)), (proj1 (C17_mesh_coherency b Sb)).
  unfold Coherent. rewrite E, app_length. assert (4 <= List.length (me_tris a) + List.length (me_tris b)) by lia. tauto.
Qed.
Print Assumptions C91_pieces.

(** The same of Model.ValidateCoherency, for every schedule: it finds the same errors at the same places. *)
Theorem C91_model : forall m m' r r',
  NoDup (map fst (mo_childs m)) -> ~ In "" (map fst (mo_childs m)) -> SmallModel m ->
  NoDup (map fst (mo_childs m')) -> ~ In "" (map fst (mo_childs m')) -> Resurfaced m m' ->
  model_coherency m r -> model_coherency m' r' -> Permutation (located_o r) (located_o r').
Proof.
  intros m m' r r' D N Sm D' N' (R1 & R2) H H'.
  assert (Sm' : SmallModel m').
  { intros p i o' me' A M. destruct (R2 p i o' A) as (o & B & _ & K). rewrite M in K. destruct (ob_mesh o) as [me|] eqn:Mo; [|destruct K].
    destruct K as (f & flip & _ & K). destruct (relisted_length _ _ _ _ K) as [_ L]. unfold SmallMesh. rewrite L. exact (Sm p i o me B Mo). }
  destruct (C18_model_coherency m D N Sm) as (_ & A & _). destruct (C18_model_coherency m' D' N' Sm') as (_ & A' & _).
  destruct (A r H) as (ND & IFF & _). destruct (A' r' H') as (ND' & IFF' & _).
  apply NoDup_Permutation; [exact ND|exact ND'|]. intros x. rewrite IFF, IFF'. split.
  - intros (p & i & o & me & e & At & So & Mo & In & ->). destruct (R1 p i o At) as (o' & At' & Ty & K). rewrite Mo in K.
    destruct (ob_mesh o') as [me'|] eqn:Mo'; [|destruct K]. destruct K as (f & flip & I & K).
    exists p, i, o', me', e. split; [exact At'|]. split; [unfold Solid in *; rewrite Ty; exact So|]. split; [exact Mo'|]. split; [|reflexivity].
    apply (relisted_incoherent _ _ _ _ _ I K). exact In.
  - intros (p & i & o' & me' & e & At & So & Mo & In & ->). destruct (R2 p i o' At) as (o & At' & Ty & K). rewrite Mo in K.
    destruct (ob_mesh o) as [me|] eqn:Mo'; [|destruct K]. destruct K as (f & flip & I & K).
    exists p, i, o, me, e. split; [exact At'|]. split; [unfold Solid in *; rewrite <- Ty; exact So|]. split; [exact Mo'|]. split; [|reflexivity].
    apply (relisted_incoherent _ _ _ _ _ I K). exact In.
Qed.
Print Assumptions C91_model.

(** The tetrahedron of C17 with its vertices numbered from ten, its triangles in another order, each from another corner
    and turned over; and two of them. *)
Definition far (v : N) : N := (v + 10)%N.
Definition other_tetra : Mesh :=
  mkMesh (repeat point_zero 4) [] [tri 12 11 10; tri 10 13 12; tri 13 10 11; tri 13 11 12] [] [] [].
Definition two_tetras : Mesh := mkMesh (repeat point_zero 14) [] (me_tris tetra ++ me_tris other_tetra) [] [] [].
Definition in_part (me : Mesh) : Model :=
  mkModel "" "" 0 "" (mkRes [] [coh_obj 0 me; coh_obj 3 flipped] []) (mkBuild [] []) [] [] []
    [("/a.model", mkChild (mkRes [] [coh_obj 0 flipped] []) [] [])] [] [] [] [].
Lemma same_relisted me : Relisted (fun v => v) false me me.
Proof.
  split; [reflexivity|]. exists (map corners (me_tris me)). split; [reflexivity|].
  induction (me_tris me) as [|t r IH]; cbn; constructor; [apply Turned0|exact IH].
Qed.
Example C91_nonvacuous :
  SmallMesh tetra /\ Injective far /\ Relisted far true tetra other_tetra /\ mesh_coherency tetra = None /\
  Disjoint tetra other_tetra two_tetras /\ mesh_coherency two_tetras = None /\
  Resurfaced (in_part tetra) (in_part other_tetra) /\ SmallModel (in_part tetra).
Proof.
  split; [reflexivity|]. split; [intros a b; unfold far; lia|].
  assert (RT : Relisted far true tetra other_tetra).
  { split; [reflexivity|]. exists [(12, 11, 10)%N; (13, 10, 11)%N; (13, 11, 12)%N; (10, 13, 12)%N]. split.
    - apply perm_skip. apply (Permutation_app_comm [(13, 10, 11)%N; (13, 11, 12)%N] [(10, 13, 12)%N]).
    - repeat constructor. }
  split; [exact RT|]. split; [reflexivity|]. split; [|split; [reflexivity|]].
  - split; [reflexivity|]. intros v (t & T & V) (t' & T' & V').
    repeat (destruct T as [<-|T]; [|]); try destruct T; repeat (destruct T' as [<-|T']; [|]); try destruct T'; cbn in V, V'; lia.
  - assert (At : forall me p i o, ObjectAt (in_part me) p i o ->
      (p, i, o) = ("", 0, coh_obj 0 me) \/ (p, i, o) = ("", 1, coh_obj 3 flipped) \/ (p, i, o) = ("/a.model", 0, coh_obj 0 flipped)).
    { intros me p i o H. destruct H as [i o H|p c i o [H|[]] H'].
      - destruct i as [|[|[|i]]]; cbn in H; try discriminate; injection H as <-; auto.
      - injection H as <- <-. destruct i as [|[|i]]; cbn in H'; try discriminate; injection H' as <-; auto. }
    assert (SF : SameSurface (coh_obj 3 flipped) (coh_obj 3 flipped)) by (split; [reflexivity|]; exists (fun v => v), false; split; [intros a b E; exact E|apply same_relisted]).
    assert (SF' : SameSurface (coh_obj 0 flipped) (coh_obj 0 flipped)) by (split; [reflexivity|]; exists (fun v => v), false; split; [intros a b E; exact E|apply same_relisted]).
    assert (ST : SameSurface (coh_obj 0 tetra) (coh_obj 0 other_tetra)) by (split; [reflexivity|]; exists far, true; split; [intros a b; unfold far; lia|exact RT]).
    assert (Here : forall me, ObjectAt (in_part me) "" 0 (coh_obj 0 me) /\ ObjectAt (in_part me) "" 1 (coh_obj 3 flipped) /\ ObjectAt (in_part me) "/a.model" 0 (coh_obj 0 flipped)).
    { intros me. split; [apply AtRoot; reflexivity|]. split; [apply AtRoot; reflexivity|]. eapply AtChild; [left|]; reflexivity. }
    destruct (Here tetra) as (A1 & A2 & A3). destruct (Here other_tetra) as (B1 & B2 & B3).
    split; [split|].
    + intros p i o H. apply At in H as [H|[H|H]]; injection H as -> -> ->; eauto.
    + intros p i o H. apply At in H as [H|[H|H]]; injection H as -> -> ->; eauto.
    + intros p i o me H M. apply At in H as [H|[H|H]]; injection H as -> -> ->; injection M as <-; reflexivity.
Qed.
