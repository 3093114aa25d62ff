(** * Theorems on the validator of the beam lattice extension: C26 *)
From Verif Require Import GoBase GoFloat Types M_Core S_Core P_Core M_Errors S_Errors P_Errors
  M_Geom S_Geom P_Geom P_Coherency M_Validate S_Validate P_Validate P_Validate2 P_Validate3
  M_ExtValidate S_ExtValidate P_ExtMat P_ExtBeam.

(** C26: the validator reports exactly the located violations (of the rules it applies). *)
Theorem C26_lattice_reports : forall m path el x, NoDup (map fst (mo_childs m)) ->
  (In x (located_o (beamlattice_validate m path el)) <->
   exists loc k, x = (loc, "", k) /\ BeamViolation m path el loc k).
Proof. intros m path el x Hok. apply in_beamlattice. exact Hok. Qed.
Print Assumptions C26_lattice_reports.

Definition ex_num (p : positive) : f32 := S754_finite false p (-23).
Definition ex_lattice (clip mesh : N) (minlen radius r1 r2 : f32) (refs : list N) : BeamLattice :=
  mkBL clip mesh 0 [mkBeam 0 1 r1 r2 0 0; mkBeam 1 2 r1 r1 0 0] [mkBS refs "s" "t"] minlen radius 0.
Definition ex_bo (id : N) (ext : list AnyElem) : Object :=
  mkObj id "" "" "" 0 0 0 mg_zero (Some (mkMesh [point_zero; point_zero; point_zero] [] [] [] [] ext)) None [].
Definition ex_bmod (bl : BeamLattice) : Model :=
  mkModel "" "" 0 "" (mkRes [] [ex_bo 1 []; ex_bo 2 [AnyExt (XBeamLattice bl)]] []) (mkBuild [] []) [] [] [] [] [] [] [] [].
(** Accepted or refused by the validator, as the second object of that part. *)
Definition Accepted (bl : BeamLattice) : Prop :=
  beamlattice_validate (ex_bmod bl) "" (VObject (ex_bo 2 [AnyExt (XBeamLattice bl)])) = None.
Definition Legal (bl : BeamLattice) : Prop :=
  LatticeConforms (ex_bmod bl) "" (ex_bo 2 [AnyExt (XBeamLattice bl)])
    (mkMesh [point_zero; point_zero; point_zero] [] [] [] [] [AnyExt (XBeamLattice bl)]) bl.
Lemma ex_plain : PlainMesh (ex_bo 1 []).
Proof.
  split; [reflexivity|]. eexists. split; [reflexivity|]. intros bl (a & b & E & _). destruct a; discriminate.
Qed.
Lemma ex_legal clip mesh p q r s refs : (clip = 0%N /\ mesh = 0%N) \/ mesh = 1%N ->
  (forall x, In x refs -> (x < 2)%N) -> Legal (ex_lattice clip mesh (ex_num p) (ex_num q) (ex_num r) (ex_num s) refs).
Proof.
  intros Hc Hx. unfold Legal, LatticeConforms.
  split; [left; reflexivity|]. split; [right; eexists _, _; reflexivity|]. split; [right; eexists _, _; reflexivity|].
  split; [cbn; intros H; destruct Hc as [[-> _]| ->]; [contradiction|discriminate]|].
  split; [|split].
  - intros id Hi Hn. cbn in Hi. destruct Hi as [<-|[<-|[]]]; [|contradiction].
    destruct Hc as [[_ ->]| ->]; [contradiction|]. split; [discriminate|]. exists (mo_res (ex_bmod (ex_lattice clip 1 (ex_num p) (ex_num q) (ex_num r) (ex_num s) refs))), (ex_bo 1 []).
    split; [constructor; reflexivity|]. split; [|exact ex_plain]. eexists [], _. split; [reflexivity|]. split; [reflexivity|intros x []].
  - intros b Hb. cbn in Hb. destruct Hb as [<-|[<-|[]]]; cbn; (split; [discriminate|]); (split; [lia|]); (split; [lia|]); intros (z & E); discriminate.
  - intros t x Ht Hx'. cbn in Ht. destruct Ht as [<-|[]]. cbn in *. apply Hx. exact Hx'.
Qed.
(** C26: refuted.  (1) A lattice without clipping is refused.  (2) A beam with two
    different radii is refused.  (3) A beam set naming an existing beam is refused.
    (4) Clipping without a clipping mesh is accepted.  (5) Negative lengths are accepted.
    (6) A beam set naming a beam that does not exist is accepted. *)
Theorem C26_lattice_refuted :
  (exists bl, bl_clip bl = 0%N /\ Legal bl /\ ~ Accepted bl) /\
  (exists bl, Legal bl /\ ~ Accepted bl /\ bl_clipmesh bl = 1%N /\ forall s, In s (bl_sets bl) -> bs_refs s = []) /\
  (exists bl, Legal bl /\ ~ Accepted bl /\ bl_clipmesh bl = 1%N /\ forall b, In b (bl_beams bl) -> bm_r1 b = bm_r2 b) /\
  (exists bl, bl_clip bl <> 0%N /\ bl_clipmesh bl = 0%N /\ Accepted bl) /\
  (exists bl, fltb (bl_radius bl) f_zero = true /\ fltb (bl_minlen bl) f_zero = true /\ Accepted bl) /\
  (exists bl s r, In s (bl_sets bl) /\ In r (bs_refs s) /\ (N.of_nat (List.length (bl_beams bl)) <= r)%N /\ Accepted bl).
Proof.
  split; [|split; [|split; [|split; [|split]]]].
  - exists (ex_lattice 0 0 (ex_num 9000000) (ex_num 9000000) (ex_num 9000000) (ex_num 9000000) []). split; [reflexivity|].
    split; [apply ex_legal; [auto|intros x []]|]. vm_compute. discriminate.
  - exists (ex_lattice 1 1 (ex_num 9000000) (ex_num 9000000) (ex_num 9000001) (ex_num 9000002) []).
    split; [apply ex_legal; [auto|intros x []]|]. split; [vm_compute; discriminate|]. split; [reflexivity|]. intros s [<-|[]]. reflexivity.
  - exists (ex_lattice 1 1 (ex_num 9000000) (ex_num 9000000) (ex_num 9000001) (ex_num 9000001) [1%N]).
    split; [apply ex_legal; [auto|intros x [<-|[]]; reflexivity]|]. split; [vm_compute; discriminate|]. split; [reflexivity|]. intros b [<-|[<-|[]]]; reflexivity.
  - exists (ex_lattice 1 0 (ex_num 9000000) (ex_num 9000000) (ex_num 9000000) (ex_num 9000000) []). split; [discriminate|]. split; reflexivity.
  - exists (ex_lattice 1 0 (fneg (ex_num 9000000)) (fneg (ex_num 9000000)) (ex_num 9000000) (ex_num 9000000) []). repeat split; reflexivity.
  - exists (ex_lattice 1 0 (ex_num 9000000) (ex_num 9000000) (ex_num 9000000) (ex_num 9000000) [0%N; 1%N; 2%N; 0%N]), (mkBS [0%N; 1%N; 2%N; 0%N] "s" "t"), 2%N.
    split; [left; reflexivity|]. split; [cbn; auto|]. split; [cbn; lia|]. reflexivity.
Qed.
Print Assumptions C26_lattice_refuted.

(** What holds: accepted exactly when conforming for the lattices with a clipping mesh,
    non-negative lengths, beams with one radius and beam sets as long as the list of
    beams.  Missing: the other lattices, where the validator errs as shown above. *)
Theorem C26_lattice_partial : forall m path rs o me bl, NoDup (map fst (mo_childs m)) ->
  Addressed m path rs -> In o (rs_objects rs) -> ob_mesh o = Some me -> LatticeOf me bl ->
  Le f_zero (bl_minlen bl) -> Le f_zero (bl_radius bl) -> bl_clipmesh bl <> 0%N ->
  (forall b, In b (bl_beams bl) -> NumEq (bm_r1 b) (bl_radius bl) \/ NumEq (bm_r1 b) (bm_r2 b)) ->
  (forall s, In s (bl_sets bl) -> List.length (bs_refs s) = List.length (bl_beams bl)) ->
  (beamlattice_validate m path (VObject o) = None <-> LatticeConforms m path o me bl).
Proof.
  intros m path rs o me bl Hok Ha Ho Hm Hl H1 H2 H3 H4 H5.
  assert (Hs : exists rs o', Addressed m path rs /\ In o' (rs_objects rs) /\ ob_id o' = ob_id o) by eauto.
  rewrite <- (lattice_conforms m path o me bl Hok Hs H1 H2 H3 H4 H5).
  rewrite (nil_no_violation _ (BeamViolation m path (VObject o)) (nn_beamlattice m path (VObject o))
    (fun x => in_beamlattice m path (VObject o) x Hok)). split.
  - intros H loc k Hv. apply (H (lv "mesh" :: lv "beamlattice" :: loc) k). econstructor; eassumption.
  - intros H loc k Hv. inversion Hv as [o' me' bl' loc' k' Hm' Hl' Hv']; subst.
    assert (me' = me) by congruence. subst. apply get_lattice_spec in Hl, Hl'. assert (bl' = bl) by congruence. subst.
    exact (H _ _ Hv').
Qed.
Print Assumptions C26_lattice_partial.
Example C26_nonvacuous :
  let bl := ex_lattice 1 1 (ex_num 9000000) (ex_num 9000000) (ex_num 9000001) (ex_num 9000001) [1%N; 0%N] in
  Accepted bl /\ Legal bl /\ (forall b, In b (bl_beams bl) -> NumEq (bm_r1 b) (bl_radius bl) \/ NumEq (bm_r1 b) (bm_r2 b)) /\
  (forall s, In s (bl_sets bl) -> List.length (bs_refs s) = List.length (bl_beams bl)) /\
  BeamViolation (ex_bmod bl) "" (VObject (ex_bo 2 [AnyExt (XBeamLattice (mkBL 1 2 0 [] [] f_one f_one 0))]))
    [lv "mesh"; lv "beamlattice"] (ESent "ErrRecursion").
Proof.
  intros bl. split; [reflexivity|]. split; [apply ex_legal; [auto|intros x [<-|[<-|[]]]; reflexivity]|].
  split; [intros b [<-|[<-|[]]]; right; split; reflexivity|]. split; [intros s [<-|[]]; reflexivity|].
  eapply BvLattice; [reflexivity|exists [], []; split; [reflexivity|intros x []]|].
  eapply LvRef; [left; reflexivity|discriminate|]. constructor. reflexivity.
Qed.
