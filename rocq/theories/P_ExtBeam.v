(** * The validator of the beam lattice extension *)
From Verif Require Import GoBase GoFloat Types M_Core S_Core P_Core M_Errors S_Errors P_Errors
  M_Geom S_Geom P_Geom P_Coherency M_Validate S_Validate P_Validate P_Validate2 P_Validate3
  M_ExtValidate S_ExtValidate P_ExtMat.

Lemma get_lattice_spec me bl : get_lattice (me_ext me) = Some bl <-> LatticeOf me bl.
Proof.
  unfold LatticeOf. generalize (me_ext me) as l. induction l as [|x l IH].
  - cbn. split; [discriminate|]. intros (a & b & H & _). destruct a; discriminate.
  - assert (D : (exists y, x = AnyExt (XBeamLattice y)) \/ (forall y, x <> AnyExt (XBeamLattice y))).
    { destruct x as [|[]]; try (right; discriminate). left; eauto. }
    destruct D as [(y & ->)|D]; cbn [get_lattice].
    + split.
      * intros E. injection E as ->. exists [], l. split; [reflexivity|]. intros z [].
      * intros (a & b & E & H). destruct a as [|z a]; [injection E as -> _; reflexivity|].
        injection E as <- _. destruct (H y). left; reflexivity.
    + replace (match x with AnyExt (XBeamLattice b) => Some b | _ => get_lattice l end) with (get_lattice l)
        by (destruct x as [|[]]; try reflexivity; destruct (D b); reflexivity).
      rewrite IH. split; intros (a & b & E & H).
      * exists (x :: a), b. split; [rewrite E; reflexivity|]. intros y [Ey|Hy]; [exact (D y Ey)|exact (H y Hy)].
      * destruct a as [|z a]; [injection E as E _; destruct (D _ E)|]. injection E as <- ->.
        exists a, b. split; [reflexivity|]. intros y Hy. apply (H y). right; exact Hy.
Qed.
Lemma feqb_numeq x y : feqb x y = true <-> NumEq x y.
Proof.
  assert (N : forall z, feqb S754_nan z = false /\ feqb z S754_nan = false /\ fleb S754_nan z = false /\ fleb z S754_nan = false).
  { intros z. destruct z; repeat split; reflexivity. }
  assert (D : forall z : f32, z = S754_nan \/ NotNaN z) by (intros []; [right; discriminate..|left; reflexivity|right; discriminate]).
  destruct (D x) as [->|Hx].
  { unfold NumEq, Le. destruct (N y) as (-> & _ & -> & _). split; [discriminate|intros [H _]; exact H]. }
  destruct (D y) as [->|Hy].
  { unfold NumEq, Le. destruct (N x) as (_ & -> & _ & ->). split; [discriminate|intros [H _]; exact H]. }
  rewrite feqb_key, NumEq_key by assumption. reflexivity.
Qed.
Lemma feqb_unset x : feqb x f_zero = true <-> Unset x.
Proof. apply feqb_zero. Qed.
Lemma ref_loop_spec l id self : id <> self -> forall x, In x (L (ref_mesh_loop l id self)) <->
  (x = flat (ESent "ErrMissingResource") /\ exists o, DeclaredBefore l id self o) \/
  (x = flat (ESent "ErrLatticeInvalidMesh") /\ exists o, DeclaredBefore l self id o /\ ~ PlainMesh o).
Proof.
  intros Hne. unfold DeclaredBefore. induction l as [|o l IH]; intros x; cbn [ref_mesh_loop].
  - split; [intros []|]. intros [(_ & o & a & b & E & _)|(_ & o & (a & b & E & _) & _)]; destruct a; discriminate.
  - destruct (N.eqb_spec (ob_id o) self) as [E|E].
    + rewrite in_sent. unfold flat. split.
      * intros ->. left. split; [reflexivity|]. exists o, [], l. split; [reflexivity|]. split; [exact E|intros y []].
      * intros [(-> & _)|(-> & o' & (a & b & E1 & E2 & H) & _)]; [reflexivity|].
        destruct a as [|y a]; injection E1 as <- _; [congruence|]. destruct (H o (or_introl eq_refl)). contradiction.
    + destruct (N.eqb_spec (ob_id o) id) as [E'|E'].
      * assert (P : PlainMesh o <-> match ob_mesh o with None => False | Some me =>
                  negb (ob_type o =? 0)%Z || match get_lattice (me_ext me) with Some _ => true | None => false end = false end).
        { unfold PlainMesh. destruct (ob_mesh o) as [me|]; [|split; [intros (_ & me & H & _); discriminate|intros []]].
          rewrite orb_false_iff, negb_false_iff, Z.eqb_eq. split; intros (H1 & H2); (split; [exact H1|]).
          - destruct H2 as (me' & Em & H2). injection Em as <-. destruct (get_lattice (me_ext me)) as [bl|] eqn:G; [|reflexivity].
            apply get_lattice_spec in G. destruct (H2 _ G).
          - exists me. split; [reflexivity|]. intros bl G. apply get_lattice_spec in G. rewrite G in H2. discriminate. }
        assert (U : forall o', (exists a b, o :: l = a ++ o' :: b /\ ob_id o' = id /\ forall x0, In x0 a -> ob_id x0 <> id /\ ob_id x0 <> self) <-> o' = o).
        { intros o'. split.
          - intros (a & b & E1 & E2 & H). destruct a as [|y a]; [injection E1 as <- _; reflexivity|].
            injection E1 as <- _. destruct (H o (or_introl eq_refl)). contradiction.
          - intros ->. exists [], l. split; [reflexivity|]. split; [exact E'|intros y []]. }
        assert (V : ~ exists o' a b, o :: l = a ++ o' :: b /\ ob_id o' = self /\ forall x0, In x0 a -> ob_id x0 <> self /\ ob_id x0 <> id).
        { intros (o' & a & b & E1 & E2 & H). destruct a as [|y a]; injection E1 as <- _; [contradiction|].
          destruct (H o (or_introl eq_refl)). contradiction. }
        assert (Eq : In x (L (match ob_mesh o with None => sent "ErrLatticeInvalidMesh" | Some me =>
            if negb (ob_type o =? 0)%Z || match get_lattice (me_ext me) with Some _ => true | None => false end
            then sent "ErrLatticeInvalidMesh" else None end)) <-> x = flat (ESent "ErrLatticeInvalidMesh") /\ ~ PlainMesh o).
        { unfold flat. destruct (ob_mesh o) as [me|] eqn:Em.
          - destruct (_ || _) eqn:Eo.
            + rewrite in_sent. split; [intros ->|tauto]. split; [reflexivity|]. rewrite P. discriminate.
            + split; [intros []|]. intros (_ & H). destruct H. apply P. reflexivity.
          - rewrite in_sent. split; [intros ->|tauto]. split; [reflexivity|]. rewrite P. intros []. }
        rewrite Eq. split.
        -- intros (-> & H). right. split; [reflexivity|]. exists o. split; [apply U; reflexivity|exact H].
        -- intros [(_ & H)|(-> & o' & H & H')]; [contradiction|]. apply U in H as ->. auto.
      * rewrite IH. clear IH.
        assert (T : forall s t o', s <> ob_id o -> t <> ob_id o ->
          (exists a b, o :: l = a ++ o' :: b /\ ob_id o' = s /\ forall x0, In x0 a -> ob_id x0 <> s /\ ob_id x0 <> t) <->
          (exists a b, l = a ++ o' :: b /\ ob_id o' = s /\ forall x0, In x0 a -> ob_id x0 <> s /\ ob_id x0 <> t)).
        { intros s t o' Hs Ht. split; intros (a & b & E1 & E2 & H).
          - destruct a as [|y a]; injection E1 as <- ->; [congruence|]. exists a, b. split; [reflexivity|]. split; [exact E2|].
            intros x0 Hx. apply H. right; exact Hx.
          - exists (o :: a), b. split; [rewrite E1; reflexivity|]. split; [exact E2|].
            intros x0 [<-|Hx]; [split; congruence|apply H; exact Hx]. }
        split.
        -- intros [(-> & o' & H)|(-> & o' & H & H')]; [left|right]; (split; [reflexivity|]); exists o'; [|split; [|exact H']]; (apply T; [congruence..|exact H]).
        -- intros [(-> & o' & H)|(-> & o' & H & H')]; [left|right]; (split; [reflexivity|]); exists o'; [|split; [|exact H']]; (apply T in H; [exact H|congruence..]).
Qed.
Lemma in_ref_mesh m path id self x : ChildsOk m -> In x (L (ref_mesh_validate m path id self)) <->
  exists k, x = flat k /\ RefMeshViolation m path self id k.
Proof.
  intros Hok. unfold ref_mesh_validate. destruct (N.eqb_spec id self) as [E|E].
  - rewrite in_sent. split.
    + intros ->. eexists. split; [reflexivity|]. constructor; exact E.
    + intros (k & -> & H). destruct H; [reflexivity|contradiction..].
  - destruct (find_resources m path) as [rs|] eqn:F.
    + apply find_resources_spec in F; [|exact Hok].
      assert (U : forall rs', Addressed m path rs' -> rs' = rs).
      { intros rs' H. apply find_resources_spec in H; [|exact Hok]. apply find_resources_spec in F; [|exact Hok]. congruence. }
      rewrite (ref_loop_spec _ _ _ E). split.
      * intros [(-> & o & H)|(-> & o & H & H')]; eexists; (split; [reflexivity|]); [eapply RmLate|eapply RmKind]; eassumption.
      * intros (k & -> & H). destruct H as [H|rs' o _ Ha H|rs' o _ Ha H H']; [contradiction| |]; rewrite (U _ Ha) in H; [left|right]; eauto.
    + assert (U : forall rs', ~ Addressed m path rs').
      { intros rs' H. apply find_resources_spec in H; [|exact Hok]. congruence. }
      split; [intros []|]. intros (k & _ & H). destruct H as [H|rs' o _ Ha|rs' o _ Ha]; [contradiction|destruct (U _ Ha)..].
Qed.
Lemma nn_ref_mesh m path id self : nn (ref_mesh_validate m path id self).
Proof.
  unfold ref_mesh_validate. destruct (_ =? _)%N; [nn|]. destruct (find_resources m path) as [rs|]; [|nn].
  induction (rs_objects rs) as [|o l IH]; cbn [ref_mesh_loop]; [nn|]. destruct (_ =? _)%N; [nn|]. destruct (_ =? _)%N; [|exact IH].
  destruct (ob_mesh o); [|nn]. destruct (_ || _); nn.
Qed.
Lemma in_beam n radius i b e x : In x (L (beam_validate n radius i b e)) <-> In x (L e) \/
  (bm_i1 b = bm_i2 b /\ x = ([lvi "beam" i], "", ESent "ErrLatticeSameVertex")) \/
  (bm_i1 b <> bm_i2 b /\ (exists v, In v [bm_i1 b; bm_i2 b] /\ (N.of_nat n <= v)%N) /\ x = ([lvi "beam" i], "", ESent "ErrIndexOutOfBounds")) \/
  ((~ Unset (bm_r1 b) /\ ~ NumEq (bm_r1 b) radius /\ ~ NumEq (bm_r1 b) (bm_r2 b)) /\ x = ([lvi "beam" i], "", ESent "ErrLatticeBeamR2")).
Proof.
  unfold beam_validate. cbv zeta. rewrite in_add_if, in_at_sent, !andb_true_iff, !negb_true_iff, <- !not_true_iff_false, feqb_unset, !feqb_numeq.
  assert (B : In x (L (if (bm_i1 b =? bm_i2 b)%N then add e (at_index (sent "ErrLatticeSameVertex") "beam" i)
    else add_if ((N.of_nat n <=? bm_i1 b) || (N.of_nat n <=? bm_i2 b))%N e
                (at_index (sent "ErrIndexOutOfBounds") "beam" i))) <-> In x (L e) \/
    (bm_i1 b = bm_i2 b /\ x = ([lvi "beam" i], "", ESent "ErrLatticeSameVertex")) \/
    (bm_i1 b <> bm_i2 b /\ (exists v, In v [bm_i1 b; bm_i2 b] /\ (N.of_nat n <= v)%N) /\ x = ([lvi "beam" i], "", ESent "ErrIndexOutOfBounds"))).
  { destruct (N.eqb_spec (bm_i1 b) (bm_i2 b)) as [E|E].
    - rewrite in_add, in_at_sent. tauto.
    - rewrite in_add_if, in_at_sent, orb_true_iff, !N.leb_le. split.
      + intros [H|[[H|H] ->]]; [auto|right; right; split; [exact E|]; split; [|reflexivity]; eexists; split; [|exact H]; cbn; auto..].
      + intros [H|[[H _]|(_ & (v & [<-|[<-|[]]] & H) & ->)]]; [auto|contradiction|auto..]. }
  rewrite B. tauto.
Qed.
Lemma nn_beam n radius i b e : nn e -> nn (beam_validate n radius i b e).
Proof. intros He. unfold beam_validate. cbv zeta. apply nn_add_if; [|nn]. destruct (_ =? _)%N; nn. Qed.

(** The body of validateObject, before the wrapping. *)
Definition lattice_errs (m : Model) (path : string) (o : Object) (me : Mesh) (bl : BeamLattice) : error :=
  let errs := add_if (negb (ob_type o =? 0)%Z && negb (ob_type o =? 3)%Z) None (sent "ErrLatticeObjType") in
  let errs := add_if (feqb (bl_minlen bl) f_zero) errs (missing "minlength") in
  let errs := add_if (feqb (bl_radius bl) f_zero) errs (missing "radius") in
  let errs := add_if ((bl_clip bl =? 0) && (bl_clipmesh bl =? 0))%N errs (sent "ErrLatticeClippedNoMesh") in
  let errs := if negb (bl_clipmesh bl =? 0)%N
              then add errs (ref_mesh_validate m path (bl_clipmesh bl) (ob_id o)) else errs in
  let errs := if negb (bl_repmesh bl =? 0)%N
              then add errs (ref_mesh_validate m path (bl_repmesh bl) (ob_id o)) else errs in
  let errs := loop (beam_validate (List.length (me_verts me)) (bl_radius bl)) 0 (bl_beams bl) errs in
  loop (fun i set errs =>
    add_if (existsb (fun ref => (N.of_nat (List.length (bs_refs set)) <=? ref)%N) (bs_refs set)) errs
           (at_index (sent "ErrIndexOutOfBounds") "beamset" i)) 0 (bl_sets bl) errs.
Lemma lattice_validate_eq m path o : lattice_validate m path o =
  match ob_mesh o with
  | None => None
  | Some me => match get_lattice (me_ext me) with
               | None => None
               | Some bl => match lattice_errs m path o me bl with None => None | Some _ =>
                   wrap (wrap (lattice_errs m path o me bl) "beamlattice") "mesh" end
               end
  end.
Proof. reflexivity. Qed.
Lemma in_if_add (c : bool) e y x : In x (L (if c then add e y else e)) <-> In x (L e) \/ (c = true /\ In x (L y)).
Proof. apply in_add_if. Qed.
Lemma in_lattice_errs m path o me bl x : ChildsOk m ->
  In x (L (lattice_errs m path o me bl)) <-> exists loc k, x = (loc, "", k) /\ LatticeViolation m path o me bl loc k.
Proof.
  intros Hok. unfold lattice_errs. cbv zeta.
  rewrite (in_loop _ (fun i set y => (exists r, In r (bs_refs set) /\ (N.of_nat (List.length (bs_refs set)) <= r)%N) /\
                                     y = ([lvi "beamset" i], "", ESent "ErrIndexOutOfBounds"))).
  2:{ intros i y e z. rewrite in_add_if, in_at_sent, existsb_exists. split.
      - intros [H|[(r & Hr & H) ->]]; [auto|]. apply N.leb_le in H. right. eauto.
      - intros [H|[(r & Hr & H) ->]]; [auto|]. apply N.leb_le in H. right. eauto. }
  rewrite (in_loop (beam_validate _ _) (fun i b y =>
    (bm_i1 b = bm_i2 b /\ y = ([lvi "beam" i], "", ESent "ErrLatticeSameVertex")) \/
    (bm_i1 b <> bm_i2 b /\ (exists v, In v [bm_i1 b; bm_i2 b] /\ (N.of_nat (List.length (me_verts me)) <= v)%N) /\ y = ([lvi "beam" i], "", ESent "ErrIndexOutOfBounds")) \/
    ((~ Unset (bm_r1 b) /\ ~ NumEq (bm_r1 b) (bl_radius bl) /\ ~ NumEq (bm_r1 b) (bm_r2 b)) /\ y = ([lvi "beam" i], "", ESent "ErrLatticeBeamR2")))).
  2:{ intros i y e z. apply in_beam. }
  rewrite !in_if_add, !in_add_if, !in_sent, !in_missing, in_none, !in_ref_mesh by exact Hok.
  rewrite !andb_true_iff, !negb_true_iff, !N.eqb_neq, !N.eqb_eq, !Z.eqb_neq, !feqb_unset.
  split.
  - intros [[[[H|(H & k & -> & Hk)]|(H & k & -> & Hk)]|(i & b & Hi & H)]|(i & s & Hi & (r & Hr & H) & ->)].
    + destruct H as [[[[[]|[H ->]]|[H ->]]|[H ->]]|[[H H'] ->]]; eexists _, _; (split; [reflexivity|]).
      * apply LvType. unfold SolidType. intros [K|K]; destruct H; contradiction.
      * apply LvMinLen; exact H.
      * apply LvRadius; exact H.
      * apply LvClip; assumption.
    + eexists _, _. split; [reflexivity|]. eapply LvRef; [left; reflexivity|exact H|exact Hk].
    + eexists _, _. split; [reflexivity|]. eapply LvRef; [right; left; reflexivity|exact H|exact Hk].
    + destruct H as [[H ->]|[(H & (v & Hv & H') & ->)|((H & H' & H2) & ->)]]; eexists _, _; (split; [reflexivity|]).
      * eapply LvSame; eassumption.
      * eapply LvRange; eassumption.
      * eapply LvR2; eassumption.
    + eexists _, _. split; [reflexivity|]. eapply LvSet; eassumption.
  - intros (loc & k & -> & H). destruct H as [H|H|H|H H'|id k Hi H H'|i b Hi H|i b v Hi H Hv H'|i b Hi H H' H2|i s r Hi Hr H].
    + left; left; left; left; left; left; left; right. split; [|reflexivity]. unfold SolidType in H. tauto.
    + left; left; left; left; left; left; right. auto.
    + left; left; left; left; left; right. auto.
    + left; left; left; left; right. auto.
    + destruct Hi as [<-|[<-|[]]]; [left; left; left; right|left; left; right]; (split; [exact H|]); exists k; (split; [reflexivity|exact H']).
    + left; right. exists i, b. split; [exact Hi|]. left. auto.
    + left; right. exists i, b. split; [exact Hi|]. right; left. eauto 8.
    + left; right. exists i, b. split; [exact Hi|]. right; right. auto 8.
    + right. exists i, s. eauto 8.
Qed.
Lemma nn_lattice_errs m path o me bl : nn (lattice_errs m path o me bl).
Proof.
  unfold lattice_errs. cbv zeta. apply nn_loop; [intros; nn|]. apply nn_loop; [intros; apply nn_beam; assumption|].
  pose proof (nn_ref_mesh m path (bl_clipmesh bl) (ob_id o)). pose proof (nn_ref_mesh m path (bl_repmesh bl) (ob_id o)).
  destruct (negb (bl_repmesh bl =? 0)%N), (negb (bl_clipmesh bl =? 0)%N); nn.
Qed.
Lemma in_beamlattice m path el x : ChildsOk m ->
  In x (L (beamlattice_validate m path el)) <-> exists loc k, x = (loc, "", k) /\ BeamViolation m path el loc k.
Proof.
  intros Hok. destruct el as [|a|o]; cbn [beamlattice_validate];
    try (split; [intros []|intros (loc & k & _ & H); inversion H]).
  rewrite lattice_validate_eq. destruct (ob_mesh o) as [me|] eqn:Em.
  2:{ split; [intros []|]. intros (loc & k & _ & H). inversion H. congruence. }
  destruct (get_lattice (me_ext me)) as [bl|] eqn:G.
  2:{ split; [intros []|]. intros (loc & k & _ & H). inversion H as [o' me' bl loc' k' Hm Hl Hv]; subst.
      assert (me' = me) by congruence. subst. apply get_lattice_spec in Hl. congruence. }
  apply get_lattice_spec in G.
  pose proof (in_lattice_errs m path o me bl) as HL. destruct (lattice_errs m path o me bl) as [er|].
  - rewrite in_wrap. split.
    + intros (loc & p & k & -> & H). apply in_wrap in H as (loc' & p' & k' & E & H). injection E as -> -> ->.
      apply HL in H as (loc & k & E & H); [|exact Hok]. injection E as -> -> ->. eexists _, _. split; [reflexivity|].
      econstructor; eassumption.
    + intros (loc & k & -> & H). inversion H as [o' me' bl' loc' k' Hm Hl Hv]; subst.
      assert (me' = me) by congruence. subst. apply get_lattice_spec in Hl, G. assert (bl' = bl) by congruence. subst.
      exists (lv "beamlattice" :: loc'), "", k. split; [reflexivity|]. apply in_wrap. exists loc', "", k. split; [reflexivity|].
      apply HL; [exact Hok|]. eauto.
  - split; [intros []|]. intros (loc & k & -> & H). inversion H as [o' me' bl' loc' k' Hm Hl Hv]; subst.
    assert (me' = me) by congruence. subst. apply get_lattice_spec in Hl, G. assert (bl' = bl) by congruence. subst.
    assert (C : In (loc', "", k) (L None)) by (apply HL; [exact Hok|eauto]). exact C.
Qed.
Lemma nn_beamlattice m path el : nn (beamlattice_validate m path el).
Proof.
  destruct el as [|a|o]; cbn [beamlattice_validate]; try apply nn_none. rewrite lattice_validate_eq.
  destruct (ob_mesh o) as [me|]; [|nn]. destruct (get_lattice (me_ext me)) as [bl|]; [|nn].
  pose proof (nn_lattice_errs m path o me bl) as H. destruct (lattice_errs m path o me bl); [|nn]. apply nn_wrap, nn_wrap, H.
Qed.

(** ** Accepted = conforming, away from the four defects *)
Lemma first_of_two l (s t : N) : (exists x, In x l /\ ob_id x = t) -> s <> t ->
  (exists o, DeclaredBefore l s t o) \/ (exists o, DeclaredBefore l t s o).
Proof.
  intros (x & Hx & Et) Hne. induction l as [|o l IH]; [destruct Hx|].
  destruct (N.eq_dec (ob_id o) s) as [Es|Es]; [right; exists o, [], l; split; [reflexivity|]; split; [exact Es|intros y []]|].
  destruct (N.eq_dec (ob_id o) t) as [Et'|Et']; [left; exists o, [], l; split; [reflexivity|]; split; [exact Et'|intros y []]|].
  destruct Hx as [->|Hx]; [contradiction|].
  destruct (IH Hx) as [(o' & a & b & -> & E & H)|(o' & a & b & -> & E & H)]; [left|right]; exists o', (o :: a), b;
    (split; [reflexivity|]); (split; [exact E|]); intros y [<-|Hy]; auto.
Qed.
Lemma declared_excl l s t o o' : s <> t -> DeclaredBefore l s t o -> DeclaredBefore l t s o' -> False.
Proof.
  intros Hne (a & b & E & Ho & H) (a' & b' & E' & Ho' & H'). subst l.
  revert a' E' H'. induction a as [|y a IH]; intros [|y' a'] E' H'; cbn in E'; injection E' as -> E'.
  - congruence.
  - destruct (H' y' (or_introl eq_refl)). congruence.
  - destruct (H o' (or_introl eq_refl)). congruence.
  - apply (IH (fun z Hz => H z (or_intror Hz)) a' E' (fun z Hz => H' z (or_intror Hz))).
Qed.
Lemma declared_fun l s t o o' : DeclaredBefore l s t o -> DeclaredBefore l s t o' -> o = o'.
Proof.
  intros (a & b & E & Ho & H) (a' & b' & E' & Ho' & H'). subst l.
  revert a' E' H'. induction a as [|y a IH]; intros [|y' a'] E' H'; cbn in E'; injection E' as E1 E'.
  - exact E1.
  - subst. destruct (H' y' (or_introl eq_refl)). congruence.
  - subst. destruct (H o' (or_introl eq_refl)). congruence.
  - apply (IH (fun z Hz => H z (or_intror Hz)) a' E' (fun z Hz => H' z (or_intror Hz))).
Qed.
Lemma plain_dec o : PlainMesh o \/ ~ PlainMesh o.
Proof.
  unfold PlainMesh. destruct (Z.eq_dec (ob_type o) 0) as [E|E]; [|right; intros [H _]; contradiction].
  destruct (ob_mesh o) as [me|]; [|right; intros (_ & me & H & _); discriminate].
  destruct (get_lattice (me_ext me)) as [bl|] eqn:G.
  - right. intros (_ & me' & H & H'). injection H as <-. apply get_lattice_spec in G. exact (H' _ G).
  - left. split; [exact E|]. exists me. split; [reflexivity|]. intros bl H. apply get_lattice_spec in H. congruence.
Qed.
Lemma ref_conforms m path self id : ChildsOk m ->
  (exists rs o, Addressed m path rs /\ In o (rs_objects rs) /\ ob_id o = self) ->
  (forall k, ~ RefMeshViolation m path self id k) <->
  id <> self /\ exists rs r, Addressed m path rs /\ DeclaredBefore (rs_objects rs) self id r /\ PlainMesh r.
Proof.
  intros Hok (rs & o & Ha & Ho & Es).
  assert (U : forall rs', Addressed m path rs' -> rs' = rs).
  { intros rs' H. apply find_resources_spec in H; [|exact Hok]. apply find_resources_spec in Ha; [|exact Hok]. congruence. }
  split.
  - intros H. assert (Hne : id <> self) by (intros E; apply (H (ESent "ErrRecursion")); constructor; exact E).
    split; [exact Hne|].
    destruct (first_of_two (rs_objects rs) id self) as [(r & Hr)|(r & Hr)]; [eauto|exact Hne| |].
    + destruct (H (ESent "ErrMissingResource")). eapply RmLate; eassumption.
    + exists rs, r. split; [exact Ha|]. split; [exact Hr|]. destruct (plain_dec r) as [D|D]; [exact D|].
      destruct (H (ESent "ErrLatticeInvalidMesh")). eapply RmKind; eassumption.
  - intros (Hd & rs' & r & Ha' & Hr & Hp) k H. rewrite (U _ Ha') in Hr.
    destruct H as [E|rs1 o1 Hne Ha1 H1|rs1 o1 Hne Ha1 H1 H2].
    + contradiction.
    + rewrite (U _ Ha1) in H1. exact (declared_excl _ _ _ _ _ Hne H1 Hr).
    + rewrite (U _ Ha1) in H1. rewrite (declared_fun _ _ _ _ _ H1 Hr) in H2. contradiction.
Qed.

(** Not a negative number nor a NaN. *)
Lemma positive_unset x : Le f_zero x -> ~ Unset x -> Positive x.
Proof.
  unfold Le, Unset, is_zero, Positive, fleb, SFleb, f_zero. destruct x as [s|[]| |[] m e]; cbn; intros H H'; try discriminate; eauto.
  destruct H'. eauto.
Qed.
Lemma positive_not_unset x : Positive x -> ~ Unset x.
Proof. intros [->|(m & e & ->)] (s & E); discriminate. Qed.
Lemma lattice_conforms m path o me bl : ChildsOk m ->
  (exists rs o', Addressed m path rs /\ In o' (rs_objects rs) /\ ob_id o' = ob_id o) ->
  Le f_zero (bl_minlen bl) -> Le f_zero (bl_radius bl) -> bl_clipmesh bl <> 0%N ->
  (forall b, In b (bl_beams bl) -> NumEq (bm_r1 b) (bl_radius bl) \/ NumEq (bm_r1 b) (bm_r2 b)) ->
  (forall s, In s (bl_sets bl) -> List.length (bs_refs s) = List.length (bl_beams bl)) ->
  (forall loc k, ~ LatticeViolation m path o me bl loc k) <-> LatticeConforms m path o me bl.
Proof.
  intros Hok Hself Hmin Hrad Hclip Hr Hset. unfold LatticeConforms. split.
  - intros H.
    assert (HR : ~ Unset (bl_radius bl)) by (intros E; apply (H [] (EMissing "radius")); apply LvRadius; exact E).
    split; [|split; [|split; [|split; [|split; [|split]]]]].
    + unfold SolidType. destruct (Z.eq_dec (ob_type o) 0) as [E|E]; [auto|]. destruct (Z.eq_dec (ob_type o) 3) as [E'|E']; [auto|].
      destruct (H [] (ESent "ErrLatticeObjType")). apply LvType. intros [K|K]; contradiction.
    + apply positive_unset; [exact Hmin|]. intros E. apply (H [] (EMissing "minlength")). apply LvMinLen; exact E.
    + apply positive_unset; assumption.
    + intros _. exact Hclip.
    + intros id Hi Hn. apply (ref_conforms m path (ob_id o) id Hok Hself). intros k Hk. apply (H [] k). eapply LvRef; eassumption.
    + intros b Hb. apply In_nth_error in Hb as Hb'. destruct Hb' as [i Hi].
      assert (Hne : bm_i1 b <> bm_i2 b) by (intros E; apply (H [lvi "beam" i] (ESent "ErrLatticeSameVertex")); eapply LvSame; eassumption).
      split; [exact Hne|].
      assert (G : forall v, In v [bm_i1 b; bm_i2 b] -> (v < N.of_nat (List.length (me_verts me)))%N).
      { intros v Hv. destruct (N.lt_ge_cases v (N.of_nat (List.length (me_verts me)))) as [E|E]; [exact E|].
        destruct (H [lvi "beam" i] (ESent "ErrIndexOutOfBounds")). eapply LvRange; eassumption. }
      split; [apply G; cbn; auto|]. split; [apply G; cbn; auto|].
      intros Hu. apply feqb_unset in Hu. apply feqb_unset. rewrite feqb_numeq in *.
      destruct (Hr b Hb) as [E|E].
      * exfalso. apply HR. apply feqb_unset, feqb_numeq.
        assert (N1 : NotNaN (bm_r1 b)) by (destruct E as [E _]; exact (Le_nn_l _ _ E)).
        assert (N2 : NotNaN (bl_radius bl)) by (destruct E as [E _]; exact (Le_nn_r _ _ E)).
        apply NumEq_key in E; [|assumption..]. apply NumEq_key in Hu; [|assumption|discriminate]. apply NumEq_key; [assumption|discriminate|congruence].
      * assert (N1 : NotNaN (bm_r1 b)) by (destruct E as [E _]; exact (Le_nn_l _ _ E)).
        assert (N2 : NotNaN (bm_r2 b)) by (destruct E as [E _]; exact (Le_nn_r _ _ E)).
        apply NumEq_key in E; [|assumption..]. apply NumEq_key in Hu; [|assumption|discriminate]. apply NumEq_key; [assumption|discriminate|congruence].
    + intros s r Hs Hr'. rewrite <- (Hset s Hs). destruct (N.lt_ge_cases r (N.of_nat (List.length (bs_refs s)))) as [E|E]; [exact E|].
      apply In_nth_error in Hs as [i Hi]. destruct (H [lvi "beamset" i] (ESent "ErrIndexOutOfBounds")). eapply LvSet; eassumption.
  - intros (H1 & H2 & H3 & H4 & H5 & H6 & H7) loc k H.
    destruct H as [H|H|H|H H'|id k Hi H H'|i b Hi H|i b v Hi H Hv H'|i b Hi H H' Hn|i s r Hi Hr' H].
    + contradiction.
    + exact (positive_not_unset _ H2 H).
    + exact (positive_not_unset _ H3 H).
    + contradiction.
    + exact (proj2 (ref_conforms m path (ob_id o) id Hok Hself) (H5 id Hi H) k H').
    + destruct (H6 b (nth_error_In _ _ Hi)). contradiction.
    + destruct (H6 b (nth_error_In _ _ Hi)) as (_ & L1 & L2 & _). destruct Hv as [<-|[<-|[]]]; lia.
    + destruct (Hr b (nth_error_In _ _ Hi)); contradiction.
    + specialize (H7 s r (nth_error_In _ _ Hi) Hr'). rewrite <- (Hset s (nth_error_In _ _ Hi)) in H7. lia.
Qed.
