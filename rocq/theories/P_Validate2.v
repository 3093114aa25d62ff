From Coq Require Import Permutation.
From Verif Require Import GoBase GoFloat Types M_Core S_Core P_Core M_Errors S_Errors P_Errors
  M_Geom S_Geom P_Geom P_Coherency M_Validate S_Validate P_Validate.

Lemma group_len_spec a n : group_len a = Some n <-> GroupSize a n.
Proof.
  split.
  - destruct a as [b|id ts|[]]; cbn; intros H; try discriminate; injection H as <-; constructor.
  - intros H; destruct H; reflexivity.
Qed.
Lemma asset_local_spec a nm : AssetName a nm <-> nm = asset_local a.
Proof.
  split.
  - intros H; destruct H; reflexivity.
  - intros ->. destruct a as [b|id [|[] ts]|[]]; constructor.
Qed.
Lemma zero_color_spec c : is_zero_color c = true <-> c = no_color.
Proof.
  destruct c as [r g b a]; unfold is_zero_color, no_color; cbn. rewrite !andb_true_iff, !N.eqb_eq. split.
  - intros [[[-> ->] ->] ->]. reflexivity.
  - intros H; injection H; auto.
Qed.

Lemma in_base b x : In x (L (base_validate b)) <-> exists loc k, x = (loc, "", k) /\ BaseViolation b loc k.
Proof.
  unfold base_validate. cbv zeta.
  rewrite (in_loop _ (fun j ba x => (ba_name ba = "" /\ x = ([lvi "base" j], "", EMissing "name")) \/
                                    (ba_color ba = no_color /\ x = ([lvi "base" j], "", EMissing "displaycolor")))).
  2:{ intros i y e z. cbv zeta. rewrite !in_add_if, !in_at_missing, zero_color_spec, seq_true. tauto. }
  rewrite !in_add_if, !in_sent, in_none, N.eqb_eq.
  assert (He : match bs_mats b with [] => true | _ => false end = true <-> bs_mats b = [])
    by (destruct (bs_mats b); split; congruence).
  rewrite He. split.
  - intros [[[[]|[H ->]]|[H ->]]|(j & ba & Hj & [[H ->]|[H ->]])];
      (eexists; eexists; split; [reflexivity|]); [apply BvID|apply BvEmpty|eapply BvName|eapply BvColor]; eassumption.
  - intros (loc & k & -> & H). destruct H; [auto|auto|right|right]; exists j, ba; auto.
Qed.
Lemma nn_base b : nn (base_validate b).
Proof. unfold base_validate. cbv zeta. nn. Qed.
#[export] Hint Resolve nn_base : nn.

Lemma asset_in m path id a : ChildsOk m -> res_find_asset m path id = Some a <-> AssetIn m path id a.
Proof. intros Hok. apply find_asset_spec. exact Hok. Qed.
Lemma asset_none m path id : ChildsOk m -> res_find_asset m path id = None <-> (forall a, ~ AssetIn m path id a).
Proof.
  intros Hok. split.
  - intros H a Ha. apply asset_in in Ha; [|exact Hok]. congruence.
  - intros H. destruct (res_find_asset m path id) as [a|] eqn:E; [|reflexivity].
    exfalso. apply (H a). apply asset_in; assumption.
Qed.
Lemma obj_in m path id o : ChildsOk m -> find_object m path id = Some o <-> ObjIn m path id o.
Proof. intros Hok. apply find_object_spec. exact Hok. Qed.
Lemma obj_none m path id : ChildsOk m -> find_object m path id = None <-> (forall a, ~ ObjIn m path id a).
Proof.
  intros Hok. split.
  - intros H a Ha. apply obj_in in Ha; [|exact Hok]. congruence.
  - intros H. destruct (find_object m path id) as [a|] eqn:E; [|reflexivity].
    exfalso. apply (H a). apply obj_in; assumption.
Qed.

Lemma dup3 (a b c : N) : ((a =? b) || (a =? c) || (b =? c))%N = true <-> ~ NoDup [a; b; c].
Proof.
  rewrite !orb_true_iff, !N.eqb_eq. split.
  - intros H Hn. inversion Hn as [|? ? H1 H2]; subst. inversion H2 as [|? ? H3 _]; subst.
    cbn in *. intuition congruence.
  - intros H. destruct (N.eq_dec a b), (N.eq_dec a c), (N.eq_dec b c); auto.
    exfalso. apply H. repeat constructor; cbn; intuition congruence.
Qed.
Lemma any3 (n a b c : N) : ((n <=? a) || (n <=? b) || (n <=? c))%N = true <->
  exists v, In v [a; b; c] /\ (n <= v)%N.
Proof.
  rewrite !orb_true_iff, !N.leb_le. split.
  - intros [[H|H]|H]; eexists; (split; [|exact H]); cbn; auto.
  - intros (v & [<-|[<-|[<-|[]]]] & H); auto.
Qed.
Lemma inherits_spec o t : ((t_pid t =? ob_pid o) && (t_p1 t =? ob_pindex o) &&
          (t_p2 t =? ob_pindex o) && (t_p3 t =? ob_pindex o))%N = true <-> InheritsProperty o t.
Proof. unfold InheritsProperty. rewrite !andb_true_iff, !N.eqb_eq. tauto. Qed.

Lemma in_triangle m path o n i t e x : ChildsOk m ->
  In x (L (triangle_validate m path o n i t e)) <-> In x (L e) \/
  (~ NoDup [t_v1 t; t_v2 t; t_v3 t] /\ x = ([lvi "triangle" i], "", ESent "ErrDuplicatedIndices")) \/
  ((exists v, In v [t_v1 t; t_v2 t; t_v3 t] /\ (n <= v)%N) /\ x = ([lvi "triangle" i], "", ESent "ErrIndexOutOfBounds")) \/
  (t_pid t <> 0%N /\ ~ InheritsProperty o t /\ (forall a, ~ AssetIn m path (t_pid t) a) /\
     x = ([lvi "triangle" i], "", ESent "ErrMissingResource")) \/
  (t_pid t <> 0%N /\ ~ InheritsProperty o t /\ (exists a l, AssetIn m path (t_pid t) a /\ GroupSize a l /\
      exists p, In p [t_p1 t; t_p2 t; t_p3 t] /\ (N.of_nat l <= p)%N) /\
     x = ([lvi "triangle" i], "", ESent "ErrIndexOutOfBounds")).
Proof.
  intros Hok. unfold triangle_validate. cbv zeta.
  assert (B : forall y, In y (L (add_if
     ((n <=? t_v1 t) || (n <=? t_v2 t) || (n <=? t_v3 t))%N
     (add_if ((t_v1 t =? t_v2 t) || (t_v1 t =? t_v3 t) || (t_v2 t =? t_v3 t))%N e
        (at_index (sent "ErrDuplicatedIndices") "triangle" i))
     (at_index (sent "ErrIndexOutOfBounds") "triangle" i))) <-> In y (L e) \/
     (~ NoDup [t_v1 t; t_v2 t; t_v3 t] /\ y = ([lvi "triangle" i], "", ESent "ErrDuplicatedIndices")) \/
  ((exists v, In v [t_v1 t; t_v2 t; t_v3 t] /\ (n <= v)%N) /\ y = ([lvi "triangle" i], "", ESent "ErrIndexOutOfBounds"))).
  { intros y. rewrite !in_add_if, !in_at_sent, dup3, any3. tauto. }
  set (e1 := add_if _ (add_if _ e _) _) in *. clearbody e1.
  destruct (N.eqb_spec (t_pid t) 0) as [Ez|Ez]; cbn [negb].
  { rewrite B. split; [tauto|]. intros [H|[H|[H|[(H & _)|(H & _)]]]]; try contradiction; tauto. }
  destruct ((t_pid t =? ob_pid o)%N && (t_p1 t =? ob_pindex o)%N && (t_p2 t =? ob_pindex o)%N && (t_p3 t =? ob_pindex o)%N) eqn:Ei.
  { apply inherits_spec in Ei. rewrite B. split; [tauto|].
    intros [H|[H|[H|[(_ & H & _)|(_ & H & _)]]]]; try contradiction; tauto. }
  assert (Hi : ~ InheritsProperty o t) by (rewrite <- inherits_spec; congruence).
  destruct (res_find_asset m path (t_pid t)) as [a|] eqn:Ea.
  - apply asset_in in Ea; [|exact Hok].
    assert (Hu : forall a', AssetIn m path (t_pid t) a' -> a' = a).
    { intros a' H'. apply asset_in in H'; [|exact Hok]. apply asset_in in Ea; [|exact Hok]. congruence. }
    destruct (group_len a) as [l|] eqn:El.
    + cbv zeta. rewrite in_add_if, in_at_sent, any3, B. apply group_len_spec in El. split.
      * intros [H|[H ->]]; [tauto|]. right; right; right; right. split; [exact Ez|]. split; [exact Hi|].
        split; [|reflexivity]. exists a, l. auto.
      * intros [H|[H|[H|[(_ & _ & H & _)|(_ & _ & (a' & l' & H1 & H2 & H3) & ->)]]]]; try tauto.
        -- exfalso. apply (H a Ea).
        -- right. apply Hu in H1 as ->. apply group_len_spec in H2, El. assert (l' = l) as -> by congruence. auto.
    + rewrite B. split; [tauto|].
      intros [H|[H|[H|[(_ & _ & H & _)|(_ & _ & (a' & l' & H1 & H2 & H3) & ->)]]]]; try tauto.
      -- exfalso. apply (H a Ea).
      -- apply Hu in H1 as ->. apply group_len_spec in H2. congruence.
  - rewrite in_add, in_at_sent, B. pose proof (proj1 (asset_none m path (t_pid t) Hok) Ea) as Hn. split.
    + intros [H| ->]; [tauto|]. right; right; right; left. auto.
    + intros [H|[H|[H|[(_ & _ & H & ->)|(_ & _ & (a' & l' & H1 & H2 & H3) & ->)]]]]; try tauto.
      exfalso. apply (Hn a' H1).
Qed.
Lemma nn_triangle m path o n i t e : nn e -> nn (triangle_validate m path o n i t e).
Proof.
  intros He. unfold triangle_validate. cbv zeta.
  destruct (negb _); [|nn]. destruct (_ && _ && _ && _); [nn|].
  destruct (res_find_asset _ _ _) as [a|]; [|nn]. destruct (group_len a); nn.
Qed.
#[export] Hint Resolve nn_triangle : nn.

Lemma solid_spec o : (ob_type o =? 0)%Z || (ob_type o =? 3)%Z = true <-> SolidType o.
Proof. unfold SolidType. rewrite orb_true_iff, !Z.eqb_eq. reflexivity. Qed.
Lemma in_mesh m path o me x : ChildsOk m -> (N.of_nat (List.length (me_verts me)) < 2 ^ 32)%N ->
  In x (L (mesh_validate m path o me)) <-> exists loc k, x = (loc, "", k) /\ MeshViolation m path o me loc k.
Proof.
  intros Hok Hsm. unfold mesh_validate. cbv zeta. rewrite N.mod_small by exact Hsm.
  rewrite (in_loop _ (fun i t x => _)) by (intros; apply in_triangle; exact Hok).
  match goal with |- In x (L ?e) \/ _ <-> _ => set (e0 := e) end.
  assert (B : In x (L e0) <->
    (SolidType o /\ List.length (me_verts me) < 3 /\ x = ([], "", ESent "ErrInsufficientVertices")) \/
    (SolidType o /\ List.length (me_tris me) < 4 /\ me_ext me = [] /\ x = ([], "", ESent "ErrInsufficientTriangles"))).
  { unfold e0. destruct ((ob_type o =? 0)%Z || (ob_type o =? 3)%Z) eqn:Es.
    - apply solid_spec in Es. rewrite !in_add_if, !in_sent, in_none, andb_true_iff, Nat.ltb_lt, Nat.leb_le.
      assert (He : match me_ext me with [] => true | _ => false end = true <-> me_ext me = [])
        by (destruct (me_ext me); split; congruence).
      rewrite He. split.
      + intros [[[]|[H ->]]|[[H1 H2] ->]]; [left; auto|right]. split; [exact Es|]. split; [lia|]. auto.
      + intros [(_ & H & ->)|(_ & H1 & H2 & ->)]; [auto|right]. split; [|reflexivity]. split; [lia|exact H2].
    - assert (Hs : ~ SolidType o) by (rewrite <- solid_spec; congruence). rewrite in_none. split; [intros []|].
      intros [(H & _)|(H & _)]; contradiction. }
  rewrite B. clear B. split.
  - intros [[(H1 & H2 & ->)|(H1 & H2 & H3 & ->)]|(j & t & Hj & H)].
    + eexists; eexists; split; [reflexivity|]. apply MeVertices; assumption.
    + eexists; eexists; split; [reflexivity|]. apply MeTriangles; assumption.
    + cbn [Nat.add] in H.
      destruct H as [(H & ->)|[((v & H1 & H2) & ->)|[(H1 & H2 & H3 & ->)|(H1 & H2 & (a & l & H3 & H4 & p & H5 & H6) & ->)]]];
      (eexists; eexists; split; [reflexivity|]).
      * eapply MeSame; eassumption.
      * eapply MeRange; eassumption.
      * eapply MeNoResource; eassumption.
      * eapply MeProperty; eassumption.
  - intros (loc & k & -> & H).
    destruct H as [H1 H2|H1 H2 H3|i t Hi H|i t v Hi H1 H2|i t Hi H1 H2 H3|i t a l p Hi H1 H2 H3 H4 H5 H6].
    1,2: left; tauto.
    all: right; exists i, t; (split; [exact Hi|]); cbn [Nat.add].
    + left; auto.
    + right; left. split; [exists v; auto|reflexivity].
    + right; right; left. auto.
    + right; right; right. split; [exact H1|]. split; [exact H2|]. split; [|reflexivity].
      exists a, l. split; [exact H3|]. split; [exact H4|]. exists p. auto.
Qed.
Lemma nn_mesh m path o me : nn (mesh_validate m path o me).
Proof. unfold mesh_validate. cbv zeta. apply nn_loop; [nn|]. destruct (_ || _); nn. Qed.
#[export] Hint Resolve nn_mesh : nn.

Lemma in_components m path o cs x : ChildsOk m ->
  In x (L (components_validate m path o cs)) <->
  exists j c k, x = ([lv "components"; lvi "component" j], "", k) /\ nth_error cs j = Some c /\ CompViolation m path o j c k.
Proof.
  intros Hok. unfold components_validate. cbv zeta.
  match goal with |- In x (L (match ?e with None => None | Some _ => _ end)) <-> _ =>
    assert (B : L (match e with None => None | Some _ => wrap e "components" end) = L (wrap e "components"))
      by (destruct e; reflexivity); rewrite B; clear B end.
  rewrite in_wrap.
  assert (B : forall y, In y (L (loop (fun j c errs =>
      if (co_oid c =? 0)%N then add errs (at_index (missing "objectid") "component" j)
      else match find_object m (comp_path c path) (co_oid c) with
           | Some ref => add_if ((ob_id ref =? ob_id o)%N && seq (comp_path c path) path) errs
                                (at_index (sent "ErrRecursion") "component" j)
           | None => add errs (at_index (sent "ErrMissingResource") "component" j)
           end) 0 cs None)) <-> exists j c k, y = ([lvi "component" j], "", k) /\ nth_error cs j = Some c /\ CompViolation m path o j c k).
  { intros y. rewrite (in_loop _ (fun j c x => exists k, x = ([lvi "component" j], "", k) /\ CompViolation m path o j c k)).
    - rewrite in_none. cbn [Nat.add]. split.
      + intros [[]|(j & c & Hj & k & -> & H)]. exists j, c, k. auto.
      + intros (j & c & k & -> & Hj & H). right. exists j, c. split; [exact Hj|]. eauto.
    - intros j c e z. destruct (N.eqb_spec (co_oid c) 0) as [Ez|Ez].
      + rewrite in_add, in_at_missing. split.
        * intros [H| ->]; [auto|]. right. eexists; split; [reflexivity|]. apply CvID; exact Ez.
        * intros [H|(k & -> & H)]; [auto|]. destruct H; [auto|contradiction..].
      + destruct (find_object m (comp_path c path) (co_oid c)) as [r|] eqn:Er.
        * pose proof (proj1 (obj_in _ _ _ _ Hok) Er) as Hr.
          rewrite in_add_if, in_at_sent, andb_true_iff, N.eqb_eq, seq_true. split.
          -- intros [H|[[H1 H2] ->]]; [auto|]. right. eexists; split; [reflexivity|].
             eapply CvRecursion; [exact Ez| |exact Hr|exact H1|exact H2]. apply target_file. reflexivity.
          -- intros [H|(k & -> & H)]; [auto|]. destruct H as [H|q H1 H2 H3|q r' H1 H2 H3 H4 H5]; [contradiction| |].
             ++ apply target_file in H2 as ->. exfalso. apply (H3 r Hr).
             ++ apply target_file in H2 as ->. apply obj_in in H3; [|exact Hok]. assert (r' = r) as -> by congruence. auto.
        * pose proof (proj1 (obj_none _ _ _ Hok) Er) as Hr. rewrite in_add, in_at_sent. split.
          -- intros [H| ->]; [auto|]. right. eexists; split; [reflexivity|].
             eapply CvMissing; [exact Ez| |exact Hr]. apply target_file. reflexivity.
          -- intros [H|(k & -> & H)]; [auto|]. destruct H as [H|q H1 H2 H3|q r' H1 H2 H3 H4 H5]; [contradiction|auto|].
             apply target_file in H2 as ->. exfalso. apply (Hr r' H3). }
  split.
  - intros (loc & p & k & -> & H). apply B in H as (j & c & k' & E & Hj & H). injection E as -> -> ->.
    exists j, c, k'. auto.
  - intros (j & c & k & -> & Hj & H). exists [lvi "component" j], "", k. split; [reflexivity|]. apply B. exists j, c, k. auto.
Qed.
Lemma nn_components m path o cs : nn (components_validate m path o cs).
Proof.
  unfold components_validate. cbv zeta.
  assert (H : nn (loop (fun j c errs =>
      if (co_oid c =? 0)%N then add errs (at_index (missing "objectid") "component" j)
      else match find_object m (comp_path c path) (co_oid c) with
           | Some ref => add_if ((ob_id ref =? ob_id o)%N && seq (comp_path c path) path) errs
                                (at_index (sent "ErrRecursion") "component" j)
           | None => add errs (at_index (sent "ErrMissingResource") "component" j)
           end) 0 cs None)).
  { apply nn_loop; [|nn]. intros i y e He. destruct (_ =? _)%N; [nn|]. destruct (find_object _ _ _); nn. }
  destruct (loop _ _ _ _); [|nn]. apply nn_wrap. exact H.
Qed.
#[export] Hint Resolve nn_components : nn.

Section Exts.
  Context (loaded : string -> bool)
          (validators : string -> option (Model -> string -> VElem -> error)).
  (** What the registered validators report. *)
  Definition ext_error (ns : string) (m : Model) (path : string) (el : VElem) (x : Loc) : Prop :=
    exists v, validators ns = Some v /\ In x (L (v m path el)).
  (** Every validator returns nil or an error with at least one member. *)
  Hypothesis Hv : forall ns v m path el, validators ns = Some v -> nn (v m path el).

  Lemma in_ext m path el e x : In x (L (ext_validate validators m path el e)) <->
    In x (L e) \/ ElemViolation ext_error m path el x.
  Proof.
    unfold ext_validate.
    assert (B : forall exts e, In x (L (fold_left (fun errs ext => match validators (ex_ns ext) with
                               | Some v => add errs (v m path el) | None => errs end) exts e)) <->
       In x (L e) \/ exists ext, In ext exts /\ ext_error (ex_ns ext) m path el x).
    { induction exts as [|ext exts IH]; intros e'; cbn [fold_left].
      - split; [auto|]. intros [H|(ext & [] & _)]; exact H.
      - rewrite IH. unfold ext_error at 2. destruct (validators (ex_ns ext)) as [v|] eqn:Ev.
        + rewrite in_add. split.
          * intros [[H|H]|(ext' & Hi & H)]; [auto| |].
            -- right. exists ext. split; [left; reflexivity|]. exists v. auto.
            -- right. exists ext'. split; [right; exact Hi|exact H].
          * intros [H|(ext' & [<-|Hi] & v' & H1 & H2)]; [auto| |].
            -- left; right. rewrite Ev in H1. injection H1 as ->. exact H2.
            -- right. exists ext'. split; [exact Hi|]. exists v'. auto.
        + split.
          * intros [H|(ext' & Hi & H)]; [auto|]. right. exists ext'. split; [right; exact Hi|exact H].
          * intros [H|(ext' & [<-|Hi] & v' & H1 & H2)]; [auto| |].
            -- congruence.
            -- right. exists ext'. split; [exact Hi|]. exists v'. auto. }
    rewrite B. split; (intros [H|H]; [auto|right]).
    - destruct H as (ext & Hi & H). econstructor; eassumption.
    - destruct H as [ext x Hi H]. eauto.
  Qed.
  Lemma nn_ext m path el e : nn e -> nn (ext_validate validators m path el e).
  Proof.
    unfold ext_validate. generalize (mo_exts m). intros exts. revert e.
    induction exts as [|ext exts IH]; intros e He; cbn [fold_left]; [exact He|]. apply IH.
    destruct (validators (ex_ns ext)) as [v|] eqn:Ev; [|exact He]. apply nn_add; [exact He|]. eapply Hv; exact Ev.
  Qed.
  Hint Resolve nn_ext : nn.

  Lemma in_object m path o x : ChildsOk m ->
    (forall me, ob_mesh o = Some me -> (N.of_nat (List.length (me_verts me)) < 2 ^ 32)%N) ->
    In x (L (object_validate validators m path o)) <->
    (exists loc k, x = (loc, "", k) /\ ObjViolation m path o loc k) \/ ElemViolation ext_error m path (VObject o) x.
  Proof.
    intros Hok Hsm. unfold object_validate. cbv zeta. rewrite in_ext.
    match goal with |- In x (L ?e) \/ ?B <-> _ \/ _ => cut (In x (L e) <-> exists loc k, x = (loc, "", k) /\ ObjViolation m path o loc k) end.
    { tauto. }
    set (e3 := add_if _ (add_if _ (add_if _ None _) _) _).
    assert (B3 : In x (L e3) <-> (ob_id o = 0%N /\ x = ([], "", ESent "ErrMissingID")) \/
      (ob_pindex o <> 0%N /\ ob_pid o = 0%N /\ x = ([], "", EMissing "pid")) \/
      ((ob_mesh o = None <-> ob_comps o = None) /\ x = ([], "", ESent "ErrInvalidObject"))).
    { unfold e3. rewrite !in_add_if, !in_sent, in_missing, in_none, N.eqb_eq, andb_true_iff, negb_true_iff, N.eqb_eq, N.eqb_neq.
      assert (Hk : match ob_mesh o, ob_comps o with Some _, Some _ | None, None => true | _, _ => false end = true <->
                   (ob_mesh o = None <-> ob_comps o = None)).
      { destruct (ob_mesh o), (ob_comps o); split; try congruence; try tauto; intros H.
        - split; discriminate.
        - destruct H as [_ H]. specialize (H eq_refl). discriminate.
        - destruct H as [H _]. specialize (H eq_refl). discriminate. }
      rewrite Hk. tauto. }
    clearbody e3.
    set (e4 := match ob_mesh o with Some me => _ | None => e3 end).
    assert (B4 : In x (L e4) <-> In x (L e3) \/
      (exists me, ob_mesh o = Some me /\ ob_pid o <> 0%N /\ (forall a, ~ AssetIn m path (ob_pid o) a) /\
         x = ([], "", ESent "ErrMissingResource")) \/
      (exists me a n, ob_mesh o = Some me /\ ob_pid o <> 0%N /\ AssetIn m path (ob_pid o) a /\ GroupSize a n /\
         (N.of_nat n <= ob_pindex o)%N /\ x = ([], "", ESent "ErrIndexOutOfBounds")) \/
      (exists me loc k, ob_mesh o = Some me /\ MeshViolation m path o me loc k /\ x = (lv "mesh" :: loc, "", k))).
    { unfold e4. destruct (ob_mesh o) as [me|] eqn:Em.
      2:{ split; [auto|]. intros [H|[(me & H & _)|[(me & a & n & H & _)|(me & loc & k & H & _)]]]; [auto|discriminate..]. }
      rewrite (in_some_add x _ (mesh_validate m path o me) (fun e => wrap e "mesh")) by reflexivity.
      rewrite in_add, in_wrap.
      assert (Bm : (exists loc p k, x = (lv "mesh" :: loc, p, k) /\ In (loc, p, k) (L (mesh_validate m path o me))) <->
        (exists me' loc k, Some me = Some me' /\ MeshViolation m path o me' loc k /\ x = (lv "mesh" :: loc, "", k))).
      { split.
        - intros (loc & p & k & -> & H). apply in_mesh in H as (loc' & k' & E & H); [|exact Hok|apply Hsm; reflexivity].
          injection E as -> -> ->. exists me, loc', k'. auto.
        - intros (me' & loc & k & E & H & ->). injection E as <-. exists loc, "", k. split; [reflexivity|].
          apply in_mesh; [exact Hok|apply Hsm; reflexivity|]. eauto. }
      rewrite Bm. clear Bm.
      match goal with |- (In x (L ?e) \/ ?M <-> _) => set (e5 := e); set (MM := M) end.
      assert (B5 : In x (L e5) <-> In x (L e3) \/
        (ob_pid o <> 0%N /\ (forall a, ~ AssetIn m path (ob_pid o) a) /\ x = ([], "", ESent "ErrMissingResource")) \/
        (exists a n, ob_pid o <> 0%N /\ AssetIn m path (ob_pid o) a /\ GroupSize a n /\
           (N.of_nat n <= ob_pindex o)%N /\ x = ([], "", ESent "ErrIndexOutOfBounds"))).
      { unfold e5. destruct (N.eqb_spec (ob_pid o) 0) as [Ez|Ez]; cbn [negb].
        { split; [auto|]. intros [H|[(H & _)|(a & n & H & _)]]; [auto|contradiction..]. }
        destruct (res_find_asset m path (ob_pid o)) as [a|] eqn:Ea.
        - pose proof (proj1 (asset_in _ _ _ _ Hok) Ea) as Ha. destruct (group_len a) as [n|] eqn:El.
          + rewrite in_add_if, in_sent, N.leb_le. apply group_len_spec in El. split.
            * intros [H|[H ->]]; [auto|]. right; right. exists a, n. auto 7.
            * intros [H|[(_ & H & _)|(a' & n' & _ & H1 & H2 & H3 & ->)]]; [auto|exfalso; apply (H a Ha)|].
              apply asset_in in H1; [|exact Hok]. assert (a' = a) as -> by congruence.
              apply group_len_spec in H2, El. assert (n' = n) as -> by congruence. auto.
          + split; [auto|]. intros [H|[(_ & H & _)|(a' & n' & _ & H1 & H2 & _)]]; [auto|exfalso; apply (H a Ha)|].
            apply asset_in in H1; [|exact Hok]. assert (a' = a) as -> by congruence. apply group_len_spec in H2. congruence.
        - pose proof (proj1 (asset_none _ _ _ Hok) Ea) as Ha. rewrite in_add, in_sent. split.
          + intros [H| ->]; auto.
          + intros [H|[(_ & _ & ->)|(a' & n' & _ & H1 & _)]]; [auto|auto|exfalso; apply (Ha a' H1)]. }
      rewrite B5. clear B5. unfold MM; clear MM. split.
      - intros [[H|[(H1 & H2 & H3)|(a & n & H)]]|H]; [auto| | |auto].
        + right; left. exists me. auto.
        + right; right; left. exists me, a, n. auto.
      - intros [H|[(me' & _ & H)|[(me' & a & n & _ & H)|H]]]; [auto|auto| |auto].
        left; right; right. exists a, n. exact H. }
    clearbody e4.
    match goal with |- In x (L ?e) <-> _ => set (e6 := e) end.
    assert (B6 : In x (L e6) <-> In x (L e4) \/
      (exists cs, ob_comps o = Some cs /\ cs_list cs <> [] /\ ob_pid o <> 0%N /\ x = ([], "", ESent "ErrComponentsPID")) \/
      (exists cs j c k, ob_comps o = Some cs /\ nth_error (cs_list cs) j = Some c /\ CompViolation m path o j c k /\
         x = ([lv "components"; lvi "component" j], "", k))).
    { unfold e6. destruct (ob_comps o) as [cs|].
      2:{ split; [auto|]. intros [H|[(cs & H & _)|(cs & j & c & k & H & _)]]; [auto|discriminate..]. }
      destruct (cs_list cs) as [|c0 l] eqn:El.
      { split; [auto|]. intros [H|[(cs' & H & H' & _)|(cs' & j & c & k & H & H' & _)]]; [auto| |].
        - injection H as <-. contradiction.
        - injection H as <-. rewrite El in H'. destruct j; discriminate. }
      rewrite in_add, in_add_if, in_sent, in_components, negb_true_iff, N.eqb_neq by exact Hok. split.
      - intros [[H|[H ->]]|(j & c & k & -> & Hj & H)]; [auto| |].
        + right; left. exists cs. rewrite El. split; [reflexivity|]. split; [discriminate|]. auto.
        + right; right. exists cs, j, c, k. rewrite El. auto.
      - intros [H|[(cs' & E & _ & H & ->)|(cs' & j & c & k & E & Hj & H & ->)]]; [auto|auto|].
        injection E as <-. rewrite El in Hj. right. exists j, c, k. auto. }
    rewrite B6, B4, B3. clear. split.
    - intros [[[H|[H|H]]|[H|[H|H]]]|[H|H]].
      + destruct H as [H ->]. eexists; eexists; split; [reflexivity|]. apply OvID; exact H.
      + destruct H as (H1 & H2 & ->). eexists; eexists; split; [reflexivity|]. apply OvPID; assumption.
      + destruct H as [H ->]. eexists; eexists; split; [reflexivity|]. apply OvKind; exact H.
      + destruct H as (me & H1 & H2 & H3 & ->). eexists; eexists; split; [reflexivity|]. eapply OvNoResource; eassumption.
      + destruct H as (me & a & n & H1 & H2 & H3 & H4 & H5 & ->). eexists; eexists; split; [reflexivity|]. eapply OvProperty; eassumption.
      + destruct H as (me & loc & k & H1 & H2 & ->). eexists; eexists; split; [reflexivity|]. eapply OvMesh; eassumption.
      + destruct H as (cs & H1 & H2 & H3 & ->). eexists; eexists; split; [reflexivity|]. eapply OvCompsPID; eassumption.
      + destruct H as (cs & j & c & k & H1 & H2 & H3 & ->). eexists; eexists; split; [reflexivity|]. eapply OvComp; eassumption.
    - intros (loc & k & -> & H). destruct H as [H|H1 H2|H|me H1 H2 H3|me a n H1 H2 H3 H4 H5|me loc k H1 H2|cs H1 H2 H3|cs j c k H1 H2 H3].
      + auto 6.
      + auto 7.
      + auto 6.
      + left; right; left. exists me. auto.
      + left; right; right; left. exists me, a, n. auto 7.
      + left; right; right; right. exists me, loc, k. auto.
      + right; left. exists cs. auto.
      + right; right. exists cs, j, c, k. auto.
  Qed.
  Lemma nn_object m path o : nn (object_validate validators m path o).
  Proof.
    unfold object_validate. cbv zeta. apply nn_ext.
    set (e3 := add_if _ (add_if _ (add_if _ None _) _) _). assert (H3 : nn e3) by (unfold e3; nn). clearbody e3.
    set (e4 := match ob_mesh o with Some me => _ | None => e3 end).
    assert (H4 : nn e4).
    { unfold e4. destruct (ob_mesh o) as [me|]; [|exact H3].
      set (e5 := if negb (ob_pid o =? 0)%N then _ else e3).
      assert (H5 : nn e5).
      { unfold e5. destruct (negb _); [|exact H3]. destruct (res_find_asset _ _ _) as [a|]; [|nn]. destruct (group_len a); nn. }
      clearbody e5. destruct (mesh_validate m path o me) eqn:E; [|exact H5]. rewrite <- E. nn. }
    clearbody e4. destruct (ob_comps o) as [cs|]; [|exact H4]. destruct (cs_list cs); nn.
  Qed.
  Hint Resolve nn_object : nn.

  (** *** Resources *)
  Lemma seen_in id seen : existsb (N.eqb id) seen = true <-> In id seen.
  Proof.
    rewrite existsb_exists. split.
    - intros (y & Hy & H). apply N.eqb_eq in H as ->. exact Hy.
    - intros H. exists id. split; [exact H|apply N.eqb_refl].
  Qed.
  Lemma in_assets m path l : forall i seen e x,
    (In x (L (fst (assets_validate validators m path i l seen e))) <-> In x (L e) \/
     exists j a, nth_error l j = Some a /\
       ((asset_id a <> 0%N /\ (In (asset_id a) seen \/ exists j' a', j' < j /\ nth_error l j' = Some a' /\ asset_id a' = asset_id a) /\
           x = ([lvi (asset_local a) (i + j)], "", ESent "ErrDuplicatedID")) \/
        (exists b loc k, a = ABase b /\ BaseViolation b loc k /\ x = (lvi "basematerials" (i + j) :: loc, "", k)) \/
        (exists loc q k, ElemViolation ext_error m path (VAsset a) (loc, q, k) /\ x = (lvi (asset_local a) (i + j) :: loc, q, k)))) /\
    (forall k, In k (snd (assets_validate validators m path i l seen e)) <-> In k seen \/ exists a, In a l /\ asset_id a = k).
  Proof.
    induction l as [|a l IH]; intros i seen e x; cbn [assets_validate].
    - cbn [fst snd]. split.
      + split; [auto|]. intros [H|(j & a & H & _)]; [exact H|destruct j; discriminate].
      + intros k. split; [auto|]. intros [H|(a & [] & _)]; exact H.
    - cbv zeta.
      set (ae := ext_validate validators m path (VAsset a) _).
      assert (A : forall y, In y (L ae) <->
         (asset_id a <> 0%N /\ In (asset_id a) seen /\ y = ([], "", ESent "ErrDuplicatedID")) \/
         (exists b loc k, a = ABase b /\ BaseViolation b loc k /\ y = (loc, "", k)) \/
         ElemViolation ext_error m path (VAsset a) y).
      { intros y. unfold ae. rewrite in_ext.
        assert (A1 : In y (L (match a with ABase b => add (add_if (negb (asset_id a =? 0)%N && existsb (N.eqb (asset_id a)) seen) None (sent "ErrDuplicatedID")) (base_validate b)
                     | _ => add_if (negb (asset_id a =? 0)%N && existsb (N.eqb (asset_id a)) seen) None (sent "ErrDuplicatedID") end)) <->
          (asset_id a <> 0%N /\ In (asset_id a) seen /\ y = ([], "", ESent "ErrDuplicatedID")) \/
         (exists b loc k, a = ABase b /\ BaseViolation b loc k /\ y = (loc, "", k))).
        { assert (A0 : forall z, In z (L (add_if (negb (asset_id a =? 0)%N && existsb (N.eqb (asset_id a)) seen) None (sent "ErrDuplicatedID"))) <->
             (asset_id a <> 0%N /\ In (asset_id a) seen /\ z = ([], "", ESent "ErrDuplicatedID"))).
          { intros z. rewrite in_add_if, in_sent, in_none, andb_true_iff, negb_true_iff, N.eqb_neq, seen_in. tauto. }
          destruct a as [b|id ts|ext].
          - rewrite in_add, A0, in_base. split.
            + intros [H|(loc & k & -> & H)]; [auto|]. right. exists b, loc, k. auto.
            + intros [H|(b' & loc & k & E & H & ->)]; [auto|]. injection E as <-. eauto.
          - rewrite A0. split; [auto|]. intros [H|(b & loc & k & H & _)]; [exact H|discriminate].
          - rewrite A0. split; [auto|]. intros [H|(b & loc & k & H & _)]; [exact H|discriminate]. }
        rewrite A1. tauto. }
      clearbody ae.
      destruct (IH (S i) (asset_id a :: seen) (add e (at_index ae (asset_local a) i)) x) as [I1 I2]. split.
      + rewrite I1, in_add, in_at_index. split.
        * intros [[H|(loc & p & k & -> & H)]|(j & a' & Hj & H)]; [auto| |].
          -- right. exists 0, a. rewrite Nat.add_0_r. split; [reflexivity|]. apply A in H as [(H1 & H2 & E)|[(b & loc' & k' & -> & H & E)|H]].
             ++ injection E as -> -> ->. auto.
             ++ injection E as -> -> ->. right; left. exists b, loc', k'. auto.
             ++ right; right. exists loc, p, k. auto.
          -- right. exists (S j), a'. rewrite Nat.add_succ_r. split; [exact Hj|].
             destruct H as [(H1 & H2 & ->)|H]; [|auto]. left. split; [exact H1|]. split; [|reflexivity].
             destruct H2 as [[H2|H2]|(j' & a'' & Hl & Hn & H2)].
             ++ right. exists 0, a. split; [lia|]. auto.
             ++ auto.
             ++ right. exists (S j'), a''. split; [lia|]. auto.
        * intros [H|(j & a' & Hj & H)]; [auto|]. destruct j as [|j]; cbn in Hj.
          -- injection Hj as <-. rewrite Nat.add_0_r in H. left; right.
             destruct H as [(H1 & [H2|(j' & _ & H2 & _)] & ->)|[(b & loc & k & -> & H & ->)|(loc & q & k & H & ->)]]; [|lia| |].
             ++ exists [], "", (ESent "ErrDuplicatedID"). split; [reflexivity|]. apply A. auto.
             ++ exists loc, "", k. split; [reflexivity|]. apply A. right; left. exists b, loc, k. auto.
             ++ exists loc, q, k. split; [reflexivity|]. apply A. auto.
          -- right. exists j, a'. rewrite Nat.add_succ_r in H. split; [exact Hj|].
             destruct H as [(H1 & H2 & ->)|H]; [|auto]. left. split; [exact H1|]. split; [|reflexivity].
             destruct H2 as [H2|(j' & a'' & Hl & Hn & H2)]; [left; right; exact H2|].
             destruct j' as [|j']; cbn in Hn.
             ++ injection Hn as <-. left; left; exact H2.
             ++ right. exists j', a''. split; [lia|]. auto.
      + intros k. rewrite I2. cbn [In]. split.
        * intros [[H|H]|(a' & Hi & H)]; [right; exists a; auto|auto|right; exists a'; auto].
        * intros [H|(a' & [<-|Hi] & H)]; [auto|auto|right; exists a'; auto].
  Qed.
  Lemma in_objects m path l : ChildsOk m ->
    (forall o me, In o l -> ob_mesh o = Some me -> (N.of_nat (List.length (me_verts me)) < 2 ^ 32)%N) ->
    forall i seen e x, In x (L (objects_validate validators m path i l seen e)) <-> In x (L e) \/
     exists j o, nth_error l j = Some o /\
       ((ob_id o <> 0%N /\ (In (ob_id o) seen \/ exists j' o', j' < j /\ nth_error l j' = Some o' /\ ob_id o' = ob_id o) /\
           x = ([lvi "object" (i + j)], "", ESent "ErrDuplicatedID")) \/
        (exists loc k, ObjViolation m path o loc k /\ x = (lvi "object" (i + j) :: loc, "", k)) \/
        (exists loc q k, ElemViolation ext_error m path (VObject o) (loc, q, k) /\ x = (lvi "object" (i + j) :: loc, q, k))).
  Proof.
    intros Hok. induction l as [|o l IH]; intros Hsm i seen e x; cbn [objects_validate].
    - split; [auto|]. intros [H|(j & a & H & _)]; [exact H|destruct j; discriminate].
    - cbv zeta. rewrite IH by (intros; eapply Hsm; [right|]; eassumption).
      rewrite in_add, in_add_if, in_at_sent, in_at_index, andb_true_iff, negb_true_iff, N.eqb_neq, seen_in.
      assert (A : forall y, In y (L (object_validate validators m path o)) <->
         (exists loc k, y = (loc, "", k) /\ ObjViolation m path o loc k) \/ ElemViolation ext_error m path (VObject o) y).
      { intros y. apply in_object; [exact Hok|]. intros me. apply Hsm. left; reflexivity. }
      split.
      + intros [[[H|[[H1 H2] ->]]|(loc & p & k & -> & H)]|(j & a' & Hj & H)]; [auto| | |].
        * right. exists 0, o. rewrite Nat.add_0_r. split; [reflexivity|]. auto.
        * right. exists 0, o. rewrite Nat.add_0_r. split; [reflexivity|]. right.
          apply A in H as [(loc' & k' & E & H)|H].
          -- injection E as -> -> ->. left. eauto.
          -- right. eauto.
        * right. exists (S j), a'. rewrite Nat.add_succ_r. split; [exact Hj|].
          destruct H as [(H1 & H2 & ->)|H]; [|auto]. left. split; [exact H1|]. split; [|reflexivity].
          destruct H2 as [[H2|H2]|(j' & a'' & Hl & Hn & H2)].
          -- right. exists 0, o. split; [lia|]. auto.
          -- auto.
          -- right. exists (S j'), a''. split; [lia|]. auto.
      + intros [H|(j & a' & Hj & H)]; [auto|]. destruct j as [|j]; cbn in Hj.
        * injection Hj as <-. rewrite Nat.add_0_r in H. left.
          destruct H as [(H1 & [H2|(j' & _ & H2 & _)] & ->)|[(loc & k & H & ->)|(loc & q & k & H & ->)]]; [auto|lia| |].
          -- right. exists loc, "", k. split; [reflexivity|]. apply A. left. eauto.
          -- right. exists loc, q, k. split; [reflexivity|]. apply A. auto.
        * right. exists j, a'. rewrite Nat.add_succ_r in H. split; [exact Hj|].
          destruct H as [(H1 & H2 & ->)|H]; [|auto]. left. split; [exact H1|]. split; [|reflexivity].
          destruct H2 as [H2|(j' & a'' & Hl & Hn & H2)]; [left; right; exact H2|].
          destruct j' as [|j']; cbn in Hn.
          -- injection Hn as <-. left; left; exact H2.
          -- right. exists j', a''. split; [lia|]. auto.
  Qed.
  Lemma in_resources m path rs x : ChildsOk m ->
    (forall o me, In o (rs_objects rs) -> ob_mesh o = Some me -> (N.of_nat (List.length (me_verts me)) < 2 ^ 32)%N) ->
    In x (L (resources_validate validators m path rs)) <-> ResViolation ext_error m path rs x.
  Proof.
    intros Hok Hsm. unfold resources_validate.
    destruct (in_assets m path (rs_assets rs) 0 [] None x) as [A1 A2].
    destruct (assets_validate validators m path 0 (rs_assets rs) [] None) as [e seen]. cbn [fst snd] in *.
    rewrite in_objects by assumption. rewrite A1, in_none. cbn [Nat.add]. split.
    - intros [[[]|(j & a & Hj & H)]|(j & o & Hj & H)].
      + destruct H as [(H1 & [[]|(j' & a' & Hl & Hn & H2)] & ->)|[(b & loc & k & -> & H & ->)|(loc & q & k & H & ->)]].
        * eapply SvAssetDup; [exact Hj|apply asset_local_spec; reflexivity|eassumption..].
        * eapply SvBase; eassumption.
        * eapply SvAssetExt; [exact Hj|apply asset_local_spec; reflexivity|eassumption].
      + destruct H as [(H1 & H2 & ->)|[(loc & k & H & ->)|(loc & q & k & H & ->)]].
        * eapply SvObjDup; [exact Hj|exact H1|]. destruct H2 as [H2|(j' & o' & Hl & Hn & H2)].
          -- apply A2 in H2 as [[]|(a & Ha & H2)]. left. eauto.
          -- right. exists j', o'. auto.
        * eapply SvObj; eassumption.
        * eapply SvObjExt; eassumption.
    - intros H. destruct H as [i a nm j a' Hi Hnm H1 Hl Hn H2|i b loc k Hi H|i a nm loc q k Hi Hnm H|i o Hi H1 H2|i o loc k Hi H|i o loc q k Hi H].
      + apply asset_local_spec in Hnm as ->. left; right. exists i, a. split; [exact Hi|]. left.
        split; [exact H1|]. split; [|reflexivity]. right. exists j, a'. auto.
      + left; right. exists i, (ABase b). split; [exact Hi|]. right; left. exists b, loc, k. auto.
      + apply asset_local_spec in Hnm as ->. left; right. exists i, a. split; [exact Hi|]. right; right. exists loc, q, k. auto.
      + right. exists i, o. split; [exact Hi|]. left. split; [exact H1|]. split; [|reflexivity].
        destruct H2 as [(a & Ha & H2)|(j & o' & Hl & Hn & H2)].
        * left. apply A2. right. exists a. auto.
        * right. exists j, o'. auto.
      + right. exists i, o. split; [exact Hi|]. right; left. exists loc, k. auto.
      + right. exists i, o. split; [exact Hi|]. right; right. exists loc, q, k. auto.
  Qed.
  Lemma nn_resources m path rs : nn (resources_validate validators m path rs).
  Proof.
    unfold resources_validate.
    assert (A : forall l i seen e, nn e -> nn (fst (assets_validate validators m path i l seen e))).
    { induction l as [|a l IH]; intros i seen e He; cbn [assets_validate]; [exact He|]. cbv zeta. apply IH.
      apply nn_add; [exact He|]. apply nn_at, nn_ext. destruct a; nn. }
    assert (B : forall l i seen e, nn e -> nn (objects_validate validators m path i l seen e)).
    { induction l as [|a l IH]; intros i seen e He; cbn [objects_validate]; [exact He|]. cbv zeta. apply IH. nn. }
    specialize (A (rs_assets rs) 0 [] None nn_none).
    destruct (assets_validate validators m path 0 (rs_assets rs) [] None) as [e seen]. cbn in A. auto.
  Qed.
  Hint Resolve nn_resources : nn.

  (** *** Build *)
  Lemma in_item m it x : ChildsOk m ->
    In x (L (item_validate m it)) <-> exists loc k, x = (loc, "", k) /\ ItemViolation m it loc k.
  Proof.
    intros Hok. unfold item_validate. cbv zeta. rewrite in_add, in_check_metadata.
    match goal with |- In x (L ?e) \/ _ <-> _ => set (e0 := e) end.
    assert (B : In x (L e0) <-> (it_oid it = 0%N /\ x = ([], "", EMissing "objectid")) \/
      (it_oid it <> 0%N /\ (forall o, ~ ObjIn m (item_path it) (it_oid it) o) /\ x = ([], "", ESent "ErrMissingResource")) \/
      (it_oid it <> 0%N /\ (exists o, ObjIn m (item_path it) (it_oid it) o /\ ob_type o = 1%Z) /\ x = ([], "", ESent "ErrOtherItem"))).
    { unfold e0. destruct (N.eqb_spec (it_oid it) 0) as [Ez|Ez].
      - rewrite in_add, in_missing, in_none. tauto.
      - destruct (find_object m (item_path it) (it_oid it)) as [o|] eqn:Eo.
        + pose proof (proj1 (obj_in _ _ _ _ Hok) Eo) as Ho. rewrite in_add_if, in_sent, in_none, Z.eqb_eq. split.
          * intros [[]|[H ->]]. right; right. eauto.
          * intros [[H _]|[(_ & H & _)|(_ & (o' & H1 & H2) & ->)]]; [contradiction|exfalso; apply (H o Ho)|].
            apply obj_in in H1; [|exact Hok]. assert (o' = o) as -> by congruence. auto.
        + pose proof (proj1 (obj_none _ _ _ Hok) Eo) as Ho. rewrite in_add, in_sent, in_none. split.
          * intros [[]| ->]. auto.
          * intros [[H _]|[(_ & _ & ->)|(_ & (o' & H1 & H2) & _)]]; [contradiction|auto|exfalso; apply (Ho o' H1)]. }
    rewrite B. clear B. unfold item_path. assert (Hp : CarriedPath (it_any it) (any_path (it_any it))) by (apply any_path_spec; reflexivity). split.
    - intros [[[H ->]|[(H1 & H2 & ->)|(H1 & (o & H2 & H3) & ->)]]|(i & k & -> & H)];
        (eexists; eexists; split; [reflexivity|]).
      + apply IvID; exact H.
      + eapply IvMissing; eassumption.
      + eapply IvOther; eassumption.
      + apply IvMeta; exact H.
    - intros (loc & k & -> & H). destruct H as [H|q H1 H2 H3|q o H1 H2 H3 H4|i k H].
      + auto.
      + apply any_path_spec in H2 as <-. auto 7.
      + apply any_path_spec in H2 as <-. left; right; right. eauto.
      + right. eauto.
  Qed.
  Lemma nn_item m it : nn (item_validate m it).
  Proof.
    unfold item_validate. cbv zeta. apply nn_add; [|nn]. destruct (_ =? _)%N; [nn|]. destruct (find_object _ _ _); nn.
  Qed.
  Lemma in_build m b x : ChildsOk m ->
    In x (L (build_validate m b)) <-> exists i it loc k, x = (lvi "item" i :: loc, "", k) /\
      nth_error (bu_items b) i = Some it /\ ItemViolation m it loc k.
  Proof.
    intros Hok. unfold build_validate.
    rewrite (in_loop _ (fun i it x => exists loc k, x = (lvi "item" i :: loc, "", k) /\ ItemViolation m it loc k)).
    - rewrite in_none. cbn [Nat.add]. split.
      + intros [[]|(i & it & Hi & loc & k & -> & H)]. exists i, it, loc, k. auto.
      + intros (i & it & loc & k & -> & Hi & H). right. exists i, it. eauto.
    - intros i it e y. cbv zeta. rewrite (in_some_add y e (item_validate m it) (fun e => at_index e "item" i)) by reflexivity.
      rewrite in_add, in_at_index. split; (intros [H|H]; [auto|right]).
      + destruct H as (loc & p & k & -> & H). apply in_item in H as (loc' & k' & E & H); [|exact Hok].
        injection E as -> -> ->. eauto.
      + destruct H as (loc & k & -> & H). exists loc, "", k. split; [reflexivity|]. apply in_item; [exact Hok|]. eauto.
  Qed.
  Lemma nn_build m b : nn (build_validate m b).
  Proof.
    unfold build_validate. apply nn_loop; [|nn]. intros i it e He. cbv zeta.
    destruct (item_validate m it) eqn:E; [|exact He]. rewrite <- E. apply nn_add; [exact He|]. apply nn_at, nn_item.
  Qed.
  Hint Resolve nn_build : nn.

  (** *** The model *)
  Lemma in_fold {A} (f : error -> A -> error) (G : A -> Loc -> Prop) x :
    (forall e y, In x (L (f e y)) <-> In x (L e) \/ G y x) ->
    forall l e, In x (L (fold_left f l e)) <-> In x (L e) \/ exists y, In y l /\ G y x.
  Proof.
    intros H l. induction l as [|y l IH]; intros e; cbn [fold_left].
    - split; [auto|]. intros [H'|(y & [] & _)]; exact H'.
    - rewrite IH, H. cbn [In]. split.
      + intros [[H'|H']|(z & Hz & H')]; [auto|right; exists y; auto|right; exists z; auto].
      + intros [H'|(z & [<-|Hz] & H')]; [auto|auto|right; exists z; auto].
  Qed.
  Lemma nn_fold {A} (f : error -> A -> error) : (forall e y, nn e -> nn (f e y)) ->
    forall l e, nn e -> nn (fold_left f l e).
  Proof. intros H l. induction l as [|y l IH]; intros e He; cbn; auto. Qed.
  Lemma sorted_childs_in m p : In p (sorted_childs m) <-> exists c, In (p, c) (mo_childs m).
  Proof.
    unfold sorted_childs. split.
    - intros H. eapply Permutation_in in H; [|apply Permutation_sym, isort_perm].
      apply in_map_iff in H as ([q c] & <- & H). eauto.
    - intros (c & H). eapply Permutation_in; [apply isort_perm|]. apply in_map_iff. exists (p, c). auto.
  Qed.
  Lemma child_at_in m p c : ChildsOk m -> In (p, c) (mo_childs m) -> child_at m p = c.
  Proof. intros Hok H. unfold child_at, find_child. rewrite (in_aget p (mo_childs m) c Hok H). reflexivity. Qed.
  Lemma root_path_eq m : path_or_default m = root_path m.
  Proof. reflexivity. Qed.

  (** Validate only looks up assets in parts that exist. *)
  Lemma validate_paths_found m : find_resources m (path_or_default m) <> None /\
    forall p, In p (sorted_childs m) -> find_resources m p <> None.
  Proof.
    split.
    - unfold find_resources, path_or_default. destruct (seq_spec (mo_path m) "") as [E|E].
      + rewrite seq_refl, orb_true_r. discriminate.
      + rewrite (seq_refl (mo_path m)), orb_true_r. discriminate.
    - intros p Hp. unfold find_resources. destruct (_ || _); [discriminate|].
      apply sorted_childs_in in Hp as (c & Hc). unfold find_child.
      destruct (aget seq p (mo_childs m)) eqn:E; [discriminate|]. exfalso. revert Hc E.
      induction (mo_childs m) as [|[q d] l IH]; [intros []|]. cbn. destruct (seq_spec p q); [discriminate|].
      intros [H|H]; [congruence|auto].
  Qed.

  Lemma in_validate m x : ChildsOk m -> SmallVertices m ->
    In x (L (validate loaded validators m)) <-> Violation (fun ns => loaded ns = true) ext_error m x.
  Proof.
    intros Hok Hsm. unfold validate. cbv zeta. rewrite root_path_eq.
    match goal with |- In x (L (match ?e with None => None | Some _ => wrap ?e "model" end)) <-> _ =>
      assert (E : L (match e with None => None | Some _ => wrap e "model" end) = L (wrap e "model"))
        by (destruct e; reflexivity); rewrite E; clear E; set (errs := e) end.
    rewrite in_wrap.
    assert (B : forall y, In y (L errs) <->
      (exists i k, y = ([lvi "relationship" i], "", k) /\ RelViolation (mo_atts m) (mo_rootrels m) i k) \/
      (exists e, In e (mo_exts m) /\ ex_req e = true /\ loaded (ex_ns e) <> true /\ y = ([], "", ESent "ErrRequiredExt")) \/
      (exists c, In (root_path m, c) (mo_childs m) /\ y = ([], "", ESent "ErrOPCDuplicatedModelName")) \/
      (exists p c i k, In (p, c) (mo_childs m) /\ p <> root_path m /\ y = ([lvi "relationship" i], p, k) /\
         RelViolation (mo_atts m) (ch_rels c) i k) \/
      (exists i k, y = ([lvi "relationship" i], root_path m, k) /\ RelViolation (mo_atts m) (mo_rels m) i k) \/
      (exists i k, y = ([lvi "metadata" i], "", k) /\ MetaViolation m (mo_md m) i k) \/
      ElemViolation ext_error m (mo_path m) VModel y \/
      (exists p c loc q k, In (p, c) (mo_childs m) /\ ResViolation ext_error m p (ch_res c) (loc, q, k) /\ y = (lv "resources" :: loc, p, k)) \/
      (exists loc q k, ResViolation ext_error m (root_path m) (mo_res m) (loc, q, k) /\ y = (lv "resources" :: loc, q, k)) \/
      (exists i it loc k, nth_error (bu_items (mo_build m)) i = Some it /\ ItemViolation m it loc k /\
         y = (lv "build" :: lvi "item" i :: loc, "", k))).
    { intros y. unfold errs.
      rewrite (in_some_add y _ (build_validate m (mo_build m)) (fun e => wrap e "build")) by reflexivity.
      rewrite in_add, in_wrap.
      rewrite (in_some_add y _ (resources_validate validators m (root_path m) (mo_res m)) (fun e => wrap e "resources")) by reflexivity.
      rewrite in_add, in_wrap.
      rewrite (in_fold _ (fun p z => exists c loc q k, In (p, c) (mo_childs m) /\
         ResViolation ext_error m p (ch_res c) (loc, q, k) /\ z = (lv "resources" :: loc, p, k)) y).
      2: shelve.
      rewrite in_ext, in_add, in_check_metadata, in_add, in_relationship.
      rewrite (in_fold _ (fun p z => (p = root_path m /\ z = ([], "", ESent "ErrOPCDuplicatedModelName")) \/
         (p <> root_path m /\ exists i k, z = ([lvi "relationship" i], p, k) /\ RelViolation (mo_atts m) (ch_rels (child_at m p)) i k)) y).
      2:{ intros e p. destruct (seq_spec p (root_path m)) as [E|E].
          - rewrite in_add, in_sent. tauto.
          - rewrite in_add, in_relationship. tauto. }
      rewrite in_add, in_add, in_relationship, in_none.
      assert (Hns : In y (L (validate_namespaces loaded m)) <->
        exists e, In e (mo_exts m) /\ ex_req e = true /\ loaded (ex_ns e) <> true /\ y = ([], "", ESent "ErrRequiredExt")).
      { unfold validate_namespaces.
        destruct (existsb (fun ext => ex_req ext && negb (loaded (ex_ns ext))) (mo_exts m)) eqn:Ex.
        - rewrite in_sent. apply existsb_exists in Ex as (e & He & H). apply andb_true_iff in H as [H1 H2].
          apply negb_true_iff, not_true_iff_false in H2. split.
          + intros ->. exists e. auto.
          + intros (e' & _ & _ & _ & ->). reflexivity.
        - rewrite in_none. split; [intros []|]. intros (e & He & H1 & H2 & _).
          assert (C : existsb (fun ext => ex_req ext && negb (loaded (ex_ns ext))) (mo_exts m) = true).
          { apply existsb_exists. exists e. split; [exact He|]. rewrite H1. cbn. apply negb_true_iff, not_true_iff_false. exact H2. }
          congruence. }
      rewrite Hns. clear Hns.
      assert (Hf : (exists p, In p (sorted_childs m) /\ ((p = root_path m /\ y = ([], "", ESent "ErrOPCDuplicatedModelName")) \/
         (p <> root_path m /\ exists i k, y = ([lvi "relationship" i], p, k) /\ RelViolation (mo_atts m) (ch_rels (child_at m p)) i k))) <->
        (exists c, In (root_path m, c) (mo_childs m) /\ y = ([], "", ESent "ErrOPCDuplicatedModelName")) \/
        (exists p c i k, In (p, c) (mo_childs m) /\ p <> root_path m /\ y = ([lvi "relationship" i], p, k) /\
         RelViolation (mo_atts m) (ch_rels c) i k)).
      { split.
        - intros (p & Hp & [[-> ->]|(Hn & i & k & -> & H)]).
          + apply sorted_childs_in in Hp as (c & Hc). left. eauto.
          + apply sorted_childs_in in Hp as (c & Hc). rewrite (child_at_in m p c Hok Hc) in H. right. exists p, c, i, k. auto.
        - intros [(c & Hc & ->)|(p & c & i & k & Hc & Hn & -> & H)].
          + exists (root_path m). split; [apply sorted_childs_in; eauto|]. auto.
          + exists p. split; [apply sorted_childs_in; eauto|]. right. split; [exact Hn|]. exists i, k.
            rewrite (child_at_in m p c Hok Hc). auto. }
      rewrite Hf. clear Hf.
      assert (Hr : (exists p, In p (sorted_childs m) /\ exists c loc q k, In (p, c) (mo_childs m) /\
         ResViolation ext_error m p (ch_res c) (loc, q, k) /\ y = (lv "resources" :: loc, p, k)) <->
         (exists p c loc q k, In (p, c) (mo_childs m) /\ ResViolation ext_error m p (ch_res c) (loc, q, k) /\ y = (lv "resources" :: loc, p, k))).
      { split.
        - intros (p & _ & c & loc & q & k & H). exists p, c, loc, q, k. exact H.
        - intros (p & c & loc & q & k & Hc & H). exists p. split; [apply sorted_childs_in; eauto|]. exists c, loc, q, k. auto. }
      rewrite Hr. clear Hr.
      assert (Ho : (exists loc p k, y = (lv "resources" :: loc, p, k) /\ In (loc, p, k) (L (resources_validate validators m (root_path m) (mo_res m)))) <->
         (exists loc q k, ResViolation ext_error m (root_path m) (mo_res m) (loc, q, k) /\ y = (lv "resources" :: loc, q, k))).
      { split; intros (loc & q & k & H1 & H2); exists loc, q, k.
        - split; [|exact H1]. apply in_resources in H2; [exact H2|exact Hok|]. intros o me Ho Hm. eapply Hsm; [left; reflexivity|eassumption..].
        - split; [exact H2|]. apply in_resources; [exact Hok| |exact H1]. intros o me Ho Hm. eapply Hsm; [left; reflexivity|eassumption..]. }
      rewrite Ho. clear Ho.
      assert (Hb : (exists loc p k, y = (lv "build" :: loc, p, k) /\ In (loc, p, k) (L (build_validate m (mo_build m)))) <->
         (exists i it loc k, nth_error (bu_items (mo_build m)) i = Some it /\ ItemViolation m it loc k /\
         y = (lv "build" :: lvi "item" i :: loc, "", k))).
      { split.
        - intros (loc & p & k & -> & H). apply in_build in H as (i & it & loc' & k' & E & Hi & H); [|exact Hok].
          injection E as -> -> ->. exists i, it, loc', k'. auto.
        - intros (i & it & loc & k & Hi & H & ->). exists (lvi "item" i :: loc), "", k. split; [reflexivity|].
          apply in_build; [exact Hok|]. exists i, it, loc, k. auto. }
      rewrite Hb. clear. tauto.
      Unshelve.
      intros e p. cbv zeta.
      rewrite (in_some_add y e (resources_validate validators m p (ch_res (child_at m p))) (fun e => wrap_path e "resources" p)) by reflexivity.
      rewrite in_add, in_wrap_path.
      assert (D : (exists c, In (p, c) (mo_childs m)) \/ ~ (exists c, In (p, c) (mo_childs m))).
      { rewrite <- sorted_childs_in. destruct (in_dec string_dec p (sorted_childs m)); auto. }
      destruct D as [(c & Hc)|D].
      - rewrite (child_at_in m p c Hok Hc).
        assert (Hs : forall o me, In o (rs_objects (ch_res c)) -> ob_mesh o = Some me -> (N.of_nat (List.length (me_verts me)) < 2 ^ 32)%N).
        { intros o me Ho Hm. eapply Hsm; [right; exists p, c; split; [exact Hc|reflexivity]|eassumption..]. }
        split; (intros [H|H]; [auto|right]).
        + destruct H as (loc & q & k & -> & H). apply in_resources in H; [|exact Hok|exact Hs]. exists c, loc, q, k. auto.
        + destruct H as (c' & loc & q & k & Hc' & H & ->).
          assert (c' = c) as -> by (rewrite <- (child_at_in m p c' Hok Hc'), <- (child_at_in m p c Hok Hc); reflexivity).
          exists loc, q, k. split; [reflexivity|]. apply in_resources; assumption.
      - unfold child_at. destruct (find_child m p) as [c|] eqn:Ec.
        + exfalso. apply D. exists c. apply aget_in. exact Ec.
        + cbn. split; [|intros [H|(c & _ & _ & _ & H & _)]; [auto|exfalso; eauto]].
          intros [H|(loc & q & k & _ & [])]. auto. }
    clearbody errs. split.
    - intros (loc & p & k & -> & H). apply B in H as [H|[H|[H|[H|[H|[H|[H|[H|[H|H]]]]]]]]].
      + destruct H as (i & k' & E & H). injection E as -> -> ->. apply VRootRel; exact H.
      + destruct H as (e & H1 & H2 & H3 & E). injection E as -> -> ->. eapply VRequired; eassumption.
      + destruct H as (c & H & E). injection E as -> -> ->. eapply VSamePath; eassumption.
      + destruct H as (q & c & i & k' & H1 & H2 & E & H). injection E as -> -> ->. eapply VChildRel; eassumption.
      + destruct H as (i & k' & E & H). injection E as -> -> ->. apply VRel; exact H.
      + destruct H as (i & k' & E & H). injection E as -> -> ->. apply VMeta; exact H.
      + apply VExt; exact H.
      + destruct H as (q & c & loc' & q' & k' & H1 & H2 & E). injection E as -> -> ->. eapply VChildRes; eassumption.
      + destruct H as (loc' & q & k' & H & E). injection E as -> -> ->. eapply VRes; eassumption.
      + destruct H as (i & it & loc' & k' & H1 & H2 & E). injection E as -> -> ->. eapply VItem; eassumption.
    - intros H. destruct H; (eexists; eexists; eexists; split; [reflexivity|]); apply B.
      + left. eauto.
      + right; left. exists e. auto.
      + right; right; left. eauto.
      + right; right; right; left. exists p, c, i, k. auto.
      + do 4 right; left. eauto.
      + do 5 right; left. eauto.
      + do 6 right; left. assumption.
      + do 7 right; left. exists p, c, loc, q, k. auto.
      + do 8 right; left. exists loc, q, k. auto.
      + do 9 right. exists i, it, loc, k. auto.
  Qed.
  Lemma nn_validate m : nn (validate loaded validators m).
  Proof.
    unfold validate. cbv zeta.
    match goal with |- nn (match ?e with None => None | Some _ => _ end) => assert (H : nn e); [|destruct e; [apply nn_wrap; exact H|nn]] end.
    assert (S : forall err e w, nn err -> nn e -> (nn err -> nn (w err)) ->
      nn (match err with None => e | Some _ => add e (w err) end)).
    { intros err e w H1 H2 H3. destruct err eqn:E; [|exact H2]. rewrite <- E in *. nn. }
    apply (S (build_validate m (mo_build m)) _ (fun e => wrap e "build")); [nn| |nn].
    apply (S (resources_validate validators m (path_or_default m) (mo_res m)) _ (fun e => wrap e "resources")); [nn| |nn].
    apply nn_fold.
    - intros e p He. apply (S (resources_validate validators m p (ch_res (child_at m p))) _ (fun e => wrap_path e "resources" p)); nn.
    - apply nn_ext. apply nn_add; [|nn]. apply nn_add; [|nn]. apply nn_fold.
      + intros e p He. destruct (seq _ _); nn.
      + apply nn_add; [nn|]. unfold validate_namespaces. destruct (existsb _ _); nn.
  Qed.
End Exts.
