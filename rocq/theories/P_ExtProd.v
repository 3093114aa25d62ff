From Coq Require Import Permutation.
From Verif Require Import GoBase GoFloat Types M_Core S_Core P_Core M_Errors S_Errors P_Errors M_Text S_Text P_Text
  M_Geom S_Geom P_Geom P_Coherency M_Validate S_Validate P_Validate P_Validate2 P_Validate3
  M_ExtValidate S_ExtValidate P_ExtMat S_ExtProd.

(** ** The first group of a kind *)
Definition get_group (k : ProdKind) (l : AnyAttr) : option (string * string) :=
  match k with
  | KItem => get_item_attr l
  | KComponent => get_comp_attr l
  | KObject => match get_object_attr l with Some u => Some (u, "") | None => None end
  | KBuild => match get_build_attr l with Some u => Some (u, "") | None => None end
  end.
Definition is_group (k : ProdKind) (g : AttrGroup) : option (string * string) :=
  match k, g with
  | KItem, GItem u p | KComponent, GComp u p => Some (u, p)
  | KObject, GObj u | KBuild, GBuild u => Some (u, "")
  | _, _ => None
  end.
Lemma get_group_cons k g l : get_group k (g :: l) = match is_group k g with Some x => Some x | None => get_group k l end.
Proof. destruct k, g; reflexivity. Qed.
Lemma is_group_some k g u p : is_group k g = Some (u, p) <-> PathOk k p /\ g = prod_group k u p.
Proof.
  split.
  - destruct k, g; cbn; intros H; try discriminate; injection H as -> ->; auto.
  - intros [H ->]. destruct k; cbn in *; subst; reflexivity.
Qed.
Lemma is_group_none k g : is_group k g = None <-> forall u p, g <> prod_group k u p.
Proof.
  split.
  - intros H u p ->. destruct k; discriminate.
  - intros H. destruct (is_group k g) as [[u p]|] eqn:E; [|reflexivity]. apply is_group_some in E as [_ E]. destruct (H _ _ E).
Qed.
Lemma no_group_cons k g l : NoGroup k (g :: l) <-> is_group k g = None /\ NoGroup k l.
Proof.
  rewrite is_group_none. unfold NoGroup. split.
  - intros H. split; [intros u p E; apply (H u p); left; exact E|intros u p E; apply (H u p); right; exact E].
  - intros [H1 H2] u p [E|E]; [destruct (H1 _ _ E)|destruct (H2 _ _ E)].
Qed.
Lemma get_group_spec k l u p : get_group k l = Some (u, p) <-> Carries k l u p.
Proof.
  induction l as [|g l IH].
  - split; [destruct k; discriminate|]. intros (_ & a & b & E & _). destruct a; discriminate.
  - rewrite get_group_cons. destruct (is_group k g) as [[u' p']|] eqn:E.
    + apply is_group_some in E as [Hp ->]. split.
      * intros H. injection H as -> ->. split; [exact Hp|]. exists [], l. split; [reflexivity|]. intros ? ? [].
      * intros (Hq & a & b & El & Ha). destruct a as [|g a]; cbn [app] in El.
        -- assert (X : is_group k (prod_group k u p) = Some (u, p)) by (apply is_group_some; auto).
           assert (X' : is_group k (prod_group k u' p') = Some (u', p')) by (apply is_group_some; auto).
           assert (E : prod_group k u' p' = prod_group k u p) by congruence. congruence.
        -- exfalso. assert (E : prod_group k u' p' = g) by congruence.
           eapply Ha. left. symmetry. exact E.
    + rewrite IH. unfold Carries. split.
      * intros (Hp & a & b & -> & Ha). split; [exact Hp|]. exists (g :: a), b. split; [reflexivity|]. apply no_group_cons. auto.
      * intros (Hp & a & b & El & Ha). split; [exact Hp|]. destruct a as [|g' a]; injection El as -> ->.
        -- assert (X : is_group k (prod_group k u p) = Some (u, p)) by (apply is_group_some; auto). congruence.
        -- exists a, b. split; [reflexivity|]. apply no_group_cons in Ha. tauto.
Qed.
Lemma get_group_none k l : get_group k l = None <-> NoGroup k l.
Proof.
  induction l as [|g l IH]; [split; [intros _ ? ? []|destruct k; reflexivity]|].
  rewrite get_group_cons, no_group_cons. destruct (is_group k g) as [[]|]; [intuition congruence|]. rewrite IH. tauto.
Qed.

(** ** The validator *)
Lemma in_path_uuid m path u p x : In x (L (path_uuid_validate m path u p)) <-> exists k, x = ([], "", k) /\
  ((u = "" /\ k = EMissing "UUID") \/ (u <> "" /\ ~ ValidUuid u /\ k = ESent "ErrUUID") \/
   (p <> "" /\ path <> "" /\ path <> root_path m /\ k = ESent "ErrProdRefInNonRoot")).
Proof.
  unfold path_uuid_validate. rewrite root_path_eq.
  set (e1 := if seq u "" then _ else _).
  assert (H1 : In x (L e1) <-> (u = "" /\ x = ([], "", EMissing "UUID")) \/ (u <> "" /\ ~ ValidUuid u /\ x = ([], "", ESent "ErrUUID"))).
  { unfold e1. destruct (seq_spec u "") as [E|E].
    - rewrite in_add, in_missing. cbn [In located_o]. change (L None) with (@nil Loc). cbn [In]. tauto.
    - rewrite in_add_if, in_sent, negb_true_iff. unfold ValidUuid. rewrite <- uuid_validate_spec. change (L None) with (@nil Loc). cbn [In].
      destruct (uuid_validate u); intuition congruence. }
  clearbody e1.
  transitivity (In x (L e1) \/ (p <> "" /\ path <> "" /\ path <> root_path m /\ x = ([], "", ESent "ErrProdRefInNonRoot"))).
  { destruct (seq_spec p "") as [Ep|Ep]; cbn [negb]; [tauto|].
    destruct (seq_spec path "") as [E|E], (seq_spec path (root_path m)) as [E'|E']; cbn [orb]; try tauto.
    rewrite in_add, in_sent. tauto. }
  rewrite H1. split.
  - intros [[(H & ->)|(H & H' & ->)]|(H & H' & H'' & ->)]; eexists; (split; [reflexivity|]); tauto.
  - intros (k & -> & [(H & ->)|[(H & H' & ->)|(H & H' & H'' & ->)]]); tauto.
Qed.
Lemma nn_path_uuid m path u p : nn (path_uuid_validate m path u p).
Proof.
  unfold path_uuid_validate.
  assert (K : nn (if seq u "" then add None (missing "UUID") else add_if (negb (uuid_validate u)) None (sent "ErrUUID"))) by (destruct (seq u ""); nn).
  destruct (negb (seq p "")); [|exact K]. destruct (_ || _); [exact K|]. apply nn_add; [exact K|nn].
Qed.
Lemma in_ref_uuid m path k l x : In x (L (match get_group k l with
    | Some (u, p) => add None (path_uuid_validate m path u p) | None => add None (missing "UUID") end)) <->
  exists e, x = ([], "", e) /\ RefUuidViolation m path k l e.
Proof.
  destruct (get_group k l) as [[u p]|] eqn:G.
  - apply get_group_spec in G. rewrite in_add, in_path_uuid. change (L None) with (@nil Loc). cbn [In].
    assert (U : forall u' p', Carries k l u' p' -> u' = u /\ p' = p).
    { intros u' p' H. apply get_group_spec in G, H. split; congruence. }
    split.
    + intros [[]|(e & -> & [(-> & ->)|[(H & H' & ->)|(H & H' & H'' & ->)]])]; eexists; (split; [reflexivity|]);
        [eapply RuEmpty|eapply RuBad|eapply RuPath]; eassumption.
    + intros (e & -> & H). right. exists e. split; [reflexivity|]. destruct H as [H|p' H|u' p' H H1 H2|u' p' H H1 H2 H3].
      * apply get_group_none in H. apply get_group_spec in G. congruence.
      * apply U in H as [<- _]. auto.
      * apply U in H as [-> _]. auto.
      * apply U in H as [_ ->]. auto 6.
  - apply get_group_none in G. rewrite in_add, in_missing. change (L None) with (@nil Loc). cbn [In].
    assert (U : forall u' p', ~ Carries k l u' p').
    { intros u' p' H. apply get_group_spec in H. apply get_group_none in G. congruence. }
    split.
    + intros [[]| ->]. eexists. split; [reflexivity|]. apply RuNone; exact G.
    + intros (e & -> & H). right. destruct H as [H|p' H|u' p' H H1 H2|u' p' H H1 H2 H3]; [reflexivity|destruct (U _ _ H)..].
Qed.
Lemma in_own_uuid k l x : In x (L (match get_group k l with
    | None => add None (missing "UUID") | Some (u, _) => add_if (negb (uuid_validate u)) None (sent "ErrUUID") end)) <->
  exists e, x = ([], "", e) /\ OwnUuidViolation k l e.
Proof.
  destruct (get_group k l) as [[u p]|] eqn:G.
  - apply get_group_spec in G. rewrite in_add_if, in_sent, negb_true_iff. change (L None) with (@nil Loc). cbn [In].
    assert (U : forall u' p', Carries k l u' p' -> u' = u).
    { intros u' p' H. apply get_group_spec in G, H. congruence. }
    assert (V : uuid_validate u = false <-> ~ ValidUuid u).
    { unfold ValidUuid. rewrite <- uuid_validate_spec. destruct (uuid_validate u); intuition congruence. }
    rewrite V. split.
    + intros [[]|[H ->]]. eexists. split; [reflexivity|]. eapply OuBad; eassumption.
    + intros (e & -> & H). right. destruct H as [H|u' p' H H1].
      * apply get_group_none in H. apply get_group_spec in G. congruence.
      * apply U in H as ->. auto.
  - apply get_group_none in G. rewrite in_add, in_missing. change (L None) with (@nil Loc). cbn [In]. split.
    + intros [[]| ->]. eexists. split; [reflexivity|]. apply OuNone; exact G.
    + intros (e & -> & H). right. destruct H as [H|u' p' H H1]; [reflexivity|].
      apply get_group_spec in H. apply get_group_none in G. congruence.
Qed.
Lemma in_wrap_own k l n x : In x (L (match get_group k l with
    | None => add None (wrap (missing "UUID") n) | Some (u, _) => add_if (negb (uuid_validate u)) None (wrap (sent "ErrUUID") n) end)) <->
  exists e, x = ([lv n], "", e) /\ OwnUuidViolation k l e.
Proof.
  transitivity (In x (L (wrap (match get_group k l with
    | None => add None (missing "UUID") | Some (u, _) => add_if (negb (uuid_validate u)) None (sent "ErrUUID") end) n))).
  - destruct (get_group k l) as [[u p]|].
    + rewrite in_add_if, !in_wrap. change (L None) with (@nil Loc). cbn [In]. split.
      * intros [[]|[H (loc & q & e & -> & H')]]. exists loc, q, e. split; [reflexivity|]. rewrite in_add_if. auto.
      * intros (loc & q & e & -> & H). rewrite in_add_if in H. destruct H as [[]|[H H']]. right. split; [exact H|]. eauto.
    + rewrite in_add, !in_wrap. change (L None) with (@nil Loc). cbn [In]. split.
      * intros [[]|(loc & q & e & -> & H')]. exists loc, q, e. split; [reflexivity|]. rewrite in_add. auto.
      * intros (loc & q & e & -> & H). rewrite in_add in H. destruct H as [[]|H]. right. eauto.
  - rewrite in_wrap. setoid_rewrite in_own_uuid. split.
    + intros (loc & q & e & -> & e' & H & V). injection H as -> -> ->. eauto.
    + intros (e & -> & V). do 3 eexists. split; [reflexivity|]. eauto.
Qed.
Lemma in_production m path el x : In x (L (production_validate m path el)) <->
  exists loc k, x = (loc, "", k) /\ ProdViolation m path el loc k.
Proof.
  destruct el as [|a|o]; cbn [production_validate].
  - unfold prod_model_validate.
    rewrite (in_loop _ (fun i it y => exists e, y = ([lv "build"; lvi "item" i], "", e) /\ RefUuidViolation m "" KItem (it_any it) e)).
    2:{ intros i it e y. cbv zeta. rewrite (in_some_add y _ _ (fun er => wrap (at_index er "item" i) "build")) by reflexivity.
        rewrite in_add, in_wrap. setoid_rewrite in_at_index. setoid_rewrite (in_ref_uuid m "" KItem (it_any it)). split.
        - intros [H|(loc & q & k & -> & loc' & q' & k' & E & e' & E' & V)]; [auto|]. injection E as -> -> ->. injection E' as -> -> ->. eauto.
        - intros [H|(e' & -> & V)]; [auto|]. right. do 3 eexists. split; [reflexivity|]. do 3 eexists. split; [reflexivity|]. eauto. }
    cbn [Nat.add].
    replace (match get_build_attr (bu_any (mo_build m)) with
             | Some u => add_if (negb (uuid_validate u)) None (wrap (sent "ErrUUID") "build")
             | None => add None (wrap (missing "UUID") "build") end)
      with (match get_group KBuild (bu_any (mo_build m)) with
            | None => add None (wrap (missing "UUID") "build") | Some (u, _) => add_if (negb (uuid_validate u)) None (wrap (sent "ErrUUID") "build") end)
      by (cbn [get_group]; destruct (get_build_attr _); reflexivity).
    rewrite in_wrap_own. split.
    + intros [(e & -> & V)|(i & it & Hi & e & -> & V)]; do 2 eexists; (split; [reflexivity|]); [apply PvBuild; exact V|eapply PvItem; eassumption].
    + intros (loc & k & -> & V). inversion V; subst; [left; eauto|right; eauto 8].
  - split; [intros []|]. intros (loc & k & _ & V). inversion V.
  - unfold prod_object_validate.
    set (e1 := match get_object_attr (ob_any o) with Some u => _ | None => _ end).
    assert (H1 : forall y, In y (L e1) <-> exists e, y = ([], "", e) /\ OwnUuidViolation KObject (ob_any o) e).
    { intros y. rewrite <- in_own_uuid. unfold e1. cbn [get_group]. destruct (get_object_attr _); reflexivity. }
    clearbody e1.
    assert (K : forall cs y, In y (L (loop (fun i c cerrs =>
          let err := match get_comp_attr (co_any c) with
                     | Some (u, p) => add None (path_uuid_validate m path u p)
                     | None => add None (missing "UUID")
                     end in
          match err with None => cerrs | Some _ => add cerrs (at_index err "component" i) end) 0 cs None)) <->
        exists i c e, nth_error cs i = Some c /\ y = ([lvi "component" i], "", e) /\ RefUuidViolation m path KComponent (co_any c) e).
    { intros cs y. rewrite (in_loop _ (fun i c y => exists e, y = ([lvi "component" i], "", e) /\ RefUuidViolation m path KComponent (co_any c) e)).
      - change (L None) with (@nil Loc). cbn [In Nat.add]. split.
        + intros [[]|(i & c & Hi & e & -> & V)]. exists i, c, e. auto.
        + intros (i & c & e & Hi & -> & V). right. exists i, c. eauto.
      - intros i c e z. cbv zeta. rewrite (in_some_add z _ _ (fun er => at_index er "component" i)) by reflexivity.
        rewrite in_add, in_at_index. setoid_rewrite (in_ref_uuid m path KComponent (co_any c)). split.
        + intros [H|(loc & q & k & -> & e' & E' & V)]; [auto|]. injection E' as -> -> ->. eauto.
        + intros [H|(e' & -> & V)]; [auto|]. right. do 3 eexists. split; [reflexivity|]. eauto. }
    destruct (ob_comps o) as [cs|] eqn:Ec.
    + cbv zeta. rewrite (in_some_add x _ _ (fun er => wrap er "components")) by reflexivity. rewrite in_add, H1, in_wrap. setoid_rewrite K. split.
      * intros [(e & -> & V)|(loc & q & k & -> & i & c & e & Hi & E & V)]; do 2 eexists.
        -- split; [reflexivity|]. apply PvObject; exact V.
        -- injection E as -> -> ->. split; [reflexivity|]. eapply PvComponent; [|exact V]. unfold Comps. rewrite Ec. exact Hi.
      * intros (loc & k & -> & V). inversion V; subst; [left; eauto|right].
        match goal with H : nth_error (Comps o) _ = _ |- _ => unfold Comps in H; rewrite Ec in H end.
        do 3 eexists. split; [reflexivity|]. eauto 8.
    + rewrite H1. split.
      * intros (e & -> & V); do 2 eexists. split; [reflexivity|]. apply PvObject; exact V.
      * intros (loc & k & -> & V). inversion V; subst; [eauto|].
        match goal with H : nth_error (Comps o) ?i = _ |- _ => unfold Comps in H; rewrite Ec in H; destruct i; discriminate end.
Qed.
Lemma nn_production m path el : nn (production_validate m path el).
Proof.
  assert (R : forall (r : option (string * string)) path, nn (match r with Some (u, p) => add None (path_uuid_validate m path u p) | None => add None (missing "UUID") end)).
  { intros [[u p]|] q; apply nn_add; try nn. apply nn_path_uuid. }
  destruct el as [|a|o]; cbn [production_validate]; [|nn|].
  - unfold prod_model_validate. apply nn_loop; [|destruct (get_build_attr _); nn].
    intros i it e He. cbv zeta. pose proof (R (get_item_attr (it_any it)) "") as R'. destruct (match get_item_attr (it_any it) with Some _ => _ | None => _ end); [|exact He].
    apply nn_add; [exact He|]. apply nn_wrap. apply nn_at. exact R'.
  - unfold prod_object_validate.
    assert (K : nn (match get_object_attr (ob_any o) with None => add None (missing "UUID") | Some u => add_if (negb (uuid_validate u)) None (sent "ErrUUID") end)) by (destruct (get_object_attr _); nn).
    destruct (ob_comps o) as [cs|]; [|exact K]. cbv zeta.
    match goal with |- nn (match ?l with _ => _ end) => assert (Q : nn l) end.
    { apply nn_loop; [|nn]. intros i c e He. pose proof (R (get_comp_attr (co_any c)) path) as R'.
      destruct (match get_comp_attr (co_any c) with Some _ => _ | None => _ end); [|exact He]. apply nn_add; [exact He|]. apply nn_at. exact R'. }
    destruct (loop _ 0 (cs_list cs) None); [|exact K]. apply nn_add; [exact K|]. apply nn_wrap. exact Q.
Qed.
Lemma valid_dec u : ValidUuid u \/ ~ ValidUuid u.
Proof. unfold ValidUuid. rewrite <- uuid_validate_spec. destruct (uuid_validate u); [left; reflexivity|right; discriminate]. Qed.
Lemma valid_nonempty u : ValidUuid u -> u <> "".
Proof. unfold ValidUuid. rewrite <- uuid_validate_spec. intros H ->. discriminate. Qed.
Lemma own_conforms k l : (forall e, ~ OwnUuidViolation k l e) <-> HasUuid k l.
Proof.
  split.
  - intros H. destruct (get_group k l) as [[u p]|] eqn:G.
    + apply get_group_spec in G. exists u, p. split; [exact G|]. destruct (valid_dec u) as [V|V]; [exact V|]. destruct (H _ (OuBad _ _ _ _ G V)).
    + apply get_group_none in G. destruct (H _ (OuNone _ _ G)).
  - intros (u & p & Hc & V) e H. destruct H as [H|u' p' H V'].
    + apply get_group_none in H. apply get_group_spec in Hc. congruence.
    + apply get_group_spec in H, Hc. congruence.
Qed.
Lemma ref_conforms m path k l : (forall e, ~ RefUuidViolation m path k l e) <-> HasUuid k l /\ PathAllowed m path k l.
Proof.
  split.
  - intros H. destruct (get_group k l) as [[u p]|] eqn:G.
    + apply get_group_spec in G. split.
      * exists u, p. split; [exact G|]. destruct (valid_dec u) as [V|V]; [exact V|].
        destruct (seq_spec u "") as [->|Hu]; [destruct (H _ (RuEmpty _ _ _ _ _ G))|destruct (H _ (RuBad _ _ _ _ _ _ G Hu V))].
      * intros u' p' G' Hp. destruct (seq_spec path "") as [E|E]; [auto|]. destruct (seq_spec path (root_path m)) as [E'|E']; [auto|].
        destruct (H _ (RuPath _ _ _ _ _ _ G' Hp E E')).
    + apply get_group_none in G. destruct (H _ (RuNone _ _ _ _ G)).
  - intros [(u & p & Hc & V) Hp] e H. destruct H as [H|p' H|u' p' H H1 H2|u' p' H H1 H2 H3].
    + apply get_group_none in H. apply get_group_spec in Hc. congruence.
    + apply get_group_spec in H, Hc. apply (valid_nonempty u V). congruence.
    + apply get_group_spec in H, Hc. congruence.
    + destruct (Hp _ _ H H1); contradiction.
Qed.
