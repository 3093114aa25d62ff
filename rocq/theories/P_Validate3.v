(** Absence of violations is conformity. *)
From Verif Require Import GoBase GoFloat Types M_Core S_Core P_Core M_Errors S_Errors P_Errors
  M_Geom S_Geom P_Geom P_Coherency M_Validate S_Validate P_Validate P_Validate2.

Lemma reserved_dec s : Reserved s \/ ~ Reserved s.
Proof.
  destruct (name_allowed s) eqn:E; [left|right]; [apply name_allowed_spec; exact E|].
  rewrite <- name_allowed_spec. congruence.
Qed.
Lemma declared_dec m s : Declared m s \/ ~ Declared m s.
Proof.
  destruct (existsb (fun ext => seq (ex_ns ext) s) (mo_exts m)) eqn:E; [left|right]; [apply declared_spec; exact E|].
  rewrite <- declared_spec. congruence.
Qed.
Lemma partname_dec p : PartName p \/ ~ PartName p.
Proof.
  destruct (bad_part_name p) eqn:E; [right; apply bad_part_name_spec; exact E|left].
  unfold PartName. destruct p as [|c p]; cbn [bad_part_name] in E; [discriminate|]. apply orb_false_iff in E as [E1 E2].
  apply negb_false_iff, ceq_true in E1 as ->. split; [exists p; reflexivity|].
  intros He. apply contains_spec in He. congruence.
Qed.
Lemma attached_dec l p : Attached l p \/ ~ Attached l p.
Proof.
  destruct (find_attachment l p) eqn:E.
  - left. apply designates_attached. exists a. apply find_attachment_spec. exact E.
  - right. apply find_attachment_none. exact E.
Qed.
Lemma nodup_nth {A} (f : A -> A -> Prop) {B} (g : A -> B) (l : list A) :
  NoDup (map g l) <-> (forall i j x y, j < i -> nth_error l i = Some x -> nth_error l j = Some y -> g x <> g y).
Proof.
  split.
  - intros H i j x y Hl Hx Hy E. assert (i = j); [|lia].
    apply (NoDup_nth_error (map g l)); [exact H| |].
    + apply nth_error_Some. rewrite nth_error_map, Hx. discriminate.
    + rewrite !nth_error_map, Hx, Hy. cbn. congruence.
  - intros H. apply NoDup_nth_error. intros i j Hi E. rewrite !nth_error_map in E.
    apply nth_error_Some in Hi. rewrite nth_error_map in Hi.
    destruct (nth_error l i) as [x|] eqn:Ex; [|cbn in Hi; congruence].
    destruct (nth_error l j) as [y|] eqn:Ey; [|discriminate]. cbn in E. injection E as E.
    destruct (Nat.lt_trichotomy i j) as [Hl|[Hl|Hl]]; [|exact Hl|].
    + exfalso. apply (H j i y x Hl Ey Ex). congruence.
    + exfalso. apply (H i j x y Hl Ex Ey). congruence.
Qed.

Lemma meta_conforms m l : (forall i k, ~ MetaViolation m l i k) <-> MetaConforms m l.
Proof.
  split.
  - intros H. split.
    + intros md Hin. apply In_nth_error in Hin as (i & Hi). 
      assert (H1 : nlocal (md_name md) <> "") by (intros E; eapply H, MvNoName; eassumption).
      split; [exact H1|]. split; intros H2.
      * destruct (reserved_dec (nlocal (md_name md))) as [D|D]; [exact D|]. exfalso. eapply H, MvReserved; eassumption.
      * destruct (declared_dec m (nspace (md_name md))) as [D|D]; [exact D|]. exfalso. eapply H, MvNamespace; eassumption.
    + apply (nodup_nth (fun _ _ => True)). intros i j x y Hl Hx Hy E. eapply H, MvDuplicated; [exact Hx|exact Hl|exact Hy|exact E].
  - intros [H1 H2] i k H. destruct H as [md Hi E|md Hi E1 E2 E3|md Hi E1 E2 E3|md j md' Hi Hl Hj E].
    + apply nth_error_In in Hi. apply H1 in Hi as (H & _). contradiction.
    + apply nth_error_In in Hi. apply H1 in Hi as (_ & H & _). auto.
    + apply nth_error_In in Hi. apply H1 in Hi as (_ & _ & H). auto.
    + revert E. eapply (nodup_nth (fun _ _ => True)); eassumption.
Qed.

Lemma rels_conform a l : (forall i k, ~ RelViolation a l i k) <-> RelsConform a l.
Proof.
  split.
  - intros H.
    assert (H0 : forall r, In r l -> PartName (rel_path r) /\ Attached a (rel_path r)).
    { intros r Hin. apply In_nth_error in Hin as (i & Hi).
      destruct (partname_dec (rel_path r)) as [D|D]; [|exfalso; eapply H, RvName; eassumption].
      split; [exact D|]. destruct (attached_dec a (rel_path r)) as [D'|D']; [exact D'|].
      exfalso. eapply H, RvTarget; eassumption. }
    split; [exact H0|]. split; [|split].
    + apply (nodup_nth (fun _ _ => True)). intros i j x y Hl Hx Hy E. injection E as E1 E2.
      eapply H, RvDuplicated; [exact Hx|apply H0; eapply nth_error_In; exact Hx|exact Hl|exact Hy|congruence..].
    + intros r at' Hin Ht Hd. apply In_nth_error in Hin as (i & Hi).
      destruct (string_dec (at_ctype at') print_ticket_content) as [E|E]; [exact E|].
      exfalso. eapply H, RvContent; eassumption.
    + assert (W : forall i j r r', j < i -> nth_error l i = Some r -> nth_error l j = Some r' ->
        rel_type r = print_ticket_type -> rel_type r' = print_ticket_type -> False).
      { intros i j r r' Hl Hi Hj H1 H2. eapply H, RvTicket;
          [exact Hi|exact H1|apply H0; eapply nth_error_In; exact Hi|exact Hl|exact Hj|exact H2|].
        apply H0; eapply nth_error_In; exact Hj. }
      intros i j r r' Hi Hj H1 H2. destruct (Nat.lt_trichotomy i j) as [Hl|[Hl|Hl]]; [|exact Hl|]; exfalso; eauto.
  - intros (H1 & H2 & H3 & H4) i k H. destruct H as [r Hi E|r Hi E1 E2|r j r' Hi E1 Hl Hj E2 E3|r b Hi E1 E2 E3|r j r' Hi E1 E2 Hl Hj E3 E4].
    + apply nth_error_In, H1 in Hi as [H _]. contradiction.
    + apply nth_error_In, H1 in Hi as [_ H]. contradiction.
    + refine (proj1 (nodup_nth (fun _ _ => True) (fun r => (rel_path r, rel_type r)) l) H2 i j r r' Hl Hi Hj _). congruence.
    + apply nth_error_In in Hi. apply E3. eapply H3; eassumption.
    + assert (i = j) by (eapply H4; eassumption). lia.
Qed.

Lemma base_conforms b : (forall loc k, ~ BaseViolation b loc k) <-> BaseConforms b.
Proof.
  split.
  - intros H. split; [|split].
    + intros E. eapply H, BvID; exact E.
    + intros E. eapply H, BvEmpty; exact E.
    + intros ba Hin. apply In_nth_error in Hin as (j & Hj). split; intros E; [eapply H, BvName|eapply H, BvColor]; eassumption.
  - intros (H1 & H2 & H3) loc k H. destruct H as [E|E|j ba Hj E|j ba Hj E]; try contradiction;
    apply nth_error_In, H3 in Hj as [? ?]; contradiction.
Qed.

Lemma inherits_dec o t : InheritsProperty o t \/ ~ InheritsProperty o t.
Proof. rewrite <- inherits_spec. destruct (_ && _); auto. Qed.
Lemma asset_dec m path id : ChildsOk m -> (exists a, AssetIn m path id a) \/ (forall a, ~ AssetIn m path id a).
Proof.
  intros Hok. destruct (res_find_asset m path id) as [a|] eqn:E.
  - left. exists a. apply asset_in; assumption.
  - right. apply asset_none; assumption.
Qed.
Lemma obj_dec m path id : ChildsOk m -> (exists a, ObjIn m path id a) \/ (forall a, ~ ObjIn m path id a).
Proof.
  intros Hok. destruct (find_object m path id) as [a|] eqn:E.
  - left. exists a. apply obj_in; assumption.
  - right. apply obj_none; assumption.
Qed.
Lemma nodup3_dec (a b c : N) : NoDup [a; b; c] \/ ~ NoDup [a; b; c].
Proof.
  destruct ((a =? b) || (a =? c) || (b =? c))%N eqn:E; [right; apply dup3; exact E|left].
  apply orb_false_iff in E as [E E3]. apply orb_false_iff in E as [E1 E2].
  apply N.eqb_neq in E1, E2, E3. repeat constructor; cbn; intuition congruence.
Qed.
Lemma mesh_conforms m path o me : ChildsOk m ->
  (forall loc k, ~ MeshViolation m path o me loc k) <-> MeshConforms m path o me.
Proof.
  intros Hok. split.
  - intros H. split.
    + intros Hs. split.
      * destruct (Nat.lt_ge_cases (List.length (me_verts me)) 3) as [C|C]; [|exact C]. exfalso. eapply H, MeVertices; eassumption.
      * destruct (Nat.lt_ge_cases (List.length (me_tris me)) 4) as [C|C]; [|left; exact C].
        right. intros E. eapply H, MeTriangles; eassumption.
    + intros t Hin. apply In_nth_error in Hin as (i & Hi). split; [|split].
      * destruct (nodup3_dec (t_v1 t) (t_v2 t) (t_v3 t)) as [D|D]; [exact D|]. exfalso. eapply H, MeSame; eassumption.
      * intros v Hv. destruct (N.lt_ge_cases v (N.of_nat (List.length (me_verts me)))) as [C|C]; [exact C|].
        exfalso. eapply H, MeRange; eassumption.
      * intros Hp Hn. split.
        -- destruct (asset_dec m path (t_pid t) Hok) as [D|D]; [exact D|]. exfalso. eapply H, MeNoResource; eassumption.
        -- intros a n p Ha Hg Hin. destruct (N.lt_ge_cases p (N.of_nat n)) as [C|C]; [exact C|].
           exfalso. eapply H, MeProperty; eassumption.
  - intros [H1 H2] loc k H. destruct H as [E1 E2|E1 E2 E3|i t Hi E|i t v Hi E1 E2|i t Hi E1 E2 E3|i t a n p Hi E1 E2 E3 E4 E5 E6].
    + apply H1 in E1 as [C _]. lia.
    + apply H1 in E1 as [_ [C|C]]; [lia|contradiction].
    + apply nth_error_In, H2 in Hi as [C _]. contradiction.
    + apply nth_error_In, H2 in Hi as (_ & C & _). apply C in E1. lia.
    + apply nth_error_In, H2 in Hi as (_ & _ & C). destruct (C E1 E2) as [(a & Ha) _]. eapply E3; exact Ha.
    + apply nth_error_In, H2 in Hi as (_ & _ & C). destruct (C E1 E2) as [_ D]. specialize (D a n p E3 E4 E5). lia.
Qed.

Lemma comp_conforms m path o j c : ChildsOk m ->
  (forall k, ~ CompViolation m path o j c k) <-> CompConforms m path o c.
Proof.
  intros Hok. assert (Hq : TargetFile c path (comp_path c path)) by (apply target_file; reflexivity). split.
  - intros H. assert (Hz : co_oid c <> 0%N) by (intros E; eapply H, CvID; exact E). split; [exact Hz|].
    destruct (obj_dec m (comp_path c path) (co_oid c) Hok) as [(r & Hr)|D]; [|exfalso; eapply H, CvMissing; eassumption].
    exists (comp_path c path), r. split; [exact Hq|]. split; [exact Hr|]. intros [E1 E2]. eapply H, CvRecursion; eassumption.
  - intros [Hz (q & r & H1 & H2 & H3)] k H. destruct H as [E|q' E1 E2 E3|q' r' E1 E2 E3 E4 E5]; [contradiction| |];
    apply target_file in H1 as ->; apply target_file in E2 as ->.
    + eapply E3; exact H2.
    + apply obj_in in H2, E3; [|exact Hok..]. assert (r' = r) as -> by congruence. auto.
Qed.

Lemma obj_conforms m path o : ChildsOk m ->
  (forall loc k, ~ ObjViolation m path o loc k) <-> ObjConforms m path o.
Proof.
  intros Hok. split.
  - intros H. split; [intros E; eapply H, OvID; exact E|].
    split; [intros E1 E2; eapply H, OvPID; eassumption|].
    destruct (ob_mesh o) as [me|] eqn:Em.
    + left. exists me. split; [reflexivity|]. destruct (ob_comps o) as [cs|] eqn:Ec.
      { exfalso. eapply H, OvKind. rewrite Em, Ec. split; discriminate. }
      split; [reflexivity|]. split.
      * intros Hp. split.
        -- destruct (asset_dec m path (ob_pid o) Hok) as [D|D]; [exact D|]. exfalso. eapply H, OvNoResource; eassumption.
        -- intros a n Ha Hg. destruct (N.lt_ge_cases (ob_pindex o) (N.of_nat n)) as [C|C]; [exact C|].
           exfalso. eapply H, OvProperty; eassumption.
      * apply mesh_conforms; [exact Hok|]. intros loc k E. eapply H, OvMesh; eassumption.
    + right. destruct (ob_comps o) as [cs|] eqn:Ec.
      2:{ exfalso. eapply H, OvKind. rewrite Em, Ec. tauto. }
      exists cs. split; [reflexivity|]. split; [reflexivity|]. split.
      * intros E. destruct (N.eq_dec (ob_pid o) 0) as [C|C]; [exact C|]. exfalso. eapply H, OvCompsPID; eassumption.
      * intros c Hin. apply In_nth_error in Hin as (j & Hj). apply (comp_conforms m path o j c Hok). intros k E.
        eapply H, OvComp; eassumption.
  - intros (H1 & H2 & H3) loc k H.
    destruct H as [E|E1 E2|E|me E1 E2 E3|me a n E1 E2 E3 E4 E5|me loc k E1 E2|cs E1 E2 E3|cs j c k E1 E2 E3].
    + contradiction.
    + exact (H2 E1 E2).
    + destruct H3 as [(me & F1 & F2 & _)|(cs & F1 & F2 & _)].
      * apply E in F2. congruence.
      * apply E in F1. congruence.
    + destruct H3 as [(me' & F1 & F2 & F3 & _)|(cs & F1 & _)]; [|congruence].
      destruct (F3 E2) as [(a & Ha) _]. eapply E3; exact Ha.
    + destruct H3 as [(me' & F1 & F2 & F3 & _)|(cs & F1 & _)]; [|congruence].
      destruct (F3 E2) as [_ F]. specialize (F a n E3 E4). lia.
    + destruct H3 as [(me' & F1 & F2 & _ & F3)|(cs & F1 & _)]; [|congruence].
      assert (me' = me) as -> by congruence. eapply (proj2 (mesh_conforms m path o me Hok) F3); exact E2.
    + destruct H3 as [(me' & F1 & F2 & _)|(cs' & F1 & F2 & F3 & _)]; [congruence|].
      assert (cs' = cs) as -> by congruence. auto.
    + destruct H3 as [(me' & F1 & F2 & _)|(cs' & F1 & F2 & _ & F3)]; [congruence|].
      assert (cs' = cs) as -> by congruence. apply nth_error_In in E2 as Hin.
      eapply (proj2 (comp_conforms m path o j c Hok) (F3 c Hin)); exact E3.
Qed.

Section Exts.
  Context (loaded : string -> Prop) (Hld : forall ns, loaded ns \/ ~ loaded ns)
          (ExtError : string -> Model -> string -> VElem -> Loc -> Prop).

  Lemma elem_conforms m path el : (forall x, ~ ElemViolation ExtError m path el x) <-> ElemConforms ExtError m path el.
  Proof.
    split.
    - intros H e x He Hx. eapply H. econstructor; eassumption.
    - intros H x Hx. destruct Hx as [e x He Hx]. eapply H; eassumption.
  Qed.
  Lemma count_two (l : list N) k : 2 <= count_occ N.eq_dec l k <->
    exists i j, j < i /\ nth_error l i = Some k /\ nth_error l j = Some k.
  Proof.
    induction l as [|x l IH]; cbn [count_occ].
    - split; [lia|]. intros (i & j & _ & H & _). destruct i; discriminate.
    - destruct (N.eq_dec x k) as [->|Hn].
      + split.
        * intros H. assert (Hc : count_occ N.eq_dec l k > 0) by lia. apply count_occ_In in Hc.
          apply In_nth_error in Hc as (i & Hi). exists (S i), 0. split; [lia|]. auto.
        * intros (i & j & Hl & Hi & Hj). destruct i as [|i]; [lia|]. cbn in Hi. apply nth_error_In in Hi.
          apply (count_occ_In N.eq_dec) in Hi. lia.
      + rewrite IH. split.
        * intros (i & j & Hl & Hi & Hj). exists (S i), (S j). split; [lia|]. auto.
        * intros (i & j & Hl & Hi & Hj). destruct i as [|i]; [lia|]. destruct j as [|j]; [cbn in Hj; congruence|].
          exists i, j. split; [lia|]. auto.
  Qed.
  Lemma asset_name_total a : exists nm, AssetName a nm.
  Proof. exists (asset_local a). apply asset_local_spec. reflexivity. Qed.

  Lemma id_dup rs k : 2 <= id_count rs k <->
    (exists i j a a', j < i /\ nth_error (rs_assets rs) i = Some a /\ nth_error (rs_assets rs) j = Some a' /\
       asset_id a = k /\ asset_id a' = k) \/
    (exists i o, nth_error (rs_objects rs) i = Some o /\ ob_id o = k /\
      ((exists a, In a (rs_assets rs) /\ asset_id a = k) \/
       (exists j o', j < i /\ nth_error (rs_objects rs) j = Some o' /\ ob_id o' = k))).
  Proof.
    rewrite id_count_occ. unfold all_ids. rewrite count_two. split.
    - intros (i & j & Hl & Hi & Hj).
      assert (N : forall n, nth_error (map asset_id (rs_assets rs) ++ map ob_id (rs_objects rs)) n = Some k ->
        (n < List.length (rs_assets rs) /\ exists a, nth_error (rs_assets rs) n = Some a /\ asset_id a = k) \/
        (List.length (rs_assets rs) <= n /\ exists o, nth_error (rs_objects rs) (n - List.length (rs_assets rs)) = Some o /\ ob_id o = k)).
      { intros n Hn. destruct (Nat.lt_ge_cases n (List.length (rs_assets rs))) as [C|C].
        - rewrite nth_error_app1, nth_error_map in Hn by (rewrite map_length; exact C).
          destruct (nth_error (rs_assets rs) n) as [a|] eqn:E; [|discriminate]. injection Hn as <-. left. eauto.
        - rewrite nth_error_app2, nth_error_map, map_length in Hn by (rewrite map_length; exact C).
          destruct (nth_error (rs_objects rs) (n - List.length (rs_assets rs))) as [a|] eqn:E; [|discriminate]. injection Hn as <-. right. eauto. }
      apply N in Hi as [(Li & a & Ha & Ea)|(Li & o & Ho & Eo)];
      apply N in Hj as [(Lj & a' & Ha' & Ea')|(Lj & o' & Ho' & Eo')].
      + left. exists i, j, a, a'. auto.
      + lia.
      + right. exists (i - List.length (rs_assets rs)), o. split; [exact Ho|]. split; [exact Eo|]. left. exists a'.
        split; [eapply nth_error_In; exact Ha'|exact Ea'].
      + right. exists (i - List.length (rs_assets rs)), o. split; [exact Ho|]. split; [exact Eo|]. right.
        exists (j - List.length (rs_assets rs)), o'. split; [lia|]. auto.
    - assert (NA : forall n a, nth_error (rs_assets rs) n = Some a ->
        nth_error (map asset_id (rs_assets rs) ++ map ob_id (rs_objects rs)) n = Some (asset_id a)).
      { intros n a Hn. rewrite nth_error_app1, nth_error_map, Hn; [reflexivity|]. rewrite map_length. apply nth_error_Some. congruence. }
      assert (NO : forall n o, nth_error (rs_objects rs) n = Some o ->
        nth_error (map asset_id (rs_assets rs) ++ map ob_id (rs_objects rs)) (List.length (rs_assets rs) + n) = Some (ob_id o)).
      { intros n a Hn. rewrite nth_error_app2; rewrite map_length; [|lia].
        replace (List.length (rs_assets rs) + n - List.length (rs_assets rs)) with n by lia. rewrite nth_error_map, Hn. reflexivity. }
      intros [(i & j & a & a' & Hl & Hi & Hj & E1 & E2)|(i & o & Hi & E & [(a & Ha & E2)|(j & o' & Hl & Hj & E2)])].
      + exists i, j. apply NA in Hi, Hj. rewrite Hi, Hj. split; [exact Hl|]. split; congruence.
      + apply In_nth_error in Ha as (j & Hj). exists (List.length (rs_assets rs) + i), j.
        assert (j < List.length (rs_assets rs)) by (apply nth_error_Some; congruence).
        rewrite (NO i o Hi), (NA j a Hj). split; [lia|]. split; congruence.
      + exists (List.length (rs_assets rs) + i), (List.length (rs_assets rs) + j).
        rewrite (NO i o Hi), (NO j o' Hj). split; [lia|]. split; congruence.
  Qed.

  Lemma res_conforms m path rs : ChildsOk m ->
    (forall x, ~ ResViolation ExtError m path rs x) <-> ResConforms ExtError m path rs.
  Proof.
    intros Hok. split.
    - intros H. split; [|split; [|split]].
      + intros k Hk. destruct (le_lt_dec (id_count rs k) 1) as [C|C]; [exact C|]. exfalso.
        apply id_dup in C as [(i & j & a & a' & Hl & Hi & Hj & E1 & E2)|(i & o & Hi & E & Hd)].
        * destruct (asset_name_total a) as (nm & Hnm). eapply H, SvAssetDup; [exact Hi|exact Hnm| |exact Hl|exact Hj|]; congruence.
        * eapply H, SvObjDup; [exact Hi|congruence|]. rewrite E. exact Hd.
      + intros b Hin. apply base_conforms. intros loc k E. apply In_nth_error in Hin as (i & Hi). eapply H, SvBase; eassumption.
      + intros a Hin. apply elem_conforms. intros [[loc q] k] E. apply In_nth_error in Hin as (i & Hi).
        destruct (asset_name_total a) as (nm & Hnm). eapply H, SvAssetExt; eassumption.
      + intros o Hin. apply In_nth_error in Hin as (i & Hi). split.
        * apply obj_conforms; [exact Hok|]. intros loc k E. eapply H, SvObj; eassumption.
        * apply elem_conforms. intros [[loc q] k] E. eapply H, SvObjExt; eassumption.
    - intros (H1 & H2 & H3 & H4) x H.
      destruct H as [i a nm j a' Hi Hnm E1 Hl Hj E2|i b loc k Hi E|i a nm loc q k Hi Hnm E|i o Hi E1 E2|i o loc k Hi E|i o loc q k Hi E].
      + assert (C : 2 <= id_count rs (asset_id a)) by (apply id_dup; left; exists i, j, a, a'; auto).
        specialize (H1 _ E1). lia.
      + eapply (proj2 (base_conforms b)); [|exact E]. apply H2. eapply nth_error_In; exact Hi.
      + eapply (proj2 (elem_conforms m path (VAsset a))); [|exact E]. apply H3. eapply nth_error_In; exact Hi.
      + assert (C : 2 <= id_count rs (ob_id o)) by (apply id_dup; right; exists i, o; auto).
        specialize (H1 _ E1). lia.
      + eapply (proj2 (obj_conforms m path o Hok)); [|exact E]. apply H4. eapply nth_error_In; exact Hi.
      + eapply (proj2 (elem_conforms m path (VObject o))); [|exact E]. apply H4. eapply nth_error_In; exact Hi.
  Qed.

  Lemma item_conforms m it : ChildsOk m -> (forall loc k, ~ ItemViolation m it loc k) <-> ItemConforms m it.
  Proof.
    intros Hok. assert (Hp : CarriedPath (it_any it) (any_path (it_any it))) by (apply any_path_spec; reflexivity). split.
    - intros H. assert (Hz : it_oid it <> 0%N) by (intros E; eapply H, IvID; exact E). split; [exact Hz|]. split.
      + destruct (obj_dec m (any_path (it_any it)) (it_oid it) Hok) as [(o & Ho)|D]; [|exfalso; eapply H, IvMissing; eassumption].
        exists (any_path (it_any it)), o. split; [exact Hp|]. split; [exact Ho|]. intros E. eapply H, IvOther; eassumption.
      + apply meta_conforms. intros i k E. eapply H, IvMeta; exact E.
    - intros (Hz & (q & o & H1 & H2 & H3) & H4) loc k H. apply any_path_spec in H1 as <-.
      destruct H as [E|q E1 E2 E3|q o' E1 E2 E3 E4|i k E]; [contradiction| | |].
      + apply any_path_spec in E2 as <-. eapply E3; exact H2.
      + apply any_path_spec in E2 as <-. apply obj_in in H2, E3; [|exact Hok..]. assert (o' = o) as -> by congruence. contradiction.
      + eapply (proj2 (meta_conforms m (mg_list (it_md it))) H4); exact E.
  Qed.

  Lemma no_violation_conforms m : ChildsOk m ->
    (forall x, ~ Violation loaded ExtError m x) <-> Conforms loaded ExtError m.
  Proof.
    intros Hok. split.
    - intros H. split; [|split; [|split; [|split; [|split; [|split; [|split]]]]]].
      + intros e He Hr. destruct (Hld (ex_ns e)) as [D|D]; [exact D|]. exfalso. eapply H, VRequired; eassumption.
      + apply rels_conform. intros i k E. eapply H, VRootRel; exact E.
      + apply rels_conform. intros i k E. eapply H, VRel; exact E.
      + apply meta_conforms. intros i k E. eapply H, VMeta; exact E.
      + apply elem_conforms. intros [[loc q] k] E. eapply H, VExt; exact E.
      + apply res_conforms; [exact Hok|]. intros [[loc q] k] E. eapply H, VRes; exact E.
      + intros p c Hc. assert (Hn : p <> root_path m) by (intros ->; eapply H, VSamePath; exact Hc).
        split; [exact Hn|]. split.
        * apply rels_conform. intros i k E. eapply H, VChildRel; eassumption.
        * apply res_conforms; [exact Hok|]. intros [[loc q] k] E. eapply H, VChildRes; eassumption.
      + intros it Hin. apply In_nth_error in Hin as (i & Hi). apply item_conforms; [exact Hok|].
        intros loc k E. eapply H, VItem; eassumption.
    - intros (H1 & H2 & H3 & H4 & H5 & H6 & H7 & H8) x H.
      destruct H as [i k E|e He E1 E2|c E|p c i k Hc Hn E|i k E|i k E|loc q k E|p c loc q k Hc E|loc q k E|i it loc k Hi E].
      + eapply (proj2 (rels_conform _ _) H2); exact E.
      + auto.
      + apply H7 in E as [E _]. contradiction.
      + apply H7 in Hc as (_ & C & _). eapply (proj2 (rels_conform _ _) C); exact E.
      + eapply (proj2 (rels_conform _ _) H3); exact E.
      + eapply (proj2 (meta_conforms _ _) H4); exact E.
      + eapply (proj2 (elem_conforms _ _ _) H5); exact E.
      + apply H7 in Hc as (_ & _ & C). eapply (proj2 (res_conforms _ _ _ Hok) C); exact E.
      + eapply (proj2 (res_conforms _ _ _ Hok) H6); exact E.
      + apply nth_error_In, H8 in Hi. eapply (proj2 (item_conforms _ _ Hok) Hi); exact E.
  Qed.
End Exts.
