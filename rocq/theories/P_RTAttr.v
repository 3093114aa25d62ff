(** * Proofs: attributes of extensions, written and read; which operations print *)
From Coq Require Import ZArith.
From Verif Require Import GoBase GoNum GoUtf8 GoFloat Types XmlTypes M_Core M_Errors M_Text M_Xml M_Decode M_Printer M_Encode
  S_Xml S_Printer S_Text S_Core S_Strconv S_RoundTrip P_Xml P_Text P_Core P_Strconv P_RTBase P_RTText GoStrconv.
Definition knows (reg : Reg) (ns : string) : Prop := load reg ns <> None.

Lemma name_ok s : nonempty s && sall (fun c => in_name c && negb (ceq c ":")) s = true -> NameStr s.
Proof.
  intros H. apply andb_true_iff in H as [H1 H2]. split; [intros ->; discriminate|]. intros c Hc. rewrite sall_forall in H2. specialize (H2 c Hc).
  apply andb_true_iff in H2 as [H2 H3]. split; [apply in_name_spec, H2|]. intros ->. discriminate.
Qed.
Section Attr.
  Context (reg : Reg) (e : Env).
  Notation known := (knows reg).
  Lemma load_prod : known ns_production -> load reg ns_production = Some SpProd.
  Proof. intros H. unfold knows, load in *. vm_compute in H. vm_compute. destruct reg as [[] [] [] []]; congruence. Qed.
  Lemma load_slices : known ns_slices -> load reg ns_slices = Some SpSlices.
  Proof. intros H. unfold knows, load in *. vm_compute in H. vm_compute. destruct reg as [[] [] [] []]; congruence. Qed.
  Lemma load_mat : known ns_materials -> load reg ns_materials = Some SpMat.
  Proof. intros H. unfold knows, load in *. vm_compute in H. vm_compute. destruct reg as [[] [] [] []]; congruence. Qed.
  Lemma load_beam : known ns_beam -> load reg ns_beam = Some SpBeam.
  Proof. intros H. unfold knows, load in *. vm_compute in H. vm_compute. destruct reg as [[] [] [] []]; congruence. Qed.
  Lemma load_unknown ns : ~ known ns -> load reg ns = None.
  Proof. unfold knows. destruct (load reg ns); [intros H; exfalso; apply H; discriminate|reflexivity]. Qed.
  Lemma group_space g : group_ns g = space_of g.
  Proof. destruct g; reflexivity. Qed.

  (** One group is read back *)
  Lemma any_new parent any a g g' : ~ In (nspace (aname a)) (map space_of any) -> new_attr_group reg (nspace (aname a)) parent = Some g ->
    unmarshal_attr g a = (g', None) -> any_attr reg parent any a = Some (any ++ [g'], None).
  Proof.
    intros NI N U. induction any as [|h any IH]; cbn [any_attr app].
    - rewrite N, U. reflexivity.
    - cbn [map] in NI. rewrite group_space. destruct (seq_spec (space_of h) (nspace (aname a))) as [E|_]; [exfalso; apply NI; left; exact E|].
      rewrite IH; [reflexivity|]. intros H. apply NI. right. exact H.
  Qed.
  Lemma any_old parent any a g g' : ~ In (nspace (aname a)) (map space_of any) -> space_of g = nspace (aname a) ->
    unmarshal_attr g a = (g', None) -> any_attr reg parent (any ++ [g]) a = Some (any ++ [g'], None).
  Proof.
    intros NI N U. induction any as [|h any IH]; cbn [any_attr app].
    - rewrite group_space, N, seq_refl, U. reflexivity.
    - cbn [map] in NI. rewrite group_space. destruct (seq_spec (space_of h) (nspace (aname a))) as [E|_]; [exfalso; apply NI; left; exact E|].
      rewrite IH; [reflexivity|]. intros H. apply NI. right. exact H.
  Qed.
  Lemma unknown_more parent any sp attrs : forall done, ~ In sp (map space_of any) -> Forall (fun a => nspace (aname a) = sp) attrs ->
    AL (any_attr reg parent) (any ++ [GUnknown sp done]) attrs (any ++ [GUnknown sp (done ++ attrs)]).
  Proof.
    induction attrs as [|a attrs IH]; intros done NI F; [rewrite app_nil_r; apply al_nil|]. apply Forall_cons_iff in F as [Fa F].
    eapply al_cons; [apply (any_old _ _ _ (GUnknown sp done) (GUnknown sp (done ++ [a]))); [rewrite Fa; exact NI|cbn; congruence|reflexivity]|].
    replace (done ++ a :: attrs) with ((done ++ [a]) ++ attrs) by (rewrite <- app_assoc; reflexivity). apply IH; assumption.
  Qed.
  Lemma group_read sk parent any g : GroupFits e known sk parent g -> ~ In (space_of g) (map space_of any) ->
    AL (any_attr reg parent) any (concat (group_appends g)) (any ++ [g]).
  Proof.
    intros F NI. destruct g as [sp attrs|u|u|u q|u q|id r]; cbn [GroupFits space_of group_appends] in *.
    - destruct F as (NE & Nsp & Hk & F). cbn [concat]. rewrite app_nil_r. destruct attrs as [|a attrs]; [congruence|]. apply Forall_cons_iff in F as [[Fa _] F].
      eapply al_cons.
      + apply (any_new _ _ _ (GUnknown sp []) (GUnknown sp [a])); [rewrite Fa; exact NI| |reflexivity]. unfold new_attr_group. rewrite Fa, load_unknown by exact Hk. reflexivity.
      + apply (unknown_more parent any sp attrs [a] NI). eapply Forall_impl; [|exact F]. intros x [H _]. exact H.
    - destruct F as ((-> & K & _) & U & _). cbn [concat app]. eapply al_cons; [|apply al_nil].
      apply (any_new _ _ _ (GBuild "")); [exact NI|cbn [nspace aname]; unfold new_attr_group; rewrite load_prod by exact K; reflexivity|].
      cbn. apply uuid_validate_spec in U. rewrite U. reflexivity.
    - destruct F as ((-> & K & _) & U & _). cbn [concat app]. eapply al_cons; [|apply al_nil].
      apply (any_new _ _ _ (GObj "")); [exact NI|cbn [nspace aname]; unfold new_attr_group; rewrite load_prod by exact K; reflexivity|].
      cbn. apply uuid_validate_spec in U. rewrite U. reflexivity.
    - destruct F as ((-> & K & _) & (U & _) & _). apply uuid_validate_spec in U.
      assert (NG : new_attr_group reg ns_production "item" = Some (GItem "" "")) by (unfold new_attr_group; rewrite load_prod by exact K; reflexivity).
      unfold nonempty. destruct (seq_spec q "") as [->|Nq]; cbn [negb concat app].
      + eapply al_cons; [|apply al_nil]. apply (any_new _ _ _ (GItem "" "")); [exact NI|exact NG|]. cbn. rewrite U. reflexivity.
      + eapply al_cons; [apply (any_new _ _ _ (GItem "" "") (GItem "" q)); [exact NI|exact NG|reflexivity]|].
        eapply al_cons; [|apply al_nil]. apply (any_old _ _ _ (GItem "" q)); [exact NI|reflexivity|]. cbn. rewrite U. reflexivity.
    - destruct F as ((-> & K & _) & (U & _) & _). apply uuid_validate_spec in U.
      assert (NG : new_attr_group reg ns_production "component" = Some (GComp "" "")) by (unfold new_attr_group; rewrite load_prod by exact K; reflexivity).
      unfold nonempty. destruct (seq_spec q "") as [->|Nq]; cbn [negb concat app].
      + eapply al_cons; [|apply al_nil]. apply (any_new _ _ _ (GComp "" "")); [exact NI|exact NG|]. cbn. rewrite U. reflexivity.
      + eapply al_cons; [apply (any_new _ _ _ (GComp "" "") (GComp "" q)); [exact NI|exact NG|reflexivity]|].
        eapply al_cons; [|apply al_nil]. apply (any_old _ _ _ (GComp "" q)); [exact NI|reflexivity|]. cbn. rewrite U. reflexivity.
    - destruct F as (-> & K & _ & Hid & Hr). cbn [concat app].
      assert (NG : new_attr_group reg ns_slices "object" = Some (GSlice 0 0)) by (unfold new_attr_group; rewrite load_slices by exact K; reflexivity).
      eapply al_cons; [apply (any_new _ _ _ (GSlice 0 0) (GSlice id 0)); [exact NI|exact NG|]|].
      { cbn [unmarshal_attr aname nlocal avalue]. change (seq "slicestackid" "slicestackid") with true. rewrite parse_u32_dec by exact Hid. reflexivity. }
      eapply al_cons; [|apply al_nil]. apply (any_old _ _ _ (GSlice id 0)); [exact NI|reflexivity|].
      cbn [unmarshal_attr aname nlocal avalue]. change (seq "meshresolution" "slicestackid") with false. change (seq "meshresolution" "meshresolution") with true.
      rewrite (proj1 (res_read r Hr)). reflexivity.
  Qed.
  Lemma any_read sk parent any : AnyFits e known sk parent any -> AL (any_attr reg parent) [] (any_attrs any) any.
  Proof.
    intros [F ND]. assert (G : forall any done, Forall (GroupFits e known sk parent) any -> NoDup (map space_of (done ++ any)) ->
      AL (any_attr reg parent) done (any_attrs any) (done ++ any)).
    { clear. induction any as [|g any IH]; intros done F ND; [rewrite app_nil_r; apply al_nil|]. apply Forall_cons_iff in F as [Fg F].
      unfold any_attrs, any_appends. cbn [flat_map]. rewrite concat_app. eapply al_app.
      - apply (group_read sk parent done g Fg). rewrite map_app in ND. cbn [map] in ND. apply NoDup_remove_2 in ND. intros H. apply ND. apply in_or_app. left. exact H.
      - replace (done ++ g :: any) with ((done ++ [g]) ++ any) in * by (rewrite <- app_assoc; reflexivity). apply IH; assumption. }
    apply (G any []); assumption.
  Qed.
  (** The attributes of a group are those of its namespace *)
  Lemma any_spaces sk parent any : AnyFits e known sk parent any ->
    Forall (fun a => In (nspace (aname a)) (map space_of any) /\ nspace (aname a) <> "" /\ AttrFits e sk a) (any_attrs any).
  Proof.
    intros [F _]. apply Forall_forall. intros a Ha. unfold any_attrs, any_appends in Ha. apply in_concat in Ha as (l & Hl & Ha).
    apply in_flat_map in Hl as (g & Hg & Hl). rewrite Forall_forall in F. specialize (F g Hg).
    assert (X : nspace (aname a) = space_of g /\ nspace (aname a) <> "" /\ AttrFits e sk a).
    2: { destruct X as (-> & X). split; [apply in_map, Hg|]. exact X. }
    clear Hg. assert (NU : NameStr "UUID" /\ NameStr "path" /\ NameStr "slicestackid" /\ NameStr "meshresolution").
    { split; [|split; [|split]]; apply name_ok; reflexivity. }
    destruct NU as (N1 & N2 & N3 & N4).
    destruct g as [sp attrs|u|u|u q|u q|id r]; cbn [GroupFits space_of group_appends] in *.
    - destruct F as (NE & Nsp & Hk & F). destruct Hl as [<-|[]]. rewrite Forall_forall in F. destruct (F a Ha) as [E X]. rewrite E. auto.
    - destruct F as ((_ & _ & D) & _ & W). destruct Hl as [<-|[]]. destruct Ha as [<-|[]]. cbn. split; [reflexivity|]. split; [discriminate|]. split; [exact N1|]. split; [right; right; exact D|exact W].
    - destruct F as ((_ & _ & D) & _ & W). destruct Hl as [<-|[]]. destruct Ha as [<-|[]]. cbn. split; [reflexivity|]. split; [discriminate|]. split; [exact N1|]. split; [right; right; exact D|exact W].
    - destruct F as ((_ & _ & D) & (_ & W) & W2). apply in_app_or in Hl. destruct Hl as [Hl|Hl].
      + destruct (nonempty q); [|destruct Hl]. destruct Hl as [<-|[]]. destruct Ha as [<-|[]]. split; [reflexivity|]. split; [discriminate|]. split; [exact N2|]. split; [right; right; exact D|exact W2].
      + destruct Hl as [<-|[]]. destruct Ha as [<-|[]]. split; [reflexivity|]. split; [discriminate|]. split; [exact N1|]. split; [right; right; exact D|exact W].
    - destruct F as ((_ & _ & D) & (_ & W) & W2). apply in_app_or in Hl. destruct Hl as [Hl|Hl].
      + destruct (nonempty q); [|destruct Hl]. destruct Hl as [<-|[]]. destruct Ha as [<-|[]]. split; [reflexivity|]. split; [discriminate|]. split; [exact N2|]. split; [right; right; exact D|exact W2].
      + destruct Hl as [<-|[]]. destruct Ha as [<-|[]]. split; [reflexivity|]. split; [discriminate|]. split; [exact N1|]. split; [right; right; exact D|exact W].
    - destruct F as (_ & _ & D & Hid & Hr). destruct Hl as [<-|[]]. destruct Ha as [<-|[<-|[]]]; (split; [reflexivity|]; split; [discriminate|]).
      + split; [exact N3|]. split; [right; right; exact D|]. apply safe_writable, safe_dec.
      + split; [exact N4|]. split; [right; right; exact D|]. apply safe_writable, res_read, Hr.
  Qed.
  Lemma any_fit sk parent any : AnyFits e known sk parent any -> Forall (AttrFits e sk) (any_attrs any).
  Proof. intros H. eapply Forall_impl; [|apply (any_spaces sk parent any H)]. intros a (_ & _ & X). exact X. Qed.
  Lemma any_space sk parent any : AnyFits e known sk parent any -> Forall (fun a => nspace (aname a) <> "") (any_attrs any).
  Proof. intros H. eapply Forall_impl; [|apply (any_spaces sk parent any H)]. intros a (_ & X & _). exact X. Qed.
  (** The same in a loop that keeps the groups in a larger record *)
  Lemma al_lens {A} (f : A -> Attr -> option (A * error)) (get : A -> AnyAttr) (set : AnyAttr -> A -> A) (cond : Attr -> Prop) parent :
    (forall x a any, cond a -> any_attr reg parent (get x) a = Some (any, None) -> f x a = Some (set any x, None)) ->
    (forall any x, get (set any x) = any) -> (forall any any' x, set any (set any' x) = set any x) -> (forall x, set (get x) x = x) ->
    forall l x any, Forall cond l -> AL (any_attr reg parent) (get x) l any -> AL f x l (set any x).
  Proof.
    intros H1 H2 H3 H4. induction l as [|a l IH]; intros x any F H.
    - unfold AL in *. cbn in *. injection H as <-. rewrite H4. reflexivity.
    - apply Forall_cons_iff in F as [Fa F]. unfold AL in H. cbn [attrs_loop] in H. destruct (any_attr reg parent (get x) a) as [[any1 er]|] eqn:E; [|discriminate].
      assert (er = None) as ->. { apply al_none in H. destruct er as [[]|]; cbn in H; try discriminate. reflexivity. }
      eapply al_cons; [apply (H1 x a any1 Fa E)|]. rewrite <- (H3 any any1 x). apply IH; [exact F|]. rewrite H2. exact H.
  Qed.
End Attr.

(** ** Operations that print *)
Section Emit.
  Context (e : Env).
  (** The operations keep the modes and the open elements *)
  Definition Prints (au sk : bool) (ops : list op) : Prop :=
    forall m o rest ts, Emits e au sk (m :: o) rest ts -> exists ts', Emits e au sk (m :: o) (ops ++ rest) ts'.
  Lemma pr_nil au sk : Prints au sk [].
  Proof. intros m o rest ts H. eauto. Qed.
  Lemma pr_app au sk a b : Prints au sk a -> Prints au sk b -> Prints au sk (a ++ b).
  Proof. intros Ha Hb m o rest ts H. rewrite <- app_assoc. destruct (Hb m o rest ts H) as (ts1 & H1). apply (Ha m o _ ts1 H1). Qed.
  Lemma pr_element sk n a inner : TagFits e n -> Forall (AttrFits e sk) a -> Prints false sk inner -> Prints false sk (element n a inner).
  Proof.
    intros T F H m o rest ts E. unfold element. cbn [app]. rewrite <- app_assoc.
    destruct (H n (m :: o) ([end_op n] ++ rest) (TEnd n :: ts)) as (ts' & E'); [apply EmEnd, E|]. eexists. apply EmStart; eassumption.
  Qed.
  Lemma pr_empty sk n a : TagFits e n -> Forall (AttrFits e sk) a -> Prints true sk [start_op n a].
  Proof. intros T F m o rest ts E. eexists. apply EmEmpty; eassumption. Qed.
  Lemma pr_auto sk ops : Prints true sk ops -> Prints false sk (auto ops).
  Proof.
    intros H m o rest ts E. unfold auto. cbn [app]. rewrite <- app_assoc. destruct (H m o ([OpAuto false] ++ rest) ts) as (ts' & E'); [apply EmAuto, E|].
    eexists. apply EmAuto, E'.
  Qed.
  Lemma pr_auto_skip ops : Prints true true ops -> Prints false false (auto_skip ops).
  Proof.
    intros H m o rest ts E. unfold auto_skip. cbn [app]. rewrite <- app_assoc. destruct (H m o ([OpSkip false; OpAuto false] ++ rest) ts) as (ts' & E'); [apply EmSkip, EmAuto, E|].
    eexists. apply EmAuto, EmSkip, E'.
  Qed.
  Lemma pr_skip au ops : Prints au true ops -> Prints au false (OpSkip true :: ops ++ [OpSkip false]).
  Proof.
    intros H m o rest ts E. cbn [app]. rewrite <- app_assoc. destruct (H m o ([OpSkip false] ++ rest) ts) as (ts' & E'); [apply EmSkip, E|].
    eexists. apply EmSkip, E'.
  Qed.
  Lemma pr_manual sk ops : Prints false sk ops -> Prints true sk (OpAuto false :: ops ++ [OpAuto true]).
  Proof.
    intros H m o rest ts E. cbn [app]. rewrite <- app_assoc. destruct (H m o ([OpAuto true] ++ rest) ts) as (ts' & E'); [apply EmAuto, E|].
    eexists. apply EmAuto, E'.
  Qed.
  Lemma pr_rel au sk r : Prints au sk [OpRel r].
  Proof. intros m o rest ts E. eexists. apply EmRel, E. Qed.
  Lemma pr_char sk s : XmlText s -> Prints false sk [OpTok (TChar s)].
  Proof. intros X m o rest ts E. eexists. apply EmChar; eassumption. Qed.
  Lemma pr_list {A} au sk (f : A -> list op) l : Forall (fun x => Prints au sk (f x)) l -> Prints au sk (flat_map f l).
  Proof. induction 1 as [|x l H Hl IH]; cbn [flat_map]; [apply pr_nil|apply pr_app; assumption]. Qed.
  Lemma pr_map {A} au sk (f : A -> op) l : Forall (fun x => Prints au sk [f x]) l -> Prints au sk (map f l).
  Proof. induction 1 as [|x l H Hl IH]; cbn [map]; [apply pr_nil|apply (pr_app _ _ [f x]); assumption]. Qed.
  Lemma pr_inside n l : Inside e n l -> Prints false false (write_tokens l).
  Proof.
    induction 1 as [|m a l r Nm Sm T F Hl IHl Hr IHr]; [apply pr_nil|]. intros m' o rest ts E. unfold write_tokens in *. cbn [map app]. rewrite map_app. cbn [map].
    rewrite <- app_assoc. destruct (IHr m' o rest ts E) as (ts1 & E1). destruct (IHl m (m' :: o) (OpTok (TEnd m) :: map OpTok r ++ rest) (TEnd m :: ts1)) as (ts2 & E2); [apply EmEnd, E1|].
    eexists. apply EmStart; eassumption.
  Qed.
  Lemma pr_tokens n a l : TagFits e n -> Forall (AttrFits e false) a -> Inside e n l -> Prints false false (write_tokens (TStart n a :: l ++ [TEnd n])).
  Proof.
    intros T F H m o rest ts E. unfold write_tokens. cbn [map app]. rewrite map_app, <- app_assoc.
    destruct (pr_inside n l H n (m :: o) (map OpTok [TEnd n] ++ rest) (TEnd n :: ts)) as (ts' & E'); [apply EmEnd, E|]. eexists. apply EmStart; eassumption.
  Qed.
End Emit.
