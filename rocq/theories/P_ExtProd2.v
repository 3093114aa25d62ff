From Coq Require Import Permutation.
From Verif Require Import GoBase GoFloat Types M_Core S_Core P_Core M_Errors S_Errors P_Errors M_Text S_Text P_Text
  M_Geom S_Geom P_Geom P_Coherency M_Validate S_Validate P_Validate P_Validate2 P_Validate3
  M_ExtValidate S_ExtValidate P_ExtMat S_ExtProd P_ExtProd.

Lemma uuid_of_group k l : uuid_of k l = match get_group k l with Some (u, _) => u | None => "" end.
Proof.
  induction l as [|g l IH]; [destruct k; reflexivity|]. rewrite get_group_cons.
  destruct k, g; cbn [uuid_of is_group]; auto.
Qed.
Lemma get_group_app k l g : get_group k l = None -> get_group k (l ++ [g]) = is_group k g.
Proof.
  induction l as [|x l IH]; cbn [app].
  - intros _. rewrite get_group_cons. destruct (is_group k g) as [[]|]; [reflexivity|destruct k; reflexivity].
  - rewrite !get_group_cons. destruct (is_group k x) as [[]|]; [discriminate|exact IH].
Qed.

Section Drawing.
  Variable fresh : nat -> string.
  Let New (u : string) : Prop := exists n, u = fresh n.

  (** [Draw n n' l l']: the UUIDs [l'] are [l] where the empty ones were replaced by the
      values number [n] to [n' - 1]. *)
  Inductive Draw : nat -> nat -> list string -> list string -> Prop :=
  | DNil n : Draw n n [] []
  | DOld n n' u l l' : u <> "" -> Draw n n' l l' -> Draw n n' (u :: l) (u :: l')
  | DNew n n' l l' : Draw (S n) n' l l' -> Draw n n' ("" :: l) (fresh n :: l').
  Lemma draw_app n1 n2 n3 a a' b b' : Draw n1 n2 a a' -> Draw n2 n3 b b' -> Draw n1 n3 (a ++ b) (a' ++ b').
  Proof. induction 1; intros H'; cbn; [exact H'|constructor; auto|constructor; auto]. Qed.
  Lemma draw_le n n' l l' : Draw n n' l l' -> n <= n'.
  Proof. induction 1; lia. Qed.
  Lemma draw_in n n' l l' : Draw n n' l l' -> forall u, In u l' -> (In u l /\ u <> "") \/ exists k, n <= k < n' /\ u = fresh k.
  Proof.
    induction 1 as [n|n n' u l l' Hu _ IH|n n' l l' H IH]; intros x Hx; [destruct Hx| |].
    - destruct Hx as [<-|Hx]; [left; split; [left; reflexivity|exact Hu]|].
      destruct (IH _ Hx) as [[H1 H2]|H1]; [left; split; [right; exact H1|exact H2]|auto].
    - apply draw_le in H. destruct Hx as [<-|Hx]; [right; exists n; split; [lia|reflexivity]|].
      destruct (IH _ Hx) as [[H1 H2]|(k & Hk & ->)]; [left; split; [right; exact H1|exact H2]|]. right. exists k. split; [lia|reflexivity].
  Qed.
  Lemma draw_nodup n n' l l' : Draw n n' l l' -> (forall i j, fresh i = fresh j -> i = j) ->
    (forall k, ~ In (fresh k) l) -> NoDup (filter (fun u => negb (seq u "")) l) -> NoDup l'.
  Proof.
    intros H Hinj. induction H as [n|n n' u l l' Hu H IH|n n' l l' H IH]; intros Hf Hd; [constructor| |].
    - cbn [filter] in Hd. destruct (seq_spec u "") as [E|E]; [contradiction|]. cbn [negb] in Hd. inversion Hd as [|? ? Hn Hd']; subst.
      constructor; [|apply IH; [intros k Hk; apply (Hf k); right; exact Hk|exact Hd']].
      intros Hin. apply (draw_in _ _ _ _ H) in Hin as [[H1 _]|(k & _ & ->)].
      + apply Hn. apply filter_In. split; [exact H1|]. destruct (seq_spec u ""); [contradiction|reflexivity].
      + apply (Hf k). left. reflexivity.
    - cbn [filter seq] in Hd. constructor; [|apply IH; [intros k Hk; apply (Hf k); right; exact Hk|exact Hd]].
      intros Hin. apply (draw_in _ _ _ _ H) in Hin as [[H1 _]|(k & Hk & E)].
      + apply (Hf n). right. exact H1.
      + apply Hinj in E. lia.
  Qed.

  (** One list of attributes. *)
  Definition fill (k : ProdKind) (u : string) (l : AnyAttr) : AnyAttr :=
    match k with KItem => fill_item u l | KObject => fill_obj u l | KComponent => fill_comp u l | KBuild => l end.
  Lemma fill_spec k u a p b : k <> KBuild -> PathOk k p -> NoGroup k a ->
    fill k u (a ++ prod_group k "" p :: b) = a ++ prod_group k u p :: b.
  Proof.
    intros Hk Hp. induction a as [|g a IH]; intros Ha; cbn [app].
    - destruct k; try reflexivity. contradiction.
    - apply no_group_cons in Ha as [Hg Ha]. specialize (IH Ha).
      destruct k, g; cbn in *; try discriminate; try (rewrite IH; reflexivity); contradiction.
  Qed.
  Definition complete (k : ProdKind) (n : nat) (l : AnyAttr) : nat * AnyAttr :=
    match get_group k l with
    | None => (S n, l ++ [prod_group k (fresh n) ""])
    | Some (u, _) => if seq u "" then (S n, fill k (fresh n) l) else (n, l)
    end.
  Lemma complete_spec k n l n' l' : k <> KBuild -> complete k n l = (n', l') ->
    Completed New k l l' /\ Draw n n' [uuid_of k l] [uuid_of k l'].
  Proof.
    intros Hk. unfold complete. rewrite !uuid_of_group. destruct (get_group k l) as [[u p]|] eqn:G.
    - destruct (seq_spec u "") as [->|Hu]; intros H; injection H as <- <-.
      + apply get_group_spec in G as (Hp & a & b & -> & Ha). rewrite fill_spec by assumption.
        assert (G : get_group k (a ++ prod_group k (fresh n) p :: b) = Some (fresh n, p)).
        { apply get_group_spec. split; [exact Hp|]. eauto. }
        rewrite G. split; [apply CmFilled; [exact Hp|exact Ha|exists n; reflexivity]|]. repeat constructor.
      + rewrite G. split; [eapply CmKept; [apply get_group_spec; exact G|exact Hu]|]. repeat constructor. exact Hu.
    - intros H; injection H as <- <-. rewrite get_group_app by exact G.
      assert (E : is_group k (prod_group k (fresh n) "") = Some (fresh n, "")).
      { apply is_group_some. split; [destruct k; reflexivity || exact I|reflexivity]. }
      rewrite E. split; [apply CmAdded; [apply get_group_none; exact G|exists n; reflexivity]|]. repeat constructor.
  Qed.
  Lemma set_item_spec n it n' it' : set_item fresh n it = (n', it') ->
    ItemCompleted New it it' /\ Draw n n' [uuid_of KItem (it_any it)] [uuid_of KItem (it_any it')].
  Proof.
    intros H. assert (E : complete KItem n (it_any it) = (n', it_any it') /\ it' = mkItem (it_oid it) (it_tr it) (it_part it) (it_md it) (it_any it')).
    { unfold complete, set_item in *. cbn [get_group prod_group fill]. destruct (get_item_attr (it_any it)) as [[u p]|].
      - destruct (seq u ""); injection H as <- <-; cbn; auto. split; [reflexivity|]. destruct it; reflexivity.
      - injection H as <- <-. cbn. auto. }
    destruct E as [E ->]. cbn [it_any]. apply complete_spec in E as [E1 E2]; [|discriminate]. split; [constructor; exact E1|exact E2].
  Qed.
  Lemma set_comp_spec n c n' c' : set_comp fresh n c = (n', c') ->
    CompCompleted New c c' /\ Draw n n' [uuid_of KComponent (co_any c)] [uuid_of KComponent (co_any c')].
  Proof.
    intros H. assert (E : complete KComponent n (co_any c) = (n', co_any c') /\ c' = mkComp (co_oid c) (co_tr c) (co_any c')).
    { unfold complete, set_comp in *. cbn [get_group prod_group fill]. destruct (get_comp_attr (co_any c)) as [[u p]|].
      - destruct (seq u ""); injection H as <- <-; cbn; auto. split; [reflexivity|]. destruct c; reflexivity.
      - injection H as <- <-. cbn. auto. }
    destruct E as [E ->]. cbn [co_any]. apply complete_spec in E as [E1 E2]; [|discriminate]. split; [constructor; exact E1|exact E2].
  Qed.
  Lemma pairwise_cons {A} (R : A -> A -> Prop) x y l l' : R x y -> Pairwise R l l' -> Pairwise R (x :: l) (y :: l').
  Proof.
    intros H [H1 H2]. split; [cbn; congruence|]. intros [|i] a b Ha Hb; cbn in *; [congruence|eauto].
  Qed.
  Lemma set_list_spec {A} (f : nat -> A -> nat * A) (R : A -> A -> Prop) (ids : A -> list string) :
    (forall n x n' x', f n x = (n', x') -> R x x' /\ Draw n n' (ids x) (ids x')) ->
    forall l n n' l', set_list f n l = (n', l') -> Pairwise R l l' /\ Draw n n' (flat_map ids l) (flat_map ids l').
  Proof.
    intros Hf. induction l as [|x l IH]; intros n n' l'; cbn [set_list].
    - intros H; injection H as <- <-. split; [split; [reflexivity|intros [|i]; discriminate]|constructor].
    - destruct (f n x) as [n1 x1] eqn:E. destruct (set_list f n1 l) as [n2 l2] eqn:E2. intros H; injection H as <- <-.
      apply Hf in E as [R1 D1]. apply IH in E2 as [R2 D2]. split; [apply pairwise_cons; assumption|]. cbn [flat_map]. eapply draw_app; eassumption.
  Qed.
  Lemma flat_single {A B} (f : A -> B) l : flat_map (fun x => [f x]) l = map f l.
  Proof. induction l as [|x l IH]; cbn; congruence. Qed.
  Lemma set_object_spec n o n' o' : set_object fresh n o = (n', o') ->
    ObjCompleted New o o' /\ Draw n n' (object_uuids o) (object_uuids o').
  Proof.
    unfold set_object.
    destruct (match get_object_attr (ob_any o) with
              | None => (S n, ob_any o ++ [GObj (fresh n)])
              | Some u => if seq u "" then (S n, fill_obj (fresh n) (ob_any o)) else (n, ob_any o)
              end) as [n1 any] eqn:E.
    assert (E1 : complete KObject n (ob_any o) = (n1, any)).
    { unfold complete. cbn [get_group prod_group fill]. destruct (get_object_attr (ob_any o)); exact E. }
    clear E. apply complete_spec in E1 as [E1 D1]; [|discriminate].
    destruct (ob_comps o) as [cs|] eqn:Ec.
    - destruct (set_list (set_comp fresh) n1 (cs_list cs)) as [n2 l] eqn:E2. intros H; injection H as <- <-.
      apply (set_list_spec (set_comp fresh) (CompCompleted New) (fun c => [uuid_of KComponent (co_any c)]) set_comp_spec) in E2 as [E2 D2].
      rewrite !flat_single in D2. split.
      + apply ObC; [exact E1|]. rewrite Ec. destruct cs as [cl ca]. apply CsSome. exact E2.
      + unfold object_uuids, Comps. cbn [ob_any ob_comps cs_list]. rewrite Ec. exact (draw_app _ _ _ _ _ _ _ D1 D2).
    - intros H; injection H as <- <-. split.
      + apply ObC; [exact E1|]. rewrite Ec. constructor.
      + unfold object_uuids, Comps. cbn [ob_any ob_comps]. rewrite Ec. exact D1.
  Qed.
  Lemma set_res_spec n rs n' rs' : set_res fresh n rs = (n', rs') ->
    ResCompleted New rs rs' /\ Draw n n' (part_uuids rs) (part_uuids rs').
  Proof.
    unfold set_res. destruct (set_list (set_object fresh) n (rs_objects rs)) as [n1 l] eqn:E. intros H; injection H as <- <-.
    apply (set_list_spec (set_object fresh) (ObjCompleted New) object_uuids set_object_spec) in E as [E D]. split; [constructor; exact E|exact D].
  Qed.
  Definition ids_at (cs : list (string * Child)) (p : string) : list string :=
    match aget seq p cs with Some c => part_uuids (ch_res c) | None => [] end.
  Lemma aset_keys {V} p (v : V) cs q : In q (map fst (aset seq p v cs)) <-> q = p \/ In q (map fst cs).
  Proof.
    unfold aset. cbn [map fst In]. assert (K : forall q, q <> p -> In q (map fst (adel seq p cs)) <-> In q (map fst cs)).
    { intros q' Hq. induction cs as [|[p' v'] cs IH]; cbn [adel map]; [reflexivity|].
      destruct (seq_spec p p') as [->|Hn]; cbn [map fst In]; rewrite IH; intuition congruence. }
    assert (K2 : ~ In p (map fst (adel seq p cs))).
    { clear K. induction cs as [|[p' v'] cs IH]; cbn [adel map]; [intros []|]. destruct (seq_spec p p') as [->|Hn]; [exact IH|]. cbn. intros [H|H]; [congruence|auto]. }
    destruct (seq_spec q p) as [->|Hq]; [tauto|]. rewrite (K _ Hq). intuition congruence.
  Qed.
  Lemma aset_nodup {V} p (v : V) cs : NoDup (map fst cs) -> NoDup (map fst (aset seq p v cs)).
  Proof.
    intros H. unfold aset. cbn [map fst]. induction cs as [|[p' v'] cs IH]; cbn [adel map fst] in *; [constructor; [intros []|constructor]|].
    inversion H as [|? ? Hn Hd]; subst. specialize (IH Hd). inversion IH as [|? ? Hn' Hd']; subst.
    destruct (seq_spec p p') as [->|Hne]; [exact IH|]. cbn [map fst]. constructor.
    - cbn. intros [E|E]; [congruence|contradiction].
    - constructor; [|exact Hd']. intros C. apply Hn.
      clear -C. induction cs as [|[q w] cs IH]; cbn [adel map] in *; [destruct C|]. destruct (seq p q); [right; auto|]. destruct C as [C|C]; [left; exact C|right; auto].
  Qed.
  Lemma set_childs_spec ps : forall n cs n' cs', NoDup ps -> NoDup (map fst cs) -> (forall p, In p ps -> In p (map fst cs)) ->
    set_childs fresh n ps cs = (n', cs') ->
    NoDup (map fst cs') /\ (forall p, In p (map fst cs') <-> In p (map fst cs)) /\
    (forall p, ~ In p ps -> aget seq p cs' = aget seq p cs) /\
    (forall p c, In p ps -> aget seq p cs = Some c -> exists c', aget seq p cs' = Some c' /\ ChildCompleted New c c') /\
    Draw n n' (flat_map (ids_at cs) ps) (flat_map (ids_at cs') ps).
  Proof.
    induction ps as [|p ps IH]; intros n cs n' cs' Hd Hk Hin; cbn [set_childs].
    - intros H; injection H as <- <-. split; [exact Hk|]. split; [reflexivity|]. split; [reflexivity|]. split; [intros p c []|constructor].
    - inversion Hd as [|? ? Hp Hd']; subst.
      assert (Hc : exists c, aget seq p cs = Some c).
      { specialize (Hin p (or_introl eq_refl)). apply in_map_iff in Hin as ([q c] & E & Hin). cbn in E. subst q. exists c. apply in_aget; assumption. }
      destruct Hc as (c & Hc). rewrite Hc. destruct (set_res fresh n (ch_res c)) as [n1 rs] eqn:E. apply set_res_spec in E as [E D].
      intros H. apply IH in H as (H1 & H2 & H3 & H4 & H5); [|exact Hd'|apply aset_nodup; exact Hk|].
      2:{ intros q Hq. apply aset_keys. right. apply Hin. right. exact Hq. }
      assert (Hp' : aget seq p cs' = Some (mkChild rs (ch_rels c) (ch_any c))).
      { rewrite (H3 p Hp). apply aget_aset_same. apply seq_spec. }
      assert (Hne : forall q, In q ps -> q <> p) by (intros q Hq ->; contradiction).
      split; [exact H1|]. split; [|split; [|split]].
      + intros q. rewrite H2, aset_keys. split; [intros [->|Hq]; [apply Hin; left; reflexivity|exact Hq]|auto].
      + intros q Hq. rewrite (H3 q); [|intros C; apply Hq; right; exact C]. apply aget_aset_other; [apply seq_spec|]. intros ->. apply Hq. left. reflexivity.
      + intros q d [<-|Hq] Hd0.
        * rewrite Hc in Hd0. injection Hd0 as <-. exists (mkChild rs (ch_rels c) (ch_any c)). split; [exact Hp'|constructor; exact E].
        * apply H4; [exact Hq|]. rewrite <- Hd0. apply aget_aset_other; [apply seq_spec|]. apply Hne. exact Hq.
      + cbn [flat_map]. eapply draw_app.
        * unfold ids_at at 1 2. rewrite Hc, Hp'. exact D.
        * replace (flat_map (ids_at cs) ps) with (flat_map (ids_at (aset seq p (mkChild rs (ch_rels c) (ch_any c)) cs)) ps); [exact H5|].
          clear -Hne. induction ps as [|q ps IH]; [reflexivity|]. cbn [flat_map]. rewrite IH by (intros; apply Hne; right; assumption).
          f_equal. unfold ids_at. rewrite aget_aset_other; [reflexivity|apply seq_spec|]. apply Hne. left. reflexivity.
  Qed.
  Lemma ids_keys cs : NoDup (map fst cs) -> flat_map (ids_at cs) (map fst cs) = flat_map (fun pc => part_uuids (ch_res (snd pc))) cs.
  Proof.
    intros Hd. assert (K : forall l, (forall x, In x l -> In x cs) -> flat_map (ids_at cs) (map fst l) = flat_map (fun pc => part_uuids (ch_res (snd pc))) l).
    { induction l as [|[p c] l IH]; intros Hl; [reflexivity|]. cbn [map flat_map fst snd]. rewrite IH by (intros; apply Hl; right; assumption).
      f_equal. unfold ids_at. rewrite (in_aget p cs c Hd); [reflexivity|]. apply Hl. left. reflexivity. }
    apply K. auto.
  Qed.
  Lemma set_missing_spec m : NoDup (map fst (mo_childs m)) ->
    ModelCompleted New m (set_missing_uuids fresh m) /\
    ((forall u, Carries KBuild (bu_any (mo_build m)) u "" -> u <> "") ->
     exists n l l', Permutation l (model_uuids m) /\ Permutation l' (model_uuids (set_missing_uuids fresh m)) /\ Draw 0 n l l').
  Proof.
    intros Hk. unfold set_missing_uuids.
    destruct (set_build fresh 0 (bu_any (mo_build m))) as [n1 bany] eqn:E1.
    destruct (set_list (set_item fresh) n1 (bu_items (mo_build m))) as [n2 its] eqn:E2.
    destruct (set_childs fresh n2 (sorted_childs m) (mo_childs m)) as [n3 cs] eqn:E3.
    destruct (set_res fresh n3 (mo_res m)) as [n4 rs] eqn:E4.
    assert (P : Permutation (map fst (mo_childs m)) (sorted_childs m)) by apply isort_perm.
    apply (set_list_spec (set_item fresh) (ItemCompleted New) (fun it => [uuid_of KItem (it_any it)]) set_item_spec) in E2 as [E2 D2].
    rewrite !flat_single in D2.
    apply set_childs_spec in E3 as (H1 & H2 & H3 & H4 & D3);
      [|eapply Permutation_NoDup; [exact P|exact Hk]|exact Hk|intros p Hp; eapply Permutation_in; [apply Permutation_sym; exact P|exact Hp]].
    apply set_res_spec in E4 as [E4 D4].
    split.
    - apply MoC; try assumption.
      + unfold set_build in E1. destruct (get_build_attr (bu_any (mo_build m))) as [u|] eqn:G; injection E1 as <- <-.
        * apply (BuKept _ _ u). apply get_group_spec. cbn [get_group]. rewrite G. reflexivity.
        * apply BuAdded; [|exists 0; reflexivity]. apply get_group_none. cbn [get_group]. rewrite G. reflexivity.
      + split.
        * intros p c Hc. assert (Hin : In p (sorted_childs m)).
          { eapply Permutation_in; [exact P|]. apply in_map_iff. exists (p, c). auto. }
          apply in_aget in Hc; [|exact Hk]. destruct (H4 p c Hin Hc) as (c' & Hc' & R). exists c'. split; [apply aget_in; exact Hc'|exact R].
        * intros p c' Hc'. assert (Hin : In p (map fst (mo_childs m))).
          { apply H2. apply in_map_iff. exists (p, c'). auto. }
          apply in_map_iff in Hin as ([q c] & E & Hin). cbn in E. subst q. exists c. split; [exact Hin|].
          assert (Hs : In p (sorted_childs m)).
          { eapply Permutation_in; [exact P|]. apply in_map_iff. exists (p, c). auto. }
          apply in_aget in Hin; [|exact Hk]. destruct (H4 p c Hs Hin) as (c'' & Hc'' & R). apply in_aget in Hc'; [|exact H1].
          rewrite Hc' in Hc''. injection Hc'' as ->. exact R.
    - intros Hb.
      assert (D1 : Draw 0 n1 [uuid_of KBuild (bu_any (mo_build m))] [uuid_of KBuild bany]).
      { rewrite !uuid_of_group. unfold set_build in E1. cbn [get_group]. destruct (get_build_attr (bu_any (mo_build m))) as [u|] eqn:G; injection E1 as <- <-.
        - rewrite G. constructor; [|constructor]. apply Hb. apply get_group_spec. cbn [get_group]. rewrite G. reflexivity.
        - assert (G' : get_group KBuild (bu_any (mo_build m) ++ [GBuild (fresh 0)]) = Some (fresh 0, "")).
          { rewrite get_group_app; [reflexivity|]. cbn [get_group]. rewrite G. reflexivity. }
          cbn [get_group] in G'. rewrite G'. repeat constructor. }
      pose proof (draw_app _ _ _ _ _ _ _ D1 (draw_app _ _ _ _ _ _ _ D2 (draw_app _ _ _ _ _ _ _ D3 D4))) as D.
      exists n4. do 2 eexists. split; [|split; [|exact D]]; unfold model_uuids; cbn [app mo_build bu_any bu_items mo_childs mo_res]; apply perm_skip, Permutation_app_head, Permutation_app_tail.
      + rewrite <- (ids_keys _ Hk). apply Permutation_flat_map, Permutation_sym, P.
      + rewrite <- (ids_keys _ H1). apply Permutation_flat_map, Permutation_sym.
        apply NoDup_Permutation; [exact H1|eapply Permutation_NoDup; [exact P|exact Hk]|].
        intros p. rewrite H2. split; apply Permutation_in; [exact P|apply Permutation_sym; exact P].
  Qed.

  (** Completed attributes carry a UUID. *)
  Lemma completed_carries (N : string -> Prop) k l l' : (forall u, N u -> u <> "") -> Completed N k l l' -> exists u p, Carries k l' u p /\ u <> "".
  Proof.
    intros HN H. destruct H as [l u p H Hu|a b u p Hp Ha Hu|l u H Hu].
    - eauto.
    - exists u, p. split; [split; [exact Hp|eauto]|auto].
    - exists u, "". split; [|auto]. split; [destruct k; exact I || reflexivity|]. exists l, []. auto.
  Qed.
End Drawing.
Lemma pairwise_in {A} (R : A -> A -> Prop) l l' y : Pairwise R l l' -> In y l' -> exists x, In x l /\ R x y.
Proof.
  intros [H1 H2] Hy. destruct (In_nth_error _ _ Hy) as (i & Hi).
  destruct (nth_error l i) as [x|] eqn:E.
  - exists x. split; [eapply nth_error_In; exact E|eauto].
  - apply nth_error_None in E. assert (nth_error l' i <> None) as H by congruence. apply nth_error_Some in H. lia.
Qed.
Lemma completed_complete (N : string -> Prop) m m' : (forall u, N u -> u <> "") -> (forall u, Carries KBuild (bu_any (mo_build m)) u "" -> u <> "") ->
  ModelCompleted N m m' -> UuidsComplete m'.
Proof.
  intros HN Hb H. destruct H as [m any its rs cs H1 H2 H3 H4 _].
  assert (Ho : forall o o', ObjCompleted N o o' -> (exists u, Carries KObject (ob_any o') u "" /\ u <> "") /\
     forall c, In c (Comps o') -> exists u p, Carries KComponent (co_any c) u p /\ u <> "").
  { intros o o' Hoo. destruct Hoo as [o l cs' Hl Hcs]. cbn [ob_any]. split.
    - apply (completed_carries N KObject _ _ HN) in Hl as (u & p & Hc & Hu). exists u. split; [|exact Hu]. destruct Hc as [Hp Hc]. cbn in Hp. subst p. split; [reflexivity|exact Hc].
    - intros c Hc. unfold Comps in Hc. cbn [ob_comps] in Hc. destruct Hcs as [|l0 l0' any' Hp]; [destruct Hc|]. cbn [cs_list] in Hc.
      destruct (pairwise_in _ _ _ _ Hp Hc) as (c0 & _ & Hcc). destruct Hcc as [c0 l1 Hl1]. cbn [co_any]. eapply (completed_carries N); eassumption. }
  split; [|split].
  - cbn [mo_build bu_any]. destruct H1 as [l u H1|l u H1 Hu].
    + exists u. split; [exact H1|]. apply Hb. exact H1.
    + exists u. split; [|apply HN; exact Hu]. split; [reflexivity|]. exists l, []. auto.
  - cbn [mo_build bu_items]. intros it Hit. destruct (pairwise_in _ _ _ _ H2 Hit) as (it0 & _ & Hi). destruct Hi as [it0 l Hl]. cbn [it_any]. eapply (completed_carries N); eassumption.
  - intros o [Hin|([p c] & Hpc & Hin)]; cbn in Hin.
    + destruct H3 as [rs0 l Hl]. cbn in Hin. destruct (pairwise_in _ _ _ _ Hl Hin) as (o0 & _ & Hoo). eapply Ho; exact Hoo.
    + cbn in Hpc. destruct H4 as [_ H4]. destruct (H4 _ _ Hpc) as (c0 & _ & Hcc). destruct Hcc as [c0 rs0 Hr]. cbn in Hin. destruct Hr as [rs1 l Hl]. cbn in Hin.
      destruct (pairwise_in _ _ _ _ Hl Hin) as (o0 & _ & Hoo). eapply Ho; exact Hoo.
Qed.
