From Verif Require Import GoBase GoFloat Types M_Core S_Core P_Core M_Errors S_Errors P_Errors
  M_Geom S_Geom P_Geom P_Coherency M_Validate S_Validate P_Validate P_Validate2 P_Validate3
  M_ExtValidate S_ExtValidate P_ExtMat P_ExtBeam P_ExtSlices.

Lemma lt_not_le x y : NotNaN x -> NotNaN y -> fltb x y = true <-> ~ Le y x.
Proof.
  intros Hx Hy. rewrite fltb_key, Le_key by assumption.
  destruct (P_Geom.key x) as [[a b] c], (P_Geom.key y) as [[a' b'] c']; cbn. lia.
Qed.
Lemma finite_nn x : Finite x -> NotNaN x.
Proof. intros H ->. exact H. Qed.
Lemma lt_or_le x y : NotNaN x -> NotNaN y -> {fltb x y = true} + {Le y x}.
Proof.
  intros Hx Hy. unfold Le. destruct (fltb x y) eqn:E; [auto|right]. destruct (fleb y x) eqn:F; [reflexivity|].
  exfalso. assert (K : ~ Le y x) by (unfold Le; congruence). apply lt_not_le in K; [congruence|assumption..].
Qed.
Lemma stack_conforms m path st : ChildsOk m -> NotNaN (ss_bottom st) -> IndicesInRange st ->
  (forall s, In s (ss_slices st) -> OrdinaryHeight (sl_top s)) ->
  (forall r st' s, In r (ss_refs st) -> StackIn m (sr_path r) (sr_id r) st' -> In s (ss_slices st') -> OrdinaryHeight (sl_top s)) ->
  (forall loc k, ~ StackViolation m path st loc k) <-> StackConforms m path st.
Proof.
  intros Hok Hb Hi Ho Hr.
  assert (Hz : forall i z, HeightBefore m path (ss_refs st) i z -> NotNaN z /\ forall i', i = i' -> True).
  { intros i z [H|j z' Hj (r & st' & s & Hn & Hw & Hst & (q & Hl) & <-) H]; (split; [|auto]); [discriminate|].
    apply finite_nn. eapply (Hr r st' s); [eapply nth_error_In; exact Hn|exact Hst|]. rewrite Hl. apply in_app_iff. right. left. reflexivity. }
  assert (Hlow : NotNaN lowest32) by discriminate.
  split.
  - intros H. split; [|split; [|split; [|split]]].
    + destruct (ss_slices st) as [|s l] eqn:E1, (ss_refs st) as [|r l'] eqn:E2.
      * exfalso. eapply H. apply StBoth. rewrite E1, E2. tauto.
      * right. split; [reflexivity|discriminate].
      * left. split; [discriminate|reflexivity].
      * exfalso. eapply H. apply StBoth. rewrite E1, E2. split; discriminate.
    + intros s Hs. destruct (In_nth_error _ _ Hs) as (j & Hj). destruct (Ho _ Hs) as (Hf & Hu & Hl). split.
      * destruct (lt_or_le (sl_top s) (ss_bottom st) (finite_nn _ Hf) Hb) as [C|C]; [|exact C].
        exfalso. eapply H. eapply StSlice, SlLow; eassumption.
      * destruct (sl_polys s) as [|p0 ps] eqn:Ep, (sl_verts s) as [|v0 vs] eqn:Ev.
        -- left. auto.
        -- exfalso. eapply H. eapply StSlice, SlPolygons; [exact Hj|rewrite Ev; discriminate|exact Ep].
        -- exfalso. eapply H. eapply StSlice, SlVertices; [exact Hj|rewrite Ep; intros [? _]; discriminate|rewrite Ev; cbn; lia].
        -- right. rewrite Ep, Ev. split; [|split; [discriminate|]].
           ++ rewrite <- Ev. destruct (Nat.lt_ge_cases (List.length (sl_verts s)) 2) as [C|C]; [|exact C].
              exfalso. eapply H. eapply StSlice, SlVertices; [exact Hj|rewrite Ep; intros [? _]; discriminate|exact C].
           ++ intros p Hp. rewrite <- Ep in Hp. rewrite <- Ev. split; [|apply (Hi s p Hs Hp)].
              intros C. destruct (In_nth_error _ _ Hp) as (k & Hk). eapply H. eapply StSlice, SlSegments; eassumption.
    + intros j s s' Hj Hj'. 
      assert (F : NotNaN (sl_top s) /\ NotNaN (sl_top s')).
      { split; apply finite_nn; apply Ho; eapply nth_error_In; eassumption. }
      destruct (lt_or_le (sl_top s) (sl_top s')) as [C|C]; [tauto..|exact C|].
      exfalso. eapply H. eapply StSlice, SlOrder; [exact Hj'|econstructor; exact Hj|exact C].
    + intros r Hr'. destruct (In_nth_error _ _ Hr') as (i & Hi').
      assert (W : RefWellFormed path r).
      { split; [|split]; intros C.
        - eapply H. eapply StRef, RfPath; eassumption.
        - destruct (seq_spec (sr_path r) "") as [D|D]; [eapply H; eapply StRef, RfPath; eassumption|eapply H; eapply StRef, RfSame; eassumption].
        - eapply H. eapply StRef, RfID; eassumption. }
      split; [exact W|]. destruct (asset_dec m (sr_path r) (sr_id r) Hok) as [(a & Ha)|Ha].
      2:{ exfalso. eapply H. eapply StRef, RfMissing; eassumption. }
      destruct a as [b|i0 u|x]; try (exfalso; eapply H; eapply StRef, RfKind; [eassumption..|]; intros; discriminate).
      destruct x as [t|g|g|g|g|g|g]; try (exfalso; eapply H; eapply StRef, RfKind; [eassumption..|]; intros; discriminate).
      all: exists g; split; [exact Ha|]; destruct (ss_refs g) eqn:Eg; [reflexivity|]; exfalso; eapply H; eapply StRef, RfRef; [eassumption..|rewrite Eg; discriminate].
    + intros i r st' s z Hn Hst Hf Hz'. destruct (Hz _ _ Hz') as [Nz _].
      assert (W : RefWellFormed path r).
      { split; [|split]; intros C.
        - eapply H. eapply StRef, RfPath; eassumption.
        - destruct (seq_spec (sr_path r) "") as [D|D]; [eapply H; eapply StRef, RfPath; eassumption|eapply H; eapply StRef, RfSame; eassumption].
        - eapply H. eapply StRef, RfID; eassumption. }
      assert (Ns : NotNaN (sl_top s)).
      { apply finite_nn. eapply (Hr r st' s); [eapply nth_error_In; exact Hn|exact Hst|]. destruct Hf as (q & ->). left. reflexivity. }
      destruct (lt_or_le z (sl_top s) Nz Ns) as [C|C]; [exact C|]. exfalso. eapply H. eapply StRef, RfOrder; eassumption.
  - intros (H1 & H2 & H3 & H4 & H5) loc k H. destruct H as [H|i k H|j loc k H].
    + destruct H1 as [[A B]|[A B]]; [apply A, H, B|apply B, H, A].
    + destruct H as [r Hn H|r Hn H H'|r Hn H|r Hn Hw H|r a Hn Hw H H'|r st' Hn Hw H H'|r st' s z Hn Hw Hst Hf Hz' Hl];
        destruct (H4 r (nth_error_In _ _ Hn)) as ((W1 & W2 & W3) & st0 & Hst0 & Hrefs); try contradiction.
      * destruct (H _ Hst0).
      * rewrite (asset_fun _ _ _ _ _ Hok H Hst0) in H'. destruct (H' _ eq_refl).
      * pose proof (asset_fun _ _ _ _ _ Hok H Hst0) as E. injection E as ->. contradiction.
      * specialize (H5 _ _ _ _ _ Hn Hst Hf Hz'). apply lt_not_le in H5; [contradiction|apply (Hz _ _ Hz')|].
        exact (Le_nn_l _ _ Hl).
    + destruct H as [s Hs H|s Hs H H'|s z Hs Hz' H|s Hs H H'|s Hs H H'|s k p Hs H H']; pose proof (nth_error_In _ _ Hs) as Hin;
        destruct (Ho _ Hin) as (Hf & Hu & Hl); destruct (H2 _ Hin) as [Hbot Hc].
      * contradiction.
      * apply lt_not_le in H'; [contradiction|apply finite_nn; exact Hf|exact Hb].
      * destruct Hz' as [|j' s' Hs'].
        -- apply lt_not_le in Hl; [contradiction|exact Hlow|apply finite_nn; exact Hf].
        -- specialize (H3 _ _ _ Hs' Hs). apply lt_not_le in H3; [contradiction|eapply Le_nn_r; exact H|eapply Le_nn_l; exact H].
      * destruct Hc as [Hc|(Hc & _)]; [contradiction|lia].
      * destruct Hc as [[_ Hc]|(_ & Hc & _)]; contradiction.
      * destruct Hc as [[Hc _]|(_ & _ & Hc)]; [rewrite Hc in H; destruct k; discriminate|].
        destruct (Hc p (nth_error_In _ _ H)) as [Hc' _]. contradiction.
Qed.

(** ** Placements in a model of one part *)
Lemma root_same m path rs : SamePart m "" path -> Addressed m path rs <-> Addressed m "" rs.
Proof.
  intros [<-|[(_ & ->)|(E & ->)]]; [reflexivity| |reflexivity].
  assert (K : forall rs, Addressed m "" rs <-> rs = mo_res m).
  { intros r. split; [|intros ->; constructor; reflexivity]. intros [H|H H'|H H'|c H]; try reflexivity. contradiction. }
  rewrite K. unfold root_path. split.
  - intros [H|H H'|H H'|c H H' _]; try reflexivity. destruct (H' eq_refl).
  - intros ->. destruct (seq_spec (mo_path m) "") as [E|E]; [apply AddrDefault; [exact E|reflexivity]|apply AddrRoot; [exact E|reflexivity]].
Qed.
Lemma root_obj m path id o : SamePart m "" path -> ObjIn m path id o <-> ObjIn m "" id o.
Proof. intros H. unfold ObjIn. setoid_rewrite (root_same m path _ H). reflexivity. Qed.
Lemma root_in m id o : ObjIn m "" id o -> In o (rs_objects (mo_res m)).
Proof.
  intros (rs & Ha & a & b & E & _). replace rs with (mo_res m) in E.
  - rewrite E. apply in_app_iff. right. left. reflexivity.
  - destruct Ha as [H|H H'|H H'|c H]; try reflexivity. contradiction.
Qed.
Lemma carried_fun l p q : CarriedPath l p -> CarriedPath l q -> p = q.
Proof. rewrite !any_path_spec. congruence. Qed.
Lemma file_here c file q : CarriedPath (co_any c) "" -> TargetFile c file q <-> q = file.
Proof.
  intros H. split.
  - intros (p & Hp & [[_ ->]|[N _]]); [reflexivity|]. destruct N. eapply carried_fun; eassumption.
  - intros ->. exists "". auto.
Qed.
Lemma followed_trans m path a b c : Followed m path a b -> Followed m path b c -> Followed m path a c.
Proof. induction 1; intros H'; [exact H'|]. eapply FoComp; [eassumption..|]. auto. Qed.
Lemma may_dec t : MayPlace t \/ ~ MayPlace t.
Proof. rewrite <- may_place. destruct (_ && _); [right; discriminate|left; reflexivity]. Qed.
Lemma placements m path id : SamePart m "" path -> SinglePart m -> ~ BadBuild m path id <-> PlacementsConform m path id.
Proof.
  intros Hp [Hi Hc]. split.
  - intros H.
    assert (K : forall file o, Placed m file o -> file = "" /\ In o (rs_objects (mo_res m)) /\
       exists it o0, In it (bu_items (mo_build m)) /\ ObjIn m path (it_oid it) o0 /\ Followed m path o0 o).
    { induction 1 as [it q o Hit Hq Ho|file o c q o1 _ (-> & Ho & it & o0 & Hit & Ho0 & Hf) Hin [Ht H1]].
      - assert (q = "") by (eapply carried_fun; [exact Hq|apply Hi; exact Hit]). subst q.
        split; [reflexivity|]. split; [eapply root_in; exact Ho|]. exists it, o. split; [exact Hit|]. split; [apply root_obj; assumption|constructor].
      - destruct (Hc _ _ Ho Hin) as [Hn Hs]. apply file_here in Ht as ->; [|exact Hn].
        split; [reflexivity|]. split; [eapply root_in; exact H1|]. exists it, o0. split; [exact Hit|]. split; [exact Ho0|].
        eapply followed_trans; [exact Hf|]. destruct (in_split _ _ Hin) as (pre & post & E).
        eapply (FoComp _ _ o pre c post path o1); [exact E| | |apply root_obj; [exact Hp|exact H1]|constructor].
        + intros d Hd [E1 _]. assert (In d (Comps o)) as Hd'.
          { rewrite E. apply in_app_iff. apply in_app_iff in Hd as [Hd|[<-|[]]]; [auto|right; left; reflexivity]. }
          apply Hc in Hd' as [_ X]; [|exact Ho]. contradiction.
        + apply file_here; [exact Hn|reflexivity]. }
    split.
    + intros it q Hit Hq Hs Hid. destruct (may_dec (it_tr it)) as [C|C]; [exact C|]. destruct H.
      assert (q = "") by (eapply carried_fun; [exact Hq|apply Hi; exact Hit]). eapply BbItem; eauto.
    + intros file o c q Hpl Hin Ht Hs Hid. destruct (may_dec (co_tr c)) as [C|C]; [exact C|]. destruct H.
      destruct (K _ _ Hpl) as (-> & Ho & it & o0 & Hit & Ho0 & Hf). destruct (Hc _ _ Ho Hin) as [Hn Hself].
      eapply (BbObject m path id it "" o0 o); [exact Hit|apply Hi; exact Hit|exact Ho0|exact Hf|].
      destruct (in_split _ _ Hin) as (pre & post & E). exists pre, c, post. split; [exact E|]. split.
      * intros d Hd [E1 _]. assert (In d (Comps o)) as Hd' by (rewrite E; apply in_app_iff; auto).
        apply Hc in Hd' as [_ X]; [|exact Ho]. contradiction.
      * split; [exact Hid|]. split; [apply file_here; [exact Hn|reflexivity]|exact C].
  - intros [H1 H2] H. destruct H as [it q Hit Hq Hqp Hid Hm|it q o o' Hit Hq Ho Hf Hb].
    + apply Hm. eapply H1; [exact Hit|exact Hq| |exact Hid]. assert (q = "") by (eapply carried_fun; [exact Hq|apply Hi; exact Hit]). subst q. exact Hp.
    + assert (q = "") by (eapply carried_fun; [exact Hq|apply Hi; exact Hit]). subst q. cbn in Ho. apply root_obj in Ho; [|exact Hp].
      assert (Pl : Placed m "" o' /\ In o' (rs_objects (mo_res m))).
      { assert (P0 : Placed m "" o) by (eapply PlItem; eassumption). assert (I0 : In o (rs_objects (mo_res m))) by (eapply root_in; exact Ho).
        clear Ho Hb Hit Hq. revert P0 I0. induction Hf as [o|o pre c post q o1 o2 E Hs Ht Ho _ IH]; intros P0 I0; [auto|].
        assert (Hin : In c (Comps o)) by (rewrite E; apply in_app_iff; right; left; reflexivity).
        destruct (Hc _ _ I0 Hin) as [Hn _]. apply file_here in Ht as ->; [|exact Hn]. apply root_obj in Ho; [|exact Hp].
        apply IH; [|eapply root_in; exact Ho]. eapply PlComp; [exact P0|exact Hin|]. split; [apply file_here; [exact Hn|reflexivity]|exact Ho]. }
      destruct Pl as [Pl Io]. destruct Hb as (pre & c & post & E & _ & Hid & Ht & Hm).
      assert (Hin : In c (Comps o')) by (rewrite E; apply in_app_iff; right; left; reflexivity).
      apply Hm. eapply H2; [exact Pl|exact Hin| |exact Hp|exact Hid]. apply file_here; [apply (Hc _ _ Io Hin)|reflexivity].
Qed.
Lemma slice_obj_conforms m path o : ChildsOk m -> SamePart m "" path -> SinglePart m ->
  (forall k, ~ SliceObjViolation m path o k) <-> SliceObjConforms m path o.
Proof.
  intros Hok Hp Hs. split.
  - intros H sid res Ha.
    assert (Hn : sid <> 0%N) by (intros ->; eapply H, SoNoID; exact Ha).
    split; [exact Hn|]. split.
    + intros ->. rewrite <- slices_required. destruct (slice_required (mo_exts m)) eqn:E; [reflexivity|].
      exfalso. eapply H, SoRequired; [exact Ha|]. rewrite <- slices_required, E. discriminate.
    + destruct (asset_dec m path sid Hok) as [(a & Hin)|Hin]; [|exfalso; eapply H, SoMissing; eassumption].
      destruct a as [b|i0 u|x]; try (exfalso; eapply H, SoKind; [eassumption..|]; intros; discriminate).
      destruct x as [t|g|g|g|g|g|g]; try (exfalso; eapply H, SoKind; [eassumption..|]; intros; discriminate).
      all: exists g; split; [exact Hin|]; split.
      all: try (apply placements; [exact Hp|exact Hs|]; intros C; eapply H, SoPlacement; eassumption).
      all: intros T; rewrite <- (all_closed_spec _ _ Hok); destruct (all_closed m g) eqn:E; [reflexivity|];
           exfalso; eapply H, SoOpen; [eassumption..|]; rewrite <- (all_closed_spec _ _ Hok), E; discriminate.
  - intros H k Hk. destruct Hk as [r A|s r A N|s r a A N Hin Ha|s r st A N Hin Hb|s r st A N Hin Ht Hc|s A Hr];
      destruct (H _ _ A) as (H1 & H2 & st0 & H3 & H4 & H5).
    + contradiction.
    + destruct (H0 _ H3).
    + pose proof (asset_fun _ _ _ _ _ Hok Hin H3). eapply Ha; eassumption.
    + apply placements in H5; [contradiction|assumption..].
    + pose proof (asset_fun _ _ _ _ _ Hok Hin H3) as E. injection E as ->. apply Hc, H4, Ht.
    + apply Hr, H2. reflexivity.
Qed.

(** ** Termination *)
Lemma obj_transforms_terminates m path id rank :
  (forall o c o', ObjectOf m o -> In c (Comps o) -> ObjectOf m o' -> ob_id o' = co_oid c -> rank o' < rank o) ->
  forall fuel o, ObjectOf m o -> rank o < fuel -> exists b, obj_transforms fuel m path id o = Some b.
Proof.
  intros HR. induction fuel as [|f IH]; intros o Ho Hf; [lia|]. cbn [obj_transforms].
  destruct (ob_comps o) as [cs|] eqn:Ec; [|eauto].
  assert (Hin : forall c, In c (cs_list cs) -> In c (Comps o)) by (intros c; unfold Comps; rewrite Ec; auto).
  revert Hin. generalize (cs_list cs) as l. induction l as [|c l IHc]; intros Hin; cbn [comps_transforms]; [eauto|].
  destruct (_ && negb _); [eauto|]. destruct (_ && _); [eauto|].
  destruct (find_object m (comp_path c path) (co_oid c)) as [o'|] eqn:Eo.
  - apply find_object_in in Eo as [Ho' Hid].
    destruct (IH o' Ho') as (b & ->).
    { specialize (HR o c o' Ho (Hin c (or_introl eq_refl)) Ho' Hid). lia. }
    destruct b; [|eauto]. apply IHc. intros; apply Hin; right; assumption.
  - apply IHc. intros; apply Hin; right; assumption.
Qed.
Lemma slices_terminates m : Acyclic m -> exists fuel, forall path el, exists e, slices_validate fuel m path el = Some e.
Proof.
  intros (rank & HR).
  destruct (finite_max rank (rs_objects (mo_res m) ++ concat (map (fun pc => rs_objects (ch_res (snd pc))) (mo_childs m)))) as (n & Hn).
  assert (Hn' : forall o, ObjectOf m o -> rank o < n).
  { intros o [Ho|(pc & Hpc & Ho)]; apply Hn; apply in_app_iff; [auto|right].
    apply in_concat. eexists; split; [|exact Ho]. apply in_map_iff. eauto. }
  exists n. intros path el. destruct el as [|[b|i u|[]]|o]; cbn [slices_validate]; eauto.
  unfold slice_object_validate. destruct (get_slice_attr (ob_any o)) as [[sid res]|]; [|eauto].
  assert (T : exists b, items_transforms n m path (ob_id o) (bu_items (mo_build m)) = Some b).
  { generalize (bu_items (mo_build m)) as its. induction its as [|it its IH]; cbn [items_transforms]; [eauto|].
    destruct (_ && negb _); [eauto|]. destruct (find_object m _ _) as [o1|] eqn:F; [|exact IH].
    apply find_object_in in F as [F _]. destruct (obj_transforms_terminates m path (ob_id o) rank HR n o1 F (Hn' _ F)) as (b & ->).
    destruct b; [exact IH|eauto]. }
  destruct T as (b & ->). destruct (sid =? 0)%N; [eauto|]. destruct (res_find_asset m path sid) as [[| |[]]|]; eauto.
Qed.
Lemma obj_transforms_mono m path id : forall fuel o b, obj_transforms fuel m path id o = Some b ->
  forall fuel', fuel <= fuel' -> obj_transforms fuel' m path id o = Some b.
Proof.
  induction fuel as [|f IH]; intros o b; cbn [obj_transforms]; [discriminate|].
  intros H fuel' Hl. destruct fuel' as [|f']; [lia|]. cbn [obj_transforms].
  destruct (ob_comps o) as [cs|]; [|exact H]. revert H. generalize (cs_list cs) as l.
  induction l as [|c l IHc]; cbn [comps_transforms]; [auto|].
  destruct (_ && negb _); [auto|]. destruct (_ && _); [auto|]. destruct (find_object m _ _) as [o1|]; [|exact IHc].
  destruct (obj_transforms f m path id o1) as [b1|] eqn:E; [|discriminate]. rewrite (IH _ _ E f' ltac:(lia)).
  destruct b1; [exact IHc|auto].
Qed.
Lemma slices_mono m path el fuel fuel' e : slices_validate fuel m path el = Some e -> fuel <= fuel' -> slices_validate fuel' m path el = Some e.
Proof.
  intros H Hl. destruct el as [|[b|i u|[]]|o]; cbn [slices_validate] in *; auto.
  unfold slice_object_validate in *. destruct (get_slice_attr (ob_any o)) as [[sid res]|]; [|exact H].
  assert (T : forall b, items_transforms fuel m path (ob_id o) (bu_items (mo_build m)) = Some b -> items_transforms fuel' m path (ob_id o) (bu_items (mo_build m)) = Some b).
  { clear H. generalize (bu_items (mo_build m)) as its. induction its as [|it its IH]; cbn [items_transforms]; intros b; [auto|].
    destruct (_ && negb _); [auto|]. destruct (find_object m _ _) as [o1|]; [|apply IH].
    destruct (obj_transforms fuel m path (ob_id o) o1) as [b1|] eqn:E; [|discriminate]. rewrite (obj_transforms_mono _ _ _ _ _ _ E fuel' Hl).
    destruct b1; [apply IH|auto]. }
  destruct (sid =? 0)%N; [exact H|]. destruct (res_find_asset m path sid) as [[| |[]]|]; try exact H.
  destruct (items_transforms fuel m path (ob_id o) (bu_items (mo_build m))) as [b|] eqn:E; [|discriminate].
  rewrite (T _ eq_refl). exact H.
Qed.
