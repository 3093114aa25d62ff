(** * Validity of a model to which something was added *)
From Coq Require Import Lia.
From Verif Require Import GoBase GoFloat Types M_Core M_Errors M_Geom M_Validate M_ExtValidate S_Core S_Errors S_Geom S_Validate S_ExtValidate S_ExtProd S_Added
  P_Core P_Errors P_Geom P_Validate P_Validate2 P_Validate3 T_Validate T_ExtMat T_ExtBeam T_ExtSlices T_ExtProd.
From Verif Require Import Types.
Local Open Scope list_scope.

(** ** Lists *)
Lemma nth_old {A} (l r : list A) i x : nth_error (l ++ r) i = Some x -> i < List.length l -> nth_error l i = Some x.
Proof. intros H L. rewrite nth_error_app1 in H by exact L. exact H. Qed.
Lemma first_longer {A} (key : A -> N) k l r x : FirstWith key k l x -> FirstWith key k (l ++ r) x.
Proof. intros (b & a & -> & K & F). exists b, (a ++ r). rewrite <- app_assoc. auto. Qed.
Lemma first_unique {A} (key : A -> N) k l x y : FirstWith key k l x -> FirstWith key k l y -> x = y.
Proof.
  intros (b & a & -> & K & F) (b' & a' & E & K' & F'). revert b' E F'. induction b as [|z b IH]; intros [|z' b'] E F'; cbn in E.
  - injection E as -> _. reflexivity.
  - injection E as -> _. inversion F'. contradiction.
  - injection E as -> _. inversion F. contradiction.
  - injection E as -> E. inversion F. inversion F'. subst. eapply IH; eassumption.
Qed.
Lemma rel_conform_longer atts atts' l : Longer atts atts' -> RelsConform atts l -> RelsConform atts' l.
Proof.
  intros (r & ->) (H1 & H2 & H3 & H4). split; [|split; [exact H2|split; [|exact H4]]].
  - intros x I. destruct (H1 x I) as [P (a & J & E)]. split; [exact P|]. exists a. split; [apply in_or_app; left; exact J|exact E].
  - intros x a I T D. destruct (H1 x I) as [_ A]. apply designates_attached in A as (b & B).
    assert (a = b) as ->; [|exact (H3 x b I T B)]. apply find_attachment_spec in D.
    assert (B' : Designates (atts ++ r) (rel_path x) b).
    { destruct B as (u & v & -> & E & F). exists u, (v ++ r). rewrite <- app_assoc. auto. }
    apply find_attachment_spec in B'. congruence.
Qed.
Lemma rel_old atts atts' l l' i k : Longer atts atts' -> Longer l l' -> RelsConform atts l -> RelViolation atts' l' i k -> List.length l <= i.
Proof.
  intros La (r & ->) C V. destruct (Nat.le_gt_cases (List.length l) i) as [H|H]; [exact H|]. exfalso.
  apply (rel_conform_longer _ _ _ La) in C. apply (proj2 (rels_conform atts' l) C i k).
  destruct V as [x E N|x E P N|x j y E P J E' Q1 Q2|x a E T D N|x j y E T A J E' T' A'];
    apply nth_old in E; try exact H; try (apply nth_old in E'; [|lia]).
  - eapply RvName; eassumption.
  - eapply RvTarget; eassumption.
  - eapply RvDuplicated; eassumption.
  - eapply RvContent; eassumption.
  - eapply RvTicket; eassumption.
Qed.
Lemma meta_exts m m' l : mo_exts m' = mo_exts m -> MetaConforms m l -> MetaConforms m' l.
Proof. intros E [H N]. split; [|exact N]. intros x I. destruct (H x I) as (A & B & D). unfold Declared in *. rewrite E. auto. Qed.
Lemma meta_old m m' l l' i k : mo_exts m' = mo_exts m -> Longer l l' -> MetaConforms m l -> MetaViolation m' l' i k -> List.length l <= i.
Proof.
  intros X (r & ->) C V. destruct (Nat.le_gt_cases (List.length l) i) as [H|H]; [exact H|]. exfalso.
  apply (meta_exts _ _ _ X) in C. apply (proj2 (meta_conforms m' l) C i k).
  destruct V as [x E N|x E P N R|x E P N R|x j y E J E' Q]; apply nth_old in E; try exact H; try (apply nth_old in E'; [|lia]).
  - eapply MvNoName; eassumption.
  - eapply MvReserved; eassumption.
  - eapply MvNamespace; eassumption.
  - eapply MvDuplicated; eassumption.
Qed.
Lemma before_longer l r a b o : (exists x, In x l /\ (ob_id x = a \/ ob_id x = b)) -> DeclaredBefore (l ++ r) a b o -> DeclaredBefore l a b o.
Proof.
  intros (x & I & Q) (u & v & E & K & F). revert u E F. induction l as [|y l IH]; [destruct I|]. intros [|z u] E F.
  - cbn in E. injection E as -> E. exists [], l. split; [reflexivity|]. split; [exact K|]. intros ? [].
  - cbn in E. injection E as <- E. destruct I as [->|I].
    + exfalso. destruct (F x (or_introl eq_refl)) as [F1 F2]. destruct Q; contradiction.
    + destruct (IH I u E) as (u' & v' & E' & _ & F'); [intros w W; apply F; right; exact W|].
      exists (y :: u'), v'. split; [cbn; f_equal; exact E'|]. split; [exact K|].
      intros w [->|W]; [apply F; left; reflexivity|apply F', W].
Qed.
Lemma before_shorter l r a b o : DeclaredBefore l a b o -> DeclaredBefore (l ++ r) a b o.
Proof. intros (u & v & -> & K & F). exists u, (v ++ r). rewrite <- app_assoc. auto. Qed.

Section Added.
Context (m m' : Model) (A : Added m m').
Lemma ad_root : root_path m' = root_path m.
Proof. unfold root_path. rewrite (ad_path _ _ A). reflexivity. Qed.
Lemma ad_old : exists old new, mo_childs m' = old ++ new /\ Forall2 PartGrown (mo_childs m) old /\ map fst old = map fst (mo_childs m).
Proof.
  destruct (ad_childs _ _ A) as (old & new & E & F). exists old, new. split; [exact E|]. split; [exact F|]. clear E.
  induction F as [|x y l l' (Q & _) F IH]; [reflexivity|]. cbn. rewrite Q, IH. reflexivity.
Qed.
Lemma ad_ok' : ChildsOk m'. Proof. exact (ad_keys _ _ A). Qed.
Lemma ad_ok : ChildsOk m.
Proof.
  pose proof (ad_keys _ _ A) as N. destruct ad_old as (old & new & E & _ & Q). rewrite E, map_app, Q in N.
  unfold ChildsOk. revert N. generalize (map fst (mo_childs m)) (map fst new). intros l r. induction l as [|x l IH]; [constructor|].
  cbn. intros N. apply NoDup_cons_iff in N as [N1 N2]. constructor; [intros I; apply N1, in_or_app; left; exact I|apply IH, N2].
Qed.
Lemma ad_names_old p : In p (map fst (mo_childs m)) -> p <> "" /\ p <> root_path m.
Proof.
  intros I. rewrite <- ad_root. apply (ad_names _ _ A). destruct ad_old as (old & new & E & _ & Q). rewrite E, map_app, Q. apply in_or_app. left. exact I.
Qed.
Lemma ad_child p c : In (p, c) (mo_childs m) -> exists c', In (p, c') (mo_childs m') /\ PartGrown (p, c) (p, c').
Proof.
  destruct ad_old as (old & new & E & F & _). rewrite E. clear E. intros I. induction F as [|x y l l' G F IH]; [destruct I|].
  destruct I as [->|I].
  - destruct y as [q c']. destruct G as (Q & G). cbn in Q. subst q. exists c'. split; [left; reflexivity|]. split; [reflexivity|exact G].
  - destruct (IH I) as (c' & J & K). exists c'. split; [right; exact J|exact K].
Qed.
Lemma ad_child_back p c c' : In (p, c) (mo_childs m) -> In (p, c') (mo_childs m') -> PartGrown (p, c) (p, c').
Proof.
  intros I J. destruct (ad_child p c I) as (d & K & G). apply (in_aget _ _ _ ad_ok') in J, K. assert (c' = d) as -> by congruence. exact G.
Qed.
Lemma addr_root n : Addressed n (root_path n) (mo_res n).
Proof. unfold root_path. destruct (seq_spec (mo_path n) "") as [E|E]; [apply AddrDefault|apply AddrRoot]; auto. Qed.
Lemma addr_child n p c : In (p, c) (mo_childs n) -> p <> "" -> p <> root_path n -> Addressed n p (ch_res c).
Proof. intros I P Q. apply AddrChild; assumption. Qed.
Lemma addr_unique n q r s : ChildsOk n -> Addressed n q r -> Addressed n q s -> r = s.
Proof. intros Hok H K. apply find_resources_spec in H, K; [|exact Hok..]. congruence. Qed.
Lemma addr_grow q rs : Addressed m q rs -> exists rs', Addressed m' q rs' /\ Grown rs rs'.
Proof.
  intros H. inversion H as [E|N E|N E|c P Q I].
  - exists (mo_res m'). split; [apply AddrEmpty; exact E|apply (ad_res _ _ A)].
  - exists (mo_res m'). split; [apply AddrRoot; rewrite (ad_path _ _ A); assumption|apply (ad_res _ _ A)].
  - exists (mo_res m'). split; [apply AddrDefault; [rewrite (ad_path _ _ A)|]; assumption|apply (ad_res _ _ A)].
  - destruct (ad_child q c I) as (c' & J & _ & _ & G). exists (ch_res c'). split; [|exact G]. apply AddrChild; [exact P| |exact J]. rewrite (ad_path _ _ A). exact Q.
Qed.
Lemma asset_grow q id a : AssetIn m q id a -> AssetIn m' q id a.
Proof. intros (rs & H & F). destruct (addr_grow q rs H) as (rs' & H' & x & y & E & _). exists rs'. split; [exact H'|]. rewrite E. apply first_longer, F. Qed.
Lemma obj_grow q id o : ObjIn m q id o -> ObjIn m' q id o.
Proof. intros (rs & H & F). destruct (addr_grow q rs H) as (rs' & H' & x & y & _ & E & _). exists rs'. split; [exact H'|]. rewrite E. apply first_longer, F. Qed.
Lemma asset_back q id a b : AssetIn m q id b -> AssetIn m' q id a -> a = b.
Proof. intros H K. apply asset_grow in H. apply asset_in in H, K; try exact ad_ok'. congruence. Qed.
Lemma obj_back q id a b : ObjIn m q id b -> ObjIn m' q id a -> a = b.
Proof. intros H K. apply obj_grow in H. apply obj_in in H, K; try exact ad_ok'. congruence. Qed.

(** ** The core rules *)
Lemma mesh_grow q o me : MeshConforms m q o me -> MeshConforms m' q o me.
Proof.
  intros [H1 H2]. split; [exact H1|]. intros t I. destruct (H2 t I) as (N & R & P). split; [exact N|]. split; [exact R|].
  intros T Q. destruct (P T Q) as [(a & Ha) F]. split; [exists a; apply asset_grow, Ha|].
  intros b n p Hb. rewrite (asset_back _ _ _ _ Ha Hb). apply F, Ha.
Qed.
Lemma object_grow q o : ObjConforms m q o -> ObjConforms m' q o.
Proof.
  intros (H1 & H2 & H3). split; [exact H1|]. split; [exact H2|]. destruct H3 as [(me & E1 & E2 & P & M)|(cs & E1 & E2 & P & C)].
  - left. exists me. split; [exact E1|]. split; [exact E2|]. split; [|apply mesh_grow, M]. intros T. destruct (P T) as [(a & Ha) F].
    split; [exists a; apply asset_grow, Ha|]. intros b n Hb. rewrite (asset_back _ _ _ _ Ha Hb). apply F, Ha.
  - right. exists cs. split; [exact E1|]. split; [exact E2|]. split; [exact P|]. intros c I. destruct (C c I) as (N & t & r & T & O & R).
    split; [exact N|]. exists t, r. split; [exact T|]. split; [apply obj_grow, O|exact R].
Qed.

(** ** The extensions *)
(** What the validators do not report about the part [q] of [m] *)
Context (q : string) (rs : Resources) (Q : Addressed m q rs).
Lemma found_asset id : ~ (forall a, ~ AssetIn m q id a) -> exists a, AssetIn m q id a.
Proof. intros H. destruct (asset_dec m q id ad_ok) as [D|D]; [exact D|destruct (H D)]. Qed.
Lemma material_old el loc k : (forall loc k, ~ MaterialViolation m q el loc k) -> ~ MaterialViolation m' q el loc k.
Proof.
  intros H V. destruct V as [g loc k V|g loc k V|t loc k V|c loc k V|p loc k V].
  - exact (H _ _ (MatColor _ _ _ _ _ V)).
  - assert (H' : forall loc k, ~ TexGroupViolation m q g loc k) by (intros ? ? W; exact (H _ _ (MatTexGroup _ _ _ _ _ W))).
    destruct V as [E|E|E N|E].
    + eapply H', TgvID, E.
    + eapply H', TgvNoTexture, E.
    + eapply H', TgvTexture; [exact E|]. intros t T. exact (N t (asset_grow _ _ _ T)).
    + eapply H', TgvEmpty, E.
  - assert (H' : forall loc k, ~ TextureViolation m t loc k) by (intros ? ? W; exact (H _ _ (MatTexture _ _ _ _ _ W))).
    destruct V as [E|E|E N|E].
    + eapply H', TxvID, E.
    + eapply H', TxvNoPath, E.
    + eapply H', TxvPart; [exact E|]. intros (a & I & F). apply N. destruct (ad_atts _ _ A) as (r & ->). exists a. split; [apply in_or_app; left; exact I|exact F].
    + eapply H', TxvContent, E.
  - assert (H' : forall loc k, ~ CompositeViolation m q c loc k) by (intros ? ? W; exact (H _ _ (MatComposite _ _ _ _ _ W))).
    destruct V as [E|E|E N|a E I N|b i E I J L|E|E].
    + eapply H', CmvID, E.
    + eapply H', CmvNoMat, E.
    + eapply H', CmvMissing; [exact E|]. intros a T. exact (N a (asset_grow _ _ _ T)).
    + destruct (found_asset (cm_mat c)) as (b & B); [intros D; eapply H', CmvMissing; eassumption|].
      rewrite (asset_back _ _ _ _ B I) in N. eapply H', CmvBase; eassumption.
    + destruct (found_asset (cm_mat c)) as (d & B); [intros D; eapply H', CmvMissing; eassumption|].
      rewrite <- (asset_back _ _ _ _ B I) in B. eapply H', CmvIndex; eassumption.
    + eapply H', CmvNoIndex, E.
    + eapply H', CmvEmpty, E.
  - assert (H' : forall loc k, ~ MultiViolation m q p loc k) by (intros ? ? W; exact (H _ _ (MatMulti _ _ _ _ _ W))).
    assert (FD : forall pid, In pid (mp_pids p) -> exists a, AssetIn m q pid a).
    { intros pid I. apply found_asset. intros D. eapply H', MpvMissing; eassumption. }
    assert (BK : forall pid a, In pid (mp_pids p) -> AssetIn m' q pid a -> AssetIn m q pid a).
    { intros pid a I Ha. destruct (FD pid I) as (b & B). rewrite (asset_back _ _ _ _ B Ha). exact B. }
    destruct V as [E|E|E|E|pid I N|j pid a E N I T|pid a I B T|i j pid pid' a a' N E E' I I' T T'|j mu l i pid n E E' P S L].
    + eapply H', MpvID, E.
    + eapply H', MpvNoPids, E.
    + eapply H', MpvBlend, E.
    + eapply H', MpvEmpty, E.
    + destruct (FD pid I) as (a & B). exact (N a (asset_grow _ _ _ B)).
    + eapply H', MpvMaterial; [exact E|exact N| |exact T]. apply BK; [eapply nth_error_In; exact E|exact I].
    + exact (H' _ _ (MpvMulti m q p pid a I (BK pid a I B) T)).
    + eapply H', (MpvColors _ _ _ i j); [exact N|exact E|exact E'| | |exact T|exact T']; (apply BK; [eapply nth_error_In; eassumption|assumption]).
    + assert (I : In pid (mp_pids p)) by (eapply nth_error_In; exact P). eapply H', (MpvIndex _ _ _ j mu l i pid n); [exact E|exact E'|exact P| |exact L].
      destruct S as [b B|b B|b B|F]; [apply CsBase|apply CsComposite|apply CsColor|apply CsOther]; try (apply BK; assumption).
      intros a Ha. apply F, asset_grow, Ha.
Qed.
Lemma beam_old o loc k : In o (rs_objects rs) -> (forall loc k, ~ BeamViolation m q (VObject o) loc k) -> ~ BeamViolation m' q (VObject o) loc k.
Proof.
  intros I H V. inversion V as [o' me bl loc' k' M L W]. subst o' loc k'.
  assert (H' : forall loc k, ~ LatticeViolation m q o me bl loc k) by (intros ? ? U; exact (H _ _ (BvLattice _ _ _ _ _ _ _ M L U))).
  destruct (addr_grow q rs Q) as (rs' & Q' & x & y & _ & E & _).
  destruct W as [T|T|T|T U|id k In1 N R|i b T U|i b v T U J B|i b T U J B|i s r T U J].
  - eapply H', LvType, T.
  - eapply H', LvMinLen, T.
  - eapply H', LvRadius, T.
  - eapply H', LvClip; assumption.
  - eapply H', LvRef; [exact In1|exact N|]. destruct R as [R|rs1 z R S D|rs1 z R S D P].
    + apply RmSelf, R.
    + rewrite (addr_unique _ _ _ _ ad_ok' S Q'), E in D. apply before_longer in D; [|exists o; auto]. eapply RmLate; [exact R|exact Q|exact D].
    + rewrite (addr_unique _ _ _ _ ad_ok' S Q'), E in D. apply before_longer in D; [|exists o; auto]. eapply RmKind; [exact R|exact Q|exact D|exact P].
  - eapply H', LvSame; eassumption.
  - eapply H', LvRange; eassumption.
  - eapply H', LvR2; eassumption.
  - eapply H', LvSet; eassumption.
Qed.
Lemma prod_object_old o loc k : (forall loc k, ~ ProdViolation m q (VObject o) loc k) -> ~ ProdViolation m' q (VObject o) loc k.
Proof.
  intros H V. inversion V as [| |o' k' W|o' i c k' E W]; subst.
  - exact (H _ _ (PvObject _ _ _ _ W)).
  - eapply H, PvComponent; [exact E|]. destruct W as [N|p N|u p N U W|u p N U W R]; [apply RuNone, N|eapply RuEmpty, N|eapply RuBad; eassumption|].
    eapply RuPath; try eassumption. rewrite <- ad_root. exact R.
Qed.
Lemma prod_model_old p loc k : (forall loc k, ~ ProdViolation m p VModel loc k) -> ProdViolation m' p VModel loc k ->
  exists i, loc = [lv "build"; lvi "item" i] /\ List.length (bu_items (mo_build m)) <= i < List.length (bu_items (mo_build m')).
Proof.
  intros H V. inversion V as [k' W|i it k' E W| |]; subst.
  - rewrite (ad_bany _ _ A) in W. destruct (H _ _ (PvBuild _ _ _ W)).
  - exists i. split; [reflexivity|]. split; [|apply nth_error_Some; congruence].
    destruct (Nat.le_gt_cases (List.length (bu_items (mo_build m))) i) as [L|L]; [exact L|]. exfalso.
    destruct (ad_items _ _ A) as (r & X). rewrite X in E. apply nth_old in E; [|exact L].
    eapply H, PvItem; [exact E|]. destruct W as [N|x N|u x N U W|u x N U W R]; [apply RuNone, N|eapply RuEmpty, N|eapply RuBad; eassumption|].
    destruct (W eq_refl).
Qed.
(** *** Slices *)
Section Slices.
Hypothesis stacks : forall st loc k, In (AExt (XSliceStack st)) (rs_assets rs) -> ~ StackViolation m q st loc k.
Lemma refs_found st r : In (AExt (XSliceStack st)) (rs_assets rs) -> In r (ss_refs st) -> exists a, AssetIn m (sr_path r) (sr_id r) a.
Proof.
  intros I J. apply In_nth_error in J as (i & J).
  assert (H : forall k, ~ RefViolation m q (ss_refs st) i k) by (intros k V; eapply stacks; [exact I|]; eapply StRef, V).
  destruct (asset_dec m (sr_path r) (sr_id r) ad_ok) as [D|D]; [exact D|]. exfalso.
  assert (P : sr_path r <> "") by (intros E; eapply H, RfPath; eassumption).
  eapply H, RfMissing; [exact J| |exact D]. split; [exact P|]. split; [|intros E; eapply H, RfID; eassumption].
  intros E. eapply H, RfSame; eassumption.
Qed.
Lemma stack_back st r s : In (AExt (XSliceStack st)) (rs_assets rs) -> In r (ss_refs st) -> StackIn m' (sr_path r) (sr_id r) s -> StackIn m (sr_path r) (sr_id r) s.
Proof. intros I J K. destruct (refs_found st r I J) as (a & B). unfold StackIn in *. rewrite (asset_back _ _ _ _ B K). exact B. Qed.
Lemma stack_old st loc k : In (AExt (XSliceStack st)) (rs_assets rs) -> ~ StackViolation m' q st loc k.
Proof.
  intros I V. pose proof (fun loc k => stacks st loc k I) as H. pose proof (stack_back st) as BK. pose proof (refs_found st) as FD.
  destruct V as [E|i k V|j loc k V]; [eapply H, StBoth, E| |eapply H, StSlice, V].
  assert (EN : forall i z, EndsAt m q (ss_refs st) i z <-> EndsAt m' q (ss_refs st) i z).
  { intros i' z. split; intros (r & s & t & N & W & S & L & T); exists r, s, t; (split; [exact N|]; split; [exact W|]; split; [|split; assumption]).
    - apply asset_grow, S.
    - apply (BK r s I); [eapply nth_error_In; exact N|exact S]. }
  eapply H, StRef. destruct V as [r N E|r N E1 E2|r N E|r N W D|r a N W B K|r s N W S E|r s t z N W S F HB L].
  - eapply RfPath; eassumption.
  - eapply RfSame; eassumption.
  - eapply RfID; eassumption.
  - eapply RfMissing; [exact N|exact W|]. intros a B. exact (D a (asset_grow _ _ _ B)).
  - eapply RfKind; [exact N|exact W| |exact K]. destruct (FD r I (nth_error_In _ _ N)) as (b & C). rewrite (asset_back _ _ _ _ C B). exact C.
  - eapply RfRef; [exact N|exact W| |exact E]. apply (BK r s I (nth_error_In _ _ N) S).
  - eapply RfOrder; [exact N|exact W|apply (BK r s I (nth_error_In _ _ N) S)|exact F| |exact L].
    destruct HB as [D|j z J E D]; [apply HbNone; intros j z' J E; apply EN in E; exact (D j z' J E)|].
    apply (HbSome _ _ _ _ j); [exact J|apply EN, E|]. intros k' y K E'. apply EN in E'. exact (D k' y K E').
Qed.
Lemma sliced_old o k : (forall k, ~ SliceObjViolation m q o k) -> SliceObjViolation m' q o k ->
  k = ESent "ErrSliceInvalidTranform" /\ (exists sid res, SliceAttr o sid res) /\ BadBuild m' q (ob_id o) /\ ~ BadBuild m q (ob_id o).
Proof.
  intros H V.
  assert (FD : forall sid res, SliceAttr o sid res -> sid <> 0%N -> exists a, AssetIn m q sid a).
  { intros sid res S N. apply found_asset. intros D. eapply H, SoMissing; eassumption. }
  destruct V as [res S|sid res S N D|sid res a S N B K|sid res st S N B P|sid res st S N B T C|sid S R].
  - destruct (H _ (SoNoID _ _ _ _ S)).
  - exfalso. destruct (FD sid res S N) as (a & B). exact (D a (asset_grow _ _ _ B)).
  - exfalso. destruct (FD sid res S N) as (b & C). rewrite (asset_back _ _ _ _ C B) in K. eapply H, SoKind; eassumption.
  - split; [reflexivity|]. split; [exists sid, res; exact S|]. split; [exact P|]. intros P'. destruct (FD sid res S N) as (b & D).
    unfold StackIn in B. rewrite <- (asset_back _ _ _ _ D B) in D. exact (H _ (SoPlacement _ _ _ _ _ _ S N D P')).
  - exfalso. destruct (FD sid res S N) as (b & D). unfold StackIn in B. rewrite <- (asset_back _ _ _ _ D B) in D.
    eapply H, SoOpen; [exact S|exact N|exact D|exact T|]. intros [C1 C2]. apply C. split; [exact C1|]. intros r s J K. eapply C2; [exact J|].
    apply (stack_back st r s); [|exact J|exact K]. destruct D as (rs1 & Q1 & F). rewrite (addr_unique _ _ _ _ ad_ok Q1 Q) in F.
    destruct F as (b1 & a1 & -> & _). apply in_or_app. right. left. reflexivity.
  - exfalso. eapply H, SoRequired; [exact S|]. intros X. apply R. unfold SlicesRequired in *. rewrite (ad_exts _ _ A). exact X.
Qed.
End Slices.
End Added.

(** ** The registered validators *)
Definition ExtViolation (ns : string) (n : Model) (q : string) (el : VElem) (loc : list Level) (k : gerr) : Prop :=
  (ns = M_ExtValidate.ns_materials /\ MaterialViolation n q el loc k) \/ (ns = M_ExtValidate.ns_beamlattice /\ BeamViolation n q el loc k) \/
  (ns = M_ExtValidate.ns_slices /\ SlicesViolation n q el loc k) \/ (ns = M_ExtValidate.ns_production /\ ProdViolation n q el loc k).
Lemma reports_violation fuel n ns q el x : ChildsOk n -> Reports (registry fuel) ns n q el x ->
  exists loc k, x = (loc, "", k) /\ ExtViolation ns n q el loc k.
Proof.
  intros Hok (v & E & I). revert E. unfold registry.
  destruct (seq_spec ns M_ExtValidate.ns_materials) as [->|N1].
  { intros [= <-]. apply C25_materials_reports in I as (loc & k & -> & V); [|exact Hok]. exists loc, k. split; [reflexivity|]. left. auto. }
  destruct (seq_spec ns M_ExtValidate.ns_beamlattice) as [->|N2].
  { intros [= <-]. apply C26_lattice_reports in I as (loc & k & -> & V); [|exact Hok]. exists loc, k. split; [reflexivity|]. right. left. auto. }
  destruct (seq_spec ns M_ExtValidate.ns_slices) as [->|N3].
  { intros [= <-]. cbv beta in I. destruct (slices_validate fuel n q el) as [e|] eqn:E; [|destruct I].
    apply (C27_slices_reports fuel n q el e x Hok E) in I as (loc & k & -> & V). exists loc, k. split; [reflexivity|]. right. right. left. auto. }
  destruct (seq_spec ns M_ExtValidate.ns_production) as [->|N4]; [|intros E; discriminate E].
  intros [= <-]. apply C28_production_reports in I as (loc & k & -> & V). exists loc, k. split; [reflexivity|]. right. right. right. auto.
Qed.
Lemma violation_reports fuel n ns q el loc k : ChildsOk n -> slices_validate fuel n q el <> None -> ExtViolation ns n q el loc k ->
  Reports (registry fuel) ns n q el (loc, "", k).
Proof.
  intros Hok T [[-> V]|[[-> V]|[[-> V]|[-> V]]]].
  - exists materials_validate. split; [reflexivity|]. apply C25_materials_reports; [exact Hok|eauto].
  - exists beamlattice_validate. split; [reflexivity|]. apply C26_lattice_reports; [exact Hok|eauto].
  - eexists. split; [reflexivity|]. cbv beta. destruct (slices_validate fuel n q el) as [e|] eqn:E; [|contradiction].
    apply (C27_slices_reports fuel n q el e _ Hok E). eauto.
  - exists production_validate. split; [reflexivity|]. apply C28_production_reports. eauto.
Qed.

Section Report.
Context (m m' : Model) (A : Added m m') (fuel : nat) (T : forall q el, slices_validate fuel m q el <> None).
Definition NewlyBad q o : Prop := BadBuild m' q (ob_id o) /\ ~ BadBuild m q (ob_id o) /\ In slice_ns (map ex_ns (mo_exts m)).
Notation R := (Reports (registry fuel)).
Lemma clean q el e : ElemConforms R m q el -> In e (mo_exts m) -> forall loc k, ~ ExtViolation (ex_ns e) m q el loc k.
Proof. intros C I loc k V. eapply C; [exact I|]. apply violation_reports; [exact (ad_ok _ _ A)|apply T|exact V]. Qed.
Lemma elem_old q rs el x : Addressed m q rs -> (forall a, In a (rs_assets rs) -> ElemConforms R m q (VAsset a)) ->
  (exists a, el = VAsset a /\ In a (rs_assets rs)) \/ (exists o, el = VObject o /\ In o (rs_objects rs) /\ ElemConforms R m q (VObject o)) ->
  ElemViolation R m' q el x ->
  exists o sid res, el = VObject o /\ x = ([], "", ESent "ErrSliceInvalidTranform") /\ SliceAttr o sid res /\ NewlyBad q o.
Proof.
  intros Q CA El V. destruct V as [e x I V]. rewrite (ad_exts _ _ A) in I. apply reports_violation in V as (loc & k & -> & V); [|exact (ad_ok' _ _ A)].
  assert (C : ElemConforms R m q el) by (destruct El as [(a & -> & J)|(o & -> & _ & J)]; [apply CA, J|exact J]).
  pose proof (clean q el e C I) as H. destruct V as [[N V]|[[N V]|[[N V]|[N V]]]].
  - exfalso. revert V. apply (material_old m m' A q). intros l k' W. apply (H l k'). left. auto.
  - exfalso. destruct El as [(a & -> & J)|(o & -> & J & _)]; [inversion V|]. revert V. apply (beam_old m m' A q rs Q o); [exact J|]. intros l k' W. apply (H l k'). right. left. auto.
  - assert (ST : forall st loc k, In (AExt (XSliceStack st)) (rs_assets rs) -> ~ StackViolation m q st loc k).
    { intros st l k' J W. apply (clean q _ e (CA _ J) I l k'). right. right. left. split; [exact N|]. apply SvStack, W. }
    destruct El as [(a & -> & J)|(o & -> & J & _)].
    + exfalso. inversion V as [st l k' W|]; subst. exact (stack_old m m' A q rs ST st loc k J W).
    + inversion V as [|o' k' W]; subst. destruct (sliced_old m m' A q rs Q ST o k) as (-> & (sid & res & S) & B1 & B2); [|exact W|].
      * intros k' X. apply (H [] k'). right. right. left. split; [exact N|]. apply SvSliced, X.
      * exists o, sid, res. split; [reflexivity|]. split; [reflexivity|]. split; [exact S|]. split; [exact B1|]. split; [exact B2|]. apply in_map_iff. exists e. auto.
  - exfalso. destruct El as [(a & -> & J)|(o & -> & J & _)]; [inversion V|]. revert V. apply (prod_object_old m m' A q). intros l k' W. apply (H l k'). right. right. right. auto.
Qed.
Lemma model_old q x : ElemConforms R m q VModel -> ElemViolation R m' q VModel x ->
  exists i k, x = ([lv "build"; lvi "item" i], "", k) /\ List.length (bu_items (mo_build m)) <= i < List.length (bu_items (mo_build m')).
Proof.
  intros C [e y I V]. rewrite (ad_exts _ _ A) in I. apply reports_violation in V as (loc & k & -> & V); [|exact (ad_ok' _ _ A)].
  pose proof (clean q VModel e C I) as H. destruct V as [[N V]|[[N V]|[[N V]|[N V]]]]; try (inversion V; fail).
  apply (prod_model_old m m' A) in V as (i & -> & L); [exists i, k; auto|]. intros l k' W. apply (H l k'). right. right. right. auto.
Qed.
(** A part of [m] within [m'] *)
Lemma res_old q rs rs' x : Addressed m q rs -> Grown rs rs' -> ResConforms R m q rs -> ResViolation R m' q rs' x ->
  (exists i a nm loc k, x = (lvi nm i :: loc, "", k) /\ List.length (rs_assets rs) <= i /\ nth_error (rs_assets rs') i = Some a /\ AssetName a nm) \/
  (exists i o loc k, x = (lvi "object" i :: loc, "", k) /\ List.length (rs_objects rs) <= i /\ nth_error (rs_objects rs') i = Some o /\
     ((ob_id o <> 0%N /\ ((exists a, In a (rs_assets rs') /\ asset_id a = ob_id o) \/
        (exists j o', j < i /\ nth_error (rs_objects rs') j = Some o' /\ ob_id o' = ob_id o))) \/
      ObjViolation m' q o loc k \/ ElemViolation R m' q (VObject o) (loc, "", k))) \/
  (exists i o sid res, x = ([lvi "object" i], "", ESent "ErrSliceInvalidTranform") /\ nth_error (rs_objects rs) i = Some o /\
     SliceAttr o sid res /\ NewlyBad q o).
Proof.
  intros Q (as' & os & EA & EO & F) (U & B & CA & CO) V.
  assert (Sp : forall el loc q0 k, ElemViolation R m' q el (loc, q0, k) -> q0 = "").
  { intros el loc q0 k W. inversion W as [e y I X Y]. apply reports_violation in X as (l & k' & X & _); [congruence|exact (ad_ok' _ _ A)]. }
  destruct V as [i a nm j a' E N Z J E' K|i b loc k E W|i a nm loc q0 k E N W|i o E Z D|i o loc k E W|i o loc q0 k E W].
  - left. exists i, a, nm, [], (ESent "ErrDuplicatedID"). split; [reflexivity|]. split; [|auto 8]. destruct (Nat.le_gt_cases (List.length (rs_assets rs)) i) as [L|L]; [exact L|]. exfalso.
    rewrite EA in E, E'. apply nth_old in E; [|exact L]. apply nth_old in E'; [|lia]. specialize (U _ Z). unfold id_count in U.
    assert (2 <= List.length (filter (fun x => (asset_id x =? asset_id a)%N) (rs_assets rs))); [|lia].
    apply nth_error_split in E as (l1 & l2 & Eq & L1). rewrite Eq in E' |- *. rewrite nth_error_app1 in E' by lia. apply in_split in E' as (y & z & ->) || (apply nth_error_In in E'; apply in_split in E' as (y & z & ->)).
    rewrite !filter_app, !app_length. cbn [filter]. rewrite K, N.eqb_refl. cbn [List.length]. lia.
  - left. exists i, (ABase b), "basematerials", loc, k. split; [reflexivity|]. split; [|split; [exact E|constructor]].
    destruct (Nat.le_gt_cases (List.length (rs_assets rs)) i) as [L|L]; [exact L|]. exfalso.
    rewrite EA in E. apply nth_old in E; [|exact L]. apply nth_error_In in E. exact (proj2 (base_conforms b) (B b E) loc k W).
  - rewrite (Sp _ _ _ _ W) in *. left. exists i, a, nm, loc, k. split; [reflexivity|]. split; [|auto 8].
    destruct (Nat.le_gt_cases (List.length (rs_assets rs)) i) as [L|L]; [exact L|]. exfalso.
    rewrite EA in E. apply nth_old in E; [|exact L]. apply nth_error_In in E.
    destruct (elem_old q rs (VAsset a) _ Q CA (or_introl (ex_intro _ a (conj eq_refl E))) W) as (o & ? & ? & X & _). discriminate X.
  - right. left. exists i, o, [], (ESent "ErrDuplicatedID"). split; [reflexivity|]. split; [|auto 8]. destruct (Nat.le_gt_cases (List.length (rs_objects rs)) i) as [L|L]; [exact L|]. exfalso.
    rewrite EO in E. apply nth_old in E; [|exact L]. specialize (U _ Z). unfold id_count in U.
    assert (O : 1 <= List.length (filter (fun x => (ob_id x =? ob_id o)%N) (rs_objects rs))).
    { apply nth_error_split in E as (l1 & l2 & -> & _). rewrite filter_app, app_length. cbn [filter]. rewrite N.eqb_refl. cbn. lia. }
    destruct D as [(a & I & K)|(j & o' & J & E' & K)].
    + rewrite EA in I. apply in_app_or in I as [I|I].
      * apply in_split in I as (l1 & l2 & I). rewrite I, filter_app, app_length in U. cbn [filter] in U. rewrite K, N.eqb_refl in U. cbn [List.length] in U. lia.
      * exact (F a o I (nth_error_In _ _ E) K).
    + rewrite EO in E'. apply nth_old in E'; [|lia]. 
      assert (2 <= List.length (filter (fun x => (ob_id x =? ob_id o)%N) (rs_objects rs))); [|lia].
      apply nth_error_split in E as (l1 & l2 & Eq & L1). rewrite Eq in E' |- *. rewrite nth_error_app1 in E' by lia. apply nth_error_In in E'. apply in_split in E' as (y & z & ->).
      rewrite !filter_app, !app_length. cbn [filter]. rewrite K, N.eqb_refl. cbn [List.length]. lia.
  - right. left. exists i, o, loc, k. split; [reflexivity|]. split; [|auto 8]. destruct (Nat.le_gt_cases (List.length (rs_objects rs)) i) as [L|L]; [exact L|]. exfalso.
    rewrite EO in E. apply nth_old in E; [|exact L]. apply nth_error_In in E. destruct (CO o E) as [C _].
    exact (proj2 (obj_conforms m' q o (ad_ok' _ _ A)) (object_grow m m' A q o C) loc k W).
  - pose proof (Sp _ _ _ _ W) as ->. destruct (Nat.le_gt_cases (List.length (rs_objects rs)) i) as [L|L]; [right; left; exists i, o, loc, k; repeat (split; [first [reflexivity|assumption]|]); right; right; exact W|].
    right. right. rewrite EO in E. apply nth_old in E; [|exact L]. pose proof (nth_error_In _ _ E) as I.
    destruct (elem_old q rs (VObject o) _ Q CA (or_intror (ex_intro _ o (conj eq_refl (conj I (proj2 (CO o I)))))) W) as (o' & sid & res & [= <-] & [= -> ->] & S & X).
    exists i, o, sid, res. subst. split; [reflexivity|]. split; [exact E|]. split; [exact S|exact X].
Qed.
Theorem added_places loaded loc p k : Conforms loaded R m -> Violation loaded R m' (loc, p, k) ->
  NewPlace m m' loc p \/ (k = ESent "ErrSliceInvalidTranform" /\ Displaced m m' loc p).
Proof.
  intros (C1 & C2 & C3 & C4 & C5 & C6 & C7 & C8) V.
  inversion V as [i k' W|e I E L|c I|p' c i k' I N W|i k' W|i k' W|l q k' W|p' c l q k' I W|l q k' W|i it l k' E W]; subst.
  - left. apply NpRootRel. eapply rel_old; [apply (ad_atts _ _ A)|apply (ad_rootrels _ _ A)|exact C2|exact W].
  - rewrite (ad_exts _ _ A) in I. destruct (L (C1 e I E)).
  - destruct (ad_names _ _ A (root_path m')) as [_ H]; [apply (in_map fst) in I; exact I|destruct (H eq_refl)].
  - left. destruct (in_dec string_dec p (map fst (mo_childs m))) as [D|D].
    + apply in_map_iff in D as ([q d] & <- & D). cbn [fst] in *. eapply NpChildRel; [exact D|]. destruct (C7 _ _ D) as (_ & C & _).
      destruct (ad_child_back m m' A q d c D I) as (_ & G & _). eapply rel_old; [apply (ad_atts _ _ A)|exact G|exact C|exact W].
    + apply NpPart; [apply (in_map fst) in I; exact I|exact D].
  - left. rewrite (ad_root _ _ A). apply NpRel. eapply rel_old; [apply (ad_atts _ _ A)|apply (ad_rels _ _ A)|exact C3|exact W].
  - left. apply NpMeta. eapply meta_old; [apply (ad_exts _ _ A)|apply (ad_md _ _ A)|exact C4|exact W].
  - left. rewrite (ad_path _ _ A) in W. apply model_old in W as (i & k' & [= -> -> ->] & L); [|exact C5]. apply NpItem, (proj1 L).
  - destruct (in_dec string_dec p (map fst (mo_childs m))) as [D|D].
    + apply in_map_iff in D as ([q' d] & <- & D). cbn [fst] in *. destruct (C7 _ _ D) as (NR & _ & C). destruct (ad_child_back m m' A q' d c D I) as (_ & _ & G).
      destruct (ad_names_old m m' A q') as [NE _]; [apply (in_map fst) in D; exact D|].
      destruct (res_old q' _ _ _ (addr_child m q' d D NE NR) G C W) as [(i & a & nm & l' & k' & [= -> -> ->] & L & E & AN)|[(i & o & l' & k' & [= -> -> ->] & L & _)|(i & o & sid & res & [= -> -> ->] & E & S & X)]].
      * left. eapply NpAsset; [apply PoChild, D|apply PoChild, I|exact L|exact E|exact AN].
      * left. eapply NpObject; [apply PoChild, D|exact L].
      * right. split; [reflexivity|]. eapply DpObject; [apply PoChild, D|reflexivity|exact E|exact S|..]; destruct X as (X1 & X2 & X3); [exact X3| |]; (destruct (seq_spec q' "") as [Z|_]; [contradiction|assumption]).
    + left. apply NpPart; [apply (in_map fst) in I; exact I|exact D].
  - rewrite (ad_root _ _ A) in W.
    destruct (res_old (root_path m) _ _ _ (addr_root m) (ad_res _ _ A) C6 W) as [(i & a & nm & l' & k' & [= -> -> ->] & L & E & AN)|[(i & o & l' & k' & [= -> -> ->] & L & _)|(i & o & sid & res & [= -> -> ->] & E & S & X)]].
    + left. eapply NpAsset; [apply PoRoot|apply PoRoot|exact L|exact E|exact AN].
    + left. eapply NpObject; [apply PoRoot|exact L].
    + right. split; [reflexivity|]. eapply DpObject; [apply PoRoot|reflexivity|exact E|exact S|apply X|apply X|apply X].
  - left. apply NpItem. destruct (Nat.le_gt_cases (List.length (bu_items (mo_build m))) i) as [L|L]; [exact L|]. exfalso.
    destruct (ad_items _ _ A) as (r & X). rewrite X in E. apply nth_old in E; [|exact L]. apply nth_error_In in E.
    destruct (C8 it E) as (N & (q & o & P & O & Ty) & M). destruct W as [Z|q' Z P' D|q' o' Z P' O' Ty'|j k W].
    + contradiction.
    + apply any_path_spec in P as <-. apply any_path_spec in P' as <-. exact (D o (obj_grow m m' A _ _ _ O)).
    + apply any_path_spec in P as <-. apply any_path_spec in P' as <-. rewrite (obj_back m m' A _ _ _ _ O O') in Ty'. contradiction.
    + apply (meta_exts _ _ _ (ad_exts _ _ A)) in M. exact (proj2 (meta_conforms m' _) M _ _ W).
Qed.
End Report.
