(** * Theorems on the validator of the materials extension: C25 *)
From Verif Require Import GoBase GoFloat Types M_Core S_Core P_Core M_Errors S_Errors P_Errors
  M_Geom S_Geom P_Geom P_Coherency M_Validate S_Validate P_Validate P_Validate2 P_Validate3
  M_ExtValidate S_ExtValidate P_ExtMat.

(** C25: the validator reports exactly the located violations. *)
Theorem C25_materials_reports : forall m path el x, NoDup (map fst (mo_childs m)) ->
  (In x (located_o (materials_validate m path el)) <->
   exists loc k, x = (loc, "", k) /\ MaterialViolation m path el loc k).
Proof. intros m path el x Hok. apply in_materials. exact Hok. Qed.
Print Assumptions C25_materials_reports.
(** C25, colour groups, texture groups and textures: accepted exactly when conforming. *)
Theorem C25_color_group : forall m path g,
  materials_validate m path (VAsset (AExt (XColorGroup g))) = None <-> ColorConforms g.
Proof. intros m path g. rewrite <- color_conforms. apply nil_no_violation; [apply nn_color_group|apply in_color_group]. Qed.
Print Assumptions C25_color_group.
Theorem C25_texture_group : forall m path g, NoDup (map fst (mo_childs m)) ->
  (materials_validate m path (VAsset (AExt (XTex2DGroup g))) = None <-> TexGroupConforms m path g).
Proof.
  intros m path g Hok. rewrite <- (tex_group_conforms m path g Hok).
  apply nil_no_violation; [apply nn_tex_group|intros x; apply in_tex_group; exact Hok].
Qed.
Print Assumptions C25_texture_group.
Theorem C25_texture : forall m path t,
  materials_validate m path (VAsset (AExt (XTexture2D t))) = None <-> TextureConforms m t.
Proof. intros m path t. rewrite <- texture_conforms. apply nil_no_violation; [apply nn_texture|apply in_texture]. Qed.
Print Assumptions C25_texture.

Definition ex_mmodel (assets : list Asset) : Model :=
  mkModel "" "" 0 "" (mkRes assets [] []) (mkBuild [] []) [mkAtt "x" "/T.png" "image/png"] [] [] [] [] [] [] [].
Definition ex_mbase : Asset := ABase (mkBM 1 [mkBase "a" (mkRGBA 1 2 3 4) []; mkBase "b" (mkRGBA 1 2 3 4) []] []).
Definition ex_mtex : Texture2D := mkTex2D 2 "/t.png" 1 0 0 0.
Definition ex_mtg : Tex2DGroup := mkTG 3 2 [(f_zero, f_zero); (f_one, f_one)].
Definition ex_mcg : ColorGroup := mkCG 4 [mkRGBA 9 9 9 9; mkRGBA 8 8 8 8].
Example C25_nonvacuous :
  ColorConforms ex_mcg /\ ~ ColorConforms (mkCG 4 [mkRGBA 9 9 9 9; mkRGBA 0 0 0 0]) /\
  TexGroupConforms (ex_mmodel [AExt (XTexture2D ex_mtex); AExt (XTex2DGroup ex_mtg)]) "" ex_mtg /\
  TextureConforms (ex_mmodel []) ex_mtex /\
  MaterialViolation (ex_mmodel []) "" (VAsset (AExt (XTex2DGroup ex_mtg))) [] (ESent "ErrTextureReference").
Proof.
  split; [apply (C25_color_group (ex_mmodel []) ""); reflexivity|].
  split; [rewrite <- (C25_color_group (ex_mmodel []) ""); discriminate|].
  split; [apply C25_texture_group; [constructor|reflexivity]|].
  split; [apply (C25_texture (ex_mmodel []) ""); vm_compute; reflexivity|].
  constructor. apply TgvTexture; [discriminate|]. intros t (rs & Ha & Hf).
  assert (N : forall rs, Addressed (ex_mmodel []) "" rs -> rs_assets rs = []).
  { intros rs' H. destruct H as [| | |c _ _ []]; reflexivity. }
  destruct Hf as (b & a & E & _). rewrite (N _ Ha) in E. destruct b; discriminate.
Qed.

(** C25: refuted.  A composite and a multi-property with an index equal to the size of
    the group are accepted, and a conforming multi-property of a texture group is refused. *)
Theorem C25_indices_refuted :
  (exists m c, materials_validate m "" (VAsset (AExt (XComposite c))) = None /\ ~ CompositeConforms m "" c) /\
  (exists m p, materials_validate m "" (VAsset (AExt (XMulti p))) = None /\ ~ MultiConforms m "" p) /\
  (exists m p, materials_validate m "" (VAsset (AExt (XMulti p))) <> None /\ MultiConforms m "" p).
Proof.
  assert (Hok : forall l, ChildsOk (ex_mmodel l)) by (intros l; constructor).
  split; [|split].
  - exists (ex_mmodel [ex_mbase]), (mkCM 5 1 [0%N; 2%N] [[f_one; f_one]]). split; [reflexivity|].
    intros (_ & _ & _ & _ & b & Hb & H). apply asset_in' in Hb; [|apply Hok].
    vm_compute in Hb. injection Hb as <-. specialize (H 2%N ltac:(cbn; auto)). vm_compute in H. discriminate.
  - exists (ex_mmodel [ex_mbase]), (mkMP 5 [1%N] [] [[2%N]]). split; [reflexivity|].
    intros (_ & _ & _ & _ & _ & _ & _ & H).
    specialize (H [2%N] 0 2%N 1%N ex_mbase 2 (or_introl eq_refl) eq_refl eq_refl).
    assert (C : (2 < N.of_nat 2)%N). { apply H; [apply asset_in'; [apply Hok|reflexivity]|constructor]. }
    vm_compute in C. discriminate.
  - set (m := ex_mmodel [AExt (XTexture2D ex_mtex); AExt (XTex2DGroup ex_mtg); AExt (XColorGroup ex_mcg)]).
    exists m, (mkMP 5 [4%N; 3%N] [] [[1%N; 1%N]]).
    split; [vm_compute; discriminate|].
    assert (F : forall pid a, AssetIn m "" pid a -> pid = 4%N /\ a = AExt (XColorGroup ex_mcg) \/ pid = 3%N /\ a = AExt (XTex2DGroup ex_mtg) \/ pid = 2%N /\ a = AExt (XTexture2D ex_mtex)).
    { intros pid a Ha. apply asset_in' in Ha; [|apply Hok].
      change (find_asset m "" pid) with (find_ast pid (rs_assets (mo_res m))) in Ha. cbn [m ex_mmodel mo_res rs_assets find_ast asset_id ext_id ex_mtex ex_mtg ex_mcg tx_id tg_id cg_id] in Ha.
      destruct (N.eqb_spec 2 pid) as [<-|]; [injection Ha as <-; auto|].
      destruct (N.eqb_spec 3 pid) as [<-|]; [injection Ha as <-; auto|].
      destruct (N.eqb_spec 4 pid) as [<-|]; [injection Ha as <-; auto|discriminate]. }
    split; [discriminate|]. split; [discriminate|]. split; [discriminate|]. split; [cbn; lia|].
    split; [|split; [|split]].
    + intros pid Hp. destruct Hp as [<-|[<-|[]]].
      * exists (AExt (XColorGroup ex_mcg)). split; [apply asset_in'; [apply Hok|reflexivity]|]. intros (z & E); discriminate.
      * exists (AExt (XTex2DGroup ex_mtg)). split; [apply asset_in'; [apply Hok|reflexivity]|]. intros (z & E); discriminate.
    + intros j pid a Hj Ha Hk. exfalso. apply F in Ha as [[_ ->]|[[_ ->]|[_ ->]]]; destruct Hk as [(z & E)|(z & E)]; discriminate.
    + assert (K : forall i pid a, nth_error (mp_pids (mkMP 5 [4%N; 3%N] [] [[1%N; 1%N]])) i = Some pid -> AssetIn m "" pid a -> IsColor a -> i = 0).
      { intros i pid a Hi Ha (g & ->). apply F in Ha as [[-> _]|[[_ E]|[_ E]]]; [|discriminate..].
        destruct i as [|[|i]]; [reflexivity|discriminate|destruct i; discriminate]. }
      intros i j pid pid' a a' Hi Hj Ha Ha' Hk Hk'. rewrite (K _ _ _ Hi Ha Hk), (K _ _ _ Hj Ha' Hk'). reflexivity.
    + intros mu k i pid a n [<-|[]] Hi Hp Ha Hn.
      assert (i = 1%N) as -> by (destruct k as [|[|k]]; [injection Hi as <-; reflexivity..|destruct k; discriminate]).
      apply F in Ha as [[_ ->]|[[_ ->]|[-> _]]]; [inversion Hn; subst; vm_compute; reflexivity..|].
      destruct k as [|[|k]]; [discriminate..|destruct k; discriminate].
Qed.
Print Assumptions C25_indices_refuted.

(** What holds for composites and multi-properties: accepted exactly when conforming,
    provided no index equals the size of its group and every group of a multi-property is
    a base, composite, colour or multi-property group.  Missing: the boundary index and
    texture groups, where the validator errs as shown above. *)
Theorem C25_composite_partial : forall m path c, NoDup (map fst (mo_childs m)) ->
  (forall b, AssetIn m path (cm_mat c) (ABase b) -> ~ In (N.of_nat (List.length (bs_mats b))) (cm_indices c)) ->
  (materials_validate m path (VAsset (AExt (XComposite c))) = None <-> CompositeConforms m path c).
Proof.
  intros m path c Hok Hb. rewrite <- (composite_conforms m path c Hok Hb).
  apply nil_no_violation; [apply nn_composite|intros x; apply in_composite; exact Hok].
Qed.
Print Assumptions C25_composite_partial.
Theorem C25_multi_partial : forall m path p, NoDup (map fst (mo_childs m)) ->
  (forall pid a, In pid (mp_pids p) -> AssetIn m path pid a -> IsBase a \/ IsComposite a \/ IsColor a \/ IsMulti a) ->
  (forall mu k i pid, In mu (mp_multis p) -> nth_error mu k = Some i -> nth_error (mp_pids p) k = Some pid ->
     ~ CountedSize m path pid (N.to_nat i)) ->
  (materials_validate m path (VAsset (AExt (XMulti p))) = None <-> MultiConforms m path p).
Proof.
  intros m path p Hok Hc Hb. rewrite <- (multi_conforms m path p Hok Hc Hb).
  apply nil_no_violation; [apply nn_multi|intros x; apply in_multi; exact Hok].
Qed.
Print Assumptions C25_multi_partial.
Example C25_partial_nonvacuous :
  let m := ex_mmodel [ex_mbase; AExt (XColorGroup ex_mcg)] in
  CompositeConforms m "" (mkCM 5 1 [0%N; 1%N] [[f_one; f_one]]) /\
  ~ CompositeConforms m "" (mkCM 5 1 [0%N; 3%N] [[f_one; f_one]]) /\
  MultiConforms m "" (mkMP 5 [1%N; 4%N] [0%N] [[1%N; 0%N]]).
Proof.
  intros m. assert (Hok : ChildsOk m) by constructor.
  assert (B : forall b, AssetIn m "" 1 (ABase b) -> ABase b = ex_mbase).
  { intros b Hb. apply asset_in' in Hb; [|exact Hok]. vm_compute in Hb. injection Hb as <-. reflexivity. }
  split; [|split].
  - apply C25_composite_partial; [exact Hok| |reflexivity]. intros b Hb. specialize (B b Hb). injection B as ->.
    cbn. intros [E|[E|[]]]; discriminate.
  - rewrite <- C25_composite_partial; [vm_compute; discriminate|exact Hok|]. intros b Hb. specialize (B b Hb). injection B as ->.
    cbn. intros [E|[E|[]]]; discriminate.
  - apply C25_multi_partial; [exact Hok| | |reflexivity].
    + intros pid a Hp Ha. apply asset_in' in Ha; [|exact Hok]. destruct Hp as [<-|[<-|[]]]; vm_compute in Ha; injection Ha as <-.
      * left. eexists; reflexivity.
      * right; right; left. eexists; reflexivity.
    + intros mu k i pid [<-|[]] Hi Hp Hc.
      assert (S1 : forall n, CountedSize m "" 1 n -> n = 2).
      { intros n H. eapply counted_fun; [exact Hok|exact H|]. apply (CsBase m "" 1 (mkBM 1 [mkBase "a" (mkRGBA 1 2 3 4) []; mkBase "b" (mkRGBA 1 2 3 4) []] [])). apply asset_in'; [exact Hok|reflexivity]. }
      assert (S2 : forall n, CountedSize m "" 4 n -> n = 2).
      { intros n H. eapply counted_fun; [exact Hok|exact H|]. apply (CsColor m "" 4 ex_mcg). apply asset_in'; [exact Hok|reflexivity]. }
      destruct k as [|[|k]]; cbn in Hi, Hp; [| |destruct k; discriminate].
      * injection Hi as <-. injection Hp as <-. apply S1 in Hc. discriminate.
      * injection Hi as <-. injection Hp as <-. apply S2 in Hc. discriminate.
Qed.
