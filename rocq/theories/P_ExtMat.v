(** * The validator of the materials extension *)
From Coq Require Import Permutation.
From Verif Require Import GoBase GoFloat Types M_Core S_Core P_Core M_Errors S_Errors P_Errors
  M_Geom S_Geom P_Geom P_Coherency M_Validate S_Validate P_Validate P_Validate2 P_Validate3
  M_ExtValidate S_ExtValidate.

Lemma is_nil_spec {A} (l : list A) : is_nil l = true <-> l = [].
Proof. destruct l; cbn; split; congruence. Qed.
Lemma asset_in' m path id a : ChildsOk m -> find_asset m path id = Some a <-> AssetIn m path id a.
Proof. exact (asset_in m path id a). Qed.
Lemma asset_none' m path id : ChildsOk m -> find_asset m path id = None <-> (forall a, ~ AssetIn m path id a).
Proof. exact (asset_none m path id). Qed.
Lemma asset_fun m path id a b : ChildsOk m -> AssetIn m path id a -> AssetIn m path id b -> a = b.
Proof. intros Hok Ha Hb. apply asset_in' in Ha; [|exact Hok]. apply asset_in' in Hb; [|exact Hok]. congruence. Qed.

(** Errors without location. *)
Definition flat (k : gerr) : Loc := ([], "", k).

Lemma in_color_group g x : In x (L (color_group_validate g)) <-> exists loc k, x = (loc, "", k) /\ ColorViolation g loc k.
Proof.
  unfold color_group_validate. cbv zeta.
  rewrite (in_loop _ (fun j c y => is_zero_color c = true /\ y = ([lvi "color" j], "", EMissing "color"))).
  2:{ intros i y e z. rewrite in_add_if, in_at_missing. tauto. }
  rewrite !in_add_if, !in_sent, in_none, N.eqb_eq, is_nil_spec. split.
  - intros [[[[]|[H ->]]|[H ->]]|(j & c & Hj & Hc & ->)].
    + exists [], (ESent "ErrMissingID"). split; [reflexivity|]. constructor. exact H.
    + eexists _, _. split; [reflexivity|]. constructor. exact H.
    + apply zero_color_spec in Hc as ->. eexists _, _. split; [reflexivity|]. constructor. exact Hj.
  - intros (loc & k & -> & H). destruct H as [H|H|j H].
    + auto.
    + auto.
    + right. exists j, no_color. split; [exact H|]. split; reflexivity.
Qed.
Lemma nn_color_group g : nn (color_group_validate g).
Proof. unfold color_group_validate. cbv zeta. apply nn_loop; [intros; nn|nn]. Qed.

Lemma in_tex_group m path g x : ChildsOk m ->
  In x (L (tex_group_validate m path g)) <-> exists loc k, x = (loc, "", k) /\ TexGroupViolation m path g loc k.
Proof.
  intros Hok. unfold tex_group_validate. cbv zeta. rewrite in_add_if, in_sent, is_nil_spec.
  assert (B : forall e, In x (L (if (tg_tex g =? 0)%N then add e (missing "texid")
      else match find_asset m path (tg_tex g) with
           | Some (AExt (XTexture2D _)) => e
           | Some _ => add e (sent "ErrTextureReference")
           | None => add e (sent "ErrTextureReference")
           end)) <-> In x (L e) \/ (tg_tex g = 0%N /\ x = ([], "", EMissing "texid")) \/
      (tg_tex g <> 0%N /\ (forall t, ~ AssetIn m path (tg_tex g) (AExt (XTexture2D t))) /\ x = ([], "", ESent "ErrTextureReference"))).
  { intros e. destruct (N.eqb_spec (tg_tex g) 0) as [E|E].
    - rewrite in_add, in_missing. tauto.
    - destruct (find_asset m path (tg_tex g)) as [a|] eqn:F.
      + assert (D : (exists t, a = AExt (XTexture2D t)) \/ (forall t, a <> AExt (XTexture2D t))).
        { destruct a as [| |[]]; try (right; discriminate). left. eauto. }
        apply asset_in' in F; [|exact Hok]. destruct D as [(t & ->)|D].
        * split; [auto|]. intros [H|[[H _]|(_ & H & _)]]; [exact H|contradiction|]. destruct (H _ F).
        * replace (match a with AExt (XTexture2D _) => e | _ => add e (sent "ErrTextureReference") end)
            with (add e (sent "ErrTextureReference")).
          2:{ destruct a as [| |[]]; try reflexivity. destruct (D t eq_refl). }
          rewrite in_add, in_sent. split; [|tauto]. intros [H|H]; [auto|]. right; right. split; [exact E|]. split; [|exact H].
          intros t Ht. apply (D t). eapply asset_fun; eassumption.
      + rewrite in_add, in_sent. split; [|tauto]. intros [H|H]; [auto|]. right; right. split; [exact E|]. split; [|exact H].
        intros t. pose proof (proj1 (asset_none' m path (tg_tex g) Hok) F) as N. apply N. }
  rewrite B, in_add_if, in_sent, in_none, N.eqb_eq. split.
  - intros [[[[]|[H ->]]|[[H ->]|(H & H' & ->)]]|[H ->]]; eexists _, _; (split; [reflexivity|]).
    + constructor; exact H.
    + constructor; exact H.
    + constructor; assumption.
    + constructor; exact H.
  - intros (loc & k & -> & H). destruct H as [H|H|H H'|H]; auto 8.
Qed.
Lemma nn_tex_group m path g : nn (tex_group_validate m path g).
Proof.
  unfold tex_group_validate. cbv zeta. apply nn_add_if; [|nn]. destruct (_ =? _)%N; [nn|].
  destruct (find_asset _ _ _) as [[| |[]]|]; nn.
Qed.

Lemma attached_existsb m p : existsb (fun a => eq_fold (at_path a) p) (mo_atts m) = true <-> Attached (mo_atts m) p.
Proof. rewrite existsb_exists. reflexivity. Qed.
Lemma in_texture m t x : In x (L (texture_validate m t)) <-> exists loc k, x = (loc, "", k) /\ TextureViolation m t loc k.
Proof.
  unfold texture_validate. cbv zeta. rewrite in_add_if, in_missing, N.eqb_eq.
  assert (B : forall e, In x (L (if seq (tx_path t) "" then add e (missing "path")
    else add_if (negb (existsb (fun a => eq_fold (at_path a) (tx_path t)) (mo_atts m))) e (sent "ErrMissingTexturePart"))) <->
    In x (L e) \/ (tx_path t = "" /\ x = ([], "", EMissing "path")) \/
    (tx_path t <> "" /\ ~ Attached (mo_atts m) (tx_path t) /\ x = ([], "", ESent "ErrMissingTexturePart"))).
  { intros e. destruct (seq_spec (tx_path t) "") as [E|E].
    - rewrite in_add, in_missing. tauto.
    - rewrite in_add_if, in_sent, negb_true_iff, <- not_true_iff_false, attached_existsb. tauto. }
  rewrite B, in_add_if, in_sent, in_none, N.eqb_eq. split.
  - intros [[[[]|[H ->]]|[[H ->]|(H & H' & ->)]]|[H ->]]; eexists _, _; (split; [reflexivity|]); constructor; assumption.
  - intros (loc & k & -> & H). destruct H as [H|H|H H'|H]; auto 8.
Qed.
Lemma nn_texture m t : nn (texture_validate m t).
Proof. unfold texture_validate. cbv zeta. apply nn_add_if; [|nn]. destruct (seq _ _); nn. Qed.

Lemma in_composite m path c x : ChildsOk m ->
  In x (L (composite_validate m path c)) <-> exists loc k, x = (loc, "", k) /\ CompositeViolation m path c loc k.
Proof.
  intros Hok. unfold composite_validate. cbv zeta. rewrite !in_add_if, in_sent, in_missing, !is_nil_spec.
  assert (B : forall e, In x (L (if (cm_mat c =? 0)%N then add e (missing "matid")
      else match find_asset m path (cm_mat c) with
         | Some (ABase b) =>
             add_if (existsb (fun i => (N.of_nat (List.length (bs_mats b)) <? i)%N) (cm_indices c)) e
                    (sent "ErrIndexOutOfBounds")
         | Some _ => add e (sent "ErrCompositeBase")
         | None => add e (sent "ErrMissingResource")
         end)) <-> In x (L e) \/ (cm_mat c = 0%N /\ x = ([], "", EMissing "matid")) \/
     (cm_mat c <> 0%N /\ (forall a, ~ AssetIn m path (cm_mat c) a) /\ x = ([], "", ESent "ErrMissingResource")) \/
     (cm_mat c <> 0%N /\ (exists a, AssetIn m path (cm_mat c) a /\ ~ IsBase a) /\ x = ([], "", ESent "ErrCompositeBase")) \/
     (cm_mat c <> 0%N /\ (exists b i, AssetIn m path (cm_mat c) (ABase b) /\ In i (cm_indices c) /\
        (N.of_nat (List.length (bs_mats b)) < i)%N) /\ x = ([], "", ESent "ErrIndexOutOfBounds"))).
  { intros e. destruct (N.eqb_spec (cm_mat c) 0) as [E|E].
    - rewrite in_add, in_missing. tauto.
    - destruct (find_asset m path (cm_mat c)) as [a|] eqn:F.
      + apply asset_in' in F; [|exact Hok].
        assert (D : IsBase a \/ ~ IsBase a).
        { destruct a; [left; eexists; reflexivity|right; intros (b & H); discriminate..]. }
        destruct D as [(b & ->)|D].
        * rewrite in_add_if, in_sent, existsb_exists. split.
          -- intros [H|[(i & Hi & Hl) ->]]; [auto|]. do 4 right. split; [exact E|]. split; [|reflexivity].
             exists b, i. apply N.ltb_lt in Hl. auto.
          -- intros [H|[[H _]|[(_ & H & _)|[(_ & (a & Ha & Hb) & _)|(_ & (b' & i & Hb & Hi & Hl) & ->)]]]];
               [auto|contradiction|destruct (H _ F)| |].
             ++ destruct Hb. exists b. eapply asset_fun; eassumption.
             ++ assert (Eb : ABase b' = ABase b) by (eapply asset_fun; eassumption). injection Eb as ->.
                right. split; [|reflexivity]. exists i. split; [exact Hi|]. apply N.ltb_lt. exact Hl.
        * replace (match a with ABase b => add_if (existsb (fun i => (N.of_nat (List.length (bs_mats b)) <? i)%N) (cm_indices c)) e
                    (sent "ErrIndexOutOfBounds") | _ => add e (sent "ErrCompositeBase") end) with (add e (sent "ErrCompositeBase")).
          2:{ destruct a; try reflexivity. destruct D. eexists; reflexivity. }
          rewrite in_add, in_sent. split.
          -- intros [H| ->]; [auto|]. do 3 right; left. eauto 8.
          -- intros [H|[[H _]|[(_ & H & _)|[(_ & _ & H)|(_ & (b & i & Hb & _) & _)]]]]; [auto|contradiction|destruct (H _ F)|auto|].
             destruct D. exists b. eapply asset_fun; eassumption.
      + assert (N1 : forall a, ~ AssetIn m path (cm_mat c) a) by (apply asset_none'; assumption).
        rewrite in_add, in_sent. split.
        * intros [H| ->]; [auto|]. right; right; left. auto.
        * intros [H|[[H _]|[(_ & _ & H)|[(_ & (a & Ha & _) & _)|(_ & (b & i & Hb & _) & _)]]]];
            [auto|contradiction|auto|destruct (N1 _ Ha)|destruct (N1 _ Hb)]. }
  rewrite B, in_add_if, in_sent, in_none, N.eqb_eq. clear B. split.
  - intros [[[[[]|[H ->]]|[[H ->]|[(H & H' & ->)|[(H & (a & Ha & H') & ->)|(H & (b & i & Hb & Hi & Hl) & ->)]]]]|[H ->]]|[H ->]];
      eexists _, _; (split; [reflexivity|]); econstructor; eassumption.
  - intros (loc & k & -> & H). destruct H as [H|H|H H'|a H H' H2|b i H H1 H2 H3|H|H]; auto 8.
    + left; left; right; right; right; left. eauto 8.
    + left; left; right; right; right; right. eauto 8.
Qed.
Lemma nn_composite m path c : nn (composite_validate m path c).
Proof.
  unfold composite_validate. cbv zeta. apply nn_add_if; [|nn]. apply nn_add_if; [|nn]. destruct (_ =? _)%N; [nn|].
  destruct (find_asset _ _ _) as [[| |[]]|]; nn.
Qed.

(** ** Multi-properties *)
Lemma counted_fun m path pid n n' : ChildsOk m -> CountedSize m path pid n -> CountedSize m path pid n' -> n = n'.
Proof.
  intros Hok H H'. destruct H as [b H|c H|g H|H], H' as [b' H'|c' H'|g' H'|H'];
    try (assert (E := asset_fun _ _ _ _ _ Hok H H'); congruence); try reflexivity.
  - destruct (H' _ H) as [K _]. destruct K. eexists; reflexivity.
  - destruct (H' _ H) as (_ & K & _). destruct K. eexists; reflexivity.
  - destruct (H' _ H) as (_ & _ & K). destruct K. eexists; reflexivity.
  - destruct (H _ H') as [K _]. destruct K. eexists; reflexivity.
  - destruct (H _ H') as (_ & K & _). destruct K. eexists; reflexivity.
  - destruct (H _ H') as (_ & _ & K). destruct K. eexists; reflexivity.
Qed.
(** What one PID contributes, given the colour groups and missing resources met before. *)
Definition pid_at (m : Model) (path : string) (P : Asset -> Prop) (pid : N) : Prop := exists a, AssetIn m path pid a /\ P a.
Lemma multi_pids_spec m path : ChildsOk m -> forall pids j colors undef e e' lens,
  multi_pids m path j pids colors undef e = (e', lens) ->
  Forall2 (CountedSize m path) pids lens /\
  (forall x, In x (L e') <-> In x (L e) \/
     (undef = false /\ (exists pid, In pid pids /\ (forall a, ~ AssetIn m path pid a)) /\ x = ([], "", ESent "ErrMissingResource")) \/
     ((exists k pid, nth_error pids k = Some pid /\ k + j <> 0 /\ pid_at m path (fun a => IsBase a \/ IsComposite a) pid) /\
        x = ([], "", ESent "ErrMaterialMulti")) \/
     ((exists pid, In pid pids /\ pid_at m path IsMulti pid) /\ x = ([], "", ESent "ErrMultiRefMulti")) \/
     (((colors = 1 /\ exists pid, In pid pids /\ pid_at m path IsColor pid) \/
       (colors = 0 /\ exists i k pid pid', i < k /\ nth_error pids i = Some pid /\ nth_error pids k = Some pid' /\
          pid_at m path IsColor pid /\ pid_at m path IsColor pid')) /\ x = ([], "", ESent "ErrMultiColors"))).
Proof.
  intros Hok. induction pids as [|pid pids IH]; intros j colors undef e e' lens H; cbn [multi_pids] in H.
  - injection H as <- <-. split; [constructor|]. intros x. split; [auto|].
    intros [H|[(_ & (p & [] & _) & _)|[((k & p & H & _) & _)|[((p & [] & _) & _)|([(_ & p & [] & _)|(_ & i & k & p & p' & _ & H & _)] & _)]]]].
    + exact H.
    + destruct k; discriminate.
    + destruct i; discriminate.
  - destruct (match find_asset m path pid with
        | Some (ABase b) => (add_if (negb (Nat.eqb j 0)) e (sent "ErrMaterialMulti"), colors, undef, List.length (bs_mats b))
        | Some (AExt (XComposite c)) => (add_if (negb (Nat.eqb j 0)) e (sent "ErrMaterialMulti"), colors, undef, List.length (cm_comps c))
        | Some (AExt (XMulti _)) => (add e (sent "ErrMultiRefMulti"), colors, undef, 0)
        | Some (AExt (XColorGroup g)) => (add_if (Nat.eqb colors 1) e (sent "ErrMultiColors"), S colors, undef, List.length (cg_colors g))
        | Some _ => (e, colors, undef, 0)
        | None => (add_if (negb undef) e (sent "ErrMissingResource"), colors, true, 0)
        end) as [[[e1 colors1] undef1] len] eqn:St.
    destruct (multi_pids m path (S j) pids colors1 undef1 e1) as [e2 lens2] eqn:Rec. injection H as <- <-.
    apply IH in Rec as [Hl Hx]. clear IH.
    (* the four kinds of step *)
    assert (Cases : CountedSize m path pid len /\
      ((pid_at m path (fun a => IsBase a \/ IsComposite a) pid /\ e1 = add_if (negb (Nat.eqb j 0)) e (sent "ErrMaterialMulti") /\
          colors1 = colors /\ undef1 = undef) \/
       (pid_at m path IsMulti pid /\ e1 = add e (sent "ErrMultiRefMulti") /\ colors1 = colors /\ undef1 = undef) \/
       (pid_at m path IsColor pid /\ e1 = add_if (Nat.eqb colors 1) e (sent "ErrMultiColors") /\ colors1 = S colors /\ undef1 = undef) \/
       (pid_at m path (fun a => ~ IsBase a /\ ~ IsComposite a /\ ~ IsMulti a /\ ~ IsColor a) pid /\ e1 = e /\ colors1 = colors /\ undef1 = undef) \/
       ((forall a, ~ AssetIn m path pid a) /\ e1 = add_if (negb undef) e (sent "ErrMissingResource") /\ colors1 = colors /\ undef1 = true))).
    { destruct (find_asset m path pid) as [a|] eqn:F.
      - apply asset_in' in F; [|exact Hok].
        assert (O : (forall b, AssetIn m path pid b -> b = a)) by (intros b Hb; eapply asset_fun; eassumption).
        destruct a as [b|id ts|[]]; injection St as <- <- <- <-.
        + split; [constructor; exact F|]. left. split; [|auto]. eexists; split; [exact F|]. left; eexists; reflexivity.
        + split; [constructor; intros a Ha; rewrite (O _ Ha); repeat split; intros (z & Hz); discriminate|].
          do 3 right; left. split; [|auto]. eexists; split; [exact F|]. repeat split; intros (z & Hz); discriminate.
        + split; [constructor; intros a Ha; rewrite (O _ Ha); repeat split; intros (z & Hz); discriminate|].
          do 3 right; left. split; [|auto]. eexists; split; [exact F|]. repeat split; intros (z & Hz); discriminate.
        + split; [constructor; intros a Ha; rewrite (O _ Ha); repeat split; intros (z & Hz); discriminate|].
          do 3 right; left. split; [|auto]. eexists; split; [exact F|]. repeat split; intros (z & Hz); discriminate.
        + split; [constructor; exact F|]. do 2 right; left. split; [|auto]. eexists; split; [exact F|]. eexists; reflexivity.
        + split; [constructor; exact F|]. left. split; [|auto]. eexists; split; [exact F|]. right; eexists; reflexivity.
        + split; [constructor; intros a Ha; rewrite (O _ Ha); repeat split; intros (z & Hz); discriminate|].
          right; left. split; [|auto]. eexists; split; [exact F|]. eexists; reflexivity.
        + split; [constructor; intros a Ha; rewrite (O _ Ha); repeat split; intros (z & Hz); discriminate|].
          do 3 right; left. split; [|auto]. eexists; split; [exact F|]. repeat split; intros (z & Hz); discriminate.
        + split; [constructor; intros a Ha; rewrite (O _ Ha); repeat split; intros (z & Hz); discriminate|].
          do 3 right; left. split; [|auto]. eexists; split; [exact F|]. repeat split; intros (z & Hz); discriminate.
      - injection St as <- <- <- <-. assert (N1 : forall a, ~ AssetIn m path pid a) by (apply asset_none'; assumption).
        split; [constructor; intros a Ha; destruct (N1 _ Ha)|]. do 4 right. auto. }
    clear St. destruct Cases as [Hlen Cases]. split; [constructor; assumption|].
    assert (Excl : forall P Q, pid_at m path P pid -> pid_at m path Q pid -> exists a, P a /\ Q a).
    { intros P Q (a & Ha & Pa) (b & Hb & Qb). assert (a = b) by (eapply asset_fun; eassumption). subst. eauto. }
    assert (NotMiss : forall P, pid_at m path P pid -> ~ (forall a, ~ AssetIn m path pid a)).
    { intros P (a & Ha & _) N1. destruct (N1 _ Ha). }
    intros x. rewrite Hx. clear Hx.
    destruct Cases as [(K & -> & -> & ->)|[(K & -> & -> & ->)|[(K & -> & -> & ->)|[(K & -> & -> & ->)|(K & -> & -> & ->)]]]].
    + (* material *)
      rewrite in_add_if, in_sent, negb_true_iff, Nat.eqb_neq. split.
      * intros [[H|[H ->]]|[(H1 & (p & Hp & H2) & ->)|[((k & p & Hk & H1 & H2) & ->)|[((p & Hp & H2) & ->)|([(H1 & p & Hp & H2)|(H1 & i & k & p & p' & H2 & H3 & H4 & H5 & H6)] & ->)]]]].
        -- auto.
        -- right; right; left. split; [|reflexivity]. exists 0, pid. split; [reflexivity|]. split; [cbn; exact H|exact K].
        -- right; left. split; [exact H1|]. split; [|reflexivity]. exists p. split; [right; exact Hp|exact H2].
        -- right; right; left. split; [|reflexivity]. exists (S k), p. split; [exact Hk|]. split; [lia|exact H2].
        -- right; right; right; left. split; [|reflexivity]. exists p. split; [right; exact Hp|exact H2].
        -- do 4 right. split; [|reflexivity]. left. split; [exact H1|]. exists p. split; [right; exact Hp|exact H2].
        -- do 4 right. split; [|reflexivity]. right. split; [exact H1|]. exists (S i), (S k), p, p'. split; [lia|]. auto.
      * intros [H|[(H1 & (p & [<-|Hp] & H2) & ->)|[((k & p & Hk & H1 & H2) & ->)|[((p & [<-|Hp] & H2) & ->)|([(H1 & p & [<-|Hp] & H2)|(H1 & i & k & p & p' & H2 & H3 & H4 & H5 & H6)] & ->)]]]].
        -- auto.
        -- destruct (NotMiss _ K H2).
        -- right; left. split; [exact H1|]. split; [|reflexivity]. eauto.
        -- destruct k as [|k]; cbn in Hk.
           ++ left; right. split; [cbn in H1; exact H1|reflexivity].
           ++ right; right; left. split; [|reflexivity]. exists k, p. split; [exact Hk|]. split; [lia|exact H2].
        -- exfalso. destruct (Excl _ _ K H2) as (a & [(z & ->)|(z & ->)] & (y & Hy)); discriminate.
        -- right; right; right; left. split; [|reflexivity]. eauto.
        -- exfalso. destruct (Excl _ _ K H2) as (a & [(z & ->)|(z & ->)] & (y & Hy)); discriminate.
        -- do 4 right. split; [|reflexivity]. left. split; [exact H1|]. eauto.
        -- destruct i as [|i], k as [|k]; try lia; cbn in H3, H4.
           ++ injection H3 as <-. exfalso. destruct (Excl _ _ K H5) as (a & [(z & ->)|(z & ->)] & (y & Hy)); discriminate.
           ++ do 4 right. split; [|reflexivity]. right. split; [exact H1|]. exists i, k, p, p'. split; [lia|]. auto.
    + (* multi *)
      rewrite in_add, in_sent. split.
      * intros [[H| ->]|[(H1 & (p & Hp & H2) & ->)|[((k & p & Hk & H1 & H2) & ->)|[((p & Hp & H2) & ->)|([(H1 & p & Hp & H2)|(H1 & i & k & p & p' & H2 & H3 & H4 & H5 & H6)] & ->)]]]].
        -- auto.
        -- right; right; right; left. split; [|reflexivity]. exists pid. split; [left; reflexivity|exact K].
        -- right; left. split; [exact H1|]. split; [|reflexivity]. exists p. split; [right; exact Hp|exact H2].
        -- right; right; left. split; [|reflexivity]. exists (S k), p. split; [exact Hk|]. split; [lia|exact H2].
        -- right; right; right; left. split; [|reflexivity]. exists p. split; [right; exact Hp|exact H2].
        -- do 4 right. split; [|reflexivity]. left. split; [exact H1|]. exists p. split; [right; exact Hp|exact H2].
        -- do 4 right. split; [|reflexivity]. right. split; [exact H1|]. exists (S i), (S k), p, p'. split; [lia|]. auto.
      * intros [H|[(H1 & (p & [<-|Hp] & H2) & ->)|[((k & p & Hk & H1 & H2) & ->)|[((p & [<-|Hp] & H2) & ->)|([(H1 & p & [<-|Hp] & H2)|(H1 & i & k & p & p' & H2 & H3 & H4 & H5 & H6)] & ->)]]]].
        -- auto.
        -- destruct (NotMiss _ K H2).
        -- right; left. split; [exact H1|]. split; [|reflexivity]. eauto.
        -- destruct k as [|k]; cbn in Hk.
           ++ injection Hk as <-. exfalso. destruct (Excl _ _ K H2) as (a & (y & Hy) & [(z & ->)|(z & ->)]); discriminate.
           ++ right; right; left. split; [|reflexivity]. exists k, p. split; [exact Hk|]. split; [lia|exact H2].
        -- left; right. reflexivity.
        -- right; right; right; left. split; [|reflexivity]. eauto.
        -- exfalso. destruct (Excl _ _ K H2) as (a & (y & ->) & (z & Hz)); discriminate.
        -- do 4 right. split; [|reflexivity]. left. split; [exact H1|]. eauto.
        -- destruct i as [|i], k as [|k]; try lia; cbn in H3, H4.
           ++ injection H3 as <-. exfalso. destruct (Excl _ _ K H5) as (a & (y & ->) & (z & Hz)); discriminate.
           ++ do 4 right. split; [|reflexivity]. right. split; [exact H1|]. exists i, k, p, p'. split; [lia|]. auto.
    + (* colour *)
      rewrite in_add_if, in_sent, Nat.eqb_eq. split.
      * intros [[H|[H ->]]|[(H1 & (p & Hp & H2) & ->)|[((k & p & Hk & H1 & H2) & ->)|[((p & Hp & H2) & ->)|([(H1 & p & Hp & H2)|(H1 & _)] & ->)]]]].
        -- auto.
        -- do 4 right. split; [|reflexivity]. left. split; [exact H|]. exists pid. split; [left; reflexivity|exact K].
        -- right; left. split; [exact H1|]. split; [|reflexivity]. exists p. split; [right; exact Hp|exact H2].
        -- right; right; left. split; [|reflexivity]. exists (S k), p. split; [exact Hk|]. split; [lia|exact H2].
        -- right; right; right; left. split; [|reflexivity]. exists p. split; [right; exact Hp|exact H2].
        -- do 4 right. split; [|reflexivity]. right. split; [lia|]. apply In_nth_error in Hp as [k Hk].
           exists 0, (S k), pid, p. split; [lia|]. auto.
        -- discriminate.
      * intros [H|[(H1 & (p & [<-|Hp] & H2) & ->)|[((k & p & Hk & H1 & H2) & ->)|[((p & [<-|Hp] & H2) & ->)|([(H1 & p & _)|(H1 & i & k & p & p' & H2 & H3 & H4 & H5 & H6)] & ->)]]]].
        -- auto.
        -- destruct (NotMiss _ K H2).
        -- right; left. split; [exact H1|]. split; [|reflexivity]. eauto.
        -- destruct k as [|k]; cbn in Hk.
           ++ injection Hk as <-. exfalso. destruct (Excl _ _ K H2) as (a & (y & Hy) & [(z & ->)|(z & ->)]); discriminate.
           ++ right; right; left. split; [|reflexivity]. exists k, p. split; [exact Hk|]. split; [lia|exact H2].
        -- exfalso. destruct (Excl _ _ K H2) as (a & (y & ->) & (z & Hz)); discriminate.
        -- right; right; right; left. split; [|reflexivity]. eauto.
        -- left; right. auto.
        -- destruct k as [|k]; [lia|]. cbn in H4. do 4 right. split; [|reflexivity]. left. split; [lia|].
           exists p'. split; [eapply nth_error_In; exact H4|exact H6].
    + (* other *)
      split.
      * intros [H|[(H1 & (p & Hp & H2) & ->)|[((k & p & Hk & H1 & H2) & ->)|[((p & Hp & H2) & ->)|([(H1 & p & Hp & H2)|(H1 & i & k & p & p' & H2 & H3 & H4 & H5 & H6)] & ->)]]]].
        -- auto.
        -- right; left. split; [exact H1|]. split; [|reflexivity]. exists p. split; [right; exact Hp|exact H2].
        -- right; right; left. split; [|reflexivity]. exists (S k), p. split; [exact Hk|]. split; [lia|exact H2].
        -- right; right; right; left. split; [|reflexivity]. exists p. split; [right; exact Hp|exact H2].
        -- do 4 right. split; [|reflexivity]. left. split; [exact H1|]. exists p. split; [right; exact Hp|exact H2].
        -- do 4 right. split; [|reflexivity]. right. split; [exact H1|]. exists (S i), (S k), p, p'. split; [lia|]. auto.
      * intros [H|[(H1 & (p & [<-|Hp] & H2) & ->)|[((k & p & Hk & H1 & H2) & ->)|[((p & [<-|Hp] & H2) & ->)|([(H1 & p & [<-|Hp] & H2)|(H1 & i & k & p & p' & H2 & H3 & H4 & H5 & H6)] & ->)]]]].
        -- auto.
        -- destruct (NotMiss _ K H2).
        -- right; left. split; [exact H1|]. split; [|reflexivity]. eauto.
        -- destruct k as [|k]; cbn in Hk.
           ++ injection Hk as <-. exfalso. destruct (Excl _ _ K H2) as (a & (N1 & N2 & _) & [Z|Z]); contradiction.
           ++ right; right; left. split; [|reflexivity]. exists k, p. split; [exact Hk|]. split; [lia|exact H2].
        -- exfalso. destruct (Excl _ _ K H2) as (a & (_ & _ & N1 & _) & Z); contradiction.
        -- right; right; right; left. split; [|reflexivity]. eauto.
        -- exfalso. destruct (Excl _ _ K H2) as (a & (_ & _ & _ & N1) & Z); contradiction.
        -- do 4 right. split; [|reflexivity]. left. split; [exact H1|]. eauto.
        -- destruct i as [|i], k as [|k]; try lia; cbn in H3, H4.
           ++ injection H3 as <-. exfalso. destruct (Excl _ _ K H5) as (a & (_ & _ & _ & N1) & Z); contradiction.
           ++ do 4 right. split; [|reflexivity]. right. split; [exact H1|]. exists i, k, p, p'. split; [lia|]. auto.
    + (* missing *)
      assert (NoAt : forall P, ~ pid_at m path P pid) by (intros P (a & Ha & _); destruct (K _ Ha)).
      rewrite in_add_if, in_sent, negb_true_iff. split.
      * intros [[H|[H ->]]|[(H1 & _)|[((k & p & Hk & H1 & H2) & ->)|[((p & Hp & H2) & ->)|([(H1 & p & Hp & H2)|(H1 & i & k & p & p' & H2 & H3 & H4 & H5 & H6)] & ->)]]]].
        -- auto.
        -- right; left. split; [exact H|]. split; [|reflexivity]. exists pid. split; [left; reflexivity|exact K].
        -- discriminate.
        -- right; right; left. split; [|reflexivity]. exists (S k), p. split; [exact Hk|]. split; [lia|exact H2].
        -- right; right; right; left. split; [|reflexivity]. exists p. split; [right; exact Hp|exact H2].
        -- do 4 right. split; [|reflexivity]. left. split; [exact H1|]. exists p. split; [right; exact Hp|exact H2].
        -- do 4 right. split; [|reflexivity]. right. split; [exact H1|]. exists (S i), (S k), p, p'. split; [lia|]. auto.
      * intros [H|[(H1 & _ & ->)|[((k & p & Hk & H1 & H2) & ->)|[((p & [<-|Hp] & H2) & ->)|([(H1 & p & [<-|Hp] & H2)|(H1 & i & k & p & p' & H2 & H3 & H4 & H5 & H6)] & ->)]]]].
        -- auto.
        -- left; right. auto.
        -- destruct k as [|k]; cbn in Hk.
           ++ injection Hk as <-. destruct (NoAt _ H2).
           ++ right; right; left. split; [|reflexivity]. exists k, p. split; [exact Hk|]. split; [lia|exact H2].
        -- destruct (NoAt _ H2).
        -- right; right; right; left. split; [|reflexivity]. eauto.
        -- destruct (NoAt _ H2).
        -- do 4 right. split; [|reflexivity]. left. split; [exact H1|]. eauto.
        -- destruct i as [|i], k as [|k]; try lia; cbn in H3, H4.
           ++ injection H3 as <-. destruct (NoAt _ H5).
           ++ do 4 right. split; [|reflexivity]. right. split; [exact H1|]. exists i, k, p, p'. split; [lia|]. auto.
Qed.
Lemma nn_multi_pids m path pids : forall j colors undef e, nn e -> nn (fst (multi_pids m path j pids colors undef e)).
Proof.
  induction pids as [|pid pids IH]; intros j colors undef e He; cbn [multi_pids]; [exact He|].
  assert (G : forall e1 c1 u1 len, nn e1 ->
    nn (fst (let '(errs, colors0, undef0, len0) := (e1, c1, u1, len) in
             let '(errs0, lens) := multi_pids m path (S j) pids colors0 undef0 errs in (errs0, (len0 : nat) :: lens)))).
  { intros e1 c1 u1 len H. cbn. specialize (IH (S j) c1 u1 e1 H). destruct (multi_pids _ _ _ _ _ _ _). exact IH. }
  destruct (find_asset m path pid) as [[b|id ts|[]]|]; apply G; nn.
Qed.

Lemma multi_bad_spec m path pids lens mu : Forall2 (CountedSize m path) pids lens ->
  multi_bad lens mu = true <-> exists k i pid n, nth_error mu k = Some i /\ nth_error pids k = Some pid /\
    CountedSize m path pid n /\ nth_error lens k = Some n /\ (N.of_nat n < i)%N.
Proof.
  intros H. unfold multi_bad. revert mu. induction H as [|pid len pids lens H HF IH]; intros mu.
  - cbn. split; [discriminate|]. intros (k & i & pid & n & _ & H & _). destruct k; discriminate.
  - destruct mu as [|i mu]; cbn [combine existsb fst snd].
    + split; [discriminate|]. intros (k & i & p & n & H1 & _). destruct k; discriminate.
    + rewrite orb_true_iff, IH, N.ltb_lt. split.
      * intros [Hl|(k & i' & p & n & H1 & H2 & H3 & H4 & H5)].
        -- exists 0, i, pid, len. auto.
        -- exists (S k), i', p, n. auto.
      * intros (k & i' & p & n & H1 & H2 & H3 & H4 & H5). destruct k as [|k]; cbn in H1, H2, H4.
        -- injection H1 as <-. injection H4 as <-. auto.
        -- right. exists k, i', p, n. auto.
Qed.
Lemma forall2_nth {A B} (R : A -> B -> Prop) l l' k a : Forall2 R l l' -> nth_error l k = Some a ->
  exists b, nth_error l' k = Some b /\ R a b.
Proof.
  intros H. revert k. induction H as [|x y l l' Hxy H IH]; intros k Hk; destruct k; try discriminate; cbn in *.
  - injection Hk as <-. eauto.
  - apply IH. exact Hk.
Qed.
Lemma in_multi m path p x : ChildsOk m ->
  In x (L (multi_validate m path p)) <-> exists loc k, x = (loc, "", k) /\ MultiViolation m path p loc k.
Proof.
  intros Hok. unfold multi_validate. cbv zeta.
  match goal with |- context [multi_pids m path 0 (mp_pids p) 0 false ?e] => set (e0 := e) end.
  destruct (multi_pids m path 0 (mp_pids p) 0 false e0) as [e1 lens] eqn:E.
  pose proof (multi_pids_spec m path Hok _ _ _ _ _ _ _ E) as [Hl Hx].
  rewrite (in_loop _ (fun j mu y => multi_bad lens mu = true /\ y = ([lvi "multi" j], "", ESent "ErrIndexOutOfBounds"))).
  2:{ intros i y e z. rewrite in_add_if, in_at_sent. tauto. }
  rewrite Hx. unfold e0. rewrite !in_add_if, !in_sent, in_missing, in_none, !is_nil_spec, N.eqb_eq, Z.ltb_lt. clear E Hx e0. split.
  - intros [[H|[(_ & (pid & Hp & H) & ->)|[((k & pid & Hk & H1 & (a & Ha & H2)) & ->)|[((pid & Hp & (a & Ha & H2)) & ->)|
      ([(H1 & _)|(_ & i & k & pid & pid' & H2 & H3 & H4 & (a & Ha & H5) & (a' & Ha' & H6))] & ->)]]]]|(j & mu & Hj & Hm & ->)].
    + destruct H as [[[[[]|[H ->]]|[H ->]]|[H ->]]|[H ->]]; eexists _, _; (split; [reflexivity|]);
        [apply MpvID|apply MpvNoPids|apply MpvBlend; lia|apply MpvEmpty]; assumption.
    + eexists _, _; (split; [reflexivity|]). eapply MpvMissing; eassumption.
    + eexists _, _; (split; [reflexivity|]). eapply MpvMaterial with (j := k); [exact Hk|lia|exact Ha|exact H2].
    + eexists _, _; (split; [reflexivity|]). eapply MpvMulti; eassumption.
    + discriminate.
    + eexists _, _; (split; [reflexivity|]). eapply MpvColors with (i := i) (j := k); [lia|exact H3|exact H4|exact Ha|exact Ha'|exact H5|exact H6].
    + apply (multi_bad_spec _ _ _ _ _ Hl) in Hm as (k & i & pid & n & H1 & H2 & H3 & H4 & H5).
      eexists _, _; (split; [reflexivity|]). eapply MpvIndex; eassumption.
  - intros (loc & k & -> & H).
    destruct H as [H|H|H|H|pid H H'|j pid a H H1 H2 H3|pid a H H1 H2|i j pid pid' a a' H H1 H2 H3 H4 H5 H6|j mu k i pid n H H1 H2 H3 H4].
    + left; left; auto 8.
    + left; left; auto 8.
    + left; left; left; right. split; [lia|reflexivity].
    + left; left; auto 8.
    + left; right; left. eauto 8.
    + left; right; right; left. split; [|reflexivity]. exists j, pid. split; [exact H|]. split; [lia|]. exists a. auto.
    + left; right; right; right; left. split; [|reflexivity]. exists pid. split; [exact H|]. exists a. auto.
    + left; do 4 right. split; [|reflexivity]. right. split; [reflexivity|].
      destruct (Nat.lt_total i j) as [Lt|[Eq|Lt]]; [|contradiction|].
      * exists i, j, pid, pid'. split; [exact Lt|]. split; [exact H1|]. split; [exact H2|]. split; eexists; eauto.
      * exists j, i, pid', pid. split; [exact Lt|]. split; [exact H2|]. split; [exact H1|]. split; eexists; eauto.
    + right. exists j, mu. split; [exact H|]. split; [|reflexivity]. apply (multi_bad_spec _ _ _ _ _ Hl).
      destruct (forall2_nth _ _ _ _ _ Hl H2) as (n' & Hn & Hc).
      assert (n' = n) by (eapply counted_fun; eassumption). subst. exists k, i, pid, n. auto.
Qed.
Lemma nn_multi m path p : nn (multi_validate m path p).
Proof.
  unfold multi_validate. cbv zeta.
  match goal with |- context [multi_pids m path 0 (mp_pids p) 0 false ?e] =>
    assert (H : nn (fst (multi_pids m path 0 (mp_pids p) 0 false e))) by (apply nn_multi_pids; nn);
    destruct (multi_pids m path 0 (mp_pids p) 0 false e) as [e1 lens] end.
  apply nn_loop; [intros; nn|exact H].
Qed.

Lemma in_materials m path el x : ChildsOk m ->
  In x (L (materials_validate m path el)) <-> exists loc k, x = (loc, "", k) /\ MaterialViolation m path el loc k.
Proof.
  intros Hok. destruct el as [|[b|id ts|[]]|o]; cbn [materials_validate];
    try (split; [intros []|intros (loc & k & _ & H); inversion H]).
  - rewrite in_texture. split; intros (loc & k & -> & H); exists loc, k; (split; [reflexivity|]); [constructor; exact H|inversion H; assumption].
  - rewrite in_tex_group by exact Hok. split; intros (loc & k & -> & H); exists loc, k; (split; [reflexivity|]); [constructor; exact H|inversion H; assumption].
  - rewrite in_color_group. split; intros (loc & k & -> & H); exists loc, k; (split; [reflexivity|]); [constructor; exact H|inversion H; assumption].
  - rewrite in_composite by exact Hok. split; intros (loc & k & -> & H); exists loc, k; (split; [reflexivity|]); [constructor; exact H|inversion H; assumption].
  - rewrite in_multi by exact Hok. split; intros (loc & k & -> & H); exists loc, k; (split; [reflexivity|]); [constructor; exact H|inversion H; assumption].
Qed.
Lemma nn_materials m path el : nn (materials_validate m path el).
Proof.
  destruct el as [|[b|id ts|[]]|o]; cbn [materials_validate]; try apply nn_none;
    [apply nn_texture|apply nn_tex_group|apply nn_color_group|apply nn_composite|apply nn_multi].
Qed.

(** ** Accepted = no violation *)
Lemma nil_no_violation (e : error) (V : list Level -> gerr -> Prop) : nn e ->
  (forall x, In x (L e) <-> exists loc k, x = (loc, "", k) /\ V loc k) ->
  e = None <-> forall loc k, ~ V loc k.
Proof.
  intros Hn Hx. split.
  - intros -> loc k H. assert (C : In (loc, "", k) (L None)) by (apply Hx; eauto). exact C.
  - intros H. apply Hn. destruct (L e) as [|x l] eqn:E; [reflexivity|].
    assert (C : In x (x :: l)) by (left; reflexivity). apply Hx in C as (loc & k & _ & C). destruct (H _ _ C).
Qed.
Lemma color_conforms g : (forall loc k, ~ ColorViolation g loc k) <-> ColorConforms g.
Proof.
  unfold ColorConforms. split.
  - intros H. split; [|split].
    + intros E. apply (H [] (ESent "ErrMissingID")). constructor; exact E.
    + intros E. apply (H [] (ESent "ErrEmptyResourceProps")). constructor; exact E.
    + intros E. apply In_nth_error in E as [j Hj]. apply (H [lvi "color" j] (EMissing "color")). constructor; exact Hj.
  - intros (H1 & H2 & H3) loc k H. destruct H as [H|H|j H]; [contradiction..|]. apply H3. eapply nth_error_In; exact H.
Qed.
Lemma tex_group_conforms m path g : ChildsOk m -> (forall loc k, ~ TexGroupViolation m path g loc k) <-> TexGroupConforms m path g.
Proof.
  intros Hok. unfold TexGroupConforms. split.
  - intros H. split; [|split; [|split]].
    + intros E. apply (H [] (ESent "ErrMissingID")). constructor; exact E.
    + intros E. apply (H [] (ESent "ErrEmptyResourceProps")). constructor; exact E.
    + intros E. apply (H [] (EMissing "texid")). constructor; exact E.
    + destruct (find_asset m path (tg_tex g)) as [a|] eqn:F.
      * apply asset_in' in F; [|exact Hok].
        assert (D : (exists t, a = AExt (XTexture2D t)) \/ (forall t, a <> AExt (XTexture2D t))).
        { destruct a as [| |[]]; try (right; discriminate). left. eauto. }
        destruct D as [(t & ->)|D]; [eauto|]. exfalso.
        destruct (N.eq_dec (tg_tex g) 0) as [E|E]; [apply (H [] (EMissing "texid")); constructor; exact E|].
        apply (H [] (ESent "ErrTextureReference")). apply TgvTexture; [exact E|].
        intros t Ht. apply (D t). eapply asset_fun; eassumption.
      * exfalso. destruct (N.eq_dec (tg_tex g) 0) as [E|E]; [apply (H [] (EMissing "texid")); constructor; exact E|].
        apply (H [] (ESent "ErrTextureReference")). apply TgvTexture; [exact E|]. intros t. pose proof (proj1 (asset_none' m path (tg_tex g) Hok) F) as N. apply N.
  - intros (H1 & H2 & H3 & t & H4) loc k H. destruct H as [H|H|H H'|H]; try contradiction. destruct (H' _ H4).
Qed.
Lemma texture_conforms m t : (forall loc k, ~ TextureViolation m t loc k) <-> TextureConforms m t.
Proof.
  unfold TextureConforms. split.
  - intros H.
    assert (P : tx_path t <> "") by (intros E; apply (H [] (EMissing "path")); constructor; exact E).
    split; [|split; [|split]].
    + intros E. apply (H [] (ESent "ErrMissingID")). constructor; exact E.
    + exact P.
    + destruct (attached_dec (mo_atts m) (tx_path t)) as [D|D]; [exact D|]. destruct (H [] (ESent "ErrMissingTexturePart")). constructor; assumption.
    + intros E. apply (H [] (EMissing "contenttype")). constructor; exact E.
  - intros (H1 & H2 & H3 & H4) loc k H. destruct H; contradiction.
Qed.
(** Composites and multi-properties whose indices avoid the boundary value. *)
Lemma composite_conforms m path c : ChildsOk m ->
  (forall b, AssetIn m path (cm_mat c) (ABase b) -> ~ In (N.of_nat (List.length (bs_mats b))) (cm_indices c)) ->
  (forall loc k, ~ CompositeViolation m path c loc k) <-> CompositeConforms m path c.
Proof.
  intros Hok Hb. unfold CompositeConforms. split.
  - intros H.
    assert (Hm : cm_mat c <> 0%N) by (intros E; apply (H [] (EMissing "matid")); constructor; exact E).
    split; [|split; [exact Hm|split; [|split]]].
    + intros E. apply (H [] (ESent "ErrMissingID")). constructor; exact E.
    + intros E. apply (H [] (EMissing "matindices")). constructor; exact E.
    + intros E. apply (H [] (ESent "ErrEmptyResourceProps")). constructor; exact E.
    + destruct (asset_dec m path (cm_mat c) Hok) as [(a & Ha)|D].
      2:{ destruct (H [] (ESent "ErrMissingResource")). apply CmvMissing; assumption. }
      destruct a as [b|id ts|x].
      * exists b. split; [exact Ha|]. intros i Hi.
        destruct (N.lt_total i (N.of_nat (List.length (bs_mats b)))) as [Lt|[->|Gt]]; [exact Lt| |].
        -- destruct (Hb _ Ha Hi).
        -- destruct (H [] (ESent "ErrIndexOutOfBounds")). eapply CmvIndex; eassumption.
      * destruct (H [] (ESent "ErrCompositeBase")). eapply CmvBase; [exact Hm|exact Ha|]. intros (b & E). discriminate.
      * destruct (H [] (ESent "ErrCompositeBase")). eapply CmvBase; [exact Hm|exact Ha|]. intros (b & E). discriminate.
  - intros (H1 & H2 & H3 & H4 & b & H5 & H6) loc k H. destruct H as [H|H|H H'|a H H' Hn|b' i H Ha Hi Hl|H|H]; try contradiction.
    + destruct (H' _ H5).
    + destruct Hn. exists b. eapply asset_fun; eassumption.
    + assert (E : ABase b' = ABase b) by (eapply asset_fun; eassumption). injection E as ->. specialize (H6 _ Hi). lia.
Qed.
(** The groups whose size the validator knows. *)
Definition Counted (a : Asset) : Prop := IsBase a \/ IsComposite a \/ IsColor a \/ IsMulti a.
Lemma counted_size m path pid a n : ChildsOk m -> AssetIn m path pid a -> Counted a -> ~ IsMulti a ->
  GroupSize a n <-> CountedSize m path pid n.
Proof.
  intros Hok Ha Hc Hn. split.
  - intros H. destruct H as [b|g|g|g|g].
    + constructor; exact Ha.
    + exfalso. destruct Hc as [(z & E)|[(z & E)|[(z & E)|(z & E)]]]; discriminate.
    + constructor; exact Ha.
    + constructor; exact Ha.
    + exfalso. apply Hn. eexists; reflexivity.
  - intros H. destruct H as [b H|c H|g H|H].
    + rewrite (asset_fun _ _ _ _ _ Hok Ha H). constructor.
    + rewrite (asset_fun _ _ _ _ _ Hok Ha H). constructor.
    + rewrite (asset_fun _ _ _ _ _ Hok Ha H). constructor.
    + destruct (H _ Ha) as (N1 & N2 & N3). destruct Hc as [Z|[Z|[Z|Z]]]; contradiction.
Qed.
Lemma counted_total m path pid : ChildsOk m -> exists n, CountedSize m path pid n.
Proof.
  intros Hok. destruct (asset_dec m path pid Hok) as [(a & Ha)|D].
  - destruct a as [b|id ts|[]]; try (eexists; constructor; eassumption);
      (exists 0; constructor; intros a' Ha'; rewrite (asset_fun _ _ _ _ _ Hok Ha' Ha); repeat split; intros (z & E); discriminate).
  - exists 0. constructor. intros a Ha. destruct (D _ Ha).
Qed.
Lemma multi_conforms m path p : ChildsOk m ->
  (forall pid a, In pid (mp_pids p) -> AssetIn m path pid a -> Counted a) ->
  (forall mu k i pid, In mu (mp_multis p) -> nth_error mu k = Some i -> nth_error (mp_pids p) k = Some pid ->
     ~ CountedSize m path pid (N.to_nat i)) ->
  (forall loc k, ~ MultiViolation m path p loc k) <-> MultiConforms m path p.
Proof.
  intros Hok Hc Hb. unfold MultiConforms. split.
  - intros H.
    assert (Hr : forall pid, In pid (mp_pids p) -> exists a, AssetIn m path pid a /\ ~ IsMulti a).
    { intros pid Hp. destruct (asset_dec m path pid Hok) as [(a & Ha)|D].
      - exists a. split; [exact Ha|]. intros Hm. apply (H [] (ESent "ErrMultiRefMulti")). eapply MpvMulti; eassumption.
      - destruct (H [] (ESent "ErrMissingResource")). eapply MpvMissing; eassumption. }
    split; [|split; [|split; [|split; [|split; [exact Hr|split; [|split]]]]]].
    + intros E. apply (H [] (ESent "ErrMissingID")). apply MpvID; exact E.
    + intros E. apply (H [] (EMissing "pids")). apply MpvNoPids; exact E.
    + intros E. apply (H [] (ESent "ErrEmptyResourceProps")). apply MpvEmpty; exact E.
    + destruct (Nat.lt_ge_cases (List.length (mp_blend p)) (List.length (mp_pids p))) as [E|E]; [exact E|].
      destruct (H [] (ESent "ErrMultiBlend")). apply MpvBlend. exact E.
    + intros j pid a Hj Ha Hk. destruct (Nat.eq_dec j 0) as [E|E]; [exact E|].
      destruct (H [] (ESent "ErrMaterialMulti")). eapply MpvMaterial; eassumption.
    + intros i j pid pid' a a' Hi Hj Ha Ha' Hk Hk'. destruct (Nat.eq_dec i j) as [E|E]; [exact E|].
      destruct (H [] (ESent "ErrMultiColors")). eapply MpvColors with (i := i) (j := j); eassumption.
    + intros mu k i pid a n Hmu Hi Hp Ha Hn. pose proof (nth_error_In _ _ Hp) as Hin.
      destruct (Hr _ Hin) as (a' & Ha' & Hnm). assert (a' = a) by (eapply asset_fun; eassumption). subst a'.
      apply (counted_size m path pid a n Hok Ha (Hc _ _ Hin Ha) Hnm) in Hn.
      destruct (N.lt_total i (N.of_nat n)) as [Lt|[->|Gt]]; [exact Lt| |].
      * destruct (Hb _ _ _ _ Hmu Hi Hp). rewrite Nat2N.id. exact Hn.
      * apply In_nth_error in Hmu as [j Hj]. destruct (H [lvi "multi" j] (ESent "ErrIndexOutOfBounds")).
        eapply MpvIndex; eassumption.
  - intros (H1 & H2 & H3 & H4 & H5 & H6 & H7 & H8) loc k H.
    destruct H as [H|H|H|H|pid H H'|j pid a H N1 N2 N3|pid a H N1 N2|i j pid pid' a a' H N1 N2 N3 N4 N5 N6|j mu k i pid n H N1 N2 N3 N4].
    + contradiction.
    + contradiction.
    + lia.
    + contradiction.
    + destruct (H5 _ H) as (a & Ha & _). destruct (H' _ Ha).
    + apply N1. eapply H6; eassumption.
    + destruct (H5 _ H) as (a' & Ha & Hn). rewrite (asset_fun _ _ _ _ _ Hok N1 Ha) in N2. contradiction.
    + apply H. eapply H7; [exact N1|exact N2|exact N3|exact N4|exact N5|exact N6].
    + pose proof (nth_error_In _ _ N2) as Hin. destruct (H5 _ Hin) as (a & Ha & Hn).
      apply (counted_size m path pid a n Hok Ha (Hc _ _ Hin Ha) Hn) in N3.
      assert (C : (i < N.of_nat n)%N) by (eapply H8; [eapply nth_error_In; exact H|eassumption..]). lia.
Qed.
