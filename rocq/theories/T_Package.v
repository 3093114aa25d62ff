(** * Theorems about packages: C46, C47 *)
From Coq Require Import Permutation.
From Verif Require Import GoBase GoNum GoFloat Types PkgTypes XmlTypes M_Core M_Xml M_Printer M_Decode M_Encode M_Package S_Package P_Package.

(** ** C46: relationships written *)
(** Those of the package *)
Theorem C46_package : forall normalize resolve refuses prec order1 order2 m w,
  encode normalize resolve refuses prec order1 order2 m = Some w ->
  WithoutDuplicates (mo_rootrels m ++ [mkRel (path_or_default m) type_3dmodel ""]
    ++ (if seq (mo_thumb m) "" then [] else [mkRel (mo_thumb m) type_thumbnail ""])) (pk_rels w).
Proof.
  intros * E. apply encode_parts in E as [-> _]. unfold nonempty. destruct (seq (mo_thumb m) ""); apply opc_without.
Qed.
Print Assumptions C46_package.
(** Those of the parts, if a path always has the same type.  Missing: paths with several types, see below. *)
Theorem C46_parts_partial : forall normalize resolve refuses prec order1 order2 m w,
  encode normalize resolve refuses prec order1 order2 m = Some w ->
  NoTextures (mo_res m) -> NoTexture (mo_any m) ->
  (forall kc, In kc order2 -> NoTextures (ch_res (snd kc)) /\ NoTexture (ch_any (snd kc))) ->
  let root_rels := mo_rels m ++ map (fun kc => mkRel (fst kc) type_3dmodel "") order1 ++ demands (mo_res m) in
  let child_rels c := ch_rels c ++ demands (ch_res c) in
  exists atts root childs, pk_parts w = atts ++ root :: childs /\
    List.length atts = List.length (mo_atts m) /\ (forall a, In a atts -> pt_rels a = []) /\
    (OneType root_rels -> WithoutDuplicates root_rels (pt_rels root)) /\
    Forall2 (fun kc c => OneType (child_rels (snd kc)) -> WithoutDuplicates (child_rels (snd kc)) (pt_rels c)) order2 childs.
Proof.
  intros * E N1 N2 N3 root_rels child_rels. apply encode_parts in E as [_ ->].
  eexists _, _, _. split; [reflexivity|]. split; [apply map_length|]. split; [|split].
  - intros a Ha. apply in_map_iff in Ha as (x & <- & _). reflexivity.
  - intros O. cbn [root_part pt_rels]. rewrite enc_enc, rels_model by assumption. unfold root_rels in *. apply enc_opc, O.
  - clear root_rels. induction order2 as [|kc l IH]; cbn [map]; constructor; [|apply IH; intros; apply N3; right; assumption].
    intros O. cbn [child_part pt_rels]. destruct (N3 kc (or_introl eq_refl)) as [H1 H2]. rewrite rels_child by assumption. apply enc_opc, O.
Qed.
Print Assumptions C46_parts_partial.
(** Without that hypothesis: no pair (type, path) twice, nothing else, all of the model's, and all the paths demanded *)
Theorem C46_unique_partial : forall normalize resolve refuses prec order1 order2 m w,
  encode normalize resolve refuses prec order1 order2 m = Some w ->
  NoTextures (mo_res m) -> NoTexture (mo_any m) ->
  (forall kc, In kc order2 -> NoTextures (ch_res (snd kc)) /\ NoTexture (ch_any (snd kc))) ->
  let good own demanded out :=
    (forall a x b y, out = a ++ x :: b -> In y a -> ~ SameKey y x) /\
    (forall x, In x out -> In x (own ++ demanded)) /\
    (forall x, In x own -> exists y, In y out /\ SameKey y x) /\
    (forall x, In x demanded -> exists y, In y out /\ rel_path y = rel_path x) in
  exists atts root childs, pk_parts w = atts ++ root :: childs /\
    good (mo_rels m) (map (fun kc => mkRel (fst kc) type_3dmodel "") order1 ++ demands (mo_res m)) (pt_rels root) /\
    Forall2 (fun kc c => good (ch_rels (snd kc)) (demands (ch_res (snd kc))) (pt_rels c)) order2 childs.
Proof.
  intros * E N1 N2 N3 good.
  assert (K : forall own l, good own l (opc_adds [] (enc_adds own l))).
  { intros own l. destruct (enc_firsts l own) as (out & -> & F). destruct (opc_firsts (own ++ out) []) as (o & -> & G). cbn [app]. repeat split.
    - intros a x b y Eo Hy. apply (firsts_apart SameKey [] (own ++ out) o G a x b Eo). exact Hy.
    - intros x Hx. apply (firsts_in _ _ _ _ G) in Hx. apply in_app_or in Hx as [Hx|Hx]; apply in_or_app; [auto|right]. exact (firsts_in _ _ _ _ F x Hx).
    - intros x Hx. apply (firsts_covers SameKey (fun z => conj eq_refl eq_refl) [] (own ++ out) o G x). apply in_or_app. auto.
    - intros x Hx. destruct (firsts_covers SamePath (fun z => eq_refl) own l out F x Hx) as (y & Hy & Ey).
      destruct (firsts_covers SameKey (fun z => conj eq_refl eq_refl) [] (own ++ out) o G y Hy) as (z & Hz & _ & Ez). exists z. split; [exact Hz|]. rewrite Ez. exact Ey. }
  apply encode_parts in E as [_ ->]. eexists _, _, _. split; [reflexivity|]. split.
  - cbn [root_part pt_rels]. rewrite enc_enc, rels_model by assumption. apply K.
  - induction order2 as [|kc l IH]; cbn [map]; constructor; [|apply IH; intros; apply N3; right; assumption].
    cbn [child_part pt_rels]. destruct (N3 kc (or_introl eq_refl)) as [H1 H2]. rewrite rels_child by assumption. apply K.
Qed.
Print Assumptions C46_unique_partial.
(** A relationship of the model to the part of a texture hides the one the texture demands, whatever its type. *)
Definition ex_texture : Asset := AExt (XTexture2D (mkTex2D 1 "/3D/t.png" 1 0 0 0)).
Definition ex_model (rels : list Relationship) : Model :=
  mkModel "" "en" 0 "" (mkRes [ex_texture] [] []) (mkBuild [] []) [] [mkExt ns_materials "m" false] [] [] [] rels [] [].
Theorem C46_refuted : exists m x, In x (demands (mo_res m)) /\ forall normalize resolve prec,
  exists w, encode normalize resolve (fun _ _ _ => false) prec [] [] m = Some w /\
    forall c, In c (pk_parts w) -> ~ exists y, In y (pt_rels c) /\ SameKey y x.
Proof.
  exists (ex_model [mkRel "/3D/t.png" type_thumbnail "r1"]), (mkRel "/3D/t.png" type_texture ""). split; [left; reflexivity|].
  intros normalize resolve prec. eexists. split; [reflexivity|]. cbn [pk_parts app]. intros c [<-|[]] (y & Hy & K & _). cbn [pt_rels] in Hy.
  rewrite rels_model in Hy; [|intros o me []|intros t []]. cbn in Hy. destruct Hy as [<-|[]]. discriminate K.
Qed.
Print Assumptions C46_refuted.
Example C46_nonvacuous : exists w,
  encode (fun n => n) (fun _ n => n) (fun _ _ _ => false) 4 [("/3D/c.model", child_zero)] [("/3D/c.model", child_zero)]
    (ex_model [mkRel "/3D/t.png" type_texture "r1"; mkRel "/a" "x" "r2"; mkRel "/a" "x" "r3"]) = Some w /\
  map pt_rels (pk_parts w) = [[mkRel "/3D/t.png" type_texture "r1"; mkRel "/a" "x" "r2"; mkRel "/3D/c.model" type_3dmodel ""]; []] /\
  OneType ([mkRel "/3D/t.png" type_texture "r1"; mkRel "/a" "x" "r2"; mkRel "/a" "x" "r3"] ++ [mkRel "/3D/c.model" type_3dmodel ""] ++ demands (mkRes [ex_texture] [] [])).
Proof.
  eexists. split; [reflexivity|]. split; [vm_compute; reflexivity|].
  intros a b Ha Hb E. cbn in Ha, Hb. intuition subst; try reflexivity; discriminate E.
Qed.

(** ** C47: attachments and relationships read *)
Section C47.
Context (resolve : string -> string -> string) (p : PkgIn) (Names : NoDup (map pf_name (pi_files p))).
Lemma process_one m m' cs root a r b :
  pi_rels p = a ++ r :: b -> rel_type r = type_3dmodel -> (forall x, In x (a ++ b) -> rel_type x <> type_3dmodel) ->
  process_opc resolve p m = Some (m', cs, root) ->
  Target resolve p "/" r root /\ cs = models resolve p (pf_name root) (pf_rels root) /\ mo_path m' = pf_name root /\
  mo_rootrels m' = mo_rootrels m ++ map fst (kept resolve p "/" (pi_rels p)) /\
  mo_rels m' = mo_rels m ++ map fst (kept_of resolve p root) /\
  mo_atts m' = attach (mo_atts m) (kept resolve p "/" a ++ kept_of resolve p root ++ flat_map (kept_of resolve p) cs ++ kept resolve p "/" b) /\
  kept resolve p "/" (pi_rels p) = kept resolve p "/" a ++ kept resolve p "/" b /\
  (NoDup (map pf_name cs) -> forall c, In c cs -> aget seq (pf_name c) (mo_childs m') = Some (mkChild res_zero (map fst (kept_of resolve p c)) [])) /\
  (forall k, (forall c, In c cs -> pf_name c <> k) -> aget seq k (mo_childs m') = aget seq k (mo_childs m)).
Proof.
  intros E T O H. unfold process_opc in H. rewrite E, process_app in H.
  assert (Oa : forall x, In x a -> rel_type x <> type_3dmodel) by (intros; apply O, in_or_app; auto).
  assert (Ob : forall x, In x b -> rel_type x <> type_3dmodel) by (intros; apply O, in_or_app; auto).
  rewrite (process_others resolve p a Oa) in H. cbn [process_rels] in H. unfold process_rel in H.
  pose proof (proj2 (model_rel_spec r) T) as TR. rewrite TR in H. pose proof (find_target resolve p "/" r) as FT.
  destruct (find_from resolve p "/" (rel_path r)) as [f|] eqn:EF; [|discriminate].
  unfold extract at 2 3 in H. rewrite extract_root in H. cbn [snd app] in H.
  cbn [mo_path mo_atts mo_childs mo_rootrels mo_rels mo_set_pkg] in H.
  set (cs0 := models resolve p (pf_name f) (pf_rels f)) in *.
  match type of H with context [fold_left _ cs0 (?mm, cs0)] =>
    destruct (extract_childs resolve p cs0 mm cs0) as (childs & E2 & O2 & G2) end.
  { intros c Hc. cbn [mo_childs mo_set_pkg]. rewrite add_childs_get. replace (existsb _ cs0) with true; [discriminate|]. symmetry. apply existsb_exists. exists c. split; [exact Hc|apply seq_refl]. }
  rewrite E2, (process_others resolve p b Ob) in H. cbn [mo_path mo_atts mo_childs mo_rootrels mo_rels mo_set_pkg fst snd] in *. injection H as <- <- <-.
  assert (KA : kept resolve p "/" (pi_rels p) = kept resolve p "/" a ++ kept resolve p "/" b).
  { rewrite E. clear -EF TR. induction a as [|x a IH]; cbn [app kept]; [rewrite EF, TR; reflexivity|]. rewrite IH. destruct (find_from resolve p "/" (rel_path x)); [|reflexivity]. destruct (is_model_rel x); reflexivity. }
  split; [exact FT|]. split; [reflexivity|]. split; [reflexivity|]. split; [cbn; rewrite KA, map_app, app_assoc; reflexivity|]. split; [reflexivity|].
  split; [cbn; rewrite !attach_app; reflexivity|]. split; [exact KA|]. split.
  - intros Nd c Hc. cbn [mo_childs mo_set_pkg]. rewrite (G2 Nd c child_zero Hc); [reflexivity|]. rewrite add_childs_get.
    replace (existsb _ cs0) with true; [reflexivity|]. symmetry. apply existsb_exists. exists c. split; [exact Hc|apply seq_refl].
  - intros k Hk. cbn [mo_childs mo_set_pkg]. rewrite O2 by exact Hk. rewrite add_childs_get. replace (existsb _ cs0) with false; [reflexivity|]. symmetry. apply not_true_iff_false.
    intros X. apply existsb_exists in X as (c & Hc & Ec). apply seq_true in Ec. apply (Hk c Hc). auto.
Qed.
Lemma kept_in src l r f : In (r, f) (kept resolve p src l) <-> In r l /\ rel_type r <> type_3dmodel /\ Target resolve p src r f.
Proof.
  induction l as [|x l IH]; cbn [kept]; [cbn; tauto|]. pose proof (find_target resolve p src x) as T.
  destruct (find_from _ _ _ _) as [g|] eqn:EF.
  - destruct (is_model_rel x) eqn:EM.
    + rewrite IH. apply model_rel_spec in EM. cbn. split; [tauto|]. intros [[->|H] K]; tauto.
    + assert (NM : rel_type x <> type_3dmodel) by (intros X; apply model_rel_spec in X; congruence). cbn [In]. rewrite IH. split.
      * intros [E|H]; [|tauto]. injection E as -> ->. auto.
      * intros [[->|H] [K1 K2]]; [|tauto]. left. f_equal. destruct T as [T1 T2], K2 as [T3 T4]. apply (names_unique p Names); congruence.
  - rewrite IH. cbn. split; [tauto|]. intros [[->|H] [K1 K2]]; [destruct (T f K2)|tauto].
Qed.
End C47.
(** Relationships: of the package, of the root model and of its children; those to absent parts are dropped, the
    order is kept.  The package has one relationship to a root model, and lists no child twice. *)
Theorem C47_relationships : forall resolve p m m' cs root a r b,
  NoDup (map pf_name (pi_files p)) ->
  pi_rels p = a ++ r :: b -> rel_type r = type_3dmodel -> (forall x, In x (a ++ b) -> rel_type x <> type_3dmodel) ->
  process_opc resolve p m = Some (m', cs, root) ->
  Target resolve p "/" r root /\ mo_path m' = pf_name root /\
  Models resolve p (pf_name root) (pf_rels root) cs /\
  (forall k, Kept resolve p "/" (pi_rels p) k -> mo_rootrels m' = mo_rootrels m ++ map fst k) /\
  (forall k, Kept resolve p (pf_name root) (pf_rels root) k -> mo_rels m' = mo_rels m ++ map fst k) /\
  (NoDup (map pf_name cs) -> forall c k, In c cs -> Kept resolve p (pf_name c) (pf_rels c) k ->
     aget seq (pf_name c) (mo_childs m') = Some (mkChild res_zero (map fst k) [])) /\
  (forall k, (forall c, In c cs -> pf_name c <> k) -> aget seq k (mo_childs m') = aget seq k (mo_childs m)).
Proof.
  intros * Nd E T O H. destruct (process_one resolve p m m' cs root a r b E T O H) as (H1 & H2 & H3 & H4 & H5 & H6 & _ & H7 & H8).
  split; [exact H1|]. split; [exact H3|]. split; [rewrite H2; apply models_spec|]. split; [|split; [|split; [|exact H8]]].
  - intros k K. rewrite (kept_unique resolve p Nd _ _ _ K). exact H4.
  - intros k K. rewrite (kept_unique resolve p Nd _ _ _ K). exact H5.
  - intros D c k Hc K. rewrite (kept_unique resolve p Nd _ _ _ K). apply H7; assumption.
Qed.
Print Assumptions C47_relationships.
(** Attachments: what is added was reached, once; and whatever was reached and can be read is there. *)
Theorem C47_attachments_partial : forall resolve p m m' cs root a r b,
  NoDup (map pf_name (pi_files p)) ->
  pi_rels p = a ++ r :: b -> rel_type r = type_3dmodel -> (forall x, In x (a ++ b) -> rel_type x <> type_3dmodel) ->
  process_opc resolve p m = Some (m', cs, root) ->
  exists new, mo_atts m' = mo_atts m ++ new /\
    (forall x, In x new -> exists f d, Reached resolve p root cs f /\ pf_data f = Some d /\ x = mkAtt d (pf_name f) (pf_ctype f)) /\
    (forall u x v y, new = u ++ x :: v -> In y (mo_atts m ++ u) -> ~ SameFold (at_path y) (at_path x)) /\
    (forall f, Reached resolve p root cs f -> pf_data f <> None -> exists x, In x (mo_atts m') /\ SameFold (at_path x) (pf_name f)) /\
    ((forall f g, In f (pi_files p) -> In g (pi_files p) -> SameFold (pf_name f) (pf_name g) -> f = g) -> mo_atts m = [] ->
     forall f d, Reached resolve p root cs f -> pf_data f = Some d -> In (mkAtt d (pf_name f) (pf_ctype f)) new).
Proof.
  intros * Nd E T O H. destruct (process_one resolve p m m' cs root a r b E T O H) as (H1 & H2 & H3 & H4 & H5 & H6 & KA & _).
  set (l := kept resolve p "/" a ++ kept_of resolve p root ++ flat_map (kept_of resolve p) cs ++ kept resolve p "/" b) in *.
  assert (L : forall f, In f (map snd l) <-> Reached resolve p root cs f).
  { intros f. unfold l. assert (X : forall r, In (r, f) l <-> In (r, f) (kept resolve p "/" (pi_rels p)) \/ exists g, In g (root :: cs) /\ In (r, f) (kept_of resolve p g)).
    { intros r'. unfold l. rewrite KA, !in_app_iff, in_flat_map. cbn [In]. split.
      - intros [K|[K|[(g & K)|K]]]; [auto|right; exists root; auto|right; exists g; tauto|auto].
      - intros [[K|K]|(g & [<-|K1] & K2)]; [auto|auto|auto|]. right. right. left. eauto. }
    rewrite in_map_iff. split.
    - intros ((r' & f') & <- & Hx). apply X in Hx as [K|(g & Hg & K)]; apply (kept_in resolve p Nd) in K as (K1 & K2 & K3).
      + exists "/", (pi_rels p), r'. auto.
      + exists (pf_name g), (pf_rels g), r'. split; [right; exists g; auto|auto].
    - intros (src & l' & r' & [[-> ->]|(g & Hg & -> & ->)] & K1 & K2 & K3); exists (r', f); (split; [reflexivity|]); apply X.
      + left. apply (kept_in resolve p Nd). auto.
      + right. exists g. split; [exact Hg|]. apply (kept_in resolve p Nd). auto. }
  destruct (attach_old l (mo_atts m)) as (new & En). exists new. rewrite <- H6 in En. split; [exact En|].
  assert (AP : forall u x v y, new = u ++ x :: v -> In y (mo_atts m ++ u) -> ~ SameFold (at_path y) (at_path x)).
  { intros u x v y Eu Hy. apply (attach_apart l (mo_atts m) (mo_atts m ++ u) x v); [rewrite <- H6, En, Eu, app_assoc; reflexivity|rewrite app_length; lia|exact Hy]. }
  assert (SO : forall x, In x new -> exists f d, Reached resolve p root cs f /\ pf_data f = Some d /\ x = mkAtt d (pf_name f) (pf_ctype f)).
  { intros x Hx. destruct (in_split _ _ Hx) as (u & v & Eu).
    destruct (attach_sound l (mo_atts m) x) as [Ho|(r' & f & d & Hf & Hd & ->)].
    - rewrite <- H6, En. apply in_or_app. auto.
    - destruct (AP u x v x Eu); [apply in_or_app; auto|reflexivity].
    - exists f, d. split; [|auto]. apply L. apply (in_map snd) in Hf. exact Hf. }
  split; [exact SO|]. split; [exact AP|].
  assert (CO : forall f, Reached resolve p root cs f -> pf_data f <> None -> exists x, In x (mo_atts m') /\ SameFold (at_path x) (pf_name f)).
  { intros f Rf Df. rewrite H6. apply attach_complete; [|exact Df]. apply L, Rf. }
  split; [exact CO|]. intros U A f d Rf Df. destruct (CO f Rf) as (x & Hx & Fx); [congruence|]. rewrite En, A in Hx. cbn in Hx.
  destruct (SO x Hx) as (g & d' & Rg & Dg & ->). cbn [at_path] in Fx.
  assert (g = f).
  { destruct Rg as (? & ? & ? & _ & _ & _ & Ig & _), Rf as (? & ? & ? & _ & _ & _ & If & _). apply U; assumption. }
  subst g. rewrite Df in Dg. injection Dg as <-. exact Hx.
Qed.
Print Assumptions C47_attachments_partial.
(** A part that cannot be read is left out without an error; its relationship stays. *)
Definition ex_pkg (data : option string) : PkgIn :=
  mkPI [mkRel "/3D/m.model" type_3dmodel "r1"; mkRel "/Thumb.png" type_thumbnail "r2"; mkRel "/none" "x" "r3"]
    [mkPF "/3D/m.model" "model" (Some "<model/>") [mkRel "/3D/c.model" type_3dmodel ""; mkRel "/thumb.PNG" "t" ""];
     mkPF "/Thumb.png" "image/png" data []; mkPF "/3D/c.model" "model" (Some "<model/>") [mkRel "/Thumb.png" "t" ""; mkRel "/gone" "t" ""]].
Theorem C47_unreadable_refuted : exists p f m' cs root, Reached (fun _ n => n) p root cs f /\
  process_opc (fun _ n => n) p model_zero = Some (m', cs, root) /\
  mo_atts m' = [] /\ In (pf_name f) (map rel_path (mo_rootrels m')).
Proof.
  eexists (ex_pkg None), (mkPF "/Thumb.png" "image/png" None []), _, _, _. split; [|split; [vm_compute; reflexivity|split; [reflexivity|left; reflexivity]]].
  exists "/", (pi_rels (ex_pkg None)), (mkRel "/Thumb.png" type_thumbnail "r2"). split; [left; auto|]. split; [right; left; reflexivity|]. split; [discriminate|].
  split; [right; left; reflexivity|reflexivity].
Qed.
Print Assumptions C47_unreadable_refuted.
Example C47_nonvacuous : let p := ex_pkg (Some "PNG") in
  NoDup (map pf_name (pi_files p)) /\
  exists m' cs root, process_opc (fun _ n => n) p model_zero = Some (m', cs, root) /\ map pf_name cs = ["/3D/c.model"] /\
    mo_atts m' = [mkAtt "PNG" "/Thumb.png" "image/png"] /\ mo_rootrels m' = [mkRel "/Thumb.png" type_thumbnail "r2"] /\ mo_rels m' = [] /\
    mo_childs m' = [("/3D/c.model", mkChild res_zero [mkRel "/Thumb.png" "t" ""] [])].
Proof.
  cbv zeta. split; [repeat constructor; cbn; intuition discriminate|]. eexists _, _, _. split; [vm_compute; reflexivity|]. repeat split; reflexivity.
Qed.
