(** * Proofs: saved models are well-formed *)
From Coq Require Import ZArith.
From Verif Require Import GoBase GoNum GoUtf8 GoFloat Types XmlTypes M_Core M_Xml M_Text M_Printer M_Encode GoStrconv S_Core S_Xml S_Printer S_Lex S_RoundTrip S_WellFormed
  P_Xml P_Esc P_RTText P_RTCore P_WellFormed.

(** ** The attributes of the specifications: those named [full], some of them, in this order *)
Inductive Pick (sk : bool) : list string -> list Attr -> Prop :=
| PkNil full : Pick sk full []
| PkCons n v full l : (sk = true -> safe v = true) -> Pick sk full l -> Pick sk (n :: full) (lattr n v :: l)
| PkSkip n full l : Pick sk full l -> Pick sk (n :: full) l.
Lemma pick_opt sk b n v full l : (sk = true -> safe v = true) -> Pick sk full l -> Pick sk (n :: full) (opt b (lattr n v) ++ l).
Proof. intros H P. destruct b; cbn [opt app]; [apply PkCons; assumption|apply PkSkip, P]. Qed.
Lemma pick_end sk b n v full : (sk = true -> safe v = true) -> Pick sk (n :: full) (opt b (lattr n v)).
Proof. intros H. rewrite <- (app_nil_r (opt _ _)). apply pick_opt; [exact H|apply PkNil]. Qed.
Fixpoint distinct (l : list string) : bool := match l with [] => true | x :: l => negb (existsb (seq x) l) && distinct l end.
Lemma distinct_nodup l : distinct l = true -> NoDup l.
Proof.
  induction l as [|x l IH]; intros H; [constructor|]. cbn [distinct] in H. apply andb_true_iff in H as [H1 H2]. constructor; [|apply IH, H2].
  intros Hi. apply negb_true_iff in H1. rewrite <- not_true_iff_false in H1. apply H1, existsb_exists. exists x. split; [exact Hi|apply seq_true; reflexivity].
Qed.
Definition own_names (full : list string) : bool := distinct full && forallb (fun s => word_name s && negb (seq s "xmlns")) full.

Section Scope.
Context (exts : list Extension) (sc : Scope) (M : list (string * string)).
Context (HM : MapOk exts sc M) (Hno : ~ Has exts "") (prec : nat).
Local Notation Fine := (Fine sc M).
Local Notation TagAttrs := (TagAttrs exts).
Local Notation AttrOk := (AttrOk exts).
Lemma pick_own sk full l : forallb (fun s => word_name s && negb (seq s "xmlns")) full = true -> Pick sk full l ->
  Forall (fun x => AttrOk sk x /\ nspace (aname x) = "") l /\ (forall x, In x (map aname l) -> nspace x = "" /\ In (nlocal x) full).
Proof.
  intros Hf P. induction P as [full|n v full l Hv P IH|n full l P IH].
  - split; [constructor|intros x []].
  - cbn [forallb] in Hf. apply andb_true_iff in Hf as [Hn Hf]. apply andb_true_iff in Hn as [Hn1 Hn2]. destruct (IH Hf) as [I1 I2]. split.
    + constructor; [|exact I1]. split; [|reflexivity]. split; [apply word_nc, Hn1|]. split; [|intros E; apply safe_verbatim, Hv, E].
      left. split; [reflexivity|]. cbn [lattr lname aname nlocal]. intros ->. discriminate Hn2.
    + intros x [<-|Hx]; [split; [reflexivity|left; reflexivity]|]. destruct (I2 x Hx). split; [assumption|right; assumption].
  - cbn [forallb] in Hf. apply andb_true_iff in Hf as [_ Hf]. destruct (IH Hf) as [I1 I2]. split; [exact I1|]. intros x Hx. destruct (I2 x Hx). split; [assumption|right; assumption].
Qed.
Lemma pick_nodup sk full l : distinct full = true -> forallb (fun s => word_name s && negb (seq s "xmlns")) full = true -> Pick sk full l -> NoDup (map aname l).
Proof.
  intros Hd Hf P. apply distinct_nodup in Hd. revert Hd Hf. induction P as [full|n v full l Hv P IH|n full l P IH]; intros Hd Hf.
  - constructor.
  - inversion Hd as [|? ? D1 D2]; subst. cbn [forallb] in Hf. apply andb_true_iff in Hf as [_ Hf]. cbn [map]. constructor; [|apply IH; assumption].
    intros Hi. destruct (pick_own sk full l Hf P) as [_ K]. destruct (K _ Hi) as [_ K2]. exact (D1 K2).
  - inversion Hd as [|? ? D1 D2]; subst. cbn [forallb] in Hf. apply andb_true_iff in Hf as [_ Hf]. apply IH; assumption.
Qed.
Lemma nodup_app {A} (a b : list A) : NoDup a -> NoDup b -> (forall x, In x a -> In x b -> False) -> NoDup (a ++ b).
Proof.
  intros Ha Hb H. induction Ha as [|x a N _ IH]; [exact Hb|]. cbn [app]. constructor.
  - intros Hi. apply in_app_or in Hi as [Hi|Hi]; [exact (N Hi)|exact (H x (or_introl eq_refl) Hi)].
  - apply IH. intros y Hy. apply H. right. exact Hy.
Qed.
Lemma group_names g : map aname (concat (group_appends g)) = attr_names g.
Proof.
  destruct g as [sp a|u|u|u p|u p|id r]; cbn [group_appends concat attr_names]; rewrite ?app_nil_r; try reflexivity; unfold nonempty; destruct (seq p ""); reflexivity.
Qed.
Lemma any_names any : map aname (any_attrs any) = flat_map attr_names any.
Proof.
  unfold any_attrs, any_appends. induction any as [|g any IH]; [reflexivity|]. cbn [flat_map]. rewrite concat_app, map_app, group_names, IH. reflexivity.
Qed.
Lemma res_safe r : safe (resolution_string r) = true.
Proof. unfold resolution_string. destruct r as [|[?|?|]]; reflexivity. Qed.
Lemma any_values any : Forall Verbatim (flat_map attr_texts any) -> Forall (fun x => Verbatim (avalue x)) (any_attrs any).
Proof.
  unfold any_attrs, any_appends. induction any as [|g any IH]; intros H; [constructor|]. cbn [flat_map] in H |- *. apply Forall_app in H as [H1 H2]. rewrite concat_app. apply Forall_app. split; [|apply IH, H2].
  destruct g as [sp a|u|u|u p|u p|id r]; cbn [group_appends concat attr_texts] in H1 |- *; rewrite ?app_nil_r.
  - exact (proj1 (Forall_map avalue Verbatim a) H1).
  - constructor; [exact (Forall_inv H1)|constructor].
  - constructor; [exact (Forall_inv H1)|constructor].
  - pose proof (Forall_inv H1). pose proof (Forall_inv (Forall_inv_tail H1)). destruct (nonempty p); cbn [app concat]; repeat constructor; assumption.
  - pose proof (Forall_inv H1). pose proof (Forall_inv (Forall_inv_tail H1)). destruct (nonempty p); cbn [app concat]; repeat constructor; assumption.
  - constructor; [apply safe_verbatim, safe_dec|]. constructor; [apply safe_verbatim, res_safe|constructor].
Qed.
Lemma any_ok sk any : AnyOk exts sk any -> Forall (AttrOk sk) (any_attrs any) /\ NoDup (map aname (any_attrs any)) /\ (forall n, In n (map aname (any_attrs any)) -> nspace n <> "").
Proof.
  intros (H1 & H2 & H3). rewrite any_names. rewrite <- any_names in H2.
  assert (N0 : forall n, NameOk exts n -> nspace n <> "") by (intros n [_ [E|E]] E0; rewrite E0 in E; [discriminate|exact (Hno E)]).
  split; [|split; [exact H1|]].
  - apply Forall_forall. intros x Hx. pose proof (proj1 (Forall_forall _ _) H2 (aname x) (in_map aname _ _ Hx)) as [K1 K2]. split; [exact K1|]. split; [right; exact K2|].
    intros E. pose proof (any_values any (H3 E)) as V. rewrite Forall_forall in V. exact (V x Hx).
  - intros n Hn. rewrite any_names in H2. rewrite Forall_forall in H2. apply N0, H2, Hn.
Qed.
Lemma tag_any sk full own any : own_names full = true -> Pick sk full own -> AnyOk exts sk any -> TagAttrs sk (own ++ any_attrs any).
Proof.
  intros Hf P A. apply andb_true_iff in Hf as [Hd Hf]. destruct (pick_own sk full own Hf P) as [O1 O2]. destruct (any_ok sk any A) as (A1 & A2 & A3). split.
  - apply Forall_app. split; [|exact A1]. apply Forall_forall. intros x Hx. rewrite Forall_forall in O1. apply O1, Hx.
  - rewrite map_app. apply nodup_app; [apply (pick_nodup sk full); assumption|exact A2|]. intros x H1 H2. destruct (O2 x H1) as [E _]. exact (A3 x H2 E).
Qed.
Lemma any_nil sk : AnyOk exts sk [].
Proof. split; [constructor|]. split; [constructor|intros _; constructor]. Qed.
Lemma tag_own sk full own : own_names full = true -> Pick sk full own -> TagAttrs sk own.
Proof. intros Hf P. rewrite <- (app_nil_r own). apply (tag_any sk full own []); [exact Hf|exact P|apply any_nil]. Qed.
Lemma tag_just sk any : AnyOk exts sk any -> TagAttrs sk (any_attrs any).
Proof. intros A. apply (tag_any sk [] [] any); [reflexivity|apply PkNil|exact A]. Qed.
Ltac nosk := intros H0; discriminate H0.
Ltac pick := cbn [app]; repeat first [apply PkNil | apply PkCons; [try nosk|] | apply pick_opt; [try nosk|] | apply pick_end; try nosk].
Ltac nc := apply word_nc; reflexivity.
(** ** Extensions *)
Lemma cap_safe n : safe (cap_string n) = true.
Proof. unfold cap_string. destruct n as [|[[?|?|]|[?|?|]|]]; reflexivity. Qed.
Lemma fine_ext e : ColorsOk e -> Fine false false (write_ext prec e).
Proof.
  intros HC. destruct e as [r|r|r|r|r|r|r]; cbn [write_ext].
  - unfold write_texture. apply fine_rel, fine_auto, (fine_start exts); try assumption; [nc|]. apply (tag_own false ["id"; "path"; "contenttype"; "tilestyleu"; "tilestylev"; "filter"]); [reflexivity|]. pick.
  - apply (fine_element exts); try assumption; [nc|apply (tag_own false ["id"; "texid"]); [reflexivity|pick]|]. apply fine_auto_skip, (fine_starts exts); try assumption; [nc|].
    intros x _. apply (tag_own true ["u"; "v"]); [reflexivity|]. pick; intros _; apply safe_float.
  - apply (fine_element exts); try assumption; [nc|apply (tag_own false ["id"]); [reflexivity|pick]|]. apply fine_auto_skip, (fine_starts exts); try assumption; [nc|].
    intros x Hx. apply (tag_own true ["color"]); [reflexivity|]. pick; intros _; apply safe_rgba. cbn [ColorsOk] in HC. rewrite Forall_forall in HC. apply HC, Hx.
  - apply (fine_element exts); try assumption; [nc|apply (tag_own false ["id"; "matid"; "matindices"]); [reflexivity|pick]|]. apply fine_auto_skip, (fine_starts exts); try assumption; [nc|].
    intros x Hx. apply (tag_own true ["values"]); [reflexivity|]. pick; intros _; apply safe_join. apply Forall_map, Forall_forall. intros; apply safe_float.
  - apply (fine_element exts); try assumption; [nc|apply (tag_own false ["id"; "pids"; "blendmethods"]); [reflexivity|pick]|]. apply fine_auto_skip, (fine_starts exts); try assumption; [nc|].
    intros x Hx. apply (tag_own true ["pindices"]); [reflexivity|]. pick; intros _; apply safe_join. apply Forall_map, Forall_forall. intros; apply safe_dec.
  - apply (fine_element exts); try assumption; [nc|apply (tag_own false ["id"; "zbottom"]); [reflexivity|pick]|]. apply fine_cat.
    + apply fine_flat. intros s _. unfold write_slice. apply (fine_element exts); try assumption; [nc|apply (tag_own false ["ztop"]); [reflexivity|pick]|]. apply fine_cat.
      * unfold write_slice_vertices. apply (fine_element exts); try assumption; [nc|apply (tag_own false []); [reflexivity|pick]|]. apply fine_auto_skip, (fine_starts exts); try assumption; [nc|].
        intros x _. apply (tag_own true ["x"; "y"]); [reflexivity|]. pick; intros _; apply safe_float.
      * unfold write_polygons. apply fine_skip, fine_flat. intros p _. apply (fine_element exts); try assumption; [nc|apply (tag_own true ["startv"]); [reflexivity|pick; intros _; apply safe_dec]|].
        apply fine_auto, (fine_starts exts); try assumption; [nc|]. intros x _. apply (tag_own true ["v2"; "pid"; "p1"; "p2"]); [reflexivity|]. unfold segment_attrs.
        destruct (_ =? _)%N; pick; intros _; apply safe_dec.
    + apply fine_auto, (fine_starts exts); try assumption; [nc|]. intros x _. apply (tag_own false ["slicestackid"; "slicepath"]); [reflexivity|]. pick.
  - unfold write_lattice. apply (fine_element exts); try assumption; [nc|apply (tag_own false ["minlength"; "radius"; "clippingmode"; "clippingmesh"; "representationmesh"; "cap"]); [reflexivity|pick]|]. apply fine_cat.
    + unfold write_beams. apply (fine_element exts); try assumption; [nc|apply (tag_own false []); [reflexivity|pick]|]. apply fine_auto_skip, (fine_starts exts); try assumption; [nc|].
      intros x _. unfold beam_attrs. apply (tag_own true ["v1"; "v2"; "r1"; "r2"; "cap1"; "cap2"]); [reflexivity|]. pick; intros _; first [apply safe_dec | apply safe_float | apply cap_safe].
    + unfold write_sets. apply (fine_element exts); try assumption; [nc|apply (tag_own false []); [reflexivity|pick]|]. apply fine_flat. intros s _.
      apply (fine_element exts); try assumption; [nc|apply (tag_own false ["name"; "identifier"]); [reflexivity|pick]|]. apply fine_auto, (fine_starts exts); try assumption; [nc|].
      intros x _. apply (tag_own false ["index"]); [reflexivity|]. pick.
Qed.
Lemma fine_tokens l : Forest exts l -> Fine false false (write_tokens l).
Proof.
  unfold write_tokens. induction 1 as [|s r _ IH|n a l r Nc Nd Ha _ IHl _ IHr]; [apply fine_nil| |].
  - cbn [map]. apply (fine_cat sc M false false [OpTok (TChar s)]); [apply fine_text|exact IH].
  - cbn [map]. rewrite map_app. cbn [map].
    replace (OpTok (TStart n a) :: map OpTok l ++ OpTok (TEnd n) :: map OpTok r) with (element n a (map OpTok l) ++ map OpTok r).
    + apply fine_cat; [|exact IHr]. apply (fine_element exts); try assumption. split; [|exact Nd]. apply Forall_forall. intros x Hx. rewrite Forall_forall in Ha. destruct (Ha x Hx) as [[K1 K2]|(K1 & K2 & K3)].
      * split; [exact K1|]. split; [right; exact K2|nosk].
      * split; [exact K1|]. split; [left; split; assumption|nosk].
    + unfold element, start_op, end_op. cbn [app]. rewrite <- app_assoc. reflexivity.
Qed.
Lemma fine_any l : Forall (ElemOk exts) l -> Fine false false (write_any prec l).
Proof.
  intros H. destruct l as [|[ts|x] l]; cbn [write_any write_any1]; [apply fine_nil|apply fine_tokens, (Forall_inv H)|apply fine_ext, (Forall_inv H)].
Qed.
(** ** Core *)
Lemma fine_metadata l : Fine false false (write_metadata l).
Proof.
  apply fine_flat. intros md _. apply (fine_element exts); try assumption; [nc| |apply fine_text]. apply (tag_own false ["name"; "preserve"; "type"]); [reflexivity|]. pick.
Qed.
Lemma fine_mdgroup g : MdOk exts g -> Fine false false (write_metadata_group g).
Proof. intros H. apply (fine_element exts); try assumption; [nc|apply tag_just, H|apply fine_metadata]. Qed.
Lemma fine_build m : BuildOk exts (mo_build m) -> Fine false false (write_build m).
Proof.
  intros [H1 H2]. apply (fine_element exts); try assumption; [nc|apply tag_just, H1|]. apply fine_auto, fine_flat. intros i Hi. rewrite Forall_forall in H2. destruct (H2 i Hi) as [H3 H4].
  assert (T : TagAttrs false (item_attrs i)).
  { unfold item_attrs. rewrite !app_assoc. apply (tag_any false ["objectid"; "transform"; "partnumber"]); [reflexivity| |exact H3]. rewrite <- !app_assoc. pick. }
  unfold write_item. destruct (mg_list (it_md i)); [apply (fine_start exts); try assumption; nc|].
  apply (fine_unauto sc M false). apply (fine_element exts); try assumption; [nc|]. apply fine_mdgroup, H4.
Qed.
Lemma fine_components c : CompsOk exts c -> Fine false false (write_components c).
Proof.
  intros [H1 H2]. apply (fine_element exts); try assumption; [nc|apply tag_just, H1|]. apply fine_auto, (fine_starts exts); try assumption; [nc|].
  intros x Hx. rewrite Forall_forall in H2. rewrite app_assoc. apply (tag_any false ["objectid"; "transform"]); [reflexivity| |apply H2, Hx]. pick.
Qed.
Lemma tri_pick pid pindex t : Pick true ["v1"; "v2"; "v3"; "pid"; "p1"; "p2"; "p3"] (tri_core pid pindex t).
Proof.
  unfold tri_core, tri_values. destruct (_ =? _)%N; [|destruct (_ || _); [|destruct (_ || _)]]; cbn [app map named]; pick; intros _; apply safe_dec.
Qed.
Lemma fine_tris pid pindex l : TrisOk exts l -> forall arr, tri_names arr -> Fine true true (write_tris pid pindex arr l).
Proof.
  induction 1 as [|t r A W _ IH]; intros arr N; cbn [write_tris]; [apply fine_nil|].
  pose proof (tri_step_view pid pindex arr t N) as V. destruct (tri_step pid pindex arr t) as [attrs arr'] eqn:ES. cbn [fst] in V. subst attrs.
  apply (fine_cat sc M true true [start_op (lname "triangle") (tri_core pid pindex t ++ any_attrs (t_any t))]).
  - apply (fine_start exts); try assumption; [nc|]. apply (tag_any true ["v1"; "v2"; "v3"; "pid"; "p1"; "p2"; "p3"]); [reflexivity|apply tri_pick|exact A].
  - destruct W as [W|[W| ->]]; [| |apply fine_nil].
    + apply IH. pose proof (tri_step_names pid pindex arr t N (or_introl W)) as X. rewrite ES in X. exact X.
    + apply IH. pose proof (tri_step_names pid pindex arr t N (or_intror W)) as X. rewrite ES in X. exact X.
Qed.
Lemma fine_mesh o m : MeshOk exts m -> Fine false false (write_mesh prec o m).
Proof.
  intros (H1 & H2 & H3 & H4 & H5). apply (fine_element exts); try assumption; [nc|apply tag_just, H1|]. apply fine_cat; [|apply fine_cat; [|apply fine_any, H5]].
  - apply (fine_element exts); try assumption; [nc|apply tag_just, H2|]. apply fine_auto_skip, (fine_starts exts); try assumption; [nc|]. intros v _.
    apply (tag_own true ["x"; "y"; "z"]); [reflexivity|]. pick; intros _; apply safe_float.
  - apply (fine_element exts); try assumption; [nc|apply tag_just, H3|]. apply fine_auto_skip, fine_tris; [exact H4|reflexivity].
Qed.
Lemma fine_object o : ObjOk exts o -> Fine false false (write_object prec o).
Proof.
  intros (H1 & H2 & H3 & H4). unfold write_object. apply fine_cat; [destruct (nonempty _); [apply fine_rel, fine_nil|apply fine_nil]|].
  apply (fine_element exts); try assumption; [nc| |].
  - unfold object_attrs. rewrite !app_assoc. apply (tag_any false ["id"; "type"; "thumbnail"; "partnumber"; "name"; "pid"; "pindex"]); [reflexivity| |exact H1]. rewrite <- !app_assoc. pick.
  - apply fine_cat; [destruct (mg_list (ob_md o)); [apply fine_nil|apply fine_mdgroup, H2]|].
    destruct (ob_mesh o) as [me|]; [apply fine_mesh, H3; reflexivity|]. destruct (ob_comps o) as [cs|]; [apply fine_components, H4; reflexivity|apply fine_nil].
Qed.
Lemma fine_resources r : ResOk exts r -> Fine false false (write_resources prec r).
Proof.
  intros (H1 & H2 & H3). apply (fine_element exts); try assumption; [nc|apply tag_just, H1|]. apply fine_cat; apply fine_flat.
  - intros a Ha. rewrite Forall_forall in H2. specialize (H2 a Ha). destruct a as [b|id l|e]; cbn [write_asset AssetOk] in *.
    + destruct H2 as [K1 K2]. unfold write_basemats. apply (fine_element exts); try assumption; [nc|apply (tag_any false ["id"] [lattr "id" (fmt_dec (bs_id b))]); [reflexivity|pick|exact K1]|].
      apply fine_auto, (fine_starts exts); try assumption; [nc|]. intros x Hx. rewrite Forall_forall in K2. apply (tag_any false ["name"; "displaycolor"]); [reflexivity|pick|apply K2, Hx].
    + apply fine_tokens, H2.
    + apply fine_ext, H2.
  - intros o Ho. rewrite Forall_forall in H3. apply fine_object, H3, Ho.
Qed.
End Scope.

(** ** The model element *)
Definition ext_attrs (l : list Extension) : list Attr := map (fun e => mkAttr (mkName "xmlns" (ex_local e)) (ex_ns e)) l.
Definition ext_decls (l : list Extension) : Scope := map (fun e => (ex_local e, ex_ns e)) l.
Definition ExtOk (x : Extension) : Prop :=
  NcName (ex_local x) /\ ex_local x <> "xml" /\ ex_local x <> "xmlns" /\ XmlText (ex_ns x) /\ ~ In (ex_ns x) [""; "xmlns"; nsxml; ns_xmlns].
Lemma prefix_aset k v M ns : prefix_of (aset seq k v M) ns = if seq k ns then v else prefix_of M ns.
Proof.
  unfold prefix_of. destruct (seq_spec k ns) as [->|N0]; [rewrite (aget_aset_same _ seq_spec); reflexivity|rewrite (aget_aset_other _ seq_spec) by congruence; reflexivity].
Qed.
(** Prefixes of the map come from the extensions [l] *)
Record Known (l : list Extension) (M : list (string * string)) : Prop := {
  kn_from : forall ns, prefix_of M ns = "" \/ exists x, In x l /\ ex_ns x = ns /\ ex_local x = prefix_of M ns;
  kn_all : forall x, In x l -> prefix_of M (ex_ns x) <> "" }.
Lemma known_map l M sc : Forall ExtOk l -> NoDup (map ex_local l) -> (forall x, In x l -> aget seq (ex_local x) sc = Some (ex_ns x)) -> Known l M -> MapOk l sc M.
Proof.
  intros F ND HS [K1 K2]. rewrite Forall_forall in F. constructor.
  - intros ns. destruct (K1 ns) as [E|(x & Hx & E1 & E2)]; [left; exact E|right]. rewrite <- E2. destruct (F x Hx) as (X1 & X2 & X3 & _). split; [exact X1|]. split; [rewrite (HS x Hx), E1; reflexivity|exact X3].
  - intros ns H. apply in_map_iff in H as (x & <- & Hx). apply K2, Hx.
  - destruct (K1 nsxml) as [E|(x & Hx & E1 & E2)]; [exact E|]. destruct (F x Hx) as (_ & _ & _ & _ & X). destruct X. rewrite E1. right. right. left. reflexivity.
Qed.
Lemma exts_written l : Forall ExtOk l -> forall pre M, Forall ExtOk pre -> Known pre M -> exists s M', write_attrs false M (ext_attrs l) = (s, M') /\ Known (pre ++ l) M' /\
  Attributes s (map (fun e => ("xmlns", ex_local e, ex_ns e)) l).
Proof.
  induction 1 as [|x l (X1 & X2 & X3 & X4 & X5) Hl IH]; intros pre M Hp K.
  - exists "", M. rewrite app_nil_r. split; [reflexivity|]. split; [exact K|constructor].
  - destruct K as [K1 K2].
    assert (E0 : prefix_of M "xmlns" = "").
    { destruct (K1 "xmlns") as [E|(y & Hy & E1 & _)]; [exact E|]. rewrite Forall_forall in Hp. destruct (Hp y Hy) as (_ & _ & _ & _ & Y). destruct Y. rewrite E1. right. left. reflexivity. }
    assert (K' : Known (pre ++ [x]) (aset seq (ex_ns x) (ex_local x) M)).
    { constructor.
      - intros ns. rewrite prefix_aset. destruct (seq_spec (ex_ns x) ns) as [E|N0].
        + right. exists x. split; [apply in_or_app; right; left; reflexivity|]. split; [exact E|reflexivity].
        + destruct (K1 ns) as [E|(y & Hy & E1)]; [left; exact E|right]. exists y. split; [apply in_or_app; left; exact Hy|exact E1].
      - intros y Hy. rewrite prefix_aset. destruct (seq_spec (ex_ns x) (ex_ns y)) as [E|N0]; [apply nc_nonempty, X1|]. apply in_app_or in Hy as [Hy|[<-|[]]]; [apply K2, Hy|congruence]. }
    assert (Hp' : Forall ExtOk (pre ++ [x])) by (apply Forall_app; split; [exact Hp|constructor; [repeat (split; [assumption|]); exact X5|constructor]]).
    destruct (IH _ _ Hp' K') as (s & M' & E & K3 & A). rewrite <- app_assoc in K3. cbn [app] in K3.
    exists (" " +++ ("xmlns:" +++ ex_local x) +++ "=""" +++ escape_text (ex_ns x) +++ """" +++ s), M'. split; [|split; [exact K3|]].
    + unfold ext_attrs in *. cbn [map write_attrs aname nlocal nspace avalue]. destruct (seq_spec (ex_local x) "") as [e|_]; [destruct (nc_nonempty _ X1 e)|].
      unfold create_attr_prefix. cbn [aname nspace nlocal avalue]. rewrite E0. change (seq "xmlns" "") with false. change (seq "" "") with true. change (seq "xmlns" ns_xml) with false. change (seq "xmlns" "xmlns") with true.
      cbn [negb]. cbv iota zeta. rewrite E. rewrite !sapp_assoc. reflexivity.
    + cbn [map]. apply AsCons; [exact space_blank|discriminate|split; [exact X1|right; split; [apply word_nc; reflexivity|reflexivity]]|apply value_means, X4|exact A].
Qed.
Lemma exts_scope l : NoDup (map ex_local l) -> Forall ExtOk l -> forall x, In x l -> aget seq (ex_local x) (("", ns_core) :: ext_decls l) = Some (ex_ns x).
Proof.
  intros ND F x Hx. apply P_Core.in_aget; [|right; apply (in_map (fun e => (ex_local e, ex_ns e))), Hx]. cbn [map fst]. unfold ext_decls. rewrite map_map. cbn [fst]. constructor; [|exact ND].
  intros Hi. apply in_map_iff in Hi as (y & E & Hy). rewrite Forall_forall in F. destruct (F y Hy) as (Y & _). exact (nc_nonempty _ Y E).
Qed.
Lemma decls_exts l : declarations (map (fun e => ("xmlns", ex_local e, ex_ns e)) l) = ext_decls l.
Proof. induction l as [|x l IH]; [reflexivity|]. cbn [map]. unfold declarations in *. cbn [flat_map]. rewrite IH. reflexivity. Qed.
Lemma others_exts l : others (map (fun e => ("xmlns", ex_local e, ex_ns e)) l) = [].
Proof. induction l as [|x l IH]; [reflexivity|]. cbn [map]. unfold others in *. cbn [filter]. change (seq "xmlns" "xmlns") with true. cbn [negb andb]. exact IH. Qed.
Definition req_attr (l : list Extension) : list Attr :=
  match isort sleb (map ex_local (filter ex_req l)) with [] => [] | l => [lattr "requiredextensions" (sjoin " " l)] end.
Definition own_attrs (m : Model) (isroot : bool) : list Attr :=
  [lattr "unit" (units_string (mo_units m)); mkAttr (mkName ns_xml "lang") (mo_lang m)] ++ opt (isroot && nonempty (mo_thumb m)) (lattr "thumbnail" (mo_thumb m)).
Lemma head_split m isroot : model_attrs m isroot = lattr "xmlns" ns_core :: own_attrs m isroot ++ ext_attrs (mo_exts m) ++ req_attr (mo_exts m) ++ any_attrs (mo_anyattr m).
Proof. unfold model_attrs, own_attrs. cbn [app]. rewrite <- ?app_assoc. reflexivity. Qed.
Lemma map_none sc : MapOk [] sc [].
Proof. constructor; [intros ns; left; reflexivity|intros ns []|reflexivity]. Qed.
Lemma own_ok m isroot : Forall (AttrOk [] false) (own_attrs m isroot).
Proof.
  assert (L : forall s v, word_name s = true -> s <> "xmlns" -> AttrOk [] false (lattr s v)) by (intros s v W N0; split; [apply word_nc, W|]; split; [left; split; [reflexivity|exact N0]|discriminate]).
  unfold own_attrs. apply Forall_app. split.
  - constructor; [apply L; [reflexivity|discriminate]|]. constructor; [|constructor]. split; [apply word_nc; reflexivity|]. split; [right; left; reflexivity|discriminate].
  - destruct (isroot && _); [|constructor]. constructor; [apply L; [reflexivity|discriminate]|constructor].
Qed.
Lemma req_names l : map aname (req_attr l) = [] \/ map aname (req_attr l) = [lname "requiredextensions"].
Proof. unfold req_attr. destruct (isort _ _); [left|right]; reflexivity. Qed.
Lemma req_ok l exts : Forall (AttrOk exts false) (req_attr l).
Proof.
  unfold req_attr. destruct (isort _ _); constructor; [|constructor]. split; [apply word_nc; reflexivity|]. split; [left; split; [reflexivity|discriminate]|discriminate].
Qed.
Lemma own_names_in m isroot : map aname (own_attrs m isroot) = [lname "unit"; mkName nsxml "lang"] \/ map aname (own_attrs m isroot) = [lname "unit"; mkName nsxml "lang"; lname "thumbnail"].
Proof. unfold own_attrs. destruct (isroot && _); [right|left]; reflexivity. Qed.
Lemma head_written m isroot : HeadOk (mo_exts m) m -> exists s M xs, write_attrs false [] (model_attrs m isroot) = (s, M) /\ Attributes s xs /\
  declarations xs = ("", ns_core) :: ext_decls (mo_exts m) /\ TagOk (declarations xs ++ []) "" xs /\ MapOk (mo_exts m) (declarations xs ++ []) M /\ ~ Has (mo_exts m) "" /\
  prefix_of M "" = "".
Proof.
  intros ([ND HF] & HA & HL). change (Forall ExtOk (mo_exts m)) in HF. set (sc := ("", ns_core) :: ext_decls (mo_exts m)).
  assert (Hno : ~ Has (mo_exts m) "").
  { intros H. apply in_map_iff in H as (x & E & Hx). rewrite Forall_forall in HF. destruct (HF x Hx) as (_ & _ & _ & _ & X). apply X. left. symmetry. exact E. }
  destruct (attrs_written [] sc [] (map_none sc) (fun x => x) false (own_attrs m isroot) (own_ok m isroot)) as (s1 & x1 & E1 & A1 & D1 & F1).
  assert (K0 : Known [] []) by (constructor; [intros ns; left; reflexivity|intros x []]).
  destruct (exts_written (mo_exts m) HF [] [] (Forall_nil _) K0) as (s2 & M & E2 & K2 & A2). cbn [app] in K2.
  assert (HM : MapOk (mo_exts m) sc M) by (apply known_map; [exact HF|exact ND|apply exts_scope; assumption|exact K2]).
  destruct (any_ok (mo_exts m) Hno false (mo_anyattr m) HA) as (Y1 & Y2 & Y3).
  assert (F3 : Forall (AttrOk (mo_exts m) false) (req_attr (mo_exts m) ++ any_attrs (mo_anyattr m))) by (apply Forall_app; split; [apply req_ok|exact Y1]).
  destruct (attrs_written (mo_exts m) sc M HM Hno false _ F3) as (s3 & x3 & E3 & A3 & D3 & F3').
  set (xs := ("", "xmlns", ns_core) :: x1 ++ map (fun e => ("xmlns", ex_local e, ex_ns e)) (mo_exts m) ++ x3).
  assert (ED : declarations xs = sc).
  { unfold xs. change (declarations (("", "xmlns", ns_core) :: ?l)) with (("", ns_core) :: declarations l). rewrite !decls_app, D1, D3, decls_exts, app_nil_r. reflexivity. }
  exists (" " +++ "xmlns" +++ "=""" +++ escape_text ns_core +++ """" +++ (s1 +++ s2 +++ s3)), M, xs.
  split; [rewrite head_split; cbn [write_attrs lattr lname aname nlocal nspace avalue]; change (seq "xmlns" "") with false; change (seq "" "") with true; cbn [negb]; cbv iota;
          rewrite write_attrs_app, E1, write_attrs_app, E2, E3; cbn [String.append]; reflexivity|].
  split.
  { unfold xs. apply AsCons; [exact space_blank|discriminate|split; [apply word_nc; reflexivity|left; split; reflexivity]|apply value_means, printable_xml; reflexivity|].
    apply attributes_app; [exact A1|]. apply attributes_app; [exact A2|exact A3]. }
  split; [exact ED|]. rewrite ED, app_nil_r. split; [|split; [exact HM|split; [exact Hno|]]].
  - split; [exists ""; constructor|]. rewrite ED. split; [|split].
    + unfold sc. constructor.
      * unfold DeclOk. cbn [fst snd]. repeat split; try discriminate.
      * unfold ext_decls. apply Forall_map. apply (Forall_impl _ (P := ExtOk)); [|exact HF]. intros x (X1 & X2 & X3 & X4 & X5). unfold DeclOk. cbn [fst snd]. cbn [In] in X5.
        split; [exact X2|]. split; [exact X3|]. split; [intros _ e; apply X5; left; symmetry; exact e|]. split; intros e; apply X5; rewrite e; tauto.
    + unfold sc. cbn [map fst]. unfold ext_decls. rewrite map_map. cbn [fst]. constructor; [|exact ND].
      intros Hi. apply in_map_iff in Hi as (y & E & Hy). rewrite Forall_forall in HF. destruct (HF y Hy) as (Y & _). exact (nc_nonempty _ Y E).
    + exists (map key (own_attrs m isroot ++ req_attr (mo_exts m) ++ any_attrs (mo_anyattr m))). split.
      * unfold xs. change (others (("", "xmlns", ns_core) :: ?l)) with (others l). rewrite !others_app, others_exts, map_app. cbn [app]. apply Forall2_app; assumption.
      * apply keys_nodup. rewrite !map_app.
        assert (HA0 : forall n, In n (map aname (any_attrs (mo_anyattr m))) -> nspace n <> "" /\ n <> mkName nsxml "lang").
        { intros n Hn. split; [apply Y3, Hn|]. intros ->. apply HL. rewrite <- any_names. exact Hn. }
        apply nodup_app; [destruct (own_names_in m isroot) as [-> | ->]; repeat (constructor; [cbn [In]; unfold lname; intuition discriminate|]); constructor| |].
        -- apply nodup_app; [destruct (req_names (mo_exts m)) as [-> | ->]; repeat (constructor; [cbn [In]; intuition discriminate|]); constructor|exact Y2|].
           intros n Hn Hn'. destruct (HA0 n Hn') as [N1 _]. destruct (req_names (mo_exts m)) as [R|R]; rewrite R in Hn; [destruct Hn|]. destruct Hn as [<-|[]]. apply N1. reflexivity.
        -- intros n Hn Hn'. apply in_app_or in Hn' as [Hn'|Hn'].
           ++ destruct (req_names (mo_exts m)) as [R|R]; rewrite R in Hn'; [destruct Hn'|]. destruct Hn' as [<-|[]].
              destruct (own_names_in m isroot) as [R'|R']; rewrite R' in Hn; unfold lname in Hn; cbn [In] in Hn; intuition discriminate.
           ++ destruct (HA0 n Hn') as [N1 N2]. destruct (own_names_in m isroot) as [R'|R']; rewrite R' in Hn; unfold lname in Hn; cbn [In] in Hn;
                repeat destruct Hn as [<-|Hn]; try (apply N1; reflexivity); try (apply N2; reflexivity); destruct Hn.
  - destruct (kn_from _ _ K2 "") as [E|(x & Hx & E & _)]; [exact E|]. exfalso. apply Hno. rewrite <- E. apply in_map, Hx.
Qed.
Lemma root_written m isroot inner : HeadOk (mo_exts m) m ->
  (forall sc M, MapOk (mo_exts m) sc M -> ~ Has (mo_exts m) "" -> Fine sc M false false inner) -> Well [] (print (element (lname "model") (model_attrs m isroot) inner)) [true].
Proof.
  intros HH HI. destruct (head_written m isroot HH) as (s & M & xs & E & A & D & T & HM & Hno & E0). destruct (HI _ _ HM Hno) as (b & k & Eb & Wb).
  unfold print, element, start_op, end_op, printer_new. cbn [print_ops print_op]. unfold write_start. cbn [pr_skip pr_prefix pr_auto]. rewrite E, print_app, Eb. cbn [print_ops print_op]. unfold write_end. cbn [pr_prefix fst].
  assert (TN : forall M, tag_name M (lname "model") = "model") by reflexivity. rewrite !TN.
  replace (("<" +++ "model" +++ s +++ "" +++ ">") +++ b +++ ("</" +++ "model" +++ ">") +++ "") with ("<" +++ "model" +++ s +++ ">" +++ b +++ "</" +++ "model" +++ ">" +++ "")
    by (rewrite ?sapp_assoc; reflexivity).
  apply (WlElem [] "model" "" "model" s xs b k "" []); [split; [apply word_nc; reflexivity|left; split; reflexivity]|exact A|exact T|exact Wb|constructor].
Qed.
Lemma model_written prec m : ModelOk m -> Well [] (print (write_model prec m)) [true].
Proof.
  intros (H1 & H2 & H3 & H4). apply root_written; [exact H1|]. intros sc M HM Hno.
  apply fine_cat; [apply (fine_metadata (mo_exts m)); assumption|]. apply fine_cat; [apply (fine_resources (mo_exts m)); assumption|]. apply fine_cat; [apply (fine_build (mo_exts m)); assumption|apply (fine_any (mo_exts m)); assumption].
Qed.
Lemma child_written prec m c : ChildOk m c -> Well [] (print (write_child prec m c)) [true].
Proof.
  intros (H1 & H2 & H3). apply root_written; [exact H1|]. intros sc M HM Hno.
  apply fine_cat; [apply (fine_resources (mo_exts m)); assumption|]. apply fine_cat; [|apply (fine_any (mo_exts m)); assumption].
  apply (fine_element (mo_exts m)); try assumption; [apply word_nc; reflexivity|split; constructor|apply fine_nil].
Qed.
