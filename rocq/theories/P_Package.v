(** * Proofs about packages *)
From Coq Require Import Permutation.
From Verif Require Import GoBase GoNum GoFloat Types PkgTypes XmlTypes M_Core M_Xml M_Printer M_Decode M_Encode M_Package S_Package.

(** ** Relationships *)
Definition key_eqb (a b : Relationship) : bool := seq (rel_type a) (rel_type b) && seq (rel_path a) (rel_path b).
Lemma key_eqb_spec a b : key_eqb a b = true <-> SameKey a b.
Proof. unfold key_eqb, SameKey. rewrite andb_true_iff, !seq_true. tauto. Qed.
Definition SamePath (a b : Relationship) : Prop := rel_path a = rel_path b.
Lemma adds_firsts (R : Relationship -> Relationship -> Prop) (b : Relationship -> Relationship -> bool) (H : forall x y, b x y = true <-> R x y) l :
  forall seen, exists out, fold_left (fun rels r => if existsb (fun ro => b ro r) rels then rels else rels ++ [r]) l seen = seen ++ out /\ Firsts R seen l out.
Proof.
  induction l as [|x l IH]; intros seen; cbn [fold_left].
  - exists []. split; [rewrite app_nil_r; reflexivity|constructor].
  - destruct (existsb (fun ro => b ro x) seen) eqn:E.
    + destruct (IH seen) as (out & E1 & F). exists out. split; [exact E1|]. apply existsb_exists in E as (y & Hy & Hb). econstructor 3; [exact Hy|apply H, Hb|exact F].
    + destruct (IH (seen ++ [x])) as (out & E1 & F). exists (x :: out). split; [rewrite E1, <- app_assoc; reflexivity|]. constructor 2; [|exact F].
      intros y Hy Hr. apply H in Hr. rewrite <- not_true_iff_false in E. apply E, existsb_exists. eauto.
Qed.
Lemma opc_firsts l seen : exists out, opc_adds seen l = seen ++ out /\ Firsts SameKey seen l out.
Proof. apply (adds_firsts SameKey key_eqb key_eqb_spec). Qed.
Lemma enc_firsts l seen : exists out, enc_adds seen l = seen ++ out /\ Firsts SamePath seen l out.
Proof. apply (adds_firsts SamePath (fun a b => seq (rel_path a) (rel_path b)) (fun a b => seq_true _ _)). Qed.
Lemma opc_without l : WithoutDuplicates l (opc_adds [] l).
Proof. destruct (opc_firsts l []) as (out & -> & F). exact F. Qed.
Lemma firsts_unique {A} (R : A -> A -> Prop) seen l o1 : Firsts R seen l o1 -> forall o2, Firsts R seen l o2 -> o1 = o2.
Proof.
  induction 1 as [seen|seen x l out H F IH|seen x l out y Hy Hr F IH]; intros o2 G; inversion G as [|s2 x2 l2 o2' H2 F2|s2 x2 l2 o2' y2 Hy2 Hr2 F2]; subst; auto.
  - f_equal. auto.
  - exfalso. apply (H y2); assumption.
  - exfalso. apply (H2 y); assumption.
Qed.
(** A second pass with a finer relation does nothing more, and if the relations agree it is the same as one pass. *)
Lemma opc_add_keys acc x y : (exists z, In z acc /\ SameKey z y) \/ SameKey x y -> exists z, In z (opc_add acc x) /\ SameKey z y.
Proof.
  unfold opc_add. intros [(z & Hz & K)|K]; destruct (existsb _ acc) eqn:E.
  - eauto.
  - exists z. split; [apply in_or_app; auto|exact K].
  - apply existsb_exists in E as (z & Hz & Kz). apply key_eqb_spec in Kz. exists z. split; [exact Hz|]. destruct Kz, K. split; congruence.
  - exists x. split; [apply in_or_app; right; left; reflexivity|exact K].
Qed.
Lemma opc_adds_keys l : forall acc y, In y l \/ (exists z, In z acc /\ SameKey z y) -> exists z, In z (opc_adds acc l) /\ SameKey z y.
Proof.
  induction l as [|x l IH]; intros acc y H; cbn [opc_adds fold_left]; [destruct H as [[]|H]; exact H|].
  apply IH. destruct H as [[->|H]|H]; [right; apply opc_add_keys; right; split; reflexivity|auto|right; apply opc_add_keys; auto].
Qed.
Lemma opc_add_known acc x z : In z acc -> SameKey z x -> opc_add acc x = acc.
Proof.
  intros Hz K. unfold opc_add. replace (existsb _ acc) with true; [reflexivity|]. symmetry. apply existsb_exists. exists z. split; [exact Hz|]. apply key_eqb_spec, K.
Qed.
Lemma skip_known l : forall seen out acc, OneType (seen ++ l) -> Firsts SamePath seen l out ->
  (forall y, In y seen -> exists z, In z acc /\ SameKey z y) -> opc_adds acc out = opc_adds acc l.
Proof.
  induction l as [|x l IH]; intros seen out acc O F C; inversion F as [|s2 x2 l2 o2' H2 F2|s2 x2 l2 o2' y2 Hy2 Hr2 F2]; subst; [reflexivity| |].
  - cbn [opc_adds fold_left]. apply (IH (seen ++ [x])); [rewrite <- app_assoc; exact O|exact F2|].
    intros y Hy. apply in_app_or in Hy as [Hy|[<-|[]]]; apply opc_add_keys; [left; auto|right; split; reflexivity].
  - cbn [opc_adds fold_left]. destruct (C y2 Hy2) as (z & Hz & [K1 K2]). rewrite (opc_add_known acc x z Hz).
    + apply (IH seen); [|exact F2|exact C]. intros a b Ha Hb. apply O; apply in_or_app; apply in_app_or in Ha, Hb; cbn; tauto.
    + split; [rewrite K1; apply O; [apply in_or_app; auto|apply in_or_app; right; left; reflexivity|exact Hr2]|rewrite K2; exact Hr2].
Qed.
Lemma enc_opc rels l : OneType (rels ++ l) -> WithoutDuplicates (rels ++ l) (opc_adds [] (enc_adds rels l)).
Proof.
  intros O. destruct (enc_firsts l rels) as (out & -> & F).
  replace (opc_adds [] (rels ++ out)) with (opc_adds [] (rels ++ l)); [apply opc_without|].
  unfold opc_adds at 1 2. rewrite !fold_left_app. symmetry. apply (skip_known l rels); [exact O|exact F|].
  intros y Hy. apply (opc_adds_keys rels []). auto.
Qed.
Lemma enc_enc rels a b : enc_adds (enc_adds rels a) b = enc_adds rels (a ++ b).
Proof. unfold enc_adds. rewrite fold_left_app. reflexivity. Qed.
Lemma firsts_in {A} (R : A -> A -> Prop) seen l out : Firsts R seen l out -> forall x, In x out -> In x l.
Proof. induction 1; cbn; intros z Hz; [exact Hz|destruct Hz as [->|Hz]; auto|auto]. Qed.
Lemma firsts_apart {A} (R : A -> A -> Prop) seen l out : Firsts R seen l out -> forall a x b, out = a ++ x :: b -> forall y, In y (seen ++ a) -> ~ R y x.
Proof.
  induction 1 as [seen|seen x l out H F IH|seen x l out y Hy Hr F IH]; intros a z b E w Hw.
  - destruct a; discriminate.
  - destruct a as [|c a]; cbn in E; injection E as E1 E2; subst.
    + rewrite app_nil_r in Hw. auto.
    + apply (IH a z b eq_refl). rewrite <- app_assoc. exact Hw.
  - eapply IH; eauto.
Qed.
Lemma firsts_covers {A} (R : A -> A -> Prop) (refl : forall x, R x x) seen l out : Firsts R seen l out -> forall x, In x l -> exists y, In y (seen ++ out) /\ R y x.
Proof.
  induction 1 as [seen|seen x l out H F IH|seen x l out y Hy Hr F IH]; intros z Hz; cbn in Hz; [destruct Hz| |].
  - destruct Hz as [->|Hz].
    + exists z. split; [apply in_or_app; right; left; reflexivity|apply refl].
    + destruct (IH z Hz) as (w & Hw & K). exists w. split; [|exact K]. rewrite <- app_assoc in Hw. exact Hw.
  - destruct Hz as [->|Hz]; [|apply IH, Hz]. exists y. split; [apply in_or_app; auto|exact Hr].
Qed.

(** ** What the encoder demands *)
Lemma op_rels_app a b : op_rels (a ++ b) = op_rels a ++ op_rels b.
Proof. apply flat_map_app. Qed.
Lemma op_rels_element n a l : op_rels (element n a l) = op_rels l.
Proof. unfold element. cbn [op_rels flat_map start_op]. rewrite flat_map_app. cbn. apply app_nil_r. Qed.
Lemma op_rels_starts {A} (f : A -> op) l : (forall x, op_rels [f x] = []) -> op_rels (map f l) = [].
Proof.
  intros H. induction l as [|x l IH]; [reflexivity|]. cbn [map]. change (f x :: map f l) with ([f x] ++ map f l). rewrite op_rels_app, H, IH. reflexivity.
Qed.
Lemma op_rels_flat {A} (f : A -> list op) l : op_rels (flat_map f l) = flat_map (fun x => op_rels (f x)) l.
Proof. induction l as [|x l IH]; [reflexivity|]. cbn [flat_map]. rewrite op_rels_app, IH. reflexivity. Qed.
Lemma op_rels_auto l : op_rels (auto l) = op_rels l.
Proof. unfold auto. cbn [op_rels flat_map]. change (flat_map _ (l ++ _)) with (op_rels (l ++ [OpAuto false])). rewrite op_rels_app. cbn. apply app_nil_r. Qed.
Lemma op_rels_auto_skip l : op_rels (auto_skip l) = op_rels l.
Proof. unfold auto_skip. cbn [op_rels flat_map]. change (flat_map _ (l ++ _)) with (op_rels (l ++ [OpSkip false; OpAuto false])). rewrite op_rels_app. cbn. apply app_nil_r. Qed.
Lemma flat_none {A B} (f : A -> list B) l : (forall x, f x = []) -> flat_map f l = [].
Proof. intros H. induction l; cbn; rewrite ?H; auto. Qed.
Ltac norels := repeat (rewrite ?op_rels_element, ?op_rels_auto, ?op_rels_auto_skip, ?op_rels_app, ?op_rels_flat); repeat (rewrite op_rels_starts by reflexivity); cbn [app].
Lemma rels_ext prec e : op_rels (write_ext prec e) = demand_ext e.
Proof.
  destruct e; cbn [write_ext demand_ext].
  - unfold write_texture. change (OpRel ?r :: ?l) with ([OpRel r] ++ l). rewrite op_rels_app, op_rels_auto. reflexivity.
  - unfold write_texgroup. norels. reflexivity.
  - unfold write_colors. norels. reflexivity.
  - unfold write_composite. norels. reflexivity.
  - unfold write_multi. norels. reflexivity.
  - unfold write_stack. norels. rewrite app_nil_r. apply flat_none. intros sl. unfold write_slice, write_slice_vertices, write_polygons. norels.
    change (OpSkip true :: ?l) with ([OpSkip true] ++ l). norels. cbn. rewrite app_nil_r. apply flat_none. intros pg. norels. reflexivity.
  - unfold write_lattice, write_beams, write_sets. norels. apply flat_none. intros bs. norels. reflexivity.
Qed.
Lemma rels_tokens l : op_rels (write_tokens l) = [].
Proof. apply op_rels_starts. reflexivity. Qed.
Lemma rels_any prec l : NoTexture l -> op_rels (write_any prec l) = [].
Proof.
  intros H. destruct l as [|[ts|e] l]; [reflexivity|apply rels_tokens|]. cbn [write_any write_any1]. rewrite rels_ext.
  destruct e; try reflexivity. exfalso. eapply H. left. reflexivity.
Qed.
Lemma rels_metadata l : op_rels (write_metadata l) = [].
Proof. unfold write_metadata. norels. apply flat_none. intros x. unfold write_metadata1. norels. reflexivity. Qed.
Lemma rels_group g : op_rels (write_metadata_group g) = [].
Proof. unfold write_metadata_group. norels. apply rels_metadata. Qed.
Lemma rels_tris pid pidx l : forall arr, op_rels (write_tris pid pidx arr l) = [].
Proof. induction l as [|t l IH]; intros arr; cbn [write_tris]; [reflexivity|]. destruct (tri_step pid pidx arr t) as [a arr']. apply (IH arr'). Qed.
Lemma rels_object prec o : (forall me, ob_mesh o = Some me -> NoTexture (me_ext me)) -> op_rels (write_object prec o) = demand_object o.
Proof.
  intros H. unfold write_object. rewrite op_rels_app, op_rels_element, op_rels_app.
  assert (E1 : op_rels (match mg_list (ob_md o) with [] => [] | _ => write_metadata_group (ob_md o) end) = []) by (destruct (mg_list (ob_md o)); [reflexivity|apply rels_group]).
  assert (E2 : op_rels (match ob_mesh o, ob_comps o with Some m, _ => write_mesh prec o m | None, Some cs => write_components cs | None, None => [] end) = []).
  { destruct (ob_mesh o) as [me|] eqn:E; [|destruct (ob_comps o) as [cs|]; [|reflexivity]].
    - unfold write_mesh, write_vertices, write_triangles. norels. rewrite rels_tris. apply rels_any. auto.
    - unfold write_components. norels. reflexivity. }
  rewrite E1, E2. unfold demand_object, nonempty. destruct (ob_thumb o); reflexivity.
Qed.
Lemma rels_asset prec a : op_rels (write_asset prec a) = demand_asset a.
Proof. destruct a as [b|id ts|e]; cbn [write_asset demand_asset]; [unfold write_basemats; norels; reflexivity|apply rels_tokens|apply rels_ext]. Qed.
Lemma flat_map_ext_in' {A B} (f g : A -> list B) l : (forall x, In x l -> f x = g x) -> flat_map f l = flat_map g l.
Proof. intros H. induction l as [|x l IH]; cbn; [reflexivity|]. rewrite H by (left; reflexivity). rewrite IH; [reflexivity|]. intros; apply H; right; assumption. Qed.
Lemma rels_resources prec r : NoTextures r -> op_rels (write_resources prec r) = demands r.
Proof.
  intros H. unfold write_resources, demands. norels. f_equal; apply flat_map_ext_in'; intros x Hx; [apply rels_asset|apply rels_object; eauto].
Qed.
Lemma rels_model prec m : NoTextures (mo_res m) -> NoTexture (mo_any m) -> op_rels (write_model prec m) = demands (mo_res m).
Proof.
  intros H1 H2. unfold write_model. rewrite op_rels_element, !op_rels_app, rels_metadata, rels_resources, rels_any by assumption.
  unfold write_build. rewrite op_rels_element, op_rels_auto, op_rels_flat, flat_none; [cbn; rewrite app_nil_r; reflexivity|].
  intros i. unfold write_item. destruct (mg_list (it_md i)); [reflexivity|]. change (OpAuto false :: ?l) with ([OpAuto false] ++ l). norels. rewrite rels_group. reflexivity.
Qed.
Lemma rels_child prec m c : NoTextures (ch_res c) -> NoTexture (ch_any c) -> op_rels (write_child prec m c) = demands (ch_res c).
Proof.
  intros H1 H2. unfold write_child. rewrite op_rels_element, !op_rels_app, rels_resources, rels_any, op_rels_element by assumption. cbn. rewrite app_nil_r. reflexivity.
Qed.

(** ** The parts written *)
Section Write.
Context (normalize : string -> string) (resolve : string -> string -> string) (refuses : list string -> string -> string -> bool).
Lemma creates_parts {A} (part : A -> string * string * string * list Relationship) l : forall w w',
  creates (fun w x => let '(n, c, d, r) := part x in create normalize refuses w n c d r) w l = Some w' ->
  pk_rels w' = pk_rels w /\ pk_parts w' = pk_parts w ++ map (fun x => let '(n, c, d, r) := part x in mkPart (normalize n) c d r) l.
Proof.
  induction l as [|x l IH]; intros w w' H; cbn [creates] in H.
  - injection H as <-. split; [reflexivity|]. cbn. rewrite app_nil_r. reflexivity.
  - destruct (part x) as [[[n c] d] r] eqn:E. unfold create at 1 in H. destruct (refuses _ _ _); [discriminate|]. apply IH in H as [H1 H2].
    split; [exact H1|]. rewrite H2. cbn [pk_parts map]. rewrite E, <- app_assoc. reflexivity.
Qed.
Definition att_part (a : Attachment) : Part := mkPart (normalize (at_path a)) (at_ctype a) (at_data a) [].
Definition root_part (prec : nat) (order1 : list (string * Child)) (m : Model) : Part :=
  mkPart (normalize (path_or_default m)) ctype_model (xml_header +++ print (write_model prec m))
    (opc_adds [] (enc_adds (enc_adds (mo_rels m) (map (fun kc => child_rel (fst kc)) order1)) (op_rels (write_model prec m)))).
Definition child_part (prec : nat) (m : Model) (kc : string * Child) : Part :=
  mkPart (normalize (resolve (path_or_default m) (fst kc))) ctype_model (xml_header +++ print (write_child prec m (snd kc)))
    (opc_adds [] (enc_adds (ch_rels (snd kc)) (op_rels (write_child prec m (snd kc))))).
Lemma encode_parts prec order1 order2 m w : encode normalize resolve refuses prec order1 order2 m = Some w ->
  pk_rels w = opc_adds [] (mo_rootrels m ++ [mkRel (path_or_default m) rel_model ""] ++ (if nonempty (mo_thumb m) then [mkRel (mo_thumb m) rel_thumbnail ""] else [])) /\
  pk_parts w = map att_part (mo_atts m) ++ root_part prec order1 m :: map (child_part prec m) order2.
Proof.
  unfold encode. destruct (write_attachments _ _ _ _) as [w1|] eqn:E1; [|discriminate].
  apply (creates_parts (fun a => (at_path a, at_ctype a, at_data a, []))) in E1 as [_ P1]. cbn [pk_parts app] in P1.
  unfold create. cbn [pk_parts pk_rels]. destruct (refuses _ _ _); [discriminate|]. intros H.
  apply (creates_parts (fun kc => (resolve (path_or_default m) (fst kc), ctype_model, xml_header +++ print (write_child prec m (snd kc)),
     opc_adds [] (enc_adds (ch_rels (snd kc)) (op_rels (write_child prec m (snd kc))))))) in H as [H1 H2].
  cbn [pk_rels pk_parts] in H1, H2. split; [exact H1|]. rewrite H2, P1, <- app_assoc. reflexivity.
Qed.
End Write.

(** ** Reading *)
Section Read.
Context (resolve : string -> string -> string) (p : PkgIn) (Names : NoDup (map pf_name (pi_files p))).
Lemma find_target src r : match find_from resolve p src (rel_path r) with
  | Some f => Target resolve p src r f
  | None => forall f, ~ Target resolve p src r f
  end.
Proof.
  unfold find_from, find_file. destruct (find _ _) as [f|] eqn:E.
  - apply find_some in E as [H1 H2]. apply seq_true in H2. split; assumption.
  - intros f [H1 H2]. apply (find_none _ _ E) in H1. rewrite H2, seq_refl in H1. discriminate.
Qed.
Lemma names_unique f g : In f (pi_files p) -> In g (pi_files p) -> pf_name f = pf_name g -> f = g.
Proof.
  revert Names. induction (pi_files p) as [|h l IH]; intros Nd Hf Hg E; [destruct Hf|]. inversion Nd as [|x y N1 N2]; subst.
  destruct Hf as [->|Hf], Hg as [->|Hg]; auto.
  - exfalso. apply N1. rewrite E. apply in_map, Hg.
  - exfalso. apply N1. rewrite <- E. apply in_map, Hf.
Qed.
Fixpoint kept (src : string) (l : list Relationship) : list (Relationship * PFile) :=
  match l with
  | [] => []
  | r :: l => match find_from resolve p src (rel_path r) with
              | Some f => if is_model_rel r then kept src l else (r, f) :: kept src l
              | None => kept src l
              end
  end.
Fixpoint models (src : string) (l : list Relationship) : list PFile :=
  match l with
  | [] => []
  | r :: l => match find_from resolve p src (rel_path r) with
              | Some f => if is_model_rel r then f :: models src l else models src l
              | None => models src l
              end
  end.
Lemma model_rel_spec r : is_model_rel r = true <-> rel_type r = type_3dmodel.
Proof. unfold is_model_rel. apply seq_true. Qed.
Lemma kept_spec src l : Kept resolve p src l (kept src l).
Proof.
  induction l as [|r l IH]; cbn [kept]; [constructor|]. pose proof (find_target src r) as T. destruct (find_from _ _ _ _) as [f|]; [|apply KAbsent; assumption].
  destruct (is_model_rel r) eqn:E; [apply KModel; [apply model_rel_spec, E|exact IH]|].
  apply KKeep; try assumption. intros X. apply model_rel_spec in X. congruence.
Qed.
Lemma models_spec src l : Models resolve p src l (models src l).
Proof.
  induction l as [|r l IH]; cbn [models]; [constructor|]. pose proof (find_target src r) as T. destruct (find_from _ _ _ _) as [f|]; [|apply MAbsent; assumption].
  destruct (is_model_rel r) eqn:E; [apply MKeep; [apply model_rel_spec, E|exact T|exact IH]|].
  apply MOther; try assumption. intros X. apply model_rel_spec in X. congruence.
Qed.
Lemma kept_unique src l o : Kept resolve p src l o -> o = kept src l.
Proof.
  induction 1 as [|r l f out NT T K IH|r l out NT K IH|r l out T K IH]; cbn [kept]; [reflexivity| | |]; pose proof (find_target src r) as T'.
  - destruct (find_from _ _ _ _) as [g|]; [|destruct (T' f T)]. assert (is_model_rel r = false) as -> by (destruct (is_model_rel r) eqn:E; [apply model_rel_spec in E; contradiction|reflexivity]).
    rewrite IH. repeat f_equal. destruct T as [T1 T2], T' as [T3 T4]. apply names_unique; congruence.
  - destruct (find_from _ _ _ _) as [g|]; [|exact IH]. apply model_rel_spec in NT. rewrite NT. exact IH.
  - destruct (find_from _ _ _ _) as [g|]; [destruct (T g T')|exact IH].
Qed.
Lemma models_unique src l o : Models resolve p src l o -> o = models src l.
Proof.
  induction 1 as [|r l f out NT T K IH|r l out NT K IH|r l out T K IH]; cbn [models]; [reflexivity| | |]; pose proof (find_target src r) as T'.
  - destruct (find_from _ _ _ _) as [g|]; [|destruct (T' f T)]. apply model_rel_spec in NT. rewrite NT, IH. f_equal. destruct T as [T1 T2], T' as [T3 T4]. apply names_unique; congruence.
  - destruct (find_from _ _ _ _) as [g|]; [|exact IH]. assert (is_model_rel r = false) as -> by (destruct (is_model_rel r) eqn:E; [apply model_rel_spec in E; contradiction|reflexivity]). exact IH.
  - destruct (find_from _ _ _ _) as [g|]; [destruct (T g T')|exact IH].
Qed.
Definition attach (atts : list Attachment) (l : list (Relationship * PFile)) : list Attachment := fold_left add_attachment (map snd l) atts.
Lemma attach_app atts a b : attach atts (a ++ b) = attach (attach atts a) b.
Proof. unfold attach. rewrite map_app, fold_left_app. reflexivity. Qed.

(** The maps *)
Lemma aget_aset {A} (l : list (string * A)) k v k' : aget seq k' (aset l k v) = if seq k' k then Some v else aget seq k' l.
Proof.
  induction l as [|[q x] l IH]; cbn [aset aget].
  - destruct (seq k' k); reflexivity.
  - destruct (seq_spec q k) as [->|N]; cbn [aget].
    + destruct (seq k' k); reflexivity.
    + rewrite IH. destruct (seq_spec k' q) as [->|]; [|reflexivity]. destruct (seq_spec q k); [contradiction|reflexivity].
Qed.
(** The root model *)
Definition add_childs (l : list (string * Child)) (fs : list PFile) : list (string * Child) := fold_left (fun l f => aset l (pf_name f) child_zero) fs l.
Lemma extract_root src l : forall m nr, fold_left (extract1 resolve p src true) l (m, nr) =
  (mo_set_pkg (mo_path m) (attach (mo_atts m) (kept (pf_name src) l)) (add_childs (mo_childs m) (models (pf_name src) l)) (mo_rootrels m)
     (mo_rels m ++ map fst (kept (pf_name src) l)) m, nr ++ models (pf_name src) l).
Proof.
  induction l as [|r l IH]; intros m nr; cbn [fold_left kept models].
  - cbn. rewrite !app_nil_r. destruct m; reflexivity.
  - unfold extract1 at 2. destruct (find_from _ _ _ _) as [f|]; [|apply IH]. destruct (is_model_rel r); rewrite IH; cbn [mo_path mo_atts mo_childs mo_rootrels mo_rels mo_set_pkg].
    + rewrite <- app_assoc. reflexivity.
    + cbn [map fst]. rewrite <- app_assoc. reflexivity.
Qed.
(** A child *)
Lemma extract_child src l : forall m nr c, aget seq (pf_name src) (mo_childs m) = Some c ->
  exists childs, fold_left (extract1 resolve p src false) l (m, nr) =
    (mo_set_pkg (mo_path m) (attach (mo_atts m) (kept (pf_name src) l)) childs (mo_rootrels m) (mo_rels m) m, nr) /\
    aget seq (pf_name src) childs = Some (mkChild (ch_res c) (ch_rels c ++ map fst (kept (pf_name src) l)) (ch_any c)) /\
    forall k, k <> pf_name src -> aget seq k childs = aget seq k (mo_childs m).
Proof.
  induction l as [|r l IH]; intros m nr c H; cbn [fold_left kept].
  - exists (mo_childs m). cbn. rewrite app_nil_r. split; [destruct m; reflexivity|]. split; [rewrite H; destruct c; reflexivity|reflexivity].
  - unfold extract1 at 2. destruct (find_from _ _ _ _) as [f|]; [|apply IH, H]. destruct (is_model_rel r); [apply IH, H|]. rewrite H.
    edestruct (IH (mo_set_pkg (mo_path m) (add_attachment (mo_atts m) f)
        (aset (mo_childs m) (pf_name src) (mkChild (ch_res c) (ch_rels c ++ [r]) (ch_any c))) (mo_rootrels m) (mo_rels m) m) nr) as (childs & E & G & O).
    { cbn [mo_childs mo_set_pkg]. rewrite aget_aset, seq_refl. reflexivity. }
    cbn [mo_path mo_atts mo_childs mo_rootrels mo_rels mo_set_pkg ch_res ch_rels ch_any] in *.
    exists childs. split; [rewrite E; reflexivity|]. split; [rewrite G, <- app_assoc; reflexivity|].
    intros k N. rewrite O by exact N. rewrite aget_aset. destruct (seq_spec k (pf_name src)); [contradiction|reflexivity].
Qed.
Definition kept_of (f : PFile) : list (Relationship * PFile) := kept (pf_name f) (pf_rels f).
Lemma extract_childs cs : forall m nr, (forall c, In c cs -> aget seq (pf_name c) (mo_childs m) <> None) ->
  exists childs, fold_left (fun st c => extract resolve p c false st) cs (m, nr) =
    (mo_set_pkg (mo_path m) (attach (mo_atts m) (flat_map kept_of cs)) childs (mo_rootrels m) (mo_rels m) m, nr) /\
    (forall k, (forall c, In c cs -> pf_name c <> k) -> aget seq k childs = aget seq k (mo_childs m)) /\
    (NoDup (map pf_name cs) -> forall c ch, In c cs -> aget seq (pf_name c) (mo_childs m) = Some ch ->
       aget seq (pf_name c) childs = Some (mkChild (ch_res ch) (ch_rels ch ++ map fst (kept_of c)) (ch_any ch))).
Proof.
  induction cs as [|c cs IH]; intros m nr H; cbn [fold_left flat_map].
  - exists (mo_childs m). split; [destruct m; reflexivity|]. split; [reflexivity|]. intros _ c ch [].
  - destruct (aget seq (pf_name c) (mo_childs m)) as [ch|] eqn:E; [|destruct (H c (or_introl eq_refl) E)].
    destruct (extract_child c (pf_rels c) m nr ch E) as (childs1 & E1 & G1 & O1). unfold extract at 2. rewrite E1.
    edestruct (IH (mo_set_pkg (mo_path m) (attach (mo_atts m) (kept (pf_name c) (pf_rels c))) childs1 (mo_rootrels m) (mo_rels m) m) nr) as (childs & E2 & O2 & G2).
    { intros d Hd. cbn [mo_childs mo_set_pkg]. destruct (seq_spec (pf_name d) (pf_name c)) as [->|N]; [congruence|]. rewrite O1 by exact N. apply H. right. exact Hd. }
    cbn [mo_path mo_atts mo_childs mo_rootrels mo_rels mo_set_pkg] in *. exists childs. split; [rewrite E2, attach_app; reflexivity|]. split.
    + intros k Hk. rewrite O2 by (intros; apply Hk; right; assumption). apply O1. intros ->. apply (Hk c (or_introl eq_refl)). reflexivity.
    + intros Nd d dh [<-|Hd] Ed; cbn [map] in Nd; inversion Nd as [|x y N1 N2]; subst.
      * rewrite O2; [rewrite G1; assert (X : dh = ch) by congruence; rewrite X; reflexivity|]. intros d Hd X. apply N1. rewrite <- X. apply in_map, Hd.
      * apply (G2 N2 d dh Hd). rewrite O1; [exact Ed|]. intros X. apply N1. rewrite <- X. apply in_map, Hd.
Qed.
Lemma add_childs_get fs : forall l k, aget seq k (add_childs l fs) = if existsb (fun f => seq k (pf_name f)) fs then Some child_zero else aget seq k l.
Proof.
  induction fs as [|f fs IH]; intros l k; cbn [add_childs fold_left existsb]; [reflexivity|]. change (fold_left _ fs ?x) with (add_childs x fs). rewrite IH, aget_aset.
  destruct (existsb _ fs); [rewrite orb_true_r; reflexivity|rewrite orb_false_r; reflexivity].
Qed.
(** Other relationships of the package *)
Lemma process_others l : (forall r, In r l -> rel_type r <> type_3dmodel) -> forall m nr root,
  process_rels resolve p l ((m, nr), root) =
    Some ((mo_set_pkg (mo_path m) (attach (mo_atts m) (kept "/" l)) (mo_childs m) (mo_rootrels m ++ map fst (kept "/" l)) (mo_rels m) m, nr), root).
Proof.
  induction l as [|r l IH]; intros H m nr root; cbn [process_rels kept].
  - cbn. rewrite app_nil_r. destruct m; reflexivity.
  - assert (NR : is_model_rel r = false). { destruct (is_model_rel r) eqn:E; [|reflexivity]. apply model_rel_spec in E. destruct (H r (or_introl eq_refl) E). }
    unfold process_rel at 1. rewrite NR. destruct (find_from _ _ _ _) as [f|]; rewrite IH by (intros; apply H; right; assumption); [|reflexivity].
    cbn [mo_path mo_atts mo_childs mo_rootrels mo_rels mo_set_pkg map fst]. rewrite <- app_assoc. reflexivity.
Qed.
Lemma process_app a b st : process_rels resolve p (a ++ b) st = match process_rels resolve p a st with Some st => process_rels resolve p b st | None => None end.
Proof. revert st. induction a as [|r a IH]; intros st; cbn [app process_rels]; [reflexivity|]. destruct (process_rel _ _ _ _); [apply IH|reflexivity]. Qed.

(** Attachments *)
Lemma attach_old l : forall atts, exists new, attach atts l = atts ++ new.
Proof.
  induction l as [|[r f] l IH]; intros atts; [exists []; cbn; rewrite app_nil_r; reflexivity|]. unfold attach in *. cbn [map snd fold_left]. destruct (IH (add_attachment atts f)) as (new & ->).
  unfold add_attachment. destruct (existsb _ _); [eauto|]. destruct (pf_data f); [|eauto]. rewrite <- app_assoc. eauto.
Qed.
Lemma attach_sound l : forall atts a, In a (attach atts l) -> In a atts \/
  exists r f d, In (r, f) l /\ pf_data f = Some d /\ a = mkAtt d (pf_name f) (pf_ctype f).
Proof.
  induction l as [|[r f] l IH]; intros atts a H; [auto|]. unfold attach in *. cbn [map snd fold_left] in H. apply IH in H as [H|(r' & f' & d & H1 & H2)].
  - unfold add_attachment in H. destruct (existsb _ _); [auto|]. destruct (pf_data f) as [d|] eqn:E; [|auto]. apply in_app_or in H as [H|[<-|[]]]; [auto|].
    right. exists r, f, d. split; [left; reflexivity|auto].
  - right. exists r', f', d. split; [right; exact H1|exact H2].
Qed.
Lemma attach_complete l : forall atts f, In f (map snd l) -> pf_data f <> None -> exists a, In a (attach atts l) /\ SameFold (at_path a) (pf_name f).
Proof.
  induction l as [|[r g] l IH]; intros atts f H D; [destruct H|]. unfold attach in *. cbn [map snd fold_left] in *. destruct H as [->|H]; [|apply IH; assumption].
  assert (X : exists a, In a (add_attachment atts f) /\ SameFold (at_path a) (pf_name f)).
  { unfold add_attachment. destruct (existsb _ _) eqn:E.
    - apply existsb_exists in E as (a & Ha & Hf). exists a. split; [exact Ha|]. apply seq_true, Hf.
    - destruct (pf_data f) as [d|]; [|congruence]. eexists. split; [apply in_or_app; right; left; reflexivity|]. reflexivity. }
  destruct X as (a & Ha & Hf). exists a. split; [|exact Hf]. destruct (attach_old l (add_attachment atts f)) as (new & E). unfold attach in E. rewrite E. apply in_or_app. auto.
Qed.
Lemma attach_apart l : forall atts a x b, attach atts l = a ++ x :: b -> List.length atts <= List.length a -> forall y, In y a -> ~ SameFold (at_path y) (at_path x).
Proof.
  induction l as [|[r f] l IH]; intros atts a x b E L y Hy; [change (atts = a ++ x :: b) in E|change (attach (add_attachment atts f) l = a ++ x :: b) in E].
  - subst. rewrite app_length in L. cbn in L. lia.
  - unfold add_attachment in E. destruct (existsb _ _) eqn:X; [eapply IH; eauto|]. destruct (pf_data f) as [d|]; [|eapply IH; eauto].
    destruct (Nat.eq_dec (List.length atts) (List.length a)) as [L2|L2].
    + destruct (attach_old l (atts ++ [mkAtt d (pf_name f) (pf_ctype f)])) as (new & En). rewrite En in E. rewrite <- app_assoc in E.
      assert (E0 : atts = a /\ [mkAtt d (pf_name f) (pf_ctype f)] ++ new = x :: b).
      { clear -E L2. revert a L2 E. induction atts as [|h t IHt]; intros [|h' a] L2 E; cbn in *; try discriminate; [auto|]. injection E as -> E. injection L2 as L2. destruct (IHt a L2 E) as [-> ->]. auto. }
      destruct E0 as [<- E2]. cbn in E2. injection E2 as <- _. cbn [at_path]. intros F. rewrite <- not_true_iff_false in X. apply X, existsb_exists.
      exists y. split; [exact Hy|]. apply seq_true. exact F.
    + eapply IH; [exact E| |exact Hy]. rewrite app_length. cbn. lia.
Qed.
End Read.
