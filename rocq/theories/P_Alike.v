(** * Proofs about differences that do not matter *)
From Coq Require Import Permutation ZArith.
From Verif Require Import GoBase GoNum GoUtf8 GoFloat GoStrconv Types XmlTypes S_Core S_Text S_Errors S_Attr S_Meaning S_Document P_Core P_Panic.
From Verif Require Import Types.
Local Open Scope list_scope.

Lemma name_eqb_refl n : name_eqb n n = true.
Proof. destruct (name_eqb_spec' n n); congruence. Qed.
Lemma attr_of_same n a b : NoDup (map aname a) -> Permutation a b -> attr_of n a = attr_of n b.
Proof.
  intros ND P. unfold attr_of. f_equal. revert ND. induction P as [|x a b P IH|x y a|a b c P1 IH1 P2 IH2]; intros ND.
  - reflexivity.
  - cbn [find]. destruct (name_eqb (aname x) n); [reflexivity|]. apply IH. inversion ND; assumption.
  - cbn [find]. destruct (name_eqb_spec' (aname x) n) as [E1|]; [|reflexivity]. destruct (name_eqb_spec' (aname y) n) as [E2|]; [|reflexivity].
    exfalso. cbn [map] in ND. inversion ND as [|? ? K _]. apply K. left. congruence.
  - rewrite IH1 by assumption. apply IH2. eapply Permutation_NoDup; [apply Permutation_map; exact P1|exact ND].
Qed.
Section Alike.
Context (known : string -> bool) (isroot : bool) (later later' : Ref -> string).
Notation Alike := (Alike known isroot).
Definition E (n : Name) (e e' : list Attr * list XTree) : Prop := SameAttrs n (fst e) (fst e') /\ Alike n (snd e) (snd e').
Lemma attr_same n m a b : SameAttrs n a b -> attr_of m a = attr_of m b.
Proof. intros (ND & P & _). apply attr_of_same; assumption. Qed.
Lemma get_same n a b {A} l f (d : A) : SameAttrs n a b -> get l a f d = get l b f d.
Proof. intros H. unfold get. rewrite (attr_same n _ a b H). reflexivity. Qed.
Lemma uint_same n a b l : SameAttrs n a b -> uint l a = uint l b.
Proof. intros H. apply (get_same n _ _ _ _ _ H). Qed.
Lemma num_same n a b l : SameAttrs n a b -> num l a = num l b.
Proof. intros H. apply (get_same n _ _ _ _ _ H). Qed.
Lemma str_same n a b l : SameAttrs n a b -> S_Meaning.str l a = S_Meaning.str l b.
Proof. intros H. apply (get_same n _ _ _ _ _ H). Qed.
Lemma word_same n a b {A} (t : list (A * string)) d l : SameAttrs n a b -> S_Meaning.word t d l a = S_Meaning.word t d l b.
Proof. intros H. apply (get_same n _ _ _ _ _ H). Qed.
Lemma foreign_same n a b : SameAttrs n a b -> foreign a = foreign b.
Proof. intros (_ & _ & H & _). exact H. Qed.
Lemma bare_same n a b : SameAttrs n a b -> In n bare -> a = b.
Proof. intros (_ & _ & _ & H). exact H. Qed.
Ltac same H := repeat first
  [rewrite (uint_same _ _ _ _ H)|rewrite (num_same _ _ _ _ H)|rewrite (str_same _ _ _ _ H)|rewrite (word_same _ _ _ _ _ _ H)|rewrite (foreign_same _ _ _ H)|rewrite (get_same _ _ _ _ _ _ H)].

Lemma elems_alike p n l l' : Alike p l l' -> takes known isroot p n = true -> nspace n = ns_core \/ known (nspace n) = true ->
  Forall2 (E n) (elems n l) (elems n l').
Proof.
  intros H HT HK. unfold elems. induction H as [p|p s r r' l l' H IH|p s r l l' N H IH|p s r l l' N H IH|p m a k l l' T M H IH|p m a k l l' T M H IH|p m a k l l' NC NK TL H IH|p m a b k k' l l' C SA HK' IHK H IH];
    cbn [flat_map elem1 app]; auto.
  - destruct (name_eqb_spec' m n) as [->|]; [congruence|]. apply IH, HT.
  - destruct (name_eqb_spec' m n) as [->|]; [congruence|]. apply IH, HT.
  - destruct (name_eqb_spec' m n) as [->|]; [destruct HK; congruence|]. apply IH, HT.
  - destruct (name_eqb_spec' m n) as [->|]; [|apply IH, HT]. cbn [app]. constructor; [split; assumption|apply IH, HT].
Qed.
Lemma map_same {A B C} (R : A -> B -> Prop) (f : A -> C) g l l' : Forall2 R l l' -> (forall x y, R x y -> f x = g y) -> map f l = map g l'.
Proof. intros H K. induction H; [reflexivity|]. cbn [map]. f_equal; auto. Qed.
Lemma flat_same {A B C} (R : A -> B -> Prop) (f : A -> list C) g l l' : Forall2 R l l' -> (forall x y, R x y -> f x = g y) -> flat_map f l = flat_map g l'.
Proof. intros H K. induction H; [reflexivity|]. cbn [flat_map]. f_equal; auto. Qed.
Lemma the_same {A} n (f g : list Attr * list XTree -> A) d l l' : Forall2 (E n) (elems n l) (elems n l') -> (forall x y, E n x y -> f x = g y) ->
  the_elem n l f d = the_elem n l' g d.
Proof. unfold the_elem. intros H K. destruct H; auto. Qed.
Lemma texts_alike l l' : Alike (cn "metadata") l l' -> texts l = texts l'.
Proof.
  unfold texts. assert (K : forall s l, String.concat "" (s :: l) = s +++ String.concat "" l) by (intros s [|x l2]; [cbn; rewrite sapp_nil_r; reflexivity|reflexivity]).
  intros H. remember (cn "metadata") as p eqn:EP.
  induction H as [p|p s r r' l l' H IH|p s r l l' N H IH|p s r l l' N H IH|p m a k l l' T M H IH|p m a k l l' T M H IH|p m a k l l' NC NK TL H IH|p m a b k k' l l' C SA HK' IHK H IH];
    subst; cbn [map]; rewrite ?K; cbn [String.append]; try (rewrite IH by reflexivity; reflexivity); try congruence; auto.
Qed.

(** ** Extensions *)
Section Ext.
Lemma color_group_same a b k k' : known ns_materials = true -> SameAttrs (mn "colorgroup") a b -> Alike (mn "colorgroup") k k' -> color_group_of a k = color_group_of b k'.
Proof.
  intros KN SA H. unfold color_group_of. same SA. f_equal. eapply map_same; [apply (elems_alike _ (mn "color") _ _ H); [reflexivity|auto]|]. intros x y [S _]. same S. reflexivity.
Qed.
Lemma texture_group_same a b k k' : known ns_materials = true -> SameAttrs (mn "texture2dgroup") a b -> Alike (mn "texture2dgroup") k k' -> texture_group_of a k = texture_group_of b k'.
Proof.
  intros KN SA H. unfold texture_group_of. same SA. f_equal. eapply map_same; [apply (elems_alike _ (mn "tex2coord") _ _ H); [reflexivity|auto]|]. intros x y [S _]. same S. reflexivity.
Qed.
Lemma composites_same a b k k' : known ns_materials = true -> SameAttrs (mn "compositematerials") a b -> Alike (mn "compositematerials") k k' -> composites_of a k = composites_of b k'.
Proof.
  intros KN SA H. unfold composites_of. same SA. f_equal. eapply map_same; [apply (elems_alike _ (mn "composite") _ _ H); [reflexivity|auto]|]. intros x y [S _]. same S. reflexivity.
Qed.
Lemma multis_same a b k k' : known ns_materials = true -> SameAttrs (mn "multiproperties") a b -> Alike (mn "multiproperties") k k' -> multis_of a k = multis_of b k'.
Proof.
  intros KN SA H. unfold multis_of. same SA. f_equal. eapply map_same; [apply (elems_alike _ (mn "multi") _ _ H); [reflexivity|auto]|]. intros x y [S _]. same S. reflexivity.
Qed.
Lemma stack_same a b k k' : known ns_slices = true -> SameAttrs (sn "slicestack") a b -> Alike (sn "slicestack") k k' -> stack_of a k = stack_of b k'.
Proof.
  intros KN SA H. unfold stack_of. same SA. f_equal.
  - eapply map_same; [apply (elems_alike _ (sn "slice") _ _ H); [reflexivity|auto]|]. intros x y [S K]. unfold slice_of. same S. f_equal.
    + eapply flat_same; [apply (elems_alike _ (sn "vertices") _ _ K); [reflexivity|auto]|]. intros x2 y2 [_ K2].
      eapply map_same; [apply (elems_alike _ (sn "vertex") _ _ K2); [reflexivity|auto]|]. intros x3 y3 [S3 _]. same S3. reflexivity.
    + eapply map_same; [apply (elems_alike _ (sn "polygon") _ _ K); [reflexivity|auto]|]. intros x2 y2 [S2 K2]. unfold polygon_of. same S2. f_equal.
      eapply map_same; [apply (elems_alike _ (sn "segment") _ _ K2); [reflexivity|auto]|]. intros x3 y3 [S3 _]. unfold segment_of. same S3. reflexivity.
  - eapply map_same; [apply (elems_alike _ (sn "sliceref") _ _ H); [reflexivity|auto]|]. intros x y [S _]. same S. reflexivity.
Qed.
Lemma lattice_same a b k k' : known ns_beam = true -> SameAttrs (bn "beamlattice") a b -> Alike (bn "beamlattice") k k' -> lattice_of a k = lattice_of b k'.
Proof.
  intros KN SA H. unfold lattice_of. same SA. f_equal.
  - eapply flat_same; [apply (elems_alike _ (bn "beams") _ _ H); [reflexivity|auto]|]. intros x2 y2 [_ K2].
    eapply map_same; [apply (elems_alike _ (bn "beam") _ _ K2); [reflexivity|auto]|]. intros x3 y3 [S3 _]. unfold S_Meaning.beam_of. same S3. reflexivity.
  - eapply flat_same; [apply (elems_alike _ (bn "beamsets") _ _ H); [reflexivity|auto]|]. intros x2 y2 [_ K2].
    eapply map_same; [apply (elems_alike _ (bn "beamset") _ _ K2); [reflexivity|auto]|]. intros x3 y3 [S3 K3]. unfold set_of. same S3. f_equal.
    eapply map_same; [apply (elems_alike _ (bn "ref") _ _ K3); [reflexivity|auto]|]. intros x4 y4 [S4 _]. same S4. reflexivity.
Qed.
Lemma ext_same n a b k k' : known (nspace n) = true -> SameAttrs n a b -> Alike n k k' -> ext_of n a k = ext_of n b k'.
Proof.
  intros KN SA H. unfold ext_of.
  destruct (name_eqb_spec' n (mn "colorgroup")) as [->|_]; [rewrite (color_group_same a b k k' KN SA H); reflexivity|].
  destruct (name_eqb_spec' n (mn "texture2dgroup")) as [->|_]; [rewrite (texture_group_same a b k k' KN SA H); reflexivity|].
  destruct (name_eqb_spec' n (mn "texture2d")) as [->|_]; [unfold texture_of; same SA; reflexivity|].
  destruct (name_eqb_spec' n (mn "compositematerials")) as [->|_]; [rewrite (composites_same a b k k' KN SA H); reflexivity|].
  destruct (name_eqb_spec' n (mn "multiproperties")) as [->|_]; [rewrite (multis_same a b k k' KN SA H); reflexivity|].
  destruct (name_eqb_spec' n (sn "slicestack")) as [->|_]; [rewrite (stack_same a b k k' KN SA H); reflexivity|].
  destruct (name_eqb_spec' n (bn "beamlattice")) as [->|_]; [rewrite (lattice_same a b k k' KN SA H); reflexivity|reflexivity].
Qed.
End Ext.
Fixpoint tokens_textless (t : XTree) : Textless t -> tokens_of later t = tokens_of later' t.
Proof.
  destruct t as [n a k|s r]; [|intros []]. cbn [Textless tokens_of]. intros H. f_equal. f_equal. revert H. induction k as [|t k IH]; [reflexivity|]. intros [H1 H2]. cbn [flat_map].
  rewrite (tokens_textless t H1). f_equal. apply IH, H2.
Qed.
(** Elements that are ignored give nothing *)
Lemma skipped p n a k : keeper p = true -> takes known isroot p n = false -> misplaced known p n = false ->
  seq (nspace n) ns_core = false -> known (nspace n) = true /\ ext_of n a k = None.
Proof.
  intros KP T M C.
  assert (KN : known (nspace n) = true).
  { destruct (known (nspace n)) eqn:EK; [reflexivity|]. revert T. unfold takes. rewrite KP, C, EK. cbn [negb andb]. rewrite orb_true_r. discriminate. }
  split; [exact KN|].
  assert (X : existsb (name_eqb n) ext_tops = false) by (revert M; unfold misplaced; rewrite KP, KN; cbn [andb]; auto).
  assert (Y : forall x, In x ext_tops -> name_eqb n x = false).
  { intros x Hx. destruct (name_eqb n x) eqn:EX; [|reflexivity]. rewrite <- X. symmetry. apply existsb_exists. eauto. }
  unfold ext_of. rewrite (Y (mn "colorgroup")) by (left; reflexivity). rewrite (Y (mn "texture2dgroup")) by (right; left; reflexivity). rewrite (Y (mn "texture2d")) by (do 2 right; left; reflexivity).
  rewrite (Y (mn "compositematerials")) by (do 3 right; left; reflexivity). rewrite (Y (mn "multiproperties")) by (do 4 right; left; reflexivity).
  rewrite (Y (sn "slicestack")) by (do 5 right; left; reflexivity). rewrite (Y (bn "beamlattice")) by (do 6 right; left; reflexivity). reflexivity.
Qed.
Lemma any_alike p l l' : Alike p l l' -> keeper p = true -> flat_map (any_of known later) l = flat_map (any_of known later') l'.
Proof.
  intros H KP.
  induction H as [p|p s r r' l l' H IH|p s r l l' N H IH|p s r l l' N H IH|p m a k l l' T M H IH|p m a k l l' T M H IH|p m a k l l' NC NK TL H IH|p m a b k k' l l' C SA HK' IHK H IH];
    cbn [flat_map]; auto.
  - rewrite <- (IH KP). cbn [any_of]. destruct (seq (nspace m) ns_core) eqn:EC; [reflexivity|]. destruct (skipped p m a k KP T M EC) as [-> ->]. reflexivity.
  - rewrite (IH KP). cbn [any_of]. destruct (seq (nspace m) ns_core) eqn:EC; [reflexivity|]. destruct (skipped p m a k KP T M EC) as [-> ->]. reflexivity.
  - rewrite (IH KP). f_equal. cbn [any_of]. destruct (seq_spec (nspace m) ns_core); [contradiction|]. rewrite NK. do 2 f_equal. apply tokens_textless, TL.
  - rewrite (IH KP). f_equal. cbn [any_of]. destruct (seq_spec (nspace m) ns_core); [reflexivity|]. destruct C as [C|C]; [contradiction|]. rewrite C, (ext_same m a b k k' C SA HK'). reflexivity.
Qed.
(** ** The core specification *)
Lemma groups_same n el a b : SameAttrs n a b -> In n bare -> groups known el a = groups known el b.
Proof. intros S B. rewrite (bare_same n a b S B). reflexivity. Qed.
Section Prefixes.
Context (ps : list string).
Lemma metadata_same e e' : E (cn "metadata") e e' -> metadata_of ps e = metadata_of ps e'.
Proof. intros [S K]. unfold metadata_of. same S. rewrite (texts_alike _ _ K). reflexivity. Qed.
Ltac isbare := unfold bare; cbn; tauto.
Lemma metadata_group_same e e' : E (cn "metadatagroup") e e' -> metadata_group_of known ps e = metadata_group_of known ps e'.
Proof.
  intros [S K]. unfold metadata_group_of. f_equal; [|apply (groups_same _ _ _ _ S); isbare].
  eapply map_same; [apply (elems_alike _ (cn "metadata") _ _ K); [reflexivity|auto]|]. apply metadata_same.
Qed.
Lemma item_same e e' : E (cn "item") e e' -> takes known isroot (cn "item") (cn "metadatagroup") = true -> item_of known ps e = item_of known ps e'.
Proof.
  intros [S K] T. unfold item_of. same S. f_equal. apply the_same; [apply (elems_alike _ _ _ _ K T); auto|]. apply metadata_group_same.
Qed.
Lemma base_same e e' : E (cn "base") e e' -> base_of known (fst e) = base_of known (fst e').
Proof. intros [S K]. unfold base_of. same S. reflexivity. Qed.
Lemma basematerials_same a b k k' : SameAttrs (cn "basematerials") a b -> Alike (cn "basematerials") k k' -> basematerials_of known a k = basematerials_of known b k'.
Proof.
  intros S K. unfold basematerials_of. same S. f_equal. eapply map_same; [apply (elems_alike _ (cn "base") _ _ K); [reflexivity|auto]|]. apply base_same.
Qed.
Lemma mesh_same pid pindex e e' : E (cn "mesh") e e' -> mesh_of known later pid pindex e = mesh_of known later' pid pindex e'.
Proof.
  intros [S K]. unfold mesh_of. cbv zeta.
  assert (V : Forall2 (E (cn "vertices")) (elems (cn "vertices") (snd e)) (elems (cn "vertices") (snd e'))) by (apply (elems_alike _ _ _ _ K); [reflexivity|auto]).
  assert (T : Forall2 (E (cn "triangles")) (elems (cn "triangles") (snd e)) (elems (cn "triangles") (snd e'))) by (apply (elems_alike _ _ _ _ K); [reflexivity|auto]).
  f_equal.
  - eapply flat_same; [exact V|]. intros x y [_ K2]. eapply map_same; [apply (elems_alike _ (cn "vertex") _ _ K2); [reflexivity|auto]|]. intros x3 y3 [S3 _]. unfold vertex_of. same S3. reflexivity.
  - eapply flat_same; [exact V|]. intros x y [S2 _]. apply (groups_same _ _ _ _ S2); isbare.
  - eapply flat_same; [exact T|]. intros x y [_ K2]. eapply map_same; [apply (elems_alike _ (cn "triangle") _ _ K2); [reflexivity|auto]|]. intros x3 y3 [S3 _]. unfold triangle_of. cbv zeta. same S3. reflexivity.
  - eapply flat_same; [exact T|]. intros x y [S2 _]. apply (groups_same _ _ _ _ S2); isbare.
  - apply (groups_same _ _ _ _ S); isbare.
  - apply (any_alike _ _ _ K). reflexivity.
Qed.
Lemma components_same e e' : E (cn "components") e e' -> components_of known e = components_of known e'.
Proof.
  intros [S K]. unfold components_of. f_equal; [|apply (groups_same _ _ _ _ S); isbare].
  eapply map_same; [apply (elems_alike _ (cn "component") _ _ K); [reflexivity|auto]|]. intros x3 y3 [S3 _]. unfold component_of. same S3. reflexivity.
Qed.
Lemma object_same e e' : E (cn "object") e e' -> object_of known later ps e = object_of known later' ps e'.
Proof.
  intros [S K]. unfold object_of. cbv zeta. same S. f_equal.
  - apply the_same; [apply (elems_alike _ _ _ _ K); [reflexivity|auto]|]. apply metadata_group_same.
  - apply the_same; [apply (elems_alike _ _ _ _ K); [reflexivity|auto]|]. intros x y H. f_equal. apply mesh_same, H.
  - apply the_same; [apply (elems_alike _ _ _ _ K); [reflexivity|auto]|]. intros x y H. f_equal. apply components_same, H.
Qed.
Lemma assets_alike l l' : Alike (cn "resources") l l' -> flat_map (asset_of known later) l = flat_map (asset_of known later') l'.
Proof.
  intros H. remember (cn "resources") as p eqn:EP.
  induction H as [p|p s r r' l l' H IH|p s r l l' N H IH|p s r l l' N H IH|p m a k l l' T M H IH|p m a k l l' T M H IH|p m a k l l' NC NK TL H IH|p m a b k k' l l' C SA HK' IHK H IH];
    subst; cbn [flat_map]; auto.
  - rewrite <- (IH eq_refl). cbn [asset_of]. destruct (seq (nspace m) ns_core) eqn:EC.
    + destruct (name_eqb_spec' m (cn "basematerials")) as [->|]; [discriminate T|reflexivity].
    + destruct (skipped (cn "resources") m a k eq_refl T M EC) as [-> ->]. reflexivity.
  - rewrite (IH eq_refl). cbn [asset_of]. destruct (seq (nspace m) ns_core) eqn:EC.
    + destruct (name_eqb_spec' m (cn "basematerials")) as [->|]; [discriminate T|reflexivity].
    + destruct (skipped (cn "resources") m a k eq_refl T M EC) as [-> ->]. reflexivity.
  - rewrite (IH eq_refl). f_equal. cbn [asset_of]. destruct (seq_spec (nspace m) ns_core); [contradiction|]. rewrite NK. do 2 f_equal. apply tokens_textless, TL.
  - rewrite (IH eq_refl). f_equal. cbn [asset_of]. destruct (seq_spec (nspace m) ns_core).
    + destruct (name_eqb_spec' m (cn "basematerials")) as [->|]; [|reflexivity]. rewrite (basematerials_same a b k k' SA HK'). reflexivity.
    + destruct C as [C|C]; [contradiction|]. rewrite C, (ext_same m a b k k' C SA HK'). reflexivity.
Qed.
Lemma resources_same e e' : E (cn "resources") e e' -> resources_of known later ps e = resources_of known later' ps e'.
Proof.
  intros [S K]. unfold resources_of. f_equal; [apply assets_alike, K| |apply (groups_same _ _ _ _ S); isbare].
  eapply map_same; [apply (elems_alike _ (cn "object") _ _ K); [reflexivity|auto]|]. apply object_same.
Qed.
End Prefixes.
End Alike.
(** ** Files *)
Lemma filter_foreign P a : (forall x, P x = true -> seq (nspace (aname x)) "" = false) -> filter P a = filter P (foreign a).
Proof.
  intros H. induction a as [|x a IH]; [reflexivity|]. cbn [filter foreign]. fold (foreign a). destruct (seq (nspace (aname x)) "") eqn:E2; cbn [negb].
  - destruct (P x) eqn:E3; [rewrite (H x E3) in E2; discriminate|exact IH].
  - cbn [filter]. destruct (P x); [f_equal|]; exact IH.
Qed.
Lemma model_same known later later' M a b k k' : SameAttrs (cn "model") a b -> Alike known true (cn "model") k k' -> model_of known later M a k = model_of known later' M b k'.
Proof.
  intros S K. unfold model_of. cbv zeta.
  assert (D : declared a = declared b).
  { unfold declared. rewrite (filter_foreign _ a), (filter_foreign _ b), (foreign_same _ _ _ S); [reflexivity|..]; intros x Hx; apply seq_true in Hx; rewrite Hx; reflexivity. }
  assert (O : others a = others b).
  { unfold others. rewrite (filter_foreign _ a), (filter_foreign _ b), (foreign_same _ _ _ S); [reflexivity|..]; intros x Hx; apply negb_true_iff in Hx; cbn [existsb] in Hx; apply orb_false_iff in Hx as [Hx _]; exact Hx. }
  unfold extensions_of, prefixes_of. cbv zeta. rewrite D, O, (attr_same _ _ _ _ S), (word_same _ _ _ _ _ _ S), (str_same _ _ _ _ S), (get_same _ _ _ _ _ _ S).
  set (ps := map _ (declared b)). f_equal.
  - apply (the_same known true); [apply (elems_alike known true _ _ _ _ K); [reflexivity|auto]|]. apply resources_same.
  - apply (the_same known true); [apply (elems_alike known true _ _ _ _ K); [reflexivity|auto]|]. intros x y [S2 K2]. unfold build_of. f_equal.
    + eapply map_same; [apply (elems_alike known true _ (cn "item") _ _ K2); [reflexivity|auto]|]. intros x3 y3 H3. apply (item_same known true ps _ _ H3). reflexivity.
    + apply (groups_same known _ _ _ _ S2). unfold bare; cbn; tauto.
  - eapply map_same; [apply (elems_alike known true _ (cn "metadata") _ _ K); [reflexivity|auto]|]. apply metadata_same.
  - apply (any_alike known true _ _ _ _ _ K). reflexivity.
Qed.
Lemma child_same known later later' M path k k' : Alike known false (cn "model") k k' -> child_of known later M path k = child_of known later' M path k'.
Proof.
  intros K. unfold child_of. cbv zeta.
  assert (R : the_elem (cn "resources") k (resources_of known later (map ex_local (mo_exts M))) res_zero = the_elem (cn "resources") k' (resources_of known later' (map ex_local (mo_exts M))) res_zero).
  { apply (the_same known false); [apply (elems_alike known false _ _ _ _ K); [reflexivity|auto]|]. apply resources_same. }
  rewrite R. f_equal. f_equal. apply (any_alike known false _ _ _ _ _ K). reflexivity.
Qed.

(** ** The places of texts *)
From Verif Require Import S_Decode S_Read P_Read.
Lemma names_unplaced t : names (unplaced t) = names t.
Proof.
  induction t as [n a k IH|s r] using XTree_ind2; [|reflexivity]. cbn [unplaced names]. f_equal. induction IH as [|t k H _ IH2]; [reflexivity|]. cbn [map flat_map]. rewrite H, IH2. reflexivity.
Qed.
Lemma elems_unplaced n k : elems n (map unplaced k) = map (fun e => (fst e, map unplaced (snd e))) (elems n k).
Proof.
  unfold elems. induction k as [|t k IH]; [reflexivity|]. cbn [map flat_map]. rewrite map_app, IH. f_equal. destruct t as [m a l|s r]; [|reflexivity]. cbn [unplaced elem1]. destruct (name_eqb m n); reflexivity.
Qed.
Lemma singles_unplaced k : Singles (map unplaced k) -> Singles k.
Proof. intros H n Hn. specialize (H n Hn). rewrite elems_unplaced, map_length in H. exact H. Qed.
Lemma plain_unplaced known isroot t : forall p, Plain known isroot p (unplaced t) -> Plain known isroot p t.
Proof.
  induction t as [n a k IH|s r] using XTree_ind2; intros p; [|auto]. cbn [Plain unplaced]. destruct (takes known isroot p n).
  - intros (H1 & H2 & H3). split; [exact H1|]. split; [apply singles_unplaced, H2|]. revert H3. destruct (seq (nspace n) ns_core || known (nspace n)).
    + destruct (name_eqb n (cn "metadata")).
      * intros [H|(s & r & H)]; [destruct k; [auto|discriminate]|]. right. destruct k as [|[m b l|s' r'] [|]]; try discriminate. eauto.
      * clear - IH. induction IH as [|t k H _ IH2]; [auto|]. cbn [map]. intros [H1 H2]. split; [apply H, H1|apply IH2, H2].
    + intros H3 H4. apply H3. clear - H4. induction k as [|t k IH]; [destruct H4|]. cbn [map flat_map] in *. apply in_or_app. apply in_app_or in H4 as [H4|H4]; [left; rewrite names_unplaced; exact H4|right; auto].
  - intros H d Hd. apply H. rewrite <- (names_unplaced (XElem n a k)) in Hd. exact Hd.
Qed.
Lemma typed_unplaced known isroot t : Typed known isroot (unplaced t) -> Typed known isroot t.
Proof.
  induction t as [n a k IH|s r] using XTree_ind2; [|auto]. cbn [Typed unplaced]. intros [H1 H2]. split; [exact H1|]. revert H2.
  clear - IH. induction IH as [|t k H _ IH2]; [auto|]. cbn [map]. intros [H1 H2]. split; [apply H, H1|apply IH2, H2].
Qed.
Lemma quiet_unplaced known t : forall o, Quiet known o (unplaced t) -> Quiet known o t.
Proof.
  induction t as [n a k IH|s r] using XTree_ind2; intros o; [|auto]. cbn [Quiet unplaced]. intros [H1 H2]. split; [exact H1|]. revert H2.
  clear - IH. induction IH as [|t k H _ IH2]; [auto|]. cbn [map]. intros [H1 H2]. split; [apply H, H1|apply IH2, H2].
Qed.
Lemma conforming_unplaced known isroot a k : Conforming known isroot a (map unplaced k) -> Conforming known isroot a k.
Proof.
  intros ((H1 & H2 & H3) & H4 & H5). split; [|split; [exact (typed_unplaced known isroot (XElem (cn "model") a k) H4)|exact (quiet_unplaced known (XElem (cn "model") a k) [] H5)]].
  split; [exact H1|]. split; [apply singles_unplaced, H2|]. rewrite Forall_forall in *. intros t Ht. apply plain_unplaced, H3, in_map, Ht.
Qed.
Lemma textless_unplaced t : Textless (unplaced t) -> unplaced t = t /\ Textless t.
Proof.
  induction t as [n a k IH|s r] using XTree_ind2; [|intros []]. cbn [Textless unplaced]. intros H.
  assert (K : map unplaced k = k /\ Textless (XElem n a k)).
  { revert H. clear - IH. induction IH as [|t k H _ IH2]; [intros _; split; [reflexivity|exact I]|]. cbn [map]. intros [H1 H2]. destruct (H H1) as [E1 T1]. destruct (IH2 H2) as [E2 T2]. split; [congruence|]. split; [exact T1|exact T2]. }
  destruct K as [-> K]. auto.
Qed.
Lemma same_attrs_refl n a : NoDup (map aname a) -> SameAttrs n a a.
Proof. intros H. split; [exact H|]. split; [apply Permutation_refl|auto]. Qed.
Lemma alike_unplaced known isroot : forall k p, Forall (Plain known isroot p) k -> Forall (KeptTextless known) (map unplaced k) -> Alike known isroot p k (map unplaced k).
Proof.
  assert (X : forall t p l l', Plain known isroot p t -> KeptTextless known (unplaced t) -> Alike known isroot p l l' -> Alike known isroot p (t :: l) (unplaced t :: l')).
  { induction t as [n a k IH|s r] using XTree_ind2; intros p l l'; [|intros _ _ HL; apply AlText, HL]. cbn [unplaced Plain KeptTextless]. destruct (takes known isroot p n) eqn:ET; intros HP [HT1 HT2] HL.
    - destruct HP as ((ND & _) & _ & HP). destruct (seq (nspace n) ns_core || known (nspace n)) eqn:EC.
      + assert (C : nspace n = ns_core \/ known (nspace n) = true) by (apply orb_true_iff in EC as [EC|EC]; [left; apply seq_true, EC|right; exact EC]).
        apply AlElem; [exact C|apply same_attrs_refl, ND| |exact HL]. destruct (name_eqb_spec' n (cn "metadata")) as [->|_].
        * destruct HP as [->|(s & r & ->)]; [apply AlNil|]. cbn. apply AlText, AlNil.
        * revert HP HT2. clear - IH. induction IH as [|t k H _ IH2]; intros HP HT2; [apply AlNil|]. destruct HP as [P1 P2], HT2 as [T1 T2]. apply (H n k (map unplaced k) P1 T1). apply IH2; assumption.
      + apply orb_false_iff in EC as [EC1 EC2]. apply seq_false in EC1. destruct (textless_unplaced (XElem n a k) (HT1 EC1 EC2)) as [EQ TL]. change (map unplaced k) with (match unplaced (XElem n a k) with XElem _ _ x => x | XText _ _ => [] end). rewrite EQ. apply AlKept; assumption.
    - destruct (HP n ltac:(left; reflexivity)) as (T & _ & M). apply AlLess; [exact T|exact M|]. apply AlMore; [exact T|exact M|exact HL]. }
  intros k p. induction 1 as [|t k HP _ IH]; intros HT; [apply AlNil|]. apply (X t p k (map unplaced k) HP); [exact (Forall_inv HT)|apply IH; exact (Forall_inv_tail HT)].
Qed.
