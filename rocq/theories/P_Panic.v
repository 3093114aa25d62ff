(** * Proofs: when decoding cannot panic *)
From Coq Require Import ZArith.
From Verif Require Import GoBase GoNum GoUtf8 GoFloat GoStrconv Types XmlTypes M_Core M_Errors M_Text M_Xml M_Decode S_Xml S_Decode P_Xml P_Xml2 P_Decode.

(** ** The part that is decoded keeps its place in the model *)
Definition place (s : DSt) : string * list string := (mo_path (s_model s), map fst (mo_childs (s_model s))).
Section Panic.
  Context (reg : Reg) (isroot : bool) (path : string) (later : Ref -> string).
  Lemma find_child_keys m p c : find_child m p = Some c -> In p (map fst (mo_childs m)).
  Proof.
    unfold find_child. induction (mo_childs m) as [|[q x] r IH]; cbn [aget map fst In]; [discriminate|].
    destruct (seq_spec p q) as [->|N]; auto.
  Qed.
  Lemma keys_find_child m p : In p (map fst (mo_childs m)) -> exists c, find_child m p = Some c.
  Proof.
    unfold find_child. induction (mo_childs m) as [|[q x] r IH]; cbn [aget map fst In]; [tauto|].
    destruct (seq_spec p q) as [->|N]; [eauto|]. intros [E|E]; [congruence|auto].
  Qed.
  Lemma res_get_place s s' : place s = place s' -> res_get path s <> None -> res_get path s' <> None.
  Proof.
    intros E. injection E as E1 E2. unfold res_get, find_resources. rewrite E1. destruct (_ || _); [discriminate|].
    destruct (find_child (s_model s) path) eqn:F; [|congruence]. intros _. apply find_child_keys in F. rewrite E2 in F.
    apply keys_find_child in F as (c' & ->). discriminate.
  Qed.
  Lemma place_res_set r s : place (res_set path r s) = place s.
  Proof.
    unfold res_set. destruct (_ || _); [reflexivity|]. destruct (find_child _ _); [|reflexivity]. unfold place. cbn. f_equal.
    rewrite map_map. apply map_ext. intros [kk cc]. cbn. destruct (seq kk path); reflexivity.
  Qed.
  Lemma place_upd_obj f s : place (upd_obj path f s) = place s.
  Proof. unfold upd_obj. destruct (s_obj_done s); [|reflexivity]. destruct (res_get path s); [apply place_res_set|reflexivity]. Qed.
  Lemma place_upd_item f s : place (upd_item f s) = place s.
  Proof. unfold upd_item. destruct (s_item_done s); reflexivity. Qed.
  Lemma place_upd_bm f s : place (upd_bm path f s) = place s.
  Proof. unfold upd_bm. destruct (s_bm_done s); [|reflexivity]. destruct (res_get path s); [apply place_res_set|reflexivity]. Qed.
  Lemma place_upd_mesh f s : place (upd_mesh path f s) = place s.
  Proof. apply place_upd_obj. Qed.
  Lemma place_upd_any l f s : place (upd_any path l f s) = place s.
  Proof. destruct l; cbn [upd_any]; try reflexivity. apply place_upd_mesh. Qed.
  Lemma place_upd_ext l f s : place (upd_ext path l f s) = place s.
  Proof. destruct l; cbn [upd_ext]; try apply place_upd_any. destruct (res_get path s); [apply place_res_set|reflexivity]. Qed.
  Lemma place_add_md l x s : place (add_md path l x s) = place s.
  Proof. destruct l; cbn [add_md]; [reflexivity|apply place_upd_item|apply place_upd_obj]. Qed.
  Lemma place_set_mg l x s : place (set_mg path l x s) = place s.
  Proof. destruct l; cbn [set_mg]; [reflexivity|apply place_upd_item|apply place_upd_obj]. Qed.
  Lemma place_append_token k t s : place (append_token path k t s) = place s.
  Proof. destruct k; cbn [append_token]; try reflexivity. apply place_upd_any. Qed.
  Lemma place_end k n s s' : end_ path k n s = Some s' -> place s' = place s.
  Proof.
    destruct k; cbn [end_]; try (intros [= <-]; reflexivity); unfold res_upd.
    - intros [= <-]. apply place_add_md.
    - destruct (res_get _ _); intros [= <-]. rewrite place_res_set. reflexivity.
    - destruct (res_get _ _); intros [= <-]. rewrite place_res_set. reflexivity.
    - destruct (res_get _ _); intros [= <-]. rewrite place_res_set. reflexivity.
    - intros [= <-]. apply place_upd_any.
    - destruct x; intros [= <-]; try reflexivity; apply place_upd_ext.
  Qed.
  Lemma place_child k n s i k' s' : child reg isroot path k n s = COk i k' s' -> place s' = place s.
  Proof.
    assert (R : forall X (a : option X) (f : X -> cres), (forall x, f x = COk i k' s' -> place s' = place s) ->
      match a with Some x => f x | None => CPanic end = COk i k' s' -> place s' = place s).
    { intros X [x|] f H; [apply H|discriminate]. }
    destruct k; cbn [child]; try discriminate;
      try (repeat match goal with |- (if ?b then _ else _) = _ -> _ => destruct b end; intros [= <- <- <-]; reflexivity);
      try (repeat match goal with |- (if ?b then _ else _) = _ -> _ => destruct b end; discriminate).
    - unfold model_child. repeat match goal with |- (if ?b then _ else _) = _ -> _ => destruct b end; try (intros [= <- <- <-]; reflexivity); try discriminate.
      destruct (new_element_decoder _ _ _) as [[k e]|]; [|discriminate]. intros [= <- <- <-]. reflexivity.
    - unfold res_child. repeat match goal with |- (if ?b then _ else _) = _ -> _ => destruct b end; try discriminate.
      + apply R. intros r [= <- <- <-]. reflexivity.
      + apply R. intros r [= <- <- <-]. rewrite place_res_set. reflexivity.
      + destruct (load _ _) as [sp|].
        * destruct (ext_decoder _ _) as [[x e]|]; [|destruct (res_get path s); discriminate].
          destruct e; try discriminate; apply R; intros r [= <- <- <-]; rewrite place_res_set; reflexivity.
        * apply R. intros r [= <- <- <-]. rewrite place_res_set. reflexivity.
    - unfold mesh_child. repeat match goal with |- (if ?b then _ else _) = _ -> _ => destruct b end; try (intros [= <- <- <-]; reflexivity); try discriminate.
      destruct (new_element_decoder _ _ _) as [[k e]|]; [|discriminate]. intros [= <- <- <-]. apply place_upd_mesh.
    - destruct x; cbn [ext_child]; repeat match goal with |- (if ?b then _ else _) = _ -> _ => destruct b end; intros [= <- <- <-]; reflexivity.
  Qed.
  Lemma place_model_attrs l : forall x e x' e', attrs_loop (model_attr reg) x e l = Some (x', e') ->
    mo_path (fst x') = mo_path (fst x) /\ mo_childs (fst x') = mo_childs (fst x).
  Proof.
    induction l as [|a l IH]; intros x e x' e'; cbn [attrs_loop]; [intros [= <- <-]; auto|].
    destruct (model_attr reg x a) as [[x1 e1]|] eqn:E; [|discriminate]. intros H. destruct (IH _ _ _ _ H) as [-> ->]. clear H IH.
    destruct x as [m req]. unfold model_attr in E. cbn [fst].
    destruct (seq _ "").
    - destruct (seq _ "unit"); [destruct (new_units _); injection E as <- <-; auto|].
      destruct (seq _ "thumbnail"); [injection E as <- <-; auto|]. destruct (seq _ "requiredextensions"); injection E as <- <-; auto.
    - unfold model_nocore in E. destruct (seq _ _); [destruct (seq _ _); injection E as <- <-; auto|].
      destruct (seq _ _); [injection E as <- <-; auto|]. destruct (any_attr _ _ _ _) as [[any e2]|]; [|discriminate]. injection E as <- <-; auto.
  Qed.
  Lemma place_start k n a s s' e : start reg isroot path k n a s = Some (s', e) -> place s' = place s.
  Proof.
    assert (F : forall A (r : option (A * error)) (f : A -> DSt) x, (forall v, place (f v) = place s) ->
      match r with Some (v, e) => Some (f v, e) | None => None end = Some x -> place (fst x) = place s).
    { intros A [[v e0]|] f x H [= <-]. apply H. }
    destruct k; cbn [start]; try (intros [= <- <-]; reflexivity); try (intros H; eapply F in H; [exact H|]; intros v;
      try apply place_set_mg; try reflexivity; try apply place_upd_item; try apply place_upd_bm; try apply place_upd_obj; apply place_upd_mesh).
    - unfold model_start. destruct (negb isroot); [intros [= <- <-]; reflexivity|].
      destruct (attrs_loop _ _ _ _) as [[[m req] e0]|] eqn:L; [|discriminate]. intros [= <- <-]. apply place_model_attrs in L as [L1 L2]. cbn [fst] in *.
      unfold place. cbn. rewrite L1, L2. reflexivity.
    - destruct a as [|a0 a]; [intros [= <- <-]; reflexivity|]. destruct (res_get path s) as [r|]; [|discriminate].
      intros H; eapply F in H; [exact H|]; intros v. apply place_res_set.
    - destruct (first_attr _ _) as [a0|]; [destruct (get_u32 a0 true)|]; intros [= <- <-]; reflexivity.
    - intros [= <- <-]. apply place_upd_any.
    - destruct x; cbn [ext_start]; try (intros [= <- <-]; reflexivity);
        try (intros H; eapply F in H; [exact H|]; intros v; try apply place_upd_ext; reflexivity);
        try (destruct (first_attr _ _) as [a0|]; [match goal with |- context [let (_, _) := ?p in _] => destruct p end|];
             intros [= <- <-]; try reflexivity; apply place_upd_ext).
  Qed.

  (** ** Names of the elements of the kinds *)
  Definition parent_of (k : DK) : string :=
    match k with
    | KTop => "" | KModel => "model" | KMetaGroup _ => "metadatagroup" | KMeta _ => "metadata" | KBuild => "build" | KItem => "item"
    | KRes => "resources" | KBaseMats => "basematerials" | KBase => "base" | KObj => "object" | KMesh => "mesh" | KVerts => "vertices"
    | KVert => "vertex" | KTris => "triangles" | KTri => "triangle" | KComps => "components" | KComp => "component"
    | KUnkAsset | KUnk _ | KExt _ _ => ""
    end.
  Definition named (k : DK) (n : Name) : Prop :=
    match k with KTop => False | KUnkAsset | KUnk _ | KExt _ _ => nspace n <> ns_core | k => n = core_name (parent_of k) end.
  Lemma core_true n l : core n l = true -> n = core_name l.
  Proof. unfold core. intros H. apply andb_true_iff in H as [H1 H2]. destruct (seq_spec (nspace n) ns_core), (seq_spec (nlocal n) l); try discriminate. destruct n; cbn in *; subst; reflexivity. Qed.
  Lemma load_core : load reg ns_core = None.
  Proof. reflexivity. Qed.
  Lemma ns_eq n l : nspace n = ns_core -> nlocal n = l -> n = core_name l.
  Proof. destruct n; cbn. intros -> ->. reflexivity. Qed.
  Ltac ifs := repeat match goal with
    | |- (if seq ?a ?b then _ else _) = _ -> _ => destruct (seq_spec a b)
    | |- (if core ?a ?b then _ else _) = _ -> _ => let E := fresh "E" in destruct (core a b) eqn:E; [apply core_true in E|]
    | |- (if ?b then _ else _) = _ -> _ => let E := fresh "E" in destruct b eqn:E end.
  Lemma child_named k n s i k' s' : child reg isroot path k n s = COk i k' s' -> named k' n.
  Proof.
    assert (R : forall X (a : option X) (f : X -> cres), (forall x, f x = COk i k' s' -> named k' n) ->
      match a with Some x => f x | None => CPanic end = COk i k' s' -> named k' n).
    { intros X [x|] f H; [apply H|discriminate]. }
    destruct k; cbn [child]; try discriminate; try (ifs; intros [= <- <- <-]; assumption).
    - unfold model_child. ifs; try discriminate; try (intros [= <- <- <-]; apply ns_eq; assumption).
      unfold new_element_decoder. destruct (load _ _); [destruct (ext_decoder _ _) as [[x e]|]; [|discriminate]|]; intros [= <- <- <-]; assumption.
    - unfold res_child. ifs; try discriminate.
      + apply R. intros r [= <- <- <-]. apply ns_eq; assumption.
      + apply R. intros r [= <- <- <-]. apply ns_eq; assumption.
      + destruct (load _ _) as [sp|].
        * destruct (ext_decoder _ _) as [[x e]|]; [|destruct (res_get path s); discriminate].
          destruct e; try discriminate; apply R; intros r [= <- <- <-]; assumption.
        * apply R. intros r [= <- <- <-]. assumption.
    - unfold mesh_child. ifs; try discriminate; try (intros [= <- <- <-]; apply ns_eq; assumption).
      unfold new_element_decoder. destruct (load _ _); [destruct (ext_decoder _ _) as [[x e]|]; [|discriminate]|]; intros [= <- <- <-]; assumption.
    - assert (Q : forall ns l, ns <> ns_core -> seq (nspace n) ns && seq (nlocal n) l = true -> nspace n <> ns_core).
      { intros ns ll N Q. apply andb_true_iff in Q as [Q _]. destruct (seq_spec (nspace n) ns); congruence. }
      destruct x; cbn [ext_child]; ifs; intros [= <- <- <-]; eapply Q; try eassumption; discriminate.
  Qed.

  (** ** Start *)
  Definition known : Known := fun ns => load reg ns <> None.
  Definition attrs_ok (l : string) (a : list Attr) : Prop := forall x, In x a -> known (nspace (aname x)) -> Carries l (nspace (aname x)).
  Lemma new_group l ns : (known ns -> Carries l ns) -> new_attr_group reg ns l <> None.
  Proof.
    unfold known, new_attr_group. intros H. destruct (load reg ns) as [sp|] eqn:L; [|discriminate]. specialize (H ltac:(discriminate)).
    unfold load in L. destruct H as [[-> I]|[-> ->]].
    - cbn in L. destruct (rg_prod reg); [|discriminate]. injection L as <-. cbn in I. decompose [or] I; subst; try discriminate. contradiction.
    - cbn in L. destruct (rg_slices reg); [|discriminate]. injection L as <-. discriminate.
  Qed.
  Lemma any_attr_ok l any a : (known (nspace (aname a)) -> Carries l (nspace (aname a))) -> any_attr reg l any a <> None.
  Proof.
    intros H. induction any as [|g r IH]; cbn [any_attr].
    - apply new_group in H. destruct (new_attr_group _ _ _) as [g|]; [|congruence]. destruct (unmarshal_attr g a). discriminate.
    - destruct (seq _ _); [destruct (unmarshal_attr g a); discriminate|]. destruct (any_attr reg l r a) as [[? ?]|]; congruence.
  Qed.
  Lemma loop_ok {A} (f : A -> Attr -> option (A * error)) l : (forall x a, In a l -> f x a <> None) -> forall x e, attrs_loop f x e l <> None.
  Proof.
    induction l as [|a l IH]; intros H x e; cbn [attrs_loop]; [discriminate|].
    pose proof (H x a (or_introl eq_refl)). destruct (f x a) as [[x' e']|]; [|congruence]. apply IH. intros y b I. apply H. right. exact I.
  Qed.
  Ltac crush :=
    repeat match goal with
           | |- context [any_attr reg ?l ?any ?a] => let H := fresh in pose proof (any_attr_ok l any a) as H; destruct (any_attr reg l any a) as [[? ?]|]; [|exfalso; apply H; auto]
           | |- context [if ?b then _ else _] => destruct b
           | |- context [let (_, _) := ?p in _] => destruct p
           end; try discriminate; try (let H := fresh in intros H; discriminate H).
  Lemma start_ok k n a s : named k n -> (nspace n = ns_core -> attrs_ok (nlocal n) a) -> res_get path s <> None ->
    start reg isroot path k n a s <> None.
  Proof.
    assert (F : forall A (r : option (A * error)) (f : A -> DSt), r <> None ->
      match r with Some (v, e) => Some (f v, e) | None => None end <> None).
    { intros A [[v e0]|] f H; [discriminate|congruence]. }
    intros N H HR.
    assert (K : match k with KUnkAsset | KUnk _ | KExt _ _ => True | _ => attrs_ok (parent_of k) a end).
    { destruct k; cbn [named parent_of] in *; try exact I; try contradiction; rewrite N in H; apply (H eq_refl). }
    destruct k; cbn [start]; cbn [parent_of] in K; try discriminate;
      try (apply F, loop_ok; intros x b I; apply any_attr_ok, K, I).
    - unfold model_start. destruct (negb isroot); [discriminate|].
      match goal with |- context [attrs_loop ?f ?x ?e ?l] => pose proof (loop_ok f l) as L end.
      match type of L with ?P -> _ => assert (L0 : P) end.
      { intros [m req] b I. unfold model_attr. destruct (seq _ ""); [crush; destruct (new_units _); discriminate|]. unfold model_nocore. crush; exact (K b I). }
      specialize (L L0 (s_model s, []) None). destruct (attrs_loop _ _ _ _) as [[[? ?] ?]|]; [discriminate|congruence].
    - apply F, loop_ok. intros x b I. unfold item_attr. crush; exact (K b I).
    - destruct a as [|a0 a]; [discriminate|]. destruct (res_get path s) as [r|]; [|congruence]. apply F, loop_ok. intros x b I. apply any_attr_ok, K, I.
    - apply F, loop_ok. intros x b I. unfold bm_attr. crush; exact (K b I).
    - apply F, loop_ok. intros x b I. unfold base_attr. crush; exact (K b I).
    - apply F, loop_ok. intros x b I. unfold obj_attr. crush; try exact (K b I). 
    - apply F, loop_ok. intros x b I. unfold vertex_attr. crush.
    - apply F, loop_ok. intros x b I. unfold tri_attr. destruct (seq _ ""); [destruct (get_u32 _ _); discriminate|]. crush; exact (K b I).
    - apply F, loop_ok. intros x b I. unfold comp_attr. crush; exact (K b I).
    - destruct (first_attr _ _) as [a0|]; [destruct (get_u32 a0 true)|]; discriminate.
    - destruct x; cbn [ext_start]; try discriminate;
        try (destruct (first_attr _ _) as [a0|]; [match goal with |- context [let (_, _) := ?p in _] => destruct p end|]; discriminate);
        apply F, loop_ok; intros y b I.
      + unfold texg_attr. crush.
      + unfold coord_attr. crush.
      + unfold tex_attr. crush.
      + unfold composites_attr. crush.
      + unfold composite_attr. crush.
      + unfold multis_attr. crush.
      + unfold multi_attr. crush.
      + unfold stack_attr. crush.
      + unfold sliceref_attr. crush.
      + unfold svert_attr. destruct (get_f32 _ _). discriminate.
      + destruct y as [g [h1 h2]]. unfold seg_attr. destruct (get_u32 _ _). crush.
      + unfold lattice_attr. destruct (negb _); [discriminate|]. crush.
      + destruct y as [g [h1 h2]]. unfold beam_attr. destruct (negb _); [discriminate|]. crush.
  Qed.
  Lemma child_ok k n s : res_get path s <> None -> (k = KRes -> n = mkName ns_beam "beamlattice" -> ~ known ns_beam) ->
    child reg isroot path k n s <> CPanic.
  Proof.
    intros HR HB. destruct k; cbn [child]; try discriminate; try (ifs; discriminate);
      try (repeat match goal with |- (if ?b then _ else _) <> _ => destruct b end; discriminate).
    - unfold model_child. repeat match goal with |- (if ?b then _ else _) <> _ => destruct b end; try discriminate.
      destruct (new_element_decoder _ _ _) as [[k e]|]; discriminate.
    - unfold res_child. cbn zeta. change (res_get path (with_bm bm_zero false s)) with (res_get path s). change (res_get path (with_unk [] 0 s)) with (res_get path s).
      destruct (res_get path s) as [r|] eqn:ER; [|congruence].
      repeat match goal with |- (if ?b then _ else _) <> _ => destruct b end; try discriminate.
      destruct (load reg (nspace n)) as [sp|] eqn:L; [|discriminate].
      destruct (ext_decoder sp (nlocal n)) as [[x e]|] eqn:X; [|discriminate]. destruct e; try discriminate. exfalso.
      assert (sp = SpBeam /\ nlocal n = "beamlattice") as [-> EL].
      { destruct sp; cbn [ext_decoder] in X; repeat match type of X with (if seq ?a ?b then _ else _) = _ => destruct (seq_spec a b) end; try discriminate; auto. }
      assert (nspace n = ns_beam).
      { unfold load in L. repeat match type of L with (if seq ?a ?b then _ else _) = _ => destruct (seq_spec a b) end; try discriminate; auto;
          destruct (rg_mat reg), (rg_prod reg), (rg_slices reg); discriminate. }
      apply (HB eq_refl); [destruct n; cbn in *; congruence|]. unfold known. rewrite <- H, L. discriminate.
    - unfold mesh_child. repeat match goal with |- (if ?b then _ else _) <> _ => destruct b end; try discriminate.
      destruct (new_element_decoder _ _ _) as [[k e]|]; discriminate.
    - destruct x; cbn [ext_child]; repeat match goal with |- (if ?b then _ else _) <> _ => destruct b end; discriminate.
  Qed.
  Lemma end_ok k n s : res_get path s <> None -> end_ path k n s <> None.
  Proof.
    intros HR. destruct k; cbn [end_]; try discriminate; unfold res_upd;
      change (res_get path (with_bm (get_bm path s) true s)) with (res_get path s); change (res_get path (with_obj (get_obj path s) true s)) with (res_get path s);
      change (res_get path (with_unk (s_unk s ++ [TEnd n]) (s_unk_id s) s)) with (res_get path s); try (destruct (res_get path s); [discriminate|congruence]).
    destruct x; discriminate.
  Qed.
End Panic.

(** ** The machine *)
Inductive Sub {A} : list A -> list A -> Prop :=
| SubNil l : Sub [] l
| SubBoth x l l' : Sub l l' -> Sub (x :: l) (x :: l')
| SubSkip x l l' : Sub l l' -> Sub l (x :: l').
Lemma sub_head {A} (x y : A) s a : Sub (x :: s) (y :: a) -> x <> y -> Sub (x :: s) a.
Proof. intros H N. inversion H; subst; [congruence|assumption]. Qed.
Lemma sub_tail {A} (x : A) s a : Sub (x :: s) a -> Sub s a.
Proof. intros H. remember (x :: s) as l eqn:E. revert E. induction H; intros E; [discriminate|injection E as -> ->; apply SubSkip, H|apply SubSkip; auto]. Qed.
Lemma sub_both {A} (x : A) s a : Sub (x :: s) (x :: a) -> Sub s a.
Proof. intros H. inversion H; subst; [assumption|]. apply sub_tail with x. assumption. Qed.
Lemma sub_in {A} (x : A) s a : Sub s a -> In x s -> In x a.
Proof. induction 1; cbn; intuition. Qed.
(** Inside the elements [bn] the entries [be] are on the stack. *)
Definition Base (bn : list Name) (be : list (DK * Name)) (open : list Name) (st : list (DK * Name)) : Prop :=
  forall a, open = a ++ bn -> exists s, st = s ++ be /\ Sub (map snd s) a.
Definition cores (open : list Name) : list Name := filter (fun n => seq (nspace n) ns_core) open.
Lemma cores_nodup n open : NoDup (cores open) -> (nspace n = ns_core -> ~ In n open) -> NoDup (cores (n :: open)).
Proof.
  intros H N. unfold cores. cbn [filter]. destruct (seq_spec (nspace n) ns_core) as [E|E]; [|exact H]. constructor; [|exact H].
  intros I. apply filter_In in I as [I _]. apply (N E I).
Qed.
Lemma cores_tl n open : NoDup (cores (n :: open)) -> NoDup (cores open) /\ (nspace n = ns_core -> ~ In n open).
Proof.
  unfold cores. cbn [filter]. destruct (seq_spec (nspace n) ns_core) as [E|E]; [|intros H; split; [exact H|congruence]].
  intros H. inversion H; subst. split; [assumption|]. intros _ I. apply H2, filter_In. split; [exact I|]. apply seq_true, E.
Qed.
(** [bn] starts with the name of the first entry of [be], a core name *)
Definition good (bn : list Name) (be : list (DK * Name)) : Prop :=
  match bn, be with n :: _, (_, n') :: _ => n = n' /\ nspace n = ns_core | _, _ => False end.
Lemma base_push bn be open st n k : Base bn be open st -> good bn be -> (n :: open = bn -> (k, n) :: st = be) -> Base bn be (n :: open) ((k, n) :: st).
Proof.
  intros B G C [|x a] E; cbn [app] in E.
  - exists []. rewrite <- (C E). split; [reflexivity|constructor].
  - injection E as <- E. destruct (B a E) as (s & -> & S). exists ((k, n) :: s). split; [reflexivity|]. cbn [map snd]. constructor. exact S.
Qed.
Lemma base_skip bn be open st n : Base bn be open st -> n :: open <> bn -> Base bn be (n :: open) st.
Proof.
  intros B C [|x a] E; cbn [app] in E; [congruence|]. injection E as <- E. destruct (B a E) as (s & -> & S). exists s. split; [reflexivity|]. constructor. exact S.
Qed.
Lemma base_pop bn be open st n k : Base bn be (n :: open) ((k, n) :: st) -> good bn be -> NoDup (cores (n :: open)) -> Base bn be open st.
Proof.
  intros B G ND a ->. destruct (cores_tl _ _ ND) as [_ N]. destruct (B (n :: a) eq_refl) as (s & E & S). destruct s as [|x s].
  - exfalso. destruct bn as [|n1 bn], be as [|[k1 n2] be]; try contradiction. destruct G as [G1 G2]. cbn [app] in E. injection E as _ E _.
    assert (X : n = n1) by congruence. apply N; [rewrite X; exact G2|]. rewrite X. apply in_or_app. right. left. reflexivity.
  - cbn [app] in E. injection E as <- ->. exists s. split; [reflexivity|]. cbn [map snd] in S. apply sub_both with n. exact S.
Qed.
Lemma base_other bn be open st n : Base bn be (n :: open) st -> (forall k st', st <> (k, n) :: st') -> Base bn be open st.
Proof.
  intros B T a ->. destruct (B (n :: a) eq_refl) as (s & -> & S). exists s. split; [reflexivity|]. destruct s as [|[k m] s]; [constructor|].
  cbn [map snd] in *. apply sub_head in S; [exact S|]. intros ->. apply (T k (s ++ be)). reflexivity.
Qed.

Section Machine.
  Context (reg : Reg) (isroot : bool) (path : string) (later : Ref -> string).
  Notation kmodel := (KModel, core_name "model").
  Notation kres := (KRes, core_name "resources").
  Notation kobj := (KObj, core_name "object").
  Notation kmesh := (KMesh, core_name "mesh").
  Definition ents (m : Mach) : list (DK * Name) := map fst (m_stack m).
  Definition top_is (m : Mach) : Prop := match ents m with [] => False | (k, n) :: _ => m_cur m = k /\ m_name m = n end.
  Record Inv (closed : bool) (open : list Name) (m : Mach) : Prop := {
    v_place : res_get path (m_st m) <> None;
    v_cores : NoDup (cores open);
    v_names : ~ In (mkName "" "") open;
    v_kinds : Forall (fun e => named (fst e) (snd e)) (ents m);
    v_phase : if closed then m_stack m = [] /\ m_name m = core_name "model" /\ ~ In (core_name "model") open
              else (m_stack m = [] /\ m_cur m = KTop /\ m_name m = mkName "" "" /\ ~ In (core_name "model") open) \/
                   (top_is m /\ exists below, (exists a, open = a ++ core_name "model" :: below) /\
                      Base (core_name "model" :: below) [kmodel] open (ents m) /\
                      Base [core_name "resources"; core_name "model"] [kres; kmodel] open (ents m) /\
                      Base [core_name "object"; core_name "resources"; core_name "model"] [kobj; kres; kmodel] open (ents m) /\
                      Base [core_name "mesh"; core_name "object"; core_name "resources"; core_name "model"] [kmesh; kobj; kres; kmodel] open (ents m)) }.
  Lemma base_exact bn be open st : Base bn be open st -> open = bn -> st = be.
  Proof. intros B E. destruct (B [] E) as (s & -> & S). destruct s; [reflexivity|]. inversion S. Qed.
  Lemma name_eqb_spec' a b : reflect (a = b) (name_eqb a b).
  Proof. destruct a as [a1 a2], b as [b1 b2]. unfold name_eqb. cbn. destruct (seq_spec a1 b1), (seq_spec a2 b2); constructor; congruence. Qed.
  Ltac bs := repeat match goal with |- _ /\ _ => split end.
  Lemma inv_char closed open now r m : Inv closed open m -> Inv closed open (on_char path later now r m).
  Proof.
    intros [V1 V2 V3 V4 V5]. split; try assumption.
    - cbn [m_st on_char]. eapply res_get_place; [|exact V1]. destruct (m_cur m); cbn [on_char m_st]; try (symmetry; apply place_append_token); reflexivity.
  Qed.
  Lemma chain_child s : res_get path s <> None ->
    (forall n, n = core_name "model" -> exists i s', child reg isroot path KTop n s = COk i KModel s') /\
    (forall n, n = core_name "resources" -> exists i s', child reg isroot path KModel n s = COk i KRes s') /\
    (forall n, n = core_name "object" -> exists i s', child reg isroot path KRes n s = COk i KObj s') /\
    (forall n, n = core_name "mesh" -> exists i s', child reg isroot path KObj n s = COk i KMesh s').
  Proof.
    intros H. bs; intros n ->.
    - do 2 eexists. reflexivity.
    - do 2 eexists. reflexivity.
    - cbn [child]. unfold res_child. destruct (res_get path s) as [r|]; [|congruence]. do 2 eexists. reflexivity.
    - do 2 eexists. reflexivity.
  Qed.
  Lemma top_cur m k n q : top_is m -> ents m = (k, n) :: q -> m_cur m = k.
  Proof. unfold top_is. intros H E. rewrite E in H. apply H. Qed.
  Lemma below_nil a0 below open : open = a0 ++ core_name "model" :: below -> NoDup (cores open) -> open = [core_name "model"] -> below = [].
  Proof. intros -> _ E. destruct a0 as [|? [|]]; [injection E as ->; reflexivity|discriminate|discriminate]. Qed.
  (** Nothing is pushed *)
  Lemma inv_skip open n m st : Inv false open m -> NoDup (cores (n :: open)) -> ~ In (mkName "" "") (n :: open) ->
    res_get path st <> None -> (has_child (m_cur m) = false \/ child reg isroot path (m_cur m) n (m_st m) = CNil) ->
    Inv false (n :: open) (mkM st (m_cur m) (m_name m) (m_stack m) (m_errs m)).
  Proof.
    intros [V1 V2 V3 V4 V5] ND NN R NC. split; try assumption. cbn [m_stack m_cur m_name].
    destruct (chain_child _ V1) as (C1 & C2 & C3 & C4).
    destruct V5 as [(A1 & A2 & A3 & A4)|(A1 & below & (a0 & A2) & B1 & B2 & B3 & B4)].
    - left. bs; try assumption. rewrite A2 in NC. intros [E|E]; [|contradiction]. destruct (C1 n E) as (i & s' & C). destruct NC as [NC|NC]; [discriminate|congruence].
    - right. split; [exact A1|]. exists below. change (ents {| m_st := st; m_cur := m_cur m; m_name := m_name m; m_stack := m_stack m; m_errs := m_errs m |}) with (ents m). bs.
      + exists (n :: a0). rewrite A2. reflexivity.
      + apply base_skip; [exact B1|]. intros E. injection E as E1 E2. apply (proj2 (cores_tl _ _ ND)); [rewrite E1; reflexivity|]. rewrite E1, A2. apply in_or_app. right. left. reflexivity.
      + apply base_skip; [exact B2|]. intros E. injection E as E1 E2. pose proof (below_nil _ _ _ A2 V2 E2) as ->.
        pose proof (top_cur _ _ _ _ A1 (base_exact _ _ _ _ B1 E2)) as K. rewrite K in NC. destruct (C2 n E1) as (i & s' & C). destruct NC as [NC|NC]; [discriminate|congruence].
      + apply base_skip; [exact B3|]. intros E. injection E as E1 E2.
        pose proof (top_cur _ _ _ _ A1 (base_exact _ _ _ _ B2 E2)) as K. rewrite K in NC. destruct (C3 n E1) as (i & s' & C). destruct NC as [NC|NC]; [discriminate|congruence].
      + apply base_skip; [exact B4|]. intros E. injection E as E1 E2.
        pose proof (top_cur _ _ _ _ A1 (base_exact _ _ _ _ B3 E2)) as K. rewrite K in NC. destruct (C4 n E1) as (i & s' & C). destruct NC as [NC|NC]; [discriminate|congruence].
  Qed.
  Lemma inv_push open n m st i k s' errs : Inv false open m -> NoDup (cores (n :: open)) -> ~ In (mkName "" "") (n :: open) ->
    res_get path st <> None -> child reg isroot path (m_cur m) n (m_st m) = COk i k s' ->
    Inv false (n :: open) (mkM st k n ((k, n, i) :: m_stack m) errs).
  Proof.
    intros [V1 V2 V3 V4 V5] ND NN R NC. pose proof (child_named _ _ _ _ _ _ _ _ _ NC) as NM.
    split; try assumption.
    - unfold ents. cbn [m_stack map fst]. constructor; [exact NM|exact V4].
    - right. split; [split; reflexivity|].
      assert (EE : ents (mkM st k n ((k, n, i) :: m_stack m) errs) = (k, n) :: ents m) by reflexivity. rewrite EE. clear EE.
      destruct (chain_child _ V1) as (C1 & C2 & C3 & C4).
      destruct V5 as [(A1 & A2 & A3 & A4)|(A1 & below & (a0 & A2) & B1 & B2 & B3 & B4)].
      + rewrite A2 in NC. cbn [child] in NC. destruct (core n "model") eqn:E; [|discriminate]. apply core_true in E. subst n. injection NC as _ <- _.
        assert (EN : ents m = []) by (unfold ents; rewrite A1; reflexivity). rewrite EN. exists open.
        assert (B0 : forall bn be n0, In (core_name "model") bn -> n0 <> core_name "model" -> Base (n0 :: bn) be (core_name "model" :: open) [kmodel]).
        { intros bn be n0 I N0 [|x a] E; cbn [app] in E; [congruence|]. injection E as <- E. exfalso. apply A4. rewrite E. apply in_or_app. right. right. exact I. }
        bs.
        * exists []. reflexivity.
        * intros [|x a] E; cbn [app] in E; [exists []; split; [reflexivity|constructor]|]. injection E as <- E. exfalso. apply A4. rewrite E. apply in_or_app. right. left. reflexivity.
        * apply B0; [cbn; tauto|discriminate].
        * apply B0; [cbn; tauto|discriminate].
        * apply B0; [cbn; tauto|discriminate].
      + exists below. bs.
        * exists (n :: a0). rewrite A2. reflexivity.
        * apply base_push; [exact B1|split; reflexivity|]. intros E. exfalso. injection E as E1 E2. apply (proj2 (cores_tl _ _ ND)); [rewrite E1; reflexivity|]. rewrite E1, A2. apply in_or_app. right. left. reflexivity.
        * apply base_push; [exact B2|split; reflexivity|]. intros E. injection E as E1 E2. pose proof (below_nil _ _ _ A2 V2 E2) as ->.
          pose proof (base_exact _ _ _ _ B1 E2) as E3. rewrite (top_cur _ _ _ _ A1 E3) in NC. destruct (C2 n E1) as (i' & s2 & C). rewrite NC in C. injection C as _ -> _. rewrite E1, E3. reflexivity.
        * apply base_push; [exact B3|split; reflexivity|]. intros E. injection E as E1 E2.
          pose proof (base_exact _ _ _ _ B2 E2) as E3. rewrite (top_cur _ _ _ _ A1 E3) in NC. destruct (C3 n E1) as (i' & s2 & C). rewrite NC in C. injection C as _ -> _. rewrite E1, E3. reflexivity.
        * apply base_push; [exact B4|split; reflexivity|]. intros E. injection E as E1 E2.
          pose proof (base_exact _ _ _ _ B3 E2) as E3. rewrite (top_cur _ _ _ _ A1 E3) in NC. destruct (C4 n E1) as (i' & s2 & C). rewrite NC in C. injection C as _ -> _. rewrite E1, E3. reflexivity.
  Qed.
  Lemma cur_res open m : Inv false open m -> m_cur m = KRes -> In (core_name "resources") open /\
    open <> [core_name "mesh"; core_name "object"; core_name "resources"; core_name "model"].
  Proof.
    intros [V1 V2 V3 V4 V5] K. destruct V5 as [(A1 & A2 & A3 & A4)|(A1 & below & (a0 & A2) & B1 & B2 & B3 & B4)]; [congruence|]. split.
    - unfold top_is in A1. destruct (ents m) as [|[k1 n1] q] eqn:EN; [contradiction|]. destruct A1 as [A1 _]. rewrite K in A1. subst k1.
      apply Forall_inv in V4. cbn [fst snd named parent_of] in V4. subst n1. destruct (B1 a0 A2) as (s & E & S). destruct s as [|x s]; [discriminate|]. cbn [app] in E. injection E as <- E.
      rewrite A2. apply in_or_app. left. eapply sub_in; [exact S|]. left. reflexivity.
    - intros E. pose proof (top_cur _ _ _ _ A1 (base_exact _ _ _ _ B4 E)). congruence.
  Qed.
  Lemma inv_start open n a m : Inv false open m -> TameStart (known reg) open n a -> exists m', on_start reg isroot path n a m = Some m' /\ Inv false (n :: open) m'.
  Proof.
    intros V (T1 & T2 & T3 & T4). pose proof V as [V1 V2 V3 V4 V5].
    assert (ND : NoDup (cores (n :: open))) by (apply cores_nodup; assumption).
    assert (NN : ~ In (mkName "" "") (n :: open)) by (intros [E|E]; [congruence|contradiction]).
    unfold on_start. destruct (has_child (m_cur m)) eqn:HC.
    - destruct (child reg isroot path (m_cur m) n (m_st m)) as [| |i k s'] eqn:C.
      + exists m. split; [reflexivity|]. destruct m as [st cur nm stk errs]. apply (inv_skip open n (mkM st cur nm stk errs) st); auto.
      + exfalso. revert C. apply child_ok; [exact V1|]. intros K E KN. destruct (cur_res _ _ V K) as [I N]. apply N, T4; assumption.
      + pose proof (place_child _ _ _ _ _ _ _ _ _ C) as P1. pose proof (child_named _ _ _ _ _ _ _ _ _ C) as NM.
        assert (R1 : res_get path s' <> None) by (apply (res_get_place path (m_st m)); [congruence|exact V1]).
        pose proof (start_ok reg isroot path k n a s' NM T3 R1) as SO.
        destruct (start reg isroot path k n a s') as [[s2 e]|] eqn:ES; [|congruence]. apply place_start in ES.
        assert (R2 : res_get path s2 <> None) by (apply (res_get_place path s'); [congruence|exact R1]).
        destruct e as [e|]; eexists; (split; [reflexivity|]); eapply inv_push; eassumption.
    - eexists. split; [reflexivity|]. apply inv_skip; auto. apply (res_get_place path (m_st m)); [|exact V1]. symmetry. apply place_append_token.
  Qed.
  Lemma inv_end closed open n m : Inv closed (n :: open) m ->
    exists m', on_end path n m = Some m' /\ Inv (closed || name_eqb n (core_name "model")) open m'.
  Proof.
    intros [V1 V2 V3 V4 V5]. destruct (cores_tl _ _ V2) as [ND NI]. assert (NN : ~ In (mkName "" "") open) by (intros E; apply V3; right; exact E).
    unfold on_end. destruct (name_eqb_spec' (m_name m) n) as [E|E].
    - (* the name of the element on the top *)
      destruct closed.
      { exfalso. destruct V5 as (A1 & A2 & A3). apply A3. left. congruence. }
      destruct V5 as [(A1 & A2 & A3 & A4)|(A1 & below & (a0 & A2) & B1 & B2 & B3 & B4)].
      { exfalso. apply V3. left. congruence. }
      pose proof (end_ok path (m_cur m) n (m_st m) V1) as EO. destruct (end_ path (m_cur m) n (m_st m)) as [s|] eqn:ES; [|congruence].
      apply place_end in ES. assert (R : res_get path s <> None) by (apply (res_get_place path (m_st m)); [congruence|exact V1]).
      unfold top_is in A1. unfold ents in *. destruct m as [st cur nm stk errs]. cbn [m_st m_cur m_name m_stack m_errs] in *.
      destruct stk as [|[[k1 n1] i1] stk]; [contradiction|]. cbn [map fst] in *. destruct A1 as [-> ->]. subst n1.
      destruct (name_eqb_spec' n (core_name "model")) as [M|M].
      + (* the model *)
        subst n. assert (a0 = []) as ->.
        { destruct a0 as [|x a0]; [reflexivity|]. exfalso. cbn [app] in A2. injection A2 as <- A2. apply (NI eq_refl). rewrite A2. apply in_or_app. right. left. reflexivity. }
        cbn [app] in A2. injection A2 as ->. pose proof (base_exact _ _ _ _ B1 eq_refl) as X. injection X as -> X. destruct stk as [|y stk]; [|discriminate].
        eexists. split; [reflexivity|]. rewrite orb_true_r. split; try assumption; [constructor|]. cbn. bs; auto.
      + destruct a0 as [|x a0]; [exfalso; cbn [app] in A2; congruence|]. cbn [app] in A2. injection A2 as <- A2.
        assert (PB : forall bn be, good bn be -> Base bn be (n :: open) ((k1, n) :: map fst stk) -> Base bn be open (map fst stk)).
        { intros bn be G B. eapply base_pop; eassumption. }
        apply PB in B1; [|split; reflexivity]. apply PB in B2; [|split; reflexivity]. apply PB in B3; [|split; reflexivity]. apply PB in B4; [|split; reflexivity].
        destruct (B1 a0 A2) as (s1 & X & _). destruct stk as [|[[k2 n2] i2] stk]; [destruct s1; discriminate|].
        eexists. split; [reflexivity|]. cbn [orb]. inversion V4; subst. split; try assumption.
        right. split; [split; reflexivity|]. exists below. bs; try assumption. exists a0. reflexivity.
    - eexists. split; [reflexivity|].
      assert (R : res_get path (append_token path (m_cur m) (TEnd n) (m_st m)) <> None).
      { apply (res_get_place path (m_st m)); [symmetry; apply place_append_token|exact V1]. }
      destruct closed.
      { destruct V5 as (A1 & A2 & A3). split; try assumption. cbn. bs; try assumption. intros I. apply A3. right. exact I. }
      destruct V5 as [(A1 & A2 & A3 & A4)|(A1 & below & (a0 & A2) & B1 & B2 & B3 & B4)].
      + assert (name_eqb n (core_name "model") = false) as -> by (destruct (name_eqb_spec' n (core_name "model")) as [->|]; [exfalso; apply A4; left; reflexivity|reflexivity]).
        split; try assumption. left. cbn. bs; try assumption. intros I. apply A4. right. exact I.
      + assert (T : forall k st', ents m <> (k, n) :: st').
        { intros k st' X. unfold top_is in A1. rewrite X in A1. apply E, A1. }
        assert (name_eqb n (core_name "model") = false) as ->.
        { destruct (name_eqb_spec' n (core_name "model")) as [->|]; [|reflexivity]. exfalso.
          destruct a0 as [|x a0]; [cbn [app] in A2; injection A2 as ->; apply (T KModel []); apply (base_exact _ _ _ _ B1 eq_refl)|].
          cbn [app] in A2. injection A2 as <- A2. apply (NI eq_refl). rewrite A2. apply in_or_app. right. left. reflexivity. }
        split; try assumption. right. split; [exact A1|]. exists below.
        change (ents {| m_st := append_token path (m_cur m) (TEnd n) (m_st m); m_cur := m_cur m; m_name := m_name m; m_stack := m_stack m; m_errs := m_errs m |}) with (ents m).
        destruct a0 as [|x a0]; [exfalso; cbn [app] in A2; injection A2 as -> ->; apply (T KModel []); apply (base_exact _ _ _ _ B1 eq_refl)|].
        cbn [app] in A2. injection A2 as <- A2. bs; try (eapply base_other; eassumption). exists a0. exact A2.
  Qed.
  Lemma tame_events evs : forall closed open m, Inv closed open m -> Tame (known reg) closed open (map ev_token evs) ->
    on_events reg isroot path later evs m <> None.
  Proof.
    induction evs as [|e evs IH]; intros closed open m V T; cbn [on_events]; [discriminate|].
    cbn [map] in T. destruct e as [n a|n|now r]; cbn [ev_token on_event] in *.
    - inversion T; subst. destruct (inv_start _ _ _ _ V ltac:(eassumption)) as (m' & -> & V'). eapply IH; eassumption.
    - inversion T as [|? ? ? ? ? ?|c o n' ts NM T' Ec Eo|c o ts T' Ec Eo|]; subst.
      + destruct (inv_end _ _ _ _ V) as (m' & -> & V'). destruct (name_eqb_spec' n (core_name "model")) as [X|X]; [contradiction|]. rewrite orb_false_r in V'. eapply IH; eassumption.
      + destruct (inv_end _ _ _ _ V) as (m' & -> & V'). destruct (name_eqb_spec' (core_name "model") (core_name "model")) as [X|X]; [|congruence]. rewrite orb_true_r in V'. eapply IH; eassumption.
    - inversion T; subst. eapply IH; [apply inv_char, V|eassumption].
  Qed.
  Lemma inv_init m : find_resources m path <> None -> Inv false [] (m_init m).
  Proof. intros H. split; cbn; auto; constructor. bs; auto. Qed.
End Machine.

(** The loop and the scanner *)
Lemma loop_panic reg isroot strict path every ctx fin later : forall fuel i d m evs e d', scan_loop fin true fuel d = SDone evs e d' ->
  on_events reg isroot path later evs m <> None -> decode_loop reg isroot strict path every ctx fin later fuel i d m <> DPanic.
Proof.
  induction fuel as [|f IH]; intros i d m evs e d' H N; cbn [decode_loop scan_loop] in *; [discriminate|].
  destruct (raw_token fin true d) as [ev d1|e1 d1|]; [|discriminate|discriminate].
  destruct (scan_loop fin true f d1) as [evs' e' d2|] eqn:ES; [|discriminate]. injection H as <- <- <-. rewrite on_events_app in N.
  destruct (on_events reg isroot path later ev m) as [m1|]; [|congruence].
  destruct (strict && _); [discriminate|]. destruct (_ && ctx i); [discriminate|]. eapply IH; eassumption.
Qed.
