(** * Proofs: what the elements of the core specification mean *)
From Coq Require Import ZArith.
From Verif Require Import GoBase GoNum GoUtf8 GoFloat GoStrconv Types XmlTypes M_Core M_Errors M_Text M_Xml M_Decode
  S_Core S_Text S_Errors S_Attr S_RoundTrip P_State P_RTCore P_Attr S_Meaning P_Meaning P_MeaningRun P_MeaningExt.
Local Opaque parse_rgba get_u32 get_f32 parse_u32 parse_float parse_matrix fields attrs_loop groups group_start.
Local Notation names := S_Meaning.names.
Local Notation get := S_Meaning.get.
Local Notation meta_attrs := P_Meaning.meta_attrs.

Lemma the_first {A} n D a kk (f : list Attr * list XTree -> A) x : elems n D = [] -> the_elem n (D ++ [XElem n a kk]) f x = f (a, kk).
Proof. intros E. unfold the_elem. rewrite elems_snoc, E, elem1_same. reflexivity. Qed.
Lemma the_other {A} n D t (f : list Attr * list XTree -> A) x : elem1 n t = [] -> the_elem n (D ++ [t]) f x = the_elem n D f x.
Proof. intros E. unfold the_elem. rewrite elems_snoc, E, app_nil_r. reflexivity. Qed.
Lemma the_none {A} n D (f : list Attr * list XTree -> A) x : elems n D = [] -> the_elem n D f x = x.
Proof. intros E. unfold the_elem. rewrite E. reflexivity. Qed.
Lemma single_none n kids D a kk r : Singles kids -> In n singles -> kids = D ++ XElem n a kk :: r -> elems n D = [].
Proof.
  intros S I ->. specialize (S n I). unfold elems in *. rewrite flat_map_app, app_length in S. cbn [flat_map] in S. rewrite app_length, elem1_same in S. cbn [List.length] in S.
  destruct (flat_map (elem1 n) D); [reflexivity|cbn [List.length] in S; lia].
Qed.
Section Core.
  Context (reg : Reg) (isroot : bool) (path : string) (later : Ref -> string).
  Notation known := (knownb reg).
  Notation Plain := (Plain known isroot).
  Notation takes := (takes known isroot).
  Notation Rn := (Rn reg isroot path later).
  Notation child := (child reg isroot path).
  Notation start := (start reg isroot path).
  Ltac inn := destruct isroot; vm_compute; repeat (first [left; reflexivity|right]).
  Ltac others t T := repeat match goal with |- context [elem1 ?c t] => replace (elem1 c t) with (@nil (list Attr * list XTree)) by (symmetry; eapply not_taken; [| |exact T]; [reflexivity|inn]) end.
  Ltac ignore := intros D t s T Hs; rewrite ?elems_snoc; others t T; rewrite ?app_nil_r; exact Hs.
  Ltac tak T L := rewrite takes_plain in T by reflexivity; match type of T with context [children isroot ?n] => replace (children isroot n) with L in T by (destruct isroot; reflexivity) end; cbn [existsb] in T.
  Ltac quiet L := intros D d s T _ _; tak T L; repeat (let H := fresh "H" in apply orb_false_elim in T as [H T]);
    unfold name_eqb in *; cbn [nspace nlocal cn] in *; cbn [M_Decode.child]; unfold core;
    repeat match goal with H : _ && _ = false |- _ => rewrite H; clear H end; reflexivity.
  Ltac fin H L lem := match type of H with context [attrs_loop ?f ?x ?er ?a] => destruct (attrs_loop f x er a) as [[? ?]|] eqn:L; [|discriminate H] end;
    apply pair_inv in H as [-> ->]; apply lem in L; [|assumption..]; subst.
  Ltac grp H L := match type of H with context [group_start ?r ?el ?any ?a] => destruct (group_start r el any a) as [[? ?]|] eqn:L; [|discriminate H] end;
    apply pair_inv in H as [-> ->]; apply groups_loop in L; [|assumption]; subst.
  Ltac leaf K := apply rn_leaf with (k' := K); try reflexivity; [destruct isroot; reflexivity|eapply inside_core; [| |eassumption]; [reflexivity|discriminate]|];
    let s := fresh "s" in intros s Hs; eexists _, _; split; [reflexivity|]; let H := fresh "H" in intros s2 H; cbn [M_Decode.start] in H.

  (** ** Metadata *)
  Section Meta.
    Context (exts : list Extension) (ps : list string) (HP : forall p, existsb (fun e => seq (ex_local e) p) exts = existsb (seq p) ps).
    Context (l : mloc).
    Lemma meta_elem (PM : list Metadata -> DSt -> Prop) k nm a kk ms :
      (forall ms s, PM ms s -> mo_exts (s_model s) = exts) -> (forall ms s v, PM ms s -> PM ms (with_meta v s)) ->
      (forall ms s x, PM ms s -> PM (ms ++ [x]) (add_md path l x s)) -> has_child k = true ->
      (forall s, PM ms s -> exists i, child k (cn "metadata") s = COk i (KMeta l) (with_meta meta_zero s)) ->
      PlainAttrs (cn "metadata") a -> (kk = [] \/ exists s r, kk = [XText s r]) ->
      Rn k nm (events (XElem (cn "metadata") a kk)) (PM ms) (PM (ms ++ [metadata_of ps (a, kk)])).
    Proof.
      intros HX HM HA HC Ch (PA & _) HT. cbn [events].
      eapply rn_elem with (k' := KMeta l) (Mid := fun s => PM ms s /\ s_meta s = meta_attrs ps a) (Mid' := fun s => PM ms s /\ s_meta s = metadata_of ps (a, kk)); [exact HC| | |].
      - intros s Hs. destruct (Ch s Hs) as (i & C). exists i, (with_meta meta_zero s). split; [exact C|]. intros s2 H. cbn [M_Decode.start s_model with_meta s_meta] in H. apply pair_inv in H as [-> _].
        split; [apply HM, HM, Hs|]. cbn [s_meta with_meta]. rewrite (HX _ _ Hs). apply meta_loop; assumption.
      - destruct HT as [->|(t & r & ->)]; cbn [flat_map events app].
        + apply rn_nil. intros s [Hs E]. split; [exact Hs|]. rewrite E. reflexivity.
        + intros s i stk mf [Hs E] [= <-] _. eexists. split; [reflexivity|]. unfold on_char. cbn [m_cur m_st]. split; [apply HM, Hs|]. cbn [s_meta with_meta]. rewrite E.
          unfold metadata_of, P_Meaning.meta_attrs, texts. cbn [map String.concat md_name md_type md_preserve fst snd]. reflexivity.
      - intros s s' [Hs E] H. cbn [end_] in H. apply some_inj in H. subst s'. rewrite E. apply HA, Hs.
    Qed.
    Context (PG : MetadataGroup -> DSt -> Prop).
    Context (pg_exts : forall g s, PG g s -> mo_exts (s_model s) = exts) (pg_meta : forall g s v, PG g s -> PG g (with_meta v s)).
    Context (pg_get : forall g s, PG g s -> get_mg path l s = g) (pg_set : forall g g' s, PG g s -> PG g' (set_mg path l g' s)).
    Context (pg_add : forall g s x, PG g s -> PG (mkMG (mg_list g ++ [x]) (mg_any g)) (add_md path l x s)).
    Lemma metas_rn any kids : Forall (Plain (cn "metadatagroup")) kids ->
      Rn (KMetaGroup l) (cn "metadatagroup") (flat_map events kids) (PG (mkMG [] any)) (PG (mkMG (map (metadata_of ps) (elems (cn "metadata") kids)) any)).
    Proof.
      intros F. apply (rn_container _ _ _ _ _ _ (fun d => PG (mkMG (map (metadata_of ps) (elems (cn "metadata") d)) any))); [reflexivity| | | |exact F].
      - quiet [cn "metadata"].
      - ignore.
      - intros D n a kk r _ T PA _ IN. tak T [cn "metadata"]. destruct (name_eqb_spec n (cn "metadata")) as [->|]; [|discriminate].
        rewrite elems_snoc, elem1_same, map_app. cbn [map].
        apply (meta_elem (fun ms => PG (mkMG ms any))); [intros ms s; apply pg_exts|intros ms s v; apply pg_meta|intros ms s x Hs; apply (pg_add _ _ x) in Hs; exact Hs|reflexivity| |exact PA|exact IN].
        intros s Hs. eexists. reflexivity.
    Qed.
    Lemma group_rn k nm a kk : has_child k = true -> (forall s, PG mg_zero s -> exists i, child k (cn "metadatagroup") s = COk i (KMetaGroup l) s) ->
      PlainAttrs (cn "metadatagroup") a -> Inside known isroot (cn "metadatagroup") kk ->
      Rn k nm (events (XElem (cn "metadatagroup") a kk)) (PG mg_zero) (PG (metadata_group_of known ps (a, kk))).
    Proof.
      intros HC Ch (PA & _) IN. cbn [events]. eapply rn_elem with (k' := KMetaGroup l); [exact HC| |apply (metas_rn (groups known "metadatagroup" a)); eapply inside_core; [reflexivity|discriminate|exact IN]|].
      - intros s Hs. destruct (Ch s Hs) as (i & C). exists i, s. split; [exact C|]. intros s2 H. cbn [M_Decode.start] in H. rewrite (pg_get _ _ Hs) in H. cbn [mg_zero mg_any mg_list] in H. grp H L.
        apply (pg_set _ _ _ Hs).
      - intros s s' Hs H. cbn [end_] in H. apply some_inj in H. subst s'. exact Hs.
    Qed.
  End Meta.

  (** ** Elements that keep others *)
  Lemma ext_none n sp : load reg (nspace n) = Some sp -> existsb (name_eqb n) ext_tops = false -> ext_decoder sp (nlocal n) = None.
  Proof.
    intros L H. apply load_ns in L. unfold ext_tops in H. cbn [existsb] in H. repeat (let X := fresh "X" in apply orb_false_elim in H as [X H]).
    unfold name_eqb in *. cbn [nspace nlocal mn sn bn] in *. rewrite L in *. clear L. destruct sp; cbn [ext_decoder]; try reflexivity; rewrite seq_refl in *; cbn [andb] in *;
      repeat match goal with H : seq (nlocal n) _ = false |- _ => rewrite H; clear H end; reflexivity.
  Qed.
  Lemma ext_core : load reg ns_core = None.
  Proof. reflexivity. Qed.
  Lemma ext_of_none n a kk : existsb (name_eqb n) ext_tops = false -> ext_of n a kk = None.
  Proof.
    unfold ext_tops, ext_of. cbn [existsb]. intros H. repeat (let X := fresh "X" in apply orb_false_elim in H as [X H]; rewrite X). reflexivity.
  Qed.
  Lemma any_skip p t : keeper p = true -> match t with XText _ _ => True | XElem n _ _ => takes p n = false /\ misplaced known p n = false end -> any_of known later t = [].
  Proof.
    intros K H. destruct t as [n a kk|]; [|reflexivity]. destruct H as [T Ms]. revert T Ms. unfold S_Meaning.takes, misplaced, any_of. rewrite K.
    destruct (seq (nspace n) ns_core); [reflexivity|]. destruct (known (nspace n)); cbn [negb andb orb].
    - intros _ Ms. rewrite (ext_of_none n a kk Ms). reflexivity.
    - rewrite orb_true_r. discriminate.
  Qed.
  Lemma keeper_cases p n : keeper p = true -> takes p n = true ->
    (nspace n = ns_core /\ existsb (name_eqb n) (children isroot p) = true) \/
    (nspace n <> ns_core /\ known (nspace n) = true /\ existsb (name_eqb n) (children isroot p) = true) \/
    (nspace n <> ns_core /\ known (nspace n) = false).
  Proof.
    unfold S_Meaning.takes. intros ->. cbn [negb orb andb]. destruct (seq_spec (nspace n) ns_core) as [E|E]; cbn [orb negb andb].
    - rewrite andb_true_r, orb_false_r. auto.
    - destruct (known (nspace n)); cbn [orb negb andb]; [rewrite andb_true_r, orb_false_r|]; auto.
  Qed.
  Lemma keeper_quiet p n : keeper p = true -> takes p n = false -> misplaced known p n = false ->
    (nspace n = ns_core /\ existsb (name_eqb n) (children isroot p) = false) \/
    (nspace n <> ns_core /\ exists sp, load reg (nspace n) = Some sp /\ ext_decoder sp (nlocal n) = None).
  Proof.
    unfold S_Meaning.takes, misplaced. intros ->. cbn [negb orb andb]. destruct (seq_spec (nspace n) ns_core) as [E|E]; cbn [orb negb andb].
    - rewrite andb_true_r, orb_false_r. auto.
    - unfold knownb. destruct (load reg (nspace n)) as [sp|] eqn:L; cbn [orb negb andb]; [|rewrite orb_true_r; discriminate].
      intros _ H. right. split; [exact E|]. exists sp. split; [reflexivity|]. apply ext_none; assumption.
  Qed.
  Lemma not_kept p c t : keeper p = true -> nspace c = ns_core -> In c (children isroot p) -> match t with XText _ _ => True | XElem n _ _ => takes p n = false /\ misplaced known p n = false end -> elem1 c t = [].
  Proof.
    intros K N I H. destruct t as [n a kk|s r]; [|reflexivity]. apply elem1_other. intros ->. destruct H as [H _]. revert H.
    assert (X : existsb (name_eqb c) (children isroot p) = true) by (apply existsb_exists; exists c; split; [exact I|apply name_eqb_refl]).
    unfold S_Meaning.takes. rewrite X, N, seq_refl, orb_true_r. discriminate.
  Qed.
  Ltac kothers t T := repeat match goal with |- context [elem1 ?c t] => replace (elem1 c t) with (@nil (list Attr * list XTree)) by (symmetry; eapply not_kept; [| | |exact T]; [reflexivity|reflexivity|inn]) end.
  Ltac kids_of T L := match type of T with context [children isroot ?n] => replace (children isroot n) with L in T by (destruct isroot; reflexivity) end; cbn [existsb] in T.

  Section Resources.
    Context (M0 : Model) (HF : find_resources M0 path <> None).
    Context (ps : list string) (HP : forall p, existsb (fun e => seq (ex_local e) p) (mo_exts M0) = existsb (seq p) ps).
    Notation VR := (VR path M0).
    Notation VO := (VO path M0).
    Notation VB := (VB path M0).
    Notation vo_upd := (vo_upd path M0).
    Notation vo_upd_mesh := (vo_upd_mesh path M0).

    (** ** Meshes *)
    Section Mesh.
      Context (r : Resources) (o : Object).
      Notation V := (fun me => VO r (ob_set_mesh (Some me) o)).
      Notation mesh_of := (S_Meaning.mesh_of known later (ob_pid o) (ob_pindex o)).
      Lemma verts_rn va ts ta any ext kids : Forall (Plain (cn "vertices")) kids ->
        Rn KVerts (cn "vertices") (flat_map events kids) (V (mkMesh [] va ts ta any ext)) (V (mkMesh (map (fun e => vertex_of (fst e)) (elems (cn "vertex") kids)) va ts ta any ext)).
      Proof.
        intros F. apply (rn_container _ _ _ _ _ _ (fun d => V (mkMesh (map (fun e => vertex_of (fst e)) (elems (cn "vertex") d)) va ts ta any ext))); [reflexivity| | | |exact F].
        - quiet [cn "vertex"].
        - ignore.
        - intros D n a kk q _ T (PA & _) _ IN. tak T [cn "vertex"]. destruct (name_eqb_spec n (cn "vertex")) as [->|]; [|discriminate]. leaf KVert. fin H L vertex_loop.
          rewrite elems_snoc, elem1_same, map_app. cbn [map fst].
          exact (vo_upd_mesh _ _ _ _ (fun m => mkMesh (me_verts m ++ [vertex_of a]) (me_vany m) (me_tris m) (me_tany m) (me_any m) (me_ext m)) Hs).
      Qed.
      Lemma tris_rn vs va ta any ext kids : Forall (Plain (cn "triangles")) kids ->
        Rn KTris (cn "triangles") (flat_map events kids) (V (mkMesh vs va [] ta any ext))
          (V (mkMesh vs va (map (fun e => triangle_of known (ob_pid o) (ob_pindex o) (fst e)) (elems (cn "triangle") kids)) ta any ext)).
      Proof.
        intros F. apply (rn_container _ _ _ _ _ _ (fun d => V (mkMesh vs va (map (fun e => triangle_of known (ob_pid o) (ob_pindex o) (fst e)) (elems (cn "triangle") d)) ta any ext))); [reflexivity| | | |exact F].
        - quiet [cn "triangle"].
        - ignore.
        - intros D n a kk q _ T (PA & _) _ IN. tak T [cn "triangle"]. destruct (name_eqb_spec n (cn "triangle")) as [->|]; [|discriminate]. leaf KTri.
          match type of H with context [attrs_loop ?f ?x ?er ?a] => destruct (attrs_loop f x er a) as [[v ?]|] eqn:L; [|discriminate H] end.
          apply pair_inv in H as [-> ->]. apply (tri_loop reg (ob_pid o) (ob_pindex o)) in L; [|exact PA]. rewrite (vo_get _ _ _ _ _ Hs). cbn [ob_pid ob_pindex ob_set_mesh]. rewrite L.
          rewrite elems_snoc, elem1_same, map_app. cbn [map fst].
          exact (vo_upd_mesh _ _ _ _ (fun m => mkMesh (me_verts m) (me_vany m) (me_tris m ++ [triangle_of known (ob_pid o) (ob_pindex o) a]) (me_tany m) (me_any m) (me_ext m)) Hs).
      Qed.
      (** What is not of the core specification *)
      Lemma mesh_ext D b n a kk : takes (cn "mesh") n = true -> nspace n <> ns_core -> PlainAttrs n a -> Inside known isroot n kk ->
        Rn KMesh (cn "mesh") (events (XElem n a kk)) (V (mesh_of (b, D))) (V (mesh_of (b, D ++ [XElem n a kk]))).
      Proof.
        intros T NC PA IN. set (me := mesh_of (b, D)).
        assert (G : forall x, any_of known later (XElem n a kk) = [x] -> mesh_of (b, D ++ [XElem n a kk]) = me_add_any x me).
        { intros x E. subst me. unfold S_Meaning.mesh_of, me_add_any. cbn [fst snd me_verts me_vany me_tris me_tany me_any me_ext]. rewrite !elems_snoc, !elem1_other by (intros ->; apply NC; reflexivity).
          rewrite !app_nil_r, flat_map_app. cbn [flat_map]. rewrite E. reflexivity. }
        cbn [any_of] in G. destruct (seq_spec (nspace n) ns_core) as [|_]; [contradiction|].
        apply keeper_cases in T as [(E & _)|[(_ & K & C)|(_ & K)]]; [contradiction| | |reflexivity]; rewrite K in G.
        - pose proof (inside_ext _ _ _ _ NC K IN) as F. unfold knownb in K. destruct (load reg (nspace n)) as [sp|] eqn:L; [|discriminate].
          kids_of C [cn "vertices"; cn "triangles"; bn "beamlattice"]. destruct (name_eqb_spec n (cn "vertices")) as [->|_]; [contradiction NC; reflexivity|].
          destruct (name_eqb_spec n (cn "triangles")) as [->|_]; [contradiction NC; reflexivity|]. destruct (name_eqb_spec n (bn "beamlattice")) as [->|_]; [|discriminate].
          assert (sp = SpBeam) as -> by (pose proof (load_ns _ _ _ L) as X; destruct sp; [discriminate X..|reflexivity]).
          destruct (ext_elem reg isroot path later LMesh (fun x => V (me_add_any (AnyExt x) me))) with (n := bn "beamlattice") (a := a) (kids := kk) (sp := SpBeam) (xk := XkLattice) (e0 := XBeamLattice lattice_zero) as (x & E & R);
            [| | | |exact L|reflexivity|exact PA|exact F|].
          + intros x s Hs. unfold get_ext. rewrite (vo_mesh _ _ _ _ _ _ Hs). cbn [me_add_any me_ext]. rewrite last_last. reflexivity.
          + intros x s f Hs. apply (vo_upd_mesh _ _ _ _ (fun m => mkMesh (me_verts m) (me_vany m) (me_tris m) (me_tany m) (me_any m) (upd_last (on_any f) (me_ext m)))) in Hs.
            unfold me_add_any in Hs. cbn [me_verts me_vany me_tris me_tany me_any me_ext] in Hs. rewrite upd_last_snoc in Hs. exact Hs.
          + intros x s v Hs. exact Hs.
          + intros x s v Hs. exact Hs.
          + rewrite E in G. rewrite (G _ eq_refl). apply R; [reflexivity| |auto]. intros s Hs.
            exists (-1)%Z, (upd_mesh path (me_add_any (AnyExt (XBeamLattice lattice_zero))) s). split; [|apply (vo_upd_mesh _ _ _ _ (me_add_any (AnyExt (XBeamLattice lattice_zero))) Hs)].
            cbn [M_Decode.child]. unfold mesh_child, new_element_decoder. rewrite L. reflexivity.
        - rewrite (G _ eq_refl). clear G. pose proof K as K'. unfold knownb in K. destruct (load reg (nspace n)) as [sp|] eqn:L; [discriminate|]. unfold Inside in IN. rewrite K' in IN.
          destruct (seq_spec (nspace n) ns_core) as [|_]; [contradiction|]. cbn [orb] in IN.
          assert (UA : forall us t s, V (me_add_any (AnyTokens us) me) s -> V (me_add_any (AnyTokens (us ++ [t])) me) (append_token path (KUnk LMesh) t s)).
          { intros us t s Hs. apply (vo_upd_mesh _ _ _ _ (fun m => mkMesh (me_verts m) (me_vany m) (me_tris m) (me_tany m) (me_any m)
              (upd_last (fun e => match e with AnyTokens ts => AnyTokens (ts ++ [t]) | _ => e end) (me_ext m)))) in Hs.
            unfold me_add_any in Hs. cbn [me_verts me_vany me_tris me_tany me_any me_ext] in Hs. rewrite upd_last_snoc in Hs. exact Hs. }
          cbn [events]. eapply rn_elem with (k' := KUnk LMesh); [reflexivity| |apply (rn_keeps _ _ _ _ (KUnk LMesh) n (fun ts => V (me_add_any (AnyTokens ts) me)) eq_refl UA kk [TStart n a] IN)|].
          + intros s Hs. exists (-1)%Z, (upd_mesh path (me_add_any (AnyTokens [])) s). split.
            * cbn [M_Decode.child]. unfold mesh_child, new_element_decoder. rewrite L. destruct (seq_spec (nspace n) ns_core); [contradiction|]. reflexivity.
            * intros s2 H. cbn [M_Decode.start] in H. apply pair_inv in H as [-> _]. apply (UA [] (TStart n a)). apply (vo_upd_mesh _ _ _ _ (me_add_any (AnyTokens [])) Hs).
          + intros s s' Hs H. cbn [end_] in H. apply some_inj in H. subst s'. apply (UA _ (TEnd n)) in Hs. exact Hs.
      Qed.
      Lemma mesh_rn b kids : Forall (Plain (cn "mesh")) kids -> Singles kids -> Rn KMesh (cn "mesh") (flat_map events kids) (V (mesh_of (b, []))) (V (mesh_of (b, kids))).
      Proof.
        intros F SG. apply (rn_container _ _ _ _ _ _ (fun d => V (mesh_of (b, d)))); [reflexivity| | | |exact F].
        - intros D d s T Ms _. cbn [M_Decode.child]. unfold mesh_child, new_element_decoder. destruct (keeper_quiet (cn "mesh") d eq_refl T Ms) as [(E & C)|(NC & sp & L & X)].
          + rewrite E, seq_refl. kids_of C [cn "vertices"; cn "triangles"; bn "beamlattice"]. apply orb_false_elim in C as [C1 C]. apply orb_false_elim in C as [C2 _].
            unfold name_eqb in C1, C2. rewrite E in C1, C2. cbn [cn nspace nlocal] in C1, C2. rewrite seq_refl in C1, C2. cbn [andb] in C1, C2. rewrite C1, C2. reflexivity.
          + destruct (seq_spec (nspace d) ns_core); [contradiction|]. rewrite L, X. reflexivity.
        - intros D t s T Hs. unfold S_Meaning.mesh_of in *. cbn [fst snd] in *. rewrite !elems_snoc. kothers t T. rewrite !app_nil_r, flat_map_app. cbn [flat_map]. rewrite (any_skip (cn "mesh") t eq_refl T), !app_nil_r. exact Hs.
        - intros D n a kk q E T PA SI IN. destruct (seq_spec (nspace n) ns_core) as [C|C]; [|apply mesh_ext; assumption].
          apply keeper_cases in T as [(_ & CH)|[(X & _)|(X & _)]]; [|contradiction|contradiction|reflexivity]. kids_of CH [cn "vertices"; cn "triangles"; bn "beamlattice"]. destruct PA as (PA & _).
          destruct (name_eqb_spec n (cn "vertices")) as [->|]; [|destruct (name_eqb_spec n (cn "triangles")) as [->|]; [|destruct (name_eqb_spec n (bn "beamlattice")) as [->|]; [discriminate C|discriminate CH]]].
          + pose proof (single_none _ _ _ _ _ _ SG (or_intror (or_intror (or_intror (or_intror (or_intror (or_introl eq_refl)))))) E) as N. unfold S_Meaning.mesh_of. cbn [fst snd].
            rewrite !elems_snoc, elem1_same, elem1_other, N, !flat_map_app by discriminate. cbn [flat_map any_of snd fst app]. change (seq (nspace (cn "vertices")) ns_core) with true. cbn iota. rewrite !app_nil_r.
            cbn [events]. eapply rn_elem with (k' := KVerts); [reflexivity| |apply verts_rn; eapply inside_core; [reflexivity|discriminate|exact IN]|].
            * intros s Hs. eexists _, _. split; [reflexivity|]. intros s2 H. cbn [M_Decode.start] in H. rewrite (vo_mesh _ _ _ _ _ _ Hs) in H. cbn [me_vany] in H. grp H L.
              exact (vo_upd_mesh _ _ _ _ (fun m => mkMesh (me_verts m) (groups known "vertices" a) (me_tris m) (me_tany m) (me_any m) (me_ext m)) Hs).
            * intros s s' Hs H. cbn [end_] in H. apply some_inj in H. subst s'. exact Hs.
          + pose proof (single_none _ _ _ _ _ _ SG (or_intror (or_intror (or_intror (or_intror (or_intror (or_intror (or_introl eq_refl))))))) E) as N. unfold S_Meaning.mesh_of. cbn [fst snd].
            rewrite !elems_snoc, elem1_same, elem1_other, N, !flat_map_app by discriminate. cbn [flat_map any_of snd fst app]. change (seq (nspace (cn "triangles")) ns_core) with true. cbn iota. rewrite !app_nil_r.
            cbn [events]. eapply rn_elem with (k' := KTris); [reflexivity| |apply tris_rn; eapply inside_core; [reflexivity|discriminate|exact IN]|].
            * intros s Hs. eexists _, _. split; [reflexivity|]. intros s2 H. cbn [M_Decode.start] in H. rewrite (vo_mesh _ _ _ _ _ _ Hs) in H. cbn [me_tany] in H. grp H L.
              exact (vo_upd_mesh _ _ _ _ (fun m => mkMesh (me_verts m) (me_vany m) (me_tris m) (groups known "triangles" a) (me_any m) (me_ext m)) Hs).
            * intros s s' Hs H. cbn [end_] in H. apply some_inj in H. subst s'. exact Hs.
      Qed.
    End Mesh.

    (** ** Objects *)
    Lemma comps_rn r o any kids : Forall (Plain (cn "components")) kids ->
      Rn KComps (cn "components") (flat_map events kids) (VO r (ob_set_comps (Some (mkComps [] any)) o))
        (VO r (ob_set_comps (Some (mkComps (map (fun e => component_of known (fst e)) (elems (cn "component") kids)) any)) o)).
    Proof.
      intros F. apply (rn_container _ _ _ _ _ _ (fun d => VO r (ob_set_comps (Some (mkComps (map (fun e => component_of known (fst e)) (elems (cn "component") d)) any)) o))); [reflexivity| | | |exact F].
      - quiet [cn "component"].
      - ignore.
      - intros D n a kk q _ T (PA & _) _ IN. tak T [cn "component"]. destruct (name_eqb_spec n (cn "component")) as [->|]; [|discriminate]. leaf KComp. fin H L comp_loop.
        rewrite elems_snoc, elem1_same, map_app. cbn [map fst].
        exact (vo_upd _ _ _ (fun o => ob_set_comps (match ob_comps o with Some cs => Some (mkComps (cs_list cs ++ [component_of known a]) (cs_any cs)) | None => None end) o) Hs).
    Qed.
    Notation object_of := (S_Meaning.object_of known later ps).
    Lemma obj_rn r a kids : Forall (Plain (cn "object")) kids -> Singles kids ->
      Rn KObj (cn "object") (flat_map events kids) (VO r (object_of (a, []))) (VO r (object_of (a, kids))).
    Proof.
      intros F SG. apply (rn_container _ _ _ _ _ _ (fun d => VO r (object_of (a, d)))); [reflexivity| | | |exact F].
      - quiet [cn "metadatagroup"; cn "mesh"; cn "components"].
      - intros D t s T Hs. unfold S_Meaning.object_of in *. cbn [fst snd] in *. rewrite !the_other by (eapply not_taken; [| |exact T]; [reflexivity|inn]). exact Hs.
      - intros D n b kk q E T PA SI IN. tak T [cn "metadatagroup"; cn "mesh"; cn "components"].
        destruct (name_eqb_spec n (cn "metadatagroup")) as [->|]; [|destruct (name_eqb_spec n (cn "mesh")) as [->|]; [|destruct (name_eqb_spec n (cn "components")) as [->|]; [|discriminate]]].
        + pose proof (single_none (cn "metadatagroup") _ _ _ _ _ SG ltac:(inn) E) as N.
          replace (object_of (a, D ++ [XElem (cn "metadatagroup") b kk])) with (ob_set_md (metadata_group_of known ps (b, kk)) (object_of (a, D)))
            by (unfold S_Meaning.object_of, ob_set_md; cbn [fst snd ob_id ob_name ob_part ob_thumb ob_pid ob_pindex ob_type ob_md ob_mesh ob_comps ob_any];
                rewrite the_first by exact N; rewrite !the_other by (apply elem1_other; discriminate); reflexivity).
          eapply rn_conseq; [| |eapply (group_rn (mo_exts M0) ps HP MObj (fun g => VO r (ob_set_md g (object_of (a, D)))))].
          * intros s Hs. replace (ob_set_md mg_zero (object_of (a, D))) with (object_of (a, D)); [exact Hs|]. unfold S_Meaning.object_of, ob_set_md. cbn [fst snd]. rewrite (the_none (cn "metadatagroup") D _ _ N). reflexivity.
          * intros s Hs. exact Hs.
          * intros g s (Hs & _). rewrite Hs. apply rset_exts.
          * intros g s v Hs. exact Hs.
          * intros g s Hs. cbn [get_mg]. rewrite (vo_get _ _ _ _ _ Hs). reflexivity.
          * intros g g' s Hs. exact (vo_upd _ _ _ (ob_set_md g') Hs).
          * intros g s x Hs. exact (vo_upd _ _ _ (fun o => ob_set_md (mkMG (mg_list (ob_md o) ++ [x]) (mg_any (ob_md o))) o) Hs).
          * reflexivity.
          * intros s Hs. eexists. reflexivity.
          * exact PA.
          * exact IN.
        + pose proof (single_none (cn "mesh") _ _ _ _ _ SG ltac:(inn) E) as N.
          replace (object_of (a, D ++ [XElem (cn "mesh") b kk])) with (ob_set_mesh (Some (S_Meaning.mesh_of known later (ob_pid (object_of (a, D))) (ob_pindex (object_of (a, D))) (b, kk))) (object_of (a, D)))
            by (unfold S_Meaning.object_of, ob_set_mesh; cbn [fst snd ob_id ob_name ob_part ob_thumb ob_pid ob_pindex ob_type ob_md ob_mesh ob_comps ob_any];
                rewrite the_first by exact N; rewrite !the_other by (apply elem1_other; discriminate); reflexivity).
          destruct PA as (PA & _). cbn [events]. eapply rn_elem with (k' := KMesh); [reflexivity| |apply (mesh_rn r (object_of (a, D)) b); [eapply inside_core; [reflexivity|discriminate|exact IN]|exact SI]|].
          * intros s Hs. eexists _, _. split; [reflexivity|]. intros s2 H. cbn [M_Decode.start] in H. grp H L.
            exact (vo_upd _ _ _ (ob_set_mesh (Some (mkMesh [] [] [] [] (groups known "mesh" b) []))) Hs).
          * intros s s' Hs H. cbn [end_] in H. apply some_inj in H. subst s'. exact Hs.
        + pose proof (single_none (cn "components") _ _ _ _ _ SG ltac:(inn) E) as N.
          replace (object_of (a, D ++ [XElem (cn "components") b kk])) with (ob_set_comps (Some (components_of known (b, kk))) (object_of (a, D)))
            by (unfold S_Meaning.object_of, ob_set_comps; cbn [fst snd ob_id ob_name ob_part ob_thumb ob_pid ob_pindex ob_type ob_md ob_mesh ob_comps ob_any];
                rewrite the_first by exact N; rewrite !the_other by (apply elem1_other; discriminate); reflexivity).
          destruct PA as (PA & _). cbn [events]. eapply rn_elem with (k' := KComps); [reflexivity| |apply (comps_rn r (object_of (a, D)) (groups known "components" b)); eapply inside_core; [reflexivity|discriminate|exact IN]|].
          * intros s Hs. eexists _, _. split; [reflexivity|]. intros s2 H. cbn [M_Decode.start] in H. grp H L.
            exact (vo_upd _ _ _ (ob_set_comps (Some (mkComps [] (groups known "components" b)))) Hs).
          * intros s s' Hs H. cbn [end_] in H. apply some_inj in H. subst s'. exact Hs.
    Qed.
    Lemma object_rn r a kk : PlainAttrs (cn "object") a -> Singles kk -> Inside known isroot (cn "object") kk ->
      Rn KRes (cn "resources") (events (XElem (cn "object") a kk)) (VR r) (VR (rs_add_object (object_of (a, kk)) r)).
    Proof.
      intros (PA & _) SG IN. cbn [events]. eapply rn_elem with (k' := KObj); [reflexivity| |apply (obj_rn r a); [eapply inside_core; [reflexivity|discriminate|exact IN]|exact SG]|].
      - intros s Hs. exists (zlen (rs_objects r)), (with_obj obj_zero false s). split.
        + cbn [M_Decode.child]. unfold res_child. rewrite (vr_get _ _ HF _ _ Hs). reflexivity.
        + intros s2 H. cbn [M_Decode.start] in H. assert (V : VO r obj_zero (with_obj obj_zero false s)) by (split; [exact Hs|split; reflexivity]).
          rewrite (vo_get _ _ _ _ _ V) in H. fin H L obj_loop. exact (vo_upd _ _ _ (fun _ => obj_attrs reg a) V).
      - intros s s' Hs H. cbn [end_] in H. rewrite (vo_get _ _ _ _ _ Hs) in H. destruct Hs as (Hs & _).
        destruct (vr_upd _ _ HF r (with_obj (object_of (a, kk)) true s) (rs_add_object (object_of (a, kk))) Hs) as (s1 & E1 & E2). rewrite E1 in H. apply some_inj in H. subst s'. exact E2.
    Qed.
    (** ** Assets *)
    Lemma bases_rn r id any kids : Forall (Plain (cn "basematerials")) kids ->
      Rn KBaseMats (cn "basematerials") (flat_map events kids) (VB r (mkBM id [] any)) (VB r (mkBM id (map (fun e => base_of known (fst e)) (elems (cn "base") kids)) any)).
    Proof.
      intros F. apply (rn_container _ _ _ _ _ _ (fun d => VB r (mkBM id (map (fun e => base_of known (fst e)) (elems (cn "base") d)) any))); [reflexivity| | | |exact F].
      - quiet [cn "base"].
      - ignore.
      - intros D n a kk q _ T (PA & _) _ IN. tak T [cn "base"]. destruct (name_eqb_spec n (cn "base")) as [->|]; [|discriminate]. leaf KBase. fin H L base_loop.
        rewrite elems_snoc, elem1_same, map_app. cbn [map fst].
        exact (vb_upd path M0 _ _ _ (fun bm => mkBM (bs_id bm) (bs_mats bm ++ [base_of known a]) (bs_any bm)) Hs).
    Qed.
    Lemma basemats_rn r a kk : PlainAttrs (cn "basematerials") a -> Inside known isroot (cn "basematerials") kk ->
      Rn KRes (cn "resources") (events (XElem (cn "basematerials") a kk)) (VR r) (VR (rs_add_asset (ABase (basematerials_of known a kk)) r)).
    Proof.
      intros (PA & _) IN. cbn [events]. eapply rn_elem with (k' := KBaseMats); [reflexivity| |apply (bases_rn r (uint "id" a) (groups known "basematerials" (foreign a))); eapply inside_core; [reflexivity|discriminate|exact IN]|].
      - intros s Hs. exists (zlen (rs_assets r)), (res_set path r (with_bm bm_zero false s)).
        assert (V0 : VR r (with_bm bm_zero false s)) by exact Hs. split.
        + cbn [M_Decode.child]. unfold res_child. rewrite (vr_get _ _ HF _ _ V0). reflexivity.
        + intros s2 H. cbn [M_Decode.start] in H. assert (V : VB r bm_zero (res_set path r (with_bm bm_zero false s))).
          { split; [apply (vr_set path M0 r), V0|]. rewrite res_set_model. split; reflexivity. }
          rewrite (vb_get _ _ _ _ _ V) in H. fin H L bm_loop. exact (vb_upd path M0 _ _ _ (fun _ => bm_attrs reg a) V).
      - intros s s' Hs H. cbn [end_] in H. rewrite (vb_get _ _ _ _ _ Hs) in H. destruct Hs as (Hs & _).
        match type of H with res_upd _ ?f ?st = _ => destruct (vr_upd _ _ HF r st f Hs) as (s1 & E1 & E2) end. rewrite E1 in H. apply some_inj in H. subst s'. exact E2.
    Qed.
    Definition res_exts : list Name := [mn "colorgroup"; mn "texture2dgroup"; mn "texture2d"; mn "compositematerials"; mn "multiproperties"; sn "slicestack"].
    Lemma res_ext_child n sp : existsb (name_eqb n) res_exts = true -> load reg (nspace n) = Some sp -> exists xk e0, ext_decoder sp (nlocal n) = Some (xk, e0) /\
      forall s r, res_get path s = Some r -> child KRes n s = COk (zlen (rs_assets r)) (KExt LRes xk) (res_set path (rs_add_asset (AExt e0) r) s).
    Proof.
      unfold res_exts. cbn [existsb]. intros H L.
      repeat match type of H with (name_eqb n ?c || _) = true => destruct (name_eqb_spec n c) as [->|_]; [clear H; pose proof (load_ns _ _ _ L) as X; destruct sp; try discriminate X; clear X;
        eexists _, _; (split; [reflexivity|]); intros s r E; cbn [M_Decode.child]; unfold res_child; rewrite L, E; reflexivity|cbn [orb] in H] end; discriminate.
    Qed.
    Lemma asset_ext r n a kk : takes (cn "resources") n = true -> nspace n <> ns_core -> PlainAttrs n a -> Inside known isroot n kk ->
      exists x, asset_of known later (XElem n a kk) = [x] /\ Rn KRes (cn "resources") (events (XElem n a kk)) (VR r) (VR (rs_add_asset x r)).
    Proof.
      intros T NC PA IN. cbn [asset_of]. destruct (seq_spec (nspace n) ns_core) as [|_]; [contradiction|].
      apply keeper_cases in T as [(E & _)|[(_ & K & C)|(_ & K)]]; [contradiction| | |reflexivity]; rewrite K.
      - pose proof (inside_ext _ _ _ _ NC K IN) as F. unfold knownb in K. destruct (load reg (nspace n)) as [sp|] eqn:L; [|discriminate].
        kids_of C (cn "object" :: cn "basematerials" :: res_exts). destruct (name_eqb_spec n (cn "object")) as [->|_]; [contradiction NC; reflexivity|].
        destruct (name_eqb_spec n (cn "basematerials")) as [->|_]; [contradiction NC; reflexivity|].
        destruct (res_ext_child n sp C L) as (xk & e0 & D & Ch).
        destruct (ext_elem reg isroot path later LRes (fun x => VR (rs_add_asset (AExt x) r))) with (n := n) (a := a) (kids := kk) (sp := sp) (xk := xk) (e0 := e0) as (x & E & R);
          [| | | |exact L|exact D|exact PA|exact F|].
        + intros x s Hs. unfold get_ext. rewrite (vr_get _ _ HF _ _ Hs). cbn [rs_add_asset rs_assets]. rewrite last_last. reflexivity.
        + intros x s f Hs. unfold upd_ext. rewrite (vr_get _ _ HF _ _ Hs). cbn [rs_add_asset rs_assets rs_objects rs_any]. rewrite upd_last_snoc. apply (vr_set path M0 _ _ _ Hs).
        + intros x s v Hs. exact Hs.
        + intros x s v Hs. exact Hs.
        + rewrite E. eexists. split; [reflexivity|]. apply R; [reflexivity| |auto]. intros s Hs. eexists _, _. split; [apply Ch, (vr_get _ _ HF _ _ Hs)|apply (vr_set path M0 _ _ _ Hs)].
      - eexists. split; [reflexivity|]. pose proof K as K'. unfold knownb in K. destruct (load reg (nspace n)) as [sp|] eqn:L; [discriminate|]. unfold Inside in IN. rewrite K' in IN.
        destruct (seq_spec (nspace n) ns_core) as [|_]; [contradiction|]. cbn [orb] in IN.
        set (U ts s := VR r s /\ s_unk s = ts /\ s_unk_id s = uint "id" a).
        assert (UA : forall us t s, U us s -> U (us ++ [t]) (append_token path KUnkAsset t s)) by (intros us t s (H1 & H2 & H3); cbn [append_token]; rewrite H2, H3; split; [exact H1|split; reflexivity]).
        cbn [events]. eapply rn_elem with (k' := KUnkAsset); [reflexivity| |apply (rn_keeps _ _ _ _ KUnkAsset n U eq_refl UA kk [TStart n a] IN)|].
        + intros s Hs. assert (V0 : VR r (with_unk [] 0 s)) by exact Hs. exists (zlen (rs_assets r)), (res_set path r (with_unk [] 0 s)). split.
          * cbn [M_Decode.child]. unfold res_child. destruct (seq_spec (nspace n) ns_core); [contradiction|]. rewrite L. rewrite (vr_get _ _ HF _ _ V0). reflexivity.
          * intros s2 H. cbn [M_Decode.start] in H. rewrite res_set_model in H. cbn [with_model with_unk s_unk s_unk_id app] in H.
            assert (V1 : VR r (with_model (rset path r (s_model (with_unk [] 0 s))) (with_unk [] 0 s))) by (rewrite <- res_set_model; apply (vr_set path M0 r), V0).
            unfold U, uint. destruct (first_attr (is_attr "id") a) as [y|] eqn:E; [rewrite (first_some _ _ _ _ _ E)|rewrite (first_none _ _ _ _ E)]; val H; (split; [exact V1|split; reflexivity]).
        + intros s s' (H1 & H2 & H3) H. cbn [end_] in H. rewrite H2, H3 in H. match type of H with res_upd _ ?f ?st = _ => destruct (vr_upd _ _ HF r st f H1) as (s1 & E1 & E2) end.
          rewrite E1 in H. apply some_inj in H. subst s'. exact E2.
    Qed.
    Lemma asset_skip t : match t with XText _ _ => True | XElem n _ _ => takes (cn "resources") n = false /\ misplaced known (cn "resources") n = false end -> asset_of known later t = [].
    Proof.
      intros H. destruct t as [n a kk|]; [|reflexivity]. destruct H as [T Ms]. cbn [asset_of]. destruct (keeper_quiet (cn "resources") n eq_refl T Ms) as [(E & C)|(NC & sp & L & X)].
      - rewrite E, seq_refl. kids_of C (cn "object" :: cn "basematerials" :: res_exts). apply orb_false_elim in C as [_ C]. apply orb_false_elim in C as [C _]. rewrite C. reflexivity.
      - destruct (seq_spec (nspace n) ns_core) as [|_]; [contradiction|]. rewrite (load_known _ _ _ L). unfold misplaced in Ms. rewrite (load_known _ _ _ L) in Ms. change (keeper (cn "resources")) with true in Ms.
        rewrite (ext_of_none n a kk Ms). reflexivity.
    Qed.
    Lemma resources_rn a kids : Forall (Plain (cn "resources")) kids ->
      Rn KRes (cn "resources") (flat_map events kids) (VR (resources_of known later ps (a, []))) (VR (resources_of known later ps (a, kids))).
    Proof.
      intros F. apply (rn_container _ _ _ _ _ _ (fun d => VR (resources_of known later ps (a, d)))); [reflexivity| | | |exact F].
      - intros D d s T Ms V. cbn [M_Decode.child]. unfold res_child. rewrite !(vr_get _ _ HF _ _ V). destruct (keeper_quiet (cn "resources") d eq_refl T Ms) as [(E & C)|(NC & sp & L & X)].
        + rewrite E, seq_refl. kids_of C (cn "object" :: cn "basematerials" :: res_exts). apply orb_false_elim in C as [C1 C]. apply orb_false_elim in C as [C2 _].
          unfold name_eqb in C1, C2. rewrite E in C1, C2. cbn [cn nspace nlocal] in C1, C2. rewrite seq_refl in C1, C2. cbn [andb] in C1, C2. rewrite C1, C2. reflexivity.
        + destruct (seq_spec (nspace d) ns_core); [contradiction|]. rewrite L, X. reflexivity.
      - intros D t s T Hs. unfold resources_of in *. cbn [fst snd] in *. rewrite flat_map_app. cbn [flat_map]. rewrite (asset_skip t T), !elems_snoc. kothers t T. rewrite !app_nil_r. exact Hs.
      - intros D n b kk q E T PA SI IN. unfold resources_of. cbn [fst snd]. rewrite flat_map_app. cbn [flat_map]. rewrite app_nil_r.
        destruct (seq_spec (nspace n) ns_core) as [C|C].
        + apply keeper_cases in T as [(_ & CH)|[(X & _)|(X & _)]]; [|contradiction|contradiction|reflexivity]. kids_of CH (cn "object" :: cn "basematerials" :: res_exts).
          destruct (name_eqb_spec n (cn "object")) as [->|]; [|destruct (name_eqb_spec n (cn "basematerials")) as [->|]].
          * rewrite elems_snoc, elem1_same, map_app. cbn [asset_of]. change (seq (nspace (cn "object")) ns_core) with true. change (name_eqb (cn "object") (cn "basematerials")) with false. cbn iota. rewrite app_nil_r.
            apply (object_rn (mkRes _ _ _)); assumption.
          * rewrite elems_snoc, elem1_other, app_nil_r by discriminate. cbn [asset_of]. change (seq (nspace (cn "basematerials")) ns_core) with true. change (name_eqb (cn "basematerials") (cn "basematerials")) with true. cbn iota.
            apply (basemats_rn (mkRes _ _ _)); assumption.
          * exfalso. unfold res_exts in CH. cbn [existsb orb] in CH. repeat match type of CH with (name_eqb n ?c || _) = true => destruct (name_eqb_spec n c) as [->|_]; [discriminate C|cbn [orb] in CH] end. discriminate CH.
        + rewrite elems_snoc, elem1_other, app_nil_r by (intros ->; apply C; reflexivity).
          destruct (asset_ext (mkRes (flat_map (asset_of known later) D) (map object_of (elems (cn "object") D)) (groups known "resources" a)) n b kk T C PA IN) as (x & -> & R). exact R.
    Qed.
  End Resources.
End Core.
