(** * Proofs: the elements of extensions mean what they say *)
From Coq Require Import ZArith.
From Verif Require Import GoBase GoNum GoUtf8 GoFloat GoStrconv Types XmlTypes M_Core M_Errors M_Text M_Xml M_Decode
  S_Core S_Text S_Errors S_Xml S_Attr S_Meaning P_Core P_Text P_Errors P_Decode P_State P_RTBase P_Attr P_Meaning P_MeaningRun.

Local Notation names := S_Meaning.names.

(** ** Children by name *)
Lemma elems_snoc n d t : elems n (d ++ [t]) = elems n d ++ elem1 n t.
Proof. unfold elems. rewrite flat_map_app. cbn [flat_map]. rewrite app_nil_r. reflexivity. Qed.
Lemma elem1_same n a kids : elem1 n (XElem n a kids) = [(a, kids)].
Proof. unfold elem1. rewrite name_eqb_refl. reflexivity. Qed.
Lemma elem1_other n m a kids : m <> n -> elem1 n (XElem m a kids) = [].
Proof. unfold elem1. intros H. destruct (name_eqb_spec m n); [contradiction|reflexivity]. Qed.
Lemma first_some {A} l a x (f : string -> A) d : first_attr (is_attr l) a = Some x -> get l a f d = f (avalue x).
Proof. intros H. rewrite <- first_get, H. reflexivity. Qed.
Lemma first_none {A} l a (f : string -> A) d : first_attr (is_attr l) a = None -> get l a f d = d.
Proof. intros H. rewrite <- first_get, H. reflexivity. Qed.
Lemma first_given l a : given l a -> exists x, first_attr (is_attr l) a = Some x.
Proof. unfold given. intros H. destruct (first_attr (is_attr l) a) as [x|] eqn:E; [eauto|]. exfalso. pose proof (first_none l a Some None E) as X. unfold get in X. destruct (attr_of _ a); [discriminate|]. contradiction. Qed.
Section Takes.
  Context (known : string -> bool) (isroot : bool).
  Notation Plain := (Plain known isroot).
  Notation takes := (takes known isroot).
  Definition Inside (n : Name) (kids : list XTree) : Prop :=
    if seq (nspace n) ns_core || known (nspace n) then
      if name_eqb n (cn "metadata") then kids = [] \/ exists s r, kids = [XText s r] else Forall (Plain n) kids
    else ~ In n (flat_map names kids).
  Lemma plain_elem p n a kids : Plain p (XElem n a kids) ->
    if takes p n then PlainAttrs n a /\ Singles kids /\ Inside n kids
    else forall d, In d (names (XElem n a kids)) -> takes p d = false /\ d <> p /\ misplaced known p d = false.
  Proof.
    cbn [S_Meaning.Plain]. destruct (takes p n); [|auto]. intros (H1 & H2 & H3). split; [exact H1|]. split; [exact H2|]. unfold Inside. destruct (_ || _); [|exact H3].
    destruct (name_eqb n (cn "metadata")); [exact H3|]. revert H3. generalize kids. clear. induction kids as [|t r IH]; intros H; constructor; [apply H|apply IH, H].
  Qed.
  Lemma takes_plain p d : keeper p = false -> takes p d = existsb (name_eqb d) (children isroot p).
  Proof. intros K. unfold S_Meaning.takes. rewrite K. cbn [negb orb andb]. rewrite andb_true_r, orb_false_r. reflexivity. Qed.
  Lemma inside_ext n kids : nspace n <> ns_core -> known (nspace n) = true -> Inside n kids -> Forall (Plain n) kids.
  Proof.
    unfold Inside. intros N K. rewrite K, orb_true_r. destruct (name_eqb_spec n (cn "metadata")) as [->|_]; [|auto]. contradiction N. reflexivity.
  Qed.
  Lemma inside_core n kids : nspace n = ns_core -> n <> cn "metadata" -> Inside n kids -> Forall (Plain n) kids.
  Proof. unfold Inside. intros N K. rewrite N, seq_refl. cbn [orb]. destruct (name_eqb_spec n (cn "metadata")); [contradiction|auto]. Qed.
End Takes.
Section Containers.
  Context (reg : Reg) (isroot : bool) (path : string) (later : Ref -> string).
  Notation known := (knownb reg).
  Notation Plain := (Plain known isroot).
  Notation takes := (takes known isroot).
  Notation Rn := (Rn reg isroot path later).
  Notation child := (child reg isroot path).
  Notation start := (start reg isroot path).
  Lemma rn_container k nm (I : list XTree -> DSt -> Prop) kids : plain_kind k = true ->
    (forall D d s, takes nm d = false -> misplaced known nm d = false -> I D s -> child k d s = CNil) ->
    (forall D t s, match t with XText _ _ => True | XElem n _ _ => takes nm n = false /\ misplaced known nm n = false end -> I D s -> I (D ++ [t]) s) ->
    (forall D n a kk r, kids = D ++ XElem n a kk :: r -> takes nm n = true -> PlainAttrs n a -> Singles kk -> Inside known isroot n kk ->
      Rn k nm (events (XElem n a kk)) (I D) (I (D ++ [XElem n a kk]))) ->
    Forall (Plain nm) kids -> Rn k nm (flat_map events kids) (I []) (I kids).
  Proof.
    intros K HQ HI HE F. apply rn_kids. intros D t r E. assert (Pt : Plain nm t) by (rewrite Forall_forall in F; apply F; rewrite E; apply in_elt).
    destruct t as [n a kk|s0 r0].
    - apply plain_elem in Pt. destruct (takes nm n) eqn:T.
      + destruct Pt as (P1 & P2 & P3). apply (HE D n a kk r E T P1 P2 P3).
      + eapply rn_conseq; [intros s Hs; exact Hs| |apply (rn_skip _ _ _ _ _ _ (I D)); [exact K|]].
        * intros s Hs. apply HI; [split; [exact T|]|exact Hs]. destruct (Pt n (or_introl eq_refl)) as (_ & _ & Q). exact Q.
        * intros d Hd. destruct (Pt d Hd) as (Q1 & Q2 & Q3). split; [exact Q2|]. right. intros s Hs. apply (HQ D d s Q1 Q3 Hs).
    - eapply rn_conseq; [intros s Hs; exact Hs| |apply (rn_text _ _ _ _ _ _ _ _ (I D)); exact K]. intros s Hs. apply HI; [exact Logic.I|exact Hs].
  Qed.
  Lemma rn_inert k nm (P : DSt -> Prop) kids : plain_kind k = true -> has_child k = false -> keeper nm = false -> children isroot nm = [] ->
    Forall (Plain nm) kids -> Rn k nm (flat_map events kids) P P.
  Proof.
    intros K HC KN HN F. apply (rn_kids _ _ _ _ _ _ (fun _ => P)). intros D t r E. assert (Pt : Plain nm t) by (rewrite Forall_forall in F; apply F; rewrite E; apply in_elt).
    apply rn_skip; [exact K|]. destruct t as [n a kk|s0 r0]; [|intros d []]. apply plain_elem in Pt. rewrite takes_plain, HN in Pt by exact KN. cbn [existsb] in Pt.
    intros d Hd. destruct (Pt d Hd) as (_ & Q & _). split; [exact Q|]. left. exact HC.
  Qed.
  Lemma rn_leaf k k' nm n a kids (P Q : DSt -> Prop) : has_child k = true -> plain_kind k' = true -> has_child k' = false -> keeper n = false -> children isroot n = [] ->
    Forall (Plain n) kids -> (forall s, end_ path k' n s = Some s) ->
    (forall s, P s -> exists i s1, child k n s = COk i k' s1 /\ forall s2, start k' n a s1 = Some (s2, None) -> Q s2) ->
    Rn k nm (events (XElem n a kids)) P Q.
  Proof.
    intros HC K HC' KN HN F HE HS. cbn [events]. apply (rn_elem _ _ _ _ k k' nm n a _ P Q Q); [exact HC|exact HS|apply rn_inert; assumption|].
    intros s s' Hs E. rewrite HE in E. injection E as <-. exact Hs.
  Qed.
End Containers.

Section Ext.
  Context (reg : Reg) (isroot : bool) (path : string) (later : Ref -> string) (l : loc) (PE : ExtElem -> DSt -> Prop).
  Context (pe_get : forall x s, PE x s -> get_ext path l s = Some x).
  Context (pe_upd : forall x s f, PE x s -> PE (f x) (upd_ext path l f s)).
  Context (pe_slice : forall x s v, PE x s -> PE x (with_slice v s)).
  Context (pe_set : forall x s v, PE x s -> PE x (with_set v s)).
  Notation known := (knownb reg).
  Notation Plain := (Plain known isroot).
  Notation takes := (takes known isroot).
  Notation Rn := (Rn reg isroot path later).
  Notation child := (child reg isroot path).
  Notation start := (start reg isroot path).
  Lemma not_taken nm c t : keeper nm = false -> In c (children isroot nm) -> match t with XText _ _ => True | XElem n _ _ => takes nm n = false /\ misplaced known nm n = false end -> elem1 c t = [].
  Proof.
    intros K I H. destruct t as [n a kk|s r]; [|reflexivity]. apply elem1_other. intros ->. destruct H as [H _]. rewrite takes_plain in H by exact K.
    assert (X : existsb (name_eqb c) (children isroot nm) = true); [|congruence]. apply existsb_exists. exists c. split; [exact I|apply name_eqb_refl].
  Qed.
  Ltac inn := destruct isroot; vm_compute; repeat (first [left; reflexivity|right]).
  Ltac ignore := intros D t s T Hs; rewrite ?elems_snoc;
    repeat match goal with |- context [elem1 ?c t] => replace (elem1 c t) with (@nil (list Attr * list XTree)) by (symmetry; eapply not_taken; [| |exact T]; [reflexivity|inn]) end;
    rewrite ?app_nil_r; exact Hs.
  Ltac tak T L := rewrite takes_plain in T by reflexivity; match type of T with context [children isroot ?n] => replace (children isroot n) with L in T by (destruct isroot; reflexivity) end; cbn [existsb] in T.
  Ltac quiet L := intros D d s T _ _; tak T L; repeat (let H := fresh "H" in apply orb_false_elim in T as [H T]);
    unfold name_eqb in *; cbn [nspace nlocal mn sn bn] in *; cbn [M_Decode.child ext_child];
    repeat match goal with H : _ && _ = false |- _ => rewrite H; clear H end; reflexivity.
  Ltac fin H L lem := match type of H with context [attrs_loop ?f ?x ?er ?a] => destruct (attrs_loop f x er a) as [[? ?]|] eqn:L; [|discriminate H] end;
    apply pair_inv in H as [-> ->]; apply lem in L; [|assumption..]; subst.
  Ltac leaf K := apply rn_leaf with (k' := K); try reflexivity; [destruct isroot; reflexivity|eapply inside_ext; [|eassumption|eassumption]; discriminate|];
    let s := fresh "s" in intros s Hs; eexists _, _; split; [reflexivity|]; let H := fresh "H" in intros s2 H; cbn [M_Decode.start ext_start] in H.

  (** *** Materials *)
  Lemma colors_rn id kids : known ns_materials = true -> Forall (Plain (mn "colorgroup")) kids ->
    Rn (KExt l XkColorGroup) (mn "colorgroup") (flat_map events kids) (PE (XColorGroup (mkCG id [])))
      (PE (XColorGroup (mkCG id (map (fun e => get "color" (fst e) colour_of (mkRGBA 0 0 0 0)) (elems (mn "color") kids))))).
  Proof.
    intros HK. apply (rn_container _ _ _ _ _ _ (fun d => PE (XColorGroup (mkCG id (map (fun e => get "color" (fst e) colour_of (mkRGBA 0 0 0 0)) (elems (mn "color") d)))))); [reflexivity| | |].
    - quiet [mn "color"].
    - ignore.
    - intros D n a kk r _ T (PA & _ & PC & _) _ IN. tak T [mn "color"]. destruct (name_eqb_spec n (mn "color")) as [->|]; [|discriminate]. leaf (KExt l XkColor).
      destruct (first_given _ _ (PC eq_refl)) as (x & Ex). rewrite Ex in H. val H. rewrite elems_snoc, elem1_same, map_app. cbn [map fst]. rewrite (first_some _ _ _ _ _ Ex).
      exact (pe_upd _ _ (on_color (fun g => mkCG (cg_id g) (cg_colors g ++ [colour_of (avalue x)]))) Hs).
  Qed.
  Lemma coords_rn id tex kids : known ns_materials = true -> Forall (Plain (mn "texture2dgroup")) kids ->
    Rn (KExt l XkTexGroup) (mn "texture2dgroup") (flat_map events kids) (PE (XTex2DGroup (mkTG id tex [])))
      (PE (XTex2DGroup (mkTG id tex (map (fun e => (num "u" (fst e), num "v" (fst e))) (elems (mn "tex2coord") kids))))).
  Proof.
    intros HK. apply (rn_container _ _ _ _ _ _ (fun d => PE (XTex2DGroup (mkTG id tex (map (fun e => (num "u" (fst e), num "v" (fst e))) (elems (mn "tex2coord") d)))))); [reflexivity| | |].
    - quiet [mn "tex2coord"].
    - ignore.
    - intros D n a kk r _ T (PA & _) _ IN. tak T [mn "tex2coord"]. destruct (name_eqb_spec n (mn "tex2coord")) as [->|]; [|discriminate]. leaf (KExt l XkCoord).
      fin H L coord_loop. rewrite elems_snoc, elem1_same, map_app. cbn [map fst].
      exact (pe_upd _ _ (on_texg (fun g => mkTG (tg_id g) (tg_tex g) (tg_coords g ++ [(num "u" a, num "v" a)]))) Hs).
  Qed.
  Lemma composites_rn id mat ix kids : known ns_materials = true -> Forall (Plain (mn "compositematerials")) kids ->
    Rn (KExt l XkComposites) (mn "compositematerials") (flat_map events kids) (PE (XComposite (mkCM id mat ix [])))
      (PE (XComposite (mkCM id mat ix (map (fun e => get "values" (fst e) nums_of []) (elems (mn "composite") kids))))).
  Proof.
    intros HK. apply (rn_container _ _ _ _ _ _ (fun d => PE (XComposite (mkCM id mat ix (map (fun e => get "values" (fst e) nums_of []) (elems (mn "composite") d)))))); [reflexivity| | |].
    - quiet [mn "composite"].
    - ignore.
    - intros D n a kk r _ T (PA & _) _ IN. tak T [mn "composite"]. destruct (name_eqb_spec n (mn "composite")) as [->|]; [|discriminate]. leaf (KExt l XkComposite).
      fin H L composite_loop. rewrite elems_snoc, elem1_same, map_app. cbn [map fst].
      exact (pe_upd _ _ (on_comp (fun g => mkCM (cm_id g) (cm_mat g) (cm_indices g) (cm_comps g ++ [get "values" a nums_of []]))) Hs).
  Qed.
  Lemma multis_rn id pids bl kids : known ns_materials = true -> Forall (Plain (mn "multiproperties")) kids ->
    Rn (KExt l XkMultis) (mn "multiproperties") (flat_map events kids) (PE (XMulti (mkMP id pids bl [])))
      (PE (XMulti (mkMP id pids bl (map (fun e => get "pindices" (fst e) uints_of []) (elems (mn "multi") kids))))).
  Proof.
    intros HK. apply (rn_container _ _ _ _ _ _ (fun d => PE (XMulti (mkMP id pids bl (map (fun e => get "pindices" (fst e) uints_of []) (elems (mn "multi") d)))))); [reflexivity| | |].
    - quiet [mn "multi"].
    - ignore.
    - intros D n a kk r _ T (PA & _) _ IN. tak T [mn "multi"]. destruct (name_eqb_spec n (mn "multi")) as [->|]; [|discriminate]. leaf (KExt l XkMulti).
      fin H L multi_loop. rewrite elems_snoc, elem1_same, map_app. cbn [map fst].
      exact (pe_upd _ _ (on_multi (fun g => mkMP (mp_id g) (mp_pids g) (mp_blend g) (mp_multis g ++ [get "pindices" a uints_of []]))) Hs).
  Qed.

  (** *** Slices *)
  Definition PS (x : ExtElem) (sl : Slice) (s : DSt) : Prop := PE x s /\ s_slice s = sl.
  Definition PT (x : ExtElem) (b : BeamSet) (s : DSt) : Prop := PE x s /\ s_set s = b.
  Lemma ps_upd x sl s f : PS x sl s -> PS x (f sl) (with_slice (f (s_slice s)) s).
  Proof. intros (H & <-). split; [apply pe_slice, H|reflexivity]. Qed.
  Lemma pt_upd x b s f : PT x b s -> PT x (f b) (with_set (f (s_set s)) s).
  Proof. intros (H & <-). split; [apply pe_set, H|reflexivity]. Qed.
  Lemma sverts_rn x top vs ps kids : known ns_slices = true -> Forall (Plain (sn "vertices")) kids ->
    Rn (KExt l XkSVerts) (sn "vertices") (flat_map events kids) (PS x (mkSlice top vs ps))
      (PS x (mkSlice top (vs ++ map (fun e => P2 (num "x" (fst e)) (num "y" (fst e))) (elems (sn "vertex") kids)) ps)).
  Proof.
    intros HK F. eapply rn_conseq; [|intros s Hs; exact Hs|].
    2: { apply (rn_container _ _ _ _ _ _ (fun d => PS x (mkSlice top (vs ++ map (fun e => P2 (num "x" (fst e)) (num "y" (fst e))) (elems (sn "vertex") d)) ps))); [reflexivity| | | |exact F].
      - quiet [sn "vertex"].
      - ignore.
      - intros D n a kk r _ T (PA & PB & _) _ IN. tak T [sn "vertex"]. destruct (name_eqb_spec n (sn "vertex")) as [->|]; [|discriminate]. specialize (PB eq_refl). leaf (KExt l XkSVert).
        fin H L svert_loop. rewrite elems_snoc, elem1_same, map_app, app_assoc. cbn [map fst].
        exact (ps_upd _ _ _ (fun sl => mkSlice (sl_top sl) (sl_verts sl ++ [P2 (num "x" a) (num "y" a)]) (sl_polys sl)) Hs). }
    intros s Hs. cbn [elems flat_map map]. rewrite app_nil_r. exact Hs.
  Qed.
  Lemma segs_rn x top vs ps st kids : known ns_slices = true -> Forall (Plain (sn "polygon")) kids ->
    Rn (KExt l XkPoly) (sn "polygon") (flat_map events kids) (PS x (mkSlice top vs (ps ++ [mkPoly st []])))
      (PS x (mkSlice top vs (ps ++ [mkPoly st (map (fun e => segment_of (fst e)) (elems (sn "segment") kids))]))).
  Proof.
    intros HK F. apply (rn_container _ _ _ _ _ _ (fun d => PS x (mkSlice top vs (ps ++ [mkPoly st (map (fun e => segment_of (fst e)) (elems (sn "segment") d))])))); [reflexivity| | | |exact F].
    - quiet [sn "segment"].
    - ignore.
    - intros D n a kk r _ T (PA & PB & _) _ IN. tak T [sn "segment"]. destruct (name_eqb_spec n (sn "segment")) as [->|]; [|discriminate]. specialize (PB eq_refl). leaf (KExt l XkSeg).
      match type of H with context [attrs_loop ?f ?x ?er ?a] => destruct (attrs_loop f x er a) as [[g ?]|] eqn:L; [|discriminate H] end.
      apply pair_inv in H as [-> ->]; apply seg_loop in L; [|assumption..]. rewrite L. rewrite elems_snoc, elem1_same, map_app. cbn [map fst].
      apply (ps_upd _ _ _ (fun sl => mkSlice (sl_top sl) (sl_verts sl) (upd_last (fun p => mkPoly (pg_start p) (pg_segs p ++ [segment_of a])) (sl_polys sl)))) in Hs.
      cbn [sl_top sl_verts sl_polys] in Hs. rewrite upd_last_snoc in Hs. exact Hs.
  Qed.
  Lemma slice_rn x top kids : known ns_slices = true -> Forall (Plain (sn "slice")) kids ->
    Rn (KExt l XkSlice) (sn "slice") (flat_map events kids) (PS x (mkSlice top [] []))
      (PS x (mkSlice top (flat_map (fun e => map (fun e => P2 (num "x" (fst e)) (num "y" (fst e))) (elems (sn "vertex") (snd e))) (elems (sn "vertices") kids))
               (map polygon_of (elems (sn "polygon") kids)))).
  Proof.
    intros HK F. apply (rn_container _ _ _ _ _ _ (fun d => PS x (mkSlice top (flat_map (fun e => map (fun e => P2 (num "x" (fst e)) (num "y" (fst e))) (elems (sn "vertex") (snd e))) (elems (sn "vertices") d))
               (map polygon_of (elems (sn "polygon") d))))); [reflexivity| | | |exact F].
    - quiet [sn "vertices"; sn "polygon"].
    - ignore.
    - intros D n a kk r _ T (PA & PB & _) _ IN. tak T [sn "vertices"; sn "polygon"]. rewrite !elems_snoc.
      destruct (name_eqb_spec n (sn "vertices")) as [->|]; [|destruct (name_eqb_spec n (sn "polygon")) as [->|]; [|discriminate]].
      + rewrite elem1_same, elem1_other by discriminate. rewrite app_nil_r, flat_map_app. cbn [flat_map snd]. rewrite app_nil_r.
        cbn [events]. eapply rn_elem with (k' := KExt l XkSVerts); [reflexivity| |apply sverts_rn; [exact HK|eapply inside_ext; [discriminate|exact HK|exact IN]]|].
        * intros s Hs. eexists _, _. split; [reflexivity|]. intros s2 [= <-]. exact Hs.
        * intros s s' Hs [= <-]. exact Hs.
      + rewrite elem1_same, elem1_other by discriminate. rewrite app_nil_r, map_app. cbn [map]. unfold polygon_of at 3. cbn [fst snd].
        cbn [events]. eapply rn_elem with (k' := KExt l XkPoly); [reflexivity| |apply (segs_rn x top (flat_map (fun e => map (fun e => P2 (num "x" (fst e)) (num "y" (fst e))) (elems (sn "vertex") (snd e))) (elems (sn "vertices") D)) (map polygon_of (elems (sn "polygon") D)) (uint "startv" a)); [exact HK|eapply inside_ext; [discriminate|exact HK|exact IN]]|].
        * intros s Hs. eexists _, _. split; [reflexivity|]. intros s2 H. cbn [M_Decode.start ext_start] in H. specialize (PB eq_refl). rewrite (first_local "startv" a PB) in H. unfold uint.
          destruct (first_attr (is_attr "startv") a) as [y|] eqn:E; [rewrite (first_some _ _ _ _ _ E)|rewrite (first_none _ _ _ _ E)]; val H;
            match goal with |- context [mkPoly ?v []] => exact (ps_upd _ _ _ (fun sl => mkSlice (sl_top sl) (sl_verts sl) (sl_polys sl ++ [mkPoly v []])) Hs) end.
        * intros s s' Hs [= <-]. exact Hs.
  Qed.
  Lemma stack_rn id bot kids : known ns_slices = true -> Forall (Plain (sn "slicestack")) kids ->
    Rn (KExt l XkStack) (sn "slicestack") (flat_map events kids) (PE (XSliceStack (mkSS id bot [] [])))
      (PE (XSliceStack (mkSS id bot (map slice_of (elems (sn "slice") kids))
         (map (fun e => mkSRef (uint "slicestackid" (fst e)) (str "slicepath" (fst e))) (elems (sn "sliceref") kids))))).
  Proof.
    intros HK F. apply (rn_container _ _ _ _ _ _ (fun d => PE (XSliceStack (mkSS id bot (map slice_of (elems (sn "slice") d))
         (map (fun e => mkSRef (uint "slicestackid" (fst e)) (str "slicepath" (fst e))) (elems (sn "sliceref") d)))))); [reflexivity| | | |exact F].
    - quiet [sn "slice"; sn "sliceref"].
    - ignore.
    - intros D n a kk r _ T (PA & PB & _) _ IN. tak T [sn "slice"; sn "sliceref"]. rewrite !elems_snoc.
      destruct (name_eqb_spec n (sn "slice")) as [->|]; [|destruct (name_eqb_spec n (sn "sliceref")) as [->|]; [|discriminate]]; specialize (PB eq_refl).
      + rewrite elem1_same, elem1_other by discriminate. rewrite app_nil_r, map_app. cbn [map]. unfold slice_of at 3. cbn [fst snd].
        cbn [events]. eapply rn_elem with (k' := KExt l XkSlice); [reflexivity| |eapply (slice_rn _ (num "ztop" a)); [exact HK|eapply inside_ext; [discriminate|exact HK|exact IN]]|].
        * intros s Hs. eexists _, _. split; [reflexivity|]. intros s2 H. cbn [M_Decode.start ext_start] in H. rewrite (first_local "ztop" a PB) in H. unfold num.
          assert (V : PS _ slice_zero (with_slice slice_zero s)) by (split; [apply pe_slice; exact Hs|reflexivity]).
          destruct (first_attr (is_attr "ztop") a) as [y|] eqn:E; [rewrite (first_some _ _ _ _ _ E)|rewrite (first_none _ _ _ _ E)]; val H; [|exact V].
          exact (ps_upd _ _ _ (fun sl => mkSlice (num_of (avalue y)) (sl_verts sl) (sl_polys sl)) V).
        * intros s s' (Hs & Hl) H. cbn [end_] in H. apply some_inj in H. subst s'. rewrite Hl.
          exact (pe_upd _ _ (on_stack (fun g => mkSS (ss_id g) (ss_bottom g) (ss_slices g ++ [slice_of (a, kk)]) (ss_refs g))) Hs).
      + rewrite elem1_same, elem1_other by discriminate. rewrite app_nil_r, map_app. cbn [map fst]. leaf (KExt l XkSliceRef). fin H L sliceref_loop.
        exact (pe_upd _ _ (on_stack (fun g => mkSS (ss_id g) (ss_bottom g) (ss_slices g) (ss_refs g ++ [mkSRef (uint "slicestackid" a) (str "slicepath" a)]))) Hs).
  Qed.

  (** *** Beam lattices *)
  Lemma beams_rn g kids : known ns_beam = true -> Forall (Plain (bn "beams")) kids ->
    Rn (KExt l XkBeams) (bn "beams") (flat_map events kids) (PE (XBeamLattice g))
      (PE (XBeamLattice (mkBL (bl_clip g) (bl_clipmesh g) (bl_repmesh g)
         (bl_beams g ++ map (fun e => S_Meaning.beam_of (bl_radius g) (bl_cap g) (fst e)) (elems (bn "beam") kids)) (bl_sets g) (bl_minlen g) (bl_radius g) (bl_cap g)))).
  Proof.
    intros HK F. eapply rn_conseq; [|intros s Hs; exact Hs|].
    2: { apply (rn_container _ _ _ _ _ _ (fun d => PE (XBeamLattice (mkBL (bl_clip g) (bl_clipmesh g) (bl_repmesh g)
         (bl_beams g ++ map (fun e => S_Meaning.beam_of (bl_radius g) (bl_cap g) (fst e)) (elems (bn "beam") d)) (bl_sets g) (bl_minlen g) (bl_radius g) (bl_cap g))))); [reflexivity| | | |exact F].
      - quiet [bn "beam"].
      - ignore.
      - intros D n a kk r _ T (PA & _) _ IN. tak T [bn "beam"]. destruct (name_eqb_spec n (bn "beam")) as [->|]; [|discriminate]. leaf (KExt l XkBeam).
        match type of H with context [attrs_loop ?f ?x ?er ?a] => destruct (attrs_loop f x er a) as [[b ?]|] eqn:L; [|discriminate H] end.
        apply pair_inv in H as [-> ->]. pose proof (fun g => beam_loop g _ _ PA L) as B. rewrite elems_snoc, elem1_same, map_app, app_assoc. cbn [map fst].
        apply (pe_upd _ _ (on_lattice (fun g => mkBL (bl_clip g) (bl_clipmesh g) (bl_repmesh g) (bl_beams g ++ [M_Decode.beam_of g b]) (bl_sets g) (bl_minlen g) (bl_radius g) (bl_cap g)))) in Hs.
        cbn [on_lattice bl_clip bl_clipmesh bl_repmesh bl_beams bl_sets bl_minlen bl_radius bl_cap] in Hs. rewrite B in Hs. exact Hs. }
    intros s Hs. cbn [elems flat_map map]. rewrite app_nil_r. destruct g; exact Hs.
  Qed.
  Lemma refs_rn x rs nm id kids : known ns_beam = true -> Forall (Plain (bn "beamset")) kids ->
    Rn (KExt l XkSet) (bn "beamset") (flat_map events kids) (PT x (mkBS rs nm id)) (PT x (mkBS (rs ++ map (fun e => uint "index" (fst e)) (elems (bn "ref") kids)) nm id)).
  Proof.
    intros HK F. eapply rn_conseq; [|intros s Hs; exact Hs|].
    2: { apply (rn_container _ _ _ _ _ _ (fun d => PT x (mkBS (rs ++ map (fun e => uint "index" (fst e)) (elems (bn "ref") d)) nm id))); [reflexivity| | | |exact F].
      - quiet [bn "ref"].
      - ignore.
      - intros D n a kk r _ T (PA & _) _ IN. tak T [bn "ref"]. destruct (name_eqb_spec n (bn "ref")) as [->|]; [|discriminate]. leaf (KExt l XkRef).
        rewrite elems_snoc, elem1_same, map_app, app_assoc. cbn [map fst]. unfold uint at 2.
        destruct (first_attr (is_attr "index") a) as [y|] eqn:E; [rewrite (first_some _ _ _ _ _ E)|rewrite (first_none _ _ _ _ E)]; val H;
          match goal with |- context [mkBS (_ ++ [?v]) _ _] => exact (pt_upd _ _ _ (fun b => mkBS (bs_refs b ++ [v]) (bs_name b) (bs_ident b)) Hs) end. }
    intros s Hs. cbn [elems flat_map map]. rewrite app_nil_r. exact Hs.
  Qed.
  Lemma sets_rn g kids : known ns_beam = true -> Forall (Plain (bn "beamsets")) kids ->
    Rn (KExt l XkSets) (bn "beamsets") (flat_map events kids) (PE (XBeamLattice g))
      (PE (XBeamLattice (mkBL (bl_clip g) (bl_clipmesh g) (bl_repmesh g) (bl_beams g)
         (bl_sets g ++ map set_of (elems (bn "beamset") kids)) (bl_minlen g) (bl_radius g) (bl_cap g)))).
  Proof.
    intros HK F. eapply rn_conseq; [|intros s Hs; exact Hs|].
    2: { apply (rn_container _ _ _ _ _ _ (fun d => PE (XBeamLattice (mkBL (bl_clip g) (bl_clipmesh g) (bl_repmesh g) (bl_beams g)
         (bl_sets g ++ map set_of (elems (bn "beamset") d)) (bl_minlen g) (bl_radius g) (bl_cap g))))); [reflexivity| | | |exact F].
      - quiet [bn "beamset"].
      - ignore.
      - intros D n a kk r _ T (PA & _) _ IN. tak T [bn "beamset"]. destruct (name_eqb_spec n (bn "beamset")) as [->|]; [|discriminate].
        rewrite elems_snoc, elem1_same, map_app, app_assoc. cbn [map]. unfold set_of at 3. cbn [fst snd events].
        eapply rn_elem with (k' := KExt l XkSet); [reflexivity| |eapply (refs_rn _ [] (str "name" a) (str "identifier" a)); [exact HK|eapply inside_ext; [discriminate|exact HK|exact IN]]|].
        + intros s Hs. eexists _, _. split; [reflexivity|]. intros s2 H. cbn [M_Decode.start ext_start] in H. apply pair_inv in H as [-> _]. cbn [s_set with_set]. rewrite (set_loop a PA).
          split; [apply pe_set, pe_set; exact Hs|reflexivity].
        + intros s s' (Hs & Hl) H. cbn [end_] in H. apply some_inj in H. subst s'. rewrite Hl.
          exact (pe_upd _ _ (on_lattice (fun g => mkBL (bl_clip g) (bl_clipmesh g) (bl_repmesh g) (bl_beams g) (bl_sets g ++ [set_of (a, kk)]) (bl_minlen g) (bl_radius g) (bl_cap g))) Hs). }
    intros s Hs. cbn [elems flat_map map]. rewrite app_nil_r. destruct g; exact Hs.
  Qed.
  Lemma lattice_rn a kids : known ns_beam = true -> Forall (Plain (bn "beamlattice")) kids ->
    Rn (KExt l XkLattice) (bn "beamlattice") (flat_map events kids) (PE (XBeamLattice (lattice_attrs a))) (PE (XBeamLattice (lattice_of a kids))).
  Proof.
    intros HK F. apply (rn_container _ _ _ _ _ _ (fun d => PE (XBeamLattice (lattice_of a d)))); [reflexivity| | | |exact F].
    - quiet [bn "beams"; bn "beamsets"].
    - unfold lattice_of. ignore.
    - intros D n b kk r _ T (PA & PB & _) _ IN. tak T [bn "beams"; bn "beamsets"]. unfold lattice_of. rewrite !elems_snoc.
      destruct (name_eqb_spec n (bn "beams")) as [->|]; [|destruct (name_eqb_spec n (bn "beamsets")) as [->|]; [|discriminate]].
      + rewrite elem1_same, elem1_other by discriminate. rewrite app_nil_r, flat_map_app. cbn [flat_map snd]. rewrite app_nil_r. cbn [events].
        eapply rn_elem with (k' := KExt l XkBeams); [reflexivity| |apply (beams_rn (lattice_of a D)); [exact HK|eapply inside_ext; [discriminate|exact HK|exact IN]]|].
        * intros s Hs. eexists _, _. split; [reflexivity|]. intros s2 [= <-]. exact Hs.
        * intros s s' Hs [= <-]. exact Hs.
      + rewrite elem1_same, elem1_other by discriminate. rewrite app_nil_r, flat_map_app. cbn [flat_map snd]. rewrite app_nil_r. cbn [events].
        eapply rn_elem with (k' := KExt l XkSets); [reflexivity| |apply (sets_rn (lattice_of a D)); [exact HK|eapply inside_ext; [discriminate|exact HK|exact IN]]|].
        * intros s Hs. eexists _, _. split; [reflexivity|]. intros s2 [= <-]. exact Hs.
        * intros s s' Hs [= <-]. exact Hs.
  Qed.

  (** *** An element of an extension *)
  Lemma load_ns ns sp : load reg ns = Some sp -> ns = match sp with SpMat => ns_materials | SpProd => ns_production | SpSlices => ns_slices | SpBeam => ns_beam end.
  Proof.
    unfold load. destruct (seq_spec ns ns_materials) as [->|_]; [destruct (rg_mat reg); [intros [= <-]; reflexivity|discriminate]|].
    destruct (seq_spec ns ns_production) as [->|_]; [destruct (rg_prod reg); [intros [= <-]; reflexivity|discriminate]|].
    destruct (seq_spec ns ns_slices) as [->|_]; [destruct (rg_slices reg); [intros [= <-]; reflexivity|discriminate]|].
    destruct (seq_spec ns ns_beam) as [->|_]; [destruct (rg_beam reg); [intros [= <-]; reflexivity|discriminate]|discriminate].
  Qed.
  Lemma load_known ns sp : load reg ns = Some sp -> known ns = true.
  Proof. unfold knownb. intros ->. reflexivity. Qed.
  Lemma once_plain a : (~ (given "minlength" a /\ given "precision" a) /\ ~ (given "clippingmode" a /\ given "clipping" a)) -> once a.
  Proof.
    assert (G : forall c, has c a = true -> given c a) by (intros c; unfold has, get, given; destruct (attr_of _ a); [discriminate|intros [=]]).
    intros [H1 H2]. split; apply andb_false_iff; [destruct (has "minlength" a) eqn:E1, (has "precision" a) eqn:E2|destruct (has "clippingmode" a) eqn:E1, (has "clipping" a) eqn:E2]; auto;
      exfalso; [apply H1|apply H2]; split; apply G; assumption.
  Qed.
  Lemma ext_elem n a kids sp xk e0 : load reg (nspace n) = Some sp -> ext_decoder sp (nlocal n) = Some (xk, e0) -> PlainAttrs n a -> Forall (Plain n) kids ->
    exists x, ext_of n a kids = Some x /\ forall k nm (P Q : DSt -> Prop), has_child k = true ->
      (forall s, P s -> exists i s1, child k n s = COk i (KExt l xk) s1 /\ PE e0 s1) -> (forall s, PE x s -> Q s) -> Rn k nm (events (XElem n a kids)) P Q.
  Proof.
    intros L D (PA & PB & PC & PD) F. pose proof (load_known _ _ L) as K. pose proof (load_ns _ _ L) as N. destruct n as [ns lo]. cbn [nspace nlocal] in *. clear L.
    assert (EL : forall k k' nm (P Mid Mid' Q : DSt -> Prop), has_child k = true -> (forall s, P s -> exists i s1, child k (mkName ns lo) s = COk i k' s1 /\ PE e0 s1) ->
      (forall s1 s2, PE e0 s1 -> start k' (mkName ns lo) a s1 = Some (s2, None) -> Mid s2) -> Rn k' (mkName ns lo) (flat_map events kids) Mid Mid' ->
      (forall s s', Mid' s -> end_ path k' (mkName ns lo) s = Some s' -> Q s') -> Rn k nm (events (XElem (mkName ns lo) a kids)) P Q).
    { intros k k' nm P Mid Mid' Q HC HS HM HR HE. cbn [events]. apply (rn_elem _ _ _ _ k k' nm _ a _ P Mid Mid' Q HC); [|exact HR|exact HE].
      intros s Hs. destruct (HS s Hs) as (i & s1 & E1 & E2). exists i, s1. split; [exact E1|]. intros s2. apply HM, E2. }
    destruct sp; cbn [ext_decoder] in D; subst ns.
    - repeat match type of D with (if seq lo ?c then _ else _) = _ => destruct (seq_spec lo c) as [->|_]; [injection D as <- <-|] end; [..|discriminate]; eexists; (split; [reflexivity|]);
        intros k nm P Q HC HS HQ.
      + eapply EL; [exact HC|exact HS| |apply (colors_rn (uint "id" a)); [exact K|exact F]|intros s s' Hs [= <-]; apply HQ, Hs].
        intros s1 s2 H1 H. cbn [M_Decode.start ext_start] in H. unfold uint. destruct (first_attr (is_attr "id") a) as [y|] eqn:E; [rewrite (first_some _ _ _ _ _ E)|rewrite (first_none _ _ _ _ E)]; val H; [|exact H1].
        exact (pe_upd _ _ (on_color (fun g => mkCG (uint_of (avalue y)) (cg_colors g))) H1).
      + eapply EL; [exact HC|exact HS| |apply (coords_rn (uint "id" a) (uint "texid" a)); [exact K|exact F]|intros s s' Hs [= <-]; apply HQ, Hs].
        intros s1 s2 H1 H. cbn [M_Decode.start ext_start] in H. rewrite (pe_get _ _ H1) in H. cbn [the_texg] in H. fin H L texg_loop.
        exact (pe_upd _ _ (on_texg (fun _ => mkTG (uint "id" a) (uint "texid" a) [])) H1).
      + eapply EL; [exact HC|exact HS| |apply (rn_inert _ _ _ _ _ _ (PE (XTexture2D (texture_of a)))); try reflexivity; [destruct isroot; reflexivity|exact F]|intros s s' Hs [= <-]; apply HQ, Hs].
        intros s1 s2 H1 H. cbn [M_Decode.start ext_start] in H. rewrite (pe_get _ _ H1) in H. cbn [the_tex] in H. fin H L tex_loop.
        exact (pe_upd _ _ (on_tex (fun _ => texture_of a)) H1).
      + eapply EL; [exact HC|exact HS| |apply (composites_rn (uint "id" a) (uint "matid" a) (get "matindices" a uints_of [])); [exact K|exact F]|intros s s' Hs [= <-]; apply HQ, Hs].
        intros s1 s2 H1 H. cbn [M_Decode.start ext_start] in H. rewrite (pe_get _ _ H1) in H. cbn [the_comp] in H. fin H L composites_loop.
        exact (pe_upd _ _ (on_comp (fun _ => mkCM (uint "id" a) (uint "matid" a) (get "matindices" a uints_of []) [])) H1).
      + eapply EL; [exact HC|exact HS| |apply (multis_rn (uint "id" a) (get "pids" a uints_of []) (get "blendmethods" a (fun v => map (word_of spec_blend 0%N) (fields v)) [])); [exact K|exact F]
          |intros s s' Hs [= <-]; apply HQ, Hs].
        intros s1 s2 H1 H. cbn [M_Decode.start ext_start] in H. rewrite (pe_get _ _ H1) in H. cbn [the_multi] in H. fin H L multis_loop.
        exact (pe_upd _ _ (on_multi (fun _ => mkMP (uint "id" a) (get "pids" a uints_of []) (get "blendmethods" a (fun v => map (word_of spec_blend 0%N) (fields v)) []) [])) H1).
    - discriminate.
    - destruct (seq_spec lo "slicestack") as [->|_]; [injection D as <- <-|discriminate]. eexists; (split; [reflexivity|]). intros k nm P Q HC HS HQ. specialize (PB eq_refl).
      eapply EL; [exact HC|exact HS| |apply (stack_rn (uint "id" a) (num "zbottom" a)); [exact K|exact F]|intros s s' Hs [= <-]; apply HQ, Hs].
      intros s1 s2 H1 H. cbn [M_Decode.start ext_start] in H. rewrite (pe_get _ _ H1) in H. cbn [the_stack] in H. fin H L stack_loop.
      exact (pe_upd _ _ (on_stack (fun _ => mkSS (uint "id" a) (num "zbottom" a) [] [])) H1).
    - destruct (seq_spec lo "beamlattice") as [->|_]; [injection D as <- <-|discriminate]. eexists; (split; [reflexivity|]). intros k nm P Q HC HS HQ. specialize (PD eq_refl). apply once_plain in PD.
      eapply EL; [exact HC|exact HS| |apply (lattice_rn a); [exact K|exact F]|intros s s' Hs [= <-]; apply HQ, Hs].
      intros s1 s2 H1 H. cbn [M_Decode.start ext_start] in H. rewrite (pe_get _ _ H1) in H. cbn [the_lattice] in H. fin H L lattice_loop.
      exact (pe_upd _ _ (on_lattice (fun _ => lattice_attrs a)) H1).
  Qed.
End Ext.
