(** * Proofs: what the root element of a file means *)
From Coq Require Import ZArith.
From Verif Require Import GoBase GoNum GoUtf8 GoFloat GoStrconv Types XmlTypes M_Core M_Errors M_Text M_Xml M_Decode
  S_Core S_Text S_Errors S_Xml S_Attr S_RoundTrip P_Decode P_State P_RTBase P_RTCore P_RTModel P_RTPkg P_Attr S_Meaning P_Meaning P_MeaningRun P_MeaningExt P_MeaningCore.
Lemma groups_nil known el : groups known el [] = [].
Proof. reflexivity. Qed.
Local Opaque parse_rgba get_u32 get_f32 parse_u32 parse_float parse_matrix fields attrs_loop groups group_start.
Local Notation names := S_Meaning.names.
Local Notation get := S_Meaning.get.
Local Notation item_attrs := P_Meaning.item_attrs.
Local Notation model_attrs := P_Meaning.model_attrs.

Ltac grp H L := match type of H with context [group_start ?r ?el ?any ?a] => destruct (group_start r el any a) as [[? ?]|] eqn:L; [|discriminate H] end;
  apply pair_inv in H as [-> ->]; apply groups_loop in L; [|assumption]; subst.
Lemma rset_any path r m l : rset path r (mo_set_any l m) = mo_set_any l (rset path r m).
Proof. unfold rset, res_set. cbn [d_init s_model]. change (mo_path (mo_set_any l m)) with (mo_path m). change (mo_childs (mo_set_any l m)) with (mo_childs m). destruct (_ || _); [reflexivity|]. destruct (find_child _ _); reflexivity. Qed.
Lemma rset_build path r m b : rset path r (mo_set_build b m) = mo_set_build b (rset path r m).
Proof. unfold rset, res_set. cbn [d_init s_model]. change (mo_path (mo_set_build b m)) with (mo_path m). change (mo_childs (mo_set_build b m)) with (mo_childs m). destruct (_ || _); [reflexivity|]. destruct (find_child _ _); reflexivity. Qed.
Lemma rset_md path r m b : rset path r (mo_set_md b m) = mo_set_md b (rset path r m).
Proof. unfold rset, res_set. cbn [d_init s_model]. change (mo_path (mo_set_md b m)) with (mo_path m). change (mo_childs (mo_set_md b m)) with (mo_childs m). destruct (_ || _); [reflexivity|]. destruct (find_child _ _); reflexivity. Qed.
Lemma rset_keeps path r m : mo_build (rset path r m) = mo_build m /\ mo_md (rset path r m) = mo_md m /\ mo_any (rset path r m) = mo_any m.
Proof. unfold rset, res_set. cbn [d_init s_model]. destruct (_ || _); [repeat split|]. destruct (find_child _ _); repeat split. Qed.

(** ** The build *)
Section TheBuild.
  Context (reg : Reg) (path : string) (later : Ref -> string) (M : Model).
  Context (ps : list string) (HP : forall p, existsb (fun e => seq (ex_local e) p) (mo_exts M) = existsb (seq p) ps).
  Notation known := (knownb reg).
  Notation Plain := (Plain known true).
  Notation takes := (takes known true).
  Notation Rn := (Rn reg true path later).
  Ltac inn := vm_compute; repeat (first [left; reflexivity|right]).
  Ltac tak T L := rewrite takes_plain in T by reflexivity; match type of T with context [children true ?n] => change (children true n) with L in T end; cbn [existsb] in T.
  Ltac quiet L := intros D d s T _ _; tak T L; repeat (let H := fresh "H" in apply orb_false_elim in T as [H T]);
    unfold name_eqb in *; cbn [nspace nlocal cn] in *; cbn [M_Decode.child]; unfold core;
    repeat match goal with H : _ && _ = false |- _ => rewrite H; clear H end; reflexivity.
  Notation item_of := (S_Meaning.item_of known ps).
  Lemma in_item_rn b a kids : Forall (Plain (cn "item")) kids -> Singles kids ->
    Rn KItem (cn "item") (flat_map events kids) (VI (mo_set_build b M) (item_of (a, []))) (VI (mo_set_build b M) (item_of (a, kids))).
  Proof.
    intros F SG. apply (rn_container _ _ _ _ _ _ (fun d => VI (mo_set_build b M) (item_of (a, d)))); [reflexivity| | | |exact F].
    - quiet [cn "metadatagroup"].
    - intros D t s T Hs. unfold S_Meaning.item_of in *. cbn [fst snd] in *. rewrite !the_other by (eapply not_taken; [| |exact T]; [reflexivity|inn]). exact Hs.
    - intros D n c kk q E T PA SI IN. tak T [cn "metadatagroup"]. destruct (name_eqb_spec n (cn "metadatagroup")) as [->|]; [|discriminate].
      pose proof (single_none (cn "metadatagroup") _ _ _ _ _ SG ltac:(inn) E) as N.
      replace (item_of (a, D ++ [XElem (cn "metadatagroup") c kk])) with (it_set_md (metadata_group_of known ps (c, kk)) (item_of (a, D)))
        by (unfold S_Meaning.item_of, it_set_md; cbn [fst snd it_oid it_tr it_part it_md it_any]; rewrite the_first by exact N; reflexivity).
      eapply rn_conseq; [| |eapply (group_rn reg true path later (mo_exts M) ps HP MItem (fun g => VI (mo_set_build b M) (it_set_md g (item_of (a, D)))))].
      + intros s Hs. replace (it_set_md mg_zero (item_of (a, D))) with (item_of (a, D)); [exact Hs|]. unfold S_Meaning.item_of, it_set_md. cbn [fst snd]. rewrite (the_none (cn "metadatagroup") D _ _ N). reflexivity.
      + intros s Hs. exact Hs.
      + intros g s (Hs & _). rewrite Hs. reflexivity.
      + intros g s v Hs. exact Hs.
      + intros g s Hs. cbn [get_mg]. rewrite (vi_get _ _ _ Hs). reflexivity.
      + intros g g' s Hs. exact (vi_upd _ _ _ (it_set_md g') Hs).
      + intros g s x Hs. exact (vi_upd _ _ _ (fun o => it_set_md (mkMG (mg_list (it_md o) ++ [x]) (mg_any (it_md o))) o) Hs).
      + reflexivity.
      + intros s Hs. eexists. reflexivity.
      + exact PA.
      + exact IN.
  Qed.
  Lemma items_rn any kids : Forall (Plain (cn "build")) kids ->
    Rn KBuild (cn "build") (flat_map events kids) (VM (mo_set_build (mkBuild [] any) M)) (VM (mo_set_build (mkBuild (map item_of (elems (cn "item") kids)) any) M)).
  Proof.
    intros F. apply (rn_container _ _ _ _ _ _ (fun d => VM (mo_set_build (mkBuild (map item_of (elems (cn "item") d)) any) M))); [reflexivity| | | |exact F].
    - quiet [cn "item"].
    - intros D t s T Hs. rewrite elems_snoc. replace (elem1 (cn "item") t) with (@nil (list Attr * list XTree)) by (symmetry; eapply not_taken; [| |exact T]; [reflexivity|inn]). rewrite app_nil_r. exact Hs.
    - intros D n a kk q _ T (PA & _) SG IN. tak T [cn "item"]. destruct (name_eqb_spec n (cn "item")) as [->|]; [|discriminate].
      rewrite elems_snoc, elem1_same, map_app. cbn [map]. set (b := mkBuild (map item_of (elems (cn "item") D)) any).
      cbn [events]. eapply rn_elem with (k' := KItem); [reflexivity| |apply (in_item_rn b a); [eapply inside_core; [reflexivity|discriminate|exact IN]|exact SG]|].
      + intros s Hs. eexists _, (with_item item_zero false s). split; [reflexivity|]. intros s2 H. cbn [M_Decode.start] in H.
        assert (V : VI (mo_set_build b M) item_zero (with_item item_zero false s)) by (split; [exact Hs|split; reflexivity]). rewrite (vi_get _ _ _ V) in H.
        destruct (attrs_loop (item_attr reg) item_zero None a) as [[i er]|] eqn:L; [|discriminate H]. apply pair_inv in H as [-> ->]. apply item_loop in L; [|exact PA]. subst i.
        exact (vi_upd _ _ _ (fun _ => item_attrs reg a) V).
      + intros s s' Hs H. cbn [end_] in H. apply some_inj in H. subst s'. rewrite (vi_get _ _ _ Hs). destruct Hs as (Hs & _). unfold VM. cbn [with_model with_item s_model]. rewrite Hs. reflexivity.
  Qed.
  Lemma build_rn a kk : mo_build M = mkBuild [] [] -> PlainAttrs (cn "build") a -> Inside known true (cn "build") kk ->
    Rn KModel (cn "model") (events (XElem (cn "build") a kk)) (VM M) (VM (mo_set_build (build_of known ps (a, kk)) M)).
  Proof.
    intros E0 (PA & _) IN. cbn [events]. eapply rn_elem with (k' := KBuild); [reflexivity| |apply (items_rn (groups known "build" a)); eapply inside_core; [reflexivity|discriminate|exact IN]|].
    - intros s Hs. eexists _, _. split; [reflexivity|]. intros s2 H. cbn [M_Decode.start] in H. unfold VM in Hs. rewrite Hs, E0 in H. cbn [bu_any bu_items] in H. grp H L. reflexivity.
    - intros s s' Hs H. cbn [end_] in H. apply some_inj in H. subst s'. exact Hs.
  Qed.
End TheBuild.

(** ** The children of the root element *)
Section Model.
  Context (reg : Reg) (isroot : bool) (path : string) (later : Ref -> string) (M1 : Model) (HF : find_resources M1 path <> None).
  Context (ps : list string) (HP : forall p, existsb (fun e => seq (ex_local e) p) (mo_exts M1) = existsb (seq p) ps).
  Notation known := (knownb reg).
  Notation Plain := (Plain known isroot).
  Notation takes := (takes known isroot).
  Notation Rn := (Rn reg isroot path later).
  Notation any_of := (S_Meaning.any_of known later).
  Notation resources_of := (S_Meaning.resources_of known later ps).
  Ltac inn := destruct isroot; vm_compute; repeat (first [left; reflexivity|right]).
  Definition MM (any : list AnyElem) (bu : Build) (md : list Metadata) (r : Resources) : Model :=
    mo_set_any any (mo_set_build bu (mo_set_md md (rset path r M1))).
  Lemma mm_rset any bu md r : MM any bu md r = rset path r (mo_set_any any (mo_set_build bu (mo_set_md md M1))).
  Proof. unfold MM. rewrite rset_any, rset_build, rset_md. reflexivity. Qed.
  Definition any_in (D : list XTree) := mo_any M1 ++ flat_map any_of D.
  Definition build_in (D : list XTree) := if isroot then the_elem (cn "build") D (build_of known ps) (mkBuild [] []) else mo_build M1.
  Definition md_in (D : list XTree) := if isroot then map (metadata_of ps) (elems (cn "metadata") D) else mo_md M1.
  Definition res_in (D : list XTree) := the_elem (cn "resources") D resources_of res_zero.
  Definition MD (D : list XTree) : Model := MM (any_in D) (build_in D) (md_in D) (res_in D).
  Lemma res_rn any bu md a kk : PlainAttrs (cn "resources") a -> Inside known isroot (cn "resources") kk ->
    Rn KModel (cn "model") (events (XElem (cn "resources") a kk)) (VM (MM any bu md res_zero)) (VM (MM any bu md (resources_of (a, kk)))).
  Proof.
    intros (PA & _) IN. rewrite !mm_rset. set (M0 := mo_set_any any (mo_set_build bu (mo_set_md md M1))).
    assert (HF0 : find_resources M0 path <> None) by exact HF.
    cbn [events]. eapply rn_elem with (k' := KRes); [reflexivity| |apply (resources_rn reg isroot path later M0 HF0 ps HP a); eapply inside_core; [reflexivity|discriminate|exact IN]|].
    - intros s Hs. eexists _, _. split; [reflexivity|]. intros s2 H. cbn [M_Decode.start] in H. assert (V : VR path M0 res_zero s) by exact Hs.
      destruct a as [|x a]; [apply pair_inv in H as [-> _]; unfold S_Meaning.resources_of; cbn [fst snd elems flat_map map]; rewrite groups_nil; exact V|].
      rewrite (vr_get _ _ HF0 _ _ V) in H. cbn [res_zero rs_any rs_assets rs_objects] in H. grp H L. apply (vr_set path M0 _ _ _ V).
    - intros s s' Hs H. cbn [end_] in H. apply some_inj in H. subst s'. exact Hs.
  Qed.
  Lemma unknown_rn D n a kk : nspace n <> ns_core -> known (nspace n) = false -> Inside known isroot n kk ->
    forall bu md r, Rn KModel (cn "model") (events (XElem n a kk)) (VM (MM (any_in D) bu md r)) (VM (MM (any_in (D ++ [XElem n a kk])) bu md r)).
  Proof.
    intros NC K IN bu md r. unfold any_in. rewrite flat_map_app, app_assoc. cbn [flat_map any_of]. destruct (seq_spec (nspace n) ns_core) as [|_]; [contradiction|]. rewrite K. rewrite app_nil_r.
    set (l := mo_any M1 ++ flat_map any_of D). set (V ts := VM (MM (l ++ [AnyTokens ts]) bu md r)).
    unfold Inside in IN. rewrite K in IN. destruct (seq_spec (nspace n) ns_core) as [|_]; [contradiction|]. cbn [orb] in IN.
    assert (UA : forall us t s, V us s -> V (us ++ [t]) (append_token path (KUnk LModel) t s)).
    { intros us t s Hs. unfold V, VM in *. cbn [append_token upd_any with_model s_model]. rewrite Hs. unfold MM. cbn [mo_set_any mo_any]. rewrite upd_last_snoc. reflexivity. }
    cbn [events]. eapply rn_elem with (k' := KUnk LModel); [reflexivity| |apply (rn_keeps _ _ _ _ (KUnk LModel) n V eq_refl UA kk [TStart n a] IN)|].
    - intros s Hs. exists (-1)%Z, (with_model (mo_set_any (mo_any (s_model s) ++ [AnyTokens []]) (s_model s)) s). split.
      + cbn [M_Decode.child]. unfold model_child, new_element_decoder. destruct (seq_spec (nspace n) ns_core); [contradiction|]. unfold knownb in K. destruct (load reg (nspace n)); [discriminate|]. reflexivity.
      + intros s2 H. cbn [M_Decode.start] in H. apply pair_inv in H as [-> _]. apply (UA [] (TStart n a)). unfold V, VM in *. cbn [with_model s_model]. rewrite Hs. reflexivity.
    - intros s s' Hs H. cbn [end_] in H. apply some_inj in H. subst s'. apply (UA _ (TEnd n)) in Hs. exact Hs.
  Qed.
  Lemma model_rn kids : Forall (Plain (cn "model")) kids -> Singles kids -> Rn KModel (cn "model") (flat_map events kids) (VM (MD [])) (VM (MD kids)).
  Proof.
    intros F SG. apply (rn_container _ _ _ _ _ _ (fun d => VM (MD d))); [reflexivity| | | |exact F].
    - intros D d s T Ms _. cbn [M_Decode.child]. unfold model_child, new_element_decoder. destruct (keeper_quiet reg isroot (cn "model") d eq_refl T Ms) as [(E & C)|(NC & sp & L & X)].
      + rewrite E, seq_refl. destruct isroot.
        * change (children true (cn "model")) with [cn "resources"; cn "build"; cn "metadata"] in C. cbn [existsb] in C.
          apply orb_false_elim in C as [C1 C]. apply orb_false_elim in C as [C2 C]. apply orb_false_elim in C as [C3 _].
          unfold name_eqb in C1, C2, C3. rewrite E in C1, C2, C3. cbn [cn nspace nlocal] in C1, C2, C3. rewrite seq_refl in C1, C2, C3. cbn [andb] in C1, C2, C3. rewrite C1, C2, C3. reflexivity.
        * change (children false (cn "model")) with [cn "resources"] in C. cbn [existsb] in C. apply orb_false_elim in C as [C1 _].
          unfold name_eqb in C1. rewrite E in C1. cbn [cn nspace nlocal] in C1. rewrite seq_refl in C1. cbn [andb] in C1. rewrite C1. destruct (seq (nlocal d) "build"), (seq (nlocal d) "metadata"); reflexivity.
      + destruct (seq_spec (nspace d) ns_core); [contradiction|]. rewrite L, X. reflexivity.
    - intros D t s T Hs. unfold MD, any_in, build_in, md_in, res_in in *. rewrite flat_map_app. cbn [flat_map]. rewrite (any_skip reg isroot later (cn "model") t eq_refl T), !app_nil_r.
      rewrite (the_other (cn "resources")) by (eapply not_kept; [| | |exact T]; [reflexivity|reflexivity|inn]). destruct isroot; [|exact Hs].
      rewrite (the_other (cn "build")) by (eapply not_kept; [| | |exact T]; [reflexivity|reflexivity|inn]). rewrite elems_snoc.
      replace (elem1 (cn "metadata") t) with (@nil (list Attr * list XTree)) by (symmetry; eapply not_kept; [| | |exact T]; [reflexivity|reflexivity|inn]). rewrite app_nil_r. exact Hs.
    - intros D n a kk q E T PA SI IN. apply keeper_cases in T as [(C & CH)|[(NC & K & CH)|(NC & K)]]; [| | |reflexivity].
      + assert (AN : any_in (D ++ [XElem n a kk]) = any_in D) by (unfold any_in; rewrite flat_map_app; cbn [flat_map any_of]; rewrite C, seq_refl, app_nil_r; reflexivity).
        unfold MD. rewrite AN. clear AN. destruct (name_eqb_spec n (cn "resources")) as [->|N1].
        * pose proof (single_none (cn "resources") _ _ _ _ _ SG ltac:(inn) E) as N. unfold res_in. rewrite the_first, the_none by exact N.
          replace (build_in (D ++ [XElem (cn "resources") a kk])) with (build_in D) by (unfold build_in; destruct isroot; [rewrite the_other by (apply elem1_other; discriminate)|]; reflexivity).
          replace (md_in (D ++ [XElem (cn "resources") a kk])) with (md_in D) by (unfold md_in; destruct isroot; [rewrite elems_snoc, elem1_other, app_nil_r by discriminate|]; reflexivity).
          apply res_rn; assumption.
        * replace (res_in (D ++ [XElem n a kk])) with (res_in D) by (unfold res_in; rewrite the_other by (apply elem1_other; exact N1); reflexivity).
          unfold build_in, md_in. destruct isroot.
          -- change (children true (cn "model")) with [cn "resources"; cn "build"; cn "metadata"] in CH. cbn [existsb] in CH. destruct (name_eqb_spec n (cn "resources")); [contradiction|]. cbn [orb] in CH.
             destruct (name_eqb_spec n (cn "build")) as [->|N2]; [|destruct (name_eqb_spec n (cn "metadata")) as [->|]; [|discriminate]].
             ++ pose proof (single_none (cn "build") _ _ _ _ _ SG ltac:(inn) E) as N. rewrite the_first, the_none by exact N. rewrite elems_snoc, elem1_other, app_nil_r by discriminate.
                eapply (build_rn reg path later (MM (any_in D) (mkBuild [] []) (map (metadata_of ps) (elems (cn "metadata") D)) (res_in D)) ps); [|reflexivity|exact PA|exact IN].
                unfold MM. cbn [mo_set_any mo_set_build mo_set_md mo_exts]. rewrite rset_exts. exact HP.
             ++ rewrite the_other by (apply elem1_other; discriminate). rewrite elems_snoc, elem1_same, map_app. cbn [map].
                apply (meta_elem reg true path later (mo_exts M1) ps HP MModel (fun ms => VM (MM (any_in D) _ ms (res_in D)))).
                ** intros ms s ->. unfold MM. cbn [mo_set_any mo_set_build mo_set_md mo_exts]. apply rset_exts.
                ** intros ms s v Hs. exact Hs.
                ** intros ms s x Hs. unfold VM in *. cbn [add_md with_model s_model]. rewrite Hs. reflexivity.
                ** reflexivity.
                ** intros s Hs. eexists. reflexivity.
                ** exact PA.
                ** exact IN.
          -- change (children false (cn "model")) with [cn "resources"] in CH. cbn [existsb] in CH. destruct (name_eqb_spec n (cn "resources")); [contradiction|]. discriminate CH.
      + exfalso. destruct isroot; [change (children true (cn "model")) with [cn "resources"; cn "build"; cn "metadata"] in CH|change (children false (cn "model")) with [cn "resources"] in CH]; cbn [existsb] in CH;
          repeat match type of CH with context [name_eqb n ?c] => destruct (name_eqb_spec n c) as [->|_]; [apply NC; reflexivity|] end; discriminate CH.
      + unfold MD. replace (build_in (D ++ [XElem n a kk])) with (build_in D) by (unfold build_in; destruct isroot; [rewrite the_other by (apply elem1_other; intros ->; apply NC; reflexivity)|]; reflexivity).
        replace (md_in (D ++ [XElem n a kk])) with (md_in D) by (unfold md_in; destruct isroot; [rewrite elems_snoc, elem1_other, app_nil_r by (intros ->; apply NC; reflexivity)|]; reflexivity).
        replace (res_in (D ++ [XElem n a kk])) with (res_in D) by (unfold res_in; rewrite the_other by (apply elem1_other; intros ->; apply NC; reflexivity); reflexivity).
        apply unknown_rn; assumption.
  Qed.
End Model.

(** ** Trees and events *)
Lemma nests_forest fuel : forall o evs, List.length evs <= fuel -> Nests o (map ev_token evs) [] ->
  exists f rest, evs = flat_map events f ++ rest /\ Nests o (map ev_token rest) [] /\ (rest = [] \/ exists n r, rest = EvEnd n :: r).
Proof.
  induction fuel as [|fuel IH]; intros o evs L N.
  - destruct evs; [|cbn in L; lia]. exists [], []. split; [reflexivity|]. split; [exact N|left; reflexivity].
  - destruct evs as [|[n a|n|now r] evs]; cbn [List.length] in L.
    + exists [], []. split; [reflexivity|]. split; [exact N|left; reflexivity].
    + cbn [map ev_token] in N. inversion N as [|? ? ? ? ? N1| |]; subst. destruct (IH _ evs ltac:(lia) N1) as (f & rest & -> & N2 & [->|(m & q & ->)]).
      * inversion N2.
      * cbn [map ev_token] in N2. inversion N2 as [| |? ? ? ? N3|]; subst. rewrite app_length in L. cbn [List.length] in L. destruct (IH _ q ltac:(lia) N3) as (f2 & rest2 & -> & N4 & E).
        exists (XElem m a f :: f2), rest2. split; [|split; [exact N4|exact E]]. cbn [flat_map events app]. rewrite <- !app_assoc. reflexivity.
    + exists [], (EvEnd n :: evs). split; [reflexivity|]. split; [exact N|right; eauto].
    + cbn [map ev_token] in N. inversion N as [| | |? ? ? ? N1]; subst. destruct (IH _ evs ltac:(lia) N1) as (f & rest & -> & N2 & E). exists (XText now r :: f), rest. split; [reflexivity|]. split; [exact N2|exact E].
Qed.
Definition closed (rest : list event) : Prop := rest = [] \/ exists n r, rest = EvEnd n :: r.
Lemma events_inj f : forall rest f' rest', closed rest -> closed rest' -> flat_map events f ++ rest = flat_map events f' ++ rest' -> f = f' /\ rest = rest'.
Proof.
  remember (List.length (flat_map events f)) as k eqn:K. assert (K' : List.length (flat_map events f) <= k) by lia. clear K. revert f K'.
  induction k as [|k IH]; intros f K rest f' rest' C C' E.
  - destruct f as [|[]]; [|cbn in K; lia..]. destruct f' as [|[n a kk|now r] f']; [split; [reflexivity|exact E]|exfalso..]; cbn in E; destruct C as [->|(m & q & ->)]; discriminate.
  - destruct f as [|[n a kk|now r] f].
    + destruct f' as [|[n a kk|now r] f']; [split; [reflexivity|exact E]|exfalso..]; cbn in E; destruct C as [->|(m & q & ->)]; discriminate.
    + destruct f' as [|[n' a' kk'|now r] f']; cbn [flat_map events app] in E; [exfalso; destruct C' as [->|(m & q & ->)]; discriminate| |discriminate]. injection E as <- <- E. rewrite <- !app_assoc in E.
      cbn [flat_map events List.length app] in K. rewrite !app_length in K. cbn [List.length] in K.
      destruct (IH kk ltac:(lia) _ _ _ (or_intror (ex_intro _ n (ex_intro _ _ eq_refl))) (or_intror (ex_intro _ n (ex_intro _ _ eq_refl))) E) as (<- & E2). cbn [app] in E2. injection E2 as E2.
      destruct (IH f ltac:(lia) _ _ _ C C' E2) as (<- & <-). split; reflexivity.
    + destruct f' as [|[n' a' kk'|now' r'] f']; cbn [flat_map events app] in E; [exfalso; destruct C' as [->|(m & q & ->)]; discriminate|discriminate|]. injection E as <- <- E.
      cbn [flat_map events List.length app] in K. destruct (IH f ltac:(lia) _ _ _ C C' E) as (<- & <-). split; reflexivity.
Qed.

(** ** The root element *)
Section File.
  Context (reg : Reg) (path : string) (later : Ref -> string).
  Notation known := (knownb reg).
  Lemma texts_chars ts : Forall is_text ts -> Forall is_char (flat_map events ts).
  Proof. induction 1 as [|[] ts H _ IH]; [constructor|contradiction|]. cbn [flat_map events app]. constructor; [exact I|exact IH]. Qed.
  Lemma chars_model isroot cs : Forall is_char cs -> forall m, m_cur m = KModel -> on_events reg isroot path later cs m = Some m.
  Proof.
    induction 1 as [|e cs E H IH]; intros m C; [reflexivity|]. destruct e; try contradiction. cbn [on_events on_event]. unfold on_char.
    rewrite C. cbn [append_token]. assert (EQ : mkM (m_st m) KModel (m_name m) (m_stack m) (m_errs m) = m) by (destruct m; cbn in *; subst; reflexivity).
    rewrite EQ. apply IH; auto.
  Qed.
  Lemma root_elem isroot M pre a kids post mf (P Q : DSt -> Prop) : Forall is_text pre -> Forall is_text post ->
    (forall s2, start reg isroot path KModel (cn "model") a (d_init M) = Some (s2, None) -> P s2) ->
    Rn reg isroot path later KModel (cn "model") (flat_map events kids) P Q ->
    on_events reg isroot path later (flat_map events (pre ++ XElem (cn "model") a kids :: post)) (m_init M) = Some mf -> m_errs mf = [] -> Q (m_st mf).
  Proof.
    intros T1 T2 HS HR E N. rewrite flat_map_app, on_events_app in E. rewrite chars_skip in E by (try reflexivity; apply texts_chars, T1).
    cbn [flat_map events] in E. change ((EvStart (cn "model") a :: flat_map events kids ++ [EvEnd (cn "model")]) ++ flat_map events post) with (EvStart (cn "model") a :: (flat_map events kids ++ [EvEnd (cn "model")]) ++ flat_map events post) in E.
    cbn [on_events on_event] in E. unfold on_start in E. unfold m_init in E. cbn [m_cur m_st m_stack m_errs m_name has_child] in E.
    assert (C : child reg isroot path KTop (cn "model") (d_init M) = COk (-1) KModel (d_init M)) by reflexivity. rewrite C in E. clear C.
    destruct (start reg isroot path KModel (cn "model") a (d_init M)) as [[s2 [e|]]|] eqn:ES; [| |discriminate].
    - exfalso. apply no_errs in E; [|exact N]. cbn [m_errs] in E. apply start_sound in ES. destruct (wrap_stack e _) as [| | | |l] eqn:EW; cbn in E; try discriminate. subst l.
      apply wrap_empty in EW. subst e. contradiction ES. reflexivity.
    - specialize (HS s2 eq_refl). rewrite on_events_app in E. destruct (on_events reg isroot path later (flat_map events kids ++ _) _) as [m2|] eqn:E2; [|discriminate].
      rewrite on_events_app in E2. destruct (on_events reg isroot path later (flat_map events kids) _) as [m1|] eqn:E1; [|discriminate].
      assert (N2 : m_errs m2 = []) by (apply (no_errs _ _ _ _ _ _ _ E N)).
      destruct (HR s2 (-1)%Z [] m1 HS E1 (no_errs _ _ _ _ _ _ _ E2 N2)) as (s3 & -> & Qs). cbn [on_events on_event] in E2. unfold on_end in E2. cbn [m_name m_cur m_st m_stack m_errs end_] in E2.
      rewrite name_eqb_refl in E2. injection E2 as <-. rewrite chars_model in E by (try reflexivity; apply texts_chars, T2). injection E as <-. exact Qs.
  Qed.
  Lemma root_path M : root_file M path -> seq path "" || seq path (mo_path M) || (seq (mo_path M) "" && seq path DefaultModelPath) = true.
  Proof. intros [->|(-> & ->)]; [rewrite seq_refl, orb_true_r; reflexivity|reflexivity]. Qed.
  Lemma declared_nodup a : NoDup (map aname a) -> NoDup (map (fun x => nlocal (aname x)) (declared a)).
  Proof.
    unfold declared. induction a as [|[[sp l] v] a IH]; [constructor|]. cbn [map aname filter nspace]. intros N. inversion N as [|? ? N1 N2]; subst. destruct (seq_spec sp "xmlns") as [->|]; [|apply IH, N2].
    cbn [map aname nlocal]. constructor; [|apply IH, N2]. intros H. apply N1. apply in_map_iff in H as ([[sp' l'] v'] & E & I). cbn in E. subst l'. apply filter_In in I as [I S]. cbn in S.
    destruct (seq_spec sp' "xmlns") as [->|]; [|discriminate]. apply in_map_iff. eexists. split; [|exact I]. reflexivity.
  Qed.
  Lemma root_meaning M pre a kids post mf : Blank M -> root_file M path -> Forall is_text pre -> Forall is_text post -> PlainFile known true a kids ->
    on_events reg true path later (flat_map events (pre ++ XElem (cn "model") a kids :: post)) (m_init M) = Some mf -> m_errs mf = [] ->
    s_model (m_st mf) = model_of known later M a kids.
  Proof.
    intros (B1 & B2 & B3 & B4 & B5 & B6 & B7 & B8 & B9) RF T1 T2 ((PA & _) & SG & F) E N.
    set (ps := prefixes_of a).
    set (M1 := mo_head (lang_of a) (word spec_units 0%N "unit" a) (str "thumbnail" a) (extensions_of a) (groups known "model" (others a)) M).
    assert (RP : seq path "" || seq path (mo_path M1) || (seq (mo_path M1) "" && seq path DefaultModelPath) = true) by apply (root_path M RF).
    assert (HF : find_resources M1 path <> None) by (unfold find_resources; rewrite RP; discriminate).
    assert (HR : forall r, rset path r M1 = mo_set_res r M1) by (intros r; unfold rset, res_set; cbn [d_init s_model]; rewrite RP; reflexivity).
    assert (HP : forall p, existsb (fun e => seq (ex_local e) p) (mo_exts M1) = existsb (seq p) ps).
    { intros p. unfold ps, prefixes_of. subst M1. cbn [mo_head mo_exts]. unfold extensions_of. cbv zeta. generalize (get "requiredextensions" a fields []). intros req. generalize (declared a).
      induction l as [|x l IH]; [reflexivity|]. cbn [map existsb ex_local]. rewrite IH. f_equal. destruct (seq_spec (nlocal (aname x)) p) as [->|NE]; [rewrite seq_refl; reflexivity|].
      destruct (seq_spec p (nlocal (aname x))); congruence. }
    assert (X : VM (MD reg true path later M1 ps kids) (m_st mf)).
    { eapply root_elem; [exact T1|exact T2| |apply (model_rn reg true path later M1 HF ps HP kids F SG)|exact E|exact N].
      intros s2 H. cbn [start] in H. unfold model_start in H. cbn [negb d_init s_model] in H.
      destruct (attrs_loop (model_attr reg) (M, []) None a) as [[[m req] er]|] eqn:L; [|discriminate]. apply pair_inv in H as [-> ->].
      apply model_loop in L; [|repeat split; assumption|exact PA]. unfold P_Meaning.model_attrs in L. injection L as -> ->.
      unfold VM, MD, MM, any_in, build_in, md_in, res_in. cbn [elems flat_map map the_elem with_model s_model]. rewrite HR.
      rewrite require_exts by (cbn [mo_head mo_exts]; unfold exts_of; rewrite map_map; apply declared_nodup, PA).
      subst M1. unfold mo_head, mo_set_any, mo_set_build, mo_set_md, mo_set_res. cbn. rewrite B6, B7, B8, B9. unfold exts_of, extensions_of. rewrite map_map. reflexivity. }
    unfold VM, MD, MM, any_in, build_in, md_in, res_in in X. rewrite HR in X. rewrite X. subst M1. unfold mo_head, mo_set_any, mo_set_build, mo_set_md, mo_set_res, model_of. cbn. rewrite B9. reflexivity.
  Qed.
  Lemma child_meaning M pre a kids post mf : NoDup (map fst (mo_childs M)) -> ~ root_file M path -> path <> "" -> find_resources M path = Some res_zero -> Forall is_text pre -> Forall is_text post -> PlainFile known false a kids ->
    on_events reg false path later (flat_map events (pre ++ XElem (cn "model") a kids :: post)) (m_init M) = Some mf -> m_errs mf = [] ->
    s_model (m_st mf) = child_of known later M path kids.
  Proof.
    intros ND NR NE FR T1 T2 ((PA & _) & SG & F) E N. set (ps := map ex_local (mo_exts M)).
    assert (HF : find_resources M path <> None) by congruence.
    assert (HP : forall p, existsb (fun e => seq (ex_local e) p) (mo_exts M) = existsb (seq p) ps).
    { intros p. unfold ps. induction (mo_exts M) as [|x l IH]; [reflexivity|]. cbn [map existsb]. rewrite IH. f_equal. destruct (seq_spec (ex_local x) p) as [->|NX]; [rewrite seq_refl; reflexivity|].
      destruct (seq_spec p (ex_local x)); congruence. }
    assert (X : VM (MD reg false path later M ps kids) (m_st mf)).
    { eapply root_elem; [exact T1|exact T2| |apply (model_rn reg false path later M HF ps HP kids F SG)|exact E|exact N].
      intros s2 H. cbn [start] in H. unfold model_start in H. cbn [negb] in H. apply pair_inv in H as [-> _].
      unfold VM, MD, MM, any_in, build_in, md_in, res_in. cbn [elems flat_map map the_elem s_model d_init]. rewrite (rset_same path res_zero M ND FR), app_nil_r. destruct M; reflexivity. }
    unfold VM, MD, MM, any_in, build_in, md_in, res_in in X. rewrite X. unfold rset, res_set. cbn [d_init s_model].
    assert (NP : seq path "" || seq path (mo_path M) || (seq (mo_path M) "" && seq path DefaultModelPath) = false).
    { destruct (seq_spec path ""); [contradiction|]. destruct (seq_spec path (mo_path M)) as [->|]; [exfalso; apply NR; left; reflexivity|]. cbn [orb].
      destruct (seq_spec (mo_path M) ""); [|reflexivity]. destruct (seq_spec path DefaultModelPath); [|reflexivity]. exfalso. apply NR. right. auto. }
    rewrite NP. unfold find_resources in FR. rewrite NP in FR. destruct (find_child M path) as [c|]; [|discriminate]. reflexivity.
  Qed.
End File.
Section Loops.
  Context (reg : Reg) (isroot : bool) (path : string) (every : nat) (fin : xerr) (later : Ref -> string).
  Lemma none_run strict ctx fuel : forall i d m mm n d', decode_loop reg isroot strict path every ctx fin later fuel i d m = DRet mm DNone n d' ->
    exists evs mf, scan_loop fin true fuel d = SDone evs XEOF d' /\ on_events reg isroot path later evs m = Some mf /\ m_errs mf = [] /\ mm = s_model (m_st mf).
  Proof.
    induction fuel as [|f IH]; intros i d m mm n d' H; [discriminate|]. cbn [scan_loop decode_loop] in *.
    destruct (raw_token fin true d) as [ev d1|e1 d1|]; [| |discriminate].
    - destruct (on_events _ _ _ _ ev m) as [m1|] eqn:E1; [|discriminate].
      destruct (strict && negb (Nat.eqb (List.length (m_errs m1)) 0)) eqn:ES.
      + injection H as _ H _ _. apply (finish_none strict (m_errs m1) DNone) in H. destruct H as [_ H]. rewrite H in ES. cbn in ES. rewrite andb_false_r in ES. discriminate.
      + destruct (_ && ctx i); [discriminate|]. destruct (IH _ _ _ _ _ _ H) as (evs & mf & -> & A & B & C). exists (ev ++ evs), mf. split; [reflexivity|]. rewrite on_events_app, E1. auto.
    - injection H as <- H <- <-. apply finish_none in H as [H1 H2]. exists [], m. destruct e1; try discriminate H1. auto.
  Qed.
End Loops.
