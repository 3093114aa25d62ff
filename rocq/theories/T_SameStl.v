(** * Theorem: STL files with the same facets: C99 *)
From Coq Require Import Lia.
From Verif Require Import GoBase GoNum GoFloat GoStrconv Types M_Core M_Geom M_Stl S_Core S_Geom S_Strconv S_Stl S_SameStl P_Geom P_Strconv P_Stl T_Stl.
From Verif Require Import Types.
Local Open Scope list_scope.

Lemma built_same oor mb tris nodes mb' tris' ts : Built oor mb tris nodes (corners ts) -> Built oor mb' tris' [] (corners ts) -> mb = mb' /\ tris = tris'.
Proof.
  intros (E & P & L) (E' & P' & _). rewrite E in E'. injection E' as -> F. split; [reflexivity|]. rewrite app_nil_r in F. clear E.
  revert tris' P' F. induction P as [|t tris Pt P IH]; intros tris' P' F.
  - destruct tris' as [|t' tris']; [reflexivity|]. cbn [flat_map app] in F. rewrite F in L. cbn [idx app List.length] in L. lia.
  - inversion P' as [|t' l' Pt' Pl']; subst; cbn [flat_map idx app] in F; [discriminate|]. injection F as F1 F2 F3 F.
    f_equal; [unfold plain in Pt, Pt'; rewrite Pt, Pt', F1, F2, F3; reflexivity|apply IH; assumption].
Qed.
(** The mesh of the facets *)
Lemma file_mesh oor ctx fuel ts data : FileOf ts data -> (forall k, ctx k = false) ->
  exists b mb tris nodes, is_ascii (S fuel) (eof data) = Some (inl b) /\
    (if b then decode_ascii oor ctx (eof data) else decode_binary oor ctx (eof data)) = (mesh_of mb tris, None) /\
    Built oor mb tris nodes (corners ts).
Proof.
  intros (H & C) NC. destruct (is_ascii_spec fuel (eof data) H) as (b & E & Hb). destruct C as [(LT & ls & L & V & SL)|(NT & body & (h & w & Ed & Lh & Lw) & F)].
  - apply Hb in LT. subst b. assert (Sh : ShortLines ls) by (apply Forall_forall; exact SL).
    destruct (ascii_loop_spec oor ctx SEof ls _ V Sh NC (mkA (new_builder []) [] [] check_every) [] (built_init oor)) as (st & Es & B).
    exists true, (a_mb st), (a_tris st), (a_nodes st). split; [exact E|]. split; [|exact B].
    unfold decode_ascii. cbn [eof in_data in_fin]. rewrite (lines_spec _ _ L), Es. reflexivity.
  - destruct b; [exfalso; apply NT, Hb; reflexivity|]. destruct (le32_num _ w Lw) as (En & L4 & _).
    destruct (binary_present oor ctx SEof ts body (new_builder []) [] [] check_every None F (built_init oor)) as (mb & tris & Eb & B).
    rewrite last_poll_never in Eb by exact NC. exists false, mb, tris, []. split; [exact E|]. split; [|exact B].
    unfold decode_binary, eof. replace data with ((h +++ w) +++ body) by (rewrite sapp_assoc, Ed; reflexivity).
    assert (L84 : String.length (h +++ w) = 84) by (rewrite slen_app; lia). rewrite <- L84, read_full_app.
    assert (W : word32 80 (h +++ w) = N.of_nat (List.length ts)).
    { unfold word32. replace 80 with (String.length h + 0) by lia. rewrite sdrop_plus, sdrop_0, <- L4, stake_all. exact En. }
    rewrite W, Nnat.Nat2N.id, Eb. reflexivity.
Qed.
Lemma built_nodes oor mb tris nodes ts : Built oor mb tris nodes (corners ts) -> nodes = [].
Proof.
  intros (E & _ & L). assert (K : forall ps mb0 mb1 is, M_Geom.add_all oor mb0 ps = (mb1, is) -> List.length is = List.length ps).
  { induction ps as [|p ps IH]; intros mb0 mb1 is X; cbn [M_Geom.add_all] in X; [injection X as <- <-; reflexivity|].
    destruct (M_Geom.add_vertex oor mb0 p) as [mb2 i]. destruct (M_Geom.add_all oor mb2 ps) as [mb3 js] eqn:Y. injection X as <- <-. cbn. rewrite (IH _ _ _ Y). reflexivity. }
  apply K in E. rewrite app_length in E. change (corners ts) with (flat3 ts) in E. rewrite flat3_length in E.
  assert (M : List.length (flat_map idx tris) = 3 * List.length tris).
  { clear. induction tris as [|t l IH]; [reflexivity|]. cbn [flat_map]. rewrite app_length, IH. cbn [idx List.length]. lia. }
  rewrite M in E. destruct nodes as [|x nodes]; [reflexivity|]. exfalso. cbn [List.length] in *. lia.
Qed.
(** C99: files with the same facets are imported as the same model, be they text or binary, whatever their names,
    headers, normals, attributes, spellings of the numbers, other lines and trailing bytes.
    Missing: files of less than 300 bytes, which are refused, and lines of more than 65535 bytes. *)
Theorem C99_same_partial : forall oor ctx fuel ts data data' m, FileOf ts data -> FileOf ts data' -> (forall k, ctx k = false) ->
  exists m', decode_stl oor ctx (S fuel) (eof data) m = Some (m', None) /\ decode_stl oor ctx (S fuel) (eof data') m = Some (m', None).
Proof.
  intros oor ctx fuel ts data data' m F F' NC.
  destruct (file_mesh oor ctx fuel ts data F NC) as (b & mb & tris & nodes & A & D & B).
  destruct (file_mesh oor ctx fuel ts data' F' NC) as (b' & mb' & tris' & nodes' & A' & D' & B').
  pose proof (built_nodes _ _ _ _ _ B') as ->. destruct (built_same _ _ _ _ _ _ _ B B') as (-> & ->).
  unfold decode_stl. rewrite A, D, A', D'. eexists. split; reflexivity.
Qed.
Print Assumptions C99_same_partial.

(** The facets of [ex_text], in binary *)
Definition ex_words : string :=
  zeros 12 +++ zeros 12 +++ (zeros 2 +++ String (ascii_of_N 128) (String (ascii_of_N 63) (zeros 8))) +++
  (zeros 4 +++ (zeros 2 +++ String (ascii_of_N 192) (String (ascii_of_N 63) (zeros 4)))) +++ zeros 2.
Definition ex_same (n : nat) : string := zeros 80 +++ ex_count (N.of_nat n) +++ repeat_str n ex_words.
Definition f15 : f32 := S754_finite false 12582912 (-23).
Definition ex_corner : Point3D * Point3D * Point3D := (P3 f_zero f_zero f_zero, P3 f_one f_zero f_zero, P3 f_zero f15 f_zero).
Lemma ex_word_facet : Facet ex_corner ex_words.
Proof.
  exists (zeros 12), (zeros 12), (zeros 2 +++ String (ascii_of_N 128) (String (ascii_of_N 63) (zeros 8))),
    (zeros 4 +++ (zeros 2 +++ String (ascii_of_N 192) (String (ascii_of_N 63) (zeros 4)))), (zeros 2).
  assert (Z : StoredFloat f_zero (zeros 4)). { split; [reflexivity|]. exists 0%N. split; [|reflexivity]. do 4 eexists. split; reflexivity. }
  split; [reflexivity|]. split; [reflexivity|]. split; [reflexivity|]. split; [|split].
  - exists (zeros 4), (zeros 4), (zeros 4). split; [reflexivity|]. auto.
  - exists (zeros 2 +++ String (ascii_of_N 128) (String (ascii_of_N 63) "")), (zeros 4), (zeros 4). split; [reflexivity|]. split; [|split; exact Z].
    split; [reflexivity|]. exists 1065353216%N. split; [do 4 eexists; split; reflexivity|reflexivity].
  - exists (zeros 4), (zeros 2 +++ String (ascii_of_N 192) (String (ascii_of_N 63) "")), (zeros 4). split; [reflexivity|]. split; [exact Z|]. split; [|exact Z].
    split; [reflexivity|]. exists 1069547520%N. split; [do 4 eexists; split; reflexivity|reflexivity].
Qed.
Lemma ex_words_facets n : Facets (repeat ex_corner n) (repeat_str n ex_words).
Proof. induction n as [|n IH]; cbn [repeat repeat_str]; constructor; [exact ex_word_facet|exact IH]. Qed.
Lemma ex_text_facets n : n = 3 \/ n = 5 -> LooksText (ex_text n) /\ TextFacets (repeat ex_corner n) (ex_text n).
Proof.
  intros H. split.
  - split; [exists (sdrop 5 (ex_text n)); split; [destruct H as [-> | ->]; vm_compute; reflexivity|symmetry; apply stake_drop]|].
    assert (A : all_ascii (stake 300 (ex_text n)) = true) by (destruct H as [-> | ->]; vm_compute; reflexivity). unfold all_ascii in A. rewrite sall_forall in A.
    intros c Hc. apply N.ltb_lt, A, Hc.
  - exists (lines (ex_text n)). split; [apply (lines_total_aux (ex_text n) ""); intros x []|].
    destruct H as [-> | ->]; vm_compute lines; (split; [|apply Forall_forall; repeat constructor; vm_compute; discriminate]);
    repeat (first [apply VeNil | apply VePoint; [apply line_point_spec; vm_compute; reflexivity|]
      | apply VeOther; [intros p Hp; apply line_point_spec in Hp; vm_compute in Hp; discriminate Hp|]]).
Qed.
Lemma ex_same_facets n : n = 3 \/ n = 5 -> ~ LooksText (ex_same n) /\ BinaryFacets (repeat ex_corner n) (ex_same n).
Proof.
  intros H. split; [intros ((r & E & _) & _); destruct H as [-> | ->]; vm_compute in E; discriminate|].
  exists (repeat_str n ex_words). split; [|apply ex_words_facets]. exists (zeros 80), (ex_count (N.of_nat n)). rewrite repeat_length.
  split; [reflexivity|]. split; [reflexivity|]. destruct H as [-> | ->]; do 4 eexists; (split; reflexivity).
Qed.
(** Of three facets the text is imported and the binary file, which has less than 300 bytes, is refused. *)
Theorem C99_same_refuted : exists ts text binary, LooksText text /\ TextFacets ts text /\ ~ LooksText binary /\ BinaryFacets ts binary /\
  forall oor ctx fuel m, (forall k, ctx k = false) ->
    (exists m', decode_stl oor ctx (S fuel) (eof text) m = Some (m', None)) /\ decode_stl oor ctx (S fuel) (eof binary) m = Some (m, Some SEof).
Proof.
  exists (repeat ex_corner 3), (ex_text 3), (ex_same 3). destruct (ex_text_facets 3 (or_introl eq_refl)) as (LT & TF).
  destruct (ex_same_facets 3 (or_introl eq_refl)) as (NT & BF). split; [exact LT|]. split; [exact TF|]. split; [exact NT|]. split; [exact BF|].
  intros oor ctx fuel m NC. split.
  - assert (F : FileOf (repeat ex_corner 3) (ex_text 3)) by (split; [apply Nat.leb_le; vm_compute; reflexivity|left; auto]).
    destruct (C99_same_partial oor ctx fuel _ _ _ m F F NC) as (m' & E & _). exists m'. exact E.
  - vm_compute. reflexivity.
Qed.
Print Assumptions C99_same_refuted.
Example C99_nonvacuous : FileOf (repeat ex_corner 5) (ex_text 5) /\ FileOf (repeat ex_corner 5) (ex_same 5) /\ ex_text 5 <> ex_same 5.
Proof.
  split; [|split].
  - split; [apply Nat.leb_le; vm_compute; reflexivity|left; apply ex_text_facets; auto].
  - split; [apply Nat.leb_le; vm_compute; reflexivity|right; apply ex_same_facets; auto].
  - vm_compute. discriminate.
Qed.
