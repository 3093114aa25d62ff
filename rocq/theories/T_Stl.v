(** * Theorems about the STL importer: C50-C53 *)
From Coq Require Import ZArith.
From Verif Require Import GoBase GoNum GoFloat GoStrconv Types M_Core M_Geom S_Core S_Geom S_Strconv P_Geom P_Strconv T_Core T_Geom M_Stl S_Stl P_Stl.

Definition eof (data : string) : Input := mkIn data SEof.

(** ** C50: text *)
(** Every text has lines, points and complete groups of three: the hypotheses of the next theorem say nothing about it. *)
Theorem C50_text_total : forall data, exists ls ps ts, LinesOf ls data /\ VertexLines ls ps /\ Threes ps ts.
Proof.
  intros data. destruct (lines_total data) as (ls & L). destruct (vertex_lines_total ls) as (ps & V).
  destruct (threes_total _ ps (le_n _)) as (ts & T). exists ls, ps, ts. auto.
Qed.
Print Assumptions C50_text_total.
Lemma imported_exists oor ctx fuel i m b mesh : is_ascii fuel i = Some (inl b) ->
  (if b then decode_ascii oor ctx i else decode_binary oor ctx i) = (mesh, None) ->
  exists m', decode_stl oor ctx fuel i m = Some (m', None) /\ Imported m m' (unused_id (mo_res m)) mesh.
Proof.
  intros E D. unfold decode_stl. rewrite E, D. eexists. split; [reflexivity|]. unfold Imported. cbn. auto 20.
Qed.
(** What holds: files of at least 300 bytes whose first line says "solid", of lines of at most 65535 bytes, read without
    error and without cancelling.  Missing: shorter files (refused, see below) and longer lines. *)
Theorem C50_text_partial : forall oor ctx fuel data ls ps ts m,
  300 <= String.length data -> LooksText data ->
  LinesOf ls data -> VertexLines ls ps -> Threes ps ts ->
  (forall l, In l ls -> (N.of_nat (String.length l) <= 65535)%N) -> (N.of_nat (List.length ps) <= 2 ^ 32)%N ->
  (forall k, ctx k = false) ->
  exists m' id mesh, decode_stl oor ctx (S fuel) (eof data) m = Some (m', None) /\ Imported m m' id mesh /\ MeshOf oor ps ts mesh /\
    (DistinctIds (mo_res m) ->
     (N.of_nat (List.length (rs_assets (mo_res m)) + List.length (rs_objects (mo_res m))) < 2 ^ 32 - 1)%N ->
     id <> 0%N /\ ~ IdInUse (mo_res m) id).
Proof.
  intros oor ctx fuel data ls ps ts m H LT L V T SL HN NC.
  destruct (is_ascii_spec fuel (eof data) H) as (b & E & Hb). apply Hb in LT. subst b.
  assert (S : ShortLines ls) by (apply Forall_forall; exact SL).
  destruct (ascii_loop_spec oor ctx SEof ls ps V S NC (mkA (new_builder []) [] [] check_every) [] (built_init oor)) as (st & Es & B).
  assert (D : decode_ascii oor ctx (eof data) = (mesh_of (a_mb st) (a_tris st), None)).
  { unfold decode_ascii. cbn [eof in_data in_fin]. rewrite (lines_spec _ _ L), Es. reflexivity. }
  destruct (imported_exists oor ctx (Datatypes.S fuel) (eof data) m true _ E D) as (m' & E' & I).
  exists m', (unused_id (mo_res m)), (mesh_of (a_mb st) (a_tris st)). split; [exact E'|]. split; [exact I|].
  split; [exact (built_mesh oor _ _ _ _ _ B HN T)|].
  intros DI C. destruct (C01_unused_id_fresh_and_lowest _ DI C) as (H0 & H1 & _). auto.
Qed.
Print Assumptions C50_text_partial.
Definition nl : string := newline.
Definition ex_facet : string :=
  " facet normal 0 0 1" +++ nl +++ "  outer loop" +++ nl +++ "   vertex 0 0 0" +++ nl +++ "   vertex 1 0 0" +++ nl +++ "   vertex 0 1.5e0 0" +++ nl +++ "  endloop" +++ nl +++ " endfacet" +++ nl.
(** A text of one facet is refused because it has less than 300 bytes. *)
Theorem C50_short_refuted : exists data ls ps ts,
  LooksText data /\ LinesOf ls data /\ VertexLines ls ps /\ Threes ps ts /\ List.length ts = 1 /\
  forall oor ctx fuel m, decode_stl oor ctx (S fuel) (eof data) m = Some (m, Some SEof).
Proof.
  set (data := "solid s" +++ nl +++ ex_facet +++ "endsolid s" +++ nl).
  pose (ls := lines data).
  pose (f15 := S754_finite false 12582912 (-23)).
  exists data, ls, [P3 f_zero f_zero f_zero; P3 f_one f_zero f_zero; P3 f_zero f15 f_zero], [(P3 f_zero f_zero f_zero, P3 f_one f_zero f_zero, P3 f_zero f15 f_zero)].
  assert (K : forall l, In l ls -> match line_point l with Some p => VertexLine l p | None => forall p, ~ VertexLine l p end).
  { intros l _. destruct (line_point l) as [p|] eqn:E; [apply line_point_spec; exact E|]. intros p Hp. apply line_point_spec in Hp. congruence. }
  split; [|split; [|split; [|split; [|split]]]].
  - split; [exists (sdrop 5 data); split; [reflexivity|symmetry; apply stake_drop]|]. 
    assert (A : all_ascii (stake 300 data) = true) by (vm_compute; reflexivity). unfold all_ascii in A. rewrite sall_forall in A.
    intros c Hc. apply N.ltb_lt, A, Hc.
  - apply (lines_total_aux data ""). intros x [].
  - assert (G : forall l, (exists p, line_point l = Some p) \/ line_point l = None) by (intros l; destruct (line_point l); eauto).
    unfold ls. vm_compute lines.
    repeat (first [apply VeNil | apply VePoint; [apply line_point_spec; vm_compute; reflexivity|]
      | apply VeOther; [intros p Hp; apply line_point_spec in Hp; vm_compute in Hp; discriminate Hp|]]).
  - repeat constructor.
  - reflexivity.
  - intros. vm_compute. reflexivity.
Qed.
Print Assumptions C50_short_refuted.
Fixpoint repeat_str (n : nat) (s : string) : string := match n with O => "" | S n => s +++ repeat_str n s end.
Definition ex_text (n : nat) : string := "solid s" +++ nl +++ repeat_str n ex_facet +++ "endsolid s" +++ nl.
Example C50_nonvacuous :
  300 <= String.length (ex_text 3) /\ all_ascii (ex_text 3) = true /\
  (forall l, In l (lines (ex_text 3)) -> (N.of_nat (String.length l) <= 65535)%N) /\
  exists m', decode_stl (fun _ => 0%Z) (fun _ => false) 1 (eof (ex_text 3)) model_zero = Some (m', None) /\
    List.length (bu_items (mo_build m')) = 1 /\
    map (fun o => match ob_mesh o with Some me => (me_verts me, map (fun t => (t_v1 t, t_v2 t, t_v3 t)) (me_tris me)) | None => ([], []) end) (rs_objects (mo_res m')) =
      [([P3 f_zero f_zero f_zero; P3 f_one f_zero f_zero; P3 f_zero (S754_finite false 12582912 (-23)) f_zero], [(0, 1, 2); (0, 1, 2); (0, 1, 2)]%N)].
Proof.
  split; [apply Nat.leb_le; vm_compute; reflexivity|]. split; [vm_compute; reflexivity|]. split.
  - apply Forall_forall. vm_compute lines. repeat constructor; vm_compute; discriminate.
  - eexists. split; [vm_compute; reflexivity|]. split; vm_compute; reflexivity.
Qed.

(** ** C51: binary *)
(** What holds, for files of at least 300 bytes that do not look like text: the declared number of facets is there and
    there is one triangle for each, *)
Theorem C51_present_partial : forall oor ctx fuel data fin n body m,
  300 <= String.length data -> ~ LooksText data ->
  BinaryFile n body data -> 50 * N.to_nat n <= String.length body -> (3 * n <= 2 ^ 32)%N ->
  (forall k, ctx k = false) ->
  exists m' id mesh ts, decode_stl oor ctx (S fuel) (mkIn data fin) m = Some (m', None) /\ Imported m m' id mesh /\
    Facets ts body /\ List.length ts = N.to_nat n /\ MeshOf oor (flat_map (fun t => let '(a, b, c) := t in [a; b; c]) ts) ts mesh.
Proof.
  intros oor ctx fuel data fin n body m H NT (h & w & Ed & Lh & Lw) Hb HN NC.
  destruct (is_ascii_spec fuel (mkIn data fin) H) as (b & E & Hb'). destruct b; [exfalso; apply NT, Hb'; reflexivity|].
  destruct (facets_total _ body Hb) as (ts & F & Lt). destruct (le32_num n w Lw) as (En & L4 & _).
  destruct (binary_present oor ctx fin ts body (new_builder []) [] [] check_every None F (built_init oor)) as (mb & tris & Eb & B).
  rewrite last_poll_never in Eb by exact NC.
  assert (D : decode_binary oor ctx (mkIn data fin) = (mesh_of mb tris, None)).
  { unfold decode_binary. replace data with ((h +++ w) +++ body) by (rewrite sapp_assoc, Ed; reflexivity).
    assert (L84 : String.length (h +++ w) = 84) by (rewrite slen_app; lia). rewrite <- L84, read_full_app.
    assert (W : word32 80 (h +++ w) = n).
    { unfold word32. replace 80 with (String.length h + 0) by lia. rewrite sdrop_plus, sdrop_0, <- L4, stake_all. exact En. }
    rewrite W, <- Lt, Eb. reflexivity. }
  destruct (imported_exists oor ctx (S fuel) (mkIn data fin) m false _ E D) as (m' & E' & I).
  exists m', (unused_id (mo_res m)), (mesh_of mb tris), ts. repeat (split; [assumption|]).
  apply (built_mesh oor mb tris [] (flat3 ts) ts B); [|apply threes_flat]. rewrite flat3_length, Lt. lia.
Qed.
Print Assumptions C51_present_partial.
(** or a facet is missing; then there is an error and the model is unchanged. *)
Theorem C51_missing_partial : forall oor ctx fuel data fin n body m,
  300 <= String.length data -> ~ LooksText data ->
  BinaryFile n body data -> String.length body < 50 * N.to_nat n ->
  exists e, decode_stl oor ctx (S fuel) (mkIn data fin) m = Some (m, Some e).
Proof.
  intros oor ctx fuel data fin n body m H NT (h & w & Ed & Lh & Lw) Hb.
  destruct (is_ascii_spec fuel (mkIn data fin) H) as (b & E & Hb'). destruct b; [exfalso; apply NT, Hb'; reflexivity|].
  destruct (le32_num n w Lw) as (En & L4 & _).
  assert (D : exists e, snd (decode_binary oor ctx (mkIn data fin)) = Some e).
  { unfold decode_binary. replace data with ((h +++ w) +++ body) by (rewrite sapp_assoc, Ed; reflexivity).
    assert (L84 : String.length (h +++ w) = 84) by (rewrite slen_app; lia). rewrite <- L84, read_full_app.
    assert (W : word32 80 (h +++ w) = n).
    { unfold word32. replace 80 with (String.length h + 0) by lia. rewrite sdrop_plus, sdrop_0, <- L4, stake_all. exact En. }
    rewrite W. destruct (binary_missing oor ctx (N.to_nat n) (mkIn body fin) (new_builder []) [] check_every None Hb) as (e & Ee).
    destruct (binary_loop _ _ _ _ _ _ _ _) as [[mb tris] err]. exists e. exact Ee. }
  destruct D as (e & De). exists e. unfold decode_stl. rewrite E. destruct (decode_binary oor ctx (mkIn data fin)) as [mesh err]. cbn [snd] in De. rewrite De. reflexivity.
Qed.
Print Assumptions C51_missing_partial.
(** A header, a count and facets with given corners *)
Fixpoint zeros (n : nat) : string := match n with O => "" | S n => String "000" (zeros n) end.
Definition ex_count (n : N) : string := String (ascii_of_N n) (zeros 3).
(** normal, (0, 0, 0), (2, 0, 0), (0, -2, 0) *)
Definition ex_bytes : string := zeros 12 +++ zeros 12 +++ (zeros 3 +++ String "@" (zeros 8)) +++ (zeros 4 +++ zeros 3 +++ String (ascii_of_N 192) (zeros 4)) +++ zeros 2.
Definition ex_binary (header : string) (n : nat) : string := header +++ ex_count (N.of_nat n) +++ repeat_str n ex_bytes.
(** A well-formed binary file with four facets, enough for a tetrahedron, is refused. *)
Theorem C51_small_refuted : exists data n ts body,
  BinaryFile n body data /\ Facets ts body /\ List.length ts = N.to_nat n /\ n = 4%N /\ ~ LooksText data /\
  forall oor ctx fuel m, decode_stl oor ctx (S fuel) (eof data) m = Some (m, Some SEof).
Proof.
  destruct (facets_total 4 (repeat_str 4 ex_bytes)) as (ts & F & L); [apply Nat.leb_le; vm_compute; reflexivity|].
  exists (ex_binary (zeros 80) 4), 4%N, ts, (repeat_str 4 ex_bytes). split; [|split; [exact F|split; [exact L|split; [reflexivity|split]]]].
  - exists (zeros 80), (ex_count 4). split; [reflexivity|]. split; [reflexivity|]. exists "004"%char, "000"%char, "000"%char, "000"%char. split; reflexivity.
  - intros ((r & H & _) & _). vm_compute in H. discriminate.
  - intros. vm_compute. reflexivity.
Qed.
Print Assumptions C51_small_refuted.
Example C51_nonvacuous :
  300 <= String.length (ex_binary (zeros 80) 5) /\
  String.length (stake 330 (ex_binary (zeros 80) 5)) = 330 /\
  (exists m', decode_stl (fun _ => 0%Z) (fun _ => false) 1 (eof (ex_binary (zeros 80) 5)) model_zero = Some (m', None) /\
    map (fun o => match ob_mesh o with Some me => (me_verts me, map (fun t => (t_v1 t, t_v2 t, t_v3 t)) (me_tris me)) | None => ([], []) end) (rs_objects (mo_res m')) =
      [([P3 f_zero f_zero f_zero; P3 f_two f_zero f_zero; P3 f_zero (fneg f_two) f_zero], repeat (0, 1, 2)%N 5)]) /\
  decode_stl (fun _ => 0%Z) (fun _ => false) 1 (eof (stake 330 (ex_binary (zeros 80) 5))) model_zero = Some (model_zero, Some SUnexpectedEof).
Proof.
  split; [apply Nat.leb_le; vm_compute; reflexivity|]. split; [vm_compute; reflexivity|].
  split; [eexists; split; vm_compute; reflexivity|]. vm_compute. reflexivity.
Qed.

(** ** C52: cancelling *)
(** Whatever the error, the model is unchanged. *)
Theorem C52_unchanged_partial : forall oor ctx fuel i m m' e, decode_stl oor ctx fuel i m = Some (m', Some e) -> m' = m.
Proof.
  intros oor ctx fuel i m m' e. unfold decode_stl. destruct (is_ascii fuel i) as [[b|e']|]; try discriminate; [|congruence].
  destruct (if b then _ else _) as [mesh [e'|]]; [congruence|discriminate].
Qed.
Print Assumptions C52_unchanged_partial.
(** A text is refused if the context is done when it is polled after one of its 1001, 2001, ... triangles. *)
Theorem C52_text_partial : forall oor ctx fuel data fin ls ps ts m t,
  300 <= String.length data -> LooksText data ->
  LinesOf ls data -> VertexLines ls ps -> Threes ps ts ->
  (forall l, In l ls -> (N.of_nat (String.length l) <= 65535)%N) ->
  1000 < t <= List.length ts -> t mod 1000 = 1 -> ctx t = true ->
  decode_stl oor ctx (S fuel) (mkIn data fin) m = Some (m, Some SCtx).
Proof.
  intros oor ctx fuel data fin ls ps ts m t H LT L V T SL Ht Hm Ct.
  destruct (is_ascii_spec fuel (mkIn data fin) H) as (b & E & Hb). apply Hb in LT. subst b.
  assert (S : ShortLines ls) by (apply Forall_forall; exact SL). unfold decode_stl. rewrite E. unfold decode_ascii. cbn [in_data in_fin].
  rewrite (lines_spec _ _ L).
  pose proof (ascii_cancel oor ctx fin ls ps V S (mkA (new_builder []) [] [] check_every) t) as K. cbn [a_tris a_nodes a_next List.length] in K.
  pose proof (threes_length ps ts T) as LT.
  assert (R : snd (ascii_loop oor ctx fin ls (mkA (new_builder []) [] [] check_every)) = Some SCtx).
  { apply K; try assumption; try lia; [exact polls_init|]. unfold polled. rewrite Hm. replace (Nat.ltb 1000 t) with true by (symmetry; apply Nat.ltb_lt; lia). reflexivity. }
  destruct (ascii_loop _ _ _ _ _) as [st err]. cbn [snd] in R. rewrite R. reflexivity.
Qed.
Print Assumptions C52_text_partial.
(** A complete binary file is imported whatever the context, unless its number of facets is 1001, 2001, ... and the
    context is done after the last one. *)
Theorem C52_binary_ignored : forall oor ctx fuel data fin n body m,
  300 <= String.length data -> ~ LooksText data ->
  BinaryFile n body data -> 50 * N.to_nat n <= String.length body ->
  ~ (1000 < N.to_nat n /\ N.to_nat n mod 1000 = 1) ->
  exists m', decode_stl oor ctx (S fuel) (mkIn data fin) m = Some (m', None) /\ m' <> m.
Proof.
  intros oor ctx fuel data fin n body m H NT (h & w & Ed & Lh & Lw) Hb HP.
  destruct (is_ascii_spec fuel (mkIn data fin) H) as (b & E & Hb'). destruct b; [exfalso; apply NT, Hb'; reflexivity|].
  destruct (facets_total _ body Hb) as (ts & F & Lt). destruct (le32_num n w Lw) as (En & L4 & _).
  destruct (binary_present oor ctx fin ts body (new_builder []) [] [] check_every None F (built_init oor)) as (mb & tris & Eb & B).
  assert (LP : last_poll ctx (List.length ts) (List.length (@nil Triangle)) check_every None = None).
  { destruct (List.length ts) as [|k] eqn:Ek; [reflexivity|]. rewrite last_poll_spec by exact polls_init. cbn [List.length Nat.add]. rewrite <- Ek, Lt in *.
    replace (polled (N.to_nat n)) with false; [reflexivity|]. unfold polled. symmetry. apply andb_false_iff.
    destruct (Nat.ltb_spec 1000 (N.to_nat n)); [|auto]. destruct (Nat.eqb_spec (N.to_nat n mod 1000) 1); [|auto]. tauto. }
  rewrite LP in Eb.
  assert (D : decode_binary oor ctx (mkIn data fin) = (mesh_of mb tris, None)).
  { unfold decode_binary. replace data with ((h +++ w) +++ body) by (rewrite sapp_assoc, Ed; reflexivity).
    assert (L84 : String.length (h +++ w) = 84) by (rewrite slen_app; lia). rewrite <- L84, read_full_app.
    assert (W : word32 80 (h +++ w) = n).
    { unfold word32. replace 80 with (String.length h + 0) by lia. rewrite sdrop_plus, sdrop_0, <- L4, stake_all. exact En. }
    rewrite W, <- Lt, Eb. reflexivity. }
  destruct (imported_exists oor ctx (S fuel) (mkIn data fin) m false _ E D) as (m' & E' & I).
  exists m'. split; [exact E'|]. intros ->. destruct I as (_ & I & _). apply (f_equal bu_items) in I. cbn [bu_items] in I.
  apply (f_equal (@List.length Item)) in I. rewrite app_length in I. cbn in I. lia.
Qed.
Print Assumptions C52_binary_ignored.
Theorem C52_binary_refuted : exists data, forall oor fuel m,
  exists m', decode_stl oor (fun _ => true) (S fuel) (eof data) m = Some (m', None) /\ m' <> m.
Proof.
  exists (ex_binary (zeros 80) 5). intros. apply (C52_binary_ignored oor (fun _ => true) fuel (ex_binary (zeros 80) 5) SEof 5 (repeat_str 5 ex_bytes) m).
  - apply Nat.leb_le. vm_compute. reflexivity.
  - intros ((r & H & _) & _). vm_compute in H. discriminate.
  - exists (zeros 80), (ex_count 5). split; [reflexivity|]. split; [reflexivity|]. exists "005"%char, "000"%char, "000"%char, "000"%char. split; reflexivity.
  - apply Nat.leb_le. vm_compute. reflexivity.
  - intros [H _]. cbn in H. lia.
Qed.
Print Assumptions C52_binary_refuted.
(** A text of up to 1000 facets too: the context is done from the start. *)
Theorem C52_text_refuted : exists data m', forall oor,
  decode_stl oor (fun _ => true) 1 (eof data) model_zero = Some (m' oor, None) /\ rs_objects (mo_res (m' oor)) <> [].
Proof.
  exists (ex_text 3).
  assert (K : forall oor, exists m', decode_stl oor (fun _ => true) 1 (eof (ex_text 3)) model_zero = Some (m', None) /\ rs_objects (mo_res m') <> []).
  { intros oor. eexists. split; [vm_compute; reflexivity|]. discriminate. }
  exists (fun oor => match decode_stl oor (fun _ => true) 1 (eof (ex_text 3)) model_zero with Some (m, _) => m | None => model_zero end).
  intros oor. destruct (K oor) as (m' & E & N). rewrite E. auto.
Qed.
Print Assumptions C52_text_refuted.
Example C52_nonvacuous : 1000 < 1001 <= 1001 /\ 1001 mod 1000 = 1 /\ ~ (1000 < N.to_nat 5 /\ N.to_nat 5 mod 1000 = 1) /\
  exists ls ps ts, LinesOf ls (ex_text 1001) /\ VertexLines ls ps /\ Threes ps ts.
Proof. split; [lia|]. split; [reflexivity|]. split; [intros [H _]; cbn in H; lia|]. apply C50_text_total. Qed.

(** ** C53: detection *)
(** From 300 bytes on, a file is read as text exactly if it begins with "solid" and its first 300 bytes are ASCII, *)
Theorem C53_detection_partial : forall fuel i, 300 <= String.length (in_data i) ->
  exists b, is_ascii (S fuel) i = Some (inl b) /\ (b = true <-> LooksText (in_data i)).
Proof. exact is_ascii_spec. Qed.
Print Assumptions C53_detection_partial.
(** below, the end of the file is an error, *)
Theorem C53_short_refused : forall oor ctx fuel data m, String.length data < 300 ->
  decode_stl oor ctx (S fuel) (eof data) m = Some (m, Some SEof).
Proof.
  intros oor ctx fuel data m H. unfold decode_stl. cbn [is_ascii]. unfold peek. change size_of_header with 300. remember 300 as h.
  cbn [eof in_data in_fin]. replace (Nat.leb h (String.length data)) with false by (symmetry; apply Nat.leb_gt; exact H). reflexivity.
Qed.
Print Assumptions C53_short_refused.
(** and detection never ends if the reader fails before with another error. *)
Theorem C53_reader_error_loops : forall oor ctx fuel data msg m, String.length data < 300 ->
  decode_stl oor ctx fuel (mkIn data (SRead msg)) m = None.
Proof.
  intros oor ctx fuel data msg m H. unfold decode_stl. replace (is_ascii fuel (mkIn data (SRead msg))) with (@None (bool + serr)); [reflexivity|].
  induction fuel as [|fuel IH]; [reflexivity|]. cbn [is_ascii]. unfold peek. change size_of_header with 300 in *. remember 300 as h.
  cbn [in_data in_fin]. replace (Nat.leb h (String.length data)) with false by (symmetry; apply Nat.leb_gt; exact H). rewrite IH. 
  replace (Nat.leb h (String.length data)) with false by (symmetry; apply Nat.leb_gt; exact H). reflexivity.
Qed.
Print Assumptions C53_reader_error_loops.
Theorem C53_detection_refuted :
  (exists data n body, BinaryFile n body data /\ String.length body = 50 * N.to_nat n /\
    forall oor ctx fuel m, decode_stl oor ctx (S fuel) (eof data) m = Some (m, Some SEof)) /\
  (exists i, forall oor ctx fuel m, decode_stl oor ctx fuel i m = None).
Proof.
  split.
  - destruct C51_small_refuted as (data & n & ts & body & B & F & L & -> & _ & D). exists (ex_binary (zeros 80) 4), 4%N, (repeat_str 4 ex_bytes). split; [|split].
    + exists (zeros 80), (ex_count 4). split; [reflexivity|]. split; [reflexivity|]. exists "004"%char, "000"%char, "000"%char, "000"%char. split; reflexivity.
    + vm_compute. reflexivity.
    + intros. apply C53_short_refused. apply Nat.ltb_lt. vm_compute. reflexivity.
  - exists (mkIn "" (SRead "connection reset")). intros. apply C53_reader_error_loops. cbn. lia.
Qed.
Print Assumptions C53_detection_refuted.
(** A well-formed binary file whose header begins with "solid" is read as text, of which there is none. *)
Definition ex_solid : string := ("solid" +++ zeros 75) +++ ex_count 5 +++ repeat_str 5 (zeros 24 +++ zeros 3 +++ String "@" (zeros 8) +++ zeros 4 +++ zeros 3 +++ String "@" (zeros 4) +++ zeros 2).
Theorem C53_solid_refuted : exists n ts body, BinaryFile n body ex_solid /\ Facets ts body /\ List.length ts = N.to_nat n /\ n = 5%N /\
  is_ascii 1 (eof ex_solid) = Some (inl true) /\
  forall oor ctx, decode_ascii oor ctx (eof ex_solid) = (mesh_of (new_builder []) [], None).
Proof.
  pose (body := sdrop 84 ex_solid). destruct (facets_total 5 body) as (ts & F & L); [apply Nat.leb_le; vm_compute; reflexivity|].
  exists 5%N, ts, body. split; [|split; [exact F|split; [exact L|split; [reflexivity|split]]]].
  - exists ("solid" +++ zeros 75), (ex_count 5). split; [reflexivity|]. split; [reflexivity|]. exists "005"%char, "000"%char, "000"%char, "000"%char. split; reflexivity.
  - vm_compute. reflexivity.
  - intros. vm_compute. reflexivity.
Qed.
Print Assumptions C53_solid_refuted.
Example C53_nonvacuous : 300 <= String.length (in_data (eof (ex_text 3))) /\ is_ascii 1 (eof (ex_text 3)) = Some (inl true) /\
  is_ascii 1 (eof (ex_binary (zeros 80) 5)) = Some (inl false).
Proof. split; [apply Nat.leb_le; vm_compute; reflexivity|]. split; vm_compute; reflexivity. Qed.
