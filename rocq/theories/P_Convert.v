(** * Proofs about converting STL files (C82) *)
From Coq Require Import ZArith Lia Reals.
From Verif Require Import GoBase GoNum GoFloat GoStrconv Types XmlTypes M_Core M_Geom S_Core S_Geom S_Strconv S_RoundTrip P_Geom P_Float P_Strconv P_Parse
  T_Core T_Geom M_Stl S_Stl P_Stl S_Coherency S_Validate S_Convert.
From Verif Require Import Types.
Local Open Scope list_scope.

(** ** Reading, backwards *)
Lemma is_ascii_inv fuel i b : is_ascii fuel i = Some (inl b) -> (b = true <-> LooksText (in_data i)).
Proof.
  destruct (Nat.le_gt_cases 300 (String.length (in_data i))) as [H|H].
  - destruct fuel as [|f]; [discriminate|]. destruct (is_ascii_spec f i H) as (b' & E & Hb). intros X. rewrite X in E. injection E as <-. exact Hb.
  - revert b. induction fuel as [|f IH]; intros b X; [discriminate|]. cbn [is_ascii] in X. unfold peek in X. change size_of_header with 300 in X.
    assert (L : Nat.leb 300 (String.length (in_data i)) = false) by (apply Nat.leb_gt; exact H). rewrite !L in X.
    destruct (in_fin i); try discriminate X; apply IH; exact X.
Qed.
Section Convert.
Context (oor : f32 -> Z) (ctx : nat -> bool).
Lemma ascii_inv fin ls ps : VertexLines ls ps -> forall st qs st', Built oor (a_mb st) (a_tris st) (a_nodes st) qs ->
  ascii_loop oor ctx fin ls st = (st', None) -> Built oor (a_mb st') (a_tris st') (a_nodes st') (qs ++ ps).
Proof.
  intros V. induction V as [|l ls p ps Hl V IH|l ls ps Hl V IH]; intros st qs st' B E; cbn [ascii_loop] in E.
  - injection E as <- _. rewrite app_nil_r. exact B.
  - destruct (_ <? _)%N; [discriminate|]. pose proof (ascii_line_spec oor ctx l st qs B) as K. destruct (ascii_line oor ctx l st) as [st1 [e|]]; [discriminate|].
    apply line_point_spec in Hl. rewrite Hl in K. specialize (IH _ _ _ K E). rewrite <- app_assoc in IH. exact IH.
  - destruct (_ <? _)%N; [discriminate|]. pose proof (ascii_line_spec oor ctx l st qs B) as K. destruct (ascii_line oor ctx l st) as [st1 err].
    destruct (line_point l) as [p|] eqn:X; [apply line_point_spec in X; destruct (Hl p X)|]. destruct K as [-> ->]. exact (IH _ _ _ B E).
Qed.

(** ** Numbers are floats *)
Lemma parse_num w x ok : parse_float w = (x, ok) -> Num x.
Proof.
  unfold Num, parse_float. destruct (opt_sign w) as [neg r]. destruct (_ || _); [intros [= <- _]; reflexivity|].
  destruct (seq _ _); [intros [= <- _]; reflexivity|]. destruct (read_float w r) as [[[[hex d] p] e]|]; [|intros [= <- _]; reflexivity].
  intros [= <- _]. destruct hex.
  - destruct (hex_round_value neg (hex_val d) (e - 4 * Z.of_nat p)) as [H1 H2]. revert H1 H2. unfold small.
    match goal with |- (Rlt ?a ?b -> _) -> _ => destruct (Rlt_dec a b) as [S|S] end; intros H1 H2; [apply finite_valid, (H1 S)|rewrite (H2 S); reflexivity].
  - destruct (dec_round_value neg (dec_val d) (e - Z.of_nat p)) as [H1 H2]. revert H1 H2. unfold small.
    match goal with |- (Rlt ?a ?b -> _) -> _ => destruct (Rlt_dec a b) as [S|S] end; intros H1 H2; [apply finite_valid, (H1 S)|rewrite (H2 S); reflexivity].
Qed.
Lemma vertex_lines_num ls ps : VertexLines ls ps -> Forall PointFits ps.
Proof.
  intros V. induction V as [|l ls p ps (x & y & z & _ & (o1 & H1) & (o2 & H2) & (o3 & H3)) V IH|]; [constructor| |assumption].
  constructor; [|exact IH]. split; [exact (parse_num _ _ _ H1)|]. split; [exact (parse_num _ _ _ H2)|exact (parse_num _ _ _ H3)].
Qed.
Lemma stored_num p w : StoredPoint p w -> PointFits p.
Proof. intros (a & b & c & _ & (H1 & _) & (H2 & _) & (H3 & _)). split; [exact H1|]. split; assumption. Qed.
Lemma facets_num ts body : Facets ts body -> Forall PointFits (flat3 ts).
Proof.
  intros F. induction F as [rest|[[a b] c] ts w rest (nrm & wa & wb & wc & att & _ & _ & _ & Ha & Hb & Hc) F IH]; [constructor|].
  cbn [flat3 flat_map app]. constructor; [exact (stored_num _ _ Ha)|]. constructor; [exact (stored_num _ _ Hb)|]. constructor; [exact (stored_num _ _ Hc)|exact IH].
Qed.

(** ** A file holds fewer points than bytes *)
Lemma words_length l s : Words l s -> List.length l <= String.length s.
Proof.
  intros W. induction W as [w B|w x l r B Hx Hs W IH C]; [cbn; lia|]. rewrite !slen_app. cbn [List.length]. destruct x as [|c x]; [congruence|]. cbn [String.length]. lia.
Qed.
Lemma vertex_lines_length ls ps : VertexLines ls ps -> forall data, LinesOf ls data -> List.length ps <= String.length data.
Proof.
  intros V. induction V as [|l ls p ps (x & y & z & W & _) V IH|l ls ps Hl V IH]; intros data L; [cbn; lia| |].
  - apply words_length in W. cbn [List.length] in W. inversion L as [|l' H1 H2|l' ls' s H1 H2]; subst.
    + inversion V; subst. cbn. lia.
    + specialize (IH _ H2). rewrite !slen_app. cbn. lia.
  - inversion L as [|l' H1 H2|l' ls' s H1 H2]; subst.
    + inversion V; subst. cbn. lia.
    + specialize (IH _ H2). rewrite !slen_app. cbn. lia.
Qed.

Lemma imported_decoded fuel i m m' b : is_ascii fuel i = Some (inl b) -> decode_stl oor ctx fuel i m = Some (m', None) ->
  exists mesh, (if b then decode_ascii oor ctx i else decode_binary oor ctx i) = (mesh, None) /\ Imported m m' (unused_id (mo_res m)) mesh.
Proof.
  intros E. unfold decode_stl. rewrite E. destruct (if b then _ else _) as [mesh [e|]]; [discriminate|]. intros [= <-].
  exists mesh. split; [reflexivity|]. unfold Imported. cbn. auto 20.
Qed.
Lemma decoded fuel i m m' : decode_stl oor ctx fuel i m = Some (m', None) ->
  exists ts ps mb tris nodes, StlFacets (in_data i) ts /\ Threes ps ts /\ Built oor mb tris nodes ps /\
    Imported m m' (unused_id (mo_res m)) (mesh_of mb tris) /\ List.length ps <= String.length (in_data i) /\ Forall PointFits ps.
Proof.
  intros D. destruct (is_ascii fuel i) as [[b|e]|] eqn:A; [|unfold decode_stl in D; rewrite A in D; discriminate..].
  pose proof (is_ascii_inv _ _ _ A) as LT. destruct (imported_decoded _ _ _ _ _ A D) as (mesh & E & I). clear D A. destruct b.
  - destruct (lines_total (in_data i)) as (ls & L). destruct (vertex_lines_total ls) as (ps & V). destruct (threes_total _ ps (le_n _)) as (ts & T).
    unfold decode_ascii in E. rewrite (lines_spec _ _ L) in E. destruct (ascii_loop oor ctx (in_fin i) ls _) as [st err] eqn:X. injection E as <- ->.
    pose proof (ascii_inv _ _ _ V (mkA (new_builder []) [] [] check_every) [] _ (built_init oor) X) as B. cbn [app] in B.
    exists ts, ps, (a_mb st), (a_tris st), (a_nodes st). split; [apply (SfText _ _ ls ps); [apply LT; reflexivity|assumption..]|]. split; [exact T|]. split; [exact B|].
    split; [exact I|]. split; [exact (vertex_lines_length _ _ V _ L)|exact (vertex_lines_num _ _ V)].
  - assert (NT : ~ LooksText (in_data i)) by (intros H; apply LT in H; discriminate). clear LT.
    unfold decode_binary, read_full in E. destruct (Nat.leb_spec 84 (String.length (in_data i))) as [H|H]; [|discriminate].
    destruct (cut 80 (in_data i)) as (h & r & Ed & Lh); [lia|]. rewrite Ed, slen_app in H. destruct (cut 4 r) as (w & body & -> & L4); [lia|].
    destruct (le32_total w L4) as (n & Lw). destruct (le32_num n w Lw) as (En & _ & _).
    assert (L84 : String.length (h +++ w) = 84) by (rewrite slen_app; lia).
    rewrite Ed in E. replace (h +++ w +++ body) with ((h +++ w) +++ body) in E by (rewrite sapp_assoc; reflexivity).
    rewrite <- L84, stake_app_l, sdrop_app_l in E.
    assert (W : word32 80 (h +++ w) = n).
    { unfold word32. replace 80 with (String.length h + 0) by lia. rewrite sdrop_plus, sdrop_0, <- L4, stake_all. exact En. }
    rewrite W in E. destruct (Nat.lt_ge_cases (String.length body) (50 * N.to_nat n)) as [S|S].
    + destruct (binary_missing oor ctx (N.to_nat n) (mkIn body (in_fin i)) (new_builder []) [] check_every None S) as (e & Ee).
      destruct (binary_loop _ _ _ _ _ _ _ _) as [[mb tris] err]. cbn [snd] in Ee. subst err. discriminate.
    + destruct (facets_total _ body S) as (ts & F & Lt).
      destruct (binary_present oor ctx (in_fin i) ts body (new_builder []) [] [] check_every None F (built_init oor)) as (mb & tris & Eb & B).
      rewrite <- Lt, Eb in E. injection E as <- _. cbn [app] in B.
      exists ts, (flat3 ts), mb, tris, []. split; [apply (SfBinary _ _ n body); [exact NT|exists h, w; rewrite Ed; auto|exact F|exact Lt]|].
      split; [apply threes_flat|]. split; [exact B|]. split; [exact I|]. split; [|exact (facets_num _ _ F)].
      rewrite flat3_length, Ed, !slen_app. lia.
Qed.
End Convert.

(** ** The mesh *)
Lemma cell_sym oor p q : SameCell oor p q -> SameCell oor q p.
Proof. rewrite !same_cell_spec. congruence. Qed.
Lemma cell_trans oor p q r : SameCell oor p q -> SameCell oor q r -> SameCell oor p r.
Proof. rewrite !same_cell_spec. congruence. Qed.
Lemma count_le1 {A} (dec : forall x y : A, {x = y} + {x <> y}) x : forall l,
  (forall i j, nth_error l i = Some x -> nth_error l j = Some x -> i = j) <-> count_occ dec l x <= 1.
Proof.
  induction l as [|y l IH]; [cbn; split; [lia|intros _ [|i]; discriminate]|]. cbn [count_occ]. destruct (dec y x) as [->|N].
  - split.
    + intros H. destruct (count_occ dec l x) eqn:C; [lia|]. assert (I : In x l) by (apply (count_occ_In dec); lia).
      apply In_nth_error in I as (k & K). specialize (H 0 (S k) eq_refl K). discriminate.
    + intros H. assert (C : count_occ dec l x = 0) by lia. apply (count_occ_not_In dec) in C.
      assert (Z : forall k, nth_error (x :: l) k = Some x -> k = 0) by (intros [|k] K; [reflexivity|destruct C; exact (nth_error_In l k K)]).
      intros i j Hi Hj. rewrite (Z i Hi), (Z j Hj). reflexivity.
  - rewrite <- IH. split; intros H.
    + intros i j Hi Hj. specialize (H (S i) (S j) Hi Hj). congruence.
    + intros [|i] [|j] Hi Hj; try reflexivity; [cbn in Hi; congruence|cbn in Hj; congruence|f_equal; exact (H i j Hi Hj)].
Qed.
Lemma forall2_nth1 {A B} (R : A -> B -> Prop) l m : Forall2 R l m -> forall i a, nth_error l i = Some a -> exists b, nth_error m i = Some b /\ R a b.
Proof.
  intros F. induction F as [|a b l m H F IH]; intros [|i] x E; try discriminate; [injection E as <-; exists b; auto|exact (IH i x E)].
Qed.
Lemma forall2_nth2 {A B} (R : A -> B -> Prop) l m : Forall2 R l m -> forall i b, nth_error m i = Some b -> exists a, nth_error l i = Some a /\ R a b.
Proof.
  intros F. induction F as [|a b l m H F IH]; intros [|i] x E; try discriminate; [injection E as <-; exists a; auto|exact (IH i x E)].
Qed.
Section Mesh.
Context (oor : f32 -> Z) (me : Mesh) (ts : list Corners).
Hypothesis tri : Forall2 (TriangleOf oor me) (me_tris me) ts.
Hypothesis apart : forall i j p q, i < j -> nth_error (me_verts me) i = Some p -> nth_error (me_verts me) j = Some q -> ~ SameCell oor p q.
Lemma corner_iff i j p q : Corner oor me i p -> Corner oor me j q -> (i = j <-> SameCell oor p q).
Proof using apart.
  intros (v & Hv & Sv) (w & Hw & Sw). split.
  - intros ->. assert (v = w) by congruence. subst w. exact (cell_trans _ _ _ _ (cell_sym _ _ _ Sv) Sw).
  - intros H. assert (K : SameCell oor v w) by exact (cell_trans _ _ _ _ Sv (cell_trans _ _ _ _ H (cell_sym _ _ _ Sw))).
    destruct (lt_eq_lt_dec (N.to_nat i) (N.to_nat j)) as [[L|L]|L]; [destruct (apart _ _ _ _ L Hv Hw K)|lia|destruct (apart _ _ _ _ L Hw Hv (cell_sym _ _ _ K))].
Qed.
Lemma corner_range i p : Corner oor me i p -> (i < N.of_nat (List.length (me_verts me)))%N.
Proof. intros (v & H & _). assert (N.to_nat i < List.length (me_verts me)) by (apply nth_error_Some; congruence). lia. Qed.
Definition edge_of (e : N * N) (x : Point3D * Point3D) : Prop := Corner oor me (fst e) (fst x) /\ Corner oor me (snd e) (snd x).
Lemma edges_match : Forall2 edge_of (edges_of me) (facet_edges ts).
Proof using tri.
  unfold edges_of, facet_edges. clear apart. induction tri as [|x [[a b] c] l l' (H1 & H2 & H3 & _) F IH]; cbn [map concat flat_map app]; [constructor|].
  repeat (constructor; [split; assumption|]). exact (IH F).
Qed.
Lemma edge_iff e f x y : edge_of e x -> edge_of f y -> (e = f <-> SameEdge oor x y).
Proof using apart.
  intros [H1 H2] [H3 H4]. pose proof (corner_iff _ _ _ _ H1 H3) as E1. pose proof (corner_iff _ _ _ _ H2 H4) as E2. destruct e, f. cbn [fst snd] in *.
  split; [intros [= -> ->]; split; tauto|]. intros [K1 K2]. f_equal; tauto.
Qed.
Lemma oriented_watertight : Oriented me <-> Watertight oor ts.
Proof using tri apart.
  pose proof edges_match as F. unfold Oriented, Watertight, occurrences. split.
  - intros O i x Hx. destruct (forall2_nth2 _ _ _ F i x Hx) as ([a b] & Ha & Ex). destruct (O a b (nth_error_In _ _ Ha)) as (N & C1 & C2).
    split; [|split].
    + intros K. apply N, (corner_iff _ _ _ _ (proj1 Ex) (proj2 Ex)), K.
    + intros j y Hy Sy. destruct (forall2_nth2 _ _ _ F j y Hy) as (f & Hf & Ey). apply (edge_iff _ _ _ _ Ex Ey) in Sy. subst f.
      pose proof (proj2 (count_le1 edge_dec (a, b) (edges_of me)) ltac:(lia)) as U. exact (U j i Hf Ha).
    + assert (I : In (b, a) (edges_of me)) by (apply (count_occ_In edge_dec); lia). apply In_nth_error in I as (j & Hj).
      destruct (forall2_nth1 _ _ _ F j _ Hj) as (y & Hy & Ey). exists j, y. split; [exact Hy|].
      apply (edge_iff (b, a) (b, a) (turned x) y); [split; [exact (proj2 Ex)|exact (proj1 Ex)]|exact Ey|reflexivity].
  - intros W.
    assert (U : forall a b, In (a, b) (edges_of me) -> count_occ edge_dec (edges_of me) (a, b) = 1).
    { intros a b I. assert (count_occ edge_dec (edges_of me) (a, b) <= 1).
      { apply count_le1. intros i j Hi Hj. destruct (forall2_nth1 _ _ _ F i _ Hi) as (x & Hx & Ex). destruct (forall2_nth1 _ _ _ F j _ Hj) as (y & Hy & Ey).
        destruct (W j y Hy) as (_ & U & _). apply (U i x Hx). apply (edge_iff _ _ _ _ Ey Ex). reflexivity. }
      apply (count_occ_In edge_dec) in I. lia. }
    intros a b I. split; [|split; [exact (U a b I)|]].
    + apply In_nth_error in I as (i & Hi). destruct (forall2_nth1 _ _ _ F i _ Hi) as (x & Hx & Ex). destruct (W i x Hx) as (A & _).
      intros E. apply A. apply (corner_iff _ _ _ _ (proj1 Ex) (proj2 Ex)). exact E.
    + apply U. apply In_nth_error in I as (i & Hi). destruct (forall2_nth1 _ _ _ F i _ Hi) as (x & Hx & Ex). destruct (W i x Hx) as (_ & _ & j & y & Hy & Sy).
      destruct (forall2_nth2 _ _ _ F j y Hy) as (f & Hf & Ey). assert (E : (b, a) = f).
      { apply (edge_iff (b, a) f (turned x) y); [split; [exact (proj2 Ex)|exact (proj1 Ex)]|exact Ey|exact Sy]. }
      rewrite E. exact (nth_error_In _ _ Hf).
Qed.
Lemma proper_iff x t : TriangleOf oor me x t -> (NoDup [t_v1 x; t_v2 x; t_v3 x] <-> Proper oor t).
Proof using apart.
  destruct t as [[a b] c]. intros (H1 & H2 & H3 & _). unfold Proper, Apart.
  rewrite <- (corner_iff _ _ _ _ H1 H2), <- (corner_iff _ _ _ _ H2 H3), <- (corner_iff _ _ _ _ H3 H1). split.
  - intros D. inversion D as [|? ? D1 D2]; subst. inversion D2 as [|? ? D3 _]; subst. cbn in D1, D3. intuition congruence.
  - intros (D1 & D2 & D3). repeat constructor; cbn; intuition congruence.
Qed.
Lemma proper_all : (forall x, In x (me_tris me) -> NoDup [t_v1 x; t_v2 x; t_v3 x]) <-> Forall (Proper oor) ts.
Proof using tri apart.
  assert (G : forall l l', Forall2 (TriangleOf oor me) l l' -> (forall x, In x l -> NoDup [t_v1 x; t_v2 x; t_v3 x]) <-> Forall (Proper oor) l').
  { intros l l' F. induction F as [|x t l l' H F IH]; [split; [constructor|intros _ x []]|]. split.
    - intros K. constructor; [apply (proper_iff x t H), K; left; reflexivity|]. apply IH. intros y Hy. apply K. right. exact Hy.
    - intros K. inversion K as [|? ? K1 K2]; subst. intros y [<-|Hy]; [apply (proper_iff x t H), K1|apply IH; assumption]. }
  exact (G _ _ tri).
Qed.
Lemma tri_corners x : In x (me_tris me) -> (forall v, In v [t_v1 x; t_v2 x; t_v3 x] -> (v < N.of_nat (List.length (me_verts me)))%N) /\ t_pid x = 0%N /\ x = triangle (t_v1 x) (t_v2 x) (t_v3 x).
Proof using tri.
  intros I. apply In_nth_error in I as (i & Hi). destruct (forall2_nth1 _ _ _ tri i x Hi) as ([[a b] c] & _ & (H1 & H2 & H3 & E1 & E2 & E3 & E4 & E5)).
  split; [|split; [exact E1|destruct x; cbn in *; subst; reflexivity]]. intros v [<-|[<-|[<-|[]]]]; eapply corner_range; eassumption.
Qed.
Lemma enough : 4 <= List.length ts -> Forall (Proper oor) ts -> 3 <= List.length (me_verts me).
Proof using tri apart.
  intros L P. pose proof tri_corners as TC. pose proof (proj2 proper_all P) as D. pose proof (Forall2_length (B:=Corners) _ _ _ tri) as E. revert TC D E. destruct (me_tris me) as [|x l]; intros TC D E; [cbn in E; lia|].
  destruct (TC x (or_introl eq_refl)) as (R & _). specialize (D x (or_introl eq_refl)). inversion D as [|? ? D1 D2]; subst. inversion D2 as [|? ? D3 _]; subst.
  pose proof (R _ (or_introl eq_refl)). pose proof (R _ (or_intror (or_introl eq_refl))). pose proof (R _ (or_intror (or_intror (or_introl eq_refl)))). cbn in D1, D3. lia.
Qed.
Lemma watertight_proper : Watertight oor ts -> Forall (Proper oor) ts.
Proof using.
  clear tri apart. intros W. apply Forall_forall. intros [[a b] c] I.
  assert (K : forall x, In x (facet_edges ts) -> Apart oor (fst x) (snd x)) by (intros x Hx; apply In_nth_error in Hx as (i & Hi); exact (proj1 (W i x Hi))).
  assert (J : forall x, In x [(a, b); (b, c); (c, a)] -> Apart oor (fst x) (snd x)) by (intros x Hx; apply K; unfold facet_edges; apply in_flat_map; exists (a, b, c); auto).
  split; [exact (J (a, b) ltac:(cbn; auto))|]. split; [exact (J (b, c) ltac:(cbn; auto))|exact (J (c, a) ltac:(cbn; auto))].
Qed.
Lemma coherent_iff : Coherent me <-> 4 <= List.length ts /\ Watertight oor ts.
Proof using tri apart.
  unfold Coherent. rewrite oriented_watertight, (Forall2_length (B:=Corners) _ _ _ tri). split; [tauto|]. intros [L W]. split; [|auto]. apply enough; [exact L|apply watertight_proper, W].
Qed.
Lemma mesh_conforms m path o : ob_type o = 0%Z -> me_ext me = [] -> (MeshConforms m path o me <-> 4 <= List.length ts /\ Forall (Proper oor) ts).
Proof using tri apart.
  intros T X. unfold MeshConforms. split.
  - intros [H1 H2]. destruct (H1 (or_introl T)) as [_ [L|L]]; [|congruence]. rewrite (Forall2_length (B:=Corners) _ _ _ tri) in L. split; [exact L|]. apply proper_all. intros x Hx. apply (H2 x Hx).
  - intros [L P]. split; [intros _; split; [apply enough; assumption|left; rewrite (Forall2_length (B:=Corners) _ _ _ tri); exact L]|].
    intros x Hx. destruct (tri_corners x Hx) as (R & P0 & _). split; [exact (proj2 proper_all P x Hx)|]. split; [exact R|]. congruence.
Qed.
End Mesh.
Lemma built_apart oor mb tris nodes ps : Built oor mb tris nodes ps -> (N.of_nat (List.length ps) <= 2 ^ 32)%N ->
  forall i j p q, i < j -> nth_error (me_verts (mesh_of mb tris)) i = Some p -> nth_error (me_verts (mesh_of mb tris)) j = Some q -> ~ SameCell oor p q.
Proof.
  intros (E & _ & _) B. destruct (C10_builder_indices oor [] ps mb _ B E) as (_ & _ & _ & _ & U). intros i j p q H. apply U. cbn. lia.
Qed.

(** ** The model *)
Section Model.
Context (m m' : Model) (id : N) (mesh : Mesh).
Notation o := (mkObj id "" "" "" 0 0 0 mg_zero (Some mesh) None []).
Hypothesis im : Imported m m' id mesh.
Lemma im_res : mo_res m' = mkRes (rs_assets (mo_res m)) (rs_objects (mo_res m) ++ [o]) (rs_any (mo_res m)).
Proof using im. exact (proj1 im). Qed.
Lemma im_build : mo_build m' = mkBuild (bu_items (mo_build m) ++ [mkItem id matrix_zero "" mg_zero []]) (bu_any (mo_build m)).
Proof using im. apply im. Qed.
Lemma im_path : mo_path m' = mo_path m. Proof using im. apply im. Qed.
Lemma im_exts : mo_exts m' = mo_exts m. Proof using im. apply im. Qed.
Lemma im_childs : mo_childs m' = mo_childs m. Proof using im. apply im. Qed.
Lemma im_atts : mo_atts m' = mo_atts m. Proof using im. apply im. Qed.
Lemma im_md : mo_md m' = mo_md m. Proof using im. apply im. Qed.
Lemma im_rootrels : mo_rootrels m' = mo_rootrels m. Proof using im. apply im. Qed.
Lemma im_rels : mo_rels m' = mo_rels m. Proof using im. apply im. Qed.
Lemma addressed_im q rs : Addressed m q rs -> exists rs', Addressed m' q rs' /\ rs_assets rs' = rs_assets rs /\
  (rs_objects rs' = rs_objects rs \/ rs_objects rs' = rs_objects rs ++ [o]).
Proof using im.
  assert (E1 : rs_assets (mo_res m') = rs_assets (mo_res m) /\ (rs_objects (mo_res m') = rs_objects (mo_res m) \/ rs_objects (mo_res m') = rs_objects (mo_res m) ++ [o])).
  { rewrite im_res. cbn. auto. }
  intros [H|H1 H2|H1 H2|c H1 H2 H3].
  - exists (mo_res m'). split; [constructor; exact H|exact E1].
  - exists (mo_res m'). split; [apply AddrRoot; rewrite im_path; assumption|exact E1].
  - exists (mo_res m'). split; [apply AddrDefault; [rewrite im_path|]; assumption|exact E1].
  - exists (ch_res c). split; [apply AddrChild; [exact H1|rewrite im_path; exact H2|rewrite im_childs; exact H3]|auto].
Qed.
Lemma addressed_back q rs' : Addressed m' q rs' -> exists rs, Addressed m q rs /\ rs_assets rs' = rs_assets rs.
Proof using im.
  assert (E1 : rs_assets (mo_res m') = rs_assets (mo_res m)) by (rewrite im_res; reflexivity).
  intros [H|H1 H2|H1 H2|c H1 H2 H3].
  - exists (mo_res m). split; [constructor; exact H|exact E1].
  - exists (mo_res m). rewrite im_path in H1, H2. split; [apply AddrRoot; assumption|exact E1].
  - exists (mo_res m). rewrite im_path in H1. split; [apply AddrDefault; assumption|exact E1].
  - exists (ch_res c). rewrite im_path in H2. rewrite im_childs in H3. split; [apply AddrChild; assumption|reflexivity].
Qed.
Lemma obj_in q k x : ObjIn m q k x -> ObjIn m' q k x.
Proof using im.
  intros (rs & A & a & b & E & K & F). destruct (addressed_im q rs A) as (rs' & A' & _ & [O|O]); exists rs'; (split; [exact A'|]); rewrite O, E.
  - exists a, b. auto.
  - exists a, (b ++ [o]). rewrite <- app_assoc. auto.
Qed.
Lemma asset_in q k x : AssetIn m q k x <-> AssetIn m' q k x.
Proof using im.
  split; intros (rs & A & F).
  - destruct (addressed_im q rs A) as (rs' & A' & E & _). exists rs'. rewrite E. auto.
  - destruct (addressed_back q rs A) as (rs' & A' & E). exists rs'. rewrite <- E. auto.
Qed.
Lemma mesh_im path x me : MeshConforms m path x me -> MeshConforms m' path x me.
Proof using im.
  intros [H1 H2]. split; [exact H1|]. intros t Ht. destruct (H2 t Ht) as (A & B & C). split; [exact A|]. split; [exact B|]. intros P I.
  destruct (C P I) as ((a & Ha) & C2). split; [exists a; apply asset_in; exact Ha|]. intros a' n p Ha'. apply C2, asset_in, Ha'.
Qed.
Lemma obj_im path x : ObjConforms m path x -> ObjConforms m' path x.
Proof using im.
  intros (A & B & [(me & E1 & E2 & P & M)|(cs & E1 & E2 & P & C)]); (split; [exact A|]); (split; [exact B|]).
  - left. exists me. split; [exact E1|]. split; [exact E2|]. split; [|exact (mesh_im _ _ _ M)]. intros N. destruct (P N) as ((a & Ha) & Q).
    split; [exists a; apply asset_in; exact Ha|]. intros a' n Ha'. apply Q, asset_in, Ha'.
  - right. exists cs. split; [exact E1|]. split; [exact E2|]. split; [exact P|]. intros c Hc. destruct (C c Hc) as (N & q & r & T & O & D).
    split; [exact N|]. exists q, r. split; [exact T|]. split; [exact (obj_in _ _ _ O)|exact D].
Qed.
Lemma meta_im l : MetaConforms m l -> MetaConforms m' l.
Proof using im. unfold MetaConforms, S_Validate.Declared. rewrite im_exts. auto. Qed.
Lemma elem_im X path el : mo_exts m = [] -> ElemConforms X m' path el.
Proof using im. intros E e x H. rewrite im_exts, E in H. destruct H. Qed.
Lemma root_im : S_Validate.root_path m' = S_Validate.root_path m.
Proof using im. unfold S_Validate.root_path. rewrite im_path. reflexivity. Qed.
Lemma count_im k : id_count (mo_res m') k = id_count (mo_res m) k + (if (id =? k)%N then 1 else 0).
Proof using im.
  unfold id_count. rewrite im_res. cbn [rs_assets rs_objects]. rewrite filter_app, app_length. cbn [filter ob_id]. destruct (id =? k)%N; cbn; lia.
Qed.
Lemma not_used rs k : ~ IdInUse rs k -> id_count rs k = 0.
Proof using.
  clear im. intros H. unfold id_count.
  assert (A : filter (fun a => (asset_id a =? k)%N) (rs_assets rs) = []).
  { destruct (filter _ (rs_assets rs)) as [|a l] eqn:E; [reflexivity|]. assert (I : In a (filter (fun a => (asset_id a =? k)%N) (rs_assets rs))) by (rewrite E; left; reflexivity).
    apply filter_In in I as [I J]. apply N.eqb_eq in J. destruct H. left. exists a. auto. }
  assert (B : filter (fun o => (ob_id o =? k)%N) (rs_objects rs) = []).
  { destruct (filter _ (rs_objects rs)) as [|a l] eqn:E; [reflexivity|]. assert (I : In a (filter (fun o => (ob_id o =? k)%N) (rs_objects rs))) by (rewrite E; left; reflexivity).
    apply filter_In in I as [I J]. apply N.eqb_eq in J. destruct H. right. exists a. auto. }
  rewrite A, B. reflexivity.
Qed.
Lemma conforms_im L X : mo_exts m = [] -> id <> 0%N -> ~ IdInUse (mo_res m) id -> Conforms L X m ->
  (Conforms L X m' <-> MeshConforms m' (S_Validate.root_path m') o mesh).
Proof using im.
  intros HE N0 NU (C1 & C2 & C3 & C4 & C5 & (R1 & R2 & R3 & R4) & C7 & C8). split.
  - intros (_ & _ & _ & _ & _ & (_ & _ & _ & D) & _ & _). destruct (D o) as [(_ & _ & [(me & E & _ & _ & M)|(cs & E & _)]) _].
    + rewrite im_res. cbn [rs_objects]. apply in_app_iff. right. left. reflexivity.
    + cbn [ob_mesh] in E. injection E as <-. exact M.
    + discriminate E.
  - intros M. split; [rewrite im_exts, HE; intros e []|]. split; [rewrite im_atts, im_rootrels; exact C2|]. split; [rewrite im_atts, im_rels; exact C3|].
    split; [rewrite im_md; apply meta_im, C4|]. split; [apply elem_im, HE|]. split; [split; [|split; [|split]]|split].
    + intros k Hk. rewrite count_im. specialize (R1 k Hk). destruct (N.eqb_spec id k) as [<-|]; [rewrite (not_used _ _ NU); lia|lia].
    + rewrite im_res. exact R2.
    + intros a _. apply elem_im, HE.
    + intros x Hx. split; [|apply elem_im, HE]. rewrite im_res in Hx. cbn [rs_objects] in Hx. apply in_app_iff in Hx as [Hx|[<-|[]]].
      * rewrite root_im. apply obj_im, (R4 x Hx).
      * split; [exact N0|]. split; [cbn; congruence|]. left. exists mesh. split; [reflexivity|]. split; [reflexivity|]. split; [cbn; congruence|exact M].
    + rewrite im_childs, im_atts, root_im. intros p c Hc. destruct (C7 p c Hc) as (D1 & D2 & D3 & D4 & D5 & D6). split; [exact D1|]. split; [exact D2|].
      split; [exact D3|]. split; [exact D4|]. split; [intros a _; apply elem_im, HE|]. intros x Hx. split; [apply obj_im, (D6 x Hx)|apply elem_im, HE].
    + intros it Hit. rewrite im_build in Hit. cbn [bu_items] in Hit. apply in_app_iff in Hit as [Hit|[<-|[]]].
      * destruct (C8 it Hit) as (D1 & (q & x & D2 & D3 & D4) & D5). split; [exact D1|]. split; [|apply meta_im, D5]. exists q, x. split; [exact D2|]. split; [apply obj_in, D3|exact D4].
      * split; [exact N0|]. split; [|split; [intros md []|constructor]]. exists "", o. split; [constructor; intros g []|]. split; [|discriminate].
        exists (mo_res m'). split; [constructor; reflexivity|]. rewrite im_res. cbn [rs_objects it_oid]. exists (rs_objects (mo_res m)), []. split; [reflexivity|]. split; [reflexivity|].
        apply Forall_forall. intros y Hy E. apply NU. right. exists y. auto.
Qed.
Lemma small_im : SmallVertices m -> (N.of_nat (List.length (me_verts mesh)) < 2 ^ 32)%N -> SmallVertices m'.
Proof using im.
  intros S B rs x me [->|(p & c & Hc & ->)] Hx E.
  - rewrite im_res in Hx. cbn [rs_objects] in Hx. apply in_app_iff in Hx as [Hx|[<-|[]]]; [exact (S _ _ _ (or_introl eq_refl) Hx E)|]. injection E as <-. exact B.
  - rewrite im_childs in Hc. eapply S; [right; exists p, c; auto|exact Hx|exact E].
Qed.
End Model.
