(** * Proofs about the STL importer *)
From Coq Require Import ZArith.
From Verif Require Import GoBase GoNum GoFloat GoStrconv Types M_Core M_Geom S_Core S_Geom S_Strconv P_Geom P_Strconv T_Geom M_Stl S_Stl.

Lemma Forall2_length {A B} (R : A -> B -> Prop) l l' : Forall2 R l l' -> List.length l = List.length l'.
Proof. induction 1; cbn; congruence. Qed.
(** ** Lines and words *)
Lemma fields_aux_snoc_space s : forall cur c, is_space c = true -> fields_aux cur (s +++ String c "") = fields_aux cur s.
Proof.
  induction s as [|a s IH]; intros cur c Hc; cbn [String.append fields_aux].
  - rewrite Hc. destruct cur; reflexivity.
  - destruct (is_space a); [destruct cur; rewrite IH by exact Hc; reflexivity|]. apply IH. exact Hc.
Qed.
Lemma drop_cr_cases s : drop_cr s = s \/ s = drop_cr s +++ String "013" "".
Proof.
  induction s as [|c s IH]; [left; reflexivity|]. destruct s as [|d s].
  - cbn. destruct (ceq c "013") eqn:E; [|left; reflexivity]. apply ceq_true in E. subst c. right. reflexivity.
  - change (drop_cr (String c (String d s))) with (String c (drop_cr (String d s))). destruct IH as [IH|IH]; [left|right].
    + rewrite IH. reflexivity.
    + cbn [String.append]. rewrite <- IH. reflexivity.
Qed.
Lemma fields_drop_cr s : fields (drop_cr s) = fields s.
Proof.
  destruct (drop_cr_cases s) as [E|E]; [rewrite E; reflexivity|]. rewrite E at 2. unfold fields.
  rewrite fields_aux_snoc_space; reflexivity.
Qed.
Lemma lines_aux_app l s : forall cur, NoNewline l -> lines_aux cur (l +++ s) = lines_aux (cur +++ l) s.
Proof.
  induction l as [|c l IH]; intros cur H; cbn [String.append lines_aux]; [rewrite sapp_nil_r; reflexivity|].
  assert (C : ceq c "010" = false).
  { destruct (ceq c "010") eqn:E; [|reflexivity]. apply ceq_true in E. exfalso. apply (H c); [left; reflexivity|exact E]. }
  rewrite C, IH by (intros x Hx; apply H; right; exact Hx). rewrite sapp_assoc. reflexivity.
Qed.
Lemma lines_spec ls s : LinesOf ls s -> lines s = ls.
Proof.
  unfold lines. intros H. induction H as [|l Hl Hn|l ls s Hn H IH]; [reflexivity| |].
  - rewrite <- (sapp_nil_r l) at 1. rewrite lines_aux_app by exact Hn. cbn. destruct l; congruence.
  - rewrite lines_aux_app by exact Hn. cbn [String.append newline lines_aux]. rewrite ceq_refl. rewrite IH. reflexivity.
Qed.
Lemma lines_total_aux s : forall cur, NoNewline cur -> LinesOf (lines_aux cur s) (cur +++ s).
Proof.
  induction s as [|c s IH]; intros cur Hc; cbn [lines_aux].
  - rewrite sapp_nil_r. destruct cur as [|a cur]; [constructor|]. apply LiLast; [discriminate|exact Hc].
  - destruct (ceq c "010") eqn:E.
    + apply ceq_true in E. subst c. change (cur +++ String "010" s) with (cur +++ newline +++ s). constructor; [exact Hc|]. apply (IH ""). intros x [].
    + replace (cur +++ String c s) with ((cur +++ String c "") +++ s) by (rewrite sapp_assoc; reflexivity). apply IH.
      intros x Hx. rewrite chars_app, in_app_iff in Hx. destruct Hx as [Hx|[<-|[]]]; [apply Hc; exact Hx|].
      intros ->. rewrite ceq_refl in E. discriminate.
Qed.
Lemma lines_total s : exists ls, LinesOf ls s.
Proof. exists (lines s). apply (lines_total_aux s ""). intros x []. Qed.
(** What ascii_line looks at *)
Definition line_point (l : string) : option Point3D :=
  match fields (drop_cr l) with
  | [w; x; y; z] => if seq w "vertex" then Some (P3 (read_f32 x) (read_f32 y) (read_f32 z)) else None
  | _ => None
  end.
Lemma number_read w x : number w x <-> x = read_f32 w.
Proof.
  unfold number, read_f32. destruct (parse_float w) as [y ok]. cbn [fst]. split.
  - intros (ok' & H). congruence.
  - intros ->. exists ok. reflexivity.
Qed.
Lemma line_point_spec l p : line_point l = Some p <-> VertexLine l p.
Proof.
  unfold line_point, VertexLine. rewrite fields_drop_cr. split.
  - pose proof (fields_words l) as W. destruct (fields l) as [|w [|x [|y [|z [|]]]]]; try discriminate.
    destruct (seq_spec w "vertex") as [->|]; [|discriminate]. intros [= <-]. exists x, y, z. split; [exact W|]. rewrite !number_read. auto.
  - intros (x & y & z & W & H1 & H2 & H3). rewrite (words_fields _ _ W). rewrite number_read in H1, H2, H3.
    rewrite seq_refl. rewrite <- H1, <- H2, <- H3. destruct p; reflexivity.
Qed.
Lemma vertex_lines_total ls : exists ps, VertexLines ls ps.
Proof.
  induction ls as [|l ls (ps & IH)]; [exists []; constructor|]. destruct (line_point l) as [p|] eqn:E.
  - exists (p :: ps). constructor; [apply line_point_spec; exact E|exact IH].
  - exists ps. apply VeOther; [|exact IH]. intros p H. apply line_point_spec in H. congruence.
Qed.
Lemma threes_total : forall n ps, List.length ps <= n -> exists ts, Threes ps ts.
Proof.
  induction n as [|n IH]; intros ps H.
  - exists []. constructor. lia.
  - destruct ps as [|a [|b [|c ps]]]; try (exists []; constructor; cbn; lia).
    destruct (IH ps) as (ts & T); [cbn in H; lia|]. exists ((a, b, c) :: ts). constructor. exact T.
Qed.

(** ** The builder *)
Section Stl.
Context (oor : f32 -> Z) (ctx : nat -> bool).
Notation add_vertex := (add_vertex oor).
Notation add_all := (add_all oor).
Lemma add_all_snoc ps p : forall mb, add_all mb (ps ++ [p]) =
  let (mb1, is) := add_all mb ps in let (mb2, i) := add_vertex mb1 p in (mb2, is ++ [i]).
Proof.
  induction ps as [|q ps IH]; intros mb; cbn [app M_Geom.add_all].
  - destruct (add_vertex mb p); reflexivity.
  - destruct (add_vertex mb q) as [mb1 i]. rewrite IH. destruct (add_all mb1 ps) as [mb2 is]. destruct (add_vertex mb2 p). reflexivity.
Qed.
Definition idx (t : Triangle) : list N := [t_v1 t; t_v2 t; t_v3 t].
Definition plain (t : Triangle) : Prop := t = triangle (t_v1 t) (t_v2 t) (t_v3 t).
(** The points added so far, and the indices in the triangles and in the pending nodes *)
Definition Built (mb : MB) (tris : list Triangle) (nodes : list N) (ps : list Point3D) : Prop :=
  add_all (new_builder []) ps = (mb, flat_map idx tris ++ nodes) /\ Forall plain tris /\ List.length nodes < 3.
Lemma built_init : Built (new_builder []) [] [] [].
Proof. split; [reflexivity|]. split; [constructor|cbn; lia]. Qed.
Lemma built_corners mb tris nodes ps : Built mb tris nodes ps -> (N.of_nat (List.length ps) <= 2 ^ 32)%N ->
  Forall2 (Corner oor (mesh_of mb tris)) (flat_map idx tris ++ nodes) ps /\ (forall v, In v (mb_verts mb) -> In v ps).
Proof.
  intros (E & _ & _) B. destruct (C10_builder_indices oor [] ps mb _ B E) as (L & _ & C & _). split.
  - revert L C. generalize (flat_map idx tris ++ nodes) as is. intros is L C.
    assert (K : forall k p i, nth_error ps k = Some p -> nth_error is k = Some i -> Corner oor (mesh_of mb tris) i p).
    { intros k p i H1 H2. destruct (C k p i H1 H2) as (v & H & S & _). exists v. split; [exact H|exact S]. }
    clear -L K. revert is L K. induction ps as [|p ps IH]; intros [|i is] L K; try discriminate; [constructor|].
    constructor; [apply (K 0); reflexivity|]. apply IH; [cbn in L; lia|]. intros k q j H1 H2. apply (K (S k)); assumption.
  - clear B L C. revert mb E. generalize (flat_map idx tris ++ nodes) as is. revert ps. 
    assert (G : forall ps mb0 mb is, add_all mb0 ps = (mb, is) -> forall v, In v (mb_verts mb) -> In v (mb_verts mb0) \/ In v ps).
    { induction ps as [|p ps IH]; intros mb0 mb is H v Hv; cbn [M_Geom.add_all] in H.
      - injection H as <- <-. auto.
      - destruct (add_vertex mb0 p) as [mb1 i] eqn:E1. destruct (add_all mb1 ps) as [mb2 is2] eqn:E2. injection H as <- <-.
        destruct (IH _ _ _ E2 v Hv) as [H|H]; [|right; right; exact H]. unfold M_Geom.add_vertex in E1.
        destruct (if mb_conn mb0 then _ else None); injection E1 as <- <-; [auto|]. cbn [mb_verts] in H. rewrite in_app_iff in H.
        destruct H as [H|[<-|[]]]; [auto|right; left; reflexivity]. }
    intros ps is mb E v Hv. destruct (G ps _ _ _ E v Hv) as [[]|H]. exact H.
Qed.
Lemma corners_threes m : forall tris nodes ps ts, Forall2 (Corner oor m) (flat_map idx tris ++ nodes) ps -> Forall plain tris ->
  List.length nodes < 3 -> Threes ps ts -> Forall2 (TriangleOf oor m) tris ts.
Proof.
  induction tris as [|t tris IH]; intros nodes ps ts C P L T.
  - assert (List.length ps < 3) by (apply Forall2_length in C; cbn [flat_map app] in C; lia). inversion T; subst; [constructor|cbn in H; lia].
  - cbn [flat_map idx app] in C. inversion C as [|i1 p1 r1 q1 C1 D1]; subst. inversion D1 as [|i2 p2 r2 q2 C2 D2]; subst.
    inversion D2 as [|i3 p3 r3 q3 C3 D3]; subst. inversion T as [ps Hl|a b c ps ts' T']; subst; [cbn in Hl; lia|].
    inversion P as [|x l Px Pl]; subst. constructor; [|apply (IH nodes q3); assumption].
    unfold plain in Px. unfold TriangleOf. rewrite Px. cbn. auto 10.
Qed.
Lemma built_mesh mb tris nodes ps ts : Built mb tris nodes ps -> (N.of_nat (List.length ps) <= 2 ^ 32)%N -> Threes ps ts ->
  MeshOf oor ps ts (mesh_of mb tris).
Proof.
  intros B N T. destruct (built_corners _ _ _ _ B N) as [C V]. destruct B as (_ & P & L).
  split; [eapply corners_threes; eauto|]. split; [exact V|]. auto.
Qed.
Lemma built_node mb tris nodes ps p mb' i : Built mb tris nodes ps -> List.length nodes < 2 -> add_vertex mb p = (mb', i) ->
  Built mb' tris (nodes ++ [i]) (ps ++ [p]).
Proof.
  intros (E & P & L) H A. split; [|split; [exact P|rewrite app_length; cbn; lia]]. rewrite add_all_snoc, E, A, app_assoc. reflexivity.
Qed.
Lemma built_tri mb tris a b ps p mb' i : Built mb tris [a; b] ps -> add_vertex mb p = (mb', i) ->
  Built mb' (tris ++ [triangle a b i]) [] (ps ++ [p]).
Proof.
  intros (E & P & L) A. split; [|split; [|cbn; lia]].
  - rewrite add_all_snoc, E, A, app_nil_r, flat_map_app. cbn [flat_map idx app triangle t_v1 t_v2 t_v3]. rewrite <- app_assoc. reflexivity.
  - apply Forall_app. split; [exact P|]. constructor; [reflexivity|constructor].
Qed.

(** ** Text *)
Definition fin_err (fin : serr) : option serr := match fin with SEof => None | e => Some e end.
Lemma poll_never n next : (forall k, ctx k = false) -> fst (poll ctx n next) = None.
Proof. intros H. unfold poll. destruct (Nat.ltb next n); [rewrite H|]; reflexivity. Qed.
Lemma ascii_line_spec l st ps : Built (a_mb st) (a_tris st) (a_nodes st) ps ->
  let (st', err) := ascii_line oor ctx l st in
  match line_point l with
  | Some p => Built (a_mb st') (a_tris st') (a_nodes st') (ps ++ [p])
  | None => st' = st /\ err = None
  end.
Proof.
  intros B. unfold ascii_line, line_point. destruct (fields (drop_cr l)) as [|w [|x [|y [|z [|]]]]]; auto.
  destruct (seq w "vertex"); [|auto]. destruct (M_Geom.add_vertex oor (a_mb st) _) as [mb n] eqn:A.
  destruct (a_nodes st) as [|n0 [|n1 [|n2 r]]] eqn:EN.
  - exact (built_node _ _ _ _ _ _ _ B ltac:(cbn; lia) A).
  - exact (built_node _ _ _ _ _ _ _ B ltac:(cbn; lia) A).
  - destruct (poll ctx _ _) as [err next]. exact (built_tri _ _ _ _ _ _ _ _ B A).
  - destruct B as (_ & _ & L). cbn in L. lia.
Qed.
Lemma ascii_line_never l st : (forall k, ctx k = false) -> snd (ascii_line oor ctx l st) = None.
Proof.
  intros H. unfold ascii_line. destruct (fields (drop_cr l)) as [|w [|x [|y [|z [|]]]]]; try reflexivity.
  destruct (seq w "vertex"); [|reflexivity]. destruct (M_Geom.add_vertex oor (a_mb st) _) as [mb n].
  destruct (a_nodes st) as [|n0 [|n1 [|n2 r]]]; try reflexivity.
  pose proof (poll_never (List.length (a_tris st ++ [triangle n0 n1 n])) (a_next st) H) as P. destruct (poll ctx _ _). exact P.
Qed.
Definition ShortLines (ls : list string) : Prop := Forall (fun l => (N.of_nat (String.length l) <= 65535)%N) ls.
Lemma ascii_loop_spec fin ls ps : VertexLines ls ps -> ShortLines ls -> (forall k, ctx k = false) -> forall st qs,
  Built (a_mb st) (a_tris st) (a_nodes st) qs ->
  exists st', ascii_loop oor ctx fin ls st = (st', fin_err fin) /\ Built (a_mb st') (a_tris st') (a_nodes st') (qs ++ ps).
Proof.
  intros V. induction V as [|l ls p ps Hl V IH|l ls ps Hl V IH]; intros S NC st qs B; cbn [ascii_loop].
  - exists st. rewrite app_nil_r. split; [destruct fin; reflexivity|exact B].
  - inversion S as [|x y Sl Sr]; subst. destruct (N.ltb_spec max_line (N.of_nat (String.length l))) as [X|_]; [unfold max_line in X; lia|].
    pose proof (ascii_line_spec l st qs B) as K. pose proof (ascii_line_never l st NC) as E.
    destruct (ascii_line oor ctx l st) as [st1 err]. cbn [snd] in E. subst err. apply line_point_spec in Hl. rewrite Hl in K.
    destruct (IH Sr NC _ _ K) as (st' & E' & B'). exists st'. rewrite <- app_assoc in B'. auto.
  - inversion S as [|x y Sl Sr]; subst. destruct (N.ltb_spec max_line (N.of_nat (String.length l))) as [X|_]; [unfold max_line in X; lia|].
    pose proof (ascii_line_spec l st qs B) as K. destruct (ascii_line oor ctx l st) as [st1 err].
    destruct (line_point l) as [p|] eqn:E; [apply line_point_spec in E; destruct (Hl p E)|]. destruct K as [-> ->]. apply IH; assumption.
Qed.

(** ** Detection *)
Lemma stake_length_min n s : String.length (stake n s) = Nat.min n (String.length s).
Proof. revert s; induction n as [|n IH]; intros [|c s]; cbn; try reflexivity. rewrite IH. reflexivity. Qed.
Lemma lower_bN c : (bN (lower c) <? 128)%N = (bN c <? 128)%N.
Proof.
  unfold lower. destruct (is_upper c) eqn:E; [|reflexivity]. unfold is_upper in E. rewrite andb_true_iff, !N.leb_le in E.
  rewrite bN_ascii_of_N by lia. transitivity true; [apply N.ltb_lt; lia|symmetry; apply N.ltb_lt; lia].
Qed.
Lemma all_ascii_lower s : all_ascii (slower s) = all_ascii s.
Proof. unfold all_ascii. induction s as [|c s IH]; [reflexivity|]. cbn [slower sall]. rewrite lower_bN, IH. reflexivity. Qed.
Lemma stake_stake a b s : a <= b -> stake a (stake b s) = stake a s.
Proof. revert b s; induction a as [|a IH]; intros [|b] [|c s] H; cbn; try reflexivity; try lia. rewrite IH by lia. reflexivity. Qed.
Lemma prefix_lower w s : String.prefix w (slower s) = seq (slower (stake (String.length w) s)) w.
Proof.
  revert s; induction w as [|c w IH]; intros s.
  - destruct s; reflexivity.
  - destruct s as [|d s]; cbn [slower String.prefix String.length stake]; [reflexivity|]. destruct (ascii_dec c (lower d)) as [E|E].
    + rewrite IH. symmetry. unfold seq. cbn [String.eqb]. rewrite E, Ascii.eqb_refl. reflexivity.
    + symmetry. apply seq_false. congruence.
Qed.
Lemma is_ascii_spec fuel i : 300 <= String.length (in_data i) ->
  exists b, is_ascii (S fuel) i = Some (inl b) /\ (b = true <-> LooksText (in_data i)).
Proof.
  intros H. cbn [is_ascii]. unfold peek. change size_of_header with 300. remember 300 as h eqn:Eh.
  replace (Nat.leb h (String.length (in_data i))) with true by (symmetry; apply Nat.leb_le; exact H).
  rewrite stake_length by exact H. rewrite Nat.leb_refl. eexists. split; [reflexivity|].
  rewrite andb_true_iff, all_ascii_lower, prefix_lower. cbn [String.length]. rewrite stake_stake by lia. unfold LooksText, eq_fold.
  change (slower "solid") with "solid". split.
  - intros [A B]. split.
    + exists (sdrop 5 (in_data i)). split; [exact A|symmetry; apply stake_drop].
    + unfold all_ascii in B. rewrite sall_forall in B. intros c Hc. rewrite <- Eh in Hc. apply N.ltb_lt. apply (B c Hc).
  - intros ((r & A & _) & B). split; [exact A|]. unfold all_ascii. apply sall_forall. intros c Hc. apply N.ltb_lt, B. rewrite <- Eh. exact Hc.
Qed.
End Stl.

(** ** Floats *)
Lemma bits_fields (s : bool) E M n : (E < 256)%N -> (M < 2 ^ 23)%N -> n = ((if s then 2 ^ 31 else 0) + E * 2 ^ 23 + M)%N ->
  N.testbit n 31 = s /\ ((n / 2 ^ 23) mod 2 ^ 8)%N = E /\ (n mod 2 ^ 23)%N = M.
Proof.
  intros HE HM ->. set (S := (if s then 2 ^ 31 else 0)%N).
  assert (HS : S = ((if s then 256 else 0) * 2 ^ 23)%N) by (unfold S; destruct s; reflexivity).
  assert (D : ((S + E * 2 ^ 23 + M) / 2 ^ 23 = (if s then 256 else 0) + E)%N).
  { rewrite HS, <- N.mul_add_distr_r, N.div_add_l by discriminate. rewrite N.div_small by exact HM. lia. }
  split; [|split].
  - pose proof (N.testbit_spec' (S + E * 2 ^ 23 + M) 31) as T.
    assert (D2 : ((S + E * 2 ^ 23 + M) / 2 ^ 31 = if s then 1 else 0)%N).
    { change (2 ^ 31)%N with (2 ^ 23 * 2 ^ 8)%N. rewrite <- N.div_div by discriminate. rewrite D.
      change (2 ^ 8)%N with 256%N. destruct s; [rewrite <- (N.div_unique (256 + E) 256 1 E) by lia|rewrite N.div_small by lia]; reflexivity. }
    rewrite D2 in T. destruct (N.testbit _ _), s; cbn in T; try reflexivity; discriminate.
  - rewrite D. change (2 ^ 8)%N with 256%N. destruct s.
    + symmetry. apply (N.mod_unique _ _ 1); lia.
    + apply N.mod_small. lia.
  - rewrite HS, <- N.mul_add_distr_r, N.add_comm, N.mod_add by discriminate. apply N.mod_small. exact HM.
Qed.
Lemma digits2_low p : (2 ^ (Zpos (digits2_pos p) - 1) <= Zpos p)%Z.
Proof.
  induction p as [p IH|p IH|]; cbn [digits2_pos]; [| |cbn; lia];
    rewrite Pos2Z.inj_succ; replace (Z.succ (Z.pos (digits2_pos p)) - 1)%Z with ((Z.pos (digits2_pos p) - 1) + 1)%Z by lia;
    rewrite Z.pow_add_r by lia; change (2 ^ 1)%Z with 2%Z; revert IH; generalize (2 ^ (Z.pos (digits2_pos p) - 1))%Z; intros.
  - change (Z.pos p~1) with (2 * Z.pos p + 1)%Z. lia.
  - change (Z.pos p~0) with (2 * Z.pos p)%Z. lia.
Qed.
Lemma valid_fields s m e : f_valid (S754_finite s m e) = true ->
  (Npos m < 2 ^ 24)%N /\ (-149 <= e <= 104)%Z /\ ((2 ^ 23 <= Npos m)%N \/ e = (-149)%Z).
Proof.
  intros V. unfold f_valid in V. cbn [valid_binary] in V. unfold SpecFloat.bounded in V. rewrite andb_true_iff in V. destruct V as [V W].
  apply Z.leb_le in W. unfold SpecFloat.canonical_mantissa, SpecFloat.fexp in V. apply Zeq_is_eq_bool in V. unfold f_emax, f_prec, SpecFloat.emin in *.
  assert (D : (Zpos (digits2_pos m) <= 24)%Z) by lia. apply digits2_small in D. split; [|split; [lia|]].
  - change (2 ^ 24)%Z with 16777216%Z in D. change (2 ^ 24)%N with 16777216%N. lia.
  - destruct (Z.eq_dec e (-149)) as [->|Ne]; [auto|left]. assert (Zpos (digits2_pos m) = 24)%Z by lia.
    clear - H. pose proof digits2_low as K.
    specialize (K m). rewrite H in K. change (2 ^ (24 - 1))%Z with 8388608%Z in K. change (2 ^ 23)%N with 8388608%N. lia.
Qed.
Lemma bits_float x n : f_valid x = true -> ieee_bits x n -> f32_of_bits n = x.
Proof.
  intros V H. unfold f32_of_bits. destruct x as [s|s| |s m e]; cbn [ieee_bits] in H.
  - destruct (bits_fields s 0 0 n) as (-> & -> & ->); [lia|reflexivity|rewrite H; destruct s; reflexivity|]. reflexivity.
  - destruct (bits_fields s 255 0 n) as (-> & -> & ->); [lia|reflexivity|rewrite H; destruct s; reflexivity|]. reflexivity.
  - destruct H as (s & f & H & H0 & H1). destruct (bits_fields s 255 f n) as (-> & -> & ->); [lia|exact H1|exact H|]. cbn [N.eqb Pos.eqb].
    destruct (N.eqb_spec f 0); [lia|reflexivity].
  - destruct (valid_fields s m e V) as (Hm & He & Hc). destruct (N.ltb_spec (N.pos m) (2 ^ 23)) as [L|L].
    + destruct Hc as [Hc|Hc]; [lia|]. destruct (bits_fields s 0 (N.pos m) n) as (-> & -> & ->); [lia|exact L|rewrite H; lia|]. cbn [N.eqb]. rewrite Hc. reflexivity.
    + assert (HE : (1 <= Z.to_N (e + 150) <= 254)%N) by lia.
      destruct (bits_fields s (Z.to_N (e + 150)) (N.pos m - 2 ^ 23) n) as (-> & -> & ->);
        [lia|change (2 ^ 23)%N with 8388608%N in *; change (2 ^ 24)%N with 16777216%N in *; lia|exact H|].
      destruct (N.eqb_spec (Z.to_N (e + 150)) 255); [lia|]. destruct (N.eqb_spec (Z.to_N (e + 150)) 0); [lia|].
      change (2 ^ 23)%N with 8388608%N in *. f_equal; [|lia].
      assert (N.pos (N.succ_pos (N.pos m - 8388608 + 8388607)) = N.pos m); [|congruence]. rewrite N.succ_pos_spec. lia.
Qed.
Lemma bits_total n : (n < 2 ^ 32)%N -> f_valid (f32_of_bits n) = true /\ ieee_bits (f32_of_bits n) n.
Proof.
  intros Hn. set (E := ((n / 2 ^ 23) mod 2 ^ 8)%N). set (M := (n mod 2 ^ 23)%N).
  assert (HE : (E < 256)%N) by (apply N.mod_lt; discriminate). assert (HM : (M < 2 ^ 23)%N) by (apply N.mod_lt; discriminate).
  assert (Ed : n = ((if N.testbit n 31 then 2 ^ 31 else 0) + E * 2 ^ 23 + M)%N).
  { assert (T : (n / 2 ^ 31 = if N.testbit n 31 then 1 else 0)%N).
    { pose proof (N.testbit_spec' n 31) as T. rewrite N.mod_small in T; [destruct (N.testbit n 31); symmetry; exact T|].
      apply N.div_lt_upper_bound; [discriminate|]. exact Hn. }
    pose proof (N.div_mod n (2 ^ 23) ltac:(discriminate)) as D1. pose proof (N.div_mod (n / 2 ^ 23) (2 ^ 8) ltac:(discriminate)) as D2.
    rewrite N.div_div in D2 by discriminate. change (2 ^ 23 * 2 ^ 8)%N with (2 ^ 31)%N in D2. rewrite T in D2. fold E in D2. fold M in D1.
    destruct (N.testbit n 31); change (2 ^ 31)%N with 2147483648%N; change (2 ^ 23)%N with 8388608%N in *; change (2 ^ 8)%N with 256%N in *; lia. }
  unfold f32_of_bits. fold E M. set (s := N.testbit n 31) in *. clearbody s E M.
  destruct (N.eqb_spec E 255) as [->|E1].
  - destruct (N.eqb_spec M 0) as [->|M1]; (split; [reflexivity|]); cbn [ieee_bits]; [rewrite Ed; lia|]. exists s, M. split; [exact Ed|]. lia.
  - destruct (N.eqb_spec E 0) as [->|E2].
    + destruct M as [|p]; [split; [reflexivity|]; cbn [ieee_bits]; rewrite Ed; destruct s; reflexivity|].
      split.
      * assert (D : (Zpos (digits2_pos p) <= 23)%Z).
        { destruct (Z_le_gt_dec (Zpos (digits2_pos p)) 23) as [|G]; [assumption|].
          pose proof digits2_low as K.
          specialize (K p). assert (2 ^ 23 <= 2 ^ (Zpos (digits2_pos p) - 1))%Z by (apply Z.pow_le_mono_r; lia).
          change (2 ^ 23)%Z with 8388608%Z in *. change (2 ^ 23)%N with 8388608%N in *. lia. }
        unfold f_valid. cbn [valid_binary]. unfold SpecFloat.bounded, SpecFloat.canonical_mantissa, SpecFloat.fexp, SpecFloat.emin, f_prec, f_emax.
        apply andb_true_iff. split; [|reflexivity]. apply Zeq_is_eq_bool. rewrite Z.max_r; [reflexivity|]. lia.
      * cbn [ieee_bits]. destruct (N.ltb_spec (N.pos p) (2 ^ 23)); [rewrite Ed; lia|lia].
    + assert (Em : N.pos (N.succ_pos (M + 8388607)) = (M + 8388608)%N) by (rewrite N.succ_pos_spec; lia).
      set (p := N.succ_pos (M + 8388607)) in *. clearbody p. change (2 ^ 23)%N with 8388608%N in *. split.
      * assert (D : Zpos (digits2_pos p) = 24%Z).
        { assert (K : forall q, (2 ^ (Zpos (digits2_pos q) - 1) <= Zpos q < 2 ^ (Zpos (digits2_pos q)))%Z).
          { intros q. split; [apply digits2_low|apply digits2_small; lia]. }
          specialize (K p). assert (8388608 <= Zpos p < 16777216)%Z by lia.
          destruct (Z_lt_ge_dec (Zpos (digits2_pos p)) 24) as [G|G].
          - assert (2 ^ Zpos (digits2_pos p) <= 2 ^ 23)%Z by (apply Z.pow_le_mono_r; lia). change (2 ^ 23)%Z with 8388608%Z in *. lia.
          - destruct (Z.eq_dec (Zpos (digits2_pos p)) 24) as [|G2]; [assumption|].
            assert (2 ^ 24 <= 2 ^ (Zpos (digits2_pos p) - 1))%Z by (apply Z.pow_le_mono_r; lia). change (2 ^ 24)%Z with 16777216%Z in *. lia. }
        unfold f_valid. cbn [valid_binary]. unfold SpecFloat.bounded, SpecFloat.canonical_mantissa, SpecFloat.fexp, SpecFloat.emin, f_prec, f_emax.
        rewrite D. apply andb_true_iff. split; [apply Zeq_is_eq_bool; lia|apply Z.leb_le; lia].
      * cbn [ieee_bits]. change (2 ^ 23)%N with 8388608%N. destruct (N.ltb_spec (N.pos p) 8388608); [lia|]. rewrite Ed, Em.
        replace (Z.to_N (Z.of_N E - 150 + 150)) with E by lia. lia.
Qed.

(** ** Facets *)
Lemma le32_num n w : le32 n w -> le_num w = n /\ String.length w = 4 /\ (n < 2 ^ 32)%N.
Proof.
  intros (a & b & c & d & -> & ->). cbn [le_num String.length].
  assert (K : forall x, (bN x < 256)%N) by (intros; unfold bN; apply N_ascii_bounded).
  pose proof (K a). pose proof (K b). pose proof (K c). pose proof (K d).
  change (2 ^ 8)%N with 256%N. change (2 ^ 16)%N with 65536%N. change (2 ^ 24)%N with 16777216%N. change (2 ^ 32)%N with 4294967296%N. lia.
Qed.
Lemma le32_total w : String.length w = 4 -> exists n, le32 n w.
Proof.
  destruct w as [|a [|b [|c [|d [|]]]]]; try discriminate. intros _. eexists. exists a, b, c, d. split; reflexivity.
Qed.
Lemma sdrop_plus a b k : sdrop (String.length a + k) (a +++ b) = sdrop k b.
Proof. induction a as [|c a IH]; cbn; [reflexivity|exact IH]. Qed.
Lemma float_at_skip a b k : float_at (String.length a + k) (a +++ b) = float_at k b.
Proof. unfold float_at, word32. rewrite sdrop_plus. reflexivity. Qed.
Lemma stored_float x w r : StoredFloat x w -> float_at 0 (w +++ r) = x /\ String.length w = 4.
Proof.
  intros (V & n & L & B). destruct (le32_num n w L) as (E & Hl & _). split; [|exact Hl].
  unfold float_at, word32. rewrite sdrop_0. rewrite <- Hl, stake_app_l, E. apply bits_float; assumption.
Qed.
Lemma stored_point p w r : StoredPoint p w -> point_at 0 (w +++ r) = p /\ String.length w = 12.
Proof.
  intros (a & b & c & -> & Ha & Hb & Hc).
  destruct (stored_float _ _ ((b +++ c) +++ r) Ha) as [Ea La]. destruct (stored_float _ _ (c +++ r) Hb) as [Eb Lb]. destruct (stored_float _ _ r Hc) as [Ec Lc].
  split; [|rewrite !slen_app; lia]. unfold point_at.
  replace ((a +++ b +++ c) +++ r) with (a +++ (b +++ c) +++ r) by (rewrite !sapp_assoc; reflexivity). rewrite Ea.
  replace (0 + 4) with (String.length a + 0) by lia. rewrite float_at_skip. replace ((b +++ c) +++ r) with (b +++ c +++ r) by (rewrite sapp_assoc; reflexivity). rewrite Eb.
  replace (0 + 8) with (String.length a + (String.length b + 0)) by lia. rewrite !float_at_skip. rewrite Ec. destruct p; reflexivity.
Qed.
Lemma point_at_skip a b k : point_at (String.length a + k) (a +++ b) = point_at k b.
Proof. unfold point_at. rewrite <- !Nat.add_assoc, !float_at_skip. reflexivity. Qed.
Lemma facet_points a b c w : Facet (a, b, c) w -> String.length w = 50 /\ point_at 12 w = a /\ point_at 24 w = b /\ point_at 36 w = c.
Proof.
  intros (nrm & wa & wb & wc & att & -> & Ln & La & Ha & Hb & Hc).
  destruct (stored_point _ _ (wb +++ wc +++ att) Ha) as [Ea Lwa]. destruct (stored_point _ _ (wc +++ att) Hb) as [Eb Lwb]. destruct (stored_point _ _ att Hc) as [Ec Lwc].
  split; [rewrite !slen_app; lia|]. split; [|split].
  - replace 12 with (String.length nrm + 0) by lia. rewrite point_at_skip. exact Ea.
  - replace 24 with (String.length nrm + (String.length wa + 0)) by lia. rewrite !point_at_skip. exact Eb.
  - replace 36 with (String.length nrm + (String.length wa + (String.length wb + 0))) by lia. rewrite !point_at_skip. exact Ec.
Qed.
Lemma stored_float_total w : String.length w = 4 -> exists x, StoredFloat x w.
Proof.
  intros H. destruct (le32_total w H) as (n & L). destruct (le32_num n w L) as (_ & _ & Hn). destruct (bits_total n Hn) as [V B].
  exists (f32_of_bits n). split; [exact V|]. exists n. auto.
Qed.
Lemma cut n s : n <= String.length s -> exists a b, s = a +++ b /\ String.length a = n.
Proof. intros H. exists (stake n s), (sdrop n s). split; [symmetry; apply stake_drop|apply stake_length; exact H]. Qed.
Lemma stored_point_total w : String.length w = 12 -> exists p, StoredPoint p w.
Proof.
  intros H. destruct (cut 4 w) as (a & r & -> & La); [lia|]. rewrite slen_app in H. destruct (cut 4 r) as (b & c & -> & Lb); [lia|]. rewrite slen_app in H.
  destruct (stored_float_total a La) as (x & Hx), (stored_float_total b Lb) as (y & Hy), (stored_float_total c ltac:(lia)) as (z & Hz).
  exists (P3 x y z), a, b, c. auto.
Qed.
Lemma facet_total w : String.length w = 50 -> exists t, Facet t w.
Proof.
  intros H. destruct (cut 12 w) as (nrm & r & -> & Ln); [lia|]. rewrite slen_app in H. destruct (cut 12 r) as (wa & r1 & -> & La); [lia|]. rewrite slen_app in H.
  destruct (cut 12 r1) as (wb & r2 & -> & Lb); [lia|]. rewrite slen_app in H. destruct (cut 12 r2) as (wc & att & -> & Lc); [lia|]. rewrite slen_app in H.
  destruct (stored_point_total wa La) as (a & Ha), (stored_point_total wb Lb) as (b & Hb), (stored_point_total wc Lc) as (c & Hc).
  exists (a, b, c), nrm, wa, wb, wc, att. repeat (split; [first [reflexivity|assumption|lia]|]). assumption.
Qed.
Lemma facets_total n : forall body, 50 * n <= String.length body -> exists ts, Facets ts body /\ List.length ts = n.
Proof.
  induction n as [|n IH]; intros body H; [exists []; split; [constructor|reflexivity]|].
  destruct (cut 50 body) as (w & r & -> & Lw); [lia|]. rewrite slen_app in H. destruct (IH r) as (ts & F & L); [lia|]. destruct (facet_total w Lw) as (t & T).
  exists (t :: ts). split; [constructor; assumption|cbn; lia].
Qed.
Definition flat3 (ts : list (Point3D * Point3D * Point3D)) : list Point3D := flat_map (fun t => let '(a, b, c) := t in [a; b; c]) ts.
Lemma threes_flat ts : Threes (flat3 ts) ts.
Proof. induction ts as [|[[a b] c] ts IH]; cbn; constructor; [cbn; lia|exact IH]. Qed.
Lemma flat3_length ts : List.length (flat3 ts) = 3 * List.length ts.
Proof. induction ts as [|[[a b] c] ts IH]; cbn [flat3 flat_map List.length app] in *; [reflexivity|]. unfold flat3 in IH. rewrite IH. lia. Qed.

Section Binary.
Context (oor : f32 -> Z) (ctx : nat -> bool).
Lemma face_built t w mb tris ps : Facet t w -> Built oor mb tris [] ps ->
  let (mb', x) := decode_face oor w mb in Built oor mb' (tris ++ [x]) [] (ps ++ flat3 [t]).
Proof.
  destruct t as [[a b] c]. intros F B. destruct (facet_points a b c w F) as (_ & Ea & Eb & Ec). unfold decode_face. rewrite Ea, Eb, Ec.
  destruct (add_vertex oor mb a) as [mb1 i1] eqn:A1. destruct (add_vertex oor mb1 b) as [mb2 i2] eqn:A2. destruct (add_vertex oor mb2 c) as [mb3 i3] eqn:A3.
  apply (built_node oor mb tris [] ps a mb1 i1) in B; [|cbn; lia|exact A1].
  apply (built_node oor mb1 tris _ _ b mb2 i2) in B; [|cbn; lia|exact A2].
  cbn [app] in B. apply (built_tri oor mb2 tris i1 i2 _ c mb3 i3) in B; [|exact A3].
  cbn [flat3 flat_map app]. rewrite <- !app_assoc in B. exact B.
Qed.
Lemma read_full_app w r fin : read_full (String.length w) (mkIn (w +++ r) fin) = inl (w, mkIn r fin).
Proof.
  unfold read_full. cbn [in_data in_fin]. rewrite slen_app. replace (Nat.leb (String.length w) (String.length w + String.length r)) with true by (symmetry; apply Nat.leb_le; lia).
  rewrite stake_app_l, sdrop_app_l. reflexivity.
Qed.
(** The error of the loop comes from the last poll *)
Fixpoint last_poll (n k next : nat) (err : option serr) : option serr :=
  match n with O => err | S n => let (e, next) := poll ctx (S k) next in last_poll n (S k) next e end.
Lemma binary_present fin ts : forall body mb tris ps next err, Facets ts body -> Built oor mb tris [] ps ->
  exists mb' tris', binary_loop oor ctx (List.length ts) (mkIn body fin) mb tris next err = (mb', tris', last_poll (List.length ts) (List.length tris) next err) /\
    Built oor mb' tris' [] (ps ++ flat3 ts).
Proof.
  induction ts as [|t ts IH]; intros body mb tris ps next err F B; cbn [binary_loop List.length last_poll].
  - exists mb, tris. rewrite app_nil_r. auto.
  - inversion F as [|t' ts' w rest Fw Fr]; subst. destruct t as [[a b] c] eqn:Et.
    pose proof (proj1 (facet_points a b c w Fw)) as Lw. rewrite <- Et in *. rewrite <- Lw, read_full_app.
    pose proof (face_built t w mb tris ps Fw B) as K. destruct (decode_face oor w mb) as [mb1 x].
    rewrite app_length. cbn [List.length]. replace (List.length tris + 1) with (S (List.length tris)) by lia.
    destruct (poll ctx (S (List.length tris)) next) as [e next1].
    destruct (IH rest mb1 (tris ++ [x]) _ next1 e Fr K) as (mb2 & tris2 & E & B2). rewrite app_length in E. cbn [List.length] in E.
    replace (List.length tris + 1) with (S (List.length tris)) in E by lia.
    exists mb2, tris2. split; [exact E|]. rewrite <- app_assoc in B2. subst t. exact B2.
Qed.
Lemma binary_missing n : forall i mb tris next err, String.length (in_data i) < 50 * n ->
  exists e, snd (binary_loop oor ctx n i mb tris next err) = Some e.
Proof.
  induction n as [|n IH]; intros i mb tris next err H; [lia|]. cbn [binary_loop]. unfold read_full.
  destruct (Nat.leb_spec 50 (String.length (in_data i))) as [L|L].
  - destruct (decode_face oor _ mb) as [mb1 x]. destruct (poll ctx _ next) as [e next1]. apply IH. cbn [in_data].
    rewrite <- (stake_drop 50 (in_data i)) in H. rewrite slen_app, stake_length in H by exact L. lia.
  - eexists. reflexivity.
Qed.
Lemma last_poll_never n : (forall k, ctx k = false) -> forall k next, last_poll n k next None = None.
Proof.
  intros NC. induction n as [|n IH]; intros k next; cbn [last_poll]; [reflexivity|].
  pose proof (poll_never ctx (S k) next NC) as P. destruct (poll ctx (S k) next) as [e next1]. cbn [fst] in P. subst e. apply IH.
Qed.
(** The context is polled after 1001, 2001, ... triangles *)
Definition Polls (k next : nat) : Prop := exists q, 1 <= q /\ next = 1000 * q /\ k <= 1000 * q /\ (k = 0 /\ q = 1 \/ 1000 * (q - 1) < k).
Definition polled (k : nat) : bool := Nat.ltb 1000 k && Nat.eqb (k mod 1000) 1.
Lemma poll_spec k next : Polls k next ->
  exists next', poll ctx (S k) next = (if polled (S k) && ctx (S k) then Some SCtx else None, next') /\ Polls (S k) next'.
Proof.
  intros (q & Q1 & Q2 & Q3 & Q4). unfold poll, polled, check_every. destruct (Nat.ltb_spec next (S k)) as [L|L].
  - assert (k = 1000 * q) by lia. eexists. split.
    + f_equal. replace (Nat.ltb 1000 (S k)) with true by (symmetry; apply Nat.ltb_lt; lia).
      assert (Em : S k mod 1000 = 1) by (subst k; replace (S (1000 * q)) with (1 + q * 1000) by lia; rewrite Nat.mod_add by lia; reflexivity).
      rewrite Em. reflexivity.
    + exists (S q). lia.
  - exists next. split; [|exists q; lia]. f_equal. destruct (Nat.ltb_spec 1000 (S k)) as [L1|L1]; [|reflexivity].
    destruct (Nat.eqb_spec (S k mod 1000) 1) as [E|E]; [|reflexivity]. exfalso.
    pose proof (Nat.div_mod (S k) 1000 ltac:(lia)) as D. set (j := S k / 1000) in *. clearbody j. lia.
Qed.
Lemma polls_init : Polls 0 check_every.
Proof. exists 1. unfold check_every. lia. Qed.
Lemma last_poll_spec n : forall k next err, Polls k next ->
  last_poll (S n) k next err = if polled (k + S n) && ctx (k + S n) then Some SCtx else None.
Proof.
  induction n as [|n IH]; intros k next err P; destruct (poll_spec k next P) as (next' & E & P'); cbn [last_poll]; rewrite E.
  - replace (k + 1) with (S k) by lia. reflexivity.
  - change (last_poll (S n) (S k) next' (if polled (S k) && ctx (S k) then Some SCtx else None) = if polled (k + S (S n)) && ctx (k + S (S n)) then Some SCtx else None).
    rewrite IH by exact P'. replace (S k + S n) with (k + S (S n)) by lia. reflexivity.
Qed.

(** ** Cancelling the import of a text *)
Lemma ascii_cancel fin ls ps : VertexLines ls ps -> ShortLines ls -> forall st t,
  Polls (List.length (a_tris st)) (a_next st) -> List.length (a_nodes st) < 3 ->
  List.length (a_tris st) < t -> 3 * t <= 3 * List.length (a_tris st) + List.length (a_nodes st) + List.length ps ->
  polled t = true -> ctx t = true ->
  snd (ascii_loop oor ctx fin ls st) = Some SCtx.
Proof.
  intros V. induction V as [|l ls p ps Hl V IH|l ls ps Hl V IH]; intros S st t P L Lt Le Pt Ct.
  - cbn in Le. lia.
  - inversion S as [|x y Sl Sr]; subst. cbn [ascii_loop]. destruct (N.ltb_spec max_line (N.of_nat (String.length l))) as [X|_]; [unfold max_line in X; lia|].
    apply line_point_spec in Hl. unfold line_point in Hl. unfold ascii_line.
    destruct (fields (drop_cr l)) as [|w [|x [|y [|z [|]]]]]; try discriminate.
    destruct (seq w "vertex"); [|discriminate]. destruct (M_Geom.add_vertex oor (a_mb st) _) as [mb n]. cbn [List.length] in Le.
    destruct (a_nodes st) as [|n0 [|n1 [|n2 r]]] eqn:EN; cbn [List.length] in L, Le; [| | |lia].
    + apply (IH Sr _ t); cbn [a_tris a_nodes a_next app List.length]; try assumption; lia.
    + apply (IH Sr _ t); cbn [a_tris a_nodes a_next app List.length]; try assumption; lia.
    + rewrite app_length. cbn [List.length]. replace (List.length (a_tris st) + 1) with (Datatypes.S (List.length (a_tris st))) by lia.
      destruct (poll_spec _ _ P) as (next' & E & P'). rewrite E. destruct (polled (Datatypes.S (List.length (a_tris st))) && ctx (Datatypes.S (List.length (a_tris st)))) eqn:EP; [reflexivity|].
      apply (IH Sr _ t); cbn [a_tris a_nodes a_next List.length]; rewrite ?app_length; cbn [List.length];
        replace (List.length (a_tris st) + 1) with (Datatypes.S (List.length (a_tris st))) by lia; try assumption; try lia.
      destruct (Nat.eq_dec t (Datatypes.S (List.length (a_tris st)))) as [->|]; [rewrite Pt, Ct in EP; discriminate|lia].
  - inversion S as [|x y Sl Sr]; subst. cbn [ascii_loop]. destruct (N.ltb_spec max_line (N.of_nat (String.length l))) as [X|_]; [unfold max_line in X; lia|].
    assert (E : ascii_line oor ctx l st = (st, None)).
    { destruct (line_point l) as [p|] eqn:E; [apply line_point_spec in E; destruct (Hl p E)|]. unfold line_point in E. unfold ascii_line.
      destruct (fields (drop_cr l)) as [|w [|x [|y [|z [|]]]]]; try reflexivity. destruct (seq w "vertex"); [discriminate|reflexivity]. }
    rewrite E. apply (IH Sr st t); assumption.
Qed.
End Binary.
Lemma threes_length ps ts : Threes ps ts -> 3 * List.length ts <= List.length ps < 3 * List.length ts + 3.
Proof. induction 1; cbn in *; lia. Qed.
