(** * Proofs: the build, the root element and the whole file, written and read *)
From Coq Require Import ZArith Permutation.
From Verif Require Import GoBase GoNum GoUtf8 GoFloat Types XmlTypes M_Core M_Errors M_Text M_Xml M_Decode M_Printer M_Encode
  S_Xml S_Printer S_Text S_Core S_Strconv S_RoundTrip P_Xml P_Printer P_Text P_Core P_Strconv P_State P_Decode P_RTBase P_RTText P_RTAttr P_RTExt P_RTCore T_Printer GoStrconv.
Local Opaque get_u32 get_f32 fmt_dec format_f parse_u32 parse_float parse_matrix matrix_string fields sjoin attrs_loop rf
  has_transform any_attr any_attrs new_units units_string.

Section Root.
  Context (reg : Reg) (path : string) (e : Env) (p : nat).
  Context (HE : en_default e = Some ns_core).
  Notation Tr := (Tr reg true path e).
  Notation known := (knows reg).
  Ltac qc := rewrite (qual_core e HE).
  Definition VM (M : Model) (s : DSt) : Prop := s_model s = M.
  Definition VI (M : Model) (i : Item) (s : DSt) : Prop := s_model s = M /\ s_item s = i /\ s_item_done s = false.
  Lemma vi_get M i s : VI M i s -> get_item s = i.
  Proof. intros (_ & H & D). unfold get_item. rewrite D. exact H. Qed.
  Lemma vi_upd M i s f : VI M i s -> VI M (f i) (upd_item f s).
  Proof. intros (H1 & H & D). unfold upd_item. rewrite D. split; [exact H1|]. cbn. rewrite H. split; reflexivity. Qed.

  (** *** the build *)
  Section Items.
  Context (M : Model).
  Notation prefixes := (map ex_local (mo_exts M)).
  Lemma item_group_read i g : GroupMetaFits e known prefixes g -> it_md i = mg_zero -> Tr KItem false (write_metadata_group g) (VI M i) (VI M (it_set_md g i)).
  Proof.
    intros (F1 & F2 & _) E0. set (PM ms := VI M (it_set_md (mkMG ms (mg_any g)) i)).
    apply (tr_element _ _ _ _ _ (KMetaGroup MItem) _ _ _ _ (PM []) (PM (mg_list g))); [reflexivity| | |].
    - intros s Hs. qc. eexists _, _, _. split; [reflexivity|]. split.
      + cbn [start get_mg]. rewrite (vi_get _ _ _ Hs), E0. cbn [mg_zero mg_any mg_list]. rewrite (any_start reg e _ _ F2). reflexivity.
      + exact (vi_upd _ _ _ (it_set_md _) Hs).
    - apply (metas_read (mo_exts M) reg true path e HE MItem (KMetaGroup MItem) PM); try exact F1; try reflexivity.
      + intros ms s (H & _). rewrite H. reflexivity.
      + intros ms s v Hs. exact Hs.
      + intros ms s x Hs. exact (vi_upd _ _ _ (fun i => it_set_md (mkMG (mg_list (it_md i) ++ [x]) (mg_any (it_md i))) i) Hs).
      + intros ms s Hs. eexists. reflexivity.
    - intros s Hs. eexists. split; [reflexivity|]. unfold PM in Hs. destruct g; exact Hs.
  Qed.
  End Items.
  Section TheBuild.
  Context (M : Model) (any : AnyAttr).
  Notation prefixes := (map ex_local (mo_exts M)).
  Definition MB (d : list Item) : Model := mo_set_build (mkBuild d any) M.
  Lemma mb_end d i s : VI (MB d) i s -> exists s', end_ path KItem (qual e (lname "item")) s = Some s' /\ VM (MB (d ++ [i])) s'.
  Proof. intros Hs. cbn [end_]. rewrite (vi_get _ _ _ Hs). destruct Hs as (H & _). eexists. split; [reflexivity|]. unfold VM. cbn. rewrite H. reflexivity. Qed.
  Lemma item_start i s d : ItemFits e known prefixes i -> VM (MB d) s ->
    exists j s1 s2, child reg true path KBuild (qual e (lname "item")) s = COk j KItem s1 /\
      start reg true path KItem (qual e (lname "item")) (item_attrs i) s1 = Some (s2, None) /\ VI (MB d) (it_set_md mg_zero (rt_item i)) s2.
  Proof.
    intros F Hs. qc. pose proof (item_attrs_read reg e prefixes i F) as H. eexists _, _, _. split; [reflexivity|].
    assert (V : VI (MB d) item_zero (with_item item_zero false s)) by (split; [exact Hs|split; reflexivity]). split.
    - cbn [start]. rewrite (vi_get _ _ _ V), H. reflexivity.
    - exact (vi_upd _ _ _ (fun _ => _) V).
  Qed.
  Lemma item_read i d : ItemFits e known prefixes i -> Tr KBuild true (write_item i) (VM (MB d)) (VM (MB (d ++ [rt_item i]))).
  Proof.
    intros F. unfold write_item. pose proof F as (_ & _ & _ & F4 & _). destruct (mg_list (it_md i)) as [|x l] eqn:EL.
    - apply (tr_empty _ _ _ _ _ KItem); [reflexivity|]. intros s Hs. destruct (item_start i s d F Hs) as (j & s1 & s2 & E1 & E2 & V). destruct (mb_end _ _ _ V) as (s3 & E3 & V3).
      exists j, s1, s2, s3. split; [exact E1|]. split; [exact E2|]. split; [exact E3|]. replace (rt_item i) with (it_set_md mg_zero (rt_item i)); [exact V3|].
      unfold rt_item, it_set_md. cbn. f_equal. symmetry. destruct F4 as (_ & _ & H). specialize (H EL). destruct (it_md i). cbn in *. subst. reflexivity.
    - apply tr_manual. apply (tr_element _ _ _ _ _ KItem _ _ _ _ (VI (MB d) (it_set_md mg_zero (rt_item i))) (VI (MB d) (rt_item i))); [reflexivity| | |].
      + intros s Hs. apply (item_start i s d F Hs).
      + apply (item_group_read (MB d) (it_set_md mg_zero (rt_item i)) (it_md i)); [exact F4|reflexivity].
      + intros s Hs. apply (mb_end _ _ _ Hs).
  Qed.
  End TheBuild.
  Lemma item_print prefixes i : ItemFits e known prefixes i -> Prints e true false (write_item i).
  Proof.
    intros (H1 & H2 & H3 & H4 & H5). assert (A : Forall (AttrFits e false) (item_attrs i)) by (unfold item_attrs; fit; apply (any_fit reg e false "item"), H5).
    unfold write_item. destruct (mg_list (it_md i)) eqn:EL.
    - apply pr_empty; [apply tag_core; reflexivity|exact A].
    - apply pr_manual. apply pr_element; [apply tag_core; reflexivity|exact A|]. destruct H4 as (F1 & F2 & _).
      apply pr_element; [apply tag_core; reflexivity|apply (any_fit reg e false "metadatagroup"), F2|]. apply (metas_print e _ _ F1).
  Qed.
  Lemma build_read M m : mo_build M = mkBuild [] [] -> BuildFits e known (map ex_local (mo_exts M)) (mo_build m) ->
    Tr KModel false (write_build m) (VM M) (VM (mo_set_build (rt_build (mo_build m)) M)).
  Proof.
    intros E0 (F1 & F2). set (any := bu_any (mo_build m)).
    apply (tr_element _ _ _ _ _ KBuild _ _ _ _ (VM (MB M any [])) (VM (MB M any (map rt_item (bu_items (mo_build m)))))); [reflexivity| | |].
    - intros s Hs. qc. eexists _, _, _. split; [reflexivity|]. unfold VM in Hs. split.
      + cbn [start]. rewrite Hs, E0. cbn [bu_any bu_items]. rewrite (any_start reg e _ _ F2). reflexivity.
      + unfold VM. cbn. reflexivity.
    - apply tr_auto. apply (tr_list _ _ _ _ _ _ _ (fun d => VM (MB M any (map rt_item d)))). intros d i l E. rewrite map_app. apply item_read, (in_mid _ _ _ _ _ F1 E).
    - intros s Hs. eexists. split; [reflexivity|]. exact Hs.
  Qed.
  Lemma build_print prefixes m : BuildFits e known prefixes (mo_build m) -> Prints e false false (write_build m).
  Proof.
    intros (F1 & F2). apply pr_element; [apply tag_core; reflexivity|apply (any_fit reg e false "build"), F2|]. apply pr_auto. apply (prints_all e _ _ _ _ _ F1). apply item_print.
  Qed.

  (** *** metadata and unknown elements of the model *)
  Lemma model_metas_read M ms : mo_md M = [] -> Forall (MetaFits (map ex_local (mo_exts M))) ms -> Tr KModel false (write_metadata ms) (VM M) (VM (mo_set_md ms M)).
  Proof.
    intros E0 F. apply (tr_conseq _ _ _ _ _ _ _ (VM (mo_set_md [] M)) _ (VM (mo_set_md ms M))); [|auto|].
    { unfold VM. intros s ->. destruct M. cbn in *. subst. reflexivity. }
    apply (metas_read (mo_exts M) reg true path e HE MModel KModel (fun ms => VM (mo_set_md ms M))); try exact F; try reflexivity.
    - intros l s ->. reflexivity.
    - intros l s v Hs. exact Hs.
    - intros l s x Hs. unfold VM in *. cbn. rewrite Hs. reflexivity.
    - intros l s Hs. eexists. reflexivity.
  Qed.
  Lemma model_any_read M l : mo_any M = [] -> ElemsFit e known p l ->
    Tr KModel false (write_any p l) (VM M) (VM (mo_set_any (map (rt_elem p) l) M)).
  Proof.
    intros EM F. set (V x := VM (mo_set_any [x] M)).
    destruct l as [|x [|y l]]; cbn [write_any map]; [apply tr_nil; unfold VM; intros s ->; destruct M; cbn in *; subst; reflexivity| |destruct x; destruct F].
    destruct x as [toks|x]; cbn [ElemsFit write_any1 rt_elem] in *.
    - destruct F as (n & a & inner & -> & H1 & H2 & H3 & H4 & H5 & H6).
      assert (UA : forall us t s, V (AnyTokens us) s -> V (AnyTokens (us ++ [t])) (append_token path (KUnk LModel) t s)).
      { intros us t s Hs. unfold V, VM in *. cbn. rewrite Hs. reflexivity. }
      apply (unknown_read reg true path e _ (KUnk LModel) _ (fun us => V (AnyTokens us))); [reflexivity|reflexivity|exact H1|exact H6| |exact UA|].
      + intros s Hs. assert (C : child reg true path KModel n s = COk (-1) (KUnk LModel) (with_model (mo_set_any (mo_any (s_model s) ++ [AnyTokens []]) (s_model s)) s)).
        { cbn [child]. unfold model_child. destruct (seq_spec (nspace n) ns_core); [contradiction|]. unfold new_element_decoder. rewrite (load_unknown reg _ H3). reflexivity. }
        eexists _, _, _. split; [exact C|]. split; [reflexivity|]. apply (UA [] (TStart n a)). unfold V, VM in *. cbn. rewrite Hs, EM. reflexivity.
      + intros s Hs. eexists. split; [reflexivity|]. apply (UA (TStart n a :: inner)), Hs.
    - apply (ext_read reg true path e p LModel (fun x => V (AnyExt x))) with (ok := fun _ => true); try (intros; reflexivity); try exact F.
      + intros y s Hs. unfold get_ext. unfold V, VM in Hs. rewrite Hs. reflexivity.
      + intros y s f Hs. unfold V, VM in *. cbn. rewrite Hs. reflexivity.
      + intros y s v Hs. exact Hs.
      + intros y s v Hs. exact Hs.
      + intros s n sp xk x0 Hs HL HD _. eexists _, (with_model (mo_set_any (mo_any (s_model s) ++ [AnyExt x0]) (s_model s)) s). split.
        * cbn [child]. unfold model_child. destruct (seq_spec (nspace n) ns_core) as [EC|_]; [rewrite EC in HL; exfalso; unfold load in HL; vm_compute in HL; discriminate HL|].
          unfold new_element_decoder. rewrite HL, HD. reflexivity.
        * unfold V, VM in *. cbn. rewrite Hs, EM. reflexivity.
      + repeat split.
  Qed.
End Root.

(** ** The attributes of the root element *)
Definition plain_ext (x : Extension) : Extension := mkExt (ex_ns x) (ex_local x) false.
Section Require.
  Lemma require_in loc l : NoDup (map ex_local l) ->
    require loc l = map (fun x => if seq (ex_local x) loc then mkExt (ex_ns x) (ex_local x) true else x) l.
  Proof.
    induction l as [|x l IH]; intros N; [reflexivity|]. cbn [require map]. cbn in N. apply NoDup_cons_iff in N as [N1 N2]. destruct (seq_spec (ex_local x) loc) as [E|E].
    - f_equal. rewrite <- (map_id l) at 1. apply map_ext_in. intros y Hy. destruct (seq_spec (ex_local y) loc) as [E'|]; [|reflexivity]. exfalso. apply N1. rewrite E, <- E'. apply in_map, Hy.
    - rewrite (IH N2). reflexivity.
  Qed.
  Lemma require_local loc l : map ex_local (require loc l) = map ex_local l.
  Proof. induction l as [|x l IH]; [reflexivity|]. cbn. destruct (seq _ _); cbn; [reflexivity|]. f_equal. exact IH. Qed.
  Lemma require_all req : forall l, NoDup (map ex_local l) ->
    fold_left (fun l local => require local l) req l = map (fun x => mkExt (ex_ns x) (ex_local x) (ex_req x || existsb (seq (ex_local x)) req)) l.
  Proof.
    induction req as [|loc req IH]; intros l N.
    - cbn. rewrite <- (map_id l) at 1. apply map_ext. intros []. cbn. rewrite orb_false_r. reflexivity.
    - cbn [fold_left]. rewrite IH by (rewrite require_local; exact N). rewrite (require_in _ _ N), map_map. apply map_ext. intros [ns lo rq]. cbn [ex_local ex_ns ex_req existsb].
      destruct (seq_spec lo loc) as [E|E]; cbn [ex_local ex_ns ex_req]; [rewrite orb_true_r; reflexivity|reflexivity].
  Qed.
  Lemma require_back l : NoDup (map ex_local l) ->
    fold_left (fun l local => require local l) (isort sleb (map ex_local (filter ex_req l))) (map plain_ext l) = l.
  Proof.
    intros N. rewrite require_all by (rewrite map_map; exact N). rewrite map_map. rewrite <- (map_id l) at 2. apply map_ext_in. intros [ns lo rq] Hx. cbn. f_equal.
    destruct (existsb _ _) eqn:E.
    - apply existsb_exists in E as (y & Hy & Ey). destruct (seq_spec lo y) as [<-|]; [|discriminate]. apply (Permutation_in _ (Permutation_sym (isort_perm _ _))) in Hy.
      apply in_map_iff in Hy as (z & Ez & Hz). apply filter_In in Hz as [Hz Rz].
      assert (mkExt ns lo rq = z); [|subst z; symmetry; exact Rz].
      clear - N Hx Hz Ez. induction l as [|a l IH]; [contradiction|]. cbn in N. apply NoDup_cons_iff in N as [N1 N2]. destruct Hx as [->|Hx], Hz as [<-|Hz]; [reflexivity| | |apply IH; assumption].
      + exfalso. apply N1. cbn. rewrite <- Ez. apply in_map, Hz.
      + exfalso. apply N1. rewrite Ez. apply (in_map ex_local _ _ Hx).
    - destruct rq; [|reflexivity]. exfalso. enough (existsb (seq lo) (isort sleb (map ex_local (filter ex_req l))) = true) by congruence.
      apply existsb_exists. exists lo. split; [|apply seq_refl]. apply (Permutation_in _ (isort_perm _ _)). apply in_map_iff. exists (mkExt ns lo true). split; [reflexivity|]. apply filter_In. split; [exact Hx|reflexivity].
  Qed.
End Require.

Lemma name_safe s : NameStr s -> (forall c, In c (chars s) -> (bN c < 128)%N) -> safe s = true /\ word s.
Proof.
  intros [N H] A. assert (G : forall c, In c (chars s) -> safe_char c && negb (GoBase.is_space c) = true).
  { intros c Hc. destruct (H c Hc) as [[L|L] _]; [specialize (A c Hc); lia|]. cbn in L. repeat (destruct L as [<-|L]; [reflexivity|]). destruct L. }
  assert (G1 : sall safe_char s = true /\ sall (fun c => negb (GoBase.is_space c)) s = true).
  { clear N H A. induction s as [|c s IH]; [split; reflexivity|]. cbn in *. pose proof (G c (or_introl eq_refl)) as X. apply andb_true_iff in X as [X1 X2]. destruct IH as [I1 I2]; [intros d Hd; apply G; right; exact Hd|].
    rewrite X1, X2, I1, I2. split; reflexivity. }
  split; [apply G1|]. split; [exact N|apply G1].
Qed.
Section Head.
  Context (reg : Reg) (m : Model) (known := knows reg).
  Context (HH : HeadFits known m).
  Lemma req_words : Forall (fun s => safe s = true /\ word s) (isort sleb (map ex_local (filter ex_req (mo_exts m)))).
  Proof.
    destruct HH as (_ & _ & _ & (_ & F) & _). apply Forall_forall. intros x Hx. apply (Permutation_in _ (Permutation_sym (isort_perm _ _))) in Hx.
    apply in_map_iff in Hx as (z & <- & Hz). apply filter_In in Hz as [Hz Rz]. rewrite Forall_forall in F. destruct (F z Hz) as (H1 & _ & _ & _ & _ & H2). apply name_safe; [exact H1|exact (H2 Rz)].
  Qed.
  Lemma declared_space u : Declared (env_of m) u -> u <> "xmlns".
  Proof.
    intros (_ & q & E). destruct HH as (_ & _ & _ & (_ & F) & _). unfold env_of in E. cbn [en_decl] in E.
    assert (X : In (q, u) (rev (map (fun x => (ex_local x, ex_ns x)) (mo_exts m)))).
    { clear -E. induction (rev _) as [|[a b] l IH]; [discriminate|]. cbn in E. destruct (seq_spec q a) as [->|]; [injection E as ->; left; reflexivity|right; apply IH, E]. }
    apply in_rev, in_map_iff in X as (x & Ex & Hx). injection Ex as _ <-. rewrite Forall_forall in F. apply (F x Hx).
  Qed.
  Definition head_model (M : Model) : Model := mo_head (mo_lang m) (mo_units m) (mo_thumb m) (mo_exts m) (mo_anyattr m) M.
  Lemma head_read M : mo_lang M = "" -> mo_units M = 0%N -> mo_thumb M = "" -> mo_exts M = [] -> mo_anyattr M = [] ->
    exists M1 req, AL (model_attr reg) (M, []) (model_attrs m true) (M1, req) /\
      mo_head (mo_lang M1) (mo_units M1) (mo_thumb M1) (fold_left (fun l local => require local l) req (mo_exts M1)) (mo_anyattr M1) M1 = head_model M.
  Proof.
    intros E1 E2 E3 E4 E5. destruct HH as (H1 & H2 & H3 & (H4 & H4') & H5 & H6).
    set (st lang units thumb exts any := mo_head lang units thumb exts any M).
    set (req := isort sleb (map ex_local (filter ex_req (mo_exts m)))).
    exists (st (mo_lang m) (mo_units m) (mo_thumb m) (map plain_ext (mo_exts m)) (mo_anyattr m)), req. split.
    - unfold model_attrs. fold req. eapply al_app.
      { eapply al_cons; [reflexivity|]. eapply al_cons; [unfold model_attr, lattr, lname; cbn; rewrite (units_read _ H1); reflexivity|]. eapply al_cons; [reflexivity|]. apply al_nil. }
      cbn [avalue lattr]. eapply al_app.
      { apply (al_opt _ _ (st (mo_lang m) (mo_units m) (mo_thumb m) [] [], [])); cbn [andb]; unfold nonempty; intros HT.
        - unfold st, model_attr, lattr, lname, mo_head. cbn. rewrite E4, E5. reflexivity.
        - unfold st, mo_head. cbn. destruct (seq_spec (mo_thumb m) "") as [->|]; [|discriminate]. rewrite E3, E4, E5. reflexivity. }
      eapply al_app.
      { assert (G : forall l d, AL (model_attr reg) (st (mo_lang m) (mo_units m) (mo_thumb m) d [], []) (map (fun e => mkAttr (mkName "xmlns" (ex_local e)) (ex_ns e)) l)
          (st (mo_lang m) (mo_units m) (mo_thumb m) (d ++ map plain_ext l) [], [])).
        { induction l as [|x l IH]; intros d; [rewrite app_nil_r; apply al_nil|]. cbn [map]. eapply al_cons; [reflexivity|]. assert (X : d ++ plain_ext x :: map plain_ext l = (d ++ [plain_ext x]) ++ map plain_ext l) by (rewrite <- app_assoc; reflexivity). rewrite X. apply (IH (d ++ [plain_ext x])). }
        apply (G (mo_exts m) []). }
      eapply al_app.
      { assert (R : AL (model_attr reg) (st (mo_lang m) (mo_units m) (mo_thumb m) (map plain_ext (mo_exts m)) [], [])
           (match req with [] => [] | x :: l => [lattr "requiredextensions" (sjoin " " (x :: l))] end) (st (mo_lang m) (mo_units m) (mo_thumb m) (map plain_ext (mo_exts m)) [], req)).
        { assert (W : Forall word req) by (eapply Forall_impl; [|exact req_words]; cbn; intros a [_ X]; exact X).
          destruct req as [|x l] eqn:ER; [apply al_nil|]. eapply al_cons; [|apply al_nil]. unfold model_attr, lattr, lname. cbn. rewrite (fields_join _ W). reflexivity. }
        exact R. }
      assert (L : AL (model_attr reg) (st (mo_lang m) (mo_units m) (mo_thumb m) (map plain_ext (mo_exts m)) [], req) (any_attrs (mo_anyattr m))
         (st (mo_lang m) (mo_units m) (mo_thumb m) (map plain_ext (mo_exts m)) (mo_anyattr m), req)).
      { apply (al_lens reg (model_attr reg) (fun x => mo_anyattr (fst x)) (fun any x => (mo_head (mo_lang (fst x)) (mo_units (fst x)) (mo_thumb (fst x)) (mo_exts (fst x)) any (fst x), snd x))
          (fun a => nspace (aname a) <> "" /\ nspace (aname a) <> nsxml /\ nspace (aname a) <> "xmlns") "model").
        - intros [x rq] a any (N1 & N2 & N3) Ha. cbn [fst snd] in *. unfold model_attr. destruct (seq_spec (nspace (aname a)) ""); [contradiction|]. unfold model_nocore. cbv zeta.
          destruct (seq_spec (nspace (aname a)) "http://www.w3.org/XML/1998/namespace"); [contradiction|]. destruct (seq_spec (nspace (aname a)) "xmlns"); [contradiction|]. rewrite Ha. reflexivity.
        - reflexivity.
        - reflexivity.
        - intros [[] rq]. reflexivity.
        - pose proof (any_spaces reg (env_of m) false "model" _ H5) as S. apply Forall_forall. intros a Ha. rewrite Forall_forall in S. destruct (S a Ha) as (S1 & S2 & S3). split; [exact S2|].
          assert (NX : nspace (aname a) <> nsxml). { apply in_map_iff in S1 as (g & <- & Hg). rewrite Forall_forall in H6. apply (H6 g Hg). }
          split; [exact NX|]. destruct S3 as (_ & [[S3 _]|[S3|S3]] & _); [contradiction|contradiction|]. apply declared_space, S3.
        - apply (any_read reg (env_of m) false), H5. }
      exact L.
    - unfold st, head_model, mo_head. cbn. f_equal. apply require_back, H4.
  Qed.
  (** *** printed *)
  Lemma root_prefixes exts : forall df ds r e', NoDup (map ex_local exts) -> (forall x, In x exts -> aget seq (ex_local x) ds = None) ->
    Forall (fun x => NameStr (ex_local x) /\ ex_local x <> "xml" /\ ex_local x <> "xmlns" /\ XmlText (ex_ns x) /\ ex_ns x <> "xmlns") exts ->
    RootAttrs (mkEnv df (rev (map (fun x => (ex_local x, ex_ns x)) exts) ++ ds)) r e' ->
    RootAttrs (mkEnv df ds) (map (fun e => mkAttr (mkName "xmlns" (ex_local e)) (ex_ns e)) exts ++ r) e'.
  Proof.
    induction exts as [|x exts IH]; intros df ds r e' N A F H; [exact H|]. cbn in N. apply NoDup_cons_iff in N as [N1 N2]. apply Forall_cons_iff in F as [(F1 & F2 & F3 & F4 & F5) F].
    cbn [map app]. apply RaPrefix; try assumption; [apply A; left; reflexivity|]. apply IH; try assumption.
    - intros y Hy. cbn [aget]. destruct (seq_spec (ex_local y) (ex_local x)) as [E|]; [exfalso; apply N1; rewrite <- E; apply in_map, Hy|]. apply A. right. exact Hy.
    - cbn [map rev] in H. rewrite <- app_assoc in H. exact H.
  Qed.
  Lemma root_others e l : Forall (AttrFits e false) l -> RootAttrs e l e.
  Proof. induction 1; [apply RaNil|apply RaOther; assumption]. Qed.
  Lemma root_opt e b a r e' : AttrFits e false a -> RootAttrs e r e' -> RootAttrs e (opt b a ++ r) e'.
  Proof. intros H R. destruct b; [apply RaOther; assumption|exact R]. Qed.
  Lemma root_attrs b : RootAttrs (mkEnv None []) (model_attrs m b) (env_of m).
  Proof.
    destruct HH as (H1 & H2 & H3 & (H4 & H4') & H5 & H6). unfold model_attrs. cbn [app]. apply RaDefault; [apply safe_xml; reflexivity|].
    apply RaOther; [apply lattr_fits; [reflexivity|apply safe_writable, safe_units]|].
    apply RaOther. { split; [apply name_ok; reflexivity|]. split; [right; left; reflexivity|exact H2]. }
    apply root_opt; [apply lattr_fits; [reflexivity|exact H3]|].
    apply root_prefixes; [exact H4|reflexivity| |].
    - eapply Forall_impl; [|exact H4']. cbn. intros x (A & B & C & D & E & _). auto.
    - rewrite app_nil_r. apply root_others. apply fits_app; [|apply (any_fit reg (env_of m) false "model"), H5].
      pose proof req_words as W. destruct (isort _ _) as [|x l] eqn:ER; [constructor|]. constructor; [|constructor]. apply lattr_fits; [reflexivity|]. apply safe_writable, safe_join.
      eapply Forall_impl; [|exact W]. cbn. intros a [X _]. exact X.
  Qed.
End Head.

(** ** The whole file *)
Lemma file_run reg isroot path every input M evs d mm : scan XEOF input = SDone evs XEOF d ->
  (forall later, on_events reg isroot path later evs (m_init M) = Some mm) -> m_errs mm = [] ->
  exists n, decode_file reg isroot false path every (fun _ => false) XEOF input M = DRet (s_model (m_st mm)) DNone n d.
Proof.
  intros S H E. unfold decode_file, decode_with. unfold scan in S.
  assert (R : forall later, exists n, decode_loop reg isroot false path every (fun _ => false) XEOF later (scan_fuel input) 0 (dec_new input) (m_init M) = DRet (s_model (m_st mm)) DNone n d).
  { intros later. pose proof (lenient_run reg isroot path every XEOF later _ 0 _ (m_init M) _ _ _ S) as L. rewrite H in L. destruct L as (n & L). exists n. rewrite L, E. reflexivity. }
  destruct (R (fun _ => "")) as (n & ->). apply R.
Qed.
Section Top.
  Context (reg : Reg) (isroot : bool) (path : string) (m : Model) (M : Model).
  Notation e := (env_of m).
  Definition top_mach (s : DSt) : Mach := mkM s KModel (mkName ns_core "model") [] [].
  (** The root element around the pieces; [tail] may be something the decoder ignores *)
  Lemma top_document b inner : HeadFits (knows reg) m -> Prints e false false inner ->
    exists ts, Document e (element (lname "model") (model_attrs m b) inner) (TStart (lname "model") (model_attrs m b) :: ts) /\ Emits e false false [lname "model"] (inner ++ [end_op (lname "model")]) ts.
  Proof.
    intros HH HP. destruct (HP (lname "model") [] [end_op (lname "model")] [TEnd (lname "model")]) as (ts & E).
    { apply EmEnd, EmNil. }
    exists ts. split; [|exact E]. exists (lname "model"), (model_attrs m b), (inner ++ [end_op (lname "model")]), ts.
    split; [reflexivity|]. split; [reflexivity|]. split; [apply name_ok; reflexivity|]. split; [discriminate|]. split; [left; reflexivity|]. split; [apply (root_attrs reg m HH)|exact E].
  Qed.
  Lemma top_run b inner ts s1 s2 : start reg isroot path KModel (mkName ns_core "model") (model_attrs m b) (d_init M) = Some (s1, None) ->
    Emits e false false [lname "model"] (inner ++ [end_op (lname "model")]) ts ->
    (forall stk errs, ex reg isroot path e false "" (inner ++ [end_op (lname "model")]) (mkM s1 KModel (mkName ns_core "model") ((KModel, mkName ns_core "model", (-1)%Z) :: stk) errs)
       = ex reg isroot path e false "" [end_op (lname "model")] (mkM s2 KModel (mkName ns_core "model") ((KModel, mkName ns_core "model", (-1)%Z) :: stk) errs)) ->
    forall later evs, map ev_token evs = join_texts "" (map (qtok e) (TStart (lname "model") (model_attrs m b) :: ts)) ->
    on_events reg isroot path later evs (m_init M) = Some (top_mach s2).
  Proof.
    intros ES EM EX later evs E. cbn [map qtok join_texts text_tok] in E. unfold text_tok in E. rewrite seq_refl in E. cbn [app] in E.
    change (qual e (lname "model")) with (mkName ns_core "model") in E. destruct evs as [|ev evs]; [discriminate|]. cbn [map] in E. injection E as E1 E2. destruct ev as [n a|n|now r]; try discriminate. cbn [ev_token] in E1. injection E1 as -> ->.
    cbn [on_events on_event]. unfold on_start. unfold m_init. cbn [m_cur m_st m_stack m_errs has_child].
    assert (C : child reg isroot path KTop (mkName ns_core "model") (d_init M) = COk (-1) KModel (d_init M)) by reflexivity.
    rewrite C, ES. eapply (emits_run reg isroot path e); [exact EM| |exact E2]. rewrite EX. unfold end_op. cbn [ex]. unfold on_text. rewrite seq_refl.
    assert (QM : qual e (lname "model") = mkName ns_core "model") by reflexivity. rewrite QM. unfold on_end. cbn [m_name m_cur m_st m_stack m_errs end_]. rewrite name_eqb_refl. cbn [end_]. reflexivity.
  Qed.
End Top.
Section File.
  Context (reg : Reg) (path : string) (p : nat) (m M : Model).
  Notation e := (env_of m).
  Notation known := (knows reg).
  Definition rt_model : Model :=
    mkModel (mo_path M) (mo_lang m) (mo_units m) (mo_thumb m) (rt_res p (mo_res m)) (rt_build (mo_build m)) (mo_atts M) (mo_exts m) (mo_md m) (mo_childs M)
      (mo_rootrels M) (mo_rels M) (map (rt_elem p) (mo_any m)) (mo_anyattr m).
  Lemma model_print : ModelFits known p m -> Prints e false false (write_metadata (mo_md m) ++ write_resources p (mo_res m) ++ write_build m ++ write_any p (mo_any m)).
  Proof.
    intros (F1 & F2 & F3 & F4 & F5). apply pr_app; [apply (metas_print e _ _ F2)|]. apply pr_app; [|apply pr_app].
    - apply (resources_print reg e p m), F3.
    - apply (build_print reg e (map ex_local (mo_exts m)) m F4).
    - apply (any_print reg e p), F5.
  Qed.
  Lemma root_run : ModelFits known p m -> seq path "" || seq path (mo_path M) || (seq (mo_path M) "" && seq path DefaultModelPath) = true ->
    mo_lang M = "" -> mo_units M = 0%N -> mo_thumb M = "" -> mo_exts M = [] -> mo_anyattr M = [] -> mo_md M = [] -> mo_res M = res_zero -> mo_build M = mkBuild [] [] -> mo_any M = [] ->
    exists ts s2, Document e (write_model p m) ts /\ s_model s2 = rt_model /\
      forall later evs, map ev_token evs = join_texts "" (map (qtok e) ts) -> on_events reg true path later evs (m_init M) = Some (top_mach s2).
  Proof.
    intros F HP E1 E2 E3 E4 E5 E6 E7 E8 E9. pose proof F as (F1 & F2 & F3 & F4 & F5).
    destruct (top_document reg m true _ F1 (model_print F)) as (ts & D & EM). exists (TStart (lname "model") (model_attrs m true) :: ts).
    destruct (head_read reg m F1 M E1 E2 E3 E4 E5) as (M1 & req & HA & HM).
    assert (T : Tr reg true path e KModel false (write_metadata (mo_md m) ++ write_resources p (mo_res m) ++ write_build m ++ write_any p (mo_any m)) (VM (head_model m M)) (VM rt_model)).
    { set (A := mo_set_md (mo_md m) (head_model m M)).
      assert (HR : forall r, rset path r A = mo_set_res r A).
      { intros r. unfold rset, res_set. cbn [d_init s_model]. change (mo_path A) with (mo_path M). rewrite HP. reflexivity. }
      eapply tr_app; [apply (model_metas_read reg path e eq_refl); [exact E6|exact F2]|]. fold A.
      eapply (tr_app _ _ _ _ _ _ _ _ _ (VM (mo_set_res (rt_res p (mo_res m)) A))).
      - apply (tr_conseq _ _ _ _ _ _ _ (VR path A res_zero) _ (VR path A (rt_res p (mo_res m)))).
        + intros s Hs. unfold VR. rewrite HR. unfold VM in Hs. rewrite Hs. subst A. unfold mo_set_res, mo_set_md, head_model, mo_head. cbn. rewrite E7. reflexivity.
        + intros s Hs. unfold VR in Hs. rewrite HR in Hs. exact Hs.
        + apply (resources_read reg true path e p A eq_refl); try reflexivity.
          * unfold find_resources. change (mo_path A) with (mo_path M). rewrite HP. discriminate.
          * exact F3.
      - eapply tr_app; [apply (build_read reg path e eq_refl); [exact E8|exact F4]|].
        apply (tr_conseq _ _ _ _ _ _ _ (VM (mo_set_build (rt_build (mo_build m)) (mo_set_res (rt_res p (mo_res m)) A))) _
           (VM (mo_set_any (map (rt_elem p) (mo_any m)) (mo_set_build (rt_build (mo_build m)) (mo_set_res (rt_res p (mo_res m)) A))))); [auto| |].
        + intros s Hs. exact Hs.
        + apply (model_any_read reg path e p); [exact E9|exact F5]. }
    assert (ES : start reg true path KModel (mkName ns_core "model") (model_attrs m true) (d_init M) = Some (with_model (head_model m M) (d_init M), None)).
    { cbn [start]. unfold model_start. cbn [negb d_init s_model]. change (s_model (d_init M)) with M. rewrite HA. cbv beta iota zeta. rewrite HM. reflexivity. }
    destruct (T (with_model (head_model m M) (d_init M)) eq_refl) as (s2 & R & V). exists s2. split; [exact D|]. split; [exact V|].
    apply (top_run reg true path m M true _ ts _ s2 ES EM). intros stk errs. apply R.
  Qed.
End File.

(** ** What is read is the same *)
Section Same.
  Context (p : nat) (e : Env) (known : string -> Prop) (prefixes : list string).
  Lemma elems_same l : ElemsFit e known p l -> Forall2 (SameElem p) l (map (rt_elem p) l).
  Proof.
    intros F. destruct l as [|x [|y l]]; [constructor| |destruct x; destruct F]. constructor; [|constructor]. destruct x as [ts|x]; [reflexivity|]. apply (ext_same p e known x F).
  Qed.
  Lemma asset_same a : AssetFits e known p a -> SameAsset p a (rt_asset p a).
  Proof. destruct a as [b|id ts|x]; intros F; try reflexivity. apply (ext_same p e known x), F. Qed.
  Lemma point_same v : PointFits v -> SamePoint p v (rt_point p v).
  Proof. intros (F1 & F2 & F3). split; [|split]; apply rf_rounded; assumption. Qed.
  Lemma comp_same c : CompFits e known c -> SameComp c (rt_comp1 c).
  Proof. intros (_ & F & _). split; [reflexivity|]. split; [apply transform_same, F|reflexivity]. Qed.
  Lemma item_same i : ItemFits e known prefixes i -> SameItem i (rt_item i).
  Proof. intros (_ & F & _). split; [reflexivity|]. split; [apply transform_same, F|]. repeat (split; [reflexivity|]). reflexivity. Qed.
  Lemma mesh_same o me : MeshFits e known p me -> SameMesh p o me (rt_mesh p o me).
  Proof.
    intros (F1 & _ & _ & _ & _ & F). split; [apply (forall2_map _ _ _ _ F1), point_same|]. repeat (split; [reflexivity|]). apply elems_same, F.
  Qed.
  Lemma obj_same o : ObjFits e known p prefixes o -> SameObj p o (rt_obj p o).
  Proof.
    intros (_ & _ & _ & _ & _ & _ & _ & _ & _ & F). do 9 (split; [reflexivity|]). unfold rt_obj. cbn [ob_mesh ob_comps].
    destruct (ob_mesh o) as [me|]; destruct (ob_comps o) as [cs|]; cbn [option_map SameOption]; try contradiction.
    - split; [apply (mesh_same o), F|exact I].
    - destruct F as (_ & _ & F & _). split; [exact I|]. split; [apply (forall2_map _ _ _ _ F), comp_same|reflexivity].
    - split; exact I.
  Qed.
  Lemma res_same r : ResFits e known p prefixes r -> SameRes p r (rt_res p r).
  Proof. intros (F1 & F2 & _). split; [apply (forall2_map _ _ _ _ F1), asset_same|]. split; [apply (forall2_map _ _ _ _ F2), obj_same|reflexivity]. Qed.
End Same.
Lemma model_same known p m M : ModelFits known p m -> SameModel p m (rt_model p m M).
Proof.
  intros (F1 & F2 & F3 & F4 & F5). do 5 (split; [reflexivity|]). split; [apply (res_same p (env_of m) known (map ex_local (mo_exts m))), F3|]. split.
  - destruct F4 as [F4 _]. split; [apply (forall2_map _ _ _ _ F4), item_same|reflexivity].
  - split; [apply (elems_same p (env_of m) known), F5|reflexivity].
Qed.
