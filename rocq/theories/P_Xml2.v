(** * Nesting, namespaces and termination of the XML scanner *)
From Verif Require Import GoBase GoNum GoUtf8 GoFloat Types XmlTypes M_Xml S_Xml P_Xml.

(** ** Names in lexed tags *)
Definition AttrOk (a : Attr) : Prop := sall in_name (nlocal (aname a)) = true.
Lemma split_sall p c s a b : split_at c s = Some (a, b) -> sall p s = true -> sall p b = true.
Proof.
  revert a b; induction s as [|x s IH]; intros a b E H; cbn [split_at sall] in *; [discriminate|].
  apply andb_true_iff in H as [_ H]. destruct (ceq x c); [injection E as _ <-; exact H|].
  destruct (split_at c s) as [[a' b']|]; [|discriminate]. injection E as _ <-. eauto.
Qed.
Lemma ns_name_ok s : sall in_name s = true -> sall in_name (nlocal (ns_name s)) = true.
Proof.
  unfold ns_name. intros H. destruct (split_at ":" s) as [[p l]|] eqn:E; cbn [nlocal]; [|exact H]. eapply split_sall; eassumption.
Qed.
Section Lexed.
  Variable fin : xerr.
  Variable cached : bool.
  Lemma must_not : must_not_eof fin <> XEOF.
  Proof. destruct fin; discriminate. Qed.
  Lemma bad_entity_err before b e b' : bad_entity before b = EErr e b' -> e <> XEOF.
  Proof. unfold bad_entity. intros E. injection E as <- _. discriminate. Qed.
  Lemma char_ref_err before base rest b e b' : char_ref fin before base rest b = EErr e b' -> e <> XEOF.
  Proof.
    unfold char_ref. destruct (ref_digits base rest b) as [r b1]. destruct r as [|c r]; [intros E; injection E as <- _; apply must_not|].
    destruct (ceq c ";"); [|apply bad_entity_err]. destruct (parse_base _ _) as [n|]; [|apply bad_entity_err].
    destruct (n <=? max_rune)%N; [discriminate|apply bad_entity_err].
  Qed.
  Lemma named_ref_err before rest b e b' : named_ref fin before rest b = EErr e b' -> e <> XEOF.
  Proof.
    unfold named_ref. pose proof (read_name_spec fin rest b) as H.
    destruct (read_name fin rest b) as [r1 b1|r1 b1|e1 b1].
    3:{ destruct H as [-> _]. intros E; injection E as <- _. apply must_not. }
    all: clear H; (destruct r1 as [|c r1]; [intros E; injection E as <- _; apply must_not|]);
      destruct (ceq c ";"); [|apply bad_entity_err]; cbv zeta; destruct (is_name _); [|apply bad_entity_err];
      destruct (aget _ _ _); [discriminate|apply bad_entity_err].
  Qed.
  Lemma scan_entity_err rest b e b' : scan_entity fin rest b = EErr e b' -> e <> XEOF.
  Proof.
    unfold scan_entity. destruct rest as [|c r]; [intros E; injection E as <- _; apply must_not|]. destruct (ceq c "#").
    - destruct r as [|c2 r2]; [intros E; injection E as <- _; apply must_not|]. destruct (ceq c2 "x").
      + destruct r2 as [|c3 r3]; [intros E; injection E as <- _; apply must_not|]. apply char_ref_err.
      + apply char_ref_err.
    - apply named_ref_err.
  Qed.
  Lemma text_loop_err fuel quote b1 rest b e b' : text_loop fin fuel quote b1 rest b = TErr e b' -> e <> XEOF.
  Proof.
    revert b1 rest b; induction fuel as [|f IH]; intros b1 rest b; cbn [text_loop]; [discriminate|].
    destruct rest as [|c r]; [discriminate|]. destruct (ceq c "<").
    { destruct quote; [intros E; injection E as <- _|]; discriminate. }
    destruct (match quote with Some q => ceq c q | None => false end); [discriminate|].
    destruct (ceq c "&").
    { destruct (scan_entity fin r b) as [r2 b2|e2 b2] eqn:E; [apply IH|]. intros E1. injection E1 as <- _. eapply scan_entity_err, E. }
    destruct (ceq c (byte 13)); [apply IH|]. destruct (ceq b1 (byte 13) && ceq c (byte 10)); apply IH.
  Qed.
  Lemma attrval_err rest b e b' : attrval fin rest b = TErr e b' -> e <> XEOF.
  Proof.
    unfold attrval. destruct rest as [|c r]; [intros E; injection E as <- _; apply must_not|].
    destruct (_ || _); [apply text_loop_err|]. intros E; injection E as <- _. discriminate.
  Qed.
  Lemma attrs_ok fuel acc rest names b : NamesOk names -> Forall AttrOk acc ->
    match attrs_loop fin cached fuel acc rest names b with
    | AOk attrs _ _ names' _ => Forall AttrOk attrs /\ NamesOk names'
    | AErr e names' _ => NamesOk names' /\ e <> XEOF
    | AOut => True end.
  Proof.
    revert acc rest names b; induction fuel as [|f IH]; intros acc rest names b Hn Ha; cbn [attrs_loop]; [auto|].
    pose proof must_not as X.
    destruct (space rest) as [|x r]; [auto|]. destruct (ceq x "/").
    { destruct r as [|c2 r2]; [auto|]. destruct (ceq c2 ">"); [split; [apply Forall_rev|]; assumption|split; [assumption|discriminate]]. }
    destruct (ceq x ">"); [split; [apply Forall_rev|]; assumption|].
    pose proof (name_spec fin cached (String x r) names b Hn) as S.
    destruct (name fin cached (String x r) names b) as [s1 r1 n1 b1|r1 b1|e1 b1].
    - destruct S as (_ & _ & S1 & _ & _ & S2). destruct (space r1) as [|y q]; [auto|]. destruct (ceq y "="); [|split; [assumption|discriminate]].
      destruct (attrval fin (space q) b1) as [r3 e3 b3|e3 b3|] eqn:E; [|split; [exact S2|eapply attrval_err, E]|auto].
      apply IH; [exact S2|]. constructor; [|exact Ha]. unfold AttrOk. cbn [aname]. apply ns_name_ok, S1.
    - split; [assumption|discriminate].
    - destruct S as [-> _]. auto.
  Qed.
  Lemma lex_ok rest names b : NamesOk names ->
    match lex fin cached rest names b with
    | LTok t _ _ names' _ => NamesOk names' /\ (forall n attrs e, t = RwStart n attrs e -> Forall AttrOk attrs)
    | LErr e names' _ => NamesOk names' /\ (rest <> "" -> e <> XEOF)
    | LOut => True end.
  Proof.
    intros Hn. unfold lex. pose proof must_not as X. destruct rest as [|x r]; [split; [assumption|congruence]|]. destruct (negb (ceq x "<")).
    { destruct (text fin None (String x r) b) eqn:E; auto; (split; [assumption|]); [discriminate|]. intros _. eapply text_loop_err, E. }
    destruct r as [|c2 r2]; [auto|]. destruct (ceq c2 "/").
    { pose proof (name_spec fin cached r2 names b Hn) as S. destruct (name fin cached r2 names b) as [s1 r1 n1 b1|r1 b1|e1 b1].
      - destruct S as (_ & _ & S1 & _ & _ & S2). destruct (space r1) as [|y q]; [auto|]. destruct (ceq y ">"); split; try assumption; discriminate.
      - split; [assumption|discriminate].
      - destruct S as [-> _]; auto. }
    destruct (ceq c2 "?").
    { pose proof (name_spec fin cached r2 names b Hn) as S. destruct (name fin cached r2 names b) as [s1 r1 n1 b1|r1 b1|e1 b1].
      - destruct S as (_ & _ & S1 & _ & _ & S2). destruct (proc_inst _ _ _) as [[z|] b2]; [split; [assumption|discriminate]|auto].
      - split; [assumption|discriminate].
      - destruct S as [-> _]; auto. }
    pose proof (name_spec fin cached (String c2 r2) names b Hn) as S. destruct (name fin cached (String c2 r2) names b) as [s1 r1 n1 b1|r1 b1|e1 b1].
    - destruct S as (_ & _ & S1 & _ & _ & S2).
      pose proof (attrs_ok (Datatypes.S (String.length r1)) [] r1 n1 b1 S2 (Forall_nil _)) as A.
      destruct (attrs_loop _ _ _ _ _ _ _) as [attrs e rest names' b'|e names' b'|]; [|tauto|exact I].
      destruct A as [A1 A2]. split; [exact A2|]. intros n at' e' E. injection E as _ <- _. exact A1.
    - split; [assumption|discriminate].
    - destruct S as [-> _]; auto.
  Qed.
End Lexed.

(** ** Declarations *)
Definition eqmap (a b : list (string * string)) : Prop := forall k, aget seq k a = aget seq k b.
Lemma seq_refl' a : seq a a = true. Proof. destruct (seq_spec a a); congruence. Qed.
Lemma eqmap_refl a : eqmap a a. Proof. intros k; reflexivity. Qed.
Lemma eqmap_aset a b k v : eqmap a b -> eqmap (aset seq k v a) (aset seq k v b).
Proof.
  intros H q. destruct (seq_spec q k) as [->|Hq].
  - rewrite !aget_aset_same by apply seq_spec. reflexivity.
  - rewrite !aget_aset_other by (try apply seq_spec; exact Hq). apply H.
Qed.
(** the prefix an attribute declares *)
Definition decl_of (a : Attr) : option string :=
  if seq (nspace (aname a)) "xmlns" then Some (nlocal (aname a))
  else if seq (nspace (aname a)) "" && seq (nlocal (aname a)) "xmlns" then Some ""
  else None.
Lemma decl_of_spec a p : decl_of a = Some p <-> (aname a = mkName "xmlns" p \/ (p = "" /\ aname a = mkName "" "xmlns")).
Proof.
  unfold decl_of. destruct (aname a) as [s l]. cbn [nspace nlocal].
  destruct (seq_spec s "xmlns") as [->|H1]; [split|].
  - intros E; injection E as ->. auto.
  - intros [E|[_ E]]; [congruence|discriminate].
  - destruct (seq_spec s "") as [->|H2]; [destruct (seq_spec l "xmlns") as [->|H3]|]; cbn [andb].
    + split; [intros E; injection E as <-; auto|intros [E|[-> _]]; [discriminate|reflexivity]].
    + split; [discriminate|intros [E|[_ E]]; [discriminate|congruence]].
    + split; [discriminate|intros [E|[_ E]]; congruence].
Qed.
Lemma declares_inv l a p u : Declares (l ++ [a]) p u <->
  (decl_of a = Some p /\ avalue a = u) \/ (decl_of a <> Some p /\ Declares l p u).
Proof.
  split.
  - intros H. remember (l ++ [a]) as l' eqn:E. destruct H as [l0 a0 p u H U|l0 a0 p u H H1 H2]; apply app_inj_tail in E as [-> ->].
    + left. split; [apply decl_of_spec; exact H|exact U].
    + right. split; [|exact H]. rewrite decl_of_spec. tauto.
  - intros [[H <-]|[H1 H2]].
    + apply DeLast; [apply decl_of_spec, H|reflexivity].
    + rewrite decl_of_spec in H1. apply DeSkip; tauto.
Qed.
Lemma declare_step a r ns stk : declare (a :: r) ns stk =
  match decl_of a with
  | Some k => declare r (aset seq k (avalue a) ns)
      (SNs k (match aget seq k ns with Some v => v | None => "" end) (match aget seq k ns with Some _ => true | None => false end) :: stk)
  | None => declare r ns stk
  end.
Proof.
  cbn [declare]. unfold decl_of. destruct (seq (nspace (aname a)) "xmlns").
  - destruct (aget seq (nlocal (aname a)) ns); reflexivity.
  - destruct (_ && _); [|reflexivity]. destruct (aget seq "" ns); reflexivity.
Qed.
Lemma declare_snoc l a ns stk : declare (l ++ [a]) ns stk = let (n, s) := declare l ns stk in declare [a] n s.
Proof.
  revert ns stk; induction l as [|x l IH]; intros ns stk; [reflexivity|]. cbn [app]. rewrite !declare_step.
  destruct (decl_of x); apply IH.
Qed.
Lemma declare_lookup l ns stk k u : aget seq k (fst (declare l ns stk)) = Some u <->
  Declares l k u \/ ((forall v, ~ Declares l k v) /\ aget seq k ns = Some u).
Proof.
  revert u. induction l as [|a l IH] using rev_ind; intros u.
  - cbn [declare fst]. split; [|intros [H|[_ H]]; [inversion H; destruct l; discriminate|exact H]].
    intros H. right. split; [|exact H]. intros v D. inversion D; destruct l; discriminate.
  - rewrite declare_snoc. destruct (declare l ns stk) as [n s]. cbn [fst] in IH. rewrite declare_step. rewrite declares_inv.
    destruct (decl_of a) as [q|] eqn:Eq; cbn [declare fst].
    + destruct (seq_spec k q) as [->|Hk].
      * rewrite aget_aset_same by apply seq_spec. split.
        { intros E. left. left. split; [reflexivity|congruence]. }
        { intros [[[_ H]|[H _]]|[H _]]; [congruence|congruence|]. exfalso. apply (H (avalue a)). rewrite declares_inv. left. auto. }
      * rewrite aget_aset_other by (try apply seq_spec; exact Hk). rewrite IH. split.
        { intros [H|[H1 H2]]; [left; right; split; [congruence|exact H]|]. right. split; [|exact H2].
          intros v. rewrite declares_inv. intros [[H _]|[_ H]]; [congruence|exact (H1 v H)]. }
        { intros [[[H _]|[_ H]]|[H1 H2]]; [congruence|left; exact H|]. right. split; [|exact H2]. intros v D. apply (H1 v). rewrite declares_inv. right. split; [congruence|exact D]. }
    + rewrite IH. split.
      { intros [H|[H1 H2]]; [left; right; split; [congruence|exact H]|]. right. split; [|exact H2].
        intros v. rewrite declares_inv. intros [[H _]|[_ H]]; [congruence|exact (H1 v H)]. }
      { intros [[[H _]|[_ H]]|[H1 H2]]; [congruence|left; exact H|]. right. split; [|exact H2]. intros v D. apply (H1 v). rewrite declares_inv. right. split; [congruence|exact D]. }
Qed.
Lemma declare_undo l ns stk ns2 : eqmap ns2 (fst (declare l ns stk)) ->
  exists ns3, undo ns2 (snd (declare l ns stk)) = undo ns3 stk /\ eqmap ns3 ns.
Proof.
  revert ns stk ns2; induction l as [|a l IH]; intros ns stk ns2 H; [exists ns2; auto|]. rewrite declare_step in *.
  destruct (decl_of a) as [k|]; [|apply IH, H].
  destruct (IH _ _ _ H) as (ns3 & E & H3). rewrite E. cbn [undo].
  destruct (aget seq k ns) as [v|] eqn:Ek; eexists; (split; [reflexivity|]).
  - intros q. destruct (seq_spec q k) as [->|Hq].
    + rewrite aget_aset_same by apply seq_spec. congruence.
    + rewrite aget_aset_other by (try apply seq_spec; exact Hq). rewrite H3. apply aget_aset_other; [apply seq_spec|exact Hq].
  - intros q. destruct (seq_spec q k) as [->|Hq].
    + rewrite aget_adel_same by apply seq_spec. congruence.
    + rewrite aget_adel_other by (try apply seq_spec; exact Hq). rewrite H3. apply aget_aset_other; [apply seq_spec|exact Hq].
Qed.

(** ** The frames of the stack *)
Inductive Frames : list StkEl -> list (string * string) -> list (list Attr) -> list Name -> Prop :=
| FNil ns : eqmap ns [] -> Frames [] ns [] []
| FCons stk ns sc names a ns' n : Frames stk ns sc names -> Forall AttrOk a -> eqmap ns' (fst (declare a ns stk)) ->
    Frames (SStart n :: snd (declare a ns stk)) ns' (a :: sc) (n :: names).
Lemma frames_eqmap stk ns ns' sc names : Frames stk ns sc names -> eqmap ns' ns -> Frames stk ns' sc names.
Proof.
  intros [ns0 H|stk0 ns0 sc0 names0 a ns1 n H H1 H2] E.
  - constructor. intros k. rewrite E. apply H.
  - econstructor; [exact H|exact H1|]. intros k. rewrite E. apply H2.
Qed.
Lemma frames_undo stk ns sc names ns' : Frames stk ns sc names -> undo ns' stk = (ns', stk).
Proof. intros [ ]; reflexivity. Qed.
Lemma frames_bound stk ns sc names : Frames stk ns sc names -> forall p u, aget seq p ns = Some u <-> Bound sc p u.
Proof.
  induction 1 as [ns H|stk ns sc names a ns' n H IH HA HE]; intros p u.
  - rewrite (H p). cbn. split; [discriminate|]. intros B. inversion B.
  - rewrite (HE p), declare_lookup. rewrite IH. split.
    + intros [D|[D B]]; [apply BoHere|apply BoOuter]; assumption.
    + intros B. inversion B; subst; auto.
Qed.
Lemma frames_keys stk ns sc names : Frames stk ns sc names -> forall p u, aget seq p ns = Some u -> sall in_name p = true.
Proof.
  induction 1 as [ns H|stk ns sc names a ns' n H IH HA HE]; intros p u.
  - rewrite (H p). discriminate.
  - rewrite (HE p), declare_lookup. intros [D|[_ B]]; [|eapply IH, B]. clear -HA D.
    induction D as [l a p u D U|l a p u D ID N1 N2]; apply Forall_app in HA as [HA1 HA2].
    + inversion_clear HA2. unfold AttrOk in H. destruct D as [E|[-> _]]; [rewrite E in H; exact H|reflexivity].
    + auto.
Qed.
Lemma frames_xml stk ns sc names : Frames stk ns sc names -> aget seq xml_url ns = None.
Proof.
  intros F. destruct (aget seq xml_url ns) as [u|] eqn:E; [|reflexivity]. apply (frames_keys _ _ _ _ F) in E. vm_compute in E. discriminate.
Qed.
Lemma translate_means stk ns sc names n elem : Frames stk ns sc names -> Means sc elem n (translate ns n elem).
Proof.
  intros F. pose proof (frames_bound _ _ _ _ F) as B. pose proof (frames_xml _ _ _ _ F) as X. destruct n as [p l]. unfold translate. cbn [nspace nlocal].
  destruct (seq_spec p "xmlns") as [->|H1]; [constructor|].
  destruct (seq_spec p "") as [->|H2]; cbn [andb].
  - destruct elem; cbn [negb]; [|apply MeAttr; reflexivity]. change (seq "" "xml") with false. cbv iota.
    destruct (seq_spec l "xmlns") as [->|H3]; cbn [andb]; [apply MeDecl|].
    destruct (aget seq "" ns) as [u|] eqn:E.
    + apply MeBound; [discriminate|discriminate|auto|]. apply B, E.
    + apply MeFree; [discriminate|discriminate|auto|]. intros u Hu. apply B in Hu. congruence.
  - destruct (seq_spec p "xml") as [->|H3].
    + rewrite X. constructor.
    + destruct (aget seq p ns) as [u|] eqn:E.
      * apply MeBound; [assumption|assumption|congruence|]. apply B, E.
      * apply MeFree; [assumption|assumption|congruence|]. intros u Hu. apply B in Hu. congruence.
Qed.
Lemma translate_eqmap a b n e : eqmap a b -> translate a n e = translate b n e.
Proof. intros H. unfold translate. cbn [nspace]. rewrite !H. reflexivity. Qed.

(** ** The invariant of the runs *)
Lemma nests_app o ts o1 ts' o2 : Nests o ts o1 -> Nests o1 ts' o2 -> Nests o (ts ++ ts') o2.
Proof. induction 1; intros H2; cbn [app]; [exact H2|constructor; auto..]. Qed.
Section Runs.
  Variable fin : xerr.
  Variable cached : bool.
  Record Inv (l : list step) (evs : list event) (d : Dec) (sc : list (list Attr)) (names : list Name) : Prop := {
    i_frames : Frames (d_stk d) (d_ns d) sc names;
    i_nests : Nests [] (map ev_token evs) names;
    i_scopes : Scopes l sc;
    i_names : NamesOk (d_names d);
    i_close : forall n, d_close d = Some n -> (exists l0 a, l = l0 ++ [Lexed (RwStart n a true)]) /\
                exists stk, d_stk d = SStart (translate (d_ns d) n true) :: stk;
    i_open : forall l0 n a, l = l0 ++ [Lexed (RwStart n a true)] -> d_close d = Some n;
    i_supplied : Supplied l }.
  Lemma supplied_snoc l s : Supplied l ->
    (forall n, s = Closed n -> exists l0 a, l = l0 ++ [Lexed (RwStart n a true)]) ->
    (forall l0 n a, l = l0 ++ [Lexed (RwStart n a true)] -> s = Closed n) -> Supplied (l ++ [s]).
  Proof.
    intros [H1 H2] A B. split.
    - intros l1 n l2 E. destruct l2 as [|y l2 _] using rev_ind.
      + apply app_inj_tail in E as [-> ->]. apply A. reflexivity.
      + change (l1 ++ Closed n :: l2 ++ [y]) with (l1 ++ (Closed n :: l2) ++ [y]) in E. rewrite app_assoc in E.
        apply app_inj_tail in E as [-> _]. eapply H1. reflexivity.
    - intros l1 n a s' l2 E. destruct l2 as [|y l2 _] using rev_ind.
      + change (l1 ++ [Lexed (RwStart n a true); s']) with (l1 ++ [Lexed (RwStart n a true)] ++ [s']) in E. rewrite app_assoc in E.
        apply app_inj_tail in E as [-> ->]. eapply B. reflexivity.
      + change (l1 ++ Lexed (RwStart n a true) :: s' :: l2 ++ [y]) with (l1 ++ (Lexed (RwStart n a true) :: s' :: l2) ++ [y]) in E. rewrite app_assoc in E.
        apply app_inj_tail in E as [-> _]. eapply H2. reflexivity.
  Qed.
  (** the end of an element, read or supplied *)
  Lemma handle_end_spec d n ev d' sc names : Frames (d_stk d) (d_ns d) sc names -> handle_end d n = RTok ev d' ->
    exists a sc' m names', sc = a :: sc' /\ names = m :: names' /\ ev = [EvEnd m] /\ m = translate (d_ns d) n true /\
      Frames (d_stk d') (d_ns d') sc' names' /\ d_names d' = d_names d /\ d_close d' = d_close d /\ d_rest d' = d_rest d.
  Proof.
    intros F. unfold handle_end. destruct F as [ns H|stk ns sc names a ns' m F HA HE]; [discriminate|].
    destruct (seq_spec (nlocal m) (nlocal (translate ns' n true))) as [E1|_]; cbn [negb]; [|discriminate].
    destruct (seq_spec (nspace m) (nspace (translate ns' n true))) as [E2|_]; cbn [negb]; [|discriminate].
    destruct (declare_undo a ns stk ns' HE) as (ns3 & E3 & H3). rewrite E3, (frames_undo _ _ _ _ _ F).
    intros E. injection E as <- <-. cbn [d_stk d_ns d_names d_close d_rest].
    assert (E : m = translate ns' n true) by (destruct m, (translate ns' n true); cbn in *; congruence).
    exists a, sc, m, names. rewrite <- E. sp; try reflexivity. eapply frames_eqmap; [exact F|exact H3].
  Qed.
  Lemma inv_step l evs d sc names ev d' : Inv l evs d sc names -> raw_token fin cached d = RTok ev d' ->
    exists s sc' names', step_of fin cached d = Some s /\ Inv (l ++ [s]) (evs ++ ev) d' sc' names' /\ Event sc s (map ev_token ev).
  Proof.
    intros I. destruct I as [F NE SC NO IC IO IS]. unfold raw_token, step_of. destruct (d_err d); [discriminate|].
    destruct (d_close d) as [n|] eqn:EC.
    - intros H. destruct (IC n eq_refl) as ((l0 & a0 & El) & _). apply handle_end_spec with (sc := sc) (names := names) in H; [|exact F].
      destruct H as (a & sc' & m & names' & -> & -> & -> & Em & F' & N' & C' & _). cbn [d_close d_names d_ns] in *.
      exists (Closed n), sc', names'. sp; [reflexivity| |].
      + constructor; [exact F'| | |rewrite N'; exact NO| | |].
        * rewrite map_app. eapply nests_app; [exact NE|]. cbn. repeat constructor.
        * eapply ScEnd; [exact SC|]. exists n. auto.
        * rewrite C'. discriminate.
        * intros l1 n1 a1 E. apply app_inj_tail in E as [_ E]. discriminate.
        * apply supplied_snoc; [exact IS| |].
          { intros n1 E. injection E as <-. eauto. }
          { intros l1 n1 a1 E. specialize (IO _ _ _ E). congruence. }
      + cbn. constructor. rewrite Em. eapply translate_means, F.
    - pose proof (lex_ok fin cached (d_rest d) (d_names d) (d_buf d) NO) as L.
      destruct (lex fin cached (d_rest d) (d_names d) (d_buf d)) as [t rest err nms b|e nms b|]; [|discriminate|discriminate].
      destruct L as [L1 L2]. intros H.
      assert (OP : forall l0 n a, l = l0 ++ [Lexed (RwStart n a true)] -> False).
      { intros l0 n a E. specialize (IO _ _ _ E). discriminate. }
      assert (SU : forall t, Supplied (l ++ [Lexed t])).
      { intros t'. apply supplied_snoc; [exact IS|discriminate|]. intros l0 n a E. destruct (OP _ _ _ E). }
      destruct t as [n attrs empty|n|now r|].
      + unfold handle_start in H. cbn [d_ns d_stk d_rest d_err d_close d_names d_buf] in H.
        destruct (declare attrs (d_ns d) (d_stk d)) as [ns stk] eqn:ED. injection H as <- <-.
        assert (F' : Frames (SStart (translate ns n true) :: stk) ns (attrs :: sc) (translate ns n true :: names)).
        { replace stk with (snd (declare attrs (d_ns d) (d_stk d))) by (rewrite ED; reflexivity).
          econstructor; [exact F|eapply L2; reflexivity|rewrite ED; apply eqmap_refl]. }
        exists (Lexed (RwStart n attrs empty)), (attrs :: sc), (translate ns n true :: names). sp; [reflexivity| |].
        * constructor; cbn [d_ns d_stk d_rest d_err d_close d_names d_buf]; [exact F'| |apply ScStart, SC|exact L1| | |apply SU].
          { rewrite map_app. eapply nests_app; [exact NE|]. cbn. repeat constructor. }
          { intros m. destruct empty; [|discriminate]. intros E; injection E as <-. split; eauto. }
          { intros l0 m a E. apply app_inj_tail in E as [_ E]. injection E as -> -> ->. reflexivity. }
        * cbn. constructor; [eapply translate_means, F'|].
          assert (K : forall at0, Forall2 (fun x y => avalue x = avalue y /\ Means (attrs :: sc) false (aname x) (aname y)) at0
            (map (fun a => mkAttr (translate ns (aname a) false) (avalue a)) at0)); [|apply K].
          { induction at0 as [|x q IHq]; constructor; [|exact IHq]. split; [reflexivity|]. cbn [aname]. eapply translate_means, F'. }
      + apply handle_end_spec with (sc := sc) (names := names) in H; [|exact F]. cbn [d_ns d_stk d_rest d_err d_close d_names d_buf] in H.
        destruct H as (a & sc' & m & names' & -> & -> & -> & Em & F' & N' & C' & _).
        exists (Lexed (RwEnd n)), sc', names'. sp; [reflexivity| |].
        * constructor; [exact F'| | |rewrite N'; exact L1| | |apply SU].
          { rewrite map_app. eapply nests_app; [exact NE|]. cbn. repeat constructor. }
          { eapply ScEnd; [exact SC|]. exists n. auto. }
          { rewrite C'. discriminate. }
          { intros l0 m1 a1 E. apply app_inj_tail in E as [_ E]. discriminate. }
        * cbn. constructor. rewrite Em. eapply translate_means, F.
      + injection H as <- <-. exists (Lexed (RwChar now r)), sc, names. sp; [reflexivity| |constructor].
        constructor; cbn [d_ns d_stk d_rest d_err d_close d_names d_buf]; [exact F| | |exact L1|discriminate| |apply SU].
        * rewrite map_app. eapply nests_app; [exact NE|]. cbn. repeat constructor.
        * apply ScOther; [exact SC|eauto].
        * intros l0 m1 a1 E. apply app_inj_tail in E as [_ E]. discriminate.
      + injection H as <- <-. exists (Lexed RwInst), sc, names. sp; [reflexivity| |constructor].
        constructor; cbn [d_ns d_stk d_rest d_err d_close d_names d_buf]; [exact F| | |exact L1|discriminate| |apply SU].
        * rewrite app_nil_r. exact NE.
        * apply ScOther; [exact SC|eauto].
        * intros l0 m1 a1 E. apply app_inj_tail in E as [_ E]. discriminate.
  Qed.
End Runs.

Section Scans.
  Variable fin : xerr.
  Variable cached : bool.
  Lemma inv_new input : Inv [] [] (dec_new input) [] [].
  Proof.
    constructor; cbn.
    - constructor. apply eqmap_refl.
    - constructor.
    - constructor.
    - apply names_nil.
    - discriminate.
    - intros [|x l0] n a E; discriminate.
    - split; intros [|x l1]; discriminate.
  Qed.
  Lemma run_inv input l evs d : Run fin cached input l evs d -> exists sc names, Inv l evs d sc names.
  Proof.
    induction 1 as [|l evs d s ev d' R (sc & names & I) E ES].
    - exists [], []. apply inv_new.
    - destruct (inv_step _ _ _ _ _ _ _ _ _ I E) as (s' & sc' & names' & E' & I' & _).
      assert (s' = s) by congruence. subst. eauto.
  Qed.
  Lemma raw_token_measure d ev d' : raw_token fin cached d = RTok ev d' ->
    String.length (d_rest d') < String.length (d_rest d) \/
    (d_rest d' = d_rest d /\ d_close d <> None /\ d_close d' = None).
  Proof.
    unfold raw_token. destruct (d_err d); [discriminate|].
    assert (K : forall d n, handle_end d n = RTok ev d' -> d_rest d' = d_rest d /\ d_close d' = d_close d).
    { intros d0 n. unfold handle_end. destruct (d_stk d0) as [|[m|] r]; [discriminate| |discriminate]. destruct (negb _); [discriminate|].
      destruct (negb _); [discriminate|]. destruct (undo (d_ns d0) r) as [ns stk]. intros E; injection E as _ <-. auto. }
    destruct (d_close d) as [n|].
    - intros H. apply K in H as [H1 H2]. cbn in H1, H2. right. sp; [assumption|discriminate|assumption].
    - pose proof (lex_len fin cached (d_rest d) (d_names d) (d_buf d)) as L.
      destruct (lex fin cached (d_rest d) (d_names d) (d_buf d)) as [t rest err nms b|e nms b|]; [|discriminate|discriminate].
      intros H. left. destruct t as [n attrs empty|n|now r|].
      + unfold handle_start in H. cbn [d_ns d_stk d_rest] in H. destruct (declare _ _ _). injection H as _ <-. exact L.
      + apply K in H as [H1 _]. rewrite H1. exact L.
      + injection H as _ <-. exact L.
      + injection H as _ <-. exact L.
  Qed.
  Lemma handle_end_out d n : handle_end d n <> ROut.
  Proof.
    unfold handle_end. destruct (d_stk d) as [|[m|] r]; [discriminate| |discriminate]. destruct (negb _); [discriminate|].
    destruct (negb _); [discriminate|]. destruct (undo _ _). discriminate.
  Qed.
  Lemma raw_token_out d : raw_token fin cached d <> ROut.
  Proof.
    unfold raw_token. destruct (d_err d); [discriminate|]. destruct (d_close d) as [n|]; [apply handle_end_out|].
    pose proof (lex_len fin cached (d_rest d) (d_names d) (d_buf d)) as L.
    destruct (lex fin cached (d_rest d) (d_names d) (d_buf d)) as [t rest err nms b|e nms b|]; [|discriminate|destruct L].
    destruct t as [n attrs empty|n|now r|]; try discriminate; [|apply handle_end_out].
    unfold handle_start. cbn [d_ns d_stk]. destruct (declare _ _ _). discriminate.
  Qed.
  Definition pending (d : Dec) : nat := 2 * String.length (d_rest d) + (match d_close d with Some _ => 1 | None => 0 end).
  Lemma scan_loop_done fuel d : pending d < fuel -> scan_loop fin cached fuel d <> SOut.
  Proof.
    revert d; induction fuel as [|f IH]; intros d H; [lia|]. cbn [scan_loop]. pose proof (raw_token_out d) as O.
    destruct (raw_token fin cached d) as [ev d'|e d'|] eqn:E; [|discriminate|congruence].
    apply raw_token_measure in E. assert (L : pending d' < f).
    { unfold pending in *. destruct E as [E|(E1 & E2 & E3)].
      - destruct (d_close d), (d_close d'); lia.
      - rewrite E1, E3. destruct (d_close d); [lia|congruence]. }
    specialize (IH d' L). destruct (scan_loop fin cached f d'); [discriminate|congruence].
  Qed.
  Lemma scan_loop_run input fuel l evs0 d evs e d' : Run fin cached input l evs0 d -> scan_loop fin cached fuel d = SDone evs e d' ->
    exists l2 d2, Run fin cached input (l ++ l2) (evs0 ++ evs) d2 /\ raw_token fin cached d2 = RErr e d'.
  Proof.
    revert l evs0 d evs; induction fuel as [|f IH]; intros l evs0 d evs R E; [discriminate|]. cbn [scan_loop] in E.
    destruct (raw_token fin cached d) as [ev d1|e1 d1|] eqn:E1; [| |discriminate].
    - destruct (scan_loop fin cached f d1) as [evs1 e2 d2|] eqn:E2; [|discriminate]. injection E as <- <- <-.
      destruct (run_inv _ _ _ _ R) as (sc & names & I). destruct (inv_step _ _ _ _ _ _ _ _ _ I E1) as (s & _ & _ & Es & _).
      destruct (IH (l ++ [s]) (evs0 ++ ev) d1 evs1) as (l2 & d3 & R2 & R3); [econstructor; eassumption|exact E2|].
      exists ([s] ++ l2), d3. rewrite !app_assoc. auto.
    - injection E as <- <- <-. exists [], d. rewrite !app_nil_r. auto.
  Qed.
  Lemma raw_eof d d' : NamesOk (d_names d) -> raw_token fin cached d = RErr XEOF d' -> d_stk d = [].
  Proof.
    intros N. unfold raw_token. destruct (d_err d) as [e|].
    { intros H. injection H as H _. destruct e, (d_stk d); try discriminate; reflexivity. }
    assert (K : forall d n, handle_end d n <> RErr XEOF d').
    { intros d0 n. unfold handle_end. destruct (d_stk d0) as [|[m|] r]; [discriminate| |discriminate]. destruct (negb _); [discriminate|].
      destruct (negb _); [discriminate|]. destruct (undo (d_ns d0) r). discriminate. }
    destruct (d_close d) as [n|]; [intros H; destruct (K _ _ H)|].
    pose proof (lex_ok fin cached (d_rest d) (d_names d) (d_buf d) N) as L.
    destruct (lex fin cached (d_rest d) (d_names d) (d_buf d)) as [t rest err nms b|e nms b|]; [| |discriminate].
    - destruct t as [n attrs empty|n|now r|]; try discriminate; [|intros H; destruct (K _ _ H)].
      unfold handle_start. cbn [d_ns d_stk]. destruct (declare _ _ _). discriminate.
    - destruct L as [_ L]. destruct (d_rest d) as [|c r].
      + intros H. injection H as H _. destruct e, (d_stk d); try discriminate; reflexivity.
      + intros H. injection H as H _. destruct L; [discriminate|exact H].
  Qed.
End Scans.

(** ** The cache *)
Section Cache.
  Variable fin : xerr.
  Definition same_but_names (d d' : Dec) : Prop :=
    d_rest d = d_rest d' /\ d_err d = d_err d' /\ d_stk d = d_stk d' /\ d_close d = d_close d' /\ d_ns d = d_ns d' /\
    d_buf d = d_buf d' /\ NamesOk (d_names d) /\ NamesOk (d_names d').
  Definition tok_same (x y : tok_res) : Prop :=
    match x, y with
    | RTok ev d, RTok ev' d' => ev = ev' /\ same_but_names d d'
    | RErr e d, RErr e' d' => e = e' /\ same_but_names d d'
    | ROut, ROut => True
    | _, _ => False
    end.
  Lemma handle_end_same d d' n : same_but_names d d' -> tok_same (handle_end d n) (handle_end d' n).
  Proof.
    destruct d, d'. unfold same_but_names. cbn. intros (-> & -> & -> & -> & -> & -> & N & N'). unfold handle_end. cbn [M_Xml.d_rest M_Xml.d_err M_Xml.d_stk M_Xml.d_close M_Xml.d_ns M_Xml.d_buf M_Xml.d_names].
    match goal with |- context [match ?x with [] => _ | _ => _ end] => destruct x as [|[m|] r] end;
      [cbn; unfold same_but_names; cbn; auto 10| |cbn; unfold same_but_names; cbn; auto 10].
    repeat match goal with |- context [if ?x then _ else _] => destruct x end; [cbn; unfold same_but_names; cbn; auto 10..|].
    destruct (undo _ r). cbn. unfold same_but_names; cbn. auto 10.
  Qed.
  Lemma raw_token_same c c' d d' : same_but_names d d' -> tok_same (raw_token fin c d) (raw_token fin c' d').
  Proof.
    destruct d as [r0 e0 k0 c0 n0 m0 b0], d' as [r1 e1 k1 c1 n1 m1 b1].
    unfold same_but_names. cbn. intros (-> & -> & -> & -> & -> & -> & N & N'). unfold raw_token. cbn.
    destruct e1 as [e|]; [cbn; unfold same_but_names; cbn; auto 10|].
    destruct c1 as [n|]; [apply handle_end_same; unfold same_but_names; cbn; auto 10|].
    pose proof (lex_same fin c c' r1 _ _ b1 N N') as L.
    destruct (lex fin c r1 m0 b1) as [t q er nn bb| |], (lex fin c' r1 m1 b1) as [t' q' er' nn' bb'| |]; try destruct L; cbn [tok_same].
    - destruct H0 as (-> & -> & -> & L1 & L2). subst. destruct t' as [n attrs empty|n|now r|].
      + unfold handle_start. cbn. destruct (declare _ _ _). cbn. unfold same_but_names; cbn; auto 10.
      + apply handle_end_same; unfold same_but_names; cbn; auto 10.
      + cbn. unfold same_but_names; cbn; auto 10.
      + cbn. unfold same_but_names; cbn; auto 10.
    - destruct H0 as (-> & L1 & L2). subst. unfold same_but_names; cbn; auto 10.
    - exact I.
  Qed.
  Lemma scan_same c c' fuel d d' evs e d1 : same_but_names d d' -> scan_loop fin c fuel d = SDone evs e d1 ->
    exists d2, scan_loop fin c' fuel d' = SDone evs e d2 /\ same_but_names d1 d2.
  Proof.
    revert d d' evs; induction fuel as [|f IH]; intros d d' evs S; [discriminate|]. cbn [scan_loop].
    pose proof (raw_token_same c c' d d' S) as T.
    destruct (raw_token fin c d) as [ev d3|e3 d3|], (raw_token fin c' d') as [ev4 d4|e4 d4|]; try destruct T; try discriminate.
    - subst ev4. destruct (scan_loop fin c f d3) as [evs5 e5 d5|] eqn:E; [|discriminate]. intros H. injection H as <- <- <-.
      destruct (IH _ _ _ H0 E) as (d2 & -> & S2). eauto.
    - subst e4. intros H. injection H as <- <- <-. eauto.
  Qed.
End Cache.
