(** * Printed documents are scanned back *)
From Verif Require Import GoBase GoNum GoUtf8 GoFloat Types XmlTypes M_Xml M_Printer S_Xml S_Printer P_Xml P_Xml2 P_Esc.

(** ** Names *)
Lemma name_str s : NameStr s -> s <> "" /\ sall in_name s = true /\ split_at ":" s = None.
Proof.
  intros [H1 H2]. sp; [exact H1| |].
  - apply sall_forall. intros c Hc. apply in_name_spec, H2, Hc.
  - apply split_at_none. intros Hc. destruct (H2 _ Hc) as [_ H]. congruence.
Qed.
Lemma ns_local l : NameStr l -> ns_name l = mkName "" l.
Proof. intros H. unfold ns_name. destruct (name_str l H) as (_ & _ & ->). reflexivity. Qed.
Lemma ns_prefixed p l : split_at ":" p = None -> ns_name (p +++ ":" +++ l) = mkName p l.
Proof.
  intros H. unfold ns_name. rewrite (proj2 (split_at_some ":" (p +++ ":" +++ l) p l)); [reflexivity|].
  split; [reflexivity|]. apply split_at_none, H.
Qed.
Lemma prefixed_ok p l : sall in_name p = true -> sall in_name l = true -> sall in_name (p +++ ":" +++ l) = true.
Proof. intros H1 H2. rewrite !sall_app, H1, H2. reflexivity. Qed.

(** ** Lexing printed tags *)
Definition Reads (rv v : string) : Prop := forall fin rest b,
  exists b', attrval fin (String """" (rv +++ String """" rest)) b = TOk rest None b' /\ b_cur b' = v.
Lemma reads_escape s : XmlText s -> Reads (escape_text s) s.
Proof. intros H fin rest b. apply attrval_escape, H. Qed.
Lemma reads_plain s : PlainText s -> Reads s s.
Proof.
  intros H fin rest b. unfold attrval. change (ceq """" """") with true. cbn [orb]. unfold text.
  destruct (text_plain fin (Some """"%char) ltac:(auto) s (String """" rest) (S (String.length (s +++ String """" rest))) (byte 0) (buf_reset b))
    as (f & b1 & E & H1 & H2); [|vm_compute; reflexivity|lia|].
  - apply sall_forall. intros c Hc. specialize (H c Hc). unfold plain. apply negb_true_iff. rewrite !orb_false_iff.
    assert (K : forall x, In x ["<"%char; "&"%char; """"%char; "'"%char; byte 13] -> ceq c x = false).
    { intros x Hx. destruct (ceq c x) eqn:E; [|reflexivity]. apply ceq_true in E. subst. contradiction. }
    sp; apply K; cbn; auto 6.
  - exists (buf_puts s (buf_reset b)). split; [|rewrite buf_cur_puts; reflexivity]. rewrite E. destruct f as [|f]; [lia|].
    cbn [text_loop]. change (ceq """" "<") with false. change (ceq """" """") with true. reflexivity.
Qed.
Inductive Printed : string -> list Attr -> Prop :=
| PaNil : Printed "" []
| PaCons nm rv v s l : nm <> "" -> sall in_name nm = true -> Reads rv v -> Printed s l ->
    Printed (" " +++ nm +++ "=""" +++ rv +++ """" +++ s) (mkAttr (ns_name nm) v :: l).
Section Lex.
  Variable fin : xerr.
  Definition tag_end (empty : bool) (rest : string) : string := (if empty then "/" else "") +++ String ">" rest.
  Lemma space_in_name nm r : nm <> "" -> sall in_name nm = true -> space (nm +++ r) = nm +++ r.
  Proof.
    intros Hn Ha. destruct nm as [|c nm]; [congruence|]. cbn [String.append space sall] in *. apply andb_true_iff in Ha as [Ha _].
    replace (is_space c) with false; [reflexivity|]. symmetry. unfold is_space. rewrite !orb_false_iff.
    assert (K : forall x, in_name x = false -> ceq c x = false).
    { intros x Hx. destruct (ceq c x) eqn:E; [|reflexivity]. apply ceq_true in E. congruence. }
    sp; apply K; vm_compute; reflexivity.
  Qed.
  Lemma first_name nm r x : nm <> "" -> sall in_name nm = true -> in_name x = false -> 
    exists c q, nm +++ r = String c q /\ ceq c x = false.
  Proof.
    intros Hn Ha Hx. destruct nm as [|c nm]; [congruence|]. cbn [String.append sall] in *. apply andb_true_iff in Ha as [Ha _].
    exists c. eexists. split; [reflexivity|]. destruct (ceq c x) eqn:E; [|reflexivity]. apply ceq_true in E. congruence.
  Qed.
  Lemma attrs_printed s l : Printed s l -> forall empty rest fuel acc names b,
    String.length (s +++ tag_end empty rest) < fuel -> NamesOk names ->
    exists names' b', attrs_loop fin true fuel acc (s +++ tag_end empty rest) names b = AOk (rev acc ++ l) empty rest names' b' /\ NamesOk names'.
  Proof.
    induction 1 as [|nm rv v s l Hn Ha Hr HP IH]; intros empty rest fuel acc names b HL HN; (destruct fuel as [|f]; [lia|]).
    - exists names, b. split; [|exact HN]. rewrite app_nil_r. destruct empty; reflexivity.
    - assert (ES : (" " +++ nm +++ "=""" +++ rv +++ """" +++ s) +++ tag_end empty rest =
        String " " (nm +++ String "=" (String """" (rv +++ String """" (s +++ tag_end empty rest))))).
      { rewrite !sapp_assoc. reflexivity. }
      rewrite ES in *. cbn [attrs_loop]. change (space (String " " ?x)) with (space x). rewrite space_in_name by assumption.
      assert (N1 : in_name "/" = false) by (vm_compute; reflexivity). assert (N2 : in_name ">" = false) by (vm_compute; reflexivity).
      destruct (first_name nm (String "=" (String """" (rv +++ String """" (s +++ tag_end empty rest)))) "/" Hn Ha N1) as (c & q & E1 & C1).
      destruct (first_name nm (String "=" (String """" (rv +++ String """" (s +++ tag_end empty rest)))) ">" Hn Ha N2) as (c' & q' & E2 & C2).
      rewrite E1 in E2. injection E2 as <- <-. rewrite E1, C1, C2, <- E1.
      destruct (name_app fin true nm "=" (String """" (rv +++ String """" (s +++ tag_end empty rest))) names b HN Hn Ha ltac:(vm_compute; reflexivity)) as (names' & EN & HN').
      rewrite EN. cbn [space]. change (is_space "=") with false. cbv iota. rewrite ceq_refl.
      change (space (String """" ?x)) with (String """" x).
      destruct (Hr fin (s +++ tag_end empty rest) (buf_puts nm (buf_reset b))) as (b' & EA & EB). rewrite EA, EB.
      cbn [String.length] in HL. rewrite !slength_app in HL. cbn [String.length] in HL. rewrite !slength_app in HL. cbn [String.length] in HL. rewrite !slength_app in HL.
      destruct (IH empty rest f (mkAttr (ns_name nm) v :: acc) names' b') as (names2 & b2 & EI & HN2); [rewrite slength_app; lia|exact HN'|].
      exists names2, b2. split; [|exact HN2]. rewrite EI. cbn [rev]. rewrite <- app_assoc. reflexivity.
  Qed.
  Lemma printed_head s l empty rest : Printed s l -> exists c r, s +++ tag_end empty rest = String c r /\ in_name c = false.
  Proof.
    intros HP. destruct HP as [|nm rv v s' l' _ _ _ _].
    - destruct empty; cbn; eexists _, _; (split; [reflexivity|vm_compute; reflexivity]).
    - cbn [String.append]. eexists _, _. split; [reflexivity|vm_compute; reflexivity].
  Qed.
  Lemma lex_start nm s l empty rest names b : nm <> "" -> sall in_name nm = true -> Printed s l -> NamesOk names ->
    exists names' b', lex fin true ("<" +++ nm +++ s +++ tag_end empty rest) names b = LTok (RwStart (ns_name nm) l empty) rest None names' b' /\ NamesOk names'.
  Proof.
    intros Hn Ha HP HN. cbn [String.append]. unfold lex. change (negb (ceq "<" "<")) with false. cbv iota.
    destruct (first_name nm (s +++ tag_end empty rest) "/" Hn Ha ltac:(vm_compute; reflexivity)) as (c & q & E1 & C1).
    destruct (first_name nm (s +++ tag_end empty rest) "?" Hn Ha ltac:(vm_compute; reflexivity)) as (c' & q' & E2 & C2).
    rewrite E1 in E2. injection E2 as <- <-. rewrite E1, C1, C2, <- E1.
    destruct (printed_head s l empty rest HP) as (x & r & E3 & X3). rewrite E3.
    destruct (name_app fin true nm x r names b HN Hn Ha X3) as (names' & EN & HN'). rewrite EN, <- E3.
    destruct (attrs_printed s l HP empty rest (S (String.length (s +++ tag_end empty rest))) [] names' (buf_puts nm (buf_reset b)) ltac:(lia) HN') as (names2 & b2 & EA & HN2).
    rewrite EA. eauto.
  Qed.
  Lemma lex_end nm rest names b : nm <> "" -> sall in_name nm = true -> NamesOk names ->
    exists names' b', lex fin true ("</" +++ nm +++ ">" +++ rest) names b = LTok (RwEnd (ns_name nm)) rest None names' b' /\ NamesOk names'.
  Proof.
    intros Hn Ha HN. cbn [String.append]. unfold lex. change (negb (ceq "<" "<")) with false. change (ceq "/" "/") with true. cbv iota.
    destruct (name_app fin true nm ">" rest names b HN Hn Ha ltac:(vm_compute; reflexivity)) as (names' & EN & HN'). rewrite EN.
    cbn [space]. change (is_space ">") with false. cbv iota. rewrite ceq_refl. eauto.
  Qed.
End Lex.

(** ** Escaping texts that follow each other *)
Lemma xmltext_app a b : XmlText a -> XmlText b -> XmlText (a +++ b).
Proof. induction 1 as [|r e s X U T IH]; intros Hb; cbn [String.append]; [exact Hb|]. rewrite sapp_assoc. econstructor; eauto. Qed.
Lemma escape_step r e s f : Utf8 r e -> XmlChar r -> escape_loop (S f) (e +++ s) = esc_rune r (String.length e) e +++ escape_loop f s.
Proof.
  intros U X. destruct (decode_char r e s U X) as [D S]. pose proof (utf8_nonempty _ _ U) as N.
  destruct e as [|c e]; [congruence|]. remember (String c e) as e0. assert (Hl : e0 +++ s = String c (e +++ s)) by (subst; reflexivity).
  transitivity (let (r, w) := decode_rune (e0 +++ s) in esc_rune r w (stake w (e0 +++ s)) +++ escape_loop f (sdrop w (e0 +++ s))).
  - rewrite Hl. reflexivity.
  - rewrite D, S, sdrop_app_l. reflexivity.
Qed.
Lemma escape_enough t : XmlText t -> forall f f', String.length t <= f -> String.length t <= f' -> escape_loop f t = escape_loop f' t.
Proof.
  induction 1 as [|r e w X U T IH]; intros f f' H H'; [destruct f, f'; reflexivity|].
  pose proof (utf8_nonempty _ _ U) as N. rewrite slength_app in *. assert (String.length e <> 0) by (destruct e; [congruence|discriminate]).
  destruct f as [|f]; [lia|]. destruct f' as [|f']; [lia|]. rewrite 2(escape_step r e w _ U X). f_equal. apply IH; lia.
Qed.
Lemma escape_fuel s : XmlText s -> forall t f, XmlText t -> String.length (s +++ t) <= f -> forall f', String.length s <= f' -> forall f2, String.length t <= f2 ->
  escape_loop f (s +++ t) = escape_loop f' s +++ escape_loop f2 t.
Proof.
  induction 1 as [|r e s X U T IH]; intros t f Ht H f' H' f2 H2.
  - cbn [String.append]. replace (escape_loop f' "") with "" by (destruct f'; reflexivity). apply escape_enough; assumption.
  - rewrite sapp_assoc in *. pose proof (utf8_nonempty _ _ U) as N. rewrite slength_app in *.
    assert (String.length e <> 0) by (destruct e; [congruence|discriminate]).
    destruct f as [|f]; [lia|]. destruct f' as [|f']; [lia|]. rewrite (escape_step r e (s +++ t) _ U X), (escape_step r e s _ U X), sapp_assoc. f_equal. apply IH; (assumption || lia).
Qed.
Lemma escape_app a b : XmlText a -> XmlText b -> escape_text (a +++ b) = escape_text a +++ escape_text b.
Proof. intros Ha Hb. unfold escape_text. apply escape_fuel; try assumption; lia. Qed.

(** ** The environment of declarations *)
Definition PrefixOk (p : string) : Prop := NameStr p /\ p <> "xml" /\ p <> "xmlns".
Definition EnvOk (e : Env) : Prop :=
  forall p u, aget seq p (en_decl e) = Some u -> PrefixOk p /\ u <> "xmlns".
Definition Envs (e : Env) (ns : list (string * string)) : Prop :=
  (forall p, p <> "" -> aget seq p ns = aget seq p (en_decl e)) /\ aget seq "" ns = en_default e.
Definition Pmap (e : Env) (m : list (string * string)) : Prop :=
  (forall u, u <> "" -> prefix_of m u <> "" -> aget seq (prefix_of m u) (en_decl e) = Some u) /\
  (forall u, Declared e u -> prefix_of m u <> "").
Definition Ext (e e' : Env) : Prop := forall p u, aget seq p (en_decl e) = Some u -> aget seq p (en_decl e') = Some u.
Lemma prefix_name p : PrefixOk p -> p <> "" /\ sall in_name p = true /\ split_at ":" p = None.
Proof. intros (H & _). apply name_str, H. Qed.
Lemma xml_not_decl e : EnvOk e -> aget seq xml_url (en_decl e) = None.
Proof.
  intros H. destruct (aget seq xml_url (en_decl e)) eqn:E; [|reflexivity]. destruct (H _ _ E) as [(K & _) _].
  apply name_str in K as (_ & _ & K). exfalso. revert K. vm_compute. discriminate.
Qed.
(** One attribute that is no declaration *)
Definition Attr_raw (a r : Attr) (e : Env) : Prop :=
  avalue r = avalue a /\ nspace (aname r) <> "xmlns" /\ ~ (nspace (aname r) = "" /\ nlocal (aname r) = "xmlns") /\
  forall e' ns, Ext e e' -> EnvOk e' -> Envs e' ns -> translate ns (aname r) false = aname a.
Definition attr_pre (m : list (string * string)) (a : Attr) : string * list (string * string) :=
  if negb (seq (nspace (aname a)) "") then let (p, m) := create_attr_prefix m a in (p +++ ":", m) else ("", m).
Lemma attr_one e m skip a : EnvOk e -> Pmap e m -> AttrFits e skip a ->
  exists pre, attr_pre m a = (pre, m) /\ sall in_name (pre +++ nlocal (aname a)) = true /\ pre +++ nlocal (aname a) <> "" /\
    Attr_raw a (mkAttr (ns_name (pre +++ nlocal (aname a))) (avalue a)) e.
Proof.
  intros HE [HP1 HP2] (HN & HC & _). destruct a as [[sp l] v]. cbn [aname avalue nspace nlocal] in *.
  destruct (name_str l HN) as (L1 & L2 & L3).
  assert (LL : forall p, p +++ l <> "") by (intros [|]; cbn; congruence).
  unfold attr_pre, create_attr_prefix. cbn [aname avalue nspace nlocal]. destruct (seq sp "") eqn:E0; cbn [negb].
  { apply seq_true in E0. subst sp. exists "". sp; [reflexivity|exact L2|exact L1|]. cbn [String.append]. rewrite ns_local by exact HN.
    unfold Attr_raw. cbn [aname avalue nspace nlocal]. sp; [reflexivity|discriminate| |reflexivity].
    intros [_ ->]. destruct HC as [(_ & HC)|[HC|(HC & _)]]; try discriminate; congruence. }
  apply seq_false in E0.
  assert (G : forall p, PrefixOk p \/ p = "xml" -> (forall e' ns, Ext e e' -> EnvOk e' -> Envs e' ns -> translate ns (mkName p l) false = mkName sp l) ->
    sall in_name ((p +++ ":") +++ l) = true /\ (p +++ ":") +++ l <> "" /\ Attr_raw (mkAttr (mkName sp l) v) (mkAttr (ns_name ((p +++ ":") +++ l)) v) e).
  { intros p Hp Ht.
    assert (p <> "" /\ sall in_name p = true /\ split_at ":" p = None /\ p <> "xmlns") as (P1 & P2 & P3 & P4).
    { destruct Hp as [Hp| ->]; [|sp; try discriminate; vm_compute; reflexivity]. destruct (prefix_name _ Hp) as (A & B & C). destruct Hp as (_ & _ & D). auto. }
    rewrite !sapp_assoc. sp; [apply prefixed_ok; assumption|destruct p; cbn; congruence|].
    rewrite ns_prefixed by exact P3. unfold Attr_raw. cbn [aname avalue nspace nlocal]. sp; [reflexivity|exact P4|intros [K _]; congruence|exact Ht]. }
  destruct (seq (prefix_of m sp) "") eqn:E1; cbn [negb].
  - apply seq_true in E1. destruct HC as [(HC & _)|[->|HC]]; [congruence| |destruct (HP2 _ HC E1)].
    change (seq nsxml ns_xml) with true. exists ("xml" +++ ":"). split; [reflexivity|]. apply G; [auto|].
    intros e' ns _ HE' [HV _]. unfold translate. cbn [nspace nlocal]. change (seq "xml" "xmlns") with false. change (seq "xml" "") with false.
    change (seq "xml" "xml") with true. cbn [andb negb]. rewrite HV by discriminate. rewrite xml_not_decl by exact HE'. reflexivity.
  - apply seq_false in E1. pose proof (HP1 _ E0 E1) as HD. destruct (HE _ _ HD) as [PO _]. exists (prefix_of m sp +++ ":"). split; [reflexivity|].
    apply G; [auto|]. intros e' ns HX HE' [HV _]. unfold translate. cbn [nspace nlocal]. destruct (prefix_name _ PO) as (P1 & _ & _). destruct PO as (_ & P2 & P3).
    rewrite !(proj2 (seq_false _ _)) by assumption. cbn [andb negb]. rewrite HV by exact P1. rewrite (HX _ _ HD). reflexivity.
Qed.
Lemma write_attrs_cons skip m a r : nlocal (aname a) <> "" -> write_attrs skip m (a :: r) =
  let (pre, m) := attr_pre m a in let (s, m) := write_attrs skip m r in
  (" " +++ (pre +++ nlocal (aname a)) +++ "=""" +++ (if skip then avalue a else escape_text (avalue a)) +++ """" +++ s, m).
Proof.
  intros H. cbn [write_attrs]. rewrite (proj2 (seq_false _ _) H). unfold attr_pre.
  destruct (if negb (seq (nspace (aname a)) "") then _ else _) as [pre m1]. destruct (write_attrs skip m1 r). rewrite !sapp_assoc. reflexivity.
Qed.
Lemma declare_other a r ns stk : nspace (aname a) <> "xmlns" -> ~ (nspace (aname a) = "" /\ nlocal (aname a) = "xmlns") ->
  declare (a :: r) ns stk = declare r ns stk.
Proof.
  intros H1 H2. cbn [declare]. rewrite (proj2 (seq_false _ _) H1). destruct (seq (nspace (aname a)) "" && seq (nlocal (aname a)) "xmlns") eqn:E; [|reflexivity].
  apply andb_true_iff in E as [E1 E2]. apply seq_true in E1, E2. tauto.
Qed.
Lemma fits_reads e skip a : AttrFits e skip a -> Reads (if skip then avalue a else escape_text (avalue a)) (avalue a).
Proof. intros (_ & _ & H). destruct skip; [apply reads_plain, H|apply reads_escape, H]. Qed.
Definition tr_attr (ns : list (string * string)) (a : Attr) : Attr := mkAttr (translate ns (aname a) false) (avalue a).
Lemma inner_attrs e m skip l : EnvOk e -> Pmap e m -> Forall (AttrFits e skip) l ->
  exists s raws, write_attrs skip m l = (s, m) /\ Printed s raws /\
    (forall ns stk, declare raws ns stk = (ns, stk)) /\ (forall ns, Envs e ns -> map (tr_attr ns) raws = l).
Proof.
  intros HE HP. induction 1 as [|a l HA HL IH].
  { exists "", []. sp; try reflexivity. constructor. }
  destruct IH as (s & raws & W & P & D & T). destruct (attr_one e m skip a HE HP HA) as (pre & A1 & A2 & A3 & (R1 & R2 & R3 & R4)).
  eexists _, (_ :: raws). sp.
  - rewrite write_attrs_cons by (destruct HA as ((HA & _) & _); exact HA). rewrite A1, W. reflexivity.
  - apply PaCons; [exact A3|exact A2|eapply fits_reads, HA|exact P].
  - intros ns stk. rewrite declare_other by assumption. apply D.
  - intros ns HV. cbn [map]. rewrite (T ns HV). f_equal. unfold tr_attr. rewrite (R4 e ns (fun p u x => x) HE HV). cbn [avalue]. destruct a; reflexivity.
Qed.

(** ** The attributes of the root *)
Definition is_sns (s : StkEl) : Prop := match s with SNs _ _ _ => True | _ => False end.
Lemma ext_refl e : Ext e e. Proof. intros p u H. exact H. Qed.
Lemma ext_trans a b c : Ext a b -> Ext b c -> Ext a c. Proof. intros H1 H2 p u H. auto. Qed.
Lemma root_ext e l e' : RootAttrs e l e' -> EnvOk e -> Ext e e' /\ EnvOk e'.
Proof.
  induction 1 as [e|ds u r e' T R IH|df ds p u r e' N X1 X2 F T U R IH|e a r e' A R IH]; intros HE.
  - split; [apply ext_refl|exact HE].
  - destruct (IH HE) as [H1 H2]. split; [|exact H2]. intros p v H. apply H1, H.
  - assert (HE' : EnvOk (mkEnv df ((p, u) :: ds))).
    { intros q v. cbn [en_decl aget]. destruct (seq q p) eqn:E; [|apply HE]. apply seq_true in E. subst q. intros [= <-]. unfold PrefixOk. auto. }
    destruct (IH HE') as [H1 H2]. split; [|exact H2]. intros q v H. apply H1. cbn [en_decl aget] in *. destruct (seq q p) eqn:E; [|exact H].
    apply seq_true in E. congruence.
  - apply IH, HE.
Qed.
Lemma root_attrs e l e' : RootAttrs e l e' -> forall m ns stk, EnvOk e -> Pmap e m -> Envs e ns ->
  exists s m' raws ns' sns, write_attrs false m l = (s, m') /\ Printed s raws /\ declare raws ns stk = (ns', sns ++ stk) /\ Forall is_sns sns /\
    Pmap e' m' /\ Envs e' ns' /\ map (tr_attr ns') raws = l.
Proof.
  intros HR m ns stk HE. assert (HE' := proj2 (root_ext _ _ _ HR HE)). revert m ns stk HE.
  induction HR as [e|ds u r e' T R IH|df ds p u r e' N X1 X2 F T U R IH|e a r e' A R IH]; intros m ns stk HE HP HV.
  - exists "", m, [], ns, []. sp; try reflexivity; try assumption; constructor.
  - assert (HV' : Envs (mkEnv (Some u) ds) (aset seq "" u ns)).
    { destruct HV as [V1 V2]. split; cbn [en_decl en_default] in *.
      - intros q Hq. rewrite aget_aset_other; [apply V1, Hq|exact seq_spec|congruence].
      - apply aget_aset_same, seq_spec. }
    destruct (IH HE' m (aset seq "" u ns) (SNs "" (fst (match aget seq "" ns with Some v => (v, true) | None => ("", false) end)) (snd (match aget seq "" ns with Some v => (v, true) | None => ("", false) end)) :: stk)) as (s & m' & raws & ns' & sns & W & P & D & S & PM & EV & TR); [exact HE|exact HP|exact HV'|].
    eexists _, m', (mkAttr (ns_name "xmlns") u :: raws), ns', (sns ++ [_]). sp.
    + rewrite write_attrs_cons by discriminate. unfold attr_pre. cbn [aname nspace]. change (negb (seq "" "")) with false. cbv iota. rewrite W. reflexivity.
    + apply (PaCons "xmlns"); [discriminate|vm_compute; reflexivity|apply reads_escape, T|exact P].
    + rewrite <- app_assoc. cbn [app]. rewrite <- D. cbn [declare aname avalue]. change (ns_name "xmlns") with (mkName "" "xmlns"). cbn [nspace nlocal].
      change (seq "" "xmlns") with false. change (seq "" "" && seq "xmlns" "xmlns") with true. cbv iota.
      destruct (aget seq "" ns); reflexivity.
    + apply Forall_app. split; [exact S|repeat constructor].
    + exact PM.
    + exact EV.
    + cbn [map]. rewrite TR. reflexivity.
  - destruct (name_str p N) as (N1 & N2 & N3).
    assert (HV' : Envs (mkEnv df ((p, u) :: ds)) (aset seq p u ns)).
    { destruct HV as [V1 V2]. split; cbn [en_decl en_default aget] in *.
      - intros q Hq. destruct (seq q p) eqn:E.
        + apply seq_true in E. subst q. apply aget_aset_same, seq_spec.
        + apply seq_false in E. rewrite aget_aset_other; [apply V1, Hq|exact seq_spec|congruence].
      - rewrite aget_aset_other; [exact V2|exact seq_spec|congruence]. }
    assert (HE1 : EnvOk (mkEnv df ((p, u) :: ds))).
    { intros q v. cbn [en_decl aget]. destruct (seq q p) eqn:E; [|apply HE]. apply seq_true in E. subst q. intros [= <-]. unfold PrefixOk. auto. }
    assert (HX : prefix_of m "xmlns" = "").
    { destruct (seq (prefix_of m "xmlns") "") eqn:E; [apply seq_true, E|]. apply seq_false in E. destruct HP as [H1 _].
      pose proof (H1 "xmlns" ltac:(discriminate) E) as K. apply HE in K as [_ K]. congruence. }
    assert (HP1 : Pmap (mkEnv df ((p, u) :: ds)) (aset seq u p m)).
    { destruct HP as [H1 H2]. split.
      - intros v Hv. unfold prefix_of. destruct (seq v u) eqn:E.
        + apply seq_true in E. subst v. rewrite aget_aset_same by exact seq_spec. intros _. cbn [en_decl aget]. rewrite seq_refl. reflexivity.
        + apply seq_false in E. rewrite aget_aset_other by (exact seq_spec || congruence). intros K. specialize (H1 v Hv K). unfold prefix_of in H1. cbn [en_decl aget] in *.
          destruct (seq (match aget seq v m with Some q => q | None => "" end) p) eqn:E2; [|exact H1]. apply seq_true in E2. rewrite E2 in H1. congruence.
      - intros v [Hv (q & Hq)]. unfold prefix_of. destruct (seq v u) eqn:E.
        + apply seq_true in E. subst v. rewrite aget_aset_same by exact seq_spec. exact N1.
        + apply seq_false in E. rewrite aget_aset_other by (exact seq_spec || congruence). apply H2. split; [exact Hv|]. cbn [en_decl aget] in *.
          destruct (seq q p); [congruence|]. eauto. }
    destruct (IH HE' (aset seq u p m) (aset seq p u ns) (SNs p (fst (match aget seq p ns with Some v => (v, true) | None => ("", false) end)) (snd (match aget seq p ns with Some v => (v, true) | None => ("", false) end)) :: stk) HE1 HP1 HV') as (s & m' & raws & ns' & sns & W & P & D & S & PM & EV & TR).
    eexists _, m', (mkAttr (ns_name ("xmlns" +++ ":" +++ p)) u :: raws), ns', (sns ++ [_]). sp.
    + rewrite write_attrs_cons by exact N1. unfold attr_pre, create_attr_prefix. cbn [aname nspace avalue nlocal]. change (negb (seq "xmlns" "")) with true. cbv iota.
      rewrite HX. change (negb (seq "" "")) with false. change (seq "xmlns" ns_xml) with false. change (seq "xmlns" "xmlns") with true. cbv iota.
      rewrite W. reflexivity.
    + rewrite sapp_assoc. apply (PaCons ("xmlns" +++ ":" +++ p)); [discriminate|apply prefixed_ok; [vm_compute; reflexivity|exact N2]|apply reads_escape, T|exact P].
    + rewrite <- app_assoc. cbn [app]. rewrite <- D. cbn [declare aname avalue]. rewrite ns_prefixed by (vm_compute; reflexivity). cbn [nspace nlocal].
      rewrite seq_refl. destruct (aget seq p ns); reflexivity.
    + apply Forall_app. split; [exact S|repeat constructor].
    + exact PM.
    + exact EV.
    + cbn [map]. rewrite TR. unfold tr_attr at 1. cbn [aname avalue]. rewrite ns_prefixed by (vm_compute; reflexivity). reflexivity.
  - destruct (attr_one e m false a HE HP A) as (pre & A1 & A2 & A3 & (R1 & R2 & R3 & R4)).
    destruct (IH HE' m ns stk HE HP HV) as (s & m' & raws & ns' & sns & W & P & D & S & PM & EV & TR).
    eexists _, m', (_ :: raws), ns', sns. sp.
    + rewrite write_attrs_cons by (destruct A as ((A & _) & _); exact A). rewrite A1, W. reflexivity.
    + apply PaCons; [exact A3|exact A2|apply (fits_reads e false a), A|exact P].
    + rewrite declare_other by assumption. exact D.
    + exact S.
    + exact PM.
    + exact EV.
    + cbn [map]. rewrite TR. f_equal. unfold tr_attr. rewrite (R4 e' ns' (proj1 (root_ext _ _ _ R HE)) HE' EV). cbn [avalue]. destruct a; reflexivity.
Qed.

(** ** Tags *)
Lemma tag_ok e m n : EnvOk e -> Pmap e m -> TagFits e n ->
  tag_name m n <> "" /\ sall in_name (tag_name m n) = true /\
  forall ns, Envs e ns -> translate ns (ns_name (tag_name m n)) true = qual e n.
Proof.
  intros HE [HP1 HP2] (HN & HX & HC). destruct n as [sp l]. cbn [nspace nlocal] in *. destruct (name_str l HN) as (L1 & L2 & L3).
  unfold tag_name, qual. cbn [nspace nlocal].
  assert (K : (sp = "" \/ Some sp = en_default e) -> l <> "" /\ sall in_name l = true /\ forall ns, Envs e ns -> translate ns (ns_name l) true =
     (if seq sp "" then mkName match en_default e with Some u => u | None => "" end l else mkName sp l)).
  { intros HS. sp; [exact L1|exact L2|]. intros ns [_ HV]. rewrite ns_local by exact HN. unfold translate. cbn [nspace nlocal].
    change (seq "" "xmlns") with false. change (seq "" "") with true. change (seq "" "xml") with false. cbn [andb negb]. rewrite (proj2 (seq_false _ _) HX), HV.
    destruct (seq sp "") eqn:E; [destruct (en_default e); reflexivity|]. apply seq_false in E. destruct HS as [HS|HS]; [congruence|]. rewrite <- HS. reflexivity. }
  destruct (seq sp "") eqn:E0; cbn [negb andb].
  { apply seq_true in E0. subst sp. cbn [String.append]. apply K. auto. }
  apply seq_false in E0. destruct (seq (prefix_of m sp) "") eqn:E1; cbn [negb].
  { apply seq_true in E1. cbn [String.append]. rewrite ?E1 in *. destruct HC as [HC|[HC|HC]]; [congruence|apply K; auto|destruct (HP2 _ HC E1)]. }
  apply seq_false in E1. pose proof (HP1 _ E0 E1) as HD. destruct (HE _ _ HD) as [PO _]. destruct (prefix_name _ PO) as (P1 & P2 & P3). destruct PO as (_ & P4 & P5).
  rewrite !sapp_assoc. sp; [destruct (prefix_of m sp); cbn; congruence|apply prefixed_ok; assumption|].
  intros ns [HV _]. rewrite ns_prefixed by exact P3. unfold translate. cbn [nspace nlocal]. rewrite !(proj2 (seq_false _ _)) by assumption. cbn [andb negb].
  rewrite HV by exact P1. rewrite HD. reflexivity.
Qed.

(** ** Steps of the scanner *)
Inductive Steps (fin : xerr) : Dec -> list event -> Dec -> Prop :=
| StNil d : Steps fin d [] d
| StCons d ev d1 evs d2 : raw_token fin true d = RTok ev d1 -> Steps fin d1 evs d2 -> Steps fin d (ev ++ evs) d2.
Lemma steps_app fin d1 a d2 b d3 : Steps fin d1 a d2 -> Steps fin d2 b d3 -> Steps fin d1 (a ++ b) d3.
Proof. induction 1 as [|d ev d1 evs d2 H S IH]; intros K; [exact K|]. rewrite <- app_assoc. econstructor; eauto. Qed.
Lemma steps_one fin d ev d1 : raw_token fin true d = RTok ev d1 -> Steps fin d ev d1.
Proof. intros H. rewrite <- (app_nil_r ev). econstructor; [exact H|constructor]. Qed.
Record At (d : Dec) (rest : string) : Prop := mkAt {
  at_rest : d_rest d = rest; at_err : d_err d = None; at_close : d_close d = None; at_names : NamesOk (d_names d) }.
Section Steps.
  Variable fin : xerr.
  Lemma step_start nm s raws d rest : nm <> "" -> sall in_name nm = true -> Printed s raws ->
    At d ("<" +++ nm +++ s +++ ">" +++ rest) ->
    exists d', raw_token fin true d = RTok [EvStart (translate (fst (declare raws (d_ns d) (d_stk d))) (ns_name nm) true) (map (tr_attr (fst (declare raws (d_ns d) (d_stk d)))) raws)] d' /\
      At d' rest /\ d_ns d' = fst (declare raws (d_ns d) (d_stk d)) /\
      d_stk d' = SStart (translate (fst (declare raws (d_ns d) (d_stk d))) (ns_name nm) true) :: snd (declare raws (d_ns d) (d_stk d)).
  Proof.
    intros H1 H2 H3 [A1 A2 A3 A4]. destruct (lex_start fin nm s raws false rest (d_names d) (d_buf d) H1 H2 H3 A4) as (names' & b' & E & HN).
    unfold raw_token. rewrite A2, A3, A1. change (tag_end false rest) with (">" +++ rest) in E. rewrite E. unfold handle_start. cbn [d_ns d_stk].
    destruct (declare raws (d_ns d) (d_stk d)) as [ns stk]. eexists. sp; [reflexivity| |reflexivity|reflexivity]. constructor; cbn; auto.
  Qed.
  Lemma step_empty nm s raws d rest : nm <> "" -> sall in_name nm = true -> Printed s raws -> declare raws (d_ns d) (d_stk d) = (d_ns d, d_stk d) ->
    (forall k v ok r, d_stk d <> SNs k v ok :: r) ->
    At d ("<" +++ nm +++ s +++ "/>" +++ rest) ->
    exists evs d', Steps fin d evs d' /\
      map ev_token evs = [TStart (translate (d_ns d) (ns_name nm) true) (map (tr_attr (d_ns d)) raws); TEnd (translate (d_ns d) (ns_name nm) true)] /\
      At d' rest /\ d_ns d' = d_ns d /\ d_stk d' = d_stk d.
  Proof.
    intros H1 H2 H3 HD HS [A1 A2 A3 A4]. destruct (lex_start fin nm s raws true rest (d_names d) (d_buf d) H1 H2 H3 A4) as (names' & b' & E & HN).
    set (n' := translate (d_ns d) (ns_name nm) true).
    assert (E1 : raw_token fin true d = RTok [EvStart n' (map (tr_attr (d_ns d)) raws)]
       (mkDec rest None (SStart n' :: d_stk d) (Some (ns_name nm)) (d_ns d) names' b')).
    { unfold raw_token. rewrite A2, A3, A1. change (tag_end true rest) with ("/>" +++ rest) in E. rewrite E. unfold handle_start. cbn [d_ns d_stk]. rewrite HD. reflexivity. }
    assert (E2 : raw_token fin true (mkDec rest None (SStart n' :: d_stk d) (Some (ns_name nm)) (d_ns d) names' b') = RTok [EvEnd n'] (mkDec rest None (d_stk d) None (d_ns d) names' b')).
    { unfold raw_token. cbn [d_err d_close d_rest d_stk d_ns d_names d_buf]. unfold handle_end. cbn [d_err d_close d_rest d_stk d_ns d_names d_buf]. fold n'. rewrite !seq_refl. cbn [negb].
      destruct (d_stk d) as [|[m|k v ok] r] eqn:EK; try reflexivity. destruct (HS k v ok r eq_refl). }
    exists ([EvStart n' (map (tr_attr (d_ns d)) raws)] ++ [EvEnd n']). eexists. sp; [exact (steps_app _ _ _ _ _ _ (steps_one _ _ _ _ E1) (steps_one _ _ _ _ E2))|reflexivity| |reflexivity|reflexivity].
    constructor; cbn; auto.
  Qed.
  Lemma step_end nm n d r rest : nm <> "" -> sall in_name nm = true -> translate (d_ns d) (ns_name nm) true = n -> d_stk d = SStart n :: r ->
    At d ("</" +++ nm +++ ">" +++ rest) ->
    exists d', raw_token fin true d = RTok [EvEnd n] d' /\ At d' rest /\ d_ns d' = fst (undo (d_ns d) r) /\ d_stk d' = snd (undo (d_ns d) r).
  Proof.
    intros H1 H2 H3 HS [A1 A2 A3 A4]. destruct (lex_end fin nm rest (d_names d) (d_buf d) H1 H2 A4) as (names' & b' & E & HN).
    unfold raw_token. rewrite A2, A3, A1, E. unfold handle_end. cbn [d_err d_close d_rest d_stk d_ns d_names d_buf]. rewrite H3, HS, !seq_refl. cbn [negb].
    destruct (undo (d_ns d) r) as [ns stk]. eexists. sp; [reflexivity| |reflexivity|reflexivity]. constructor; cbn; auto.
  Qed.
  Lemma escape_head p : XmlText p -> p <> "" -> exists c r, escape_text p = String c r /\ ceq c "<" = false.
  Proof.
    intros T N. destruct (text_escape fin p "" buf_new T) as (b' & E & C).
    assert (K : text fin None (escape_text p +++ "<") buf_new <> TOk "<" None (buf_reset buf_new)).
    { rewrite E. intros K. injection K as K. apply N. rewrite <- C, K. reflexivity. }
    destruct (escape_text p) as [|c r]; [exfalso; apply K; reflexivity|]. exists c, r. split; [reflexivity|].
    destruct (ceq c "<") eqn:EC; [|reflexivity]. exfalso. cbn [String.append] in E. unfold text in E. cbn [text_loop] in E. rewrite EC in E.
    injection E as _ _ E. apply N. rewrite <- C, <- E. reflexivity.
  Qed.
  (** The pending text [p] is delivered before a tag *)
  Lemma step_text p d rest : XmlText p -> At d (escape_text p +++ String "<" rest) ->
    exists evs d', Steps fin d evs d' /\ map ev_token evs = text_tok p /\ At d' (String "<" rest) /\ d_ns d' = d_ns d /\ d_stk d' = d_stk d.
  Proof.
    intros T [A1 A2 A3 A4]. unfold text_tok. destruct (seq p "") eqn:EP.
    { apply seq_true in EP. subst p. exists [], d. sp; [constructor|reflexivity| |reflexivity|reflexivity]. constructor; assumption. }
    apply seq_false in EP. destruct (escape_head p T EP) as (c & r & E & EC). destruct (text_escape fin p rest (d_buf d) T) as (b' & ET & C).
    assert (E1 : raw_token fin true d = RTok [EvChar (b_cur b') (buf_ref b')] (mkDec (String "<" rest) None (d_stk d) None (d_ns d) (d_names d) b')).
    { unfold raw_token. rewrite A2, A3, A1. rewrite E in *. cbn [String.append] in *. unfold lex. rewrite EC. cbn [negb]. rewrite ET. reflexivity. }
    eexists _, _. sp; [exact (steps_one _ _ _ _ E1)|cbn; rewrite C; reflexivity| |reflexivity|reflexivity]. constructor; cbn; auto.
  Qed.
End Steps.
Lemma undo_sns ns l : Forall is_sns l -> snd (undo ns l) = [].
Proof.
  intros H. revert ns. induction H as [|s l Hs Hl IH]; intros ns; [reflexivity|]. destruct s as [n|k v ok]; [destruct Hs|]. cbn [undo]. apply IH.
Qed.
Lemma local_ok e n : NameStr (nlocal n) -> nlocal n <> "xmlns" -> nspace n = "" \/ Some (nspace n) = en_default e ->
  forall ns, Envs e ns -> translate ns (ns_name (nlocal n)) true = qual e n.
Proof.
  intros HN HX HS ns [_ HV]. destruct n as [sp l]. cbn [nspace nlocal] in *. rewrite ns_local by exact HN. unfold translate, qual. cbn [nspace nlocal].
  change (seq "" "xmlns") with false. change (seq "" "") with true. change (seq "" "xml") with false. cbn [andb negb]. rewrite (proj2 (seq_false _ _) HX), HV.
  destruct (seq sp "") eqn:E; [destruct (en_default e); reflexivity|]. apply seq_false in E. destruct HS as [HS|HS]; [congruence|]. rewrite <- HS. reflexivity.
Qed.
Definition open_stk (e : Env) (o : list Name) (sns : list StkEl) : list StkEl :=
  match o with [] => [] | _ => map (fun n => SStart (qual e n)) o ++ sns end.
Lemma print_ops_cons p o r : fst (print_ops p (o :: r)) = fst (print_op p o) +++ fst (print_ops (snd (print_op p o)) r).
Proof. cbn [print_ops]. destruct (print_op p o) as [s p1]. cbn [fst snd]. destruct (print_ops p1 r). reflexivity. Qed.
Lemma emits_scanned fin e au sk o ops ts : Emits e au sk o ops ts -> forall m p d sns,
  EnvOk e -> Pmap e m -> XmlText p -> (o = [] -> p = "") -> Forall is_sns sns -> Forall (TagFits e) o ->
  At d (escape_text p +++ fst (print_ops (mkPrinter au sk m) ops)) -> d_stk d = open_stk e o sns -> (o <> [] -> Envs e (d_ns d)) ->
  exists evs d', Steps fin d evs d' /\ map ev_token evs = join_texts p (map (qtok e) ts) /\ At d' "" /\ d_stk d' = [].
Proof.
  intros HM m p d sns HE HP. revert p d sns.
  induction HM as [au sk|sk n a k o ops ts TF AF HM IH|sk n a k o ops ts TF AF HM IH|au sk n o ops ts HM IH|au sk s k o ops ts XS HM IH|au sk b o ops ts HM IH|au sk b o ops ts HM IH|au sk r o ops ts HM IH];
    intros p d sns XP HO HS HT HA HK HV.
  - rewrite (HO eq_refl) in *. exists [], d. sp; [constructor|reflexivity|exact HA|exact HK].
  - rewrite print_ops_cons in HA. cbn [print_op] in HA. unfold write_start in HA. cbn [pr_skip pr_prefix pr_auto] in HA.
    destruct (inner_attrs e m sk a HE HP AF) as (s & raws & W & P & D & T). rewrite W in HA. cbn [fst snd] in HA.
    rewrite !sapp_assoc in HA. cbn [String.append] in HA.
    destruct (step_text fin p d _ XP HA) as (ev1 & d1 & S1 & E1 & A1 & N1 & K1).
    destruct (tag_ok e m n HE HP TF) as (T1 & T2 & T3). specialize (HV ltac:(discriminate)).
    destruct (step_start fin (tag_name m n) s raws d1 _ T1 T2 P A1) as (d2 & S2 & A2 & N2 & K2).
    rewrite D in *. cbn [fst snd] in *. rewrite N1, K1 in *. rewrite (T3 _ HV), (T _ HV) in *.
    destruct (IH "" d2 sns) as (ev3 & d3 & S3 & E3 & A3 & K3); [constructor|discriminate|exact HS|constructor; assumption|exact A2|rewrite K2, HK; reflexivity|rewrite N2; intros _; exact HV|].
    exists (ev1 ++ [EvStart (qual e n) a] ++ ev3), d3. sp; [eapply steps_app; [exact S1|eapply StCons; [exact S2|exact S3]]| |exact A3|exact K3].
    rewrite !map_app, E1, E3. reflexivity.
  - rewrite print_ops_cons in HA. cbn [print_op] in HA. unfold write_start in HA. cbn [pr_skip pr_prefix pr_auto] in HA.
    destruct (inner_attrs e m sk a HE HP AF) as (s & raws & W & P & D & T). rewrite W in HA. cbn [fst snd] in HA.
    rewrite !sapp_assoc in HA. cbn [String.append] in HA.
    destruct (step_text fin p d _ XP HA) as (ev1 & d1 & S1 & E1 & A1 & N1 & K1).
    destruct (tag_ok e m n HE HP TF) as (T1 & T2 & T3). specialize (HV ltac:(discriminate)).
    destruct (step_empty fin (tag_name m n) s raws d1 (fst (print_ops (mkPrinter true sk m) ops)) T1 T2 P) as (ev2 & d2 & S2 & E2 & A2 & N2 & K2);
      [apply D|rewrite K1, HK; discriminate|exact A1|].
    rewrite N1, K1 in *. rewrite (T3 _ HV), (T _ HV) in *.
    destruct (IH "" d2 sns) as (ev3 & d3 & S3 & E3 & A3 & K3); [constructor|discriminate|exact HS|assumption|exact A2|rewrite K2, HK; reflexivity|rewrite N2; intros _; exact HV|].
    exists (ev1 ++ ev2 ++ ev3), d3. sp; [eapply steps_app; [exact S1|eapply steps_app; [exact S2|exact S3]]| |exact A3|exact K3].
    rewrite !map_app, E1, E2, E3. reflexivity.
  - rewrite print_ops_cons in HA. cbn [print_op fst snd] in HA. unfold write_end in HA. cbn [pr_prefix] in HA. rewrite !sapp_assoc in HA. cbn [String.append] in HA.
    destruct (step_text fin p d _ XP HA) as (ev1 & d1 & S1 & E1 & A1 & N1 & K1).
    inversion HT as [|n' o' TF HT' X1]; subst n' o'. destruct (tag_ok e m n HE HP TF) as (T1 & T2 & T3). specialize (HV ltac:(discriminate)).
    destruct (step_end fin (tag_name m n) (qual e n) d1 (map (fun n => SStart (qual e n)) o ++ sns) (fst (print_ops (mkPrinter au sk m) ops)) T1 T2) as (d2 & S2 & A2 & N2 & K2);
      [rewrite N1; apply T3, HV|rewrite K1, HK; reflexivity|exact A1|].
    destruct (IH "" d2 sns) as (ev3 & d3 & S3 & E3 & A3 & K3); [constructor|reflexivity|exact HS|assumption|exact A2| | |].
    + rewrite K2. destruct o as [|n2 o]; [apply undo_sns, HS|reflexivity].
    + intros HN. rewrite N2. destruct o as [|n2 o]; [congruence|]. cbn. rewrite N1. exact HV.
    + exists (ev1 ++ [EvEnd (qual e n)] ++ ev3), d3. sp; [eapply steps_app; [exact S1|eapply StCons; [exact S2|exact S3]]| |exact A3|exact K3].
      rewrite !map_app, E1, E3. reflexivity.
  - rewrite print_ops_cons in HA. cbn [print_op fst snd] in HA. rewrite <- sapp_assoc, <- escape_app in HA by assumption.
    destruct (IH (p +++ s) d sns) as (ev3 & d3 & S3 & E3 & A3 & K3); try assumption; [apply xmltext_app; assumption|discriminate|].
    exists ev3, d3. sp; assumption.
  - rewrite print_ops_cons in HA. apply (IH p d sns); assumption.
  - rewrite print_ops_cons in HA. apply (IH p d sns); assumption.
  - rewrite print_ops_cons in HA. apply (IH p d sns); assumption.
Qed.

(** ** Whole documents *)
Lemma steps_scan fin d evs d' : Steps fin d evs d' -> forall e d2, raw_token fin true d' = RErr e d2 ->
  exists n, forall fuel, n <= fuel -> scan_loop fin true fuel d = SDone evs e d2.
Proof.
  induction 1 as [d|d ev d1 evs d2 H S IH]; intros e d3 E.
  - exists 1. intros [|f] Hf; [lia|]. cbn [scan_loop]. rewrite E. reflexivity.
  - destruct (IH e d3 E) as (n & Hn). exists (Datatypes.S n). intros [|f] Hf; [lia|]. cbn [scan_loop]. rewrite H, Hn by lia. reflexivity.
Qed.
Lemma at_end d : At d "" -> d_stk d = [] -> exists d2, raw_token XEOF true d = RErr XEOF d2.
Proof. intros [A1 A2 A3 A4] K. unfold raw_token. rewrite A2, A3, A1. cbn. rewrite K. eauto. Qed.
Lemma scan_more fin f1 f2 d evs e d2 : scan_loop fin true f1 d <> SOut -> f1 <= f2 -> scan_loop fin true f2 d = SDone evs e d2 -> scan_loop fin true f1 d = SDone evs e d2.
Proof.
  revert f2 d evs. induction f1 as [|f1 IH]; intros f2 d evs HN HL; [exfalso; apply HN; reflexivity|]. destruct f2 as [|f2]; [lia|]. cbn [scan_loop] in *.
  destruct (raw_token fin true d) as [ev d1|e1 d1|]; [|auto|congruence].
  destruct (scan_loop fin true f2 d1) as [evs1 e1 d3|] eqn:E; [|discriminate]. intros [= <- <- <-].
  rewrite (IH f2 d1 evs1); [reflexivity| |lia|exact E]. intros K. rewrite K in HN. congruence.
Qed.
Lemma steps_scanned input evs d' : Steps XEOF (dec_new input) evs d' -> At d' "" -> d_stk d' = [] -> exists d, scan XEOF input = SDone evs XEOF d.
Proof.
  intros S A K. destruct (at_end d' A K) as (d2 & E). destruct (steps_scan _ _ _ _ S _ _ E) as (n & Hn). exists d2. unfold scan.
  apply (scan_more _ _ (n + scan_fuel input)); [apply scan_loop_done; cbn; unfold scan_fuel; lia|lia|apply Hn; lia].
Qed.
Lemma document_steps fin e ops ts d : Document e ops ts -> At d (print ops) -> d_ns d = [] -> d_stk d = [] ->
  exists evs d', Steps fin d evs d' /\ map ev_token evs = join_texts "" (map (qtok e) ts) /\ At d' "" /\ d_stk d' = [].
Proof.
  intros (n & a & r & ts' & -> & -> & HN & HX & HS & HR & HM) HA N0 K0.
  assert (HE0 : EnvOk (mkEnv None [])) by (intros p u; discriminate).
  assert (HE : EnvOk e) by (apply (root_ext _ _ _ HR HE0)).
  destruct (root_attrs _ _ _ HR [] [] [] HE0) as (s & m' & raws & ns' & sns & W & P & D & S & PM & EV & TR).
  { split; [intros u Hu K; destruct K; reflexivity|intros u [_ (p & K)]; discriminate]. }
  { split; reflexivity. }
  unfold print in HA. rewrite print_ops_cons in HA. cbn [print_op] in HA. unfold write_start in HA. cbn [printer_new pr_skip pr_prefix pr_auto] in HA. rewrite W in HA. cbn [fst snd] in HA.
  assert (TN : tag_name [] n = nlocal n) by (unfold tag_name; rewrite andb_false_r; reflexivity).
  rewrite TN, !sapp_assoc in HA. destruct (name_str _ HN) as (L1 & L2 & L3).
  destruct (step_start fin (nlocal n) s raws d (fst (print_ops (mkPrinter false false m') r)) L1 L2 P HA) as (d2 & S2 & A2 & N2 & K2).
  rewrite N0, K0, D in *. cbn [fst snd] in *. rewrite app_nil_r in *. rewrite (local_ok e n HN HX HS _ EV), TR in *.
  assert (TF : TagFits e n) by (split; [exact HN|split; [exact HX|tauto]]).
  destruct (emits_scanned fin e _ _ _ _ _ HM m' "" d2 sns HE PM) as (ev3 & d3 & S3 & E3 & A3 & K3); try assumption.
  - constructor.
  - discriminate.
  - constructor; [exact TF|constructor].
  - rewrite N2. intros _. exact EV.
  - exists ([EvStart (qual e n) a] ++ ev3), d3. sp; [eapply StCons; [exact S2|exact S3]| |exact A3|exact K3]. rewrite map_app, E3. reflexivity.
Qed.
