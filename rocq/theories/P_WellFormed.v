(** * Proofs: what is printed is well-formed *)
From Coq Require Import ZArith.
From Verif Require Import GoBase GoNum GoUtf8 GoFloat Types XmlTypes M_Core M_Xml M_Text M_Printer M_Encode GoStrconv S_Core S_Xml S_Printer S_Lex S_RoundTrip S_WellFormed
  P_Xml P_Esc P_RTText.

(** ** Escaped texts *)
Lemma str1_bN c : str1 (bN c) = String c "".
Proof. unfold str1, byte, bN. rewrite ascii_N_embedding. reflexivity. Qed.
Lemma str1_plus c a b : bN c = (a + b)%N -> str1 (a + b) = String c "".
Proof. intros <-. apply str1_bN. Qed.
Ltac leb := repeat match goal with
  | H : (_ && _) = true |- _ => apply andb_true_iff in H as [? ?]
  | H : (_ <=? _)%N = true |- _ => apply N.leb_le in H
  | H : (_ <? _)%N = true |- _ => apply N.ltb_lt in H
  | H : (_ <=? _)%N = false |- _ => apply N.leb_gt in H
  | H : (_ <? _)%N = false |- _ => apply N.ltb_ge in H
  end.
Lemma decode_sound s r w : s <> "" -> decode_rune s = (r, w) ->
  (r = rune_error /\ w = 1) \/ (Utf8 r (stake w s) /\ w = String.length (stake w s)).
Proof.
  destruct s as [|c s]; [congruence|]. intros _. cbn [decode_rune].
  destruct (bN c <? 128)%N eqn:E1.
  { intros [= <- <-]. right. leb. cbn [stake]. rewrite ?stake_0. rewrite <- str1_bN at 1. split; [constructor; lia|reflexivity]. }
  destruct (bN c <? 194)%N eqn:E2; [intros [= <- <-]; auto|].
  destruct (bN c <? 224)%N eqn:E3.
  { destruct s as [|c1 s]; [intros [= <- <-]; auto|]. destruct (cont c1) eqn:K; [|intros [= <- <-]; auto]. intros [= <- <-]. right. unfold cont in K. leb.
    cbn [stake]. rewrite ?stake_0. split; [|reflexivity].
    assert (U : Utf8 (64 * (bN c - 192) + (bN c1 - 128)) (str1 (192 + (bN c - 192)) +++ str1 (128 + (bN c1 - 128)))) by (constructor; lia).
    rewrite (str1_plus c), (str1_plus c1) in U by lia. replace ((bN c - 192) * 64 + (bN c1 - 128))%N with (64 * (bN c - 192) + (bN c1 - 128))%N by lia. exact U. }
  destruct (bN c <? 240)%N eqn:E4.
  { destruct s as [|c1 [|c2 s]]; try (intros [= <- <-]; auto; fail).
    destruct (_ && cont c2) eqn:K; [|intros [= <- <-]; auto]. intros [= <- <-]. right. unfold cont, in_range in K. leb.
    cbn [stake]. rewrite ?stake_0. split; [|reflexivity].
    assert (K1 : (128 <= bN c1 <= 191)%N /\ ((bN c = 224)%N -> (160 <= bN c1)%N)).
    { destruct (N.eqb_spec (bN c) 224), (N.eqb_spec (bN c) 237); lia. }
    assert (U : Utf8 (4096 * (bN c - 224) + 64 * (bN c1 - 128) + (bN c2 - 128)) (str1 (224 + (bN c - 224)) +++ str1 (128 + (bN c1 - 128)) +++ str1 (128 + (bN c2 - 128)))).
    { constructor; lia. }
    rewrite (str1_plus c), (str1_plus c1), (str1_plus c2) in U by lia.
    replace ((bN c - 224) * 4096 + (bN c1 - 128) * 64 + (bN c2 - 128))%N with (4096 * (bN c - 224) + 64 * (bN c1 - 128) + (bN c2 - 128))%N by lia. exact U. }
  destruct (bN c <? 245)%N eqn:E5; [|intros [= <- <-]; auto].
  destruct s as [|c1 [|c2 [|c3 s]]]; try (intros [= <- <-]; auto; fail).
  destruct (_ && cont c2 && cont c3) eqn:K; [|intros [= <- <-]; auto]. intros [= <- <-]. right. unfold cont, in_range in K. leb.
  cbn [stake]. rewrite ?stake_0. split; [|reflexivity].
  assert (K1 : (128 <= bN c1 <= 191)%N /\ ((bN c = 240)%N -> (144 <= bN c1)%N) /\ ((bN c = 244)%N -> (bN c1 <= 143)%N)).
  { destruct (N.eqb_spec (bN c) 240), (N.eqb_spec (bN c) 244); lia. }
  assert (U : Utf8 (262144 * (bN c - 240) + 4096 * (bN c1 - 128) + 64 * (bN c2 - 128) + (bN c3 - 128))
                (str1 (240 + (bN c - 240)) +++ str1 (128 + (bN c1 - 128)) +++ str1 (128 + (bN c2 - 128)) +++ str1 (128 + (bN c3 - 128)))).
  { constructor; lia. }
  rewrite (str1_plus c), (str1_plus c1), (str1_plus c2), (str1_plus c3) in U by lia.
  replace ((bN c - 240) * 262144 + (bN c1 - 128) * 4096 + (bN c2 - 128) * 64 + (bN c3 - 128))%N
    with (262144 * (bN c - 240) + 4096 * (bN c1 - 128) + 64 * (bN c2 - 128) + (bN c3 - 128))%N by lia. exact U.
Qed.

(** The characters that are escaped *)
Definition escaped : list N := [34; 39; 38; 60; 62; 9; 10; 13]%N.
Lemma num2 base a b x y : (x < base)%N -> (y < base)%N -> DigitVal a x -> DigitVal b y -> Numeral base (String a (String b "")) (x * base + y).
Proof. intros Hx Hy A B. apply (NuMore base (String a "") x b y); [apply (NuOne base a x)| |]; assumption. Qed.
Lemma xml_char_back r : xml_char r = true -> XmlChar r.
Proof. unfold XmlChar, xml_char. rewrite !orb_true_iff, !andb_true_iff, !N.eqb_eq, !N.leb_le. lia. Qed.
Lemma esc_written no r w raw s t : incl no escaped -> XmlChar r -> Utf8 r raw -> (r = rune_error -> w <> 1) -> Written no s t ->
  Written no (esc_rune r w raw +++ s) (raw +++ t).
Proof.
  intros Hn X U Hw W. unfold esc_rune.
  assert (small : forall x, (x < 128)%N -> r = x -> raw = str1 x) by (intros x L ->; exact (utf8_small x raw U L)).
  assert (named : forall nm v, In (nm, v) [("lt", "<"); ("gt", ">"); ("amp", "&"); ("apos", "'"); ("quot", """")] -> raw = v -> Written no (("&" +++ nm +++ ";") +++ s) (raw +++ t)).
  { intros nm v Hv ->. apply WrRef; [constructor; exact Hv|exact W]. }
  destruct (N.eqb_spec r 34) as [E|N1].
  { apply (WrRef no "&#34;" raw); [|exact W]. apply (RfDec "34" 34 raw); [|rewrite <- E; exact X|rewrite <- E; exact U].
    apply (num2 10 "3" "4" 3 4); try reflexivity; left; reflexivity. }
  destruct (N.eqb_spec r 39) as [E|N2].
  { apply (WrRef no "&#39;" raw); [|exact W]. apply (RfDec "39" 39 raw); [|rewrite <- E; exact X|rewrite <- E; exact U].
    apply (num2 10 "3" "9" 3 9); try reflexivity; left; reflexivity. }
  destruct (N.eqb_spec r 38) as [E|N3]; [apply (named "amp" "&"); [cbn; auto|apply (small 38%N); [reflexivity|exact E]]|].
  destruct (N.eqb_spec r 60) as [E|N4]; [apply (named "lt" "<"); [cbn; auto|apply (small 60%N); [reflexivity|exact E]]|].
  destruct (N.eqb_spec r 62) as [E|N5]; [apply (named "gt" ">"); [cbn; auto|apply (small 62%N); [reflexivity|exact E]]|].
  destruct (N.eqb_spec r 9) as [E|N6].
  { apply (WrRef no "&#x9;" raw); [|exact W]. apply (RfHex "9" 9 raw); [|rewrite <- E; exact X|rewrite <- E; exact U]. apply (NuOne 16 "9" 9); [reflexivity|left; reflexivity]. }
  destruct (N.eqb_spec r 10) as [E|N7].
  { apply (WrRef no "&#xA;" raw); [|exact W]. apply (RfHex "A" 10 raw); [|rewrite <- E; exact X|rewrite <- E; exact U]. apply (NuOne 16 "A" 10); [reflexivity|right; reflexivity]. }
  destruct (N.eqb_spec r 13) as [E|N8].
  { apply (WrRef no "&#xD;" raw); [|exact W]. apply (RfHex "D" 13 raw); [|rewrite <- E; exact X|rewrite <- E; exact U]. apply (NuOne 16 "D" 13); [reflexivity|right; reflexivity]. }
  rewrite (xml_char_spec r X). cbn [negb orb].
  replace ((r =? rune_error)%N && Nat.eqb w 1) with false.
  2:{ symmetry. apply not_true_iff_false. intros H. apply andb_true_iff in H as [H1 H2]. apply N.eqb_eq in H1. apply Nat.eqb_eq in H2. exact (Hw H1 H2). }
  apply (WrChar no r raw); [exact X| |exact U|exact W]. intros Hi. apply Hn in Hi. unfold escaped in Hi. cbn [In] in Hi. intuition congruence.
Qed.
Lemma fffd_utf8 : Utf8 rune_error esc_fffd.
Proof. exact (U3 15 63 61 eq_refl eq_refl eq_refl ltac:(vm_compute; discriminate)). Qed.
Lemma fffd_written no s t : incl no escaped -> Written no s t -> Written no (esc_fffd +++ s) (esc_fffd +++ t).
Proof.
  intros Hn W. apply (WrChar no rune_error); [right; right; right; right; left; vm_compute; split; discriminate| |exact fffd_utf8|exact W].
  intros Hi. apply Hn in Hi. unfold escaped in Hi. cbn [In] in Hi. intuition discriminate.
Qed.
Lemma esc_bad r w raw : xml_char r = false \/ (r = rune_error /\ w = 1) -> esc_rune r w raw = esc_fffd.
Proof.
  intros H. unfold esc_rune. assert (K : forall x, xml_char x = true -> x <> rune_error -> r <> x) by (intros x X1 X2 ->; destruct H as [H|[H _]]; congruence).
  destruct (N.eqb_spec r 34) as [E|_]; [destruct (K 34%N eq_refl ltac:(discriminate) E)|].
  destruct (N.eqb_spec r 39) as [E|_]; [destruct (K 39%N eq_refl ltac:(discriminate) E)|].
  destruct (N.eqb_spec r 38) as [E|_]; [destruct (K 38%N eq_refl ltac:(discriminate) E)|].
  destruct (N.eqb_spec r 60) as [E|_]; [destruct (K 60%N eq_refl ltac:(discriminate) E)|].
  destruct (N.eqb_spec r 62) as [E|_]; [destruct (K 62%N eq_refl ltac:(discriminate) E)|].
  destruct (N.eqb_spec r 9) as [E|_]; [destruct (K 9%N eq_refl ltac:(discriminate) E)|].
  destruct (N.eqb_spec r 10) as [E|_]; [destruct (K 10%N eq_refl ltac:(discriminate) E)|].
  destruct (N.eqb_spec r 13) as [E|_]; [destruct (K 13%N eq_refl ltac:(discriminate) E)|].
  destruct H as [H|[-> ->]]; [rewrite H|]; reflexivity.
Qed.
(** Every text is escaped to a well-formed one, *)
Lemma escape_written no : incl no escaped -> forall f s, exists t, Written no (escape_loop f s) t.
Proof.
  intros Hn. induction f as [|f IH]; intros s; [exists ""; constructor|]. destruct s as [|c s]; [exists ""; constructor|]. cbn [escape_loop].
  destruct (decode_rune (String c s)) as [r w] eqn:D. destruct (IH (sdrop w (String c s))) as (t & W).
  destruct (decode_sound (String c s) r w ltac:(discriminate) D) as [B|[U L]].
  - rewrite esc_bad by auto. eexists. apply fffd_written; [exact Hn|exact W].
  - destruct (xml_char r) eqn:X; [|rewrite esc_bad by auto; eexists; apply fffd_written; [exact Hn|exact W]].
    eexists. apply esc_written; [exact Hn|apply xml_char_back, X|exact U| |exact W].
    intros -> E. rewrite E in *. pose proof (utf8_big _ _ U ltac:(vm_compute; discriminate)) as B. inversion U; subst; try lia; cbn [stake] in *; rewrite ?stake_0 in *; discriminate.
Qed.
(** which stands for it if it is of XML characters *)
Lemma escape_means no s : incl no escaped -> XmlText s -> forall f, String.length s <= f -> Written no (escape_loop f s) s.
Proof.
  intros Hn. induction 1 as [|r e s X U _ IH]; intros f L; [destruct f; constructor|].
  destruct (decode_char r e s U X) as [D S]. rewrite slength_app in L. pose proof (utf8_nonempty r e U) as Ne.
  destruct f as [|f]; [destruct e; [congruence|cbn in L; lia]|]. cbn [escape_loop].
  destruct (e +++ s) as [|c q] eqn:E; [destruct e; [congruence|discriminate E]|]. rewrite <- E in *. rewrite D, S, sdrop_app_l.
  apply esc_written; [exact Hn|exact X|exact U| |apply IH; destruct e; [congruence|cbn in L; lia]].
  intros -> E1. inversion U; subst; cbn in E1; try discriminate; vm_compute in H; discriminate.
Qed.
Lemma text_ok s : exists t, Written in_text (escape_text s) t.
Proof. apply escape_written. intros x. unfold in_text, escaped. cbn [In]. tauto. Qed.
Lemma value_incl : incl in_value escaped.
Proof. intros x. unfold in_value, escaped. cbn [In]. tauto. Qed.
Lemma value_ok s : exists t, Written in_value (escape_text s) t.
Proof. apply escape_written, value_incl. Qed.
Lemma value_means s : XmlText s -> Written in_value (escape_text s) s.
Proof. intros X. apply escape_means; [exact value_incl|exact X|apply le_n]. Qed.
(** Numbers and keywords need no escaping *)
Lemma safe_verbatim s : safe s = true -> Verbatim s.
Proof.
  unfold safe. induction s as [|c s IH]; intros H; [exists ""; constructor|]. cbn [sall] in H. apply andb_true_iff in H as [Hc Hs]. destruct (IH Hs) as (t & W).
  unfold safe_char in Hc. apply andb_true_iff in Hc as [Hr Hx]. leb. exists (String c t).
  change (String c s) with (String c "" +++ s). change (String c t) with (String c "" +++ t). apply (WrChar in_value (bN c)).
  - unfold XmlChar. lia.
  - intros Hi. apply negb_true_iff in Hx. revert Hx. unfold in_value in Hi. cbn [In] in Hi.
    assert (K : forall d, bN c = bN d -> c = d) by (intros d E; unfold bN in E; rewrite <- (ascii_N_embedding c), E; apply ascii_N_embedding).
    destruct Hi as [E|[E|[E|[E|[E|[E|[]]]]]]]; try lia.
    + rewrite (K "<"%char) by (symmetry; exact E). discriminate.
    + rewrite (K "&"%char) by (symmetry; exact E). discriminate.
    + rewrite (K """"%char) by (symmetry; exact E). discriminate.
  - rewrite <- str1_bN. constructor. lia.
  - exact W.
Qed.

(** ** Names of the encoder *)
Definition letter (c : ascii) : bool := ((65 <=? bN c) && (bN c <=? 90) || (97 <=? bN c) && (bN c <=? 122))%N.
Definition alnum (c : ascii) : bool := (letter c || (48 <=? bN c) && (bN c <=? 57))%N.
Definition word_name (s : string) : bool := match s with String c r => letter c && sall alnum r | _ => false end.
Lemma word_rest s : sall alnum s = true -> NameRest s.
Proof.
  induction s as [|c s IH]; intros H; [constructor|]. cbn [sall] in H. apply andb_true_iff in H as [Hc Hs].
  change (String c s) with (String c "" +++ s). unfold alnum, letter in Hc. rewrite !orb_true_iff, !andb_true_iff, !N.leb_le in Hc.
  apply (NrCons (bN c)); [unfold NameChar, NameStart; lia|rewrite <- str1_bN; constructor; lia|apply IH, Hs].
Qed.
Lemma word_nc s : word_name s = true -> NcName s.
Proof.
  destruct s as [|c s]; [discriminate|]. cbn [word_name]. intros H. apply andb_true_iff in H as [Hc Hs]. unfold letter in Hc. rewrite !orb_true_iff, !andb_true_iff, !N.leb_le in Hc.
  exists (bN c), (String c ""), s. split; [unfold NameStart; lia|]. split; [rewrite <- str1_bN; constructor; lia|]. split; [apply word_rest, Hs|reflexivity].
Qed.
Lemma nc_nonempty s : NcName s -> s <> "".
Proof. intros (r & e & q & _ & U & _ & ->). pose proof (utf8_nonempty r e U). destruct e; [congruence|discriminate]. Qed.

(** ** Attributes *)
Lemma attributes_app s a : Attributes s a -> forall r b, Attributes r b -> Attributes (s +++ r) (a ++ b).
Proof.
  induction 1 as [|w nm p l s v r a Bw Nw Q W A IH]; intros r' b B; [exact B|].
  replace ((w +++ nm +++ "=""" +++ s +++ """" +++ r) +++ r') with (w +++ nm +++ "=""" +++ s +++ """" +++ (r +++ r')) by (rewrite !sapp_assoc; reflexivity).
  cbn [app]. apply AsCons; auto.
Qed.
Lemma decls_app a b : declarations (a ++ b) = declarations a ++ declarations b.
Proof. apply flat_map_app. Qed.
Lemma others_app a b : others (a ++ b) = others a ++ others b.
Proof. unfold others. induction a as [|x a IH]; [reflexivity|]. cbn [app filter]. destruct x as [[p l] v]. destruct (_ && _); cbn [app]; rewrite IH; reflexivity. Qed.
Lemma write_attrs_app sk a : forall m b, write_attrs sk m (a ++ b) =
  (let (s, m1) := write_attrs sk m a in let (t, m2) := write_attrs sk m1 b in (s +++ t, m2)).
Proof.
  induction a as [|x a IH]; intros m b; cbn [app write_attrs]; [destruct (write_attrs sk m b); reflexivity|].
  destruct (seq (nlocal (aname x)) ""); [apply IH|].
  destruct (if negb (seq (nspace (aname x)) "") then _ else _) as [pre m0]. rewrite IH. destruct (write_attrs sk m0 a) as [s m1]. destruct (write_attrs sk m1 b) as [t m2].
  rewrite !sapp_assoc. reflexivity.
Qed.
Lemma space_blank : S_Lex.Blank " ".
Proof. intros c [<-|[]]. left. reflexivity. Qed.

Section Scope.
Context (exts : list Extension) (sc : Scope) (M : list (string * string)).
(** The map of the printer, given the declarations in scope *)
Record MapOk : Prop := {
  mk_bound : forall ns, prefix_of M ns = "" \/ NcName (prefix_of M ns) /\ aget seq (prefix_of M ns) sc = Some ns /\ prefix_of M ns <> "xmlns";
  mk_has : forall ns, Has exts ns -> prefix_of M ns <> "";
  mk_xml : prefix_of M nsxml = "" }.
Context (HM : MapOk) (Hno : ~ Has exts "").
Definition AttrOk (sk : bool) (x : Attr) : Prop :=
  NcName (nlocal (aname x)) /\
  (nspace (aname x) = "" /\ nlocal (aname x) <> "xmlns" \/ nspace (aname x) = nsxml \/ Has exts (nspace (aname x))) /\
  (sk = true -> Verbatim (avalue x)).
Definition key (x : Attr) : string * string := (nspace (aname x), nlocal (aname x)).
Lemma attrs_written sk a : Forall (AttrOk sk) a -> exists s xs, write_attrs sk M a = (s, M) /\ Attributes s xs /\ declarations xs = [] /\
  Forall2 (fun x n => InScope sc (fst (fst x)) (fst n) /\ snd n = snd (fst x)) (others xs) (map key a).
Proof.
  induction 1 as [|x a (Nc & Sp & Vb) Ha IH]; [exists "", []; repeat (split; [constructor|]); constructor|].
  destruct IH as (s & xs & E & A & D & F).
  assert (V : exists v, Written in_value (if sk then avalue x else escape_text (avalue x)) v) by (destruct sk; [exact (Vb eq_refl)|apply value_ok]).
  destruct V as (v & V). cbn [write_attrs]. destruct (seq_spec (nlocal (aname x)) "") as [E0|_]; [destruct (nc_nonempty _ Nc E0)|].
  assert (P : exists p nm, (if negb (seq (nspace (aname x)) "") then let (q, m) := create_attr_prefix M x in (q +++ ":", m) else ("", M)) = (nm, M) /\
    QName (nm +++ nlocal (aname x)) p (nlocal (aname x)) /\ InScope sc p (nspace (aname x)) /\ p <> "xmlns" /\ (p = "" -> nlocal (aname x) <> "xmlns")).
  { destruct (seq_spec (nspace (aname x)) "") as [E0|N0]; cbn [negb].
    - destruct Sp as [[_ Sp]|[Sp|Sp]]; [|rewrite E0 in Sp; discriminate|rewrite E0 in Sp; destruct (Hno Sp)].
      exists "", "". rewrite E0. cbn [String.append]. split; [reflexivity|]. split; [split; [exact Nc|auto]|]. split; [constructor|]. split; [discriminate|auto].
    - unfold create_attr_prefix. destruct Sp as [[Sp _]|Sp]; [congruence|].
      destruct (mk_bound HM (nspace (aname x))) as [B|(B1 & B2 & B3)].
      + destruct Sp as [Sp|Sp]; [|destruct (mk_has HM _ Sp B)]. rewrite B. change (negb (seq "" "")) with false. cbv iota.
        rewrite Sp. change (seq nsxml ns_xml) with true. cbv iota. exists "xml", "xml:". split; [reflexivity|].
        split; [split; [exact Nc|right; split; [apply word_nc; reflexivity|reflexivity]]|]. split; [constructor|]. split; discriminate.
      + pose proof (nc_nonempty _ B1) as B0. destruct (seq_spec (prefix_of M (nspace (aname x))) "") as [E1|_]; [congruence|]. cbn [negb].
        exists (prefix_of M (nspace (aname x))), (prefix_of M (nspace (aname x)) +++ ":"). split; [reflexivity|].
        split; [split; [exact Nc|right; split; [exact B1|rewrite sapp_assoc; reflexivity]]|]. split; [constructor; assumption|]. split; [exact B3|congruence]. }
  destruct P as (p & nm & -> & Q & I & N1 & N2). rewrite E.
  exists (" " +++ (nm +++ nlocal (aname x)) +++ "=""" +++ (if sk then avalue x else escape_text (avalue x)) +++ """" +++ s), ((p, nlocal (aname x), v) :: xs).
  split; [rewrite !sapp_assoc; reflexivity|]. split; [apply AsCons; [exact space_blank|discriminate|exact Q|exact V|exact A]|].
  assert (T1 : seq p "xmlns" = false) by (destruct (seq_spec p "xmlns"); congruence).
  assert (T2 : seq p "" && seq (nlocal (aname x)) "xmlns" = false).
  { destruct (seq_spec p "") as [e|_]; [|reflexivity]. destruct (seq_spec (nlocal (aname x)) "xmlns") as [e'|_]; [destruct (N2 e e')|reflexivity]. }
  split.
  - unfold declarations in *. cbn [flat_map]. rewrite T1, T2. exact D.
  - unfold others in *. cbn [filter]. rewrite T1, T2. cbn [negb andb map]. constructor; [|exact F]. split; [exact I|reflexivity].
Qed.
Lemma keys_nodup a : NoDup (map aname a) -> NoDup (map key a).
Proof.
  intros H. apply (FinFun.Injective_map_NoDup (f := fun n => (nspace n, nlocal n))) in H.
  - rewrite map_map in H. exact H.
  - intros [s l] [s' l'] E. cbn in E. congruence.
Qed.

(** ** Elements *)
Lemma well_app s k : Well sc s k -> forall r k', Well sc r k' -> Well sc (s +++ r) (k ++ k').
Proof.
  remember sc as sc0. intros H. revert Heqsc0. induction H as [|sc1 s t r k W _ IH|sc1 nm p l s a body kb r k Q A T Hb _ _ IH|sc1 nm p l s a r k Q A T _ IH]; intros -> r' k' H'.
  - exact H'.
  - rewrite sapp_assoc. cbn [app]. eapply WlText; eauto.
  - replace (("<" +++ nm +++ s +++ ">" +++ body +++ "</" +++ nm +++ ">" +++ r) +++ r') with ("<" +++ nm +++ s +++ ">" +++ body +++ "</" +++ nm +++ ">" +++ (r +++ r')) by (rewrite !sapp_assoc; reflexivity).
    cbn [app]. eapply WlElem; eauto.
  - replace (("<" +++ nm +++ s +++ "/>" +++ r) +++ r') with ("<" +++ nm +++ s +++ "/>" +++ (r +++ r')) by (rewrite !sapp_assoc; reflexivity).
    cbn [app]. eapply WlEmpty; eauto.
Qed.
Definition Fine (au sk : bool) (ops : list op) : Prop :=
  exists s k, print_ops (mkPrinter au sk M) ops = (s, mkPrinter au sk M) /\ Well sc s k.
Lemma print_app a : forall p b, print_ops p (a ++ b) = (let (s, p1) := print_ops p a in let (t, p2) := print_ops p1 b in (s +++ t, p2)).
Proof.
  induction a as [|o a IH]; intros p b; cbn [app print_ops]; [destruct (print_ops p b); reflexivity|].
  destruct (print_op p o) as [s p1]. rewrite IH. destruct (print_ops p1 a) as [t p2]. destruct (print_ops p2 b) as [u p3]. rewrite sapp_assoc. reflexivity.
Qed.
Lemma fine_nil au sk : Fine au sk [].
Proof. exists "", []. split; [reflexivity|constructor]. Qed.
Lemma fine_cat au sk a b : Fine au sk a -> Fine au sk b -> Fine au sk (a ++ b).
Proof.
  intros (s & k & E & W) (t & k' & E' & W'). exists (s +++ t), (k ++ k'). split; [rewrite print_app, E, E'; reflexivity|apply well_app; assumption].
Qed.
Lemma fine_flat {A} au sk (f : A -> list op) l : (forall x, In x l -> Fine au sk (f x)) -> Fine au sk (flat_map f l).
Proof.
  induction l as [|x l IH]; intros H; [apply fine_nil|]. cbn [flat_map]. apply fine_cat; [apply H; left; reflexivity|apply IH; intros y Hy; apply H; right; exact Hy].
Qed.
Lemma fine_rel au sk r ops : Fine au sk ops -> Fine au sk (OpRel r :: ops).
Proof. intros (s & k & E & W). exists s, k. split; [cbn [print_ops print_op]; rewrite E; reflexivity|exact W]. Qed.
Definition TagAttrs (sk : bool) (a : list Attr) : Prop := Forall (AttrOk sk) a /\ NoDup (map aname a).
Lemma tag_ok n sk a : NcName (nlocal n) -> TagAttrs sk a -> exists p s xs, QName (tag_name M n) p (nlocal n) /\ write_attrs sk M a = (s, M) /\
  Attributes s xs /\ declarations xs = [] /\ TagOk sc p xs.
Proof.
  intros Nc [Ha Hd]. destruct (attrs_written sk a Ha) as (s & xs & E & A & D & F).
  assert (P : exists p, QName (tag_name M n) p (nlocal n) /\ exists u, InScope sc p u).
  { unfold tag_name. destruct (seq_spec (nspace n) "") as [e|N0]; cbn [negb andb].
    - exists "". split; [split; [exact Nc|auto]|exists ""; constructor].
    - destruct (mk_bound HM (nspace n)) as [B|(B1 & B2 & B3)].
      + rewrite B. change (seq "" "") with true. cbn [negb]. exists "". split; [split; [exact Nc|auto]|exists ""; constructor].
      + pose proof (nc_nonempty _ B1) as B0. destruct (seq_spec (prefix_of M (nspace n)) "") as [E1|_]; [congruence|]. cbn [negb].
        exists (prefix_of M (nspace n)). split; [split; [exact Nc|right; split; [exact B1|rewrite sapp_assoc; reflexivity]]|].
        exists (nspace n). constructor; assumption. }
  destruct P as (p & Q & I). exists p, s, xs. split; [exact Q|]. split; [exact E|]. split; [exact A|]. split; [exact D|]. split; [exact I|].
  rewrite D. split; [constructor|]. split; [constructor|]. exists (map key a). split; [exact F|apply keys_nodup, Hd].
Qed.
Lemma fine_element n sk a inner : NcName (nlocal n) -> TagAttrs sk a -> Fine false sk inner -> Fine false sk (element n a inner).
Proof.
  intros Nc Ha (s & k & E & W). destruct (tag_ok n sk a Nc Ha) as (p & t & xs & Q & E1 & A & D & T).
  exists ("<" +++ tag_name M n +++ t +++ ">" +++ s +++ "</" +++ tag_name M n +++ ">" +++ ""), [true]. split.
  - unfold element, start_op, end_op. cbn [print_ops print_op]. unfold write_start. cbn [pr_skip pr_prefix pr_auto]. rewrite E1, print_app, E. cbn [print_ops print_op]. unfold write_end. cbn [pr_prefix String.append].
    rewrite !sapp_assoc, ?sapp_nil_r. reflexivity.
  - eapply WlElem; [exact Q|exact A|rewrite D; exact T|rewrite D; exact W|constructor].
Qed.
Lemma fine_start n sk a : NcName (nlocal n) -> TagAttrs sk a -> Fine true sk [start_op n a].
Proof.
  intros Nc Ha. destruct (tag_ok n sk a Nc Ha) as (p & t & xs & Q & E1 & A & D & T).
  exists ("<" +++ tag_name M n +++ t +++ "/>" +++ ""), [true]. split.
  - unfold start_op. cbn [print_ops print_op]. unfold write_start. cbn [pr_skip pr_prefix pr_auto]. rewrite E1. cbn [String.append]. rewrite !sapp_assoc, ?sapp_nil_r. reflexivity.
  - eapply WlEmpty; [exact Q|exact A|rewrite D; exact T|constructor].
Qed.
Lemma fine_starts {A} n sk (f : A -> list Attr) l : NcName (nlocal n) -> (forall x, In x l -> TagAttrs sk (f x)) -> Fine true sk (map (fun x => start_op n (f x)) l).
Proof.
  intros Nc. induction l as [|x l IH]; intros H; [apply fine_nil|]. cbn [map]. apply (fine_cat true sk [start_op n (f x)]); [apply fine_start; [exact Nc|apply H; left; reflexivity]|].
  apply IH. intros y Hy. apply H. right. exact Hy.
Qed.
Lemma fine_text sk s : Fine false sk [OpTok (TChar s)].
Proof.
  destruct (text_ok s) as (t & W). exists (escape_text s +++ ""), [false]. split; [reflexivity|]. eapply WlText; [exact W|constructor].
Qed.
Lemma fine_auto sk x : Fine true sk x -> Fine false sk (auto x).
Proof. intros (s & k & E & W). exists s, k. split; [|exact W]. unfold auto. cbn [print_ops print_op pr_skip pr_prefix]. rewrite print_app, E. cbn [print_ops print_op pr_skip pr_prefix]. rewrite sapp_nil_r. reflexivity. Qed.
Lemma fine_unauto sk x : Fine false sk x -> Fine true sk (OpAuto false :: x ++ [OpAuto true]).
Proof. intros (s & k & E & W). exists s, k. split; [|exact W]. cbn [print_ops print_op pr_skip pr_prefix]. rewrite print_app, E. cbn [print_ops print_op pr_skip pr_prefix]. rewrite sapp_nil_r. reflexivity. Qed.
Lemma fine_skip au x : Fine au true x -> Fine au false (OpSkip true :: x ++ [OpSkip false]).
Proof. intros (s & k & E & W). exists s, k. split; [|exact W]. cbn [print_ops print_op pr_auto pr_prefix]. rewrite print_app, E. cbn [print_ops print_op pr_auto pr_prefix]. rewrite sapp_nil_r. reflexivity. Qed.
Lemma fine_auto_skip x : Fine true true x -> Fine false false (auto_skip x).
Proof.
  intros (s & k & E & W). exists s, k. split; [|exact W]. unfold auto_skip. cbn [print_ops print_op pr_skip pr_auto pr_prefix]. rewrite print_app, E. cbn [print_ops print_op pr_skip pr_auto pr_prefix]. rewrite sapp_nil_r. reflexivity.
Qed.
End Scope.
