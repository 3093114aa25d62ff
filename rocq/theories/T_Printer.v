(** * Properties of the XML printer *)
From Verif Require Import GoBase GoNum GoUtf8 GoFloat Types XmlTypes M_Xml M_Printer S_Xml S_Printer P_Xml P_Xml2 P_Esc P_Printer.

(** ** C35: a printed document is scanned back to the events it was printed from. *)
Theorem C35_print_scan e ops ts : Document e ops ts ->
  exists evs d, scan XEOF (print ops) = SDone evs XEOF d /\ map ev_token evs = join_texts "" (map (qtok e) ts).
Proof.
  intros H. destruct (document_steps XEOF e ops ts (dec_new (print ops)) H) as (evs & d' & S & E & A & K); try reflexivity.
  - constructor; try reflexivity. apply names_nil.
  - destruct (steps_scanned _ _ _ S A K) as (d & R). eauto.
Qed.
(** With the XML header that Encode writes first: the line break after it is a text *)
Lemma header_steps fin ops r : print ops = String "<" r -> exists evs d, Steps fin (dec_new (xml_header +++ print ops)) evs d /\
  map ev_token evs = [TChar (str1 10)] /\ At d (print ops) /\ d_ns d = [] /\ d_stk d = [].
Proof.
  intros HR. set (rest := print ops) in *.
  assert (HL : exists names b, lex fin true (xml_header +++ rest) [] buf_new = LTok RwInst (String (byte 10) rest) None names b /\ NamesOk names).
  { destruct (name_app fin true "xml" " " ("version=""1.0"" encoding=""UTF-8""?>" +++ String (byte 10) rest) [] buf_new (names_nil) ltac:(discriminate) ltac:(vm_compute; reflexivity) ltac:(vm_compute; reflexivity)) as (names & E & HN).
    assert (PI : forall b0, exists b, proc_inst (byte 0) (space (String " " ("version=""1.0"" encoding=""UTF-8""?>" +++ String (byte 10) rest))) b0 = (Some (String (byte 10) rest), b)).
    { intros b0. eexists. reflexivity. }
    destruct (PI (buf_puts "xml" (buf_reset buf_new))) as (b & EB). exists names, b. split; [|exact HN].
    change (xml_header +++ rest) with ("<?" +++ ("xml" +++ String " " ("version=""1.0"" encoding=""UTF-8""?>" +++ String (byte 10) rest))).
    remember ("xml" +++ String " " ("version=""1.0"" encoding=""UTF-8""?>" +++ String (byte 10) rest)) as q.
    remember (String " " ("version=""1.0"" encoding=""UTF-8""?>" +++ String (byte 10) rest)) as q2.
    cbn [String.append]. unfold lex. change (negb (ceq "<" "<")) with false. change (ceq "?" "/") with false. change (ceq "?" "?") with true. cbv iota. rewrite E, EB.
    reflexivity. }
  destruct HL as (names & b & HL & HN).
  set (d1 := mkDec (String (byte 10) rest) None [] None [] names b).
  assert (E1 : raw_token fin true (dec_new (xml_header +++ rest)) = RTok [] d1).
  { revert HL. generalize (xml_header +++ rest). intros inp HL. unfold raw_token, dec_new. cbn [d_err d_close d_rest d_stk d_ns d_names d_buf]. rewrite HL. reflexivity. }
  assert (E2 : raw_token fin true d1 = RTok [EvChar (str1 10) (buf_ref (buf_put (byte 10) (buf_reset b)))] (mkDec rest None [] None [] names (buf_put (byte 10) (buf_reset b)))).
  { unfold raw_token, d1. cbn [d_err d_close d_rest d_stk d_ns d_names d_buf]. rewrite HR.
    transitivity (RTok [EvChar (b_cur (buf_put (byte 10) (buf_reset b))) (buf_ref (buf_put (byte 10) (buf_reset b)))] (mkDec (String "<" r) None [] None [] names (buf_put (byte 10) (buf_reset b)))).
    - reflexivity.
    - rewrite buf_cur_put. reflexivity. }
  eexists _, _. sp; [exact (StCons _ _ _ _ _ _ E1 (steps_one _ _ _ _ E2))|reflexivity| |reflexivity|reflexivity].
  constructor; try reflexivity. exact HN.
Qed.
Theorem C35_header e ops ts : Document e ops ts ->
  exists evs d, scan XEOF (xml_header +++ print ops) = SDone evs XEOF d /\ map ev_token evs = TChar (str1 10) :: join_texts "" (map (qtok e) ts).
Proof.
  intros H. assert (HR : exists r, print ops = String "<" r).
  { destruct H as (n & a & r & ts' & -> & _). unfold print. rewrite print_ops_cons. cbn [print_op]. unfold write_start. destruct (write_attrs _ _ a). cbn. eauto. }
  destruct HR as (r & HR). destruct (header_steps XEOF ops r HR) as (ev1 & d1 & S1 & E1 & A1 & N1 & K1).
  destruct (document_steps XEOF e ops ts d1 H A1 N1 K1) as (evs & d' & S & E & A & K).
  destruct (steps_scanned _ _ _ (steps_app _ _ _ _ _ _ S1 S) A K) as (d & R). exists (ev1 ++ evs), d. split; [exact R|]. rewrite map_app, E1, E. reflexivity.
Qed.

(** Deciding the hypotheses of an example *)
Lemma plain_text s : sall (fun c => (32 <=? bN c)%N && (bN c <? 127)%N) s = true -> XmlText s.
Proof.
  induction s as [|c s IH]; intros H; [constructor|]. cbn [sall] in H. apply andb_true_iff in H as [H1 H2]. apply andb_true_iff in H1 as [H1 H3].
  apply N.leb_le in H1. apply N.ltb_lt in H3. change (String c s) with (String c "" +++ s). apply (XtCons (bN c)); [unfold XmlChar; lia| |auto].
  replace (String c "") with (str1 (bN c)); [constructor; lia|]. unfold str1, byte, bN. rewrite ascii_N_embedding. reflexivity.
Qed.
Lemma name_text s : s <> "" -> sall (fun c => in_name c && negb (ceq c ":")) s = true -> NameStr s.
Proof.
  intros H1 H2. split; [exact H1|]. intros c Hc. rewrite sall_forall in H2. specialize (H2 c Hc). apply andb_true_iff in H2 as [H2 H3].
  split; [apply in_name_spec, H2|]. intros ->. discriminate.
Qed.
Definition ex_doc : list op :=
  [OpTok (TStart (mkName "" "model") [mkAttr (mkName "" "xmlns") "core"; mkAttr (mkName nsxml "lang") "en-US"; mkAttr (mkName "xmlns" "p") "prod";
     mkAttr (mkName "prod" "UUID") "a<b&c"]);
   OpTok (TStart (mkName "" "metadata") [mkAttr (mkName "" "name") "Title"]); OpTok (TChar "x < "); OpTok (TChar "y & z"); OpTok (TEnd (mkName "" "metadata"));
   OpTok (TStart (mkName "prod" "alt") []); OpAuto true; OpSkip true;
   OpTok (TStart (mkName "core" "vertex") [mkAttr (mkName "" "x") "1.5"; mkAttr (mkName "prod" "path") "/a"]); OpSkip false; OpAuto false;
   OpTok (TEnd (mkName "prod" "alt")); OpTok (TEnd (mkName "" "model"))].
Definition ex_env : Env := mkEnv (Some "core") [("p", "prod")].
Example C35_nonvacuous : (exists ts, Document ex_env ex_doc ts /\ length ts = 10) /\ print ex_doc =
  "<model xmlns=""core"" xml:lang=""en-US"" xmlns:p=""prod"" p:UUID=""a&lt;b&amp;c""><metadata name=""Title"">x &lt; y &amp; z</metadata><p:alt><vertex x=""1.5"" p:path=""/a""/></p:alt></model>".
Proof.
  split; [|vm_compute; reflexivity].
  assert (D : Declared ex_env "prod") by (split; [discriminate|exists "p"; reflexivity]).
  assert (NS : forall s, In s ["model"; "lang"; "p"; "UUID"; "metadata"; "name"; "alt"; "vertex"; "x"; "path"] -> NameStr s).
  { intros s Hs. apply name_text; repeat (destruct Hs as [<-|Hs]; [discriminate || (vm_compute; reflexivity)|]); destruct Hs. }
  assert (TF : forall sp l, In l ["model"; "lang"; "p"; "UUID"; "metadata"; "name"; "alt"; "vertex"; "x"; "path"] -> In sp [""; "core"; "prod"] -> TagFits ex_env (mkName sp l)).
  { intros sp l Hl Hs. split; [apply NS, Hl|]. cbn [nspace nlocal]. split; [intros ->; repeat (destruct Hl as [Hl|Hl]; [discriminate Hl|]); destruct Hl|].
    destruct Hs as [<-|[<-|[<-|[]]]]; [auto|auto|right; right; exact D]. }
  eexists. split; [|instantiate (1 := [_; _; _; _; _; _; _; _; _; _]); reflexivity].
  eexists _, _, _, _. sp; [reflexivity|reflexivity|apply NS; cbn; auto 20|discriminate|auto| |].
  - apply RaDefault; [apply plain_text; reflexivity|]. apply RaOther; [split; [apply NS; cbn; auto 20|split; [auto|apply plain_text; reflexivity]]|].
    apply RaPrefix; [apply NS; cbn; auto 20|discriminate|discriminate|reflexivity|apply plain_text; reflexivity|discriminate|].
    apply RaOther; [split; [apply NS; cbn; auto 20|split; [right; right; exact D|apply plain_text; reflexivity]]|]. apply RaNil.
  - apply EmStart; [apply TF; cbn; auto 20|constructor; [|constructor]; split; [apply NS; cbn; auto 20|split; [left; split; [reflexivity|discriminate]|apply plain_text; reflexivity]]|].
    apply EmChar; [apply plain_text; reflexivity|]. apply EmChar; [apply plain_text; reflexivity|]. apply EmEnd.
    apply EmStart; [apply TF; cbn; auto 20|constructor|]. apply EmAuto, EmSkip. apply EmEmpty; [apply TF; cbn; auto 20| |].
    + constructor; [|constructor; [|constructor]].
      * split; [apply NS; cbn; auto 20|]. split; [left; split; [reflexivity|discriminate]|]. intros c Hc K. cbn in Hc. repeat (destruct Hc as [<-|Hc]; [repeat (destruct K as [K|K]; [discriminate K|]); destruct K|]); destruct Hc.
      * split; [apply NS; cbn; auto 20|]. split; [right; right; exact D|]. intros c Hc K. cbn in Hc. repeat (destruct Hc as [<-|Hc]; [repeat (destruct K as [K|K]; [discriminate K|]); destruct K|]); destruct Hc.
    + apply EmSkip, EmAuto. do 2 apply EmEnd. apply EmNil.
Qed.

Print Assumptions C35_print_scan.
Print Assumptions C35_header.
