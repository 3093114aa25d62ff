(** * Escaped text is read back *)
From Verif Require Import GoBase GoNum GoUtf8 GoFloat Types XmlTypes M_Xml S_Xml P_Xml.

Lemma bN_byte n : (n < 256)%N -> bN (byte n) = n.
Proof. intros H. unfold byte. apply bN_ascii_of_N, H. Qed.

(** ** Decoding a character *)
Ltac nb := repeat rewrite bN_byte by lia.
Ltac cmp := repeat match goal with
  | |- context [(?a <? ?b)%N] => (rewrite (proj2 (N.ltb_lt a b)) by lia) || (rewrite (proj2 (N.ltb_ge a b)) by lia)
  | |- context [(?a <=? ?b)%N] => (rewrite (proj2 (N.leb_le a b)) by lia) || (rewrite (proj2 (N.leb_gt a b)) by lia)
  end.
Lemma decode_char r e s : Utf8 r e -> XmlChar r -> decode_rune (e +++ s) = (r, String.length e) /\ stake (String.length e) (e +++ s) = e.
Proof.
  intros U X. split; [|apply stake_app_l]. unfold XmlChar in X.
  destruct U as [r H|a b Ha Hb|a b c Ha Hb Hc H|a b c d Ha Hb Hc Hd H]; unfold str1; cbn [String.append String.length decode_rune].
  - nb. cmp. reflexivity.
  - unfold cont. nb. cmp. cbn [andb]. f_equal. lia.
  - unfold cont, in_range. nb. cmp. destruct (N.eqb_spec (224 + a) 224) as [E|E]; destruct (N.eqb_spec (224 + a) 237) as [E'|E'];
      try lia; cmp; cbn [andb]; f_equal; lia.
  - unfold cont, in_range. nb. cmp. destruct (N.eqb_spec (240 + a) 240) as [E|E]; destruct (N.eqb_spec (240 + a) 244) as [E'|E'];
      try lia; cmp; cbn [andb]; f_equal; lia.
Qed.
Lemma utf8_nonempty r e : Utf8 r e -> e <> "".
Proof. intros [ ]; discriminate. Qed.
Lemma utf8_small r e : Utf8 r e -> (r < 128)%N -> e = str1 r.
Proof. intros [ ] H'; [reflexivity|lia..]. Qed.
Lemma utf8_big r e : Utf8 r e -> (128 <= r)%N -> forall c, In c (chars e) -> (128 <= bN c)%N.
Proof.
  intros U H c Hc. destruct U as [r H0|a b Ha Hb|a b c0 Ha Hb Hc0 H0|a b c0 d Ha Hb Hc0 Hd H0]; unfold str1 in Hc; cbn in Hc; [lia|..];
    repeat (destruct Hc as [<-|Hc]; [rewrite bN_byte by lia; lia|]); destruct Hc.
Qed.
Lemma xml_char_spec r : XmlChar r -> xml_char r = true.
Proof.
  unfold XmlChar, xml_char. intros H. rewrite !orb_true_iff, !andb_true_iff, !N.eqb_eq, !N.leb_le. lia.
Qed.
(** ** Reading references *)
Section Read.
  Variable fin : xerr.
  Lemma read_name_app s c r b : s <> "" -> sall in_name s = true -> in_name c = false ->
    read_name fin (s +++ String c r) b = RnOk (String c r) (buf_puts s b).
  Proof.
    intros Hs Ha Hc. destruct s as [|x s]; [congruence|]. cbn [String.append read_name sall buf_puts] in *.
    apply andb_true_iff in Ha as [Hx Ha]. rewrite Hx. apply read_name_loop_app; assumption.
  Qed.
  Lemma good_cur before text rest b : exists b', good_entity before text rest b = EOk rest b' /\ b_cur b' = stake before (b_cur b) +++ text.
  Proof. eexists. split; [reflexivity|]. rewrite buf_cur_write. reflexivity. Qed.
  Lemma named_ok nm r rest b : nm <> "" -> sall in_name nm = true -> (forall x q, nm = String x q -> ceq x "#" = false) -> aget seq nm entity = Some r ->
    exists b', scan_entity fin (nm +++ ";" +++ rest) b = EOk rest b' /\ b_cur b' = b_cur b +++ rune_string r.
  Proof.
    intros Hn Ha Hh He. unfold scan_entity. destruct nm as [|x q] eqn:En; [congruence|]. cbn [String.append]. rewrite (Hh x q eq_refl).
    change (String x (q +++ String ";" rest)) with (String x q +++ String ";" rest). rewrite <- En in *. clear En Hh. unfold named_ref.
    rewrite read_name_app; [|exact Hn|exact Ha|vm_compute; reflexivity].
    rewrite ceq_refl. rewrite !buf_cur_puts, !buf_cur_put.
    replace (sdrop (String.length (b_cur b) + 1) ((b_cur b +++ "&") +++ nm)) with nm.
    2:{ replace (String.length (b_cur b) + 1) with (String.length (b_cur b +++ "&")) by (rewrite slength_app; reflexivity). rewrite sdrop_app_l. reflexivity. }
    cbv zeta. unfold is_name. destruct (seq_spec nm "") as [->|_]; [congruence|]. cbn [negb]. rewrite He.
    match goal with |- context [good_entity ?x ?t ?r0 ?bb] => destruct (good_cur x t r0 bb) as (b' & -> & E) end. exists b'. split; [reflexivity|]. rewrite E.
    rewrite buf_cur_put, buf_cur_puts, buf_cur_put, !sapp_assoc, stake_app_l. reflexivity.
  Qed.
  Lemma ref_digits_app base ds c r b : sall (is_ref_digit base) ds = true -> is_ref_digit base c = false ->
    ref_digits base (ds +++ String c r) b = (String c r, buf_puts ds b).
  Proof.
    intros Hd Hc. revert b; induction ds as [|x ds IH]; intros b; cbn [String.append ref_digits buf_puts sall] in *.
    - rewrite Hc. reflexivity.
    - apply andb_true_iff in Hd as [Hx Hd]. rewrite Hx. auto.
  Qed.
  Lemma char_ref_ok before base ds r rest b : is_ref_digit base ";" = false -> sall (is_ref_digit base) ds = true -> parse_base base ds = Some r ->
    (r <= max_rune)%N -> before <= String.length (b_cur b) ->
    exists b', char_ref fin before base (ds +++ String ";" rest) b = EOk rest b' /\ b_cur b' = stake before (b_cur b) +++ rune_string r.
  Proof.
    intros H1 H2 H3 H4 H5. unfold char_ref. rewrite ref_digits_app by assumption. rewrite ceq_refl, buf_cur_puts, sdrop_app_l. cbv zeta.
    rewrite H3. rewrite (proj2 (N.leb_le _ _) H4).
    match goal with |- context [good_entity ?x ?t ?r0 ?bb] => destruct (good_cur x t r0 bb) as (b' & -> & E) end. exists b'. split; [reflexivity|]. rewrite E.
    rewrite buf_cur_put, buf_cur_puts, sapp_assoc. f_equal. clear -H5.
    revert before H5; induction (b_cur b) as [|x s IH]; intros [|n] H; cbn in *; try reflexivity; [lia|]. rewrite IH by lia. reflexivity.
  Qed.
  Lemma dec_ok ds r rest b : ds <> "" -> (forall x q, ds = String x q -> ceq x "x" = false) ->
    sall (is_ref_digit 10) ds = true -> parse_base 10 ds = Some r -> (r <= max_rune)%N ->
    exists b', scan_entity fin ("#" +++ ds +++ String ";" rest) b = EOk rest b' /\ b_cur b' = b_cur b +++ rune_string r.
  Proof.
    intros Hn Hx H2 H3 H4. unfold scan_entity. cbn [String.append]. rewrite ceq_refl. destruct ds as [|x q] eqn:Ed; [congruence|]. cbn [String.append].
    rewrite (Hx x q eq_refl). change (String x (q +++ String ";" rest)) with (String x q +++ String ";" rest). rewrite <- Ed in *.
    edestruct char_ref_ok as (b' & E1 & E2); [| exact H2|exact H3|exact H4| |rewrite E1; exists b'; split; [reflexivity|]; rewrite E2].
    - reflexivity.
    - rewrite !buf_cur_put, !slength_app. lia.
    - rewrite !buf_cur_put, !sapp_assoc, stake_app_l. reflexivity.
  Qed.
  Lemma hex_ok ds r rest b : 
    sall (is_ref_digit 16) ds = true -> parse_base 16 ds = Some r -> (r <= max_rune)%N ->
    exists b', scan_entity fin ("#x" +++ ds +++ String ";" rest) b = EOk rest b' /\ b_cur b' = b_cur b +++ rune_string r.
  Proof.
    intros H2 H3 H4. unfold scan_entity. cbn [String.append]. rewrite !ceq_refl.
    destruct (ds +++ String ";" rest) as [|y z] eqn:Ez; [destruct ds; discriminate|]. rewrite <- Ez.
    edestruct char_ref_ok as (b' & E1 & E2); [| exact H2|exact H3|exact H4| |rewrite E1; exists b'; split; [reflexivity|]; rewrite E2].
    - reflexivity.
    - rewrite !buf_cur_put, !slength_app. lia.
    - rewrite !buf_cur_put, !sapp_assoc, stake_app_l. reflexivity.
  Qed.

  (** ** Scanning plain bytes and references *)
  Variable quote : option ascii.
  Hypothesis Hq : quote = None \/ quote = Some """"%char \/ quote = Some "'"%char.
  Definition plain (c : ascii) : bool := negb (ceq c "<" || ceq c "&" || ceq c (byte 13) || ceq c """" || ceq c "'").
  Definition notcr (c : ascii) : Prop := ceq c (byte 13) = false.
  Lemma text_plain e rest fuel b1 b : sall plain e = true -> notcr b1 -> String.length (e +++ rest) < fuel ->
    exists fuel' b1', text_loop fin fuel quote b1 (e +++ rest) b = text_loop fin fuel' quote b1' rest (buf_puts e b) /\
      notcr b1' /\ String.length rest < fuel'.
  Proof.
    revert b1 b fuel; induction e as [|c e IH]; intros b1 b fuel Hp H1 HL; cbn [String.append buf_puts] in *; [eauto|].
    destruct fuel as [|f]; [lia|]. cbn [sall] in Hp. apply andb_true_iff in Hp as [Hc Hp]. cbn [String.length] in HL.
    unfold plain in Hc. apply negb_true_iff in Hc. rewrite !orb_false_iff in Hc. destruct Hc as ((((C1 & C2) & C3) & C4) & C5).
    cbn [text_loop]. rewrite C1, C2, C3. replace (match quote with Some q => ceq c q | None => false end) with false by (destruct Hq as [->|[->| ->]]; auto).
    unfold notcr in H1. rewrite H1. cbn [andb]. apply IH; [exact Hp|exact C3|lia].
  Qed.
  Lemma text_ent ref txt rest fuel b1 b : ref <> "" ->
    (forall rest b, exists b', scan_entity fin (ref +++ rest) b = EOk rest b' /\ b_cur b' = b_cur b +++ txt) ->
    String.length ("&" +++ ref +++ rest) < fuel ->
    exists fuel' b1' b', text_loop fin fuel quote b1 ("&" +++ ref +++ rest) b = text_loop fin fuel' quote b1' rest b' /\
      notcr b1' /\ String.length rest < fuel' /\ b_cur b' = b_cur b +++ txt.
  Proof.
    intros Hr He HL. destruct fuel as [|f]; [lia|]. cbn [String.append String.length] in *. rewrite slength_app in HL.
    destruct (He rest b) as (b' & E1 & E2).
    cbn [text_loop]. change (ceq "&" "<") with false. change (ceq "&" "&") with true. cbv iota.
    replace (match quote with Some q => ceq "&" q | None => false end) with false by (destruct Hq as [->|[->| ->]]; reflexivity).
    rewrite E1. exists f, (byte 0), b'. sp; [reflexivity|vm_compute; reflexivity|lia|exact E2].
  Qed.
  Lemma esc_read r e rest fuel b1 b : XmlChar r -> Utf8 r e -> notcr b1 ->
    String.length (esc_rune r (String.length e) e +++ rest) < fuel ->
    exists fuel' b1' b', text_loop fin fuel quote b1 (esc_rune r (String.length e) e +++ rest) b = text_loop fin fuel' quote b1' rest b' /\
      notcr b1' /\ String.length rest < fuel' /\ b_cur b' = b_cur b +++ e.
  Proof.
    intros X U H1. unfold esc_rune.
    assert (NM : forall nm v, nm <> "" -> sall in_name nm = true -> (forall x q, nm = String x q -> ceq x "#" = false) ->
      aget seq nm entity = Some v -> r = v -> (v < 128)%N -> String.length (("&" +++ nm +++ ";") +++ rest) < fuel ->
      exists fuel' b1' b', text_loop fin fuel quote b1 (("&" +++ nm +++ ";") +++ rest) b = text_loop fin fuel' quote b1' rest b' /\
      notcr b1' /\ String.length rest < fuel' /\ b_cur b' = b_cur b +++ e).
    { intros nm v N1 N2 N3 N4 -> Hv HL. rewrite sapp_assoc in *. apply text_ent; [destruct nm; discriminate| |exact HL].
      intros rest0 b0. rewrite sapp_assoc. destruct (named_ok nm v rest0 b0 N1 N2 N3 N4) as (b' & E1 & E2). exists b'. split; [exact E1|].
      rewrite E2. rewrite (utf8_small _ _ U Hv). f_equal. unfold rune_string, is_surrogate, utf8_raw, max_rune. cmp. reflexivity. }
    assert (DC : forall ds v, ds <> "" -> (forall x q, ds = String x q -> ceq x "x" = false) -> sall (is_ref_digit 10) ds = true -> parse_base 10 ds = Some v -> r = v -> (v < 128)%N ->
      String.length (("&" +++ "#" +++ ds +++ ";") +++ rest) < fuel ->
      exists fuel' b1' b', text_loop fin fuel quote b1 (("&" +++ "#" +++ ds +++ ";") +++ rest) b = text_loop fin fuel' quote b1' rest b' /\
      notcr b1' /\ String.length rest < fuel' /\ b_cur b' = b_cur b +++ e).
    { intros ds v N1 N2 N3 N4 -> Hv HL. rewrite sapp_assoc in *. apply text_ent; [discriminate| |exact HL].
      intros rest0 b0. rewrite !sapp_assoc. destruct (dec_ok ds v rest0 b0 N1 N2 N3 N4 ltac:(unfold max_rune; lia)) as (b' & E1 & E2). exists b'. split; [exact E1|].
      rewrite E2. rewrite (utf8_small _ _ U Hv). f_equal. unfold rune_string, is_surrogate, utf8_raw, max_rune. cmp. reflexivity. }
    assert (HX : forall ds v, sall (is_ref_digit 16) ds = true -> parse_base 16 ds = Some v -> r = v -> (v < 128)%N ->
      String.length (("&" +++ "#x" +++ ds +++ ";") +++ rest) < fuel ->
      exists fuel' b1' b', text_loop fin fuel quote b1 (("&" +++ "#x" +++ ds +++ ";") +++ rest) b = text_loop fin fuel' quote b1' rest b' /\
      notcr b1' /\ String.length rest < fuel' /\ b_cur b' = b_cur b +++ e).
    { intros ds v N3 N4 -> Hv HL. rewrite sapp_assoc in *. apply text_ent; [discriminate| |exact HL].
      intros rest0 b0. rewrite !sapp_assoc. destruct (hex_ok ds v rest0 b0 N3 N4 ltac:(unfold max_rune; lia)) as (b' & E1 & E2). exists b'. split; [exact E1|].
      rewrite E2. rewrite (utf8_small _ _ U Hv). f_equal. unfold rune_string, is_surrogate, utf8_raw, max_rune. cmp. reflexivity. }
    destruct (N.eqb_spec r 34) as [E|R1]; [apply (DC "34" 34%N); try exact E; try reflexivity; try discriminate; intros x q Eq; injection Eq as <- <-; reflexivity|].
    destruct (N.eqb_spec r 39) as [E|R2]; [apply (DC "39" 39%N); try exact E; try reflexivity; try discriminate; intros x q Eq; injection Eq as <- <-; reflexivity|].
    destruct (N.eqb_spec r 38) as [E|R3]; [apply (NM "amp" 38%N); try exact E; try reflexivity; try discriminate; intros x q Eq; injection Eq as <- <-; reflexivity|].
    destruct (N.eqb_spec r 60) as [E|R4]; [apply (NM "lt" 60%N); try exact E; try reflexivity; try discriminate; intros x q Eq; injection Eq as <- <-; reflexivity|].
    destruct (N.eqb_spec r 62) as [E|R5]; [apply (NM "gt" 62%N); try exact E; try reflexivity; try discriminate; intros x q Eq; injection Eq as <- <-; reflexivity|].
    destruct (N.eqb_spec r 9) as [E|R6]; [apply (HX "9" 9%N); try exact E; reflexivity|].
    destruct (N.eqb_spec r 10) as [E|R7]; [apply (HX "A" 10%N); try exact E; reflexivity|].
    destruct (N.eqb_spec r 13) as [E|R8]; [apply (HX "D" 13%N); try exact E; reflexivity|].
    rewrite (xml_char_spec r X). cbn [negb orb]. replace ((r =? rune_error)%N && Nat.eqb (String.length e) 1) with false.
    2:{ symmetry. apply andb_false_iff. destruct (N.eqb_spec r rune_error) as [E|_]; [right|left; reflexivity].
        unfold rune_error in E. clear -U E. destruct U as [r H|a b Ha Hb|a b c Ha Hb Hc H|a b c d Ha Hb Hc Hd H]; [lia|lia|reflexivity|lia]. }
    intros HL. destruct (text_plain e rest fuel b1 b) as (f' & b1' & E & H2 & H3); [|exact H1|exact HL|].
    2:{ exists f', b1', (buf_puts e b). sp; [exact E|exact H2|exact H3|apply buf_cur_puts]. }
    apply sall_forall. intros c Hc. unfold plain. apply negb_true_iff. rewrite !orb_false_iff.
    assert (K : forall x, bN c <> bN x -> ceq c x = false).
    { intros x Hx. destruct (ceq c x) eqn:Ec; [|reflexivity]. apply ceq_true in Ec. subst. congruence. }
    destruct (N.ltb_spec r 128) as [L|L].
    - rewrite (utf8_small _ _ U L) in Hc. cbn in Hc. destruct Hc as [<-|[]]. sp; apply K; rewrite bN_byte by lia;
        match goal with |- r <> bN ?x => let v := eval vm_compute in (bN x) in change (bN x) with v end; assumption.
    - pose proof (utf8_big _ _ U L c Hc) as B. sp; apply K;
        match goal with |- _ <> bN ?x => let v := eval vm_compute in (bN x) in change (bN x) with v end; lia.
  Qed.
  Lemma escape_read s : XmlText s -> forall efuel rest fuel b1 b, String.length s <= efuel -> notcr b1 ->
    String.length (escape_loop efuel s +++ rest) < fuel ->
    exists fuel' b1' b', text_loop fin fuel quote b1 (escape_loop efuel s +++ rest) b = text_loop fin fuel' quote b1' rest b' /\
      notcr b1' /\ String.length rest < fuel' /\ b_cur b' = b_cur b +++ s.
  Proof.
    intros T. induction T as [|r e s X U T IH]; intros ef rest fuel b1 b L H1 HL.
    - exists fuel, b1, b. replace (escape_loop ef "") with "" in * by (destruct ef; reflexivity). cbn [String.append] in *. rewrite sapp_nil_r. auto.
    - destruct (decode_char r e s U X) as [D S]. rewrite slength_app in L. pose proof (utf8_nonempty _ _ U) as N.
      assert (EF : exists ef', String.length s <= ef' /\ escape_loop ef (e +++ s) = esc_rune r (String.length e) e +++ escape_loop ef' s).
      { destruct e as [|c e]; [congruence|]. cbn [String.length] in L. destruct ef as [|f]; [lia|]. exists f. split; [lia|].
        remember (String c e) as e0. assert (Hl : e0 +++ s = String c (e +++ s)) by (subst; reflexivity). 
        rewrite Hl at 1. cbn [escape_loop]. rewrite <- Hl, D, S, sdrop_app_l. reflexivity. }
      destruct EF as (ef' & L' & EF). rewrite EF in *. rewrite sapp_assoc in *.
      destruct (esc_read r e (escape_loop ef' s +++ rest) fuel b1 b X U H1 HL) as (f1 & b2 & b3 & E1 & H2 & H3 & E2).
      destruct (IH ef' rest f1 b2 b3 L' H2 H3) as (f4 & b4 & b5 & E4 & H4 & H5 & E5).
      exists f4, b4, b5. sp; [congruence|exact H4|exact H5|]. rewrite E5, E2, sapp_assoc. reflexivity.
  Qed.
End Read.
Lemma text_cont s rest fuel b1 b fin : XmlText s -> notcr b1 -> String.length (escape_text s +++ String "<" rest) < fuel ->
  exists b', text_loop fin fuel None b1 (escape_text s +++ String "<" rest) b = TOk (String "<" rest) None b' /\ b_cur b' = b_cur b +++ s.
Proof.
  intros T H HL. destruct (escape_read fin None ltac:(auto) s T (String.length s) (String "<" rest) fuel b1 b (le_n _) H HL) as (f & b2 & b3 & E & H2 & H3 & E2).
  exists b3. split; [|exact E2]. unfold escape_text. rewrite E. destruct f as [|f]; [lia|]. reflexivity.
Qed.
Lemma attrval_escape fin s rest b : XmlText s ->
  exists b', attrval fin (String """" (escape_text s +++ String """" rest)) b = TOk rest None b' /\ b_cur b' = s.
Proof.
  intros T. unfold attrval. change (ceq """" """") with true. cbn [orb]. unfold text, escape_text.
  destruct (escape_read fin (Some """"%char) ltac:(auto) s T (String.length s) (String """" rest)
    (Datatypes.S (String.length (escape_loop (String.length s) s +++ String """" rest))) (byte 0) (buf_reset b) (le_n _) ltac:(vm_compute; reflexivity) ltac:(lia))
    as (f & b2 & b3 & E & H2 & H3 & E2).
  exists b3. split; [|exact E2]. rewrite E. destruct f as [|f]; [lia|]. cbn [text_loop]. change (ceq """" "<") with false. change (ceq """" """") with true. reflexivity.
Qed.
Lemma text_escape fin s rest b : XmlText s ->
  exists b', text fin None (escape_text s +++ String "<" rest) b = TOk (String "<" rest) None b' /\ b_cur b' = s.
Proof.
  intros T. unfold text. destruct (text_cont s rest (Datatypes.S (String.length (escape_text s +++ String "<" rest))) (byte 0) (buf_reset b) fin T ltac:(vm_compute; reflexivity) ltac:(lia)) as (b' & E & C).
  exists b'. rewrite E. auto.
Qed.
