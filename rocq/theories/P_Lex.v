(** * Reading text and tags as they are written *)
From Verif Require Import GoBase GoNum GoUtf8 GoFloat Types XmlTypes M_Xml S_Xml S_Lex P_Xml P_Xml2 P_Esc.

Lemma utf8_raw_spec r e : Utf8 r e -> utf8_raw r = e.
Proof.
  intros U. unfold utf8_raw. destruct U as [r H|a b Ha Hb|a b c Ha Hb Hc H|a b c d Ha Hb Hc Hd H].
  - cmp. reflexivity.
  - cmp. rewrite <- (N.div_unique (64 * a + b) 64 a b) by lia. rewrite <- (N.mod_unique (64 * a + b) 64 a b) by lia. reflexivity.
  - assert (E : (4096 * a + 64 * b + c = 64 * (64 * a + b) + c)%N) by lia.
    cmp. rewrite <- (N.div_unique (4096 * a + 64 * b + c) 4096 a (64 * b + c)) by lia.
    rewrite <- (N.div_unique (4096 * a + 64 * b + c) 64 (64 * a + b) c) by lia. rewrite <- (N.mod_unique (4096 * a + 64 * b + c) 64 (64 * a + b) c) by lia.
    rewrite <- (N.mod_unique (64 * a + b) 64 a b) by lia. reflexivity.
  - cmp. rewrite <- (N.div_unique (262144 * a + 4096 * b + 64 * c + d) 262144 a (4096 * b + 64 * c + d)) by lia.
    rewrite <- (N.div_unique (262144 * a + 4096 * b + 64 * c + d) 4096 (64 * a + b) (64 * c + d)) by lia.
    rewrite <- (N.mod_unique (64 * a + b) 64 a b) by lia.
    rewrite <- (N.div_unique (262144 * a + 4096 * b + 64 * c + d) 64 (4096 * a + 64 * b + c) d) by lia.
    rewrite <- (N.mod_unique (4096 * a + 64 * b + c) 64 (64 * a + b) c) by lia.
    rewrite <- (N.mod_unique (262144 * a + 4096 * b + 64 * c + d) 64 (4096 * a + 64 * b + c) d) by lia. reflexivity.
Qed.
Lemma rune_string_spec r e : XmlChar r -> Utf8 r e -> rune_string r = e.
Proof.
  intros X U. rewrite <- (utf8_raw_spec r e U). unfold rune_string, is_surrogate, max_rune. unfold XmlChar in X.
  replace (_ || _) with false; [reflexivity|]. symmetry. rewrite orb_false_iff, andb_false_iff, N.leb_gt, N.leb_gt, N.ltb_ge. lia.
Qed.
Lemma digit_val c d : DigitVal c d -> hexval c = Some d.
Proof.
  intros H. rewrite <- (N2Nat.id d). unfold DigitVal in H. generalize dependent (N.to_nat d). intros n H.
  destruct H as [H|H]; do 16 (destruct n as [|n]; [injection H as <-; vm_compute; reflexivity|]); destruct n; discriminate H.
Qed.
Lemma parse_snoc base s : forall acc c, parse_base_aux base acc (s +++ String c "") =
  match parse_base_aux base acc s with Some n => parse_base_aux base n (String c "") | None => None end.
Proof.
  induction s as [|x s IH]; intros acc c; [reflexivity|]. cbn [String.append parse_base_aux] in *. destruct (hexval x) as [d|]; [|reflexivity].
  destruct (d <? base)%N; [|reflexivity]. destruct (max_uint64 <? acc * base + d)%N; [reflexivity|]. apply IH.
Qed.
Lemma numeral_parse base s n : (0 < base)%N -> Numeral base s n -> (n <= max_uint64)%N ->
  parse_base_aux base 0 s = Some n /\ s <> "" /\ sall (is_ref_digit base) s = true.
Proof.
  intros HB. induction 1 as [c d L D|s n c d H IH L D]; intros M.
  - apply digit_val in D. cbn [parse_base_aux sall]. unfold is_ref_digit. rewrite D. rewrite (proj2 (N.ltb_lt _ _) L).
    rewrite N.mul_0_l, N.add_0_l. rewrite (proj2 (N.ltb_ge _ _) M). sp; [reflexivity|discriminate|reflexivity].
  - apply digit_val in D. destruct IH as (E & N & A); [nia|]. sp.
    + rewrite parse_snoc, E. cbn [parse_base_aux]. rewrite D, (proj2 (N.ltb_lt _ _) L), (proj2 (N.ltb_ge _ _) M). reflexivity.
    + destruct s; discriminate.
    + rewrite sall_app, A. cbn [sall]. unfold is_ref_digit. rewrite D, (proj2 (N.ltb_lt _ _) L). reflexivity.
Qed.
Lemma numeral_base base s n : (0 < base)%N -> Numeral base s n -> XmlChar n ->
  parse_base base s = Some n /\ s <> "" /\ sall (is_ref_digit base) s = true /\ (n <= max_rune)%N.
Proof.
  intros HB H X. assert (M : (n <= 1114111)%N) by (unfold XmlChar in X; lia).
  destruct (numeral_parse base s n HB H) as (E & N & A); [unfold max_uint64; lia|]. sp; [|exact N|exact A|exact M].
  unfold parse_base. destruct s; [congruence|exact E].
Qed.
(** ** Texts *)
Section Text.
  Variables (fin : xerr) (q : option ascii).
  Hypothesis Hq : q = None \/ q = Some """"%char \/ q = Some "'"%char.
  Lemma quote_amp : (match q with Some x => ceq "&" x | None => false end) = false.
  Proof. destruct Hq as [->|[->| ->]]; reflexivity. Qed.
  Lemma ref_step ref v : (forall rest b, exists b', scan_entity fin (ref +++ rest) b = EOk rest b' /\ b_cur b' = b_cur b +++ v) ->
    forall f b1 rest b, exists b', text_loop fin (S f) q b1 ("&" +++ ref +++ rest) b = text_loop fin f q (byte 0) rest b' /\ b_cur b' = b_cur b +++ v.
  Proof.
    intros H f b1 rest b. destruct (H rest b) as (b' & E & C). exists b'. split; [|exact C]. cbn [String.append text_loop].
    change (ceq "&" "<") with false. change (ceq "&" "&") with true. rewrite quote_amp, E. reflexivity.
  Qed.
  Lemma text_means a s t : TextMeans q a s t -> forall rest fuel b1 b, (if a then b1 = cr else b1 <> cr) ->
    String.length (s +++ rest) < fuel ->
    exists fuel' b1' b', text_loop fin fuel q b1 (s +++ rest) b = text_loop fin fuel' q b1' rest b' /\ String.length rest < fuel' /\ b_cur b' = b_cur b +++ t.
  Proof.
    induction 1 as [a|a c s t N Q A H IH|a s t H IH|s t H IH|a nm v s t N H IH|a ds r e s t N X U H IH|a ds r e s t N X U H IH]; intros rest fuel b1 b HB HL.
    - exists fuel, b1, b. rewrite sapp_nil_r. auto.
    - destruct fuel as [|f]; [lia|]. cbn [String.append String.length] in *.
      assert (K : forall x, c <> x -> ceq c x = false) by (intros x; apply ceq_false).
      destruct (IH rest f c (buf_put c b)) as (f' & b1' & b' & E & L & C); [intros ->; apply N; cbn; auto|lia|].
      exists f', b1', b'. sp; [|exact L|rewrite C, buf_cur_put, sapp_assoc; reflexivity]. rewrite <- E. cbn [text_loop].
      change (ceq c (byte 13)) with (ceq c cr). rewrite !K by (intros ->; apply N; cbn; auto).
      replace (match q with Some x => ceq c x | None => false end) with false by (destruct q as [x|]; [symmetry; apply K; congruence|reflexivity]).
      replace (ceq b1 (byte 13) && ceq c (byte 10)) with false; [reflexivity|]. symmetry. apply andb_false_iff. destruct a; [right; apply K; auto|left; apply ceq_false, HB].
    - destruct fuel as [|f]; [lia|]. cbn [String.append String.length] in *.
      destruct (IH rest f cr (buf_put lf b)) as (f' & b1' & b' & E & L & C); [reflexivity|lia|].
      exists f', b1', b'. sp; [|exact L|rewrite C, buf_cur_put, sapp_assoc; reflexivity]. rewrite <- E. cbn [text_loop].
      replace (match q with Some x => ceq cr x | None => false end) with false by (destruct Hq as [->|[->| ->]]; reflexivity). reflexivity.
    - destruct fuel as [|f]; [lia|]. cbn [String.append String.length] in *.
      destruct (IH rest f lf b) as (f' & b1' & b' & E & L & C); [discriminate|lia|].
      exists f', b1', b'. sp; [|exact L|exact C]. rewrite <- E. cbn [text_loop]. rewrite HB.
      replace (match q with Some x => ceq lf x | None => false end) with false by (destruct Hq as [->|[->| ->]]; reflexivity). reflexivity.
    - destruct fuel as [|f]; [lia|]. rewrite !sapp_assoc in *. 
      destruct (ref_step (nm +++ ";") v) with (f := f) (b1 := b1) (rest := s +++ rest) (b := b) as (b2 & E2 & C2).
      { intros rest' b'. rewrite sapp_assoc. 
        destruct N as [[= <- <-]|[[= <- <-]|[[= <- <-]|[[= <- <-]|[[= <- <-]|[]]]]]];
          [apply (named_ok fin "lt" 60%N)|apply (named_ok fin "gt" 62%N)|apply (named_ok fin "amp" 38%N)|apply (named_ok fin "apos" 39%N)|apply (named_ok fin "quot" 34%N)];
          solve [discriminate|vm_compute; reflexivity|intros x y [= <- <-]; reflexivity|reflexivity]. }
      rewrite sapp_assoc in E2. destruct (IH rest f (byte 0) b2) as (f' & b1' & b' & E & L & C); [discriminate|rewrite !slength_app in *; cbn [String.length] in *; lia|].
      exists f', b1', b'. sp; [rewrite E2; exact E|exact L|rewrite C, C2, sapp_assoc; reflexivity].
    - destruct fuel as [|f]; [lia|]. rewrite !sapp_assoc in *. destruct (numeral_base 10 ds r ltac:(lia) N X) as (P1 & P2 & P3 & P4).
      destruct (ref_step ("#" +++ ds +++ ";") e) with (f := f) (b1 := b1) (rest := s +++ rest) (b := b) as (b2 & E2 & C2).
      { intros rest' b'. rewrite !sapp_assoc. rewrite <- (rune_string_spec r e X U). apply dec_ok; try assumption.
        intros x y ->. cbn [sall] in P3. apply andb_true_iff in P3 as [P3 _]. apply ceq_false. intros ->. discriminate. }
      rewrite !sapp_assoc in E2. destruct (IH rest f (byte 0) b2) as (f' & b1' & b' & E & L & C); [discriminate|rewrite !slength_app in *; cbn [String.length] in *; lia|].
      exists f', b1', b'. sp; [rewrite <- E, <- E2; reflexivity|exact L|rewrite C, C2, sapp_assoc; reflexivity].
    - destruct fuel as [|f]; [lia|]. rewrite !sapp_assoc in *. destruct (numeral_base 16 ds r ltac:(lia) N X) as (P1 & P2 & P3 & P4).
      destruct (ref_step ("#x" +++ ds +++ ";") e) with (f := f) (b1 := b1) (rest := s +++ rest) (b := b) as (b2 & E2 & C2).
      { intros rest' b'. rewrite !sapp_assoc. rewrite <- (rune_string_spec r e X U). apply hex_ok; assumption. }
      rewrite !sapp_assoc in E2. destruct (IH rest f (byte 0) b2) as (f' & b1' & b' & E & L & C); [discriminate|rewrite !slength_app in *; cbn [String.length] in *; lia|].
      exists f', b1', b'. sp; [rewrite <- E, <- E2; reflexivity|exact L|rewrite C, C2, sapp_assoc; reflexivity].
  Qed.
End Text.
Lemma blank_space w r : Blank w -> space (w +++ r) = space r.
Proof.
  induction w as [|c w IH]; intros H; [reflexivity|]. cbn [String.append space]. assert (Hc : In c [" "%char; byte 9; lf; cr]) by (apply H; left; reflexivity).
  replace (is_space c) with true; [apply IH; intros x Hx; apply H; right; exact Hx|]. repeat (destruct Hc as [<-|Hc]; [reflexivity|]). destruct Hc.
Qed.
Lemma blank_name c : In c [" "%char; byte 9; lf; cr] -> in_name c = false.
Proof. intros Hc. repeat (destruct Hc as [<-|Hc]; [vm_compute; reflexivity|]). destruct Hc. Qed.
Lemma name_means nm n : NameMeans nm n -> nm <> "" /\ sall in_name nm = true /\ ns_name nm = n.
Proof.
  assert (K : forall s, (forall c, In c (chars s) -> NameByte c /\ c <> ":"%char) -> sall in_name s = true /\ split_at ":" s = None).
  { intros s H. split; [apply sall_forall; intros c Hc; apply in_name_spec, H, Hc|]. apply split_at_none. intros Hc. destruct (H _ Hc). congruence. }
  intros [s H1 H2|p l H1 H2].
  - destruct (K s H2) as [A B]. sp; [exact H1|exact A|]. unfold ns_name. rewrite B. reflexivity.
  - destruct (K p H1) as [A B]. sp.
    + destruct p; discriminate.
    + rewrite !sall_app, A. cbn [sall andb]. change (in_name ":") with true. apply sall_forall. intros c Hc. apply in_name_spec, H2, Hc.
    + unfold ns_name. rewrite (proj2 (split_at_some ":" (p +++ ":" +++ l) p l)); [reflexivity|]. split; [reflexivity|]. apply split_at_none, B.
Qed.
Lemma head_not nm r x : nm <> "" -> sall in_name nm = true -> in_name x = false -> exists c q, nm +++ r = String c q /\ ceq c x = false /\ is_space c = false.
Proof.
  intros Hn Ha Hx. destruct nm as [|c nm]; [congruence|]. cbn [String.append sall] in *. apply andb_true_iff in Ha as [Ha _].
  exists c. eexists. sp; [reflexivity|apply ceq_false; intros ->; congruence|].
  destruct (is_space c) eqn:E; [|reflexivity]. unfold is_space in E. rewrite !orb_true_iff in E.
  assert (In c [" "%char; byte 9; lf; cr]) as Hb; [|apply blank_name in Hb; congruence].
  destruct E as [[[E|E]|E]|E]; apply ceq_true in E; subst c; cbn; auto.
Qed.
Section Tags.
  Variable fin : xerr.
  Lemma attrval_means q rv v rest b : In q [""""%char; "'"%char] -> TextMeans (Some q) false rv v ->
    exists b', attrval fin (String q (rv +++ String q rest)) b = TOk rest None b' /\ b_cur b' = v.
  Proof.
    intros Hq HT. unfold attrval. replace (ceq q """" || ceq q "'") with true by (destruct Hq as [<-|[<-|[]]]; reflexivity). unfold text.
    destruct (text_means fin (Some q) ltac:(destruct Hq as [<-|[<-|[]]]; auto) false rv v HT (String q rest) (S (String.length (rv +++ String q rest))) (byte 0) (buf_reset b)) as (f & b1 & b' & E & L & C);
      [discriminate|lia|]. rewrite E. destruct f as [|f]; [lia|]. exists b'. split; [|exact C]. cbn [text_loop].
    replace (ceq q "<") with false by (destruct Hq as [<-|[<-|[]]]; reflexivity). rewrite ceq_refl. reflexivity.
  Qed.
  Definition tag_close (empty : bool) (rest : string) : string := (if empty then "/" else "") +++ String ">" rest.
  Lemma tag_close_space empty rest : space (tag_close empty rest) = tag_close empty rest.
  Proof. destruct empty; reflexivity. Qed.
  Lemma attrs_mean s l : AttrsMean s l -> forall empty rest fuel acc names b, String.length (s +++ tag_close empty rest) < fuel -> NamesOk names ->
    exists names' b', attrs_loop fin true fuel acc (s +++ tag_close empty rest) names b = AOk (rev acc ++ l) empty rest names' b' /\ NamesOk names'.
  Proof.
    induction 1 as [w HW|w1 nm n w2 w3 q rv v s l W1 HN W2 W3 Q HT HA IH]; intros empty rest fuel acc names b HL HNm; (destruct fuel as [|f]; [lia|]).
    - exists names, b. split; [|exact HNm]. cbn [attrs_loop]. rewrite blank_space, tag_close_space by exact HW. rewrite app_nil_r. destruct empty; reflexivity.
    - assert (ES : (w1 +++ nm +++ w2 +++ "=" +++ w3 +++ String q (rv +++ String q s)) +++ tag_close empty rest =
        w1 +++ nm +++ (w2 +++ "=" +++ w3 +++ String q (rv +++ String q (s +++ tag_close empty rest)))) by (rewrite !sapp_assoc; cbn [String.append]; rewrite sapp_assoc; reflexivity).
      rewrite ES in *. set (r1 := w2 +++ "=" +++ w3 +++ String q (rv +++ String q (s +++ tag_close empty rest))) in *.
      cbn [attrs_loop]. rewrite blank_space by exact W1. destruct (name_means nm n HN) as (N1 & N2 & N3).
      destruct (head_not nm r1 "/" N1 N2 ltac:(vm_compute; reflexivity)) as (c & t & E1 & C1 & S1).
      destruct (head_not nm r1 ">" N1 N2 ltac:(vm_compute; reflexivity)) as (c' & t' & E2 & C2 & _).
      rewrite E1 in E2. injection E2 as <- <-. replace (space (nm +++ r1)) with (String c t) by (rewrite E1; cbn [space]; rewrite S1; reflexivity).
      rewrite C1, C2, <- E1. clear E1.
      assert (R1 : exists x y, r1 = String x y /\ in_name x = false).
      { unfold r1. destruct w2 as [|x w2]; [eexists _, _; split; [reflexivity|vm_compute; reflexivity]|]. eexists _, _. split; [reflexivity|]. apply blank_name, W2. left. reflexivity. }
      destruct R1 as (x & y & R1 & X1). destruct (name_app fin true nm x y names b HNm N1 N2 X1) as (names' & EN & HN'). rewrite R1, EN, <- R1. unfold r1 at 1.
      rewrite blank_space by exact W2. cbn [String.append]. cbn [space]. change (is_space "=") with false. cbv iota. rewrite ceq_refl. rewrite blank_space by exact W3.
      replace (space (String q (rv +++ String q (s +++ tag_close empty rest)))) with (String q (rv +++ String q (s +++ tag_close empty rest)))
        by (destruct Q as [<-|[<-|[]]]; reflexivity).
      destruct (attrval_means q rv v (s +++ tag_close empty rest) (buf_puts nm (buf_reset b)) Q HT) as (b' & EA & EB). rewrite EA, EB, N3.
      destruct (IH empty rest f (mkAttr n v :: acc) names' b') as (names2 & b2 & EI & HN2); [|exact HN'|].
      + unfold r1 in HL. do 5 (rewrite ?slength_app in HL; cbn [String.length] in HL).
        rewrite slength_app. lia.
      + exists names2, b2. split; [|exact HN2]. rewrite EI. cbn [rev]. rewrite <- app_assoc. reflexivity.
  Qed.
End Tags.
