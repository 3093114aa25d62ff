(** * Lexical properties of the XML scanner *)
From Verif Require Import GoBase GoNum GoUtf8 GoFloat Types XmlTypes M_Xml S_Xml.

Lemma in_name_spec c : in_name c = true <-> NameByte c.
Proof.
  set (names := "ABCDEFGHIJKLMNOPQRSTUVWXYZabcdefghijklmnopqrstuvwxyz0123456789_:.-").
  pose (p := fun c => Bool.eqb (in_name c) ((128 <=? bN c)%N || existsb (ceq c) (chars names))).
  assert (H : p c = true) by (apply byte_sweep; vm_compute; reflexivity).
  unfold p in H. apply Bool.eqb_prop in H. rewrite H. unfold NameByte. rewrite orb_true_iff, N.leb_le. fold names.
  apply or_iff_compat_l. rewrite existsb_exists. split.
  - intros (x & Hx & E). apply ceq_true in E. subst. exact Hx.
  - intros Hx. exists c. split; [exact Hx|apply ceq_refl].
Qed.
Lemma in_name_false c : in_name c = false <-> ~ NameByte c.
Proof. rewrite <- in_name_spec. destruct (in_name c); split; congruence. Qed.

Ltac sp := repeat match goal with |- _ /\ _ => split end.
(** ** The buffer *)
Fixpoint buf_puts (s : string) (b : Buf) : Buf :=
  match s with EmptyString => b | String c r => buf_puts r (buf_put c b) end.
Lemma buf_cur_puts s b : b_cur (buf_puts s b) = b_cur b +++ s.
Proof.
  revert b; induction s as [|c s IH]; intros b; cbn [buf_puts]; [rewrite sapp_nil_r; reflexivity|].
  rewrite IH, buf_cur_put, sapp_assoc. reflexivity.
Qed.

(** ** Names *)
Section Names.
  Variable fin : xerr.
  Lemma read_name_loop_spec rest b :
    match read_name_loop fin rest b with
    | RnOk rest' b' => exists s, rest = s +++ rest' /\ sall in_name s = true /\
        (exists c r, rest' = String c r /\ in_name c = false) /\ b' = buf_puts s b
    | RnNo _ _ => False
    | RnErr e b' => e = must_not_eof fin /\ sall in_name rest = true /\ b' = buf_puts rest b
    end.
  Proof.
    revert b; induction rest as [|c r IH]; intros b; cbn [read_name_loop sall buf_puts]; [auto|].
    destruct (in_name c) eqn:E.
    - specialize (IH (buf_put c b)). destruct (read_name_loop fin r (buf_put c b)) as [rest' b'| |e b'].
      + destruct IH as (s & -> & H1 & H2 & ->). exists (String c s). cbn [sall String.append buf_puts]. rewrite E. auto.
      + destruct IH.
      + cbn [andb]. exact IH.
    - exists "". sp; try reflexivity. exists c, r. auto.
  Qed.
  Lemma read_name_loop_app s c r b : sall in_name s = true -> in_name c = false ->
    read_name_loop fin (s +++ String c r) b = RnOk (String c r) (buf_puts s b).
  Proof.
    intros Hs Hc. revert b; induction s as [|x s IH]; intros b; cbn [String.append read_name_loop buf_puts sall] in *.
    - rewrite Hc. reflexivity.
    - apply andb_true_iff in Hs as [Hx Hs]. rewrite Hx. auto.
  Qed.
  Definition StopsAt (rest : string) : Prop := exists c r, rest = String c r /\ in_name c = false.
  Lemma read_name_spec rest b :
    match read_name fin rest b with
    | RnOk rest' b' => exists s, rest = s +++ rest' /\ s <> "" /\ sall in_name s = true /\ StopsAt rest' /\ b' = buf_puts s b
    | RnNo rest' b' => rest' = rest /\ b' = b /\ StopsAt rest
    | RnErr e b' => e = must_not_eof fin /\ sall in_name rest = true /\ b' = buf_puts rest b
    end.
  Proof.
    unfold read_name. destruct rest as [|c r]; [cbn; auto|]. destruct (in_name c) eqn:E.
    - pose proof (read_name_loop_spec r (buf_put c b)) as H. destruct (read_name_loop fin r (buf_put c b)) as [rest' b'| |e b'].
      + destruct H as (s & -> & H1 & H2 & ->). exists (String c s). cbn [sall String.append buf_puts]. rewrite E. sp; try reflexivity; auto. discriminate.
      + destruct H.
      + cbn [sall buf_puts]. rewrite E. cbn [andb]. exact H.
    - sp; try reflexivity. exists c, r. auto.
  Qed.

  (** The cache maps keys to the names they were made from. *)
  Definition NamesOk (names : list (string * string)) : Prop :=
    forall k v, aget seq k names = Some v -> k = name_key v /\ sall in_name v = true /\ String.length v <= 8 /\ v <> "".
  Lemma names_nil : NamesOk [].
  Proof. intros k v H. discriminate. Qed.
  Lemma nul_not_name : in_name "000" = false.
  Proof. vm_compute. reflexivity. Qed.
  Lemma pad_inj a b x y : sall in_name a = true -> sall in_name b = true ->
    sall (fun c => negb (in_name c)) x = true -> sall (fun c => negb (in_name c)) y = true ->
    a +++ x = b +++ y -> a = b.
  Proof.
    intros Ha Hb Hx Hy. revert b Hb; induction a as [|c a IH]; intros [|d b] Hb E; cbn [String.append sall] in *.
    - reflexivity.
    - subst x. cbn in Hx. apply andb_true_iff in Hb as [Hb _]. rewrite Hb in Hx. discriminate.
    - subst y. cbn in Hy. apply andb_true_iff in Ha as [Ha _]. rewrite Ha in Hy. discriminate.
    - apply andb_true_iff in Ha as [_ Ha], Hb as [_ Hb]. injection E as -> E. f_equal. apply IH; assumption.
  Qed.
  Lemma stake_app_le n a b : String.length a <= n -> stake n (a +++ b) = a +++ stake (n - String.length a) b.
  Proof.
    revert n; induction a as [|c a IH]; intros n H; cbn [String.append String.length] in *; [rewrite Nat.sub_0_r; reflexivity|].
    destruct n as [|n]; [lia|]. cbn. rewrite IH by lia. reflexivity.
  Qed.
  Lemma zeros_no n m : sall (fun c => negb (in_name c)) (stake n (of_chars (repeat "000"%char m))) = true.
  Proof.
    revert m; induction n as [|n IH]; intros [|m]; cbn [repeat of_chars stake sall]; try reflexivity.
    rewrite nul_not_name, IH. reflexivity.
  Qed.
  Lemma name_key_inj a b : sall in_name a = true -> sall in_name b = true -> String.length a <= 8 -> String.length b <= 8 ->
    name_key a = name_key b -> a = b.
  Proof.
    intros Ha Hb La Lb E. unfold name_key in E. rewrite !stake_app_le in E by assumption.
    eapply pad_inj; [exact Ha|exact Hb| | |exact E]; apply zeros_no.
  Qed.

  (** Every literal is the name it stands for. *)
  Lemma literal_name_same s l : literal_name s = Some l -> l = s.
  Proof.
    assert (Hs : forall x y r, (if seq x y then Some y else r) = Some l -> l = x \/ r = Some l).
    { intros x y r. destruct (seq_spec x y) as [->|_]; [intros E; injection E as <-|]; auto. }
    intros H. destruct s as [|a [|b [|c s]]]; cbn [literal_name] in H.
    2: repeat match type of H with (if ceq ?x ?y then _ else _) = _ => destruct (ceq_spec x y) as [->|_]; [injection H as <-; reflexivity|] end; discriminate H.
    2: destruct (ceq_spec a "v") as [->|_]; [|destruct (ceq_spec a "p") as [->|_]; [|discriminate H]];
       repeat match type of H with (if ceq ?x ?y then _ else _) = _ => destruct (ceq_spec x y) as [->|_]; [injection H as <-; reflexivity|] end; discriminate H.
    all: repeat (apply Hs in H as [H|H]; [exact H|]); discriminate H.
  Qed.

  (** [name] reads the longest name, whatever the cache. *)
  Lemma name_spec cached rest names b : NamesOk names ->
    match name fin cached rest names b with
    | NOk s rest' names' b' => rest = s +++ rest' /\ s <> "" /\ sall in_name s = true /\ StopsAt rest' /\
        b' = buf_puts s (buf_reset b) /\ NamesOk names'
    | NNo rest' b' => rest' = rest /\ b' = buf_reset b /\ StopsAt rest
    | NErr e b' => e = must_not_eof fin /\ sall in_name rest = true /\ b' = buf_puts rest (buf_reset b)
    end.
  Proof.
    intros Hn. unfold name. pose proof (read_name_spec rest (buf_reset b)) as H.
    destruct (read_name fin rest (buf_reset b)) as [rest' b'|rest' b'|e b']; [|exact H|exact H].
    destruct H as (s & -> & H1 & H2 & H3 & ->). rewrite buf_cur_puts. cbn [buf_reset b_cur String.append]. cbv zeta.
    destruct (literal_name s) as [l|] eqn:El; [apply literal_name_same in El; subst l; sp; try reflexivity; assumption|].
    destruct (cached && (String.length s <=? 8)%nat) eqn:Es.
    - destruct (aget seq (name_key s) names) as [v|] eqn:Ev.
      + destruct (Hn _ _ Ev) as (E & V1 & V2 & V3). apply andb_true_iff in Es as [_ Es]. apply Nat.leb_le in Es.
        apply name_key_inj in E; [|assumption..]. subst v. sp; try reflexivity; assumption.
      + unfold is_name. destruct (seq_spec s "") as [->|_]; [congruence|]. cbn [negb]. repeat (split; [auto; fail|]).
        intros k v. destruct (seq_spec k (name_key s)) as [->|Hk].
        * rewrite aget_aset_same by apply seq_spec. intros E; injection E as <-. apply andb_true_iff in Es as [_ Es]. apply Nat.leb_le in Es. auto.
        * rewrite aget_aset_other by (try apply seq_spec; exact Hk). apply Hn.
    - unfold is_name. destruct (seq_spec s "") as [->|_]; [congruence|]. cbn [negb]. sp; try reflexivity; assumption.
  Qed.
  Lemma name_app cached s c r names b : NamesOk names -> s <> "" -> sall in_name s = true -> in_name c = false ->
    exists names', name fin cached (s +++ String c r) names b = NOk s (String c r) names' (buf_puts s (buf_reset b)) /\ NamesOk names'.
  Proof.
    intros Hn Hs Ha Hc. pose proof (name_spec cached (s +++ String c r) names b Hn) as H.
    destruct (name fin cached (s +++ String c r) names b) as [s' rest' names' b'|rest' b'|e b'].
    - destruct H as (E & H1 & H2 & (c' & r' & -> & H3) & -> & H4). exists names'.
      assert (s = s' /\ String c r = String c' r') as [<- <-]; [|auto].
      clear -E Ha Hc H2 H3. revert s' E H2; induction s as [|x s IH]; intros [|y s'] E H2; cbn [String.append sall] in *.
      + auto.
      + injection E as -> _. rewrite Hc in H2. discriminate.
      + injection E as -> _. rewrite H3 in Ha. discriminate.
      + injection E as -> E. apply andb_true_iff in Ha as [_ Ha], H2 as [_ H2]. destruct (IH Ha s' E H2) as [-> ->]. auto.
    - destruct H as (_ & _ & c' & r' & E & H). destruct s as [|x s]; [congruence|]. cbn in E, Ha. injection E as -> _. rewrite H in Ha. discriminate.
    - destruct H as (_ & H & _). rewrite sall_app in H. cbn in H. rewrite Hc, andb_false_r in H. discriminate.
  Qed.
  (** The cache changes nothing but itself. *)
  Definition nres_same (x y : nres) : Prop :=
    match x, y with
    | NOk s r n b, NOk s' r' n' b' => s = s' /\ r = r' /\ b = b' /\ NamesOk n /\ NamesOk n'
    | NNo r b, NNo r' b' => r = r' /\ b = b'
    | NErr e b, NErr e' b' => e = e' /\ b = b'
    | _, _ => False
    end.
  Lemma name_same c c' rest n n' b : NamesOk n -> NamesOk n' -> nres_same (name fin c rest n b) (name fin c' rest n' b).
  Proof.
    intros H H'. pose proof (name_spec c rest n b H) as S1. pose proof (name_spec c' rest n' b H') as S2.
    pose proof (read_name_spec rest (buf_reset b)) as R.
    unfold name in *. destruct (read_name fin rest (buf_reset b)) as [r0 b0|r0 b0|e b0]; [|split; reflexivity..].
    assert (I : is_name (b_cur b0) = true).
    { destruct R as (s & _ & Hs & _ & _ & ->). rewrite buf_cur_puts. cbn. destruct s; [congruence|reflexivity]. }
    assert (K : forall s s' n n', (rest = s +++ r0 /\ s <> "" /\ sall in_name s = true /\ StopsAt r0 /\ b0 = buf_puts s (buf_reset b) /\ NamesOk n) ->
      (rest = s' +++ r0 /\ s' <> "" /\ sall in_name s' = true /\ StopsAt r0 /\ b0 = buf_puts s' (buf_reset b) /\ NamesOk n') ->
      nres_same (NOk s r0 n b0) (NOk s' r0 n' b0)).
    { intros s s' m m' (E & _ & _ & _ & _ & P) (E' & _ & _ & _ & _ & P'). cbn. sp; try reflexivity; try assumption. subst rest.
      apply sapp_inj_len in E' as [E' _]; [exact E'|]. apply (f_equal String.length) in E'. rewrite !slength_app in E'. lia. }
    destruct (literal_name _); [apply K; assumption|].
    repeat match goal with |- context [match ?x with Some _ => _ | None => _ end] => destruct x end;
      rewrite ?I in *; apply K; assumption.
  Qed.
End Names.

(** ** Progress: every token takes some input, so the scan ends *)
Section Progress.
  Variable fin : xerr.
  Lemma space_len r : String.length (space r) <= String.length r.
  Proof. induction r as [|c r IH]; cbn [space]; [auto|]. destruct (is_space c); cbn [String.length]; lia. Qed.
  Lemma ref_digits_len base rest b : String.length (fst (ref_digits base rest b)) <= String.length rest.
  Proof.
    revert b; induction rest as [|c r IH]; intros b; cbn [ref_digits]; [auto|].
    destruct (is_ref_digit base c); [specialize (IH (buf_put c b))|]; cbn [fst String.length]; lia.
  Qed.
  Lemma char_ref_len before base rest b rest' b' : char_ref fin before base rest b = EOk rest' b' ->
    String.length rest' < String.length rest.
  Proof.
    unfold char_ref. pose proof (ref_digits_len base rest b) as H. destruct (ref_digits base rest b) as [r b1]. cbn [fst] in H.
    destruct r as [|c r]; [discriminate|]. cbn [String.length] in H. destruct (ceq c ";"); [|discriminate].
    destruct (parse_base _ _) as [n|]; [|discriminate]. destruct (n <=? max_rune)%N; [|discriminate].
    intros E. injection E as <- _. lia.
  Qed.
  Lemma named_ref_len before rest b rest' b' : named_ref fin before rest b = EOk rest' b' ->
    String.length rest' < String.length rest.
  Proof.
    unfold named_ref. pose proof (read_name_spec fin rest b) as H.
    assert (K : forall r1 b1, (match r1 with
      | EmptyString => EErr (must_not_eof fin) b1
      | String c rest' =>
          if ceq c ";" then
            let nm := sdrop (before + 1) (b_cur b1) in
            let b := buf_put ";" b1 in
            if is_name nm then
              match aget seq nm entity with
              | Some r => good_entity before (rune_string r) rest' b
              | None => bad_entity before b
              end
            else bad_entity before b
          else bad_entity before b1
      end) = EOk rest' b' -> String.length rest' < String.length r1).
    { intros [|c r1] b1; [discriminate|]. cbn [String.length]. destruct (ceq c ";"); [|discriminate]. cbv zeta.
      destruct (is_name _); [|discriminate]. destruct (aget _ _ _); [|discriminate]. intros E. injection E as <- _. lia. }
    destruct (read_name fin rest b) as [r1 b1|r1 b1|e b1]; intros E.
    - apply K in E. destruct H as (s & -> & _). rewrite slength_app. lia.
    - apply K in E. destruct H as (-> & _). exact E.
    - discriminate.
  Qed.
  Lemma scan_entity_len rest b rest' b' : scan_entity fin rest b = EOk rest' b' -> String.length rest' < String.length rest.
  Proof.
    unfold scan_entity. destruct rest as [|c r]; [discriminate|]. destruct (ceq c "#").
    - destruct r as [|c2 r2]; [discriminate|]. destruct (ceq c2 "x").
      + destruct r2 as [|c3 r3]; [discriminate|]. intros E. apply char_ref_len in E. cbn [String.length] in *. lia.
      + intros E. apply char_ref_len in E. cbn [String.length] in *. lia.
    - apply named_ref_len.
  Qed.
  Lemma text_loop_len fuel quote b1 rest b : String.length rest < fuel ->
    match text_loop fin fuel quote b1 rest b with
    | TOk rest' _ _ => String.length rest' <= String.length rest
    | TErr _ _ => True | TOut => False end.
  Proof.
    revert b1 rest b; induction fuel as [|f IH]; intros b1 rest b H; [lia|]. cbn [text_loop].
    destruct rest as [|c r]; [auto|]. cbn [String.length] in H.
    assert (K : forall b1 r' b, String.length r' <= String.length r -> match text_loop fin f quote b1 r' b with
      | TOk rest' _ _ => String.length rest' <= String.length (String c r) | TErr _ _ => True | TOut => False end).
    { intros b0 r' b' L. specialize (IH b0 r' b'). destruct (text_loop fin f quote b0 r' b'); cbn [String.length]; auto; lia. }
    destruct (ceq c "<").
    { destruct quote; auto. }
    destruct (match quote with Some q => ceq c q | None => false end); [cbn [String.length]; lia|].
    destruct (ceq c "&").
    { destruct (scan_entity fin r b) as [r' b'|e b'] eqn:E; [|auto]. apply scan_entity_len in E. apply K. lia. }
    destruct (ceq c (byte 13)); [apply K; lia|]. destruct (ceq b1 (byte 13) && ceq c (byte 10)); apply K; lia.
  Qed.
  Lemma text_len quote rest b : match text fin quote rest b with
    | TOk rest' _ _ => String.length rest' <= String.length rest /\
        (forall c r, rest = String c r -> ceq c "<" = false -> String.length rest' < String.length rest)
    | TErr _ _ => True | TOut => False end.
  Proof.
    unfold text. pose proof (text_loop_len (S (String.length rest)) quote (byte 0) rest (buf_reset b) ltac:(lia)) as H.
    destruct (text_loop _ _ _ _ _ _) as [r' e' b'| |] eqn:E; auto. split; [exact H|]. intros c r -> Hc.
    cbn [String.length] in E |- *. remember (S (String.length r)) as f eqn:Ef. cbn [text_loop] in E. rewrite Hc in E.
    assert (K : forall b1 r0 b, String.length r0 <= String.length r -> text_loop fin f quote b1 r0 b = TOk r' e' b' ->
       String.length r' < f).
    { intros b1 r0 b0 L E0. pose proof (text_loop_len f quote b1 r0 b0 ltac:(lia)) as H0. rewrite E0 in H0. lia. }
    destruct (match quote with Some q => ceq c q | None => false end); [injection E as <- _; lia|].
    destruct (ceq c "&").
    { destruct (scan_entity fin r (buf_reset b)) as [r0 b0|e b0] eqn:E0; [|discriminate]. apply scan_entity_len in E0. eapply K; [|exact E]. lia. }
    destruct (ceq c (byte 13)); [eapply K; [|exact E]; lia|]. destruct (ceq (byte 0) (byte 13) && ceq c (byte 10)); (eapply K; [|exact E]; lia).
  Qed.
  Lemma attrval_len rest b : match attrval fin rest b with
    | TOk rest' _ _ => String.length rest' < String.length rest | TErr _ _ => True | TOut => False end.
  Proof.
    unfold attrval. destruct rest as [|c r]; [auto|]. destruct (_ || _); [|auto].
    pose proof (text_len (Some c) r b) as H. destruct (text fin (Some c) r b); auto. cbn [String.length]. lia.
  Qed.

  (** The lexer: it ends, takes input, and the cache changes nothing. *)
  Definition ares_same (x y : attrs_res) : Prop :=
    match x, y with
    | AOk a e r n b, AOk a' e' r' n' b' => a = a' /\ e = e' /\ r = r' /\ b = b' /\ NamesOk n /\ NamesOk n'
    | AErr e n b, AErr e' n' b' => e = e' /\ b = b' /\ NamesOk n /\ NamesOk n'
    | AOut, AOut => True
    | _, _ => False
    end.
  Lemma attrs_same c c' fuel acc rest n n' b : NamesOk n -> NamesOk n' ->
    ares_same (attrs_loop fin c fuel acc rest n b) (attrs_loop fin c' fuel acc rest n' b).
  Proof.
    revert acc rest n n' b; induction fuel as [|f IH]; intros acc rest n n' b H H'; cbn [attrs_loop ares_same]; [auto|].
    destruct (space rest) as [|x r]; [cbn; auto|]. destruct (ceq x "/").
    { destruct r as [|c2 r2]; [cbn; auto|]. destruct (ceq c2 ">"); cbn; auto 7. }
    destruct (ceq x ">"); [cbn; auto 7|].
    pose proof (name_same fin c c' (String x r) n n' b H H') as S.
    destruct (name fin c (String x r) n b) as [s1 r1 n1 b1|r1 b1|e1 b1], (name fin c' (String x r) n' b) as [s2 r2 n2 b2|r2 b2|e2 b2]; try destruct S.
    - destruct H1 as (-> & -> & S1 & S2). subst s2. destruct (space r2) as [|y q]; [cbn; auto|].
      destruct (ceq y "="); [|cbn; auto]. destruct (attrval fin (space q) b2); [apply IH; assumption|cbn; auto|cbn; auto].
    - subst. cbn. auto.
    - subst. cbn. auto.
  Qed.
  Definition lres_same (x y : lex_res) : Prop :=
    match x, y with
    | LTok t r e n b, LTok t' r' e' n' b' => t = t' /\ r = r' /\ e = e' /\ b = b' /\ NamesOk n /\ NamesOk n'
    | LErr e n b, LErr e' n' b' => e = e' /\ b = b' /\ NamesOk n /\ NamesOk n'
    | LOut, LOut => True
    | _, _ => False
    end.
  Lemma lex_same c c' rest n n' b : NamesOk n -> NamesOk n' -> lres_same (lex fin c rest n b) (lex fin c' rest n' b).
  Proof.
    intros H H'. unfold lex. destruct rest as [|x r]; [cbn; auto|]. destruct (negb (ceq x "<")).
    { destruct (text fin None (String x r) b); cbn; auto 7. }
    destruct r as [|c2 r2]; [cbn; auto|].
    assert (K : forall rest k k', (forall s r n n' b, NamesOk n -> NamesOk n' -> lres_same (k s r n b) (k' s r n' b)) ->
      forall msg, lres_same
        match name fin c rest n b with NErr e b => LErr e n b | NNo _ b => LErr (XSyntax msg) n b | NOk s rest names b => k s rest names b end
        match name fin c' rest n' b with NErr e b => LErr e n' b | NNo _ b => LErr (XSyntax msg) n' b | NOk s rest names b => k' s rest names b end).
    { intros rest k k' Hk msg. pose proof (name_same fin c c' rest n n' b H H') as S.
      destruct (name fin c rest n b) as [s1 r1 n1 b1|r1 b1|e1 b1], (name fin c' rest n' b) as [s3 r3 n3 b3|r3 b3|e3 b3]; try destruct S.
      - destruct H1 as (-> & -> & S1 & S2). subst. apply Hk; assumption.
      - subst. cbn. auto.
      - subst. cbn. auto. }
    destruct (ceq c2 "/").
    { apply K. intros s r m m' b' Hm Hm'. destruct (space r) as [|c3 r3]; [cbn; auto|]. destruct (ceq c3 ">"); cbn; auto 7. }
    destruct (ceq c2 "?").
    { apply K. intros s r m m' b' Hm Hm'. destruct (proc_inst _ _ _) as [[q|] b'']; cbn; auto 7. }
    apply K. intros s r m m' b' Hm Hm'. pose proof (attrs_same c c' (S (String.length r)) [] r m m' b' Hm Hm') as S.
    destruct (attrs_loop fin c _ _ _ _ _), (attrs_loop fin c' _ _ _ _ _); try destruct S; cbn in *; auto.
    - destruct H1 as (-> & -> & -> & S1 & S2). subst. auto 7.
  Qed.
  Lemma name_len c rest names b : match name fin c rest names b with
    | NOk _ rest' _ _ => String.length rest' < String.length rest | _ => True end.
  Proof.
    unfold name. pose proof (read_name_spec fin rest (buf_reset b)) as H.
    destruct (read_name fin rest (buf_reset b)) as [r' b'| |]; auto. destruct H as (s & -> & Hs & _ & _ & _).
    assert (String.length r' < String.length (s +++ r')).
    { rewrite slength_app. destruct s; [congruence|cbn; lia]. }
    destruct (literal_name _); [assumption|]. destruct (if _ && _ then _ else _); [assumption|]. destruct (is_name _); auto.
  Qed.
  Lemma attrs_len c fuel acc rest names b : String.length rest < fuel ->
    match attrs_loop fin c fuel acc rest names b with
    | AOk _ _ rest' _ _ => String.length rest' < String.length rest
    | AErr _ _ _ => True | AOut => False end.
  Proof.
    revert acc rest names b; induction fuel as [|f IH]; intros acc rest names b H; [lia|]. cbn [attrs_loop].
    pose proof (space_len rest) as L. destruct (space rest) as [|x r]; [auto|]. cbn [String.length] in L.
    destruct (ceq x "/").
    { destruct r as [|c2 r2]; [auto|]. cbn [String.length] in L. destruct (ceq c2 ">"); [lia|auto]. }
    destruct (ceq x ">"); [lia|].
    pose proof (name_len c (String x r) names b) as HN. destruct (name fin c (String x r) names b) as [s1 r1 n1 b1| |]; auto.
    cbn [String.length] in HN. pose proof (space_len r1) as L1. destruct (space r1) as [|y q]; [auto|]. cbn [String.length] in L1.
    destruct (ceq y "="); [|auto]. pose proof (attrval_len (space q) b1) as HA. pose proof (space_len q) as L2.
    destruct (attrval fin (space q) b1) as [r3 e3 b3| |]; auto.
    specialize (IH (mkAttr (ns_name s1) (b_cur b3) :: acc) r3 n1 b3 ltac:(lia)).
    destruct (attrs_loop _ _ _ _ _ _ _); auto. lia.
  Qed.
  Lemma proc_inst_len b0 rest b : match fst (proc_inst b0 rest b) with Some r => String.length r < String.length rest | None => True end.
  Proof.
    revert b0 b; induction rest as [|c r IH]; intros b0 b; cbn [proc_inst fst]; [auto|]. destruct (_ && _); cbn [fst String.length]; [lia|].
    specialize (IH c (buf_put c b)). destruct (fst _); [lia|auto].
  Qed.
  Lemma lex_len c rest names b : match lex fin c rest names b with
    | LTok _ rest' _ _ _ => String.length rest' < String.length rest
    | LErr _ _ _ => True | LOut => False end.
  Proof.
    unfold lex. destruct rest as [|x r]; [auto|]. destruct (ceq x "<") eqn:Ex; cbn [negb].
    2:{ pose proof (text_len None (String x r) b) as H. destruct (text fin None (String x r) b); auto. destruct H as [_ H]. eapply H; [reflexivity|exact Ex]. }
    destruct r as [|c2 r2]; [auto|]. destruct (ceq c2 "/").
    { pose proof (name_len c r2 names b) as H. destruct (name fin c r2 names b) as [s q m b'| |]; auto.
      pose proof (space_len q) as L. destruct (space q) as [|c3 r3]; [auto|]. destruct (ceq c3 ">"); auto. cbn [String.length] in *. lia. }
    destruct (ceq c2 "?").
    { pose proof (name_len c r2 names b) as H. destruct (name fin c r2 names b) as [s q m b'| |]; auto.
      pose proof (space_len q) as L. pose proof (proc_inst_len (byte 0) (space q) b') as P.
      destruct (proc_inst _ _ _) as [[z|] b'']; cbn [fst] in P; auto. cbn [String.length] in *. lia. }
    pose proof (name_len c (String c2 r2) names b) as H. destruct (name fin c (String c2 r2) names b) as [s q m b'| |]; auto.
    pose proof (attrs_len c (S (String.length q)) [] q m b' ltac:(lia)) as A.
    destruct (attrs_loop _ _ _ _ _ _ _); auto. cbn [String.length] in *. lia.
  Qed.
End Progress.
