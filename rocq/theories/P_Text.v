From Verif Require Import GoBase GoFloat Types M_Text S_Text.

(** ** Hexadecimal digits, by sweeping the 256 bytes *)
Definition hexval (c : ascii) : option N :=
  match find (fun v => match sget (N.to_nat v) "0123456789abcdef" with Some x => ceq x c | None => false end
                    || match sget (N.to_nat v) "0123456789ABCDEF" with Some x => ceq x c | None => false end)
        (map N.of_nat (List.seq 0 16)) with
  | Some v => Some v | None => None end.
Definition sweep_hex (c : ascii) : bool :=
  match hexval c with
  | Some v => let (x, ok) := hex_to_byte c in ok && (x =? v)%N && (v <? 16)%N
  | None => let (x, ok) := hex_to_byte c in negb ok && (x =? 0)%N
  end.
Lemma sweep_hex_ok c : sweep_hex c = true.
Proof. apply byte_sweep. vm_compute. reflexivity. Qed.

Lemma sget_bound i s c : sget i s = Some c -> i < String.length s.
Proof. revert i; induction s as [|d s IH]; intros [|i]; cbn; try discriminate; try lia. intros H; apply IH in H; lia. Qed.
Lemma sget_some i s : i < String.length s -> exists c, sget i s = Some c.
Proof.
  revert i; induction s as [|d s IH]; intros [|i]; cbn; intros H; try lia; [eauto|]. apply IH; lia.
Qed.

Lemma hexval_spec c v : hexval c = Some v <-> HexDigit c v.
Proof.
  unfold hexval, HexDigit. split.
  - destruct (find _ _) as [w|] eqn:E; [|discriminate]. intros H; injection H as ->.
    apply find_some in E as [_ E]. apply orb_true_iff in E as [E|E].
    + left. destruct (sget _ _); [|discriminate]. apply ceq_true in E; congruence.
    + right. destruct (sget _ _); [|discriminate]. apply ceq_true in E; congruence.
  - intros H.
    assert (Hv : (v < 16)%N).
    { destruct H as [H|H]; apply sget_bound in H; cbn in H; lia. }
    assert (Hin : In v (map N.of_nat (List.seq 0 16))).
    { apply in_map_iff. exists (N.to_nat v). split; [lia|]. apply in_seq; lia. }
    cbn in Hin. repeat (destruct Hin as [<-|Hin];
      [cbn in H; destruct H as [H|H]; injection H as <-; reflexivity|]). destruct Hin.
Qed.

Lemma hex_to_byte_true c x : hex_to_byte c = (x, true) <-> HexDigit c x.
Proof.
  rewrite <- hexval_spec. pose proof (sweep_hex_ok c) as H. unfold sweep_hex in H.
  destruct (hexval c) as [v|], (hex_to_byte c) as [y ok]; rewrite ?andb_true_iff in H.
  - destruct H as [[-> H] _]. apply N.eqb_eq in H as ->. split; congruence.
  - destruct H as [H _]. destruct ok; [discriminate|]. split; congruence.
Qed.
Lemma hexdigit_lt c v : HexDigit c v -> (v < 16)%N.
Proof. intros [H|H]; apply sget_bound in H; cbn in H; lia. Qed.
Lemma hexdigit_fun c v w : HexDigit c v -> HexDigit c w -> v = w.
Proof. rewrite <- !hexval_spec. congruence. Qed.

Lemma hex_pair_spec a b v : hex_pair a b = (v, true) <-> HexByte a b v.
Proof.
  unfold hex_pair, HexByte. destruct (hex_to_byte a) as [x o1] eqn:Ea, (hex_to_byte b) as [y o2] eqn:Eb.
  split.
  - intros H; injection H as H1 H2. apply andb_true_iff in H2 as [-> ->].
    apply hex_to_byte_true in Ea, Eb. exists x, y. repeat split; auto.
    pose proof (hexdigit_lt _ _ Ea). pose proof (hexdigit_lt _ _ Eb).
    rewrite N.mod_small in H1 by lia. lia.
  - intros (hi & lo & H1 & H2 & ->). pose proof (hexdigit_lt _ _ H1). pose proof (hexdigit_lt _ _ H2).
    apply hex_to_byte_true in H1, H2. rewrite H1 in Ea; rewrite H2 in Eb. injection Ea as <- <-. injection Eb as <- <-. cbn [andb].
    rewrite N.mod_small by lia. f_equal. lia.
Qed.

Lemma parse_rgba_spec s c : parse_rgba s = (c, true) <-> ColourText s c.
Proof.
  split.
  - intros H. destruct s as [|h s]; [discriminate|]. cbn in H.
    destruct (ceq_spec h "#") as [->|]; [|discriminate]. cbn in H.
    do 6 (destruct s as [|? s]; [discriminate|]).
    destruct (hex_pair a a0) as [r o1] eqn:E1, (hex_pair a1 a2) as [g o2] eqn:E2, (hex_pair a3 a4) as [b o3] eqn:E3.
    destruct s as [|a5 s].
    + injection H as <- H. rewrite !andb_true_iff in H. destruct H as [[-> ->] ->].
      apply hex_pair_spec in E1, E2, E3. apply (ColourShort a a0 a1 a2 a3 a4); assumption.
    + destruct s as [|a6 s]; [discriminate|]. destruct s; [|discriminate].
      destruct (hex_pair a5 a6) as [al o4] eqn:E4.
      injection H as <- H. rewrite !andb_true_iff in H. destruct H as [[[-> ->] ->] ->].
      apply hex_pair_spec in E1, E2, E3, E4. apply (ColourLong a a0 a1 a2 a3 a4 a5 a6); assumption.
  - intros H; inversion H; subst; repeat match goal with HB : HexByte _ _ _ |- _ => apply hex_pair_spec in HB end;
      cbn [of_chars parse_rgba]; rewrite ceq_refl; cbn [negb];
      repeat match goal with HB : hex_pair _ _ = _ |- _ => rewrite HB; clear HB end; reflexivity.
Qed.

(** hex2 on a byte *)
Lemma hex_digit_spec d : (d < 16)%N -> sget (N.to_nat d) "0123456789abcdef" = Some (hex_digit d).
Proof.
  intros Hd. assert (Hin : In d (map N.of_nat (List.seq 0 16))).
  { apply in_map_iff. exists (N.to_nat d). split; [lia|]. apply in_seq; lia. }
  cbn in Hin. repeat (destruct Hin as [<-|Hin]; [reflexivity|]). destruct Hin.
Qed.
Lemma div16 n : (n < 256)%N -> (n / 16 < 16)%N /\ (n mod 16 < 16)%N /\ n = (16 * (n / 16) + n mod 16)%N.
Proof.
  intros H. repeat split.
  - apply N.div_lt_upper_bound; lia.
  - apply N.mod_lt; discriminate.
  - apply N.div_mod; discriminate.
Qed.
Lemma hex2_byte n : (n < 256)%N -> HexByte (hex_digit (n / 16)) (hex_digit (n mod 16)) n.
Proof.
  intros H. destruct (div16 n H) as (H1 & H2 & H3). exists (n / 16)%N, (n mod 16)%N.
  repeat split; try (left; apply hex_digit_spec; assumption). exact H3.
Qed.

Lemma format_parse_rgba c :
  (cR c < 256)%N -> (cG c < 256)%N -> (cB c < 256)%N -> (cA c < 256)%N ->
  parse_rgba (format_rgba c) = (c, true).
Proof.
  destruct c as [r g b a]; cbn. intros Hr Hg Hb Ha. apply parse_rgba_spec. unfold format_rgba; cbn.
  destruct (N.eqb_spec a 255) as [->|Hn].
  - apply (ColourShort _ _ _ _ _ _ r g b); apply hex2_byte; assumption.
  - apply (ColourLong _ _ _ _ _ _ _ _ r g b a); apply hex2_byte; assumption.
Qed.

Definition sweep_lower (c : ascii) : bool :=
  match hexval c with Some v => ceq (lower c) (hex_digit v) | None => true end.
Lemma lower_hex c v : HexDigit c v -> lower c = hex_digit v.
Proof.
  intros H. assert (sweep_lower c = true) as Q by (revert c H; intros c _; apply byte_sweep; vm_compute; reflexivity).
  unfold sweep_lower in Q. apply hexval_spec in H. rewrite H in Q. apply ceq_true in Q; exact Q.
Qed.
Lemma hexbyte_lower a b v : HexByte a b v ->
  hex2 v = String (lower a) (String (lower b) "") /\ (v < 256)%N.
Proof.
  intros (hi & lo & H1 & H2 & ->). pose proof (hexdigit_lt _ _ H1). pose proof (hexdigit_lt _ _ H2).
  unfold hex2. rewrite (lower_hex _ _ H1), (lower_hex _ _ H2).
  assert (E : ((16 * hi + lo) / 16 = hi)%N) by (rewrite N.mul_comm, N.div_add_l by discriminate; rewrite N.div_small by assumption; lia).
  assert (E' : ((16 * hi + lo) mod 16 = lo)%N) by (rewrite N.add_comm, N.mul_comm, N.mod_add by discriminate; apply N.mod_small; assumption).
  rewrite E, E'. split; [reflexivity|lia].
Qed.
Lemma hex_digit_f d : (d < 16)%N -> hex_digit d = "f"%char <-> d = 15%N.
Proof.
  intros Hd. assert (Hin : In d (map N.of_nat (List.seq 0 16))).
  { apply in_map_iff. exists (N.to_nat d). split; [lia|]. apply in_seq; lia. }
  cbn in Hin. repeat (destruct Hin as [<-|Hin]; [split; intros; try reflexivity; try discriminate|]). destruct Hin.
Qed.
Lemma hexbyte_ff a b v : HexByte a b v ->
  seq (String (lower a) (String (lower b) "")) "ff" = (v =? 255)%N.
Proof.
  intros (hi & lo & H1 & H2 & ->). pose proof (hexdigit_lt _ _ H1). pose proof (hexdigit_lt _ _ H2).
  rewrite (lower_hex _ _ H1), (lower_hex _ _ H2).
  destruct (N.eqb_spec (16 * hi + lo) 255) as [E|E].
  - assert (hi = 15 /\ lo = 15)%N as [-> ->] by lia. reflexivity.
  - apply seq_false. intros Q; injection Q as Q1 Q2.
    apply hex_digit_f in Q1, Q2; try assumption. subst. apply E; reflexivity.
Qed.

Lemma parse_format_rgba s c : parse_rgba s = (c, true) -> format_rgba c = colour_canonical s.
Proof.
  rewrite parse_rgba_spec. intros H; inversion H; subst; unfold format_rgba, colour_canonical;
    cbn [cR cG cB cA of_chars slower String.length].
  - rewrite N.eqb_refl. cbn [Nat.eqb andb].
    repeat match goal with HB : HexByte _ _ _ |- _ => apply hexbyte_lower in HB as [HB _]; rewrite HB; clear HB end.
    reflexivity.
  - cbn [Nat.eqb andb sdrop]. rewrite (hexbyte_ff _ _ _ H3).
    repeat match goal with HB : HexByte _ _ _ |- _ => apply hexbyte_lower in HB as [HB _]; rewrite HB; clear HB end.
    destruct (a =? 255)%N; reflexivity.
Qed.

(** ** UUID validation *)
Definition okpos (s : string) (i : nat) : bool :=
  match sget i s with
  | Some c => if existsb (Nat.eqb i) [8; 13; 18; 23] then ceq c "-" else is_xdigit c
  | None => false
  end.
Definition hexat (s : string) (i : nat) : bool := match sget i s with Some c => is_xdigit c | None => false end.
Lemma xtob_hexat s i : xtob_at s i = hexat s i && hexat s (i + 1).
Proof.
  unfold xtob_at, hexat. destruct (sget i s), (sget (i + 1) s); try reflexivity. rewrite andb_false_r; reflexivity.
Qed.
Lemma validate36_okpos s : validate36 s = forallb (okpos s) (List.seq 0 36).
Proof.
  unfold validate36. cbn [forallb]. rewrite !xtob_hexat.
  cbn [List.seq forallb plus].
  assert (Hd : forall i, In i [8; 13; 18; 23] -> okpos s i = dash_at s i).
  { intros i Hi. unfold okpos, dash_at. destruct (sget i s); [|reflexivity].
    cbn in Hi. destruct Hi as [<-|[<-|[<-|[<-|[]]]]]; reflexivity. }
  assert (Hh : forall i, existsb (Nat.eqb i) [8; 13; 18; 23] = false -> okpos s i = hexat s i).
  { intros i Hi. unfold okpos, hexat. destruct (sget i s); [|reflexivity]. rewrite Hi; reflexivity. }
  rewrite (Hd 8), (Hd 13), (Hd 18), (Hd 23) by (cbn; tauto).
  rewrite (Hh 0), (Hh 1), (Hh 2), (Hh 3), (Hh 4), (Hh 5), (Hh 6), (Hh 7), (Hh 9), (Hh 10), (Hh 11), (Hh 12),
    (Hh 14), (Hh 15), (Hh 16), (Hh 17), (Hh 19), (Hh 20), (Hh 21), (Hh 22), (Hh 24), (Hh 25), (Hh 26), (Hh 27),
    (Hh 28), (Hh 29), (Hh 30), (Hh 31), (Hh 32), (Hh 33), (Hh 34), (Hh 35) by reflexivity.
  apply eq_true_iff_eq. rewrite !andb_true_iff. clear. intuition.
Qed.
Lemma is_xdigit_spec c : is_xdigit c = true <-> IsHex c.
Proof.
  unfold is_xdigit, IsHex. destruct (hex_to_byte c) as [x ok] eqn:E; cbn. split.
  - intros ->. apply hex_to_byte_true in E; eauto.
  - intros [v H]. apply hex_to_byte_true in H. congruence.
Qed.
Lemma sget_app_l a b i : i < String.length a -> sget i (a +++ b) = sget i a.
Proof. revert i; induction a as [|c a IH]; intros [|i]; cbn; intros H; try lia; [reflexivity|]. apply IH; lia. Qed.
Lemma existsb_in i l : existsb (Nat.eqb i) l = true <-> In i l.
Proof.
  rewrite existsb_exists. split; [intros (x & H & E); apply Nat.eqb_eq in E; congruence|].
  intros H; exists i; rewrite Nat.eqb_refl; auto.
Qed.
Lemma validate36_spec s t : String.length s = 36 -> validate36 (s +++ t) = true <-> Hyphenated s.
Proof.
  intros HL. rewrite validate36_okpos, forallb_forall. unfold Hyphenated. split.
  - intros H. split; [exact HL|]. intros i c Hc.
    assert (Hi : i < 36) by (rewrite <- HL; eapply sget_bound; exact Hc).
    specialize (H i ltac:(apply in_seq; lia)). unfold okpos in H.
    rewrite sget_app_l, Hc in H by lia.
    destruct (existsb (Nat.eqb i) [8; 13; 18; 23]) eqn:E.
    + apply existsb_in in E. split; [intros _; apply ceq_true; exact H|contradiction].
    + split; [intros Q; apply existsb_in in Q; congruence|]. intros _. apply is_xdigit_spec; exact H.
  - intros [_ H] i Hi. apply in_seq in Hi. unfold okpos. rewrite sget_app_l by lia.
    destruct (sget_some i s ltac:(lia)) as [c Hc]. rewrite Hc. destruct (H i c Hc) as [H1 H2].
    destruct (existsb (Nat.eqb i) [8; 13; 18; 23]) eqn:E.
    + apply existsb_in in E. apply ceq_true; auto.
    + apply is_xdigit_spec, H2. intros Q; apply existsb_in in Q; congruence.
Qed.
Lemma raw_spec s : String.length s = 32 ->
  forallb (fun i => xtob_at s (i * 2)) (List.seq 0 16) = true <-> Raw s.
Proof.
  intros HL. rewrite forallb_forall. unfold Raw. split.
  - intros H. split; [exact HL|]. intros i c Hc.
    assert (Hi : i < 32) by (rewrite <- HL; eapply sget_bound; exact Hc).
    specialize (H (i / 2) ltac:(apply in_seq; split; [lia|]; apply Nat.div_lt_upper_bound; lia)).
    rewrite xtob_hexat, andb_true_iff in H. destruct H as [H1 H2]. unfold hexat in *.
    assert (i = i / 2 * 2 \/ i = i / 2 * 2 + 1) as [E|E].
    { pose proof (Nat.div_mod_eq i 2). pose proof (Nat.mod_upper_bound i 2). lia. }
    + rewrite <- E, Hc in H1. apply is_xdigit_spec; exact H1.
    + rewrite <- E, Hc in H2. apply is_xdigit_spec; exact H2.
  - intros [_ H] i Hi. apply in_seq in Hi. rewrite xtob_hexat, andb_true_iff. unfold hexat.
    destruct (sget_some (i * 2) s ltac:(lia)) as [c Hc], (sget_some (i * 2 + 1) s ltac:(lia)) as [d Hd].
    rewrite Hc, Hd. split; apply is_xdigit_spec; eapply H; eassumption.
Qed.
Lemma hyphenated_len s : Hyphenated s -> String.length s = 36.
Proof. intros [H _]; exact H. Qed.
Lemma slower_length s : String.length (slower s) = String.length s.
Proof. induction s as [|c s IH]; cbn; congruence. Qed.

Lemma uuid_validate_spec s : uuid_validate s = true <-> UuidTextLoose s.
Proof.
  unfold uuid_validate. split.
  - destruct (Nat.eqb_spec (String.length s) 36) as [E|_].
    { intros H. rewrite <- (sapp_nil_r s) in H. apply validate36_spec in H; [|exact E]. apply ULPlain; exact H. }
    destruct (Nat.eqb_spec (String.length s) 45) as [E|_].
    { destruct (seq_spec (slower (stake 9 s)) "urn:uuid:") as [Hp|]; [|discriminate]. intros H.
      rewrite <- (stake_drop 9 s). apply ULUrn; [exact Hp|].
      rewrite <- (sapp_nil_r (sdrop 9 s)) in H. apply validate36_spec in H; [exact H|].
      rewrite sdrop_length; lia. }
    destruct (Nat.eqb_spec (String.length s) 38) as [E|_].
    { destruct s as [|a s]; [discriminate|]. cbn [sdrop]. rewrite ?sdrop_0. cbn in E. injection E as E. intros H.
      assert (H36 : String.length (stake 36 s) = 36) by (apply stake_length; lia).
      rewrite <- (stake_drop 36 s) in H |- *.
      apply validate36_spec in H; [|exact H36].
      assert (H1 : String.length (sdrop 36 s) = 1) by (rewrite sdrop_length; lia).
      destruct (sdrop 36 s) as [|b [|? ?]]; try discriminate. apply ULBraces; exact H. }
    destruct (Nat.eqb_spec (String.length s) 32) as [E|_]; [|discriminate].
    intros H. apply raw_spec in H; [|exact E]. apply ULRaw; exact H.
  - intros H; inversion H as [t Ht|p t Hp Ht|a b t Ht|t Ht]; subst.
    + pose proof (hyphenated_len _ Ht) as HL. rewrite HL. cbn [Nat.eqb].
      rewrite <- (sapp_nil_r s). apply validate36_spec; [|exact Ht]; exact HL.
    + pose proof (hyphenated_len _ Ht) as HL.
      assert (HP : String.length p = 9) by (rewrite <- slower_length, Hp; reflexivity).
      rewrite slength_app, HL, HP. cbn [Nat.eqb plus].
      rewrite <- HP, stake_app_l, Hp, seq_refl, sdrop_app_l.
      rewrite <- (sapp_nil_r t). apply validate36_spec; [|exact Ht]; exact HL.
    + pose proof (hyphenated_len _ Ht) as HL. cbn [String.length]. rewrite slength_app, HL. cbn [Nat.eqb plus String.length].
      cbn [sdrop]. rewrite ?sdrop_0. apply validate36_spec; assumption.
    + assert (HL : String.length s = 32) by (destruct Ht; assumption). rewrite HL. cbn [Nat.eqb].
      apply raw_spec; assumption.
Qed.

(** ** New *)
Definition lowhex (c : ascii) : bool := existsb (ceq c) (chars "0123456789abcdef").
Lemma lowhex_spec c : lowhex c = true <-> IsLowerHex c.
Proof.
  unfold lowhex, IsLowerHex. rewrite existsb_exists. split.
  - intros (x & H & E). apply ceq_true in E; congruence.
  - intros H; exists c; rewrite ceq_refl; auto.
Qed.
Lemma hex_digit_low n : lowhex (hex_digit (n mod 16)) = true.
Proof.
  apply lowhex_spec. unfold IsLowerHex. pose proof (N.mod_lt n 16 ltac:(discriminate)) as H.
  apply hex_digit_spec in H. revert H. generalize (hex_digit (n mod 16)), (N.to_nat (n mod 16)). intros c i.
  generalize "0123456789abcdef". intros s; revert i; induction s as [|d s IH]; intros [|i]; cbn; try discriminate.
  - intros Q; injection Q; auto.
  - intros Q; right; eapply IH; exact Q.
Qed.
Lemma hex_digit_low_div c : lowhex (hex_digit (bN c / 16)) = true.
Proof.
  pose proof (bN_lt c). rewrite <- (N.mod_small (bN c / 16) 16); [apply hex_digit_low|].
  apply N.div_lt_upper_bound; lia.
Qed.
Definition ver (c : ascii) : ascii := ascii_of_N (N.lor (N.land (bN c) 15) 64).
Definition var (c : ascii) : ascii := ascii_of_N (N.lor (N.land (bN c) 63) 128).
Lemma ver_hi c : hex_digit (bN (ver c) / 16) = "4"%char.
Proof. apply ceq_true. revert c. apply byte_sweep. vm_compute. reflexivity. Qed.
Lemma var_hi c : existsb (ceq (hex_digit (bN (var c) / 16))) (chars "89ab") = true.
Proof. revert c. apply byte_sweep. vm_compute. reflexivity. Qed.
Lemma ver_mod c : (bN (ver c) mod 16 = bN c mod 16)%N.
Proof. apply N.eqb_eq. revert c. apply byte_sweep. vm_compute. reflexivity. Qed.
Lemma var_mod c : (bN (var c) mod 64 = bN c mod 64)%N.
Proof. apply N.eqb_eq. revert c. apply byte_sweep. vm_compute. reflexivity. Qed.
Lemma hex_digit_inj a b : (a < 16)%N -> (b < 16)%N -> hex_digit a = hex_digit b -> a = b.
Proof.
  intros Ha Hb E. apply hex_digit_spec in Ha, Hb. rewrite <- E in Hb.
  assert (N.to_nat a = N.to_nat b); [|lia].
  revert Ha Hb. generalize (N.to_nat a), (N.to_nat b), (hex_digit a). intros i j c.
  assert (Hi : forall i, sget i "0123456789abcdef" = Some c -> i < 16) by (intros k Hk; apply sget_bound in Hk; exact Hk).
  intros Ha Hb. pose proof (Hi _ Ha). pose proof (Hi _ Hb).
  do 16 (destruct i as [|i]; [cbn in Ha; injection Ha as <-;
     do 16 (destruct j as [|j]; [cbn in Hb; (reflexivity || discriminate)|]); lia|]). lia.
Qed.
Lemma hex2_inj a b : hex_digit (bN a / 16) = hex_digit (bN b / 16) ->
  hex_digit (bN a mod 16) = hex_digit (bN b mod 16) -> a = b.
Proof.
  intros H1 H2. destruct (div16 _ (bN_lt a)) as (A1 & A2 & A3), (div16 _ (bN_lt b)) as (B1 & B2 & B3).
  apply hex_digit_inj in H1, H2; try assumption. apply bN_inj. rewrite A3, B3, H1, H2. reflexivity.
Qed.

Lemma string16 s : String.length s = 16 ->
  exists b0 b1 b2 b3 b4 b5 b6 b7 b8 b9 b10 b11 b12 b13 b14 b15,
    s = of_chars [b0; b1; b2; b3; b4; b5; b6; b7; b8; b9; b10; b11; b12; b13; b14; b15].
Proof.
  intros H. do 16 (destruct s as [|? s]; [discriminate|]). destruct s; [|discriminate].
  do 16 eexists. reflexivity.
Qed.

Lemma uuid_new_uuid4 r : String.length r = 16 -> Uuid4 (uuid_new r).
Proof.
  intros H. destruct (string16 r H) as (b0&b1&b2&b3&b4&b5&b6&b7&b8&b9&b10&b11&b12&b13&b14&b15&->).
  unfold uuid_new, uuid_encode. cbn [of_chars upd_byte stake sdrop hex_encode hex2 String.append].
  fold (ver b6). fold (var b8).
  split; [reflexivity|]. split; [|split; [cbn; rewrite ver_hi; reflexivity|]].
  - intros i c Hc. pose proof (sget_bound _ _ _ Hc) as Hi. cbn in Hi.
    do 36 (destruct i as [|i]; [cbn in Hc; injection Hc as <-; split; intros Q;
      try reflexivity; try (apply lowhex_spec; first [apply hex_digit_low | apply hex_digit_low_div]);
      exfalso; cbn in Q; (lia || (apply Q; tauto))|]). lia.
  - exists (hex_digit (bN (var b8) / 16)). split; [reflexivity|].
    pose proof (var_hi b8) as Q. apply existsb_exists in Q as (x & Hx & E). apply ceq_true in E. rewrite E; exact Hx.
Qed.
Lemma lower_is_hex c : IsLowerHex c -> IsHex c.
Proof.
  unfold IsLowerHex. intros H. assert (Q : is_xdigit c = true); [|apply is_xdigit_spec; exact Q].
  cbn in H. repeat (destruct H as [<-|H]; [reflexivity|]). destruct H.
Qed.
Lemma uuid_new_valid r : String.length r = 16 -> uuid_validate (uuid_new r) = true.
Proof.
  intros H. apply uuid_validate_spec, ULPlain. destruct (uuid_new_uuid4 r H) as (H1 & H2 & _).
  split; [exact H1|]. intros i c Hc. destruct (H2 i c Hc) as [Ha Hb]. split; [exact Ha|].
  intros Q; apply lower_is_hex; auto.
Qed.
Lemma uuid_new_inj r r' : String.length r = 16 -> String.length r' = 16 ->
  uuid_new r = uuid_new r' -> SameFreeBits r r'.
Proof.
  intros H H' E. destruct (string16 r H) as (b0&b1&b2&b3&b4&b5&b6&b7&b8&b9&b10&b11&b12&b13&b14&b15&->).
  destruct (string16 r' H') as (c0&c1&c2&c3&c4&c5&c6&c7&c8&c9&c10&c11&c12&c13&c14&c15&->).
  unfold uuid_new, uuid_encode in E. cbn [of_chars upd_byte stake sdrop hex_encode hex2 String.append] in E.
  fold (ver b6) in E. fold (var b8) in E. fold (ver c6) in E. fold (var c8) in E.
  injection E as E0 E0' E1 E1' E2 E2' E3 E3' E4 E4' E5 E5' E6 E6' E7 E7' E8 E8' E9 E9' E10 E10' E11 E11' E12 E12' E13 E13' E14 E14' E15 E15'.
  pose proof (hex2_inj _ _ E0 E0'). pose proof (hex2_inj _ _ E1 E1'). pose proof (hex2_inj _ _ E2 E2').
  pose proof (hex2_inj _ _ E3 E3'). pose proof (hex2_inj _ _ E4 E4'). pose proof (hex2_inj _ _ E5 E5').
  pose proof (hex2_inj _ _ E6 E6') as V6. pose proof (hex2_inj _ _ E7 E7'). pose proof (hex2_inj _ _ E8 E8') as V8.
  pose proof (hex2_inj _ _ E9 E9'). pose proof (hex2_inj _ _ E10 E10'). pose proof (hex2_inj _ _ E11 E11').
  pose proof (hex2_inj _ _ E12 E12'). pose proof (hex2_inj _ _ E13 E13'). pose proof (hex2_inj _ _ E14 E14').
  pose proof (hex2_inj _ _ E15 E15'). clear - V6 V8 H0 H1 H2 H3 H4 H5 H6 H7 H8 H9 H10 H11 H12 H13. subst.
  split; [|split].
  - intros i N6 N8. do 16 (destruct i as [|i]; [reflexivity || congruence|]). reflexivity.
  - intros a b Ha Hb. cbn in Ha, Hb. injection Ha as <-. injection Hb as <-.
    rewrite <- (ver_mod b6), <- (ver_mod c6), V6. reflexivity.
  - intros a b Ha Hb. cbn in Ha, Hb. injection Ha as <-. injection Hb as <-.
    rewrite <- (var_mod b8), <- (var_mod c8), V8. reflexivity.
Qed.
