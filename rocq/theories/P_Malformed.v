(** * Proofs: a checker that accepts all well-formed documents, to show that some are not *)
From Coq Require Import ZArith.
From Verif Require Import GoBase GoNum GoUtf8 Types XmlTypes S_Core S_Xml S_Lex S_WellFormed P_Core P_Xml P_WellFormed.

(** Where the checker is: in a text, after <, in the name of an opening or closing tag, in the name of an attribute with
    [k] colons so far, after =, in a value, after a value, after the / of an empty-element tag; with the names of the
    open tags *)
Inductive At := AText | ALt | AOpen (nm : string) | AClose (nm : string) | AAttr (nm : string) (k : nat) | AEq (nm : string) | AVal (nm : string) | AAfter (nm : string) | ASlash.
Definition blank (c : ascii) : bool := ceq c " " || ceq c (ascii_of_N 9) || ceq c (ascii_of_N 10) || ceq c (ascii_of_N 13).
Definition chk1 (st : At * list string) (c : ascii) : option (At * list string) :=
  let (a, l) := st in
  let tag nm := if ceq c ">" then Some (AText, nm :: l) else if ceq c "/" then Some (ASlash, l) else if blank c then Some (AAttr nm 0, l) else None in
  match a with
  | AText => Some (if ceq c "<" then ALt else AText, l)
  | ALt => if ceq c "/" then Some (AClose "", l) else if ceq c "?" then None else Some (AOpen (String c ""), l)
  | AOpen nm => if ceq c ">" || ceq c "/" || blank c then tag nm else Some (AOpen (nm +++ String c ""), l)
  | AClose nm => if ceq c ">" then match l with x :: l => if seq x nm then Some (AText, l) else None | [] => None end else Some (AClose (nm +++ String c ""), l)
  | AAttr nm k => if ceq c "=" then Some (AEq nm, l) else if ceq c ":" then match k with 0 => Some (AAttr nm 1, l) | _ => None end else Some (AAttr nm k, l)
  | AEq nm => if ceq c """" then Some (AVal nm, l) else None
  | AVal nm => Some (if ceq c """" then AAfter nm else AVal nm, l)
  | AAfter nm => tag nm
  | ASlash => if ceq c ">" then Some (AText, l) else None
  end.
Fixpoint chk (st : At * list string) (s : string) : option (At * list string) :=
  match s with "" => Some st | String c s => match chk1 st c with Some st => chk st s | None => None end end.
Definition checks (s : string) : bool := match chk (AText, []) s with Some (AText, []) => true | _ => false end.
Lemma chk_app a : forall st b, chk st (a +++ b) = match chk st a with Some st => chk st b | None => None end.
Proof. induction a as [|c a IH]; intros st b; [reflexivity|]. cbn [String.append chk]. destruct (chk1 st c); [apply IH|reflexivity]. Qed.

Lemma chk_cons st c s st' : chk1 st c = Some st' -> chk st (String c s) = chk st' s.
Proof. intros H. cbn [chk]. rewrite H. reflexivity. Qed.

(** ** The characters of names, values and texts *)
Definition nmc (c : ascii) : bool :=
  ((128 <=? bN c) || (65 <=? bN c) && (bN c <=? 90) || (97 <=? bN c) && (bN c <=? 122) || (48 <=? bN c) && (bN c <=? 57) || (bN c =? 95) || (bN c =? 45) || (bN c =? 46))%N.
Lemma str1_high x : (128 <= x < 256)%N -> sall (fun c => (128 <=? bN c)%N) (str1 x) = true.
Proof. intros H. unfold str1. cbn [sall]. unfold bN. rewrite N_ascii_embedding by lia. rewrite andb_true_r. apply N.leb_le. lia. Qed.
Lemma sall_app f a b : sall f (a +++ b) = sall f a && sall f b.
Proof. induction a as [|c a IH]; [reflexivity|]. cbn [String.append sall]. rewrite IH, andb_assoc. reflexivity. Qed.
Lemma sall_impl (f g : ascii -> bool) s : (forall c, f c = true -> g c = true) -> sall f s = true -> sall g s = true.
Proof. intros H. induction s as [|c s IH]; intros E; [reflexivity|]. cbn [sall] in *. apply andb_true_iff in E as [E1 E2]. rewrite (H c E1), (IH E2). reflexivity. Qed.
(** The bytes of a character: its code, if it is small, or only large ones *)
Lemma utf8_bytes r e : Utf8 r e -> (r < 128)%N /\ e = str1 r \/ (128 <= r)%N /\ sall (fun c => (128 <=? bN c)%N) e = true.
Proof.
  intros H. inversion H; subst; [left; split; [assumption|reflexivity]|right; split; [lia|]..]; rewrite ?sall_app, ?str1_high by lia; reflexivity.
Qed.
Lemma utf8_all (f : ascii -> bool) r e : Utf8 r e -> (forall c, (128 <= bN c)%N -> f c = true) -> (forall c, (r < 128)%N -> bN c = r -> f c = true) -> sall f e = true.
Proof.
  intros U H1 H2. destruct (utf8_bytes r e U) as [[L ->]|[L E]].
  - unfold str1. cbn [sall]. rewrite andb_true_r. apply H2; [exact L|]. unfold bN. apply N_ascii_embedding. lia.
  - revert E. apply sall_impl. intros c Hc. apply H1, N.leb_le, Hc.
Qed.
Lemma start_char r : NameStart r -> (r < 128)%N -> forall c, bN c = r -> nmc c = true.
Proof. unfold NameStart. intros H L c <-. unfold nmc. rewrite !orb_true_iff, !andb_true_iff, !N.leb_le, !N.eqb_eq. lia. Qed.
Lemma name_char r : NameChar r -> (r < 128)%N -> forall c, bN c = r -> nmc c = true.
Proof. unfold NameChar, NameStart. intros H L c <-. unfold nmc. rewrite !orb_true_iff, !andb_true_iff, !N.leb_le, !N.eqb_eq. lia. Qed.
Lemma high_nmc c : (128 <= bN c)%N -> nmc c = true.
Proof. intros H. unfold nmc. rewrite !orb_true_iff, !andb_true_iff, !N.leb_le, !N.eqb_eq. lia. Qed.
Lemma rest_chars s : NameRest s -> sall nmc s = true.
Proof.
  induction 1 as [|r e s C U _ IH]; [reflexivity|]. rewrite sall_app, IH, andb_true_r. apply (utf8_all nmc r e U); [apply high_nmc|]. intros c L. apply name_char; assumption.
Qed.
Lemma name_chars s : NcName s -> sall nmc s = true.
Proof.
  intros (r & e & q & C & U & R & ->). rewrite sall_app, (rest_chars q R), andb_true_r. apply (utf8_all nmc r e U); [apply high_nmc|]. intros c L. apply start_char; assumption.
Qed.
Lemma nmc_not d c : nmc d = false -> nmc c = true -> ceq c d = false.
Proof. intros H1 H2. destruct (ceq_spec c d) as [->|]; [congruence|reflexivity]. Qed.
Definition qnc (c : ascii) : bool := nmc c || ceq c ":".
Lemma qname_chars s p l : QName s p l -> sall qnc s = true /\ s <> "".
Proof.
  assert (K : forall c, nmc c = true -> qnc c = true) by (intros c E; unfold qnc; rewrite E; reflexivity).
  intros [Hl [[_ ->]|[Hp ->]]]; (split; [|]).
  - exact (sall_impl nmc qnc l K (name_chars l Hl)).
  - apply nc_nonempty, Hl.
  - rewrite sall_app. cbn [String.append sall]. rewrite (sall_impl nmc qnc l K (name_chars l Hl)), (sall_impl nmc qnc p K (name_chars p Hp)). reflexivity.
  - destruct p; [destruct (nc_nonempty _ Hp eq_refl)|discriminate].
Qed.
Lemma qnc_not d c : qnc d = false -> qnc c = true -> ceq c d = false.
Proof. intros H1 H2. destruct (ceq_spec c d) as [->|]; [congruence|reflexivity]. Qed.
Definition refc (c : ascii) : bool := nmc c || ceq c "&" || ceq c "#" || ceq c ";".
Lemma digit_nmc c d : DigitVal c d -> nmc c = true.
Proof.
  intros H. unfold DigitVal in H. assert (K : forall s n, sall nmc s = true -> nth_error (chars s) n = Some c -> nmc c = true).
  { intros s n E Hn. rewrite sall_forall in E. apply E. exact (nth_error_In _ _ Hn). }
  destruct H as [H|H]; revert H; apply K; reflexivity.
Qed.
Lemma numeral_nmc b ds r : Numeral b ds r -> sall nmc ds = true.
Proof.
  induction 1 as [c d _ D|s n c d _ IH _ D]; [cbn [sall]; rewrite (digit_nmc c d D); reflexivity|]. rewrite sall_app, IH. cbn [sall]. rewrite (digit_nmc c d D). reflexivity.
Qed.
Lemma reference_chars x v : Reference x v -> sall refc x = true.
Proof.
  assert (K : forall c, nmc c = true -> refc c = true) by (intros c E; unfold refc; rewrite E; reflexivity).
  intros [nm w H|ds r e H _ _|ds r e H _ _].
  - cbn [In] in H. repeat (destruct H as [H|H]; [injection H as <- <-; reflexivity|]). destruct H.
  - rewrite !sall_app, (sall_impl nmc refc ds K (numeral_nmc _ _ _ H)). reflexivity.
  - rewrite !sall_app, (sall_impl nmc refc ds K (numeral_nmc _ _ _ H)). reflexivity.
Qed.
(** A character that may not be there and is not one of references *)
Lemma written_without no d s t : (bN d < 128)%N -> In (bN d) no -> refc d = false -> Written no s t -> sall (fun c => negb (ceq c d)) s = true.
Proof.
  intros Hd Hi Hr. induction 1 as [|r e s t X Nx U _ IH|x v s t R _ IH]; [reflexivity| |]; rewrite sall_app, IH, andb_true_r.
  - apply (utf8_all _ r e U); intros c L; [|intros E]; destruct (ceq_spec c d) as [->|]; try reflexivity; [lia|]. subst r. destruct (Nx Hi).
  - apply (sall_impl refc _ x); [|exact (reference_chars x v R)]. intros c Hc. destruct (ceq_spec c d) as [->|]; [congruence|reflexivity].
Qed.

(** ** The checker on them *)
Lemma chk_text s t l : Written in_text s t -> chk (AText, l) s = Some (AText, l).
Proof.
  intros W. pose proof (written_without in_text "<"%char s t ltac:(reflexivity) ltac:(left; reflexivity) ltac:(reflexivity) W) as H. clear W. induction s as [|c s IH]; [reflexivity|].
  cbn [sall] in H. apply andb_true_iff in H as [H1 H2]. apply negb_true_iff in H1. cbn [chk chk1]. rewrite H1. exact (IH H2).
Qed.
Lemma chk_value s t nm l : Written in_value s t -> chk (AVal nm, l) s = Some (AVal nm, l).
Proof.
  intros W. pose proof (written_without in_value """"%char s t ltac:(reflexivity) ltac:(right; right; left; reflexivity) ltac:(reflexivity) W) as H. clear W. induction s as [|c s IH]; [reflexivity|].
  cbn [sall] in H. apply andb_true_iff in H as [H1 H2]. apply negb_true_iff in H1. cbn [chk chk1]. rewrite H1. exact (IH H2).
Qed.
Lemma blank_nmc c : qnc c = true -> blank c = false.
Proof. intros H. unfold blank. rewrite !(qnc_not _ c) by (assumption || reflexivity). reflexivity. Qed.
Lemma sapp_cons a c b : (a +++ String c "") +++ b = a +++ String c b.
Proof. rewrite sapp_assoc. reflexivity. Qed.
Lemma chk_open nm : sall qnc nm = true -> forall a l, chk (AOpen a, l) nm = Some (AOpen (a +++ nm), l).
Proof.
  induction nm as [|c nm IH]; intros H a l; [rewrite sapp_nil_r; reflexivity|]. cbn [sall] in H. apply andb_true_iff in H as [H1 H2].
  cbn [chk chk1]. rewrite (blank_nmc c H1), !(qnc_not _ c) by (assumption || reflexivity). cbn [orb]. rewrite (IH H2), sapp_cons. reflexivity.
Qed.
Lemma chk_close nm : sall qnc nm = true -> forall a l, chk (AClose a, l) nm = Some (AClose (a +++ nm), l).
Proof.
  induction nm as [|c nm IH]; intros H a l; [rewrite sapp_nil_r; reflexivity|]. cbn [sall] in H. apply andb_true_iff in H as [H1 H2].
  cbn [chk chk1]. rewrite !(qnc_not _ c) by (assumption || reflexivity). rewrite (IH H2), sapp_cons. reflexivity.
Qed.
Lemma chk_nc s : sall nmc s = true -> forall nm k l, chk (AAttr nm k, l) s = Some (AAttr nm k, l).
Proof.
  induction s as [|c s IH]; intros H nm k l; [reflexivity|]. cbn [sall] in H. apply andb_true_iff in H as [H1 H2].
  cbn [chk chk1]. rewrite !(nmc_not _ c) by (assumption || reflexivity). apply IH, H2.
Qed.
Lemma chk_attr_name s p q nm l : QName s p q -> exists k, chk (AAttr nm 0, l) s = Some (AAttr nm k, l).
Proof.
  intros [Hl [[_ ->]|[Hp ->]]].
  - exists 0. apply chk_nc, name_chars, Hl.
  - exists 1. rewrite chk_app, chk_nc by (apply name_chars, Hp). cbn [String.append chk chk1]. change (ceq ":" "=") with false. change (ceq ":" ":") with true. cbv iota. apply chk_nc, name_chars, Hl.
Qed.
Lemma blank_chars w : S_Lex.Blank w -> sall blank w = true.
Proof.
  intros H. apply sall_forall. intros c Hc. specialize (H c Hc). cbn [In] in H. destruct H as [<-|[<-|[<-|[<-|[]]]]]; reflexivity.
Qed.
Lemma chk_blanks w : sall blank w = true -> forall nm k l, chk (AAttr nm k, l) w = Some (AAttr nm k, l).
Proof.
  induction w as [|c w IH]; intros H nm k l; [reflexivity|]. cbn [sall] in H. apply andb_true_iff in H as [H1 H2]. cbn [chk chk1].
  assert (E : forall d, blank d = false -> ceq c d = false) by (intros d Hd; destruct (ceq_spec c d) as [->|]; [congruence|reflexivity]).
  rewrite !E by reflexivity. apply IH, H2.
Qed.
(** Before the first attribute or after a value *)
Definition Before (a : At) (nm : string) : Prop := a = AOpen nm \/ a = AAfter nm.
Lemma chk_before a nm c l : Before a nm -> (c = ">"%char \/ c = "/"%char \/ blank c = true) ->
  chk1 (a, l) c = if ceq c ">" then Some (AText, nm :: l) else if ceq c "/" then Some (ASlash, l) else Some (AAttr nm 0, l).
Proof.
  intros [->| ->] H; cbn [chk1]; (destruct H as [->|[->|H]]; [reflexivity|reflexivity|]); rewrite H, ?orb_true_r; reflexivity.
Qed.
Lemma chk_attrs s xs : Attributes s xs -> forall a nm l, Before a nm -> exists a', Before a' nm /\ chk (a, l) s = Some (a', l).
Proof.
  induction 1 as [|w n p q s v r xs Bw Nw Q W _ IH]; intros a nm l B; [exists a; split; [exact B|reflexivity]|].
  destruct (IH (AAfter nm) nm l (or_intror eq_refl)) as (a' & B' & E). exists a'. split; [exact B'|].
  pose proof (blank_chars w Bw) as Hw. destruct w as [|c w]; [congruence|]. cbn [sall] in Hw. apply andb_true_iff in Hw as [Hc Hw].
  assert (Ec : forall d, blank d = false -> ceq c d = false) by (intros d Hd; destruct (ceq_spec c d) as [->|]; [congruence|reflexivity]).
  cbn [String.append chk]. rewrite (chk_before a nm c l B (or_intror (or_intror Hc))), !Ec by reflexivity.
  rewrite chk_app, chk_blanks by exact Hw. destruct (chk_attr_name n p q nm l Q) as (k & Ek). rewrite chk_app, Ek. cbn [String.append].
  rewrite (chk_cons _ _ _ (AEq nm, l)) by reflexivity. rewrite (chk_cons _ _ _ (AVal nm, l)) by reflexivity. rewrite chk_app, (chk_value s v nm l W). cbn [String.append].
  rewrite (chk_cons _ _ _ (AAfter nm, l)) by reflexivity. exact E.
Qed.
Lemma chk_tag nm p q s xs l : QName nm p q -> Attributes s xs -> exists a, Before a nm /\ chk (AText, l) ("<" +++ nm +++ s) = Some (a, l).
Proof.
  intros Q A. destruct (qname_chars nm p q Q) as [Hn Nn]. destruct nm as [|c nm]; [congruence|]. cbn [sall] in Hn. apply andb_true_iff in Hn as [Hc Hn].
  destruct (chk_attrs s xs A (AOpen (String c nm)) (String c nm) l (or_introl eq_refl)) as (a & B & E). exists a. split; [exact B|].
  cbn [String.append]. rewrite (chk_cons _ _ _ (ALt, l)) by reflexivity. cbn [chk chk1]. rewrite !(qnc_not _ c) by (assumption || reflexivity). rewrite chk_app, (chk_open nm Hn). exact E.
Qed.
Lemma chk_well sc s k : Well sc s k -> forall l, chk (AText, l) s = Some (AText, l).
Proof.
  induction 1 as [sc|sc s t r k W _ IH|sc nm p q s xs body kb r k Q A _ _ IHb _ IHr|sc nm p q s xs r k Q A _ _ IHr]; intros l.
  - reflexivity.
  - rewrite chk_app, (chk_text s t l W). apply IH.
  - replace ("<" +++ nm +++ s +++ ">" +++ body +++ "</" +++ nm +++ ">" +++ r) with (("<" +++ nm +++ s) +++ ">" +++ body +++ "</" +++ nm +++ ">" +++ r) by (rewrite !sapp_assoc; reflexivity).
    destruct (chk_tag nm p q s xs l Q A) as (a & B & E). rewrite chk_app, E. change (">" +++ body +++ "</" +++ nm +++ ">" +++ r) with (String ">" (body +++ "</" +++ nm +++ ">" +++ r)).
    cbn [chk]. rewrite (chk_before a nm ">" l B (or_introl eq_refl)). change (ceq ">" ">") with true. cbv iota. rewrite chk_app, IHb.
    change ("</" +++ nm +++ ">" +++ r) with (String "<" (String "/" (nm +++ ">" +++ r))). rewrite (chk_cons _ _ _ (ALt, nm :: l)) by reflexivity. rewrite (chk_cons _ _ _ (AClose "", nm :: l)) by reflexivity.
    rewrite chk_app, (chk_close nm (proj1 (qname_chars nm p q Q))). cbn [String.append]. rewrite (chk_cons _ _ _ (AText, l)) by (cbn [chk1]; rewrite seq_refl; reflexivity). apply IHr.
  - replace ("<" +++ nm +++ s +++ "/>" +++ r) with (("<" +++ nm +++ s) +++ "/>" +++ r) by (rewrite !sapp_assoc; reflexivity).
    destruct (chk_tag nm p q s xs l Q A) as (a & B & E). rewrite chk_app, E. change ("/>" +++ r) with (String "/" (String ">" r)). cbn [chk].
    rewrite (chk_before a nm "/" l B (or_intror (or_introl eq_refl))). change (ceq "/" ">") with false. change (ceq "/" "/") with true. cbv iota. apply IHr.
Qed.
Lemma malformed s : checks s = false -> ~ Well [] s [true].
Proof. intros H W. unfold checks in H. rewrite (chk_well [] s [true] W []) in H. discriminate. Qed.
