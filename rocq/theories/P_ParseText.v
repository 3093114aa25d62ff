(** * Proofs about the texts of numbers a reader accepts *)
From Coq Require Import ZArith Lia.
From Verif Require Import GoBase GoNum GoFloat S_Parse GoStrconv.
Local Open Scope string_scope.

(** ** Digits *)
Lemma hex_cases c : is_hex c = match hex_pos c with Some _ => true | None => false end /\
  (is_hex c = true -> hex_digit_val c = match hex_pos c with Some n => N.of_nat n | None => 0%N end).
Proof. destruct c as [[] [] [] [] [] [] [] []]; split; try (intros; discriminate); vm_compute; reflexivity. Qed.
Lemma is_dig_digit hex c : is_dig hex c = digit hex c.
Proof. destruct hex; [apply hex_cases|reflexivity]. Qed.
Lemma hex_val_number s : sall (digit true) s = true -> forall v, hex_val_aux v s = hex_number v s.
Proof.
  induction s as [|c s IH]; intros H v; [reflexivity|]. cbn in H. rewrite andb_true_iff in H. destruct H as [Hc Hs].
  cbn [hex_val_aux hex_number]. rewrite IH by exact Hs. f_equal. rewrite N.mul_comm. f_equal.
  apply hex_cases. rewrite (proj1 (hex_cases c)). exact Hc.
Qed.
Lemma digit_not hex c : digit hex c = true -> ceq c "_" = false /\ ceq c "." = false /\ ceq c "-" = false /\ ceq c "+" = false /\
  ceq (lower c) "x" = false /\ ceq (lower c) "i" = false /\ ceq (lower c) "n" = false /\ ceq (lower c) "p" = false /\ (hex = false -> ceq (lower c) "e" = false).
Proof. destruct hex; destruct c as [[] [] [] [] [] [] [] []]; intros H; try discriminate H; repeat split; intros; try discriminate; reflexivity. Qed.
Lemma is_digit_digit hex c : is_digit c = true -> digit hex c = true.
Proof. destruct hex; [|auto]. intros H. rewrite <- is_dig_digit. cbn. unfold is_hex. rewrite H. reflexivity. Qed.
Lemma exp_char (hex : bool) c : lower c = (if hex then "p"%char else "e"%char) -> digit hex c = false /\ ceq c "_" = false /\ ceq c "." = false.
Proof. destruct hex; destruct c as [[] [] [] [] [] [] [] []]; intros H; try discriminate H; repeat split; reflexivity. Qed.

(** ** Underscores *)
Lemma unscore_app a b : unscore (a +++ b) = unscore a +++ unscore b.
Proof. induction a as [|c a IH]; cbn; [reflexivity|]. destruct (ceq c "_"); [exact IH|]. cbn. rewrite IH. reflexivity. Qed.
Definition nounder (t : string) : Prop := match t with EmptyString => True | String c _ => ceq c "_" = false end.
Lemma snoc_cases a : a = "" \/ exists a' c, a = a' +++ String c "".
Proof.
  induction a as [|c a [->|(a' & x & ->)]]; [left; reflexivity|right; exists "", c; reflexivity|right; exists (String c a'), x; reflexivity].
Qed.
(** What underscoreOK checks of a text whose previous character was a digit ([g]) or an underscore ([u]) *)
Definition Checked (hex g u : bool) (t : string) : Prop :=
  (u = true -> exists c b, t = String c b /\ digit hex c = true) /\
  forall a b, t = a +++ String "_" b ->
    ((g = true /\ a = "") \/ exists a' c, a = a' +++ String c "" /\ digit hex c = true) /\
    exists c b', b = String c b' /\ digit hex c = true.
Lemma checked_step hex g u c r (H : ceq c "_" = false) : Checked hex g u (String c r) <->
  (u = true -> digit hex c = true) /\ Checked hex (digit hex c) false r.
Proof.
  split.
  - intros [H1 H2]. split.
    + intros U. destruct (H1 U) as (x & b & E & D). injection E as -> ->. exact D.
    + split; [discriminate|]. intros a b ->. destruct (H2 (String c a) b eq_refl) as [[[_ X]|(a' & x & E & D)] B]; [discriminate|].
      split; [|exact B]. destruct a' as [|y a']; cbn in E; injection E as -> ->; [left; split; [exact D|reflexivity]|right; exists a', x; auto].
  - intros [H1 [_ H2]]. split; [intros U; exists c, r; split; [reflexivity|exact (H1 U)]|].
    intros a b E. destruct a as [|y a]; cbn in E; injection E as -> ->; [discriminate H|].
    destruct (H2 a b eq_refl) as [A B]. split; [|exact B]. right. destruct A as [[D ->]|(a' & x & -> & D)]; [exists "", y; auto|exists (String y a'), x; auto].
Qed.

Lemma checked_under hex g u r : Checked hex g u (String "_" r) <-> u = false /\ g = true /\ Checked hex false true r.
Proof.
  assert (D_ : digit hex "_" = false) by (destruct hex; reflexivity).
  split.
  - intros [H1 H2]. split; [destruct u; [|reflexivity]; destruct (H1 eq_refl) as (c & b & E & D); inversion E; subst; congruence|].
    destruct (H2 "" r eq_refl) as [[[G _]|(a' & c & E & _)] B]; [|destruct a'; discriminate].
    split; [exact G|]. split; [intros _; exact B|]. intros a b ->.
    destruct (H2 (String "_" a) b eq_refl) as [[[_ X]|(a' & x & E & D)] B']; [discriminate|]. split; [|exact B'].
    destruct a' as [|y a']; cbn in E; injection E as E1 E2; [subst; congruence|]. right. exists a', x. auto.
  - intros (-> & -> & [H1 H2]). split; [discriminate|]. intros a b E. destruct a as [|y a]; cbn in E.
    + injection E as E1. subst b. split; [left; auto|apply H1; reflexivity].
    + injection E as E1 E2. destruct (H2 a b E2) as [A B]. split; [|exact B]. right. destruct A as [[D _]|(a' & x & -> & D)]; [discriminate|].
      exists (String y a'), x. auto.
Qed.
Lemma checked_nil hex g u : Checked hex g u "" <-> u = false.
Proof.
  split.
  - intros [H _]. destruct u; [|reflexivity]. destruct (H eq_refl) as (c & b & E & _). discriminate.
  - intros ->. split; [discriminate|]. intros a b E. destruct a; discriminate.
Qed.
Lemma under_ok_checked hex t : forall g u, g && u = false -> under_ok hex g u t = true <-> Checked hex g u t.
Proof.
  induction t as [|c t IH]; intros g u GU; cbn [under_ok].
  - rewrite checked_nil, negb_true_iff. reflexivity.
  - rewrite is_dig_digit. destruct (digit hex c) eqn:D.
    + destruct (digit_not hex c D) as (U & _). rewrite (checked_step _ _ _ _ _ U), D, IH by reflexivity. tauto.
    + destruct (ceq c "_") eqn:U.
      * apply ceq_true in U. subst c. rewrite checked_under, andb_true_iff, IH by reflexivity. destruct g, u; try discriminate; intuition.
      * rewrite (checked_step _ _ _ _ _ U), D, andb_true_iff, negb_true_iff, IH by reflexivity. destruct u; intuition; discriminate.
Qed.
Lemma separated_checked hex t : Separated hex t <-> Checked hex hex false t.
Proof. unfold Separated, Checked. split; [intros H; split; [discriminate|exact H]|intros [_ H]; exact H]. Qed.

(** ** The mantissa *)
Lemma mantissa_spec hex q : forall dot, let '(i, f, r) := mantissa hex dot q in
  sall (digit hex) i = true /\ sall (digit hex) f = true /\
  if dot then i = "" /\ unscore q = f +++ unscore r
  else exists pt, unscore q = i +++ pt +++ unscore r /\ (pt = "." +++ f \/ (pt = "" /\ f = "")).
Proof.
  induction q as [|c q IH]; intros dot; cbn [mantissa].
  - split; [reflexivity|]. split; [reflexivity|]. destruct dot; [split; reflexivity|]. exists "". split; [reflexivity|right; split; reflexivity].
  - assert (Stop : sall (digit hex) "" = true /\ sall (digit hex) "" = true /\
      if dot then "" = "" /\ unscore (String c q) = "" +++ unscore (String c q)
      else exists pt, unscore (String c q) = "" +++ pt +++ unscore (String c q) /\ (pt = "." +++ "" \/ (pt = "" /\ "" = ""))).
    { split; [reflexivity|]. split; [reflexivity|]. destruct dot; [split; reflexivity|]. exists "". split; [reflexivity|right; split; reflexivity]. }
    destruct (ceq c "_") eqn:U.
    + specialize (IH dot). destruct (mantissa hex dot q) as [[i f] r]. cbn [unscore]. rewrite U. exact IH.
    + destruct (ceq c ".") eqn:P.
      * destruct dot; [exact Stop|]. specialize (IH true). destruct (mantissa hex true q) as [[i f] r].
        destruct IH as (Di & Df & -> & E). split; [reflexivity|]. split; [exact Df|]. exists ("." +++ f).
        apply ceq_true in P. subst c. cbn [unscore ceq]. rewrite U, E. cbn [String.append]. split; [reflexivity|left; reflexivity].
      * rewrite is_dig_digit. destruct (digit hex c) eqn:D; [|exact Stop].
        specialize (IH dot). destruct (mantissa hex dot q) as [[i f] r]. destruct IH as (Di & Df & K). cbn [unscore]. rewrite U. destruct dot.
        -- destruct K as [-> E]. cbn. rewrite D, Df, E. repeat split.
        -- cbn [sall]. rewrite D, Di. split; [reflexivity|]. split; [exact Df|]. destruct K as (pt & E & K). exists pt. rewrite E. split; [reflexivity|exact K].
Qed.
(** What may follow a mantissa *)
Definition stops (hex : bool) (t : string) : Prop :=
  match t with EmptyString => True | String c _ => ceq c "_" = false /\ ceq c "." = false /\ digit hex c = false end.
Lemma unscore_cons t c u : unscore t = String c u -> exists t', unscore t' = u /\ ceq c "_" = false /\
  (t = String c t' \/ exists t'', t = String "_" t'' /\ unscore t'' = String c u).
Proof.
  destruct t as [|x t]; [discriminate|]. cbn [unscore]. destruct (ceq x "_") eqn:X.
  - intros E. apply ceq_true in X. subst x.
    assert (K : ceq c "_" = false).
    { clear -E. induction t as [|y t IH]; [discriminate|]. cbn in E. destruct (ceq y "_") eqn:Y; [auto|]. injection E as -> _. exact Y. }
    exists u. split; [|split; [exact K|right; exists t; auto]].
    clear K. revert c u E. induction t as [|y t IH]; intros c u E; [discriminate|]. cbn in E. destruct (ceq y "_") eqn:Y; [eauto|].
    injection E as _ <-. clear. induction t as [|z t IH]; [reflexivity|]. cbn. destruct (ceq z "_") eqn:Z; [exact IH|]. cbn. rewrite Z, IH. reflexivity.
  - intros E. injection E as -> <-. exists t. auto.
Qed.
Lemma mantissa_frac hex q : forall f ex, unscore q = f +++ ex -> sall (digit hex) f = true -> stops hex ex ->
  exists a r, q = a +++ r /\ unscore r = ex /\ nounder r /\ mantissa hex true q = ("", f, r).
Proof.
  induction q as [|c q IH]; intros f ex E Df Hs; cbn [mantissa].
  - destruct f; [|discriminate]. cbn in E. subst ex. exists "", "". repeat split.
  - cbn [unscore] in E. destruct (ceq c "_") eqn:U.
    + destruct (IH f ex E Df Hs) as (a & r & -> & K). exists (String c a), r. split; [reflexivity|exact K].
    + destruct f as [|x f].
      * cbn in E. rewrite <- E in Hs. cbn in Hs. destruct Hs as (_ & P & D). rewrite P, is_dig_digit, D.
        exists "", (String c q). split; [reflexivity|]. split; [cbn [unscore]; rewrite U; exact E|]. split; [exact U|reflexivity].
      * cbn in E. injection E as -> E. cbn in Df. rewrite andb_true_iff in Df. destruct Df as [D Df].
        destruct (digit_not hex x D) as (_ & P & _). rewrite P, is_dig_digit, D.
        destruct (IH f ex E Df Hs) as (a & r & -> & Er & Nr & ->). exists (String x a), r. split; [reflexivity|]. split; [exact Er|]. split; [exact Nr|reflexivity].
Qed.
Lemma mantissa_text hex q : forall i pt f ex, unscore q = i +++ pt +++ ex -> sall (digit hex) i = true -> sall (digit hex) f = true ->
  (pt = "." +++ f \/ (pt = "" /\ f = "")) -> stops hex ex ->
  exists a r, q = a +++ r /\ unscore r = ex /\ nounder r /\ mantissa hex false q = (i, f, r).
Proof.
  induction q as [|c q IH]; intros i pt f ex E Di Df Hp Hs; cbn [mantissa].
  - destruct i; [|discriminate]. destruct Hp as [->|[-> ->]]; [discriminate|]. cbn in E. subst ex. exists "", "". repeat split.
  - cbn [unscore] in E. destruct (ceq c "_") eqn:U.
    + destruct (IH i pt f ex E Di Df Hp Hs) as (a & r & -> & K). exists (String c a), r. split; [reflexivity|exact K].
    + destruct i as [|x i].
      * destruct Hp as [->|[-> ->]].
        -- cbn in E. injection E as -> E. rewrite ceq_refl.
           destruct (mantissa_frac hex q f ex E Df Hs) as (a & r & -> & K). exists (String "." a), r. split; [reflexivity|exact K].
        -- cbn in E. rewrite <- E in Hs. cbn in Hs. destruct Hs as (_ & P & D). rewrite P, is_dig_digit, D.
           exists "", (String c q). split; [reflexivity|]. split; [cbn [unscore]; rewrite U; exact E|]. split; [exact U|reflexivity].
      * cbn in E. injection E as -> E. cbn in Di. rewrite andb_true_iff in Di. destruct Di as [D Di].
        destruct (digit_not hex x D) as (_ & P & _). rewrite P, is_dig_digit, D.
        destruct (IH i pt f ex E Di Df Hp Hs) as (a & r & -> & Er & Nr & ->). exists (String x a), r. split; [reflexivity|]. split; [exact Er|]. split; [exact Nr|reflexivity].
Qed.

(** ** Signs and exponents *)
Lemma exp_val_exact d : forall e, (dec_val_aux e d < 100000)%N -> exp_val e d = dec_val_aux e d.
Proof.
  induction d as [|c d IH]; intros e H; [reflexivity|]. cbn [exp_val dec_val_aux] in *.
  destruct (N.ltb_spec e 10000) as [L|L]; [apply IH; exact H|exfalso].
  pose proof (dec_val_aux_ge (e * 10 + (bN c - 48)) d). lia.
Qed.
Definition nosign (t : string) : Prop := match t with String c _ => ceq c "-" = false /\ ceq c "+" = false | EmptyString => True end.
Lemma opt_sign_text neg sg t : SignText neg sg -> nosign t -> opt_sign (sg +++ t) = (neg, t).
Proof.
  intros [[-> ->]|[-> [->| ->]]] H; try reflexivity. cbn [String.append]. destruct t as [|c t]; [reflexivity|].
  destruct H as [H1 H2]. cbn. rewrite H1, H2. reflexivity.
Qed.
Lemma opt_sign_spec s : let (neg, r) := opt_sign s in exists sg, s = sg +++ r /\ SignText neg sg.
Proof.
  destruct s as [|c s]; cbn [opt_sign]; [exists ""; split; [reflexivity|right; auto]|].
  destruct (ceq c "-") eqn:E1; [apply ceq_true in E1; subst c; exists "-"; split; [reflexivity|left; auto]|].
  destruct (ceq c "+") eqn:E2; [apply ceq_true in E2; subst c; exists "+"; split; [reflexivity|right; auto]|].
  exists "". split; [reflexivity|right; auto].
Qed.
Lemma digit_nosign hex c t : digit hex c = true -> nosign (String c t).
Proof. intros D. destruct (digit_not hex c D) as (_ & _ & A & B & _). split; assumption. Qed.
Lemma exp_digits_spec q : let (d, r) := exp_digits q in sall is_digit d = true /\ unscore q = d +++ unscore r /\ (r = "" -> unscore q = d).
Proof.
  assert (G : let (d, r) := exp_digits q in sall is_digit d = true /\ unscore q = d +++ unscore r).
  { induction q as [|c q IH]; cbn [exp_digits]; [split; reflexivity|]. destruct (ceq c "_") eqn:U.
    - destruct (exp_digits q) as [d r]. cbn [unscore]. rewrite U. exact IH.
    - destruct (is_digit c) eqn:D; [|split; reflexivity]. destruct (exp_digits q) as [d r]. cbn [unscore sall]. rewrite U, D.
      destruct IH as [H ->]. split; [exact H|reflexivity]. }
  destruct (exp_digits q) as [d r]. destruct G as [G1 G2]. split; [exact G1|]. split; [exact G2|]. intros ->. rewrite G2. apply sapp_nil_r.
Qed.
Lemma exp_digits_text q : sall is_digit (unscore q) = true -> exp_digits q = (unscore q, "").
Proof.
  induction q as [|c q IH]; intros H; cbn [exp_digits unscore] in *; [reflexivity|]. destruct (ceq c "_") eqn:U; [auto|].
  cbn in H. rewrite andb_true_iff in H. destruct H as [D H]. rewrite D, IH by exact H. reflexivity.
Qed.
Lemma exp_part_text hex k r : ExponentText hex k (unscore r) -> (Z.abs k < 100000)%Z -> nounder r ->
  (forall a b, r = a +++ String "_" b -> a <> "" -> exists a' c, a = a' +++ String c "" /\ digit hex c = true) ->
  exp_part hex r = Some k.
Proof.
  intros H B N Sep.
  destruct H as [(-> & -> & E)|(c & neg & sg & d & Hc & Hs & Hd & Dd & E & ->)].
  { destruct r as [|c r]; [reflexivity|]. cbn in N, E. rewrite N in E. discriminate. }
  destruct r as [|c' r]; [discriminate|]. cbn in N, E. rewrite N in E. injection E as -> E. cbn [exp_part].
  rewrite Hc. replace (ceq (if hex then "p" else "e")%char (if hex then "p" else "e")%char) with true by (destruct hex; reflexivity).
  assert (K : exists r', r = sg +++ r' /\ unscore r' = d /\ exists x y, r' = String x y /\ is_digit x = true).
  { assert (Dc : digit hex c = false) by (apply (exp_char hex c Hc)).
    destruct d as [|x d]; [congruence|]. cbn in Dd. rewrite andb_true_iff in Dd. destruct Dd as [Dx Dd].
    assert (Hx : forall s r', String c r = s +++ r' -> s <> "" -> (forall s' z, s = s' +++ String z "" -> digit hex z = false) ->
      unscore r' = String x d -> exists y, r' = String x y).
    { intros s r' Er Ns Hz Eu. destruct (unscore_cons r' x d Eu) as (t' & _ & _ & [->|(t'' & -> & _)]); [exists t'; reflexivity|exfalso].
      destruct (Sep s t'' Er Ns) as (a' & z & Ez & Dz). rewrite (Hz a' z Ez) in Dz. discriminate. }
    destruct Hs as [[_ ->]|[_ [->| ->]]]; cbn [String.append] in E.
    - destruct (unscore_cons r _ _ E) as (r' & Er & _ & [->|(t'' & -> & _)]).
      + exists r'. split; [reflexivity|]. split; [exact Er|]. destruct (Hx (String c "-") r') as (y & ->); [reflexivity|discriminate| |exact Er|exists x, y; auto].
        intros s' z Ez. destruct s' as [|w s']; cbn in Ez; [discriminate|]. injection Ez as _ Ez. destruct s' as [|w' s']; [|destruct s'; discriminate]. injection Ez as <-. destruct hex; reflexivity.
      + exfalso. destruct (Sep (String c "") t'' eq_refl) as (a' & z & Ez & Dz); [discriminate|]. destruct a' as [|w a']; [injection Ez as <-; congruence|destruct a'; discriminate].
    - exists r. split; [reflexivity|]. split; [exact E|]. destruct (Hx (String c "") r) as (y & ->); [reflexivity|discriminate| |exact E|exists x, y; auto].
      intros s' z Ez. destruct s' as [|w s']; [injection Ez as <-; exact Dc|destruct s'; discriminate].
    - destruct (unscore_cons r _ _ E) as (r' & Er & _ & [->|(t'' & -> & _)]).
      + exists r'. split; [reflexivity|]. split; [exact Er|]. destruct (Hx (String c "+") r') as (y & ->); [reflexivity|discriminate| |exact Er|exists x, y; auto].
        intros s' z Ez. destruct s' as [|w s']; cbn in Ez; [discriminate|]. injection Ez as _ Ez. destruct s' as [|w' s']; [|destruct s'; discriminate]. injection Ez as <-. destruct hex; reflexivity.
      + exfalso. destruct (Sep (String c "") t'' eq_refl) as (a' & z & Ez & Dz); [discriminate|]. destruct a' as [|w a']; [injection Ez as <-; congruence|destruct a'; discriminate]. }
  destruct K as (r' & -> & Er & x & y & -> & Dx).
  rewrite (opt_sign_text neg sg _ Hs) by (apply (digit_nosign false); exact Dx). rewrite Dx.
  rewrite exp_digits_text by (rewrite Er; exact Dd). rewrite Er. cbn [seq].
  replace (exp_val 0 d) with (dec_val d); [reflexivity|]. symmetry. apply exp_val_exact. fold (dec_val d). destruct neg; lia.
Qed.
Lemma exp_part_spec hex r k : exp_part hex r = Some k -> nounder r -> exists k', ExponentText hex k' (unscore r).
Proof.
  destruct r as [|c r]; cbn [exp_part]; [destruct hex; [discriminate|]; intros _ _; exists 0%Z; left; auto|].
  destruct (ceq (lower c) _) eqn:Hc; [|discriminate]. apply ceq_true in Hc. cbn [nounder unscore]. intros H N. rewrite N.
  pose proof (opt_sign_spec r) as S. destruct (opt_sign r) as [neg q]. destruct S as (sg & -> & Hs).
  destruct q as [|x q]; [discriminate|]. destruct (is_digit x) eqn:Dx; [|discriminate].
  pose proof (exp_digits_spec (String x q)) as D. destruct (exp_digits (String x q)) as [d r']. destruct D as (Dd & _ & E).
  destruct (seq r' "") eqn:Z; [|discriminate]. apply seq_true in Z. specialize (E Z). clear H.
  eexists. right. exists c, neg, sg, d. split; [exact Hc|]. split; [exact Hs|].
  destruct (digit_not false x Dx) as (Ux & _).
  split; [intros ->; cbn [unscore] in E; rewrite Ux in E; discriminate|]. split; [exact Dd|]. split; [|reflexivity].
  rewrite unscore_app, E. f_equal. f_equal. destruct Hs as [[_ ->]|[_ [->| ->]]]; reflexivity.
Qed.
Lemma exp_stops hex k t : ExponentText hex k t -> stops hex t.
Proof.
  intros [(_ & _ & ->)|(c & neg & sg & d & Hc & _ & _ & _ & -> & _)]; [exact I|]. cbn.
  destruct (exp_char hex c Hc) as (A & B & C). auto.
Qed.

(** ** Whole numbers *)
(** The second character of a decimal number *)
Lemma second_char k i pt f ex a b u : ExponentText false k ex -> sall is_digit i = true -> sall is_digit f = true ->
  (pt = "." +++ f \/ (pt = "" /\ f = "")) -> i +++ f <> "" -> i +++ pt +++ ex = String a (String b u) -> is_digit a = true ->
  ceq (lower b) "b" = false /\ ceq (lower b) "o" = false /\ ceq (lower b) "x" = false.
Proof.
  intros He Di Df Hp Hne E Da.
  assert (X : is_digit b = true \/ b = "."%char \/ lower b = "e"%char).
  { destruct i as [|x i].
    - destruct Hp as [->|[-> ->]]; [|exfalso; apply Hne; reflexivity]. cbn in E. injection E as <- _. discriminate.
    - cbn in E. injection E as -> E. cbn in Di. rewrite andb_true_iff in Di. destruct Di as [_ Di]. destruct i as [|y i].
      + cbn in E. destruct Hp as [->|[-> ->]]; [injection E as <- _; auto|]. cbn in E.
        destruct He as [(_ & _ & ->)|(c & neg & sg & d & Hc & _ & _ & _ & -> & _)]; [discriminate|]. injection E as -> _. auto.
      + cbn in E. injection E as -> _. cbn in Di. rewrite andb_true_iff in Di. left. apply Di. }
  clear -X. destruct b as [[] [] [] [] [] [] [] []]; repeat split; destruct X as [X|[X|X]]; try discriminate X; reflexivity.
Qed.
Lemma unscore_second q a b u : q = String a (String b u) -> ceq a "_" = false -> ceq b "_" = true \/ exists v, unscore q = String a (String b v).
Proof. intros -> A. cbn. rewrite A. destruct (ceq b "_"); [left; reflexivity|right; eexists; reflexivity]. Qed.
Lemma dec_second k q i pt f ex a b u : unscore q = i +++ pt +++ ex -> ExponentText false k ex -> sall is_digit i = true -> sall is_digit f = true ->
  (pt = "." +++ f \/ (pt = "" /\ f = "")) -> i +++ f <> "" -> q = String a (String b u) ->
  ceq a "0" && (ceq (lower b) "b" || ceq (lower b) "o" || ceq (lower b) "x") = false.
Proof.
  intros E He Di Df Hp Hne Eq. destruct (ceq a "0") eqn:A; [|reflexivity]. apply ceq_true in A. subst a.
  destruct (unscore_second q _ _ _ Eq eq_refl) as [B|(v & B)]; [apply ceq_true in B; subst b; reflexivity|].
  rewrite E in B. destruct (second_char k i pt f ex _ _ _ He Di Df Hp Hne B eq_refl) as (-> & -> & ->). reflexivity.
Qed.
Lemma dec_prefix k q i pt f ex : unscore q = i +++ pt +++ ex -> ExponentText false k ex -> sall is_digit i = true -> sall is_digit f = true ->
  (pt = "." +++ f \/ (pt = "" /\ f = "")) -> i +++ f <> "" -> hex_prefix q = false.
Proof.
  intros E He Di Df Hp Hne. destruct q as [|a [|b [|c u]]]; try reflexivity. cbn [hex_prefix].
  pose proof (dec_second k _ i pt f ex a b (String c u) E He Di Df Hp Hne eq_refl) as X.
  destruct (ceq a "0"); [|reflexivity]. cbn in *. rewrite !orb_false_iff in X. apply X.
Qed.
Lemma dec_underscore k q i pt f ex : unscore q = i +++ pt +++ ex -> ExponentText false k ex -> sall is_digit i = true -> sall is_digit f = true ->
  (pt = "." +++ f \/ (pt = "" /\ f = "")) -> i +++ f <> "" -> forall neg s, opt_sign s = (neg, q) -> underscore_ok s = under_ok false false false q.
Proof.
  intros E He Di Df Hp Hne neg s Hs. unfold underscore_ok. rewrite Hs. destruct q as [|a [|b u]]; try reflexivity.
  rewrite (dec_second k _ i pt f ex a b u E He Di Df Hp Hne eq_refl). reflexivity.
Qed.
(** A suffix of a text whose underscores separate digits *)
Lemma separated_suffix hex a0 r : Separated hex (a0 +++ r) ->
  forall a b, r = a +++ String "_" b -> a <> "" -> exists a' c, a = a' +++ String c "" /\ digit hex c = true.
Proof.
  intros H a b -> Na. destruct (snoc_cases a) as [->|(a' & c & ->)]; [congruence|].
  destruct (H (a0 +++ a' +++ String c "") b) as [[[_ X]|(x & y & X & D)] _].
  - rewrite !sapp_assoc. reflexivity.
  - destruct a0; [destruct a'|]; discriminate.
  - exists a', c. split; [reflexivity|]. replace c with y; [exact D|].
    clear -X. rewrite <- sapp_assoc in X. revert x X. induction (a0 +++ a') as [|z w IH]; intros x X.
    + destruct x as [|v x]; [injection X as <-; reflexivity|destruct x; discriminate].
    + destruct x as [|v x]; [destruct w; discriminate|]. injection X as _ X. eauto.
Qed.
Lemma head_numeric hex q i pt f ex : Separated hex q -> unscore q = i +++ pt +++ ex -> sall (digit hex) i = true ->
  (pt = "." +++ f \/ (pt = "" /\ f = "")) -> i +++ f <> "" ->
  exists c r, q = String c r /\ ((c = "_"%char /\ hex = true) \/ digit hex c = true \/ c = "."%char).
Proof.
  intros Sep E Di Hp Hne.
  assert (U : exists c u, unscore q = String c u /\ (digit hex c = true \/ c = "."%char)).
  { rewrite E. destruct i as [|c i].
    - destruct Hp as [->|[-> ->]]; [|exfalso; apply Hne; reflexivity]. eexists. eexists. split; [reflexivity|auto].
    - cbn in Di. rewrite andb_true_iff in Di. eexists. eexists. split; [reflexivity|left; apply Di]. }
  destruct U as (c & u & Eu & Hc). destruct (unscore_cons q c u Eu) as (t' & _ & _ & [->|(t'' & -> & _)]).
  - exists c, t'. auto.
  - exists "_"%char, t''. split; [reflexivity|]. left. split; [reflexivity|].
    destruct (Sep "" t'' eq_refl) as [[[H _]|(a' & x & X & _)] _]; [exact H|destruct a'; discriminate].
Qed.
Lemma read_text hex neg sg px q i pt f ex k : SignText neg sg -> Prefix hex px -> Separated hex q ->
  unscore q = i +++ pt +++ ex -> sall (digit hex) i = true -> sall (digit hex) f = true ->
  (pt = "." +++ f \/ (pt = "" /\ f = "")) -> i +++ f <> "" -> ExponentText hex k ex -> (Z.abs k < 100000)%Z ->
  opt_sign (sg +++ px +++ q) = (neg, px +++ q) /\
  read_float (sg +++ px +++ q) (px +++ q) = Some (hex, i +++ f, String.length f, k).
Proof.
  intros Hs Hx Sep E Di Df Hp Hne He Hk.
  destruct (head_numeric hex q i pt f ex Sep E Di Hp Hne) as (c & r & Eq & Hc).
  assert (Ns : nosign (px +++ q)).
  { destruct hex; cbn in Hx; [destruct Hx as [->| ->]; split; reflexivity|]. subst px. cbn. subst q.
    destruct Hc as [[_ X]|[D| ->]]; [discriminate|exact (digit_nosign false c r D)|split; reflexivity]. }
  pose proof (opt_sign_text neg sg _ Hs Ns) as Os. split; [exact Os|].
  assert (Hh : hex_prefix (px +++ q) = hex /\ (if hex then after_prefix (px +++ q) else px +++ q) = q).
  { destruct hex; cbn in Hx.
    - destruct Hx as [->| ->]; subst q; cbn; split; reflexivity.
    - subst px. cbn. split; [apply (dec_prefix k q i pt f ex); assumption|reflexivity]. }
  destruct Hh as [Hh Ha]. unfold read_float. rewrite Hh, Ha.
  destruct (mantissa_text hex q i pt f ex E Di Df Hp (exp_stops hex k ex He)) as (a & r' & Er & Eu & Nr & ->).
  assert (X : seq (i +++ f) "" = false) by (apply seq_false; exact Hne). rewrite X.
  rewrite (exp_part_text hex k r'); [|rewrite Eu; exact He|exact Hk|exact Nr|apply (separated_suffix hex a); rewrite <- Er; exact Sep].
  assert (Uo : underscore_ok (sg +++ px +++ q) = under_ok hex hex false q).
  { destruct hex; cbn in Hx.
    - unfold underscore_ok. rewrite Os. destruct Hx as [->| ->]; reflexivity.
    - subst px. cbn [String.append] in *. apply (dec_underscore k q i pt f ex) with neg; assumption. }
  rewrite Uo. replace (under_ok hex hex false q) with true; [reflexivity|].
  symmetry. apply under_ok_checked; [destruct hex; reflexivity|]. apply separated_checked. exact Sep.
Qed.
Lemma mantissa_nounder hex q : forall dot, nounder (snd (mantissa hex dot q)).
Proof.
  induction q as [|c q IH]; intros dot; cbn [mantissa]; [exact I|]. destruct (ceq c "_") eqn:U; [apply IH|].
  destruct (ceq c "."); [destruct dot; [exact U|apply IH]|]. destruct (is_dig hex c); [|exact U].
  specialize (IH dot). destruct (mantissa hex dot q) as [[i f] t]. destruct dot; exact IH.
Qed.
Lemma read_spec neg sg r x : SignText neg sg -> opt_sign (sg +++ r) = (neg, r) -> read_float (sg +++ r) r = Some x ->
  exists hex px q i pt f ex k, r = px +++ q /\ Prefix hex px /\ Separated hex q /\
    unscore q = i +++ pt +++ ex /\ sall (digit hex) i = true /\ sall (digit hex) f = true /\
    (pt = "." +++ f \/ (pt = "" /\ f = "")) /\ i +++ f <> "" /\ ExponentText hex k ex.
Proof.
  intros Hs Os. unfold read_float. set (hex := hex_prefix r). set (q := if hex then after_prefix r else r).
  pose proof (mantissa_spec hex q false) as M. pose proof (mantissa_nounder hex q false) as N.
  destruct (mantissa hex false q) as [[i f] t]. cbn [snd] in N. destruct M as (Di & Df & pt & E & Hp).
  destruct (seq (i +++ f) "") eqn:Hne; [discriminate|]. apply seq_false in Hne.
  destruct (exp_part hex t) as [k0|] eqn:X; [|discriminate]. destruct (exp_part_spec hex t k0 X N) as (k & He). clear X.
  destruct (underscore_ok (sg +++ r)) eqn:U; [|discriminate]. intros _.
  assert (P : exists px, r = px +++ q /\ Prefix hex px /\ Separated hex q).
  { destruct hex eqn:Hh.
    - subst hex. destruct r as [|a [|b [|c u]]]; try discriminate Hh. cbn in Hh. rewrite andb_true_iff in Hh. destruct Hh as [H1 H2].
      exists (String a (String b "")). subst q. cbn [after_prefix]. split; [reflexivity|]. apply ceq_true in H1. subst a.
      split.
      + cbn. assert (Hb : b = "x"%char \/ b = "X"%char) by (clear -H2; destruct b as [[] [] [] [] [] [] [] []]; try discriminate H2; auto).
        destruct Hb as [->| ->]; auto.
      + apply separated_checked, under_ok_checked; [reflexivity|].
        unfold underscore_ok in U. rewrite Os in U. rewrite ceq_refl in U. apply ceq_true in H2. rewrite H2 in U. exact U.
    - exists "". split; [reflexivity|]. split; [reflexivity|]. subst q. apply separated_checked, under_ok_checked; [reflexivity|].
      rewrite <- (dec_underscore k r i pt f (unscore t) E He Di Df Hp Hne neg (sg +++ r) Os). exact U. }
  destruct P as (px & P1 & P2 & P3). exists hex, px, q, i, pt, f, (unscore t), k.
  split; [exact P1|]. split; [exact P2|]. split; [exact P3|]. split; [exact E|]. split; [exact Di|]. split; [exact Df|]. split; [exact Hp|]. split; [exact Hne|exact He].
Qed.

(** ** Parsing *)
Definition rounded (hex neg : bool) (d : N) (p : nat) (k : Z) : f32 :=
  if hex then hex_round neg d (k - 4 * Z.of_nat p) else dec_round neg d (k - Z.of_nat p).
Lemma slower_cons c t x y : slower (String c t) = String x y -> lower c = x /\ slower t = y.
Proof. cbn. intros E. injection E as <- <-. auto. Qed.
Lemma no_word c r w : (ceq (lower c) "i" = false /\ ceq (lower c) "n" = false) ->
  (match w with String x _ => x = "i"%char \/ x = "n"%char | EmptyString => True end) -> seq (slower (String c r)) w = false.
Proof.
  intros [A B] H. apply seq_false. destruct w as [|x w]; [discriminate|]. intros E. apply slower_cons in E. destruct E as [E _].
  destruct H as [->| ->]; rewrite E in A, B; discriminate.
Qed.
Lemma parse_numeral hex neg d p k t : Numeral hex neg d p k t -> (Z.abs k < 100000)%Z ->
  parse_float t = (rounded hex neg d p k, match rounded hex neg d p k with S754_infinity _ => false | _ => true end).
Proof.
  intros (sg & px & q & i & pt & f & ex & -> & Hs & Hx & Sep & E & Di & Df & Hp & Hne & He & -> & ->) Hk.
  destruct (read_text hex neg sg px q i pt f ex k) as [Os Rd]; try assumption. unfold parse_float. rewrite Os, Rd.
  assert (Hd : exists c r, px +++ q = String c r /\ ceq (lower c) "i" = false /\ ceq (lower c) "n" = false).
  { destruct (head_numeric hex q i pt f ex Sep E Di Hp Hne) as (c & r & -> & Hc). destruct hex; cbn in Hx.
    - destruct Hx as [->| ->]; eexists; eexists; (split; [reflexivity|split; reflexivity]).
    - subst px. exists c, r. split; [reflexivity|]. destruct Hc as [[-> _]|[D| ->]]; [split; reflexivity| |split; reflexivity].
      destruct (digit_not false c D) as (_ & _ & _ & _ & _ & A & B & _). auto. }
  destruct Hd as (c & r & Ec & Hc). rewrite Ec. rewrite !(no_word c r) by auto. cbn [orb].
  assert (X : seq (slower (sg +++ String c r)) "nan" = false).
  { destruct Hs as [[_ ->]|[_ [->| ->]]]; [reflexivity| |reflexivity]. apply no_word; auto. }
  rewrite X. unfold rounded, digits_value. destruct hex; [|reflexivity].
  unfold hex_val. rewrite hex_val_number; [reflexivity|]. rewrite sall_app, Di, Df. reflexivity.
Qed.
Lemma parse_inf neg t : InfText neg t -> parse_float t = (S754_infinity neg, true).
Proof.
  intros (sg & w & -> & Hs & Hw). unfold parse_float. rewrite (opt_sign_text neg sg w Hs).
  - destruct Hw as [-> | ->]; reflexivity.
  - destruct w as [|c w]; [exact I|]. split; [destruct (ceq c "-") eqn:X|destruct (ceq c "+") eqn:X]; try reflexivity;
      apply ceq_true in X; subst c; cbn in Hw; destruct Hw; discriminate.
Qed.
Lemma parse_nan t : NanText t -> parse_float t = (S754_nan, true).
Proof.
  intros H. unfold parse_float. rewrite H. unfold NanText in H.
  pose proof (opt_sign_text false "" t (or_intror (conj eq_refl (or_introl eq_refl)))) as O. cbn [String.append] in O. rewrite O.
  - rewrite H. reflexivity.
  - destruct t as [|c t]; [exact I|]. split; [destruct (ceq c "-") eqn:X|destruct (ceq c "+") eqn:X]; try reflexivity;
      apply ceq_true in X; subst c; discriminate.
Qed.
Lemma parse_accepts t : snd (parse_float t) = true ->
  (exists hex neg d p k, Numeral hex neg d p k t) \/ (exists neg, InfText neg t) \/ NanText t.
Proof.
  unfold parse_float. pose proof (opt_sign_spec t) as S. destruct (opt_sign t) as [neg r] eqn:Os. destruct S as (sg & -> & Hs).
  destruct (seq (slower r) "inf" || seq (slower r) "infinity") eqn:E1.
  - intros _. right. left. exists neg, sg, r. split; [reflexivity|]. split; [exact Hs|].
    rewrite orb_true_iff in E1. destruct E1 as [E|E]; apply seq_true in E; auto.
  - destruct (seq (slower (sg +++ r)) "nan") eqn:E2; [intros _; right; right; apply seq_true; exact E2|].
    destruct (read_float (sg +++ r) r) as [x|] eqn:D; [|discriminate]. intros _. left.
    destruct (read_spec neg sg r x Hs Os D) as (hex & px & q & i & pt & f & ex & k & -> & K).
    exists hex, neg, (digits_value hex (i +++ f)), (String.length f), k, sg, px, q, i, pt, f, ex. tauto.
Qed.
(** A number without underscores *)
Definition plain (t : string) : bool := sall (fun c => negb (ceq c "_")) t.
Lemma plain_unscore t : plain t = true -> unscore t = t.
Proof.
  induction t as [|c t IH]; cbn; [reflexivity|]. rewrite andb_true_iff, negb_true_iff. intros [-> H]. rewrite IH by exact H. reflexivity.
Qed.
Lemma plain_separated hex t : plain t = true -> Separated hex t.
Proof.
  intros H a b ->. exfalso. unfold plain in H. rewrite sall_app in H. cbn in H. rewrite andb_false_r in H. discriminate.
Qed.
Lemma digits_plain t : sall is_digit t = true -> plain t = true.
Proof.
  unfold plain. induction t as [|c t IH]; cbn; [reflexivity|]. rewrite !andb_true_iff. intros [D H]. split; [|auto].
  destruct (digit_not false c D) as (-> & _). reflexivity.
Qed.
Lemma exponent_plain hex k t : ExponentText hex k t -> plain t = true.
Proof.
  intros [(_ & _ & ->)|(c & neg & sg & d & Hc & Hs & _ & Dd & -> & _)]; [reflexivity|].
  destruct (exp_char hex c Hc) as (_ & U & _). cbn. rewrite U. cbn [negb andb]. unfold plain in *. rewrite sall_app.
  fold (plain sg) (plain d). rewrite (digits_plain d Dd). destruct Hs as [[_ ->]|[_ [->| ->]]]; reflexivity.
Qed.
Lemma plain_numeral neg sg i pt f k ex : SignText neg sg -> sall is_digit i = true -> sall is_digit f = true ->
  (pt = "." +++ f \/ (pt = "" /\ f = "")) -> i +++ f <> "" -> ExponentText false k ex ->
  Numeral false neg (dec_val (i +++ f)) (String.length f) k (sg +++ i +++ pt +++ ex).
Proof.
  intros Hs Di Df Hp Hne He.
  assert (P : plain (i +++ pt +++ ex) = true).
  { unfold plain. rewrite !sall_app. fold (plain i) (plain pt) (plain ex). rewrite (digits_plain i Di), (exponent_plain false k ex He).
    destruct Hp as [->|[-> _]]; [|reflexivity]. change (plain ("." +++ f)) with (plain f). rewrite (digits_plain f Df). reflexivity. }
  exists sg, "", (i +++ pt +++ ex), i, pt, f, ex. split; [reflexivity|]. split; [exact Hs|]. split; [reflexivity|].
  split; [apply plain_separated; exact P|]. split; [apply plain_unscore; exact P|]. split; [exact Di|]. split; [exact Df|].
  split; [exact Hp|]. split; [exact Hne|]. split; [exact He|]. split; reflexivity.
Qed.
