(** * Proofs about error texts and testing errors *)
From Verif Require Import GoBase GoNum GoFloat Types M_Errors S_Errors P_Errors M_ErrText S_ErrText.

(** Induction over the members of lists *)
Lemma gerr_ind' (P : gerr -> Prop) :
  (forall s, P (ESent s)) -> (forall f, P (EMissing f)) -> (forall a r, P (EParse a r)) ->
  (forall t x p, P x -> P (EErr t x p)) -> (forall l, Forall P l -> P (EList l)) -> forall e, P e.
Proof.
  intros H1 H2 H3 H4 H5. fix IH 1. intros [s|f|a r|t x p|l]; [apply H1|apply H2|apply H3|apply H4, IH|].
  apply H5. induction l as [|e l IHl]; constructor; [apply IH|exact IHl].
Qed.
Lemma sjoin_lines (sep : string) l : l <> [] -> sep +++ sjoin sep l = sjoin "" (map (fun t => sep +++ t) l).
Proof.
  induction l as [|x l IH]; [congruence|]. intros _. destruct l as [|y l]; [reflexivity|].
  change (sjoin sep (x :: y :: l)) with (x +++ sep +++ sjoin sep (y :: l)). rewrite (IH ltac:(discriminate)).
  change (sjoin "" (map (fun t => sep +++ t) (x :: y :: l))) with ((sep +++ x) +++ sjoin "" (map (fun t => sep +++ t) (y :: l))).
  rewrite sapp_assoc. reflexivity.
Qed.
Lemma text_of message e : BuiltErr e -> TextOf message e (err_text message e).
Proof.
  induction e as [s|f|a r|t x p IH|l IH] using gerr_ind'; intros H.
  - constructor.
  - constructor.
  - cbn. destruct r; constructor.
  - inversion H as [? L|? ? ? Lx Ht Hl|]; subst; [destruct L|]. cbn [err_text].
    assert (Tx : TextOf message x (err_text message x)) by (apply IH; constructor; exact Lx).
    assert (Px : PathText (rev t) (xpath t)) by (apply xpath_spec; assumption).
    destruct (seq p "") eqn:E.
    + apply seq_true in E. exact (TxErr message t x p "" _ _ (or_introl (conj E eq_refl)) Px Tx).
    + apply seq_false in E. pose proof (TxErr message t x p _ _ _ (or_intror (conj E eq_refl)) Px Tx) as K.
      rewrite !sapp_assoc in K. exact K.
  - inversion H as [? L| |? Hn Hf]; subst; [destruct L|].
    assert (F : Forall2 (TextOf message) l (map (err_text message) l)).
    { clear -IH Hf. induction l as [|e l IHl]; constructor; inversion IH; inversion Hf; subst; auto. }
    destruct (fmt_dec_spec (N.of_nat (List.length l))) as (C1 & C2 & C3).
    pose proof (TxList message l _ _ _ F C1 C2 C3 eq_refl) as K.
    assert (E : err_text message (EList l) = fmt_dec (N.of_nat (List.length l)) +++
      (if Nat.eqb (List.length l) 1 then " error occurred:" else " errors occurred:") +++
      sjoin "" (map (fun t => String "010" (String "009" ("* " +++ t))) (map (err_text message) l)) +++ String "010" "").
    { destruct l as [|x [|y l]]; [congruence|cbn; rewrite ?sapp_assoc; reflexivity|].
      cbn [err_text]. set (L := x :: y :: l). rewrite <- (map_map (err_text message) (fun t => "* " +++ t)).
      set (T := map (err_text message) L). replace (Nat.eqb (List.length L) 1) with false by reflexivity.
      f_equal. f_equal.
      transitivity (((nl +++ tab) +++ sjoin (nl +++ tab) (map (fun t => "* " +++ t) T)) +++ nl); [rewrite !sapp_assoc; reflexivity|].
      rewrite sjoin_lines by discriminate. rewrite map_map. reflexivity. }
    rewrite E. exact K.
Qed.

Lemma is_first e s : BuiltErr e -> (errors_is (Some e) s = true <-> exists loc p r, located e = (loc, p, ESent s) :: r).
Proof.
  cbn [errors_is]. set (f := fun x => match x with ESent s0 => seq s0 s | _ => false end).
  induction e as [a|a|a r|t x p IH|l IH] using gerr_ind'; intros H.
  - cbn. rewrite orb_false_r. split.
    + intros E. apply seq_true in E. subst a. eauto.
    + intros (loc & p & r & E). injection E as _ _ <- _. apply seq_refl.
  - cbn. split; [discriminate|]. intros (? & ? & ? & E). discriminate.
  - cbn. split; [discriminate|]. intros (? & ? & ? & E). discriminate.
  - inversion H as [? L|? ? ? Lx Ht Hl|]; subst; [destruct L|]. cbn [chain existsb f located].
    destruct x; try (destruct Lx); cbn; try (split; [discriminate|]; intros (? & ? & ? & E); discriminate).
    rewrite orb_false_r. split.
    + intros E. apply seq_true in E. subst. eauto.
    + intros (loc & q & r & E). injection E as _ _ <- _. apply seq_refl.
  - inversion H as [? L| |? Hn Hf]; subst; [destruct L|]. destruct l as [|x l]; [congruence|].
    inversion IH as [|? ? H2 _]; inversion Hf as [|? ? H6 _]; subst. cbn [chain existsb f]. cbn [orb].
    change (existsb f (chain x) = true <-> (exists loc p r, located (EList (x :: l)) = (loc, p, ESent s) :: r)).
    rewrite H2 by assumption.
    assert (N : located x <> []).
    { clear -H6. induction x as [a|a|a r|t y p IHy|l IHl] using gerr_ind'; try discriminate.
      inversion H6 as [? L| |? Hn Hf]; subst; [destruct L|]. destruct l as [|y l]; [congruence|].
      inversion IHl as [|? ? A1 A2]; inversion Hf as [|? ? A3 A4]; subst. cbn. intros E. apply app_eq_nil in E. destruct E as [E _]. apply (A1 A3 E). }
    cbn [located]. split.
    + intros (loc & p & r & ->). cbn. eauto.
    + destruct (located x) as [|[[loc p] k] r]; [congruence|]. intros (loc' & p' & r' & E). cbn in E. injection E as -> -> -> _. eauto.
Qed.

(** ** What the functions build *)
Lemma built_index e n i : (-1 <= i)%Z -> BuiltErr e -> BuiltErr (wrap_index1 e n i).
Proof.
  intros Hi. induction e as [s|f|a r|t x p IH|l IH] using gerr_ind'; intros H; cbn [wrap_index1];
    try (apply BErr; [exact I|discriminate|repeat constructor; exact Hi]).
  - inversion H as [? L|? ? ? Lx Ht Hl|]; subst; [destruct L|]. apply BErr; [exact Lx|destruct t; discriminate|].
    apply Forall_app. split; [exact Hl|repeat constructor; exact Hi].
  - inversion H as [? L| |? Hn Hf]; subst; [destruct L|]. apply BList; [destruct l; [congruence|discriminate]|].
    rewrite Forall_map. rewrite Forall_forall in *. auto.
Qed.
Lemma built_path e n q : BuiltErr e -> BuiltErr (wrap_path1 e n q).
Proof.
  induction e as [s|f|a r|t x p IH|l IH] using gerr_ind'; intros H; cbn [wrap_path1];
    try (apply BErr; [exact I|discriminate|repeat constructor; cbn; lia]).
  - inversion H as [? L|? ? ? Lx Ht Hl|]; subst; [destruct L|]. apply BErr; [exact Lx|destruct t; discriminate|].
    apply Forall_app. split; [exact Hl|repeat constructor; cbn; lia].
  - inversion H as [? L| |? Hn Hf]; subst; [destruct L|]. apply BList; [destruct l; [congruence|discriminate]|].
    rewrite Forall_map. rewrite Forall_forall in *. auto.
Qed.
Lemma members_built e : BuiltErr_o e -> Forall BuiltErr (members e).
Proof.
  destruct e as [[s|f|a r|t x p|l]|]; cbn; intros H; try (constructor; [exact H|constructor]); [|constructor].
  inversion H as [? L| |? Hn Hf]; subst; [destruct L|exact Hf].
Qed.
Lemma built_append err errs : BuiltErr_o err -> Forall BuiltErr_o errs -> BuiltErr_o (append err errs).
Proof.
  intros H1 H2. destruct errs as [|e errs]; [exact H1|].
  destruct (append err (e :: errs)) as [x|] eqn:E; [|exact I].
  destruct (append_is_list _ _ _ _ E) as [l ->]. pose proof (append_members err (e :: errs)) as M. rewrite E in M. cbn [members] in M.
  apply BList.
  - intros ->. assert (K : err = None /\ Forall (fun e => e = None) (e :: errs)).
    { symmetry in M. apply app_eq_nil in M. destruct M as [M1 M2]. split.
      - destruct err as [[| | | |l]|]; try discriminate; [|reflexivity]. cbn in M1. subst l. cbn in H1. inversion H1 as [? L| |? Hn]; subst; [destruct L|congruence].
      - clear -M2 H2. induction (e :: errs) as [|a r IH]; [constructor|]. cbn in M2. apply app_eq_nil in M2. destruct M2 as [M1 M2].
        inversion H2 as [|? ? Ha Hr]; subst. constructor; [|apply IH; assumption].
        destruct a as [[| | | |l]|]; try discriminate; [|reflexivity]. cbn in M1. subst l. cbn in Ha. inversion Ha as [? L| |? Hn]; subst; [destruct L|congruence]. }
    apply append_nil in K. congruence.
  - rewrite M. apply Forall_app. split; [apply members_built; exact H1|].
    apply Forall_concat. rewrite Forall_map. rewrite Forall_forall in *. intros a Ha. apply members_built. auto.
Qed.
