(** * Proofs: the errors of attributes *)
From Coq Require Import ZArith.
From Verif Require Import GoBase GoNum GoUtf8 GoFloat GoStrconv Types XmlTypes M_Core M_Errors M_Text M_Xml M_Decode
  S_Core S_Text S_Errors S_Xml S_Decode S_Attr P_Core P_Errors P_Text P_Decode P_Panic P_State.

(** ** Values *)
Lemma wrong1 (P : string -> Prop) v (b : bool) : (b = true <-> P v) -> Wrong P [v] (if b then 0 else 1).
Proof.
  intros H. destruct b.
  - apply WGood; [apply H; reflexivity|constructor].
  - apply WBad; [intros Q; apply H in Q; discriminate|constructor].
Qed.
Lemma uint_text s : snd (parse_u32 s) = true <-> UintText s.
Proof.
  unfold UintText. split.
  - intros H. destruct (parse_u32 s) as [v ok] eqn:E. cbn in H. subst ok. unfold parse_u32 in E. rewrite parse_uint_spec in E.
    destruct E as (H1 & H2 & H3 & H4). split; [exact H1|]. split; [exact H2|]. rewrite dec_val_fold. unfold dec_val, max_uint32 in *.
    change (2 ^ 32)%N with 4294967296%N. lia.
  - intros (H1 & H2 & H3). rewrite dec_val_fold in H3. change (2 ^ 32)%N with 4294967296%N in H3.
    assert (E : parse_u32 s = (dec_val s, true)).
    { unfold parse_u32. apply parse_uint_spec. unfold dec_val, max_uint32. repeat split; auto. lia. }
    rewrite E. reflexivity.
Qed.
Local Opaque parse_u32 parse_float parse_rgba uuid_validate new_units new_object_type new_clip new_cap new_resolution fields.
Lemma floats_text l : (exists t, parse_floats l = Some t) <-> Forall FloatText l.
Proof.
  induction l as [|s l IH]; cbn [parse_floats]; [split; [constructor|eauto]|].
  unfold FloatText at 1. split.
  - intros (t & H). destruct (parse_float s) as [x ok] eqn:E. destruct ok; [|discriminate].
    destruct (parse_floats l) as [t'|]; [|discriminate]. constructor; [unfold FloatText; rewrite E; reflexivity|]. apply IH. eauto.
  - intros H. inversion H as [|? ? H1 H2]; subst. unfold FloatText in H1. destruct (parse_float s) as [x ok]. cbn in H1. subst ok.
    apply IH in H2 as (t & ->). eauto.
Qed.
Lemma floats_len l : forall t, parse_floats l = Some t -> List.length t = List.length l.
Proof.
  induction l as [|s l IH]; intros t; cbn [parse_floats]; [intros [= <-]; reflexivity|].
  destruct (parse_float s) as [x ok]. destruct ok; [|discriminate]. destruct (parse_floats l) as [t'|]; [|discriminate].
  intros [= <-]. cbn. f_equal. apply IH. reflexivity.
Qed.
Lemma matrix_text s : snd (parse_matrix s) = true <-> List.length (fields s) = 12%nat /\ Forall FloatText (fields s).
Proof.
  unfold parse_matrix. destruct (Nat.eqb_spec (List.length (fields s)) 12) as [L|L]; cbn [negb].
  - rewrite <- floats_text. split.
    + intros H. split; [exact L|]. destruct (parse_floats (fields s)) as [t|]; [eauto|discriminate].
    + intros (_ & t & E). rewrite E. apply floats_len in E. rewrite L in E.
      do 13 (destruct t as [|? t]; try discriminate). reflexivity.
  - split; [discriminate|tauto].
Qed.
Lemma colour_text s : snd (parse_rgba s) = true <-> exists c, ColourText s c.
Proof.
  split.
  - intros H. destruct (parse_rgba s) as [c ok] eqn:E. cbn in H. subst. exists c. apply parse_rgba_spec. exact E.
  - intros (c & H). apply parse_rgba_spec in H. rewrite H. reflexivity.
Qed.
Lemma word_text {A} (tbl : list (A * string)) pr pa v : EnumOk tbl pr pa ->
  (match pa v with Some _ => true | None => false end = true <-> In v (map snd tbl)).
Proof.
  intros (_ & _ & H). split.
  - destruct (pa v) as [x|] eqn:E; [|discriminate]. intros _. apply H in E. apply (in_map snd) in E. exact E.
  - intros I. apply in_map_iff in I as ([x w] & E & I). cbn in E. subst w. apply H in I. rewrite I. reflexivity.
Qed.
(** The number of errors of a single value *)
Lemma err_flaw t a (b ok : bool) : Flaw t (avalue a) (if ok then 0 else 1) ->
  AttrFlaws (Some (t, b)) a (members (if ok then None else parse_err a b)).
Proof. intros H. pose proof (AFRule (Some (t, b)) a t b _ eq_refl H) as Q. destruct ok; exact Q. Qed.
Lemma u32_flaw a b : AttrFlaws (Some (TUint, b)) a (members (snd (get_u32 a b))).
Proof.
  unfold get_u32. pose proof (uint_text (avalue a)) as H. destruct (parse_u32 (avalue a)) as [n ok]. cbn in *.
  apply err_flaw, wrong1, H.
Qed.
Lemma f32_flaw a b : AttrFlaws (Some (TFloat, b)) a (members (snd (get_f32 a b))).
Proof.
  unfold get_f32. destruct (parse_float (avalue a)) as [n ok] eqn:E. cbn.
  apply err_flaw, wrong1. unfold FloatText. rewrite E. reflexivity.
Qed.
Lemma matrix_flaw a b : AttrFlaws (Some (TMatrix, b)) a (members (if snd (parse_matrix (avalue a)) then None else parse_err a b)).
Proof. apply err_flaw. cbn [Flaw]. apply (wrong1 (fun v => List.length (fields v) = 12%nat /\ Forall FloatText (fields v))), matrix_text. Qed.
Lemma colour_flaw a b : AttrFlaws (Some (TColour, b)) a (members (if snd (parse_rgba (avalue a)) then None else parse_err a b)).
Proof. apply err_flaw. cbn [Flaw]. apply (wrong1 (fun v => exists c, ColourText v c)), colour_text. Qed.
Lemma uuid_flaw a b : AttrFlaws (Some (TUuid, b)) a (members (if uuid_validate (avalue a) then None else parse_err a b)).
Proof. apply err_flaw. cbn [Flaw]. apply wrong1, uuid_validate_spec. Qed.
Lemma word_flaw {A} (tbl : list (A * string)) pr pa a b : EnumOk tbl pr pa ->
  AttrFlaws (Some (TWord (map snd tbl), b)) a (members (match pa (avalue a) with Some _ => None | None => parse_err a b end)).
Proof.
  intros H. pose proof (word_text tbl pr pa (avalue a) H) as W. apply (wrong1 (fun v => In v (map snd tbl))) in W.
  pose proof (err_flaw (TWord (map snd tbl)) a b (match pa (avalue a) with Some _ => true | None => false end) W) as Q.
  destruct (pa (avalue a)); exact Q.
Qed.
(** Lists *)
Lemma members_snoc e x : members (append e [x]) = members e ++ members x.
Proof. rewrite append_members. cbn [map concat]. rewrite app_nil_r. reflexivity. Qed.
Lemma members_append_none e : members (append None [e]) = members e.
Proof. rewrite members_snoc. reflexivity. Qed.
Lemma repeat_snoc {A} (x : A) n : x :: repeat x n = repeat x n ++ [x].
Proof. induction n as [|n IH]; [reflexivity|]. cbn [repeat app]. rewrite <- IH. reflexivity. Qed.
Lemma u32s_wrong a l : forall e, exists n, Wrong UintText l n /\
  members (snd (u32_fields a l e)) = members e ++ repeat (EParse (nlocal (aname a)) true) n.
Proof.
  induction l as [|s l IH]; intros e; cbn [u32_fields].
  - exists 0. split; [constructor|]. cbn. rewrite app_nil_r. reflexivity.
  - pose proof (uint_text s) as U. destruct (parse_u32 s) as [v ok]. cbn [snd] in U.
    destruct (IH (append e [if ok then None else parse_err a true])) as (n & W & E).
    destruct (u32_fields a l _) as [t e']. cbn [snd] in *. rewrite E, members_snoc. destruct ok; cbn [parse_err members].
    + exists n. split; [apply WGood; [tauto|exact W]|]. rewrite app_nil_r. reflexivity.
    + exists (S n). split; [apply WBad; [intros Q; apply U in Q; discriminate|exact W]|]. rewrite <- app_assoc. reflexivity.
Qed.
Lemma f32s_wrong a l : forall e, exists n, Wrong FloatText l n /\
  members (snd (f32_fields a l e)) = members e ++ repeat (EParse (nlocal (aname a)) true) n.
Proof.
  induction l as [|s l IH]; intros e; cbn [f32_fields].
  - exists 0. split; [constructor|]. cbn. rewrite app_nil_r. reflexivity.
  - destruct (parse_float s) as [v ok] eqn:U.
    destruct (IH (append e [if ok then None else parse_err a true])) as (n & W & E).
    destruct (f32_fields a l _) as [t e']. cbn [snd] in *. rewrite E, members_snoc. destruct ok; cbn [parse_err members].
    + exists n. split; [apply WGood; [unfold FloatText; rewrite U; reflexivity|exact W]|]. rewrite app_nil_r. reflexivity.
    + exists (S n). split; [apply WBad; [unfold FloatText; rewrite U; discriminate|exact W]|]. rewrite <- app_assoc. reflexivity.
Qed.
Lemma u32s_flaw a : AttrFlaws (Some (TUints, true)) a (members (snd (u32_fields a (fields (avalue a)) None))).
Proof. destruct (u32s_wrong a (fields (avalue a)) None) as (n & W & ->). apply (AFRule _ a TUints true n eq_refl W). Qed.
Lemma f32s_flaw a : AttrFlaws (Some (TFloats, true)) a (members (snd (f32_fields a (fields (avalue a)) None))).
Proof. destruct (f32s_wrong a (fields (avalue a)) None) as (n & W & ->). apply (AFRule _ a TFloats true n eq_refl W). Qed.
Lemma no_flaw a : AttrFlaws None a [].
Proof. constructor. reflexivity. Qed.

(** ** Loops *)
Lemma flaws_loop {A} (I : A -> Prop) (f : A -> Attr -> option (A * error)) (r : Attr -> rule) :
  (forall x a x' e, I x -> f x a = Some (x', e) -> I x' /\ AttrFlaws (r a) a (members e)) ->
  forall l x e0 x' e', I x -> attrs_loop f x e0 l = Some (x', e') ->
  I x' /\ exists es, Flaws r false l es /\ members e' = members e0 ++ es.
Proof.
  intros H. induction l as [|a l IH]; intros x e0 x' e' Ix; cbn [attrs_loop].
  - intros [= <- <-]. split; [exact Ix|]. exists []. split; [constructor|]. rewrite app_nil_r. reflexivity.
  - destruct (f x a) as [[x1 e1]|] eqn:E; [|discriminate]. destruct (H _ _ _ _ Ix E) as [I1 F1]. intros L.
    destruct (IH _ _ _ _ I1 L) as (I2 & es & F2 & M). split; [exact I2|]. exists (members e1 ++ es). split.
    + apply FCons; auto.
    + rewrite M, members_snoc, <- app_assoc. reflexivity.
Qed.
Lemma flaws_none (r : Attr -> rule) b l : (forall a, In a l -> r a = None) -> Flaws r b l [].
Proof.
  induction l as [|a l IH]; intros H; [constructor|]. apply (FCons r b a l [] []).
  - right. apply H. left. reflexivity.
  - rewrite H by (left; reflexivity). apply no_flaw.
  - apply IH. intros x I. apply H. right. exact I.
Qed.
Lemma flaws_first (r : Attr -> rule) (p : Attr -> bool) t b l :
  (forall a, r a = if p a then Some (t, b) else None) ->
  match first_attr p l with
  | Some a => forall es, AttrFlaws (Some (t, b)) a es -> Flaws r true l es
  | None => Flaws r true l []
  end.
Proof.
  intros H. induction l as [|x l IH]; cbn [first_attr]; [constructor|]. destruct (p x) eqn:P.
  - intros es F. apply FStop; [reflexivity|rewrite H, P; discriminate|]. rewrite H, P. exact F.
  - assert (Q : forall es, Flaws r true l es -> Flaws r true (x :: l) es).
    { intros es F. apply (FCons r true x l [] es); [right; rewrite H, P; reflexivity|rewrite H, P; apply no_flaw|exact F]. }
    destruct (first_attr p l) as [a|]; auto.
Qed.

(** ** Attributes of other specifications *)
Section Attrs.
  Context (reg : Reg) (isroot : bool).
  Definition knownb (ns : string) : bool := match load reg ns with Some _ => true | None => false end.
  Definition gok (el : string) (any : AnyAttr) : Prop := Forall (group_at knownb el) any.
  Definition frule (el : string) (a : Attr) : rule :=
    if knownb (nspace (aname a)) then foreign_rule (nspace (aname a)) el (nlocal (aname a)) else None.
  Lemma known_prod : knownb ns_production = rg_prod reg.
  Proof. unfold knownb, load. cbn. destruct (rg_prod reg); reflexivity. Qed.
  Lemma known_slices : knownb ns_slices = rg_slices reg.
  Proof. unfold knownb, load. cbn. destruct (rg_slices reg); reflexivity. Qed.
  Lemma new_group_at ns el g : new_attr_group reg ns el = Some g -> group_at knownb el g /\ group_ns g = ns.
  Proof.
    unfold new_attr_group, group_at. destruct (load reg ns) as [sp|] eqn:L.
    - unfold load in L. destruct (seq_spec ns ns_materials) as [->|N1]; [destruct (rg_mat reg); [injection L as <-|discriminate]; discriminate|].
      destruct (seq_spec ns ns_production) as [->|N2].
      { destruct (rg_prod reg) eqn:P; [injection L as <-|discriminate].
        destruct (seq_spec el "build"); [intros [= <-]; rewrite known_prod; auto|].
        destruct (seq_spec el "item"); [intros [= <-]; rewrite known_prod; auto|].
        destruct (seq_spec el "object"); [intros [= <-]; rewrite known_prod; auto|].
        destruct (seq_spec el "component"); [intros [= <-]; rewrite known_prod; auto|]. discriminate. }
      destruct (seq_spec ns ns_slices) as [->|N3].
      { destruct (rg_slices reg) eqn:P; [injection L as <-|discriminate].
        destruct (seq_spec el "object"); [intros [= <-]; rewrite known_slices; auto|]. discriminate. }
      destruct (seq_spec ns ns_beam) as [->|N4]; [destruct (rg_beam reg); [injection L as <-|discriminate]; discriminate|discriminate].
    - intros [= <-]. split; [unfold knownb; rewrite L; reflexivity|reflexivity].
  Qed.
  Lemma unmarshal_flaw el g a g' e : group_at knownb el g -> group_ns g = nspace (aname a) -> unmarshal_attr g a = (g', e) ->
    group_at knownb el g' /\ AttrFlaws (frule el a) a (members e).
  Proof.
    intros G N. unfold unmarshal_attr, frule. rewrite <- N.
    assert (YU : forall el0, In el0 ["build"; "item"; "object"; "component"] -> seq (nlocal (aname a)) "UUID" = true ->
      foreign_rule ns_production el0 (nlocal (aname a)) = Some (TUuid, true)).
    { intros el0 I S. apply seq_true in S. rewrite S. cbn in I. decompose [or] I; subst; try reflexivity. contradiction. }
    assert (NU : forall el0, seq (nlocal (aname a)) "UUID" = false -> foreign_rule ns_production el0 (nlocal (aname a)) = None).
    { intros el0 S. unfold foreign_rule. rewrite seq_refl. destruct (existsb _ _); [|reflexivity]. unfold table. cbn [aget]. rewrite S. reflexivity. }
    pose proof (uuid_flaw a true) as QU.
    destruct g as [sp l|u|u|u p|u p|id m]; cbn [group_at group_ns] in *.
    - intros [= <- <-]. split; [exact G|]. rewrite G. apply no_flaw.
    - destruct G as [-> K]. rewrite K. destruct (seq _ "UUID") eqn:S.
      + rewrite YU by (cbn; auto). destruct (uuid_validate (avalue a)); intros [= <- <-]; (split; [cbn; auto|exact QU]).
      + intros [= <- <-]. split; [cbn; auto|]. rewrite NU by reflexivity. apply no_flaw.
    - destruct G as [-> K]. rewrite K. destruct (seq _ "UUID") eqn:S.
      + rewrite YU by (cbn; auto). destruct (uuid_validate (avalue a)); intros [= <- <-]; (split; [cbn; auto|exact QU]).
      + intros [= <- <-]. split; [cbn; auto|]. rewrite NU by reflexivity. apply no_flaw.
    - destruct G as [-> K]. rewrite K. destruct (seq _ "UUID") eqn:S.
      + rewrite YU by (cbn; auto). destruct (uuid_validate (avalue a)); intros [= <- <-]; (split; [cbn; auto|exact QU]).
      + rewrite NU by reflexivity. destruct (seq _ "path"); intros [= <- <-]; (split; [cbn; auto|apply no_flaw]).
    - destruct G as [-> K]. rewrite K. destruct (seq _ "UUID") eqn:S.
      + rewrite YU by (cbn; auto). destruct (uuid_validate (avalue a)); intros [= <- <-]; (split; [cbn; auto|exact QU]).
      + rewrite NU by reflexivity. destruct (seq _ "path"); intros [= <- <-]; (split; [cbn; auto|apply no_flaw]).
    - destruct G as [-> K]. rewrite K.
      change (foreign_rule ns_slices "object" (nlocal (aname a))) with
        (table [("slicestackid", req TUint); ("meshresolution", opt TRes)] (nlocal (aname a))). unfold table. cbn [aget].
      destruct (seq _ "slicestackid").
      + pose proof (u32_flaw a true) as Q. unfold get_u32 in Q. destruct (parse_u32 (avalue a)) as [n ok]. cbn [snd] in Q.
        destruct ok; intros [= <- <-]; (split; [cbn; auto|exact Q]).
      + destruct (seq _ "meshresolution").
        * pose proof (word_flaw _ _ _ a false enum_resolution) as Q.
          destruct (new_resolution (avalue a)); intros [= <- <-]; (split; [cbn; auto|exact Q]).
        * intros [= <- <-]; (split; [cbn; auto|apply no_flaw]).
  Qed.
  Lemma any_flaw el any a : forall any' e, gok el any -> any_attr reg el any a = Some (any', e) ->
    gok el any' /\ AttrFlaws (frule el a) a (members e).
  Proof.
    induction any as [|g r IH]; intros any' e G; cbn [any_attr].
    - destruct (new_attr_group _ _ _) as [g|] eqn:E; [|discriminate]. apply new_group_at in E as [E1 E2].
      destruct (unmarshal_attr g a) as [g' e1] eqn:U. intros [= <- <-]. eapply unmarshal_flaw in U as [U1 U2]; [|eassumption|exact E2].
      split; [constructor; [exact U1|constructor]|exact U2].
    - inversion G as [|? ? G1 G2]; subst. destruct (seq_spec (group_ns g) (nspace (aname a))) as [E|E].
      + destruct (unmarshal_attr g a) as [g' e1] eqn:U. intros [= <- <-]. eapply unmarshal_flaw in U as [U1 U2]; [|eassumption|exact E].
        split; [constructor; assumption|exact U2].
      + destruct (any_attr reg el r a) as [[r' e']|]; [|discriminate]. intros [= <- <-].
        destruct (IH _ _ G2 eq_refl) as [H1 H2]. split; [constructor; assumption|exact H2].
  Qed.

  (** ** The attributes of the elements *)
  Definition core_rules (el : string) (a : Attr) : rule :=
    if seq (nspace (aname a)) "" then core_rule el (nlocal (aname a)) else frule el a.
  Definition mat_rules (el : string) (a : Attr) : rule :=
    if seq (nspace (aname a)) "" then mat_rule el (nlocal (aname a)) else None.
  Definition beam_rules (el : string) (a : Attr) : rule :=
    if seq (nspace (aname a)) "" then beam_rule el (nlocal (aname a)) else None.
  Definition slice_rules (el : string) (a : Attr) : rule := slice_rule el (nlocal (aname a)).
  Lemma plain_frule el a : seq (nspace (aname a)) "" = true -> frule el a = None.
  Proof. intros H. apply seq_true in H. unfold frule. rewrite H. reflexivity. Qed.
  Lemma table_cons k r l a : table ((k, r) :: l) a = if seq a k then r else table l a.
  Proof. unfold table. cbn [aget]. destruct (seq a k); reflexivity. Qed.
  Lemma table_nil a : table [] a = None.
  Proof. reflexivity. Qed.
  Local Opaque table append.
  Ltac norm f := match goal with |- context [f ?el ?x] => let r := eval hnf in (f el x) in change (f el x) with r end;
    rewrite ?table_cons, ?table_nil.
  Ltac ifs := repeat match goal with
    | |- context [seq (nlocal (aname ?a)) ?l] => destruct (seq_spec (nlocal (aname a)) l); cbn [orb negb andb]; try (exfalso; congruence) end.
  Ltac value := match goal with
    | |- context [get_u32 ?a ?b] => let Q := fresh "Q" in pose proof (u32_flaw a b) as Q; destruct (get_u32 a b)
    | |- context [get_f32 ?a ?b] => let Q := fresh "Q" in pose proof (f32_flaw a b) as Q; destruct (get_f32 a b)
    | |- context [parse_matrix (avalue ?a)] => match goal with |- context [parse_err a ?b] =>
        let Q := fresh "Q" in pose proof (matrix_flaw a b) as Q; destruct (parse_matrix (avalue a)) end
    | |- context [parse_rgba (avalue ?a)] => match goal with |- context [parse_err a ?b] =>
        let Q := fresh "Q" in pose proof (colour_flaw a b) as Q; destruct (parse_rgba (avalue a)) end
    | |- context [u32_fields ?a ?l None] => let Q := fresh "Q" in pose proof (u32s_flaw a) as Q; destruct (u32_fields a l None)
    | |- context [f32_fields ?a ?l None] => let Q := fresh "Q" in pose proof (f32s_flaw a) as Q; destruct (f32_fields a l None)
    | |- context [parse_err ?a ?b] => match goal with
        | |- context [new_units (avalue a)] => let Q := fresh "Q" in pose proof (word_flaw _ _ _ a b enum_units) as Q; destruct (new_units (avalue a))
        | |- context [new_object_type (avalue a)] => let Q := fresh "Q" in pose proof (word_flaw _ _ _ a b enum_object_type) as Q; destruct (new_object_type (avalue a))
        | |- context [new_clip (avalue a)] => let Q := fresh "Q" in pose proof (word_flaw _ _ _ a b enum_clip) as Q; destruct (new_clip (avalue a))
        | |- context [new_cap (avalue a)] => let Q := fresh "Q" in pose proof (word_flaw _ _ _ a b enum_cap) as Q; destruct (new_cap (avalue a))
        end
    end.
  Ltac done := let E := fresh in let E1 := fresh in let E2 := fresh in intros E; injection E as E1 E2; subst;
    (split; [first [assumption|exact I]|rewrite ?members_append_none; first [assumption|exact (no_flaw _)]]).
  Ltac anyone G := match goal with |- context [any_attr reg ?el ?any ?a] => let H := fresh in let H1 := fresh in let H2 := fresh in
    destruct (any_attr reg el any a) as [[? ?]|] eqn:H; [|discriminate]; destruct (any_flaw _ _ _ _ _ G H) as [H1 H2];
    let E := fresh in let E1 := fresh in let E2 := fresh in intros E; injection E as E1 E2; subst;
    rewrite ?members_append_none; split; [exact H1|exact H2] end.

  Lemma item_flaw x a x' e : gok "item" (it_any x) -> item_attr reg x a = Some (x', e) ->
    gok "item" (it_any x') /\ AttrFlaws (core_rules "item" a) a (members e).
  Proof.
    intros G. unfold item_attr, core_rules. destruct (seq (nspace (aname a)) ""); [|anyone G].
    norm core_rule. ifs; try value; done.
  Qed.
  Lemma bm_flaw x a x' e : gok "basematerials" (bs_any x) -> bm_attr reg x a = Some (x', e) ->
    gok "basematerials" (bs_any x') /\ AttrFlaws (core_rules "basematerials" a) a (members e).
  Proof.
    intros G. unfold bm_attr, core_rules. destruct (seq (nspace (aname a)) ""); [|anyone G].
    norm core_rule. ifs; try value; done.
  Qed.
  Lemma base_flaw x a x' e : gok "base" (ba_any x) -> base_attr reg x a = Some (x', e) ->
    gok "base" (ba_any x') /\ AttrFlaws (core_rules "base" a) a (members e).
  Proof.
    intros G. unfold base_attr, core_rules. destruct (seq (nspace (aname a)) ""); [|anyone G].
    norm core_rule. ifs; try value; try done.
  Qed.
  Lemma vertex_flaw x a x' e : True -> vertex_attr x a = Some (x', e) -> True /\ AttrFlaws (core_rules "vertex" a) a (members e).
  Proof.
    intros _. unfold vertex_attr, core_rules, frule. destruct (seq (nspace (aname a)) ""); cbn [negb].
    - norm core_rule. value. done.
    - destruct (knownb _).
      + unfold foreign_rule. destruct (seq _ ns_production); [cbn [existsb]|destruct (seq _ ns_slices)]; done.
      + done.
  Qed.
  Lemma tri_flaw x a x' e : gok "triangle" (tv_any x) -> tri_attr reg x a = Some (x', e) ->
    gok "triangle" (tv_any x') /\ AttrFlaws (core_rules "triangle" a) a (members e).
  Proof.
    intros G. unfold tri_attr, core_rules. destruct (seq (nspace (aname a)) ""); [|anyone G].
    norm core_rule. cbn [existsb].
    destruct (seq (nlocal (aname a)) "pid"), (seq (nlocal (aname a)) "p1"), (seq (nlocal (aname a)) "p2"), (seq (nlocal (aname a)) "p3");
    cbn [orb negb]; value; intros E; injection E as E1 E2; subst; (split; [repeat match goal with |- context [if ?b then _ else _] => destruct b end; exact G|assumption]).
  Qed.
  Lemma obj_flaw x a x' e : gok "object" (ob_any x) -> obj_attr reg x a = Some (x', e) ->
    gok "object" (ob_any x') /\ AttrFlaws (core_rules "object" a) a (members e).
  Proof.
    intros G. unfold obj_attr, core_rules. destruct (seq (nspace (aname a)) ""); [|anyone G].
    norm core_rule. ifs; try value; done.
  Qed.
  Lemma comp_flaw x a x' e : gok "component" (co_any x) -> comp_attr reg x a = Some (x', e) ->
    gok "component" (co_any x') /\ AttrFlaws (core_rules "component" a) a (members e).
  Proof.
    intros G. unfold comp_attr, core_rules. destruct (seq (nspace (aname a)) ""); [|anyone G].
    norm core_rule. ifs; try value; done.
  Qed.
  Lemma model_flaw x a x' e : gok "model" (mo_anyattr (fst x)) -> model_attr reg x a = Some (x', e) ->
    gok "model" (mo_anyattr (fst x')) /\ AttrFlaws (core_rules "model" a) a (members e).
  Proof.
    destruct x as [m rq]. cbn [fst]. intros G. unfold model_attr, core_rules. destruct (seq (nspace (aname a)) "").
    - norm core_rule. ifs; try value; done.
    - unfold model_nocore.
      assert (K : forall ns, nspace (aname a) = ns -> knownb ns = false -> frule "model" a = None).
      { intros ns E K. unfold frule. rewrite E, K. reflexivity. }
      destruct (seq_spec (nspace (aname a)) "http://www.w3.org/XML/1998/namespace") as [E|_].
      { rewrite (K _ E eq_refl). destruct (seq _ "lang"); done. }
      destruct (seq_spec (nspace (aname a)) "xmlns") as [E|_].
      { rewrite (K _ E eq_refl). done. }
      anyone G.
  Qed.
  Lemma coord_flaw x a x' e : True -> coord_attr x a = Some (x', e) -> True /\ AttrFlaws (mat_rules "tex2coord" a) a (members e).
  Proof. intros _. unfold coord_attr, mat_rules. destruct (seq (nspace (aname a)) ""); cbn [negb]; [norm mat_rule; value|]; done. Qed.
  Lemma texg_flaw x a x' e : True -> texg_attr x a = Some (x', e) -> True /\ AttrFlaws (mat_rules "texture2dgroup" a) a (members e).
  Proof. intros _. unfold texg_attr, mat_rules. destruct (seq (nspace (aname a)) ""); cbn [negb]; [norm mat_rule; ifs; try value|]; done. Qed.
  Lemma tex_flaw x a x' e : True -> tex_attr x a = Some (x', e) -> True /\ AttrFlaws (mat_rules "texture2d" a) a (members e).
  Proof. intros _. unfold tex_attr, mat_rules. destruct (seq (nspace (aname a)) ""); cbn [negb]; [norm mat_rule; ifs; try value|]; done. Qed.
  Lemma composites_flaw x a x' e : True -> composites_attr x a = Some (x', e) -> True /\ AttrFlaws (mat_rules "compositematerials" a) a (members e).
  Proof. intros _. unfold composites_attr, mat_rules. destruct (seq (nspace (aname a)) ""); cbn [negb]; [norm mat_rule; ifs; try value|]; done. Qed.
  Lemma composite_flaw x a x' e : True -> composite_attr x a = Some (x', e) -> True /\ AttrFlaws (mat_rules "composite" a) a (members e).
  Proof. intros _. unfold composite_attr, is_attr, mat_rules. destruct (seq (nspace (aname a)) ""); cbn [negb andb]; [norm mat_rule; ifs; try value|]; done. Qed.
  Lemma multis_flaw x a x' e : True -> multis_attr x a = Some (x', e) -> True /\ AttrFlaws (mat_rules "multiproperties" a) a (members e).
  Proof. intros _. unfold multis_attr, mat_rules. destruct (seq (nspace (aname a)) ""); cbn [negb]; [norm mat_rule; ifs; try value|]; done. Qed.
  Lemma multi_flaw x a x' e : True -> multi_attr x a = Some (x', e) -> True /\ AttrFlaws (mat_rules "multi" a) a (members e).
  Proof. intros _. unfold multi_attr, is_attr, mat_rules. destruct (seq (nspace (aname a)) ""); cbn [negb andb]; [norm mat_rule; ifs; try value|]; done. Qed.
  Lemma stack_flaw x a x' e : True -> stack_attr x a = Some (x', e) -> True /\ AttrFlaws (slice_rules "slicestack" a) a (members e).
  Proof. intros _. unfold stack_attr, slice_rules. norm slice_rule; ifs; try value; done. Qed.
  Lemma sliceref_flaw x a x' e : True -> sliceref_attr x a = Some (x', e) -> True /\ AttrFlaws (slice_rules "sliceref" a) a (members e).
  Proof. intros _. unfold sliceref_attr, slice_rules. norm slice_rule; ifs; try value; done. Qed.
  Lemma svert_flaw x a x' e : True -> svert_attr x a = Some (x', e) -> True /\ AttrFlaws (slice_rules "vertex" a) a (members e).
  Proof. intros _. unfold svert_attr, slice_rules. norm slice_rule; value; done. Qed.
  Lemma seg_flaw x a x' e : True -> seg_attr x a = Some (x', e) -> True /\ AttrFlaws (slice_rules "segment" a) a (members e).
  Proof.
    intros _. destruct x as [g [h1 h2]]. unfold seg_attr, slice_rules. norm slice_rule. ifs; value; done.
  Qed.
  Lemma lattice_flaw x a x' e : True -> lattice_attr x a = Some (x', e) -> True /\ AttrFlaws (beam_rules "beamlattice" a) a (members e).
  Proof. intros _. unfold lattice_attr, beam_rules. destruct (seq (nspace (aname a)) ""); cbn [negb]; [norm beam_rule; ifs; try value|]; done. Qed.
  Lemma beam_flaw x a x' e : True -> beam_attr x a = Some (x', e) -> True /\ AttrFlaws (beam_rules "beam" a) a (members e).
  Proof. intros _. destruct x as [g [h1 h2]]. unfold beam_attr, beam_rules. destruct (seq (nspace (aname a)) ""); cbn [negb]; [norm beam_rule; ifs; try value|]; done. Qed.
End Attrs.

(** ** The groups of the state *)
Local Opaque append table.
Section State.
  Context (reg : Reg) (isroot : bool) (path : string) (later : Ref -> string).
  Notation gok := (gok reg).
  Definition mesh_ok (me : Mesh) : Prop := gok "vertices" (me_vany me) /\ gok "triangles" (me_tany me).
  Definition obj_ok (o : Object) : Prop := gok "metadatagroup" (mg_any (ob_md o)) /\ (forall me, ob_mesh o = Some me -> mesh_ok me).
  Definition item_ok (i : Item) : Prop := gok "metadatagroup" (mg_any (it_md i)).
  Record GOk (s : DSt) : Prop := {
    g_model : gok "model" (mo_anyattr (s_model s));
    g_build : gok "build" (bu_any (mo_build (s_model s)));
    g_res : forall r, res_get path s = Some r ->
      gok "resources" (rs_any r) /\ (s_obj_done s = true -> obj_ok (last (rs_objects r) obj_zero));
    g_obj : obj_ok (s_obj s);
    g_items : s_item_done s = true -> item_ok (last (bu_items (mo_build (s_model s))) item_zero);
    g_item : item_ok (s_item s) }.
  Lemma obj_zero_ok : obj_ok obj_zero.
  Proof. split; [constructor|discriminate]. Qed.
  Lemma item_zero_ok : item_ok item_zero.
  Proof. constructor. Qed.
  Lemma get_obj_ok s : GOk s -> obj_ok (get_obj path s).
  Proof.
    intros G. unfold get_obj. destruct (s_obj_done s) eqn:D; [|apply (g_obj _ G)].
    destruct (res_get path s) as [r|] eqn:E; [apply (g_res _ G r E), D|apply obj_zero_ok].
  Qed.
  Lemma get_item_ok s : GOk s -> item_ok (get_item s).
  Proof. intros G. unfold get_item. destruct (s_item_done s) eqn:D; [apply (g_items _ G D)|apply (g_item _ G)]. Qed.
  (** Only the resources change. *)
  Lemma res_set_frame r s : let s' := res_set path r s in
    mo_anyattr (s_model s') = mo_anyattr (s_model s) /\ mo_build (s_model s') = mo_build (s_model s) /\
    s_obj s' = s_obj s /\ s_obj_done s' = s_obj_done s /\ s_item s' = s_item s /\ s_item_done s' = s_item_done s /\
    s_bm s' = s_bm s /\ s_bm_done s' = s_bm_done s.
  Proof. cbn zeta. unfold res_set. destruct (_ || _); [repeat split|]. destruct (find_child _ _); repeat split. Qed.
  Lemma res_set_none r s : res_get path s = None -> res_set path r s = s.
  Proof.
    unfold res_get, res_set, find_resources. destruct (_ || _); [discriminate|]. destruct (find_child _ _); [discriminate|reflexivity].
  Qed.
  Lemma res_set_ok r s : GOk s -> gok "resources" (rs_any r) -> (s_obj_done s = true -> obj_ok (last (rs_objects r) obj_zero)) ->
    GOk (res_set path r s).
  Proof.
    intros G H1 H2. destruct (res_get path s) as [r0|] eqn:E; [|rewrite res_set_none by exact E; exact G].
    destruct (res_set_frame r s) as (F1 & F2 & F3 & F4 & F5 & F6 & _).
    split; rewrite ?F1, ?F2, ?F3, ?F5, ?F6; try apply G.
    intros r'. rewrite res_get_set by congruence. intros [= <-]. rewrite F4. auto.
  Qed.
  Lemma last_upd {A} (P : A -> Prop) (f : A -> A) l d : (P d) -> (forall x, P x -> P (f x)) -> P (last l d) -> P (last (upd_last f l) d).
  Proof. intros D H L. destruct l as [|x l] using rev_ind; [exact D|]. rewrite upd_last_snoc, last_snoc. rewrite last_snoc in L. auto. Qed.
  Lemma upd_obj_ok f s : (forall o, obj_ok o -> obj_ok (f o)) -> GOk s -> GOk (upd_obj path f s).
  Proof.
    intros H G. unfold upd_obj. destruct (s_obj_done s) eqn:D.
    - destruct (res_get path s) as [r|] eqn:E; [|exact G]. destruct (g_res _ G r E) as [R1 R2].
      apply res_set_ok; [exact G|exact R1|]. intros _. cbn [rs_objects]. apply last_upd; auto. apply obj_zero_ok.
    - destruct G as [G1 G2 G3 G4 G5 G6]. split; cbn; auto. intros r E. destruct (G3 r E). split; [assumption|discriminate].
  Qed.
  Lemma upd_item_ok f s : (forall o, item_ok o -> item_ok (f o)) -> GOk s -> GOk (upd_item f s).
  Proof.
    intros H G. unfold upd_item. destruct (s_item_done s) eqn:D.
    - destruct G as [G1 G2 G3 G4 G5 G6]. split; cbn; auto. intros _. apply last_upd; auto. apply item_zero_ok.
    - destruct G as [G1 G2 G3 G4 G5 G6]. split; cbn; auto. discriminate.
  Qed.
  Lemma upd_bm_ok f s : GOk s -> GOk (upd_bm path f s).
  Proof.
    intros G. unfold upd_bm. destruct (s_bm_done s).
    - destruct (res_get path s) as [r|] eqn:E; [|exact G]. destruct (g_res _ G r E) as [R1 R2]. apply res_set_ok; assumption.
    - destruct G as [G1 G2 G3 G4 G5 G6]. split; cbn; auto.
  Qed.
  Lemma upd_mesh_ok f s : (forall m, mesh_ok m -> mesh_ok (f m)) -> GOk s -> GOk (upd_mesh path f s).
  Proof.
    intros H. apply upd_obj_ok. intros o [O1 O2]. split; [exact O1|]. cbn. intros me. destruct (ob_mesh o) as [m|]; [|discriminate].
    intros [= <-]. apply H, O2. reflexivity.
  Qed.
  Lemma upd_any_ok l f s : GOk s -> GOk (upd_any path l f s).
  Proof.
    intros G. destruct l; cbn [upd_any]; [exact G| |apply upd_mesh_ok; [intros m M; exact M|exact G]].
    destruct G as [G1 G2 G3 G4 G5 G6]. split; cbn; auto.
  Qed.
  Lemma upd_ext_ok l f s : GOk s -> GOk (upd_ext path l f s).
  Proof.
    intros G. destruct l; cbn [upd_ext]; try apply upd_any_ok; try assumption.
    destruct (res_get path s) as [r|] eqn:E; [|exact G]. destruct (g_res _ G r E) as [R1 R2]. apply res_set_ok; assumption.
  Qed.
  Lemma with_slice_ok x s : GOk s -> GOk (with_slice x s).
  Proof. intros [G1 G2 G3 G4 G5 G6]. split; cbn; auto. Qed.
  Lemma with_set_ok x s : GOk s -> GOk (with_set x s).
  Proof. intros [G1 G2 G3 G4 G5 G6]. split; cbn; auto. Qed.
  Lemma with_meta_ok x s : GOk s -> GOk (with_meta x s).
  Proof. intros [G1 G2 G3 G4 G5 G6]. split; cbn; auto. Qed.
  Lemma with_unk_ok x y s : GOk s -> GOk (with_unk x y s).
  Proof. intros [G1 G2 G3 G4 G5 G6]. split; cbn; auto. Qed.
  Lemma with_bm_ok x y s : GOk s -> GOk (with_bm x y s).
  Proof. intros [G1 G2 G3 G4 G5 G6]. split; cbn; auto. Qed.
  Lemma append_token_ok k t s : GOk s -> GOk (append_token path k t s).
  Proof. intros G. destruct k; cbn [append_token]; try exact G; [apply with_unk_ok, G|apply upd_any_ok, G]. Qed.
  Lemma add_md_ok l x s : GOk s -> GOk (add_md path l x s).
  Proof.
    intros G. destruct l; cbn [add_md].
    - destruct G as [G1 G2 G3 G4 G5 G6]. split; cbn; auto.
    - apply upd_item_ok; [|exact G]. intros i I. exact I.
    - apply upd_obj_ok; [|exact G]. intros i [I1 I2]. split; assumption.
  Qed.
  Lemma set_mg_ok l g s : gok "metadatagroup" (mg_any g) -> GOk s -> GOk (set_mg path l g s).
  Proof.
    intros H G. destruct l; cbn [set_mg]; [exact G| |].
    - apply upd_item_ok; [|exact G]. intros i I. exact H.
    - apply upd_obj_ok; [|exact G]. intros i [I1 I2]. split; assumption.
  Qed.
  Lemma end_gok k n s s' : GOk s -> end_ path k n s = Some s' -> GOk s'.
  Proof.
    intros G. destruct k; cbn [end_]; try (intros [= <-]; exact G); unfold res_upd.
    - intros [= <-]. apply add_md_ok, G.
    - intros [= <-]. pose proof (get_item_ok s G) as I. destruct G as [G1 G2 G3 G4 G5 G6]. split; cbn; auto.
      intros _. rewrite last_snoc. exact I.
    - destruct (res_get path (with_bm _ _ s)) as [r|] eqn:E; [|discriminate]. intros [= <-]. change (res_get path s = Some r) in E.
      destruct (g_res _ G r E) as [R1 R2]. apply res_set_ok; try assumption. apply with_bm_ok, G.
    - destruct (res_get path (with_obj _ _ s)) as [r|] eqn:E; [|discriminate]. intros [= <-]. change (res_get path s = Some r) in E.
      destruct (g_res _ G r E) as [R1 R2]. pose proof (get_obj_ok s G) as I.
      assert (F : forall r' s1, s_obj_done s1 = true -> gok "model" (mo_anyattr (s_model s1)) -> gok "build" (bu_any (mo_build (s_model s1))) ->
        obj_ok (s_obj s1) -> (s_item_done s1 = true -> item_ok (last (bu_items (mo_build (s_model s1))) item_zero)) -> item_ok (s_item s1) ->
        res_get path s1 <> None -> gok "resources" (rs_any r') -> obj_ok (last (rs_objects r') obj_zero) -> GOk (res_set path r' s1)).
      { intros r' s1 D A1 A2 A3 A4 A5 N R O. destruct (res_set_frame r' s1) as (F1 & F2 & F3 & F4 & F5 & F6 & _).
        split; rewrite ?F1, ?F2, ?F3, ?F5, ?F6; auto. intros r''. rewrite res_get_set by exact N. intros [= <-]. auto. }
      destruct G as [G1 G2 G3 G4 G5 G6]. apply F; cbn; auto.
      + change (res_get path s <> None). congruence.
      + rewrite last_snoc. exact I.
    - destruct (res_get path (with_unk _ _ s)) as [r|] eqn:E; [|discriminate]. intros [= <-]. change (res_get path s = Some r) in E.
      destruct (g_res _ G r E) as [R1 R2]. apply res_set_ok; try assumption. apply with_unk_ok, G.
    - intros [= <-]. apply upd_any_ok, G.
    - destruct x; intros [= <-]; try exact G; apply upd_ext_ok, G.
  Qed.

  (** ** Child *)
  Definition ext_name (x : XK) : Name :=
    match x with
    | XkColorGroup => mkName ns_materials "colorgroup" | XkColor => mkName ns_materials "color"
    | XkTexGroup => mkName ns_materials "texture2dgroup" | XkCoord => mkName ns_materials "tex2coord"
    | XkTex => mkName ns_materials "texture2d"
    | XkComposites => mkName ns_materials "compositematerials" | XkComposite => mkName ns_materials "composite"
    | XkMultis => mkName ns_materials "multiproperties" | XkMulti => mkName ns_materials "multi"
    | XkStack => mkName ns_slices "slicestack" | XkSliceRef => mkName ns_slices "sliceref" | XkSlice => mkName ns_slices "slice"
    | XkSVerts => mkName ns_slices "vertices" | XkSVert => mkName ns_slices "vertex"
    | XkPoly => mkName ns_slices "polygon" | XkSeg => mkName ns_slices "segment"
    | XkLattice => mkName ns_beam "beamlattice" | XkBeams => mkName ns_beam "beams" | XkBeam => mkName ns_beam "beam"
    | XkSets => mkName ns_beam "beamsets" | XkSet => mkName ns_beam "beamset" | XkRef => mkName ns_beam "ref"
    end.
  (** The extension of the decoder is registered. *)
  Definition kind_ok (k : DK) : Prop := match k with KExt _ x => knownb reg (nspace (ext_name x)) = true | _ => True end.
  Definition isres (k : DK) : bool := match k with KRes => true | _ => false end.
  Definition fits (k0 k : DK) (n : Name) : Prop :=
    match k with
    | KTop => False
    | KUnkAsset => nspace n <> ns_core /\ knownb reg (nspace n) = false /\ isres k0 = true
    | KUnk _ => nspace n <> ns_core /\ knownb reg (nspace n) = false /\ isres k0 = false
    | KExt _ x => n = ext_name x /\ knownb reg (nspace n) = true
    | k => n = core_name (parent_of k)
    end.
  Lemma name_eq n sp l : nspace n = sp -> nlocal n = l -> n = mkName sp l.
  Proof. destruct n; cbn. congruence. Qed.
  Lemma ext_decoder_name ns sp n x e : load reg ns = Some sp -> nspace n = ns -> ext_decoder sp (nlocal n) = Some (x, e) -> n = ext_name x.
  Proof.
    intros L N. assert (ns = match sp with SpMat => ns_materials | SpProd => ns_production | SpSlices => ns_slices | SpBeam => ns_beam end) as E.
    { unfold load in L. repeat match type of L with (if seq ?a ?b then _ else _) = _ => destruct (seq_spec a b) as [->|_] end; try discriminate;
      match type of L with (if ?b then _ else _) = _ => destruct b end; try discriminate; injection L as <-; reflexivity. }
    unfold ext_decoder. destruct sp; repeat match goal with |- (if seq ?a ?b then _ else _) = _ -> _ => destruct (seq_spec a b) end;
      try discriminate; intros [= <- <-]; apply name_eq; congruence.
  Qed.
  Ltac ifs := repeat match goal with
    | |- (if seq ?a ?b then _ else _) = _ -> _ => destruct (seq_spec a b)
    | |- (if core ?a ?b then _ else _) = _ -> _ => let E := fresh "E" in destruct (core a b) eqn:E; [apply core_true in E|]
    | |- (if ?b then _ else _) = _ -> _ => let E := fresh "E" in destruct b eqn:E end.
  Lemma child_fits k0 n s0 i k s : kind_ok k0 -> child reg isroot path k0 n s0 = COk i k s -> fits k0 k n.
  Proof.
    assert (R : forall X (a : option X) (f : X -> cres), (forall x, f x = COk i k s -> fits k0 k n) ->
      match a with Some x => f x | None => CPanic end = COk i k s -> fits k0 k n).
    { intros X [x|] f H; [apply H|discriminate]. }
    intros K. destruct k0; cbn [child]; try discriminate; try (ifs; intros [= <- <- <-]; assumption).
    - unfold model_child. ifs; try discriminate; try (intros [= <- <- <-]; apply ns_eq; assumption).
      unfold new_element_decoder. destruct (load reg (nspace n)) as [sp|] eqn:L.
      + destruct (ext_decoder sp (nlocal n)) as [[x e]|] eqn:D; [|discriminate]. intros [= <- <- <-].
        split; [eapply ext_decoder_name; eauto|unfold knownb; rewrite L; reflexivity].
      + intros [= <- <- <-]. split; [assumption|]. split; [unfold knownb; rewrite L; reflexivity|reflexivity].
    - unfold res_child. ifs; try discriminate.
      + apply R. intros r [= <- <- <-]. apply ns_eq; assumption.
      + apply R. intros r [= <- <- <-]. apply ns_eq; assumption.
      + destruct (load reg (nspace n)) as [sp|] eqn:L.
        * destruct (ext_decoder sp (nlocal n)) as [[x e]|] eqn:D; [|destruct (res_get path s0); discriminate].
          destruct e; try discriminate; apply R; intros r [= <- <- <-];
            (split; [eapply ext_decoder_name; eauto|unfold knownb; rewrite L; reflexivity]).
        * apply R. intros r [= <- <- <-]. split; [assumption|]. split; [unfold knownb; rewrite L; reflexivity|reflexivity].
    - unfold mesh_child. ifs; try discriminate; try (intros [= <- <- <-]; apply ns_eq; assumption).
      unfold new_element_decoder. destruct (load reg (nspace n)) as [sp|] eqn:L.
      + destruct (ext_decoder sp (nlocal n)) as [[x e]|] eqn:D; [|discriminate]. intros [= <- <- <-].
        split; [eapply ext_decoder_name; eauto|unfold knownb; rewrite L; reflexivity].
      + intros [= <- <- <-]. split; [assumption|]. split; [unfold knownb; rewrite L; reflexivity|reflexivity].
    - assert (Q : forall ns l, seq (nspace n) ns && seq (nlocal n) l = true -> n = mkName ns l).
      { intros ns ll Q. apply andb_true_iff in Q as [Q1 Q2]. apply seq_true in Q1, Q2. apply name_eq; assumption. }
      cbn [kind_ok] in K.
      destruct x; cbn [ext_child]; ifs; intros [= <- <- <-]; match goal with E : _ && _ = true |- _ => apply Q in E as -> end;
        (split; [reflexivity|exact K]).
  Qed.
  Lemma fits_kind k0 k n : fits k0 k n -> kind_ok k.
  Proof. destruct k; cbn [fits kind_ok]; auto. intros [-> H]. exact H. Qed.
  Lemma child_gok k0 n s0 i k s : GOk s0 -> child reg isroot path k0 n s0 = COk i k s -> GOk s.
  Proof.
    intros G.
    assert (R : forall X (a : option X) (f : X -> cres), (forall x, a = Some x -> f x = COk i k s -> GOk s) ->
      match a with Some x => f x | None => CPanic end = COk i k s -> GOk s).
    { intros X [x|] f H; [apply H; reflexivity|discriminate]. }
    assert (GI : GOk (with_item item_zero false s0)).
    { destruct G as [G1 G2 G3 G4 G5 G6]. split; cbn; auto; [discriminate|apply item_zero_ok]. }
    assert (GO : GOk (with_obj obj_zero false s0)).
    { destruct G as [G1 G2 G3 G4 G5 G6]. split; cbn; auto; [|apply obj_zero_ok]. intros r E. destruct (G3 r E). split; [assumption|discriminate]. }
    assert (GA : forall x, GOk (with_model (mo_set_any x (s_model s0)) s0)).
    { intros x. destruct G as [G1 G2 G3 G4 G5 G6]. split; cbn; auto. }
    destruct k0; cbn [child]; try discriminate; try (ifs; intros [= <- <- <-]; first [exact G|exact GI|apply with_meta_ok, G]).
    - unfold model_child. ifs; try discriminate; try (intros [= <- <- <-]; first [exact G|apply with_meta_ok, G]).
      destruct (new_element_decoder _ _ _) as [[k1 e]|]; [|discriminate]. intros [= <- <- <-]. apply GA.
    - unfold res_child. ifs; try discriminate.
      + apply R. intros r _ [= <- <- <-]. exact GO.
      + apply R. intros r E [= <- <- <-]. destruct (g_res _ G r E) as [R1 R2]. apply res_set_ok; try assumption. apply with_bm_ok, G.
      + destruct (load _ _) as [sp|].
        * destruct (ext_decoder _ _) as [[x e]|]; [|destruct (res_get path s0); discriminate].
          destruct e; try discriminate; apply R; intros r E [= <- <- <-]; destruct (g_res _ G r E) as [R1 R2]; apply res_set_ok; assumption.
        * apply R. intros r E [= <- <- <-]. destruct (g_res _ G r E) as [R1 R2]. apply res_set_ok; try assumption. apply with_unk_ok, G.
    - unfold mesh_child. ifs; try discriminate; try (intros [= <- <- <-]; exact G).
      destruct (new_element_decoder _ _ _) as [[k1 e]|]; [|discriminate]. intros [= <- <- <-]. apply upd_mesh_ok; [|exact G]. intros m M. exact M.
    - destruct x; cbn [ext_child]; ifs; intros [= <- <- <-]; first [exact G|apply with_slice_ok, G|apply with_set_ok, G].
  Qed.
  (** The record of a new element is empty. *)
  Definition fresh (k : DK) (s : DSt) : Prop :=
    match k with KItem => get_item s = item_zero | KObj => get_obj path s = obj_zero | KBaseMats => get_bm path s = bm_zero | _ => True end.
  Lemma child_fresh k0 n s0 i k s : child reg isroot path k0 n s0 = COk i k s -> fresh k s.
  Proof.
    assert (R : forall X (a : option X) (f : X -> cres), (forall x, f x = COk i k s -> fresh k s) ->
      match a with Some x => f x | None => CPanic end = COk i k s -> fresh k s).
    { intros X [x|] f H; [apply H|discriminate]. }
    destruct k0; cbn [child]; try discriminate; try (ifs; intros [= <- <- <-]; first [exact I|reflexivity]).
    - unfold model_child. ifs; try discriminate; try (intros [= <- <- <-]; exact I).
      unfold new_element_decoder. destruct (load _ _); [destruct (ext_decoder _ _) as [[x e]|]; [|discriminate]|]; intros [= <- <- <-]; exact I.
    - unfold res_child. ifs; try discriminate.
      + apply R. intros r [= <- <- <-]. reflexivity.
      + apply R. intros r [= <- <- <-]. cbn [fresh]. unfold get_bm.
        destruct (res_set_frame r (with_bm bm_zero false s0)) as (_ & _ & _ & _ & _ & _ & F1 & F2). rewrite F1, F2. reflexivity.
      + destruct (load _ _) as [sp|].
        * destruct (ext_decoder _ _) as [[x e]|]; [|destruct (res_get path s0); discriminate].
          destruct e; try discriminate; apply R; intros r [= <- <- <-]; exact I.
        * apply R. intros r [= <- <- <-]. exact I.
    - unfold mesh_child. ifs; try discriminate; try (intros [= <- <- <-]; exact I).
      unfold new_element_decoder. destruct (load _ _); [destruct (ext_decoder _ _) as [[x e]|]; [|discriminate]|]; intros [= <- <- <-]; exact I.
    - destruct x; cbn [ext_child]; ifs; intros [= <- <- <-]; exact I.
  Qed.

  (** ** Start *)
  Lemma flaws_ext (r r' : Attr -> rule) b l es : (forall a, r a = r' a) -> Flaws r b l es -> Flaws r' b l es.
  Proof.
    intros H. induction 1 as [|a l es B N F|a l es es' B F F' IH].
    - constructor.
    - apply FStop; rewrite <- ?H; assumption.
    - apply FCons; rewrite <- ?H; assumption.
  Qed.
  Notation arule := (attr_rule (knownb reg) isroot).
  Lemma rule_core b el a : (el = "model" -> isroot = true) -> arule b (core_name el) a = core_rules reg el a.
  Proof.
    intros H. unfold attr_rule, core_rules, frule. cbn [core_name nspace nlocal]. rewrite seq_refl.
    destruct (seq (nspace (aname a)) ""); [|reflexivity]. destruct (seq_spec el "model") as [->|]; [rewrite H by reflexivity|]; reflexivity.
  Qed.
  Lemma frule_none el a : existsb (seq el) ["build"; "item"; "object"; "component"] = false -> frule reg el a = None.
  Proof.
    intros H. unfold frule, foreign_rule. rewrite H. destruct (knownb _ _); [|reflexivity]. destruct (seq _ ns_production); [reflexivity|].
    cbn [existsb] in H. rewrite !orb_false_iff in H. destruct H as (_ & _ & -> & _). destruct (seq _ ns_slices); reflexivity.
  Qed.
  Lemma first_core b el : attr_first (knownb reg) b (core_name el) = false.
  Proof. reflexivity. Qed.
  Lemma core_loop {A} (I : A -> Prop) (f : A -> Attr -> option (A * error)) b el l x x' e : (el = "model" -> isroot = true) ->
    (forall x a x' e, I x -> f x a = Some (x', e) -> I x' /\ AttrFlaws (core_rules reg el a) a (members e)) ->
    I x -> attrs_loop f x None l = Some (x', e) ->
    I x' /\ Flaws (arule b (core_name el)) (attr_first (knownb reg) b (core_name el)) l (members e).
  Proof.
    intros M H X L. rewrite first_core. destruct (flaws_loop I f _ H l x None x' e X L) as (X' & es & F & ->). split; [exact X'|].
    apply (flaws_ext (core_rules reg el)); [|exact F]. intros a. symmetry. apply rule_core, M.
  Qed.
  Lemma group_loop b el l any any' e : (forall a, core_rule el a = None) -> el <> "model" ->
    gok el any -> group_start reg el any l = Some (any', e) ->
    gok el any' /\ Flaws (arule b (core_name el)) (attr_first (knownb reg) b (core_name el)) l (members e).
  Proof.
    intros C M G. unfold group_start. apply (core_loop (gok el)); [congruence| |exact G].
    intros x a x' e' G' H. destruct (any_flaw reg el x a x' e' G' H) as [H1 H2]. split; [exact H1|]. unfold core_rules.
    destruct (seq (nspace (aname a)) "") eqn:P; [|exact H2]. rewrite C. rewrite plain_frule in H2 by exact P. exact H2.
  Qed.
  Lemma core_none b el l : core_rule el = core_rule "metadata" \/ (el = "model" /\ isroot = false) ->
    existsb (seq el) ["build"; "item"; "object"; "component"] = false ->
    Flaws (arule b (core_name el)) (attr_first (knownb reg) b (core_name el)) l [].
  Proof.
    intros C F. apply flaws_none. intros a _. unfold attr_rule. cbn [core_name nspace nlocal]. rewrite seq_refl.
    destruct (seq (nspace (aname a)) "").
    - destruct C as [C|[-> ->]]; [|reflexivity]. rewrite C. destruct (_ && _); reflexivity.
    - exact (frule_none el a F).
  Qed.
  (** Elements of extensions *)
  Lemma rule_mat b el a : knownb reg ns_materials = true -> arule b (mkName ns_materials el) a = mat_rules el a.
  Proof. intros H. unfold attr_rule. cbn [nspace nlocal]. rewrite H. reflexivity. Qed.
  Lemma rule_slice b el a : knownb reg ns_slices = true -> arule b (mkName ns_slices el) a = slice_rules el a.
  Proof. intros H. unfold attr_rule. cbn [nspace nlocal]. rewrite H. reflexivity. Qed.
  Lemma rule_beam b el a : knownb reg ns_beam = true -> arule b (mkName ns_beam el) a = beam_rules el a.
  Proof. intros H. unfold attr_rule. cbn [nspace nlocal]. rewrite H. reflexivity. Qed.
  Lemma first_known b n : nspace n <> ns_core -> knownb reg (nspace n) = true -> attr_first (knownb reg) b n = first_only n.
  Proof. intros N K. unfold attr_first. destruct (seq_spec (nspace n) ns_core); [congruence|]. rewrite K. reflexivity. Qed.
  Lemma ext_loop {A} (f : A -> Attr -> option (A * error)) (r : Attr -> rule) b n l x x' e :
    nspace n <> ns_core -> knownb reg (nspace n) = true -> first_only n = false -> (forall a, arule b n a = r a) ->
    (forall x a x' e, True -> f x a = Some (x', e) -> True /\ AttrFlaws (r a) a (members e)) ->
    attrs_loop f x None l = Some (x', e) -> Flaws (arule b n) (attr_first (knownb reg) b n) l (members e).
  Proof.
    intros N K F R H L. rewrite first_known, F by assumption. destruct (flaws_loop (fun _ => True) f r H l x None x' e I L) as (_ & es & Fl & ->).
    apply (flaws_ext r); [|exact Fl]. intros a. symmetry. apply R.
  Qed.
  Lemma first_flaws (r : Attr -> rule) (p : Attr -> bool) t b l (v : Attr -> error) : (forall a, r a = if p a then Some (t, b) else None) ->
    (forall a, AttrFlaws (Some (t, b)) a (members (v a))) ->
    Flaws r true l (members match first_attr p l with Some a => v a | None => None end).
  Proof.
    intros H V. pose proof (flaws_first r p t b l H) as Q. destruct (first_attr p l) as [a|]; [apply Q, V|exact Q].
  Qed.
  Lemma ext_first (r : Attr -> rule) (p : Attr -> bool) t bb b n l (v : Attr -> error) :
    nspace n <> ns_core -> knownb reg (nspace n) = true -> first_only n = true -> (forall a, arule b n a = r a) ->
    (forall a, r a = if p a then Some (t, bb) else None) -> (forall a, AttrFlaws (Some (t, bb)) a (members (v a))) ->
    Flaws (arule b n) (attr_first (knownb reg) b n) l (members match first_attr p l with Some a => v a | None => None end).
  Proof.
    intros N K F R P V. rewrite first_known, F by assumption. apply (flaws_ext r); [intros a; symmetry; apply R|]. eapply first_flaws; eassumption.
  Qed.
  Lemma ext_none b n l : nspace n <> ns_core -> knownb reg (nspace n) = true -> (forall a, arule b n a = None) ->
    Flaws (arule b n) (attr_first (knownb reg) b n) l [].
  Proof. intros N K H. apply flaws_none. intros a _. apply H. Qed.
  Lemma fin_inv {A} (r : option (A * error)) (f : A -> DSt) s' e :
    match r with Some (v, e) => Some (f v, e) | None => None end = Some (s', e) -> exists v, r = Some (v, e) /\ s' = f v.
  Proof. destruct r as [[v e']|]; [|discriminate]. intros [= <- <-]. eauto. Qed.
  Ltac lp fl R := let H := fresh in let v := fresh in let L := fresh in intros H; apply fin_inv in H as (v & L & ->);
    (split; [first [apply upd_ext_ok; assumption|apply with_slice_ok; assumption]|];
     eapply ext_loop; [eassumption|eassumption|reflexivity|intros ?; apply R; assumption|exact fl|exact L]).
  Ltac fst1 rr vv RR VV r1 r2 :=
    match goal with |- match first_attr ?p ?l with _ => _ end = _ -> Flaws _ _ _ _ => idtac | |- match first_attr ?p ?l with _ => _ end = _ -> _ /\ Flaws (arule ?b ?n) _ _ _ =>
      let H := fresh "H" in let Q := fresh "Q" in let a := fresh "a" in let E := fresh "E" in intros H;
      assert (Q : Flaws (arule b n) (attr_first (knownb reg) b n) l (members match first_attr p l with Some a => vv a | None => None end));
      [ eapply (ext_first rr); [eassumption|eassumption|reflexivity|exact RR| |exact VV];
        let b := fresh in intros b; try (match goal with IA : forall l a, is_attr l a = _ |- _ => rewrite IA end); unfold r1; try (destruct (seq (nspace (aname b)) ""); [|reflexivity]);
        match goal with |- r2 ?el ?x = _ => let r := eval hnf in (r2 el x) in change (r2 el x) with r end; rewrite table_cons, table_nil; reflexivity
      | destruct (first_attr p l) as [a|];
        [ cbv beta in Q; match type of H with (let (_, _) := ?y in _) = _ => destruct y eqn:E end; injection H as <- <-; rewrite ?members_append_none; cbn [snd] in Q;
          split; [first [apply upd_ext_ok; assumption|apply with_slice_ok; assumption|apply with_set_ok; assumption]|exact Q]
        | injection H as <- <-; split; [first [assumption|apply with_slice_ok; assumption|apply with_set_ok; assumption]|exact Q] ] ]
    end.
  Lemma ext_start_flaw k0 l x n attrs s s' e : n = ext_name x -> knownb reg (nspace n) = true -> GOk s ->
    ext_start path l x attrs s = Some (s', e) ->
    GOk s' /\ Flaws (arule k0 n) (attr_first (knownb reg) k0 n) attrs (members e).
  Proof.
    intros -> K G.
    assert (N : nspace (ext_name x) <> ns_core) by (destruct x; discriminate).
    assert (RM : forall el a, knownb reg ns_materials = true -> arule k0 (mkName ns_materials el) a = mat_rules el a) by (intros; apply rule_mat; assumption).
    assert (RS : forall el a, knownb reg ns_slices = true -> arule k0 (mkName ns_slices el) a = slice_rules el a) by (intros; apply rule_slice; assumption).
    assert (RB : forall el a, knownb reg ns_beam = true -> arule k0 (mkName ns_beam el) a = beam_rules el a) by (intros; apply rule_beam; assumption).
    assert (IA : forall l a, is_attr l a = if seq (nspace (aname a)) "" then seq (nlocal (aname a)) l else false).
    { intros ll a. unfold is_attr. destruct (seq (nspace (aname a)) ""); reflexivity. }
    destruct x; cbn [ext_start ext_name] in *.
    - fst1 (mat_rules "colorgroup") (fun a => snd (get_u32 a true)) (fun a => RM "colorgroup" a K) (fun a => u32_flaw a true) mat_rules mat_rule.
    - fst1 (mat_rules "color") (fun a => if snd (parse_rgba (avalue a)) then None else parse_err a true) (fun a => RM "color" a K) (fun a => colour_flaw a true) mat_rules mat_rule.
    - lp texg_flaw RM.
    - lp coord_flaw RM.
    - lp tex_flaw RM.
    - lp composites_flaw RM.
    - lp composite_flaw RM.
    - lp multis_flaw RM.
    - lp multi_flaw RM.
    - lp stack_flaw RS.
    - lp sliceref_flaw RS.
    - fst1 (slice_rules "slice") (fun a => snd (get_f32 a true)) (fun a => RS "slice" a K) (fun a => f32_flaw a true) slice_rules slice_rule.
    - intros [= <- <-]. split; [exact G|]. apply ext_none; [exact N|exact K|]. intros a. rewrite RS by exact K. reflexivity.
    - lp svert_flaw RS.
    - fst1 (slice_rules "polygon") (fun a => snd (get_u32 a true)) (fun a => RS "polygon" a K) (fun a => u32_flaw a true) slice_rules slice_rule.
    - lp seg_flaw RS.
    - lp lattice_flaw RB.
    - intros [= <- <-]. split; [exact G|]. apply ext_none; [exact N|exact K|]. intros a. rewrite RB by exact K. unfold beam_rules. destruct (seq _ ""); reflexivity.
    - lp beam_flaw RB.
    - intros [= <- <-]. split; [exact G|]. apply ext_none; [exact N|exact K|]. intros a. rewrite RB by exact K. unfold beam_rules. destruct (seq _ ""); reflexivity.
    - intros [= <- <-]. split; [apply with_set_ok, G|]. apply ext_none; [exact N|exact K|]. intros a. rewrite RB by exact K. unfold beam_rules. destruct (seq _ ""); reflexivity.
    - fst1 (beam_rules "ref") (fun a => snd (get_u32 a true)) (fun a => RB "ref" a K) (fun a => u32_flaw a true) beam_rules beam_rule.
  Qed.
  Definition same_rest (m m' : Model) : Prop :=
    mo_path m' = mo_path m /\ mo_build m' = mo_build m /\ mo_res m' = mo_res m /\ mo_childs m' = mo_childs m.
  Lemma same_trans m1 m2 m3 : same_rest m1 m2 -> same_rest m2 m3 -> same_rest m1 m3.
  Proof. unfold same_rest. intuition congruence. Qed.
  Lemma model_attr_same x a x' e : model_attr reg x a = Some (x', e) -> same_rest (fst x) (fst x').
  Proof.
    destruct x as [m req]. unfold model_attr. cbn [fst].
    destruct (seq _ "").
    - destruct (seq _ "unit"); [destruct (new_units _); intros [= <- <-]; repeat split|].
      destruct (seq _ "thumbnail"); [intros [= <- <-]; repeat split|].
      destruct (seq _ "requiredextensions"); intros [= <- <-]; repeat split.
    - unfold model_nocore. destruct (seq _ "http://www.w3.org/XML/1998/namespace"); [destruct (seq _ "lang"); intros [= <- <-]; repeat split|].
      destruct (seq _ "xmlns"); [intros [= <- <-]; repeat split|].
      destruct (any_attr _ _ _ _) as [[any e0]|]; [|discriminate]. intros [= <- <-]; repeat split.
  Qed.
  Lemma start_flaw k0 k n attrs s s' e : fits k0 k n -> fresh k s -> GOk s -> start reg isroot path k n attrs s = Some (s', e) ->
    GOk s' /\ Flaws (arule (isres k0) n) (attr_first (knownb reg) (isres k0) n) attrs (members e).
  Proof.
    intros F V G.
    assert (GB : forall any, gok "build" any -> GOk (with_model (mo_set_build (mkBuild (bu_items (mo_build (s_model s))) any) (s_model s)) s)).
    { intros any A. destruct G as [G1 G2 G3 G4 G5 G6]. split; cbn; auto. }
    assert (MG : forall l, gok "metadatagroup" (mg_any (get_mg path l s))).
    { intros l. destruct l; cbn [get_mg]; [constructor|apply (get_item_ok s G)|apply (get_obj_ok s G)]. }
    destruct k; cbn [fits parent_of] in F; try contradiction; try subst n; cbn [start].
    - (* model *) unfold model_start. destruct (negb isroot) eqn:IR.
      + intros [= <- <-]. apply negb_true_iff in IR. split; [exact G|]. apply core_none; [right; auto|reflexivity].
      + apply negb_false_iff in IR. destruct (attrs_loop _ _ _ _) as [[[m rq] e1]|] eqn:L; [|discriminate]. intros [= <- <-].
        apply (core_loop (fun x => gok "model" (mo_anyattr (fst x)) /\ same_rest (s_model s) (fst x)) _ (isres k0) "model") in L as [[L1 L2] L3];
          [|auto| |split; [apply (g_model _ G)|repeat split]].
        2: { intros x a x' e' [X1 X2] E. pose proof (model_attr_same _ _ _ _ E). destruct (model_flaw _ _ _ _ _ X1 E) as [Y1 Y2].
             split; [split; [exact Y1|eapply same_trans; eassumption]|exact Y2]. }
        split; [|exact L3]. cbn [fst] in *. destruct L2 as (E1 & E2 & E3 & E4). destruct G as [G1 G2 G3 G4 G5 G6]. split; cbn; rewrite ?E2; auto.
        intros r. unfold res_get, find_resources, find_child. cbn. rewrite E1, E3, E4. apply G3.
    - intros H. apply fin_inv in H as (v & L & ->). apply (group_loop (isres k0)) in L as [L1 L2]; [|reflexivity|discriminate|apply MG].
      split; [apply set_mg_ok; assumption|exact L2].
    - intros [= <- <-]. split; [apply with_meta_ok, G|]. apply core_none; [left|]; reflexivity.
    - intros H. apply fin_inv in H as (v & L & ->). apply (group_loop (isres k0)) in L as [L1 L2]; [|reflexivity|discriminate|apply (g_build _ G)].
      split; [apply GB; assumption|exact L2].
    - intros H. apply fin_inv in H as (v & L & ->). apply (core_loop (fun x => gok "item" (it_any x) /\ item_ok x) _ (isres k0) "item") in L as [[L1 L2] L3].
      + split; [apply upd_item_ok; auto|exact L3].
      + discriminate.
      + intros x a x' e' [X1 X2] E. destruct (item_flaw _ _ _ _ _ X1 E) as [Y1 Y2]. split; [split; [exact Y1|]|exact Y2].
        unfold item_ok in *. replace (it_md x') with (it_md x); [exact X2|]. clear -E. unfold item_attr in E.
        repeat match type of E with
               | (if ?b then _ else _) = _ => destruct b
               | (let (_, _) := ?p in _) = _ => destruct p
               | match ?p with Some _ => _ | None => _ end = _ => destruct p as [[? ?]|]; [|discriminate] end; injection E as <- <-; reflexivity.
      + cbn [fresh] in V. rewrite V. split; [constructor|apply item_zero_ok].
    - destruct attrs as [|a0 attrs].
      + intros [= <- <-]. split; [exact G|constructor].
      + destruct (res_get path s) as [r|] eqn:E; [|discriminate]. intros H. apply fin_inv in H as (v & L & ->). destruct (g_res _ G r E) as [R1 R2].
        apply (group_loop (isres k0)) in L as [L1 L2]; [|reflexivity|discriminate|exact R1].
        split; [apply res_set_ok; assumption|exact L2].
    - intros H. apply fin_inv in H as (v & L & ->).
      apply (core_loop (fun x => gok "basematerials" (bs_any x)) _ (isres k0) "basematerials") in L as [L1 L2];
        [split; [apply upd_bm_ok; assumption|exact L2]|discriminate|apply bm_flaw|cbn [fresh] in V; rewrite V; constructor].
    - intros H. apply fin_inv in H as (v & L & ->).
      apply (core_loop (fun x => gok "base" (ba_any x)) _ (isres k0) "base") in L as [L1 L2];
        [split; [apply upd_bm_ok; assumption|exact L2]|discriminate|apply base_flaw|constructor].
    - intros H. apply fin_inv in H as (v & L & ->). apply (core_loop (fun x => gok "object" (ob_any x) /\ obj_ok x) _ (isres k0) "object") in L as [[L1 L2] L3].
      + split; [apply upd_obj_ok; auto|exact L3].
      + discriminate.
      + intros x a x' e' [X1 X2] E. destruct (obj_flaw _ _ _ _ _ X1 E) as [Y1 Y2]. split; [split; [exact Y1|]|exact Y2].
        unfold obj_ok in *. assert (ob_md x' = ob_md x /\ ob_mesh x' = ob_mesh x) as [-> ->]; [|exact X2]. clear -E. unfold obj_attr in E.
        repeat match type of E with
               | (if ?b then _ else _) = _ => destruct b
               | (let (_, _) := ?p in _) = _ => destruct p
               | match ?p with Some _ => _ | None => _ end = _ => destruct p as [[? ?]|]; [|discriminate] end; injection E as <- <-; split; reflexivity.
      + cbn [fresh] in V. rewrite V. split; [constructor|apply obj_zero_ok].
    - intros H. apply fin_inv in H as (v & L & ->). apply (group_loop (isres k0)) in L as [L1 L2]; [|reflexivity|discriminate|constructor].
      split; [|exact L2]. apply upd_obj_ok; [|exact G]. intros o [O1 O2]. split; [exact O1|]. cbn. intros me [= <-]. split; constructor.
    - intros H. apply fin_inv in H as (v & L & ->). pose proof (get_obj_ok s G) as [O1 O2].
      apply (group_loop (isres k0)) in L as [L1 L2]; [|reflexivity|discriminate|].
      + split; [|exact L2]. apply upd_mesh_ok; [|exact G]. intros m [M1 M2]. split; assumption.
      + unfold get_mesh. destruct (ob_mesh _) as [m|]; [apply (O2 m eq_refl)|constructor].
    - intros H. apply fin_inv in H as (v & L & ->). apply (core_loop (fun _ => True) _ (isres k0) "vertex") in L as [_ L2];
        [|discriminate|apply vertex_flaw|exact I]. split; [|exact L2]. apply upd_mesh_ok; [|exact G]. intros m M. exact M.
    - intros H. apply fin_inv in H as (v & L & ->). pose proof (get_obj_ok s G) as [O1 O2].
      apply (group_loop (isres k0)) in L as [L1 L2]; [|reflexivity|discriminate|].
      + split; [|exact L2]. apply upd_mesh_ok; [|exact G]. intros m [M1 M2]. split; assumption.
      + unfold get_mesh. destruct (ob_mesh _) as [m|]; [apply (O2 m eq_refl)|constructor].
    - intros H. apply fin_inv in H as (v & L & ->). apply (core_loop (fun x => gok "triangle" (tv_any x)) _ (isres k0) "triangle") in L as [_ L2];
        [|discriminate|apply tri_flaw|constructor]. split; [|exact L2]. apply upd_mesh_ok; [|exact G]. intros m M. exact M.
    - intros H. apply fin_inv in H as (v & L & ->). apply (group_loop (isres k0)) in L as [L1 L2]; [|reflexivity|discriminate|constructor].
      split; [|exact L2]. apply upd_obj_ok; [|exact G]. intros o O. exact O.
    - intros H. apply fin_inv in H as (v & L & ->). apply (core_loop (fun x => gok "component" (co_any x)) _ (isres k0) "component") in L as [_ L2];
        [|discriminate|apply comp_flaw|constructor]. split; [|exact L2]. apply upd_obj_ok; [|exact G]. intros o O. exact O.
    - (* unknown asset *) destruct F as (F1 & F2 & F3). rewrite F3.
      assert (R : forall a, arule true n a = if is_attr "id" a then Some (TUint, true) else None).
      { intros a. unfold attr_rule, is_attr. destruct (seq_spec (nspace n) ns_core); [congruence|]. rewrite F2. cbn [andb].
        destruct (seq (nspace (aname a)) ""); [|reflexivity]. cbn [andb]. rewrite table_cons, table_nil. reflexivity. }
      assert (A : attr_first (knownb reg) true n = true).
      { unfold attr_first. destruct (seq_spec (nspace n) ns_core); [congruence|]. rewrite F2. reflexivity. }
      rewrite A. pose proof (flaws_first (arule true n) (is_attr "id") TUint true attrs R) as Q.
      destruct (first_attr (is_attr "id") attrs) as [a|].
      + pose proof (u32_flaw a true) as U. destruct (get_u32 a true) as [id er]. intros [= <- <-]. split; [apply with_unk_ok, G|].
        rewrite members_append_none. apply Q, U.
      + intros [= <- <-]. split; [apply with_unk_ok, G|exact Q].
    - (* unknown *) destruct F as (F1 & F2 & F3). rewrite F3. intros [= <- <-]. split; [apply upd_any_ok, G|]. apply flaws_none. intros a _.
      unfold attr_rule. destruct (seq_spec (nspace n) ns_core); [congruence|]. rewrite F2. reflexivity.
    - destruct F as [F1 F2]. apply ext_start_flaw; assumption.
  Qed.
End State.

(** ** The machine *)
From Verif Require Import Types.
Section Machine.
  Context (reg : Reg) (isroot : bool) (path : string) (later : Ref -> string).
  Lemma some_inj {A} (a b : A) : Some a = Some b -> a = b.
  Proof. congruence. Qed.
  Definition level_of (el : DK * Name * Z) : Level := mkLevel (nlocal (snd (fst el))) (snd el).
  Lemma wrap_err t x p n i : wrap_index1 (EErr t x p) n i = EErr (t ++ [mkLevel n i]) x p.
  Proof. reflexivity. Qed.
  Lemma wrap_stack_err st : forall t x p, wrap_stack (EErr t x p) st = EErr (t ++ map level_of st) x p.
  Proof.
    induction st as [|el st IH]; intros t x p; cbn [wrap_stack fold_left map].
    - rewrite app_nil_r. reflexivity.
    - change (fold_left _ st (wrap_index1 (EErr t x p) (nlocal (snd (fst el))) (snd el))) with (wrap_stack (wrap_index1 (EErr t x p) (nlocal (snd (fst el))) (snd el)) st).
      rewrite wrap_err, IH, <- app_assoc. reflexivity.
  Qed.
  Lemma wrap_stack_parse el st a b : wrap_stack (EParse a b) (el :: st) = EErr (map level_of (el :: st)) (EParse a b) "".
  Proof. change (wrap_stack (EErr [level_of el] (EParse a b) "") st = EErr (map level_of (el :: st)) (EParse a b) ""). apply wrap_stack_err. Qed.
  Lemma wrap_stack_list st : forall l, wrap_stack (EList l) st = EList (map (fun x => wrap_stack x st) l).
  Proof.
    induction st as [|el st IH]; intros l; cbn [wrap_stack fold_left].
    - rewrite map_id. reflexivity.
    - change (wrap_stack (EList (map (fun e1 => wrap_index1 e1 (nlocal (snd (fst el))) (snd el)) l)) st = EList (map (fun x => wrap_stack (wrap_index1 x (nlocal (snd (fst el))) (snd el)) st) l)).
      rewrite IH, map_map. reflexivity.
  Qed.
  Definition is_parse (e : gerr) : Prop := match e with EParse _ _ => True | _ => False end.
  Lemma flaws_parse r b l es : Flaws r b l es -> Forall is_parse es.
  Proof.
    assert (A : forall rr a e, AttrFlaws rr a e -> Forall is_parse e).
    { intros rr a e [H|t bb n H F]; [constructor|]. apply Forall_forall. intros x I. apply repeat_spec in I. subst. exact Logic.I. }
    induction 1; [constructor|eapply A; eassumption|]. apply Forall_app. split; [eapply A; eassumption|assumption].
  Qed.
  (** What the errors of a tag become *)
  Lemma added el st e l : Forall is_parse (members (Some e)) ->
    append_list l [Some (wrap_stack e (el :: st))] = l ++ map (fun x => EErr (map level_of (el :: st)) x "") (members (Some e)).
  Proof.
    intros F. destruct e as [x|x|x y|t x p|es]; cbn [members] in F |- *; try (inversion F as [|? ? Q _]; subst; destruct Q).
    - rewrite wrap_stack_parse. reflexivity.
    - rewrite wrap_stack_list. cbn [append_list]. f_equal. apply map_ext_in. intros y I. rewrite Forall_forall in F. apply F in I.
      destruct y; try contradiction. apply wrap_stack_parse.
  Qed.
  Record MOk (m : Mach) : Prop := {
    k_st : GOk reg path (m_st m);
    k_cur : kind_ok reg (m_cur m);
    k_stack : Forall (fun el => exists k0, fits reg k0 (fst (fst el)) (snd (fst el))) (m_stack m);
    k_top : match m_stack m with (k, n, _) :: _ => m_cur m = k /\ m_name m = n | [] => True end }.
  Lemma start_step n attrs m m' : MOk m -> on_start reg isroot path n attrs m = Some m' ->
    MOk m' /\
    ((m_stack m' = m_stack m /\ m_errs m' = m_errs m /\
      (has_child (m_cur m) = false \/ child reg isroot path (m_cur m) n (m_st m) = CNil)) \/
     exists i k fs, m_stack m' = (k, n, i) :: m_stack m /\
       Flaws (attr_rule (knownb reg) isroot (isres (m_cur m)) n) (attr_first (knownb reg) (isres (m_cur m)) n) attrs fs /\
       m_errs m' = m_errs m ++ map (fun x => EErr (map level_of (m_stack m')) x "") fs).
  Proof.
    intros [G K S T]. unfold on_start. destruct (has_child (m_cur m)) eqn:HC.
    - destruct (child reg isroot path (m_cur m) n (m_st m)) as [| |i k s] eqn:C; [|discriminate|].
      + intros [= <-]. split; [split; assumption|]. left. auto.
      + pose proof (child_fits _ _ _ _ _ _ _ _ _ K C) as F. pose proof (child_gok _ _ _ _ _ _ _ _ _ G C) as G1. pose proof (child_fresh _ _ _ _ _ _ _ _ _ C) as V.
        destruct (start reg isroot path k n attrs s) as [[s' e]|] eqn:ST; [|discriminate].
        destruct (start_flaw _ _ _ _ _ _ _ _ _ _ F V G1 ST) as [G2 FL].
        assert (OK : forall errs, MOk (mkM s' k n ((k, n, i) :: m_stack m) errs)).
        { intros errs. split; cbn; [exact G2|eapply fits_kind; exact F|constructor; [exists (m_cur m); exact F|exact S]|auto]. }
        destruct e as [e|]; intros E; apply some_inj in E; subst m'; (split; [apply OK|]); right; exists i, k.
        * exists (members (Some e)). split; [reflexivity|]. split; [exact FL|]. cbn [m_errs m_stack]. apply added. eapply flaws_parse; exact FL.
        * exists []. split; [reflexivity|]. split; [exact FL|]. cbn. rewrite app_nil_r. reflexivity.
    - intros [= <-]. split; [|left; auto]. split; cbn; auto. apply append_token_ok, G.
  Qed.
  Lemma event_step ev m m' : MOk m -> on_event reg isroot path later ev m = Some m' ->
    MOk m' /\
    match ev with
    | EvStart n attrs =>
        (m_stack m' = m_stack m /\ m_errs m' = m_errs m /\
          (has_child (m_cur m) = false \/ child reg isroot path (m_cur m) n (m_st m) = CNil)) \/
        exists i k fs, m_stack m' = (k, n, i) :: m_stack m /\
          Flaws (attr_rule (knownb reg) isroot (isres (m_cur m)) n) (attr_first (knownb reg) (isres (m_cur m)) n) attrs fs /\
          m_errs m' = m_errs m ++ map (fun x => EErr (map level_of (m_stack m')) x "") fs
    | EvEnd n => m_errs m' = m_errs m /\ (m_stack m' = m_stack m /\ m_name m <> n \/ exists k i, m_stack m = (k, n, i) :: m_stack m')
    | EvChar _ _ => m_errs m' = m_errs m /\ m_stack m' = m_stack m
    end.
  Proof.
    destruct ev as [n attrs|n|now r]; cbn [on_event].
    - apply start_step.
    - intros [G K S T]. unfold on_end. destruct (name_eqb_spec' (m_name m) n) as [E|E].
      + destruct (end_ path (m_cur m) n (m_st m)) as [s|] eqn:EE; [|discriminate]. apply (end_gok reg) in EE; [|exact G].
        destruct (m_stack m) as [|[[k1 n1] i1] [|[[k2 n2] i2] st]] eqn:ST; [discriminate| |]; intros [= <-]; cbn [m_errs m_stack].
        * split; [|split; [reflexivity|right; exists k1, i1; destruct T as [_ <-]; rewrite E; reflexivity]]. split; cbn; auto.
        * inversion S as [|? ? S1 S2]; subst. split; [|split; [reflexivity|right; exists k1, i1; destruct T as [_ <-]; reflexivity]].
          split; cbn; auto. inversion S2 as [|? ? (k0 & S3) S4]; subst. cbn in S3. eapply fits_kind; exact S3.
      + intros [= <-]. split; [|cbn; auto]. split; cbn; auto. apply append_token_ok, G.
    - intros [G K S T] [= <-]. split; [|cbn; auto]. split; auto. unfold on_char. cbn [m_st].
      destruct (m_cur m) eqn:MC; first [apply with_meta_ok; exact G|apply append_token_ok; exact G].
  Qed.
  Lemma events_ok evs : forall m m', MOk m -> on_events reg isroot path later evs m = Some m' -> MOk m'.
  Proof.
    induction evs as [|e evs IH]; intros m m' M; cbn [on_events]; [intros [= <-]; exact M|].
    destruct (on_event reg isroot path later e m) as [m1|] eqn:E; [|discriminate]. apply IH. eapply event_step; eassumption.
  Qed.
  Lemma init_ok mo : ChildsOk mo -> ModelGroups (knownb reg) path mo -> MOk (m_init mo).
  Proof.
    intros C (M1 & M2 & M3). split; cbn; auto. split; cbn; auto; try discriminate.
    - intros r H. split; [|discriminate]. apply M3. apply find_resources_spec; assumption.
    - apply obj_zero_ok.
    - apply item_zero_ok.
  Qed.

  (** Elements that are expected are read. *)
  Lemma expected_child k0 k p n s : fits reg k0 k p -> Expected (knownb reg) isroot p n ->
    has_child k = true /\ child reg isroot path k n s <> CNil.
  Proof.
    intros F [E K].
    assert (ML : knownb reg ns_materials = true -> load reg ns_materials = Some SpMat).
    { unfold knownb, load. cbn. destruct (rg_mat reg); [reflexivity|discriminate]. }
    assert (SL : knownb reg ns_slices = true -> load reg ns_slices = Some SpSlices).
    { unfold knownb, load. cbn. destruct (rg_slices reg); [reflexivity|discriminate]. }
    assert (BL : knownb reg ns_beam = true -> load reg ns_beam = Some SpBeam).
    { unfold knownb, load. cbn. destruct (rg_beam reg); [reflexivity|discriminate]. }
    assert (RG : forall X (f : Resources -> X -> cres) x, (forall r, f r x <> CNil) -> match res_get path s with Some r => f r x | None => CPanic end <> CNil).
    { intros X f x H. destruct (res_get path s); [apply H|discriminate]. }
    assert (NU : nspace p <> ns_core -> knownb reg (nspace p) = false -> False).
    { intros P1 P2. assert (Q : nspace n = nspace p /\ nspace p <> ns_core \/ nspace p = ns_core).
      { destruct E as [E|[_ E]]; cbn in E; decompose [or] E; try contradiction;
          match goal with H : (_, _) = (_, _) |- _ => injection H as <- <- end; cbn; first [right; reflexivity|left; split; [reflexivity|discriminate]]. }
      destruct Q as [[Q1 Q2]|Q]; [|congruence]. destruct K as [K|K]; congruence. }
    assert (CR : forall q, p = q -> forall nn, In (p, nn) structure \/ (isroot = true /\ In (p, nn) root_structure) ->
      In nn (map snd (filter (fun pc => seq (nlocal (fst pc)) (nlocal q) && seq (nspace (fst pc)) (nspace q)) structure)) \/
      (isroot = true /\ In nn (map snd (filter (fun pc => seq (nlocal (fst pc)) (nlocal q) && seq (nspace (fst pc)) (nspace q)) root_structure)))).
    { intros q -> nn [Q|[R Q]]; [left|right; split; [exact R|]]; apply in_map_iff; exists (q, nn); (split; [reflexivity|]); apply filter_In;
        (split; [exact Q|]); cbn [fst]; rewrite !seq_refl; reflexivity. }
    destruct k; cbn [fits parent_of] in F; try contradiction.
    17, 18: exfalso; destruct F as (F1 & F2 & _); exact (NU F1 F2).
    17: destruct F as [F _]; destruct x; cbn [ext_name] in F.
    all: pose proof (CR _ F n E) as Q; vm_compute in Q; cbn [has_child child ext_child].
    all: decompose [or and] Q; try contradiction; subst n; (split; [reflexivity|]).
    all: try discriminate.
    all: try (unfold model_child; match goal with H : isroot = true |- _ => rewrite H end; discriminate).
    all: try (destruct K as [K|K]; [discriminate K|]).
    all: unfold res_child, mesh_child, new_element_decoder; cbn [nspace].
    all: match goal with |- (if ?b then _ else _) <> CNil => let r := eval vm_compute in b in change b with r; cbv iota end.
    all: try (let LL := fresh in pose proof (ML K) as LL; unfold ns_materials in LL; rewrite LL).
    all: try (let LL := fresh in pose proof (SL K) as LL; unfold ns_slices in LL; rewrite LL).
    all: try (let LL := fresh in pose proof (BL K) as LL; unfold ns_beam in LL; rewrite LL).
    all: try (destruct (res_get path s); discriminate).
    change (res_get path (with_bm bm_zero false s)) with (res_get path s). destruct (res_get path s); discriminate.
  Qed.

  (** ** Whole runs *)
  Definition open_of (m : Mach) : list (Name * Z) := map (fun el => (snd (fst el), snd el)) (m_stack m).
  Lemma level_open m : map level_of (m_stack m) = map (fun ni => mkLevel (nlocal (fst ni)) (snd ni)) (open_of m).
  Proof. unfold open_of. rewrite map_map. reflexivity. Qed.
  Lemma top_fits m p i rest : MOk m -> open_of m = (p, i) :: rest -> exists k0, fits reg k0 (m_cur m) p.
  Proof.
    intros [G K S T] E. unfold open_of in E. destruct (m_stack m) as [|[[k n] j] st]; [discriminate|]. cbn in E. injection E as -> -> E.
    inversion S as [|? ? S1 _]; subst. cbn in S1. destruct T as [-> _]. exact S1.
  Qed.
  Lemma fits_res k0 k p : fits reg k0 k p -> (isres k = true <-> p = cn "resources").
  Proof.
    intros F. split.
    - intros R. destruct k; try discriminate. exact F.
    - intros ->. destruct k; cbn [fits parent_of] in F; try contradiction; try discriminate F; try reflexivity.
      + destruct F as [F _]. exfalso. apply F. reflexivity.
      + destruct F as [F _]. exfalso. apply F. reflexivity.
      + destruct F as [F _]. destruct x; discriminate F.
  Qed.
  Lemma flaws_from r b l es : Flaws r b l es -> forall x, In x es ->
    exists a t rq n, In a l /\ r a = Some (t, rq) /\ Flaw t (avalue a) (S n) /\ x = EParse (nlocal (aname a)) rq.
  Proof.
    assert (A : forall a e, AttrFlaws (r a) a e -> forall x, In x e -> exists t rq n, r a = Some (t, rq) /\ Flaw t (avalue a) (S n) /\ x = EParse (nlocal (aname a)) rq).
    { intros a e [H|t bb n H F] x I; [destruct I|]. pose proof (repeat_spec _ _ _ I) as ->. destruct n as [|n]; [destruct I|]. eauto 8. }
    induction 1 as [|a l es B N F|a l es es' B F F' IH]; intros x I.
    - destruct I.
    - destruct (A _ _ F x I) as (t & rq & n & H). exists a, t, rq, n. split; [left; reflexivity|exact H].
    - apply in_app_or in I as [I|I].
      + destruct (A _ _ F x I) as (t & rq & n & H). exists a, t, rq, n. split; [left; reflexivity|exact H].
      + destruct (IH x I) as (a' & t & rq & n & H1 & H2). exists a', t, rq, n. split; [right; exact H1|exact H2].
  Qed.
  Definition blames (evs : list event) (e : gerr) : Prop :=
    exists n attrs a t rq cnt inres loc i, In (EvStart n attrs) evs /\ In a attrs /\
      attr_rule (knownb reg) isroot inres n a = Some (t, rq) /\ Flaw t (avalue a) (S cnt) /\
      located e = [(loc ++ [mkLevel (nlocal n) i], "", EParse (nlocal (aname a)) rq)].
  Lemma blames_mono evs evs' e : (forall x, In x evs -> In x evs') -> blames evs e -> blames evs' e.
  Proof. intros H (n & at_ & a & t & rq & c & ir & lo & i & I & R). exists n, at_, a, t, rq, c, ir, lo, i. split; [apply H, I|exact R]. Qed.
  Lemma events_blame evs : forall m m', MOk m -> on_events reg isroot path later evs m = Some m' ->
    exists new, m_errs m' = m_errs m ++ new /\ Forall (blames evs) new.
  Proof.
    induction evs as [|ev evs IH]; intros m m' M; cbn [on_events].
    - intros [= <-]. exists []. split; [rewrite app_nil_r; reflexivity|constructor].
    - destruct (on_event reg isroot path later ev m) as [m1|] eqn:E; [|discriminate]. intros H.
      destruct (event_step _ _ _ M E) as [M1 S]. destruct (IH _ _ M1 H) as (new & EN & FN).
      assert (FN' : Forall (blames (ev :: evs)) new) by (eapply Forall_impl; [|exact FN]; intros e0; apply blames_mono; intros; right; assumption).
      destruct ev as [n attrs|n|now r].
      + destruct S as [(_ & S & _)|(i & k & fs & S1 & S2 & S3)]; [exists new; rewrite EN, S; auto|].
        eexists. rewrite EN, S3, <- app_assoc. split; [reflexivity|]. apply Forall_app. split; [|exact FN'].
        apply Forall_forall. intros x I. apply in_map_iff in I as (y & <- & I). destruct (flaws_from _ _ _ _ S2 y I) as (a & t & rq & cnt & A1 & A2 & A3 & ->).
        eexists n, attrs, a, t, rq, cnt, _, (rev (map level_of (m_stack m))), i. split; [left; reflexivity|]. split; [exact A1|]. split; [exact A2|]. split; [exact A3|].
        rewrite S1. reflexivity.
      + destruct S as [S _]. exists new. rewrite EN, S. auto.
      + destruct S as [S _]. exists new. rewrite EN, S. auto.
  Qed.
  (** The open elements of the reader are among those of the document. *)
  Lemma sub_tail {A} (x : A) l l' : SubList (x :: l) l' -> SubList l l'.
  Proof.
    intros H. remember (x :: l) as l0 eqn:E. revert x l E. induction H as [|y l l' H IH|y l l' H IH]; intros z l0 E; [discriminate| |].
    - injection E as -> ->. apply SLSkip. exact H.
    - apply SLSkip. eapply IH. exact E.
  Qed.
  Lemma sub_pop {A} (x : A) l l' : SubList l (x :: l') -> (forall y t, l = y :: t -> y <> x) -> SubList l l'.
  Proof.
    intros H N. inversion H as [l0 E1 E2|y l1 l2 H1 E1 E2|y l1 l2 H1 E1 E2]; subst; [constructor| |exact H1].
    exfalso. apply (N x l1); reflexivity.
  Qed.
  Lemma sub_both {A} (x : A) l l' : SubList (x :: l) (x :: l') -> SubList l l'.
  Proof. intros H. inversion H as [|y l1 l2 H1 E1 E2|y l1 l2 H1 E1 E2]; subst; [exact H1|eapply sub_tail; exact H1]. Qed.
  Lemma events_sub evs : forall m m' open open', MOk m -> on_events reg isroot path later evs m = Some m' ->
    nest open evs = Some open' -> SubList (map fst (open_of m)) open -> SubList (map fst (open_of m')) open'.
  Proof.
    induction evs as [|ev evs IH]; intros m m' open open' M; cbn [on_events nest].
    - intros [= <-] [= <-] S. exact S.
    - destruct (on_event reg isroot path later ev m) as [m1|] eqn:E; [|discriminate]. intros H N S.
      destruct (event_step _ _ _ M E) as [M1 S1]. destruct ev as [n attrs|n|now r].
      + apply (IH _ _ _ _ M1 H N). unfold open_of. destruct S1 as [(-> & _)|(i & k & fs & -> & _)]; [apply SLSkip; exact S|].
        cbn. apply SLTake. exact S.
      + destruct open as [|o os]; [discriminate|]. destruct (name_eqb_spec' o n) as [->|]; [|discriminate].
        apply (IH _ _ _ _ M1 H N). unfold open_of in *. destruct S1 as [_ [[S2 NM]|(k & i & S2)]].
        * rewrite S2. eapply sub_pop; [exact S|]. intros y t EQ. pose proof (k_top _ M) as T. destruct (m_stack m) as [|[[k1 n1] i1] st]; [discriminate|].
          cbn in EQ. injection EQ as <- _. destruct T as [_ T]. congruence.
        * rewrite S2 in S. cbn in S. eapply sub_both. exact S.
      + apply (IH _ _ _ _ M1 H N). unfold open_of in *. destruct S1 as [_ ->]. exact S.
  Qed.
  (** Where all elements are to be read, the reader's open elements are those of the document. *)
  Lemma sub_len {A} (l l' : list A) : SubList l l' -> List.length l <= List.length l'.
  Proof. induction 1; cbn; lia. Qed.
  Definition names (m : Mach) : list Name := map fst (open_of m).
  Definition synced (m : Mach) (open : list Name) : Prop :=
    SubList (names m) open /\ forall x g, open = x ++ g -> Chain (knownb reg) isroot g -> exists y, names m = y ++ g.
  Lemma synced_all m open : synced m open -> Chain (knownb reg) isroot open -> names m = open.
  Proof.
    intros [S H] C. destruct (H [] open eq_refl C) as (y & E). apply sub_len in S. rewrite E, app_length in S.
    destruct y; [exact E|cbn in S; lia].
  Qed.
  Lemma read_child m n attrs m' p rest : MOk m -> names m = p :: rest -> Expected (knownb reg) isroot p n ->
    on_start reg isroot path n attrs m = Some m' ->
    exists i k fs, m_stack m' = (k, n, i) :: m_stack m /\
       Flaws (attr_rule (knownb reg) isroot (name_eqb p (cn "resources")) n) (attr_first (knownb reg) (name_eqb p (cn "resources")) n) attrs fs /\
       m_errs m' = m_errs m ++ map (fun x => EErr (map level_of (m_stack m')) x "") fs.
  Proof.
    intros M N E H. assert (O : exists i rest', open_of m = (p, i) :: rest').
    { unfold names in N. destruct (open_of m) as [|[q i] r]; [discriminate|]. cbn in N. injection N as -> _. eauto. }
    destruct O as (i0 & r & O). destruct (top_fits _ _ _ _ M O) as (k0 & F). destruct (expected_child _ _ _ _ (m_st m) F E) as [C1 C2].
    destruct (start_step _ _ _ _ M H) as [_ [(_ & _ & [X|X])|(i & k & fs & S1 & S2 & S3)]]; [congruence|congruence|].
    assert (R : isres (m_cur m) = name_eqb p (cn "resources")).
    { pose proof (fits_res _ _ _ F) as R. destruct (name_eqb_spec' p (cn "resources")) as [->|NE]; [apply R; reflexivity|].
      destruct (isres (m_cur m)); [|reflexivity]. exfalso. apply NE, R. reflexivity. }
    rewrite R in S2. exists i, k, fs. auto.
  Qed.
  Lemma chain_cons n l : Chain (knownb reg) isroot (n :: l) -> l <> [] -> exists p r, l = p :: r /\ Chain (knownb reg) isroot l /\ Expected (knownb reg) isroot p n.
  Proof. intros C N. inversion C as [E|p c l' C' X E]; subst; [congruence|]. eauto. Qed.
  Lemma within_sync evs open open' : Within open evs open' -> NoDup open -> forall m m', MOk m -> synced m open ->
    on_events reg isroot path later evs m = Some m' -> synced m' open' /\ MOk m'.
  Proof.
    induction 1 as [open|n a open evs open' NE NI W IH|n open evs open' NE W IH|s r open evs open' W IH]; intros ND m m' M S; cbn [on_events].
    - intros [= <-]. auto.
    - destruct (on_event reg isroot path later _ m) as [m1|] eqn:E; [|discriminate]. destruct (event_step _ _ _ M E) as [M1 S1]. apply IH; [constructor; assumption|exact M1|].
      destruct S as [SA SB]. split.
      + unfold names, open_of in *. destruct S1 as [(-> & _)|(i & k & fs & -> & _)]; [apply SLSkip|cbn; apply SLTake]; exact SA.
      + intros x g EQ C. destruct x as [|x0 x]; cbn in EQ.
        * subst g. destruct (chain_cons _ _ C NE) as (p & q & -> & C' & X). exists []. cbn.
          pose proof (synced_all _ _ (conj SA SB) C') as NM. cbn [on_event] in E. destruct (read_child _ _ _ _ _ _ M NM X E) as (i & k & fs & ST & _).
          unfold names, open_of in *. rewrite ST. cbn. rewrite NM. reflexivity.
        * injection EQ as <- EQ. destruct (SB x g EQ C) as (y & Y). unfold names, open_of in *.
          destruct S1 as [(-> & _)|(i & k & fs & -> & _)]; [eauto|]. exists (n :: y). cbn. rewrite Y. reflexivity.
    - destruct (on_event reg isroot path later _ m) as [m1|] eqn:E; [|discriminate]. destruct (event_step _ _ _ M E) as [M1 S1]. apply IH; [inversion ND; assumption|exact M1|].
      pose proof (events_sub [EvEnd n] m m1 (n :: open) open M) as SS. cbn [on_events nest] in SS. rewrite E in SS. specialize (SS eq_refl).
      destruct (name_eqb_spec' n n) as [_|X]; [|congruence]. specialize (SS eq_refl). destruct S as [SA SB]. split; [apply SS, SA|].
      intros x g EQ C. destruct (SB (n :: x) g) as (y & Y); [cbn; rewrite EQ; reflexivity|exact C|].
      unfold names, open_of in *. destruct S1 as [_ [[-> _]|(k & i & ST)]]; [eauto|]. rewrite ST in Y. cbn in Y.
      destruct y as [|y0 y]; [|cbn in Y; injection Y as _ Y; eauto]. exfalso. cbn in Y.
      (* the element that ends is open twice *)
      assert (IN : In n open). { rewrite EQ. apply in_or_app. right. rewrite <- Y. left. reflexivity. }
      inversion ND. contradiction.
    - destruct (on_event reg isroot path later _ m) as [m1|] eqn:E; [|discriminate]. destruct (event_step _ _ _ M E) as [M1 S1]. apply IH; [exact ND|exact M1|].
      destruct S1 as [_ S1]. unfold synced, names, open_of in *. rewrite S1. exact S.
  Qed.
  Lemma wrong_unique P l n n' : Wrong P l n -> Wrong P l n' -> n = n'.
  Proof. intros H. revert n'. induction H; intros n' H'; inversion H'; subst; try contradiction; auto. Qed.
  Lemma flaw_unique t v n n' : Flaw t v n -> Flaw t v n' -> n = n'.
  Proof. destruct t; apply wrong_unique. Qed.
  Lemma attr_flaws_unique r a e e' : AttrFlaws r a e -> AttrFlaws r a e' -> e = e'.
  Proof.
    intros [H|t b n H F] [H'|t' b' n' H' F']; try congruence. rewrite H in H'. injection H' as <- <-. rewrite (flaw_unique _ _ _ _ F F'). reflexivity.
  Qed.
  Lemma flaws_unique r b l es es' : Flaws r b l es -> Flaws r b l es' -> es = es'.
  Proof.
    intros H. revert es'. induction H as [|a l es B N F|a l es es1 B F F' IH]; intros e' H'; inversion H' as [|? ? ? B2 N2 F2|? ? ? ? B2 F2 F3]; subst.
    - reflexivity.
    - eapply attr_flaws_unique; eassumption.
    - destruct B2; congruence.
    - destruct B; congruence.
    - f_equal; [eapply attr_flaws_unique; eassumption|apply IH; assumption].
  Qed.
  Lemma chars_skip cs : Forall is_char cs -> forall m, m_cur m = KTop ->
    on_events reg isroot path later cs m = Some m.
  Proof.
    induction 1 as [|e cs E H IH]; intros m C; [reflexivity|]. destruct e; try contradiction. cbn [on_events on_event]. unfold on_char.
    rewrite C. cbn [append_token]. assert (EQ : mkM (m_st m) KTop (m_name m) (m_stack m) (m_errs m) = m) by (destruct m; cbn in *; subst; reflexivity).
    rewrite EQ. apply IH; auto.
  Qed.
  Lemma within_ne o evs o' : Within o evs o' -> o <> [] -> o' <> [].
  Proof. induction 1; intros N; auto. apply IHWithin. discriminate. Qed.
  (** Every error of a tag that is to be read is reported. *)
  Lemma tag_reported cs a0 pre n attrs post open mo m' fs : ChildsOk mo -> ModelGroups (knownb reg) path mo -> Forall is_char cs ->
    Within [cn "model"] pre open -> Chain (knownb reg) isroot (n :: open) ->
    on_events reg isroot path later (cs ++ EvStart (cn "model") a0 :: pre ++ EvStart n attrs :: post) (m_init mo) = Some m' ->
    Flaws (attr_rule (knownb reg) isroot (in_resources open) n) (attr_first (knownb reg) (in_resources open) n) attrs fs ->
    exists before after loc, m_errs m' = before ++ map (fun x => EErr loc x "") fs ++ after /\ map lv_name loc = map nlocal (n :: open).
  Proof.
    intros CO MG CS W C H F. rewrite on_events_app in H. rewrite chars_skip in H by (try reflexivity; exact CS).
    cbn [on_events] in H. destruct (on_event reg isroot path later (EvStart (cn "model") a0) (m_init mo)) as [m1|] eqn:E1; [|discriminate].
    pose proof (init_ok mo CO MG) as M0. destruct (event_step _ _ _ M0 E1) as [M1 S1].
    assert (SY : synced m1 [cn "model"]).
    { destruct S1 as [(_ & _ & [X|X])|(i & k & fs0 & ST & _)]; [discriminate X|discriminate X|].
      unfold synced, names, open_of. rewrite ST. cbn. split; [apply SLTake, SLNil|]. intros x g EQ CH. destruct x as [|x0 x].
      - exists []. cbn in *. exact EQ.
      - cbn in EQ. injection EQ as _ EQ. destruct x; [|discriminate]. cbn in EQ. subst g. inversion CH. }
    rewrite on_events_app in H. destruct (on_events reg isroot path later pre m1) as [m2|] eqn:E2; [|discriminate].
    destruct (within_sync _ _ _ W ltac:(constructor; [intros []|constructor]) _ _ M1 SY E2) as [S2 M2].
    cbn [on_events] in H. destruct (on_event reg isroot path later (EvStart n attrs) m2) as [m3|] eqn:E3; [|discriminate].
    assert (NE : open <> []) by (eapply within_ne; [exact W|discriminate]).
    destruct (chain_cons _ _ C NE) as (p & r & -> & C' & X).
    pose proof (synced_all _ _ S2 C') as NM. destruct (read_child _ _ _ _ _ _ M2 NM X E3) as (i & k & fs' & ST & FL & ER).
    cbn [in_resources] in F. pose proof (flaws_unique _ _ _ _ _ F FL) as <-.
    destruct (on_events_errs _ _ _ _ _ _ _ H) as (after & A). exists (m_errs m2), after, (map level_of (m_stack m3)).
    rewrite A, ER, app_assoc. split; [reflexivity|]. rewrite ST. unfold names, open_of in NM. cbn. f_equal. rewrite map_map. cbn.
    transitivity (map nlocal (map fst (map (fun el : DK * Name * Z => (snd (fst el), snd el)) (m_stack m2)))); [rewrite !map_map; reflexivity|rewrite NM; reflexivity].
  Qed.
  (** What a run that reports errors has read *)
  Lemma errs_prefix strict every ctx fin fuel : forall i d m mm g nn d', decode_loop reg isroot strict path every ctx fin later fuel i d m = DRet mm (DErrs g) nn d' ->
    exists evs m', on_events reg isroot path later evs m = Some m' /\ incl (located g) (flat_map located (m_errs m')) /\
      forall all e d2, scan_loop fin true fuel d = SDone all e d2 -> exists post, all = evs ++ post.
  Proof.
    assert (FI : forall errs e g, finish strict errs e = DErrs g -> (forall x, e <> DErrs x) -> incl (located g) (flat_map located errs)).
    { intros errs e g H N. destruct e; cbn [finish] in H; try discriminate; [|edestruct N; reflexivity].
      destruct errs as [|g0 l]; [discriminate|]. destruct (_ || _); injection H as <-.
      - cbn [flat_map]. apply incl_appl, incl_refl.
      - assert (EQ : forall l, located (EList l) = flat_map located l) by (intros l0; induction l0 as [|x l0 IH]; [reflexivity|]; cbn [flat_map]; rewrite <- IH; reflexivity).
        rewrite EQ. apply incl_refl. }
    assert (SE : forall e x, scan_err e <> DErrs x) by (intros [] ?; discriminate).
    induction fuel as [|f IH]; intros i d m mm g nn d' H; [discriminate|]. cbn [decode_loop scan_loop] in *.
    destruct (raw_token fin true d) as [ev d1|e1 d1|]; [| |discriminate].
    - destruct (on_events reg isroot path later ev m) as [m1|] eqn:E; [|discriminate].
      assert (PRE : forall all e d2, match scan_loop fin true f d1 with SDone evs0 e0 d'0 => SDone (ev ++ evs0) e0 d'0 | SOut => SOut end = SDone all e d2 -> exists post, all = ev ++ post).
      { intros all e d2. destruct (scan_loop fin true f d1); [|discriminate]. intros [= <- _ _]. eauto. }
      destruct (strict && _).
      + injection H as _ H _ _. exists ev, m1. split; [exact E|]. split; [|exact PRE]. apply FI with (e := DNone); [exact H|discriminate].
      + destruct (_ && ctx i).
        * injection H as _ H _ _. exists ev, m1. split; [exact E|]. split; [|exact PRE]. apply FI with (e := DCtx); [exact H|discriminate].
        * destruct (IH _ _ _ _ _ _ _ H) as (evs & m' & H1 & H2 & H3). exists (ev ++ evs), m'. rewrite on_events_app, E. split; [exact H1|]. split; [exact H2|].
          intros all e d2. destruct (scan_loop fin true f d1) as [evs0 e0 d0|]; [|discriminate]. intros [= <- <- <-]. destruct (H3 _ _ _ eq_refl) as (post & ->).
          exists post. rewrite app_assoc. reflexivity.
    - injection H as _ H _ _. exists [], m. split; [reflexivity|]. split; [apply FI with (e := scan_err e1); [exact H|apply SE]|].
      intros all e d2 _. exists all. reflexivity.
  Qed.
End Machine.

(** ** Indices *)
Section Index.
  Context (reg : Reg) (isroot : bool) (path : string).
  Lemma get_upd_ext l f s e : s_obj_done s = false -> get_ext path l s = Some e -> get_ext path l (upd_ext path l f s) = Some (f e).
  Proof.
    intros D. destruct l; cbn [get_ext upd_ext upd_any].
    - destruct (res_get path s) as [r|] eqn:R; [|discriminate]. rewrite res_get_set by congruence. cbn [rs_assets].
      destruct (rs_assets r) as [|a l] using rev_ind; [discriminate|]. rewrite upd_last_snoc, !last_snoc. destruct a; try discriminate. intros [= <-]. reflexivity.
    - cbn. destruct (mo_any (s_model s)) as [|a l] using rev_ind; [discriminate|]. rewrite upd_last_snoc, !last_snoc. destruct a; try discriminate.
      intros [= <-]. reflexivity.
    - unfold get_mesh, upd_mesh, get_obj, upd_obj. rewrite D. cbn. destruct (ob_mesh (s_obj s)) as [me|]; [|discriminate]. cbn.
      destruct (me_ext me) as [|a l] using rev_ind; [discriminate|]. rewrite upd_last_snoc, !last_snoc. destruct a; try discriminate.
      intros [= <-]. reflexivity.
  Qed.
  Lemma get_upd_mesh f s me : s_obj_done s = false -> get_mesh path s = Some me -> get_mesh path (upd_mesh path f s) = Some (f me).
  Proof. intros D. unfold get_mesh, upd_mesh, get_obj, upd_obj. rewrite D. cbn. intros ->. reflexivity. Qed.
  Ltac ifs := repeat match goal with
    | |- (if ?b then _ else _) = _ -> _ => destruct b end.
  Lemma lands {A} (l : list A) x : Lands (zlen l) l (l ++ [x]).
  Proof. exists x. auto. Qed.
  (** What a tag adds to the element it belongs to *)
  Definition landed (k : DK) (i : Z) (s0 s' : DSt) : Prop :=
    match k with
    | KVert => forall me, get_mesh path s0 = Some me -> exists me', get_mesh path s' = Some me' /\ Lands i (me_verts me) (me_verts me')
    | KTri => forall me, get_mesh path s0 = Some me -> exists me', get_mesh path s' = Some me' /\ Lands i (me_tris me) (me_tris me')
    | KComp => forall cs, ob_comps (get_obj path s0) = Some cs ->
        exists cs', ob_comps (get_obj path s') = Some cs' /\ Lands i (cs_list cs) (cs_list cs')
    | KBase => s_bm_done s0 = false -> Lands i (bs_mats (get_bm path s0)) (bs_mats (get_bm path s'))
    | KExt l XkCoord => forall g, get_ext path l s0 = Some (XTex2DGroup g) ->
        exists g', get_ext path l s' = Some (XTex2DGroup g') /\ Lands i (tg_coords g) (tg_coords g')
    | KExt l XkComposite => forall g, get_ext path l s0 = Some (XComposite g) ->
        exists g', get_ext path l s' = Some (XComposite g') /\ Lands i (cm_comps g) (cm_comps g')
    | KExt l XkMulti => forall g, get_ext path l s0 = Some (XMulti g) ->
        exists g', get_ext path l s' = Some (XMulti g') /\ Lands i (mp_multis g) (mp_multis g')
    | KExt l XkSliceRef => forall g, get_ext path l s0 = Some (XSliceStack g) ->
        exists g', get_ext path l s' = Some (XSliceStack g') /\ Lands i (ss_refs g) (ss_refs g')
    | KExt l XkSVert => Lands i (sl_verts (s_slice s0)) (sl_verts (s_slice s'))
    | KExt l XkPoly => Lands i (sl_polys (s_slice s0)) (sl_polys (s_slice s'))
    | KExt l XkBeam => forall g, get_ext path l s0 = Some (XBeamLattice g) ->
        exists g', get_ext path l s' = Some (XBeamLattice g') /\ Lands i (bl_beams g) (bl_beams g')
    | KExt l XkRef => Lands i (bs_refs (s_set s0)) (bs_refs (s_set s'))
    | _ => True
    end.
  Lemma start_lands k0 n attrs s0 i k s s' e : s_obj_done s0 = false -> child reg isroot path k0 n s0 = COk i k s ->
    start reg isroot path k n attrs s = Some (s', e) -> landed k i s0 s'.
  Proof.
    intros D. destruct k0; cbn [child]; try discriminate; try (ifs; intros [= <- <- <-] _; exact I).
    - unfold model_child. ifs; try discriminate; try (intros [= <- <- <-] _; exact I).
      unfold new_element_decoder. destruct (load reg (nspace n)) as [sp|]; [|intros [= <- <- <-] _; exact I].
      destruct sp; cbn [ext_decoder]; try discriminate; repeat match goal with |- context [if seq ?a ?b then Some _ else _] => destruct (seq a b) end;
        try discriminate; intros [= <- <- <-] _; exact I.
    - unfold res_child. ifs; try discriminate.
      + destruct (res_get path s0); intros [= <- <- <-] _; exact I.
      + destruct (res_get path _); intros [= <- <- <-] _; exact I.
      + destruct (load reg (nspace n)) as [sp|]; [|destruct (res_get path _); intros [= <- <- <-] _; exact I].
        destruct sp; cbn [ext_decoder]; try (destruct (res_get path s0); discriminate);
          repeat match goal with |- context [if seq ?a ?b then Some _ else _] => destruct (seq a b) end; try discriminate;
          destruct (res_get path s0); intros [= <- <- <-] _; exact I.
    - ifs; intros [= <- <- <-]. cbn [start]. intros H. apply fin_inv in H as (v & _ & ->). cbn [landed]. intros B.
      unfold upd_bm, get_bm. rewrite B. cbn. apply lands.
    - unfold mesh_child. ifs; try discriminate; try (intros [= <- <- <-] _; exact I).
      unfold new_element_decoder. destruct (load reg (nspace n)) as [sp|]; [|intros [= <- <- <-] _; exact I].
      destruct sp; cbn [ext_decoder]; try discriminate; repeat match goal with |- context [if seq ?a ?b then Some _ else _] => destruct (seq a b) end;
        try discriminate; intros [= <- <- <-] _; exact I.
    - ifs; intros [= <- <- <-]. cbn [start]. intros H. apply fin_inv in H as (v & _ & ->). cbn [landed]. intros me ME.
      rewrite (get_upd_mesh _ _ me D ME). eexists. split; [reflexivity|]. cbn [me_verts]. rewrite ME. apply lands.
    - ifs; intros [= <- <- <-]. cbn [start]. intros H. apply fin_inv in H as (v & _ & ->). cbn [landed]. intros me ME.
      rewrite (get_upd_mesh _ _ me D ME). eexists. split; [reflexivity|]. cbn [me_tris]. rewrite ME. apply lands.
    - ifs; intros [= <- <- <-]. cbn [start]. intros H. apply fin_inv in H as (v & _ & ->). cbn [landed]. intros cs CS.
      unfold get_obj, upd_obj in *. rewrite D in *. cbn. rewrite CS. eexists. split; [reflexivity|]. cbn [cs_list]. apply lands.
    - destruct x; cbn [ext_child]; ifs; try discriminate; intros [= <- <- <-]; cbn [start ext_start landed]; try (intros _; exact I);
        try (intros H; apply fin_inv in H as (v & _ & ->); intros g Hg; rewrite (get_upd_ext _ _ _ _ D Hg), Hg; eexists; (split; [reflexivity|]); apply lands).
      + intros H. destruct (first_attr _ _) as [a|]; [destruct (get_u32 a true)|]; injection H as <- <-; apply lands.
      + intros H; apply fin_inv in H as (v & _ & ->). apply lands.
      + intros H. destruct (first_attr _ _) as [a|]; [destruct (get_u32 a true)|]; injection H as <- <-; apply lands.
  Qed.
  (** The elements added when they end, and the assets of extensions: the index is the number of those already there *)
  Definition placed (k : DK) (i : Z) (s0 : DSt) : Prop :=
    match k with
    | KMeta MModel => i = zlen (mo_md (s_model s0))
    | KMeta l => i = zlen (mg_list (get_mg path l s0))
    | KItem => i = zlen (bu_items (mo_build (s_model s0)))
    | KObj => forall r, res_get path s0 = Some r -> i = zlen (rs_objects r)
    | KBaseMats | KUnkAsset | KExt LRes (XkColorGroup | XkTexGroup | XkTex | XkComposites | XkMultis | XkStack) =>
        forall r, res_get path s0 = Some r -> i = zlen (rs_assets r)
    | KExt l XkColor => forall g, get_ext path l s0 = Some (XColorGroup g) -> i = zlen (cg_colors g)
    | KExt l XkSlice => forall g, get_ext path l s0 = Some (XSliceStack g) -> i = zlen (ss_slices g)
    | KExt l XkSet => forall g, get_ext path l s0 = Some (XBeamLattice g) -> i = zlen (bl_sets g)
    | _ => True
    end.
  Lemma child_place k0 n s0 i k s : child reg isroot path k0 n s0 = COk i k s -> placed k i s0.
  Proof.
    unfold placed. destruct k0; cbn [child]; try discriminate; try (ifs; intros [= <- <- <-]; first [exact I|reflexivity|destruct l; reflexivity]).
    - unfold model_child. ifs; try discriminate; try (intros [= <- <- <-]; first [exact I|reflexivity]).
      unfold new_element_decoder. destruct (load reg (nspace n)) as [sp|]; [|intros [= <- <- <-]; exact I].
      destruct sp; cbn [ext_decoder]; try discriminate; repeat match goal with |- context [if seq ?a ?b then Some _ else _] => destruct (seq a b) end;
        try discriminate; intros [= <- <- <-]; exact I.
    - unfold res_child. ifs; try discriminate.
      + destruct (res_get path s0) as [r|]; intros [= <- <- <-]. intros r' [= <-]. reflexivity.
      + change (res_get path (with_bm bm_zero false s0)) with (res_get path s0). destruct (res_get path s0) as [r|]; intros [= <- <- <-]. intros r' [= <-]. reflexivity.
      + change (res_get path (with_unk [] 0 s0)) with (res_get path s0).
        destruct (load reg (nspace n)) as [sp|]; [|destruct (res_get path s0) as [r|]; intros [= <- <- <-]; intros r' [= <-]; reflexivity].
        destruct sp; cbn [ext_decoder]; try (destruct (res_get path s0); discriminate);
          repeat match goal with |- context [if seq ?a ?b then Some _ else _] => destruct (seq a b) end; try discriminate;
          destruct (res_get path s0) as [r|]; intros [= <- <- <-]; intros r' [= <-]; reflexivity.
    - unfold mesh_child. ifs; try discriminate; try (intros [= <- <- <-]; exact I).
      unfold new_element_decoder. destruct (load reg (nspace n)) as [sp|]; [|intros [= <- <- <-]; exact I].
      destruct sp; cbn [ext_decoder]; try discriminate; repeat match goal with |- context [if seq ?a ?b then Some _ else _] => destruct (seq a b) end;
        try discriminate; intros [= <- <- <-]; exact I.
    - destruct x; cbn [ext_child]; ifs; try discriminate; intros [= <- <- <-]; destruct l; try exact I; intros g ->; reflexivity.
  Qed.
End Index.
