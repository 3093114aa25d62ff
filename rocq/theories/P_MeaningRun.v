(** * Proofs: running the decoders over trees of elements *)
From Coq Require Import ZArith.
From Verif Require Import GoBase GoNum GoUtf8 GoFloat GoStrconv Types XmlTypes M_Core M_Errors M_Text M_Xml M_Decode
  S_Core S_Text S_Errors S_Xml S_Attr S_Meaning P_Core P_Text P_Errors P_Decode P_State P_RTBase P_Attr P_Meaning.

Local Notation names := S_Meaning.names.

(** ** A decoder that reports something reports at least one error *)
Definition sound (e : error) : Prop := e <> Some (EList []).
Lemma sound_none : sound None. Proof. discriminate. Qed.
Lemma sound_parse a b : sound (parse_err a b). Proof. discriminate. Qed.
Lemma append_list_ne l errs : l <> [] -> append_list l errs <> [].
Proof. destruct (append_list_prefix l errs) as (r & ->). destruct l; [contradiction|discriminate]. Qed.
Lemma append_sound e x : sound e -> sound x -> sound (append e [x]).
Proof.
  intros H1 H2. unfold append, sound in *. destruct e as [g|].
  - assert (G : forall l, l <> [] -> Some (EList (append_list l [x])) <> Some (EList [])) by (intros l N [= E]; exact (append_list_ne l [x] N E)).
    destruct g as [| | | |l]; try (destruct x as [[]|]; cbn; discriminate). apply G. congruence.
  - destruct x as [g|]; [|discriminate]. cbn [non_nil]. destruct g; cbn; try discriminate. intros [= ->]. contradiction H2; reflexivity.
Qed.
Lemma loop_sound {A} (f : A -> Attr -> option (A * error)) : (forall x a y e, f x a = Some (y, e) -> sound e) -> forall l x er y e, sound er ->
  attrs_loop f x er l = Some (y, e) -> sound e.
Proof.
  intros H. induction l as [|a l IH]; intros x er y e S L; cbn [attrs_loop] in L; [congruence|]. destruct (f x a) as [[x1 e1]|] eqn:F; [|discriminate].
  apply (IH _ _ _ _ (append_sound _ _ S (H _ _ _ _ F)) L).
Qed.
Lemma u32_sound a b n e : get_u32 a b = (n, e) -> sound e.
Proof. unfold get_u32. destruct (parse_u32 _) as [v ok]. intros [= <- <-]. destruct ok; discriminate. Qed.
Lemma f32_sound a b n e : get_f32 a b = (n, e) -> sound e.
Proof. unfold get_f32. destruct (parse_float _) as [v ok]. intros [= <- <-]. destruct ok; discriminate. Qed.
Lemma u32s_sound a l : forall e ns e', sound e -> u32_fields a l e = (ns, e') -> sound e'.
Proof.
  induction l as [|s l IH]; intros e ns e' S; cbn [u32_fields]; [congruence|]. destruct (parse_u32 s) as [n ok]. destruct (u32_fields a l _) as [t er] eqn:E. intros [= <- <-].
  apply (IH _ _ _) in E; [exact E|]. apply append_sound; [exact S|]. destruct ok; discriminate.
Qed.
Lemma f32s_sound a l : forall e ns e', sound e -> f32_fields a l e = (ns, e') -> sound e'.
Proof.
  induction l as [|s l IH]; intros e ns e' S; cbn [f32_fields]; [congruence|]. destruct (parse_float s) as [n ok]. destruct (f32_fields a l _) as [t er] eqn:E. intros [= <- <-].
  apply (IH _ _ _) in E; [exact E|]. apply append_sound; [exact S|]. destruct ok; discriminate.
Qed.
Lemma unmarshal_sound g a g' e : unmarshal_attr g a = (g', e) -> sound e.
Proof.
  destruct g; cbn [unmarshal_attr]; repeat match goal with |- context [if ?b then _ else _] => destruct b | |- context [parse_u32 ?s] => destruct (parse_u32 s) | |- context [new_resolution ?s] => destruct (new_resolution s) end;
    intros [= <- <-]; discriminate.
Qed.
Lemma any_sound reg el a : forall any any' e, any_attr reg el any a = Some (any', e) -> sound e.
Proof.
  induction any as [|g any IH]; intros any' e; cbn [any_attr].
  - destruct (new_attr_group _ _ _) as [g|]; [|discriminate]. destruct (unmarshal_attr g a) as [g' e'] eqn:E. intros [= <- <-]. apply (unmarshal_sound _ _ _ _ E).
  - destruct (seq _ _).
    + destruct (unmarshal_attr g a) as [g' e'] eqn:E. intros [= <- <-]. apply (unmarshal_sound _ _ _ _ E).
    + destruct (any_attr reg el any a) as [[r e']|] eqn:E; [|discriminate]. intros [= <- <-]. apply (IH _ _ eq_refl).
Qed.
Lemma some_pair {A B} (a c : A) (b d : B) : Some (a, b) = Some (c, d) -> c = a /\ d = b.
Proof. intros [= -> ->]. auto. Qed.
Ltac sounds H := cbv zeta in H; repeat match type of H with
  | context [seq ?a ?b] => destruct (seq a b)
  | context [is_attr ?a ?b] => destruct (is_attr a b)
  | context [get_u32 ?a ?b] => let E := fresh "E" in destruct (get_u32 a b) as [? ?] eqn:E; apply u32_sound in E
  | context [get_f32 ?a ?b] => let E := fresh "E" in destruct (get_f32 a b) as [? ?] eqn:E; apply f32_sound in E
  | context [u32_fields ?a ?b ?c] => let E := fresh "E" in destruct (u32_fields a b c) as [? ?] eqn:E; apply u32s_sound in E; [|apply sound_none]
  | context [f32_fields ?a ?b ?c] => let E := fresh "E" in destruct (f32_fields a b c) as [? ?] eqn:E; apply f32s_sound in E; [|apply sound_none]
  | context [parse_matrix ?a] => destruct (parse_matrix a) as [? []]
  | context [parse_rgba ?a] => destruct (parse_rgba a) as [? []]
  | context [new_object_type ?a] => destruct (new_object_type a)
  | context [new_units ?a] => destruct (new_units a)
  | context [new_clip ?a] => destruct (new_clip a)
  | context [new_cap ?a] => destruct (new_cap a)
  | context [any_attr ?r ?el ?g ?a] => let E := fresh "E" in destruct (any_attr r el g a) as [[? ?]|] eqn:E; [apply any_sound in E|discriminate H]
  end; cbn [negb andb orb] in H; try discriminate H; repeat match type of H with context [if ?b then _ else _] => destruct b end;
  cbv beta iota zeta in H; apply some_pair in H as [-> ->]; first [assumption|discriminate|apply append_sound; [discriminate|assumption]|apply append_sound; discriminate].
Section Sound.
  Context (reg : Reg) (isroot : bool) (path : string).
  Lemma group_sound el any attrs any' e : group_start reg el any attrs = Some (any', e) -> sound e.
  Proof. apply loop_sound; [|apply sound_none]. intros x a y er. apply any_sound. Qed.
  Ltac fins H := match type of H with context [attrs_loop ?f ?x ?er ?l] => let E := fresh "E" in destruct (attrs_loop f x er l) as [[? ?]|] eqn:E; [|discriminate H] end;
    injection H as <- <-; match goal with E : attrs_loop _ _ _ _ = _ |- _ => eapply loop_sound; [|apply sound_none|exact E]; clear E end;
    let F := fresh "F" in intros ? ? ? ? F.
  Lemma ext_start_sound l x attrs s s' e : ext_start path l x attrs s = Some (s', e) -> sound e.
  Proof.
    destruct x; unfold ext_start; intros H; cbv zeta in H;
      try match type of H with context [first_attr ?p ?l] => destruct (first_attr p l); [sounds H|injection H as <- <-; discriminate] end;
      try (injection H as <- <-; discriminate).
    - fins H. unfold texg_attr in F. sounds F.
    - fins H. unfold coord_attr in F. sounds F.
    - fins H. unfold tex_attr in F. sounds F.
    - fins H. unfold composites_attr in F. sounds F.
    - fins H. unfold composite_attr in F. sounds F.
    - fins H. unfold multis_attr in F. sounds F.
    - fins H. unfold multi_attr in F. sounds F.
    - fins H. unfold stack_attr in F. sounds F.
    - fins H. unfold sliceref_attr in F. sounds F.
    - fins H. unfold svert_attr in F. sounds F.
    - fins H. unfold seg_attr in F. match type of F with context [let (_, _) := ?x in _] => is_var x; destruct x as [g [h1 h2]] end. sounds F.
    - fins H. unfold lattice_attr in F. sounds F.
    - fins H. unfold beam_attr in F. match type of F with context [let (_, _) := ?x in _] => is_var x; destruct x as [g [h1 h2]] end. sounds F.
  Qed.
  Lemma start_sound k n attrs s s' e : start reg isroot path k n attrs s = Some (s', e) -> sound e.
  Proof.
    destruct k; unfold start; intros H; cbv zeta in H;
      try match type of H with context [group_start ?r ?el ?any ?l] => let E := fresh "E" in destruct (group_start r el any l) as [[? ?]|] eqn:E; [|discriminate H];
        injection H as <- <-; apply group_sound in E; exact E end;
      try (injection H as <- <-; discriminate).
    - unfold model_start in H. destruct (negb isroot); [injection H as <- <-; discriminate|].
      destruct (attrs_loop _ _ _ _) as [[[m req] er]|] eqn:E; [|discriminate]. injection H as <- <-. eapply loop_sound; [|apply sound_none|exact E]. clear. intros [m req] a y e F.
      unfold model_attr, model_nocore in F. sounds F.
    - fins H. unfold item_attr in F. sounds F.
    - destruct attrs; [injection H as <- <-; discriminate|]. destruct (res_get path s); [|discriminate]. destruct (group_start _ _ _ _) as [[? ?]|] eqn:E; [|discriminate].
      injection H as <- <-. apply group_sound in E. exact E.
    - fins H. unfold bm_attr in F. sounds F.
    - fins H. unfold base_attr in F. sounds F.
    - fins H. unfold obj_attr in F. sounds F.
    - fins H. unfold vertex_attr in F. sounds F.
    - fins H. unfold tri_attr in F. sounds F.
    - fins H. unfold comp_attr in F. sounds F.
    - destruct (first_attr _ _); [sounds H|injection H as <- <-; discriminate].
    - apply ext_start_sound in H. exact H.
  Qed.
End Sound.

(** ** Trees *)
Lemma XTree_all (P : XTree -> Prop) : (forall n a kids, Forall P kids -> P (XElem n a kids)) -> (forall s r, P (XText s r)) -> forall t, P t.
Proof.
  intros HE HT. fix IH 1. intros [n a kids|s r]; [|apply HT]. apply HE. induction kids as [|t kids IHk]; constructor; [apply IH|exact IHk].
Qed.
Lemma wrap_empty st : forall e, wrap_stack e st = EList [] -> e = EList [].
Proof.
  induction st as [|el st IH]; intros e H; [exact H|]. unfold wrap_stack in H. cbn [fold_left] in H. apply IH in H. destruct e as [| | | |l]; cbn in H; try discriminate. destruct l; [reflexivity|discriminate].
Qed.
Section Run.
  Context (reg : Reg) (isroot : bool) (path : string) (later : Ref -> string).
  Notation run := (on_events reg isroot path later).
  (** The events take the decoder [k] of the element [nm] from the states [P] to the states [Q], if nothing is reported. *)
  Definition Rn (k : DK) (nm : Name) (evs : list event) (P Q : DSt -> Prop) : Prop := forall s i stk mf, P s ->
    run evs (mkM s k nm ((k, nm, i) :: stk) []) = Some mf -> m_errs mf = [] ->
    exists s', mf = mkM s' k nm ((k, nm, i) :: stk) [] /\ Q s'.
  Lemma no_errs evs m mf : run evs m = Some mf -> m_errs mf = [] -> m_errs m = [].
  Proof. intros H E. destruct (on_events_errs _ _ _ _ _ _ _ H) as (r & X). rewrite E in X. destruct (m_errs m); [reflexivity|discriminate]. Qed.
  Lemma rn_nil k nm (P Q : DSt -> Prop) : (forall s, P s -> Q s) -> Rn k nm [] P Q.
  Proof. intros H s i stk mf Ps [= <-] _. eauto. Qed.
  Lemma rn_app k nm e1 e2 P Q R : Rn k nm e1 P Q -> Rn k nm e2 Q R -> Rn k nm (e1 ++ e2) P R.
  Proof.
    intros H1 H2 s i stk mf Ps E N. rewrite on_events_app in E. destruct (run e1 _) as [m1|] eqn:E1; [|discriminate].
    destruct (H1 s i stk m1 Ps E1 (no_errs _ _ _ E N)) as (s1 & -> & Q1). apply (H2 s1 i stk mf Q1 E N).
  Qed.
  Lemma rn_conseq k nm evs (P P' Q Q' : DSt -> Prop) : (forall s, P' s -> P s) -> (forall s, Q s -> Q' s) -> Rn k nm evs P Q -> Rn k nm evs P' Q'.
  Proof. intros HP HQ H s i stk mf Ps E N. destruct (H s i stk mf (HP s Ps) E N) as (s' & -> & Qs). eauto. Qed.
  Lemma rn_kids k nm (I : list XTree -> DSt -> Prop) kids :
    (forall d t r, kids = d ++ t :: r -> Rn k nm (events t) (I d) (I (d ++ [t]))) -> Rn k nm (flat_map events kids) (I []) (I kids).
  Proof.
    intros H. assert (X : forall r d, kids = d ++ r -> Rn k nm (flat_map events r) (I d) (I kids)).
    { induction r as [|t r IH]; intros d E; cbn [flat_map].
      - rewrite app_nil_r in E. subst d. apply rn_nil. auto.
      - apply (rn_app _ _ _ _ _ (I (d ++ [t]))); [apply (H d t r E)|]. apply IH. rewrite <- app_assoc. exact E. }
    apply (X kids [] eq_refl).
  Qed.
  Lemma rn_elem k k' nm n a evs (P Mid Mid' Q : DSt -> Prop) : has_child k = true ->
    (forall s, P s -> exists i s1, child reg isroot path k n s = COk i k' s1 /\ forall s2, start reg isroot path k' n a s1 = Some (s2, None) -> Mid s2) ->
    Rn k' n evs Mid Mid' -> (forall s s', Mid' s -> end_ path k' n s = Some s' -> Q s') -> Rn k nm (EvStart n a :: evs ++ [EvEnd n]) P Q.
  Proof.
    intros HC HS HR HE s i stk mf Ps E N. cbn [on_events on_event] in E. unfold on_start in E. cbn [m_cur m_st m_stack m_errs] in E. rewrite HC in E.
    destruct (HS s Ps) as (j & s1 & Hc & Hs). rewrite Hc in E. destruct (start reg isroot path k' n a s1) as [[s2 [e|]]|] eqn:ES; [| |discriminate].
    - exfalso. apply no_errs in E; [|exact N]. cbn [m_errs] in E. apply start_sound in ES. destruct (wrap_stack e _) as [| | | |l] eqn:EW; cbn in E; try discriminate. subst l.
      apply wrap_empty in EW. subst e. contradiction ES. reflexivity.
    - specialize (Hs s2 eq_refl). rewrite on_events_app in E. destruct (run evs _) as [m1|] eqn:E1; [|discriminate].
      destruct (HR s2 j ((k, nm, i) :: stk) m1 Hs E1 (no_errs _ _ _ E N)) as (s3 & -> & Ms). cbn [on_events on_event] in E. unfold on_end in E. cbn [m_name m_cur m_st m_stack m_errs] in E.
      rewrite name_eqb_refl in E. destruct (end_ path k' n s3) as [s4|] eqn:EE; [|discriminate]. injection E as <-. exists s4. split; [reflexivity|]. apply (HE s3 s4 Ms EE).
  Qed.
  (** *** What is ignored *)
  Definition plain_kind (k : DK) : bool := match k with KMeta _ | KUnkAsset | KUnk _ => false | _ => true end.
  Lemma rn_text k nm t r P : plain_kind k = true -> Rn k nm [EvChar t r] P P.
  Proof. intros K s i stk mf Ps [= <-] _. exists s. split; [|exact Ps]. unfold on_char. cbn [m_cur m_st m_name m_stack m_errs]. destruct k; try discriminate K; reflexivity. Qed.
  Definition Quiet (k : DK) (nm : Name) (P : DSt -> Prop) (d : Name) : Prop := d <> nm /\ (has_child k = false \/ forall s, P s -> child reg isroot path k d s = CNil).
  Lemma rn_skip k nm P t : plain_kind k = true -> (forall d, In d (names t) -> Quiet k nm P d) -> Rn k nm (events t) P P.
  Proof.
    intros K. induction t as [n a kids IH|s r] using XTree_all; intros H; cbn [events]; [|apply rn_text, K].
    assert (R : Rn k nm (flat_map events kids) P P).
    { assert (Hk : forall d, In d (flat_map names kids) -> Quiet k nm P d) by (intros d I; apply H; right; exact I). clear H. induction kids as [|t kids IHk]; cbn [flat_map]; [apply rn_nil; auto|].
      inversion IH as [|? ? I1 I2]; subst. apply (rn_app _ _ _ _ _ P); [apply I1|apply IHk; [exact I2|]]; intros d I; apply Hk; cbn [flat_map]; apply in_or_app; auto. }
    destruct (H n (or_introl eq_refl)) as (NE & HQ). change (EvStart n a :: flat_map events kids ++ [EvEnd n]) with ([EvStart n a] ++ flat_map events kids ++ [EvEnd n]).
    apply (rn_app _ _ _ _ _ P); [|apply (rn_app _ _ _ _ _ P); [exact R|]].
    - intros s i stk mf Ps E _. cbn [on_events on_event] in E. unfold on_start in E. cbn [m_cur m_st m_stack m_errs m_name] in E. destruct (has_child k) eqn:HC.
      + destruct HQ as [HQ|HQ]; [discriminate|]. rewrite (HQ s Ps) in E. injection E as <-. eauto.
      + injection E as <-. exists s. split; [|exact Ps]. destruct k; try discriminate K; reflexivity.
    - intros s i stk mf Ps E _. cbn [on_events on_event] in E. unfold on_end in E. cbn [m_cur m_st m_stack m_errs m_name] in E. destruct (name_eqb_spec nm n) as [->|_]; [contradiction|].
      injection E as <-. exists s. split; [|exact Ps]. destruct k; try discriminate K; reflexivity.
  Qed.
  (** *** What is kept *)
  Lemma rn_token k nm ev t (P Q : DSt -> Prop) : (forall m, m_cur m = k -> m_name m = nm -> on_event reg isroot path later ev m = Some (mkM (append_token path k t (m_st m)) k nm (m_stack m) (m_errs m))) ->
    (forall s, P s -> Q (append_token path k t s)) -> Rn k nm [ev] P Q.
  Proof. intros H HQ s i stk mf Ps E _. cbn [on_events] in E. rewrite H in E by reflexivity. injection E as <-. cbn. eauto. Qed.
  Lemma rn_keep k nm (U : list Token -> DSt -> Prop) : keeps k = true -> (forall ts t s, U ts s -> U (ts ++ [t]) (append_token path k t s)) ->
    forall t ts, ~ In nm (names t) -> Rn k nm (events t) (U ts) (U (ts ++ tokens_of later t)).
  Proof.
    intros K HU. induction t as [n a kids IH|s r] using XTree_all; intros ts NI; cbn [events tokens_of].
    - change (EvStart n a :: flat_map events kids ++ [EvEnd n]) with ([EvStart n a] ++ flat_map events kids ++ [EvEnd n]).
      apply (rn_app _ _ _ _ _ (U (ts ++ [TStart n a]))); [|apply (rn_app _ _ _ _ _ (U (ts ++ TStart n a :: flat_map (tokens_of later) kids)))].
      + apply (rn_token _ _ _ (TStart n a)); [|intros s; apply HU]. intros [s c m st er]. cbn [m_cur m_name on_event m_st m_stack m_errs]. intros -> ->. unfold on_start. cbn [m_cur m_st m_stack m_errs m_name].
        destruct k; try discriminate K; reflexivity.
      + assert (Hk : ~ In nm (flat_map names kids)) by (intros I; apply NI; right; exact I). clear NI.
        replace (ts ++ TStart n a :: flat_map (tokens_of later) kids) with ((ts ++ [TStart n a]) ++ flat_map (tokens_of later) kids) by (rewrite <- app_assoc; reflexivity).
        generalize (ts ++ [TStart n a]). induction kids as [|t kids IHk]; intros us; cbn [flat_map]; [apply rn_nil; intros s; rewrite app_nil_r; auto|].
        inversion IH as [|? ? I1 I2]; subst. cbn [flat_map] in Hk. apply (rn_app _ _ _ _ _ (U (us ++ tokens_of later t))); [apply I1; intros I; apply Hk, in_or_app; auto|].
        rewrite app_assoc. apply IHk; [exact I2|]. intros I. apply Hk, in_or_app. auto.
      + replace (ts ++ TStart n a :: flat_map (tokens_of later) kids ++ [TEnd n]) with ((ts ++ TStart n a :: flat_map (tokens_of later) kids) ++ [TEnd n]) by (rewrite <- app_assoc; reflexivity).
        apply (rn_token _ _ _ (TEnd n)); [|intros s; apply HU]. intros [s c m st er]. cbn [m_cur m_name on_event m_st m_stack m_errs]. intros -> ->. unfold on_end. cbn [m_cur m_st m_stack m_errs m_name].
        destruct (name_eqb_spec nm n) as [->|_]; [|reflexivity]. exfalso. apply NI. left. reflexivity.
    - apply (rn_token _ _ _ (TChar (later r))); [|intros x; apply HU]. intros [x c m st er]. cbn [m_cur m_name on_event m_st m_stack m_errs]. intros -> ->. unfold on_char. cbn [m_cur m_st m_stack m_errs m_name].
      destruct k; try discriminate K; reflexivity.
  Qed.
  Lemma rn_keeps k nm (U : list Token -> DSt -> Prop) : keeps k = true -> (forall ts t s, U ts s -> U (ts ++ [t]) (append_token path k t s)) ->
    forall kids ts, ~ In nm (flat_map names kids) -> Rn k nm (flat_map events kids) (U ts) (U (ts ++ flat_map (tokens_of later) kids)).
  Proof.
    intros K HU. induction kids as [|t kids IHk]; intros us NI; cbn [flat_map]; [apply rn_nil; intros s; rewrite app_nil_r; auto|]. cbn [flat_map] in NI.
    apply (rn_app _ _ _ _ _ (U (us ++ tokens_of later t))); [apply rn_keep; [exact K|exact HU|intros I; apply NI, in_or_app; auto]|].
    rewrite app_assoc. apply IHk. intros I. apply NI, in_or_app. auto.
  Qed.
End Run.
