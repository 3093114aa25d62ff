(** * Proofs: conforming files are read *)
From Coq Require Import ZArith.
From Verif Require Import GoBase GoNum GoUtf8 GoFloat GoStrconv Types XmlTypes M_Core M_Errors M_Text M_Xml M_Decode
  S_Core S_Text S_Errors S_Xml S_Decode S_Attr S_Meaning S_Read P_Core P_Text P_Decode P_Panic P_Attr P_Xml2 P_MeaningModel P_MeaningTree.
From Verif Require Import Types.
Local Open Scope list_scope.

Lemma XTree_ind2 (P : XTree -> Prop) : (forall n a kids, Forall P kids -> P (XElem n a kids)) -> (forall s r, P (XText s r)) -> forall t, P t.
Proof.
  intros A B. fix IH 1. intros [n a kids|s r]; [|apply B]. apply A. induction kids as [|t l IHl]; constructor; [apply IH|exact IHl].
Qed.

Section Tree.
Context (known : string -> bool) (isroot : bool).
Lemma typed_all n a kids : Typed known isroot (XElem n a kids) <-> TypedTag known isroot n a /\ Forall (Typed known isroot) kids.
Proof.
  cbn [Typed]. split; intros [A B]; (split; [exact A|]).
  - induction kids as [|t l IH]; constructor; tauto.
  - induction B; [exact I|split; assumption].
Qed.
Lemma quiet_all open n a kids : Quiet known open (XElem n a kids) <->
  TameStart (fun ns => known ns = true) open n a /\ Forall (Quiet known (n :: open)) kids.
Proof.
  cbn [Quiet]. split; intros [A B]; (split; [exact A|]).
  - induction kids as [|t l IH]; constructor; tauto.
  - induction B; [exact I|split; assumption].
Qed.
Lemma typed_events t : Typed known isroot t -> forall n a, In (EvStart n a) (events t) -> TypedTag known isroot n a.
Proof.
  induction t as [n a kids IH|s r] using XTree_ind2; intros T n0 a0 I; [|destruct I as [E|[]]; discriminate].
  apply typed_all in T as [T1 T2]. cbn [events] in I. destruct I as [E|I]; [injection E as <- <-; exact T1|].
  apply in_app_or in I as [I|[E|[]]]; [|discriminate]. apply in_flat_map in I as (t & I1 & I2).
  rewrite Forall_forall in IH, T2. exact (IH t I1 (T2 t I1) _ _ I2).
Qed.
Notation T := (Tame (fun ns => known ns = true)).
Lemma quiet_tame t : forall open rest, In (core_name "model") open -> Quiet known open t -> T false open rest ->
  T false open (map ev_token (events t) ++ rest).
Proof.
  induction t as [n a kids IH|s r] using XTree_ind2; intros open rest M Q R.
  - apply quiet_all in Q as [Q1 Q2]. cbn [events map ev_token app]. apply TaStart; [exact Q1|].
    rewrite map_app, <- app_assoc.
    assert (K : T false (n :: open) (map ev_token [EvEnd n] ++ rest)).
    { cbn [map ev_token app]. apply TaEnd; [|exact R]. intros ->. destruct Q1 as (_ & Q1 & _). apply (Q1 eq_refl). exact M. }
    revert K. generalize (map ev_token [EvEnd n] ++ rest). clear R rest. intros rest R.
    induction IH as [|t l Ht Hl IHl]; [exact R|]. inversion Q2; subst. cbn [flat_map]. rewrite map_app, <- app_assoc.
    apply Ht; [right; exact M|assumption|]. apply IHl. assumption.
  - cbn. constructor. exact R.
Qed.
Lemma texts_tame closed open l : Forall is_text l -> forall rest, T closed open rest -> T closed open (map ev_token (flat_map events l) ++ rest).
Proof.
  induction 1 as [|t l Ht Hl IH]; intros rest R; [exact R|]. destruct t; [contradiction|]. cbn. constructor. apply IH. exact R.
Qed.
Lemma file_tame pre a kids post : Forall is_text pre -> Forall is_text post -> Quiet known [] (XElem (cn "model") a kids) ->
  T false [] (map ev_token (flat_map events (pre ++ XElem (cn "model") a kids :: post))).
Proof.
  intros P1 P2 Q. apply quiet_all in Q as [Q1 Q2]. rewrite flat_map_app, map_app. apply texts_tame; [exact P1|].
  cbn [flat_map events map ev_token app]. apply TaStart; [exact Q1|]. rewrite <- app_assoc, map_app.
  assert (K : T false [cn "model"] (map ev_token ([EvEnd (cn "model")] ++ flat_map events post))).
  { cbn [map ev_token app]. apply TaModel. rewrite <- (app_nil_r (map _ _)). apply texts_tame; [exact P2|constructor]. }
  revert K. generalize (map ev_token ([EvEnd (cn "model")] ++ flat_map events post)). intros rest R.
  induction Q2 as [|t l Ht Hl IHl]; [exact R|]. cbn [flat_map]. rewrite map_app, <- app_assoc.
  apply quiet_tame; [left; reflexivity|exact Ht|exact IHl].
Qed.
Lemma file_typed pre a kids post : Forall is_text pre -> Forall is_text post -> Typed known isroot (XElem (cn "model") a kids) ->
  forall n at_, In (EvStart n at_) (flat_map events (pre ++ XElem (cn "model") a kids :: post)) -> TypedTag known isroot n at_.
Proof.
  intros P1 P2 Ty n at_ I. apply in_flat_map in I as (t & I1 & I2).
  assert (X : Forall (Typed known isroot) (pre ++ XElem (cn "model") a kids :: post)).
  { apply Forall_app. split; [|constructor; [exact Ty|]]; eapply Forall_impl; try eassumption; intros []; cbn; tauto. }
  rewrite Forall_forall in X. exact (typed_events t (X t I1) _ _ I2).
Qed.
End Tree.

Section Run.
Context (reg : Reg) (isroot : bool) (path : string).
Lemma tame_known closed open ts : Tame (fun ns => knownb reg ns = true) closed open ts -> Tame (fun ns => load reg ns <> None) closed open ts.
Proof.
  assert (K : forall ns, load reg ns <> None -> knownb reg ns = true) by (intros ns N; unfold knownb; destruct (load reg ns); congruence).
  induction 1 as [| ? ? ? ? (Q1 & Q2 & Q3 & Q4)| | |]; [constructor|apply TaStart; [|assumption]|apply TaEnd; assumption|apply TaModel; assumption|apply TaChar; assumption].
  split; [exact Q1|]. split; [exact Q2|]. split; [intros E x I N; exact (Q3 E x I (K _ N))|intros E N; exact (Q4 E (K _ N))].
Qed.
(** The run over the events of a conforming file *)
Lemma conforming_events later mo pre a kids post : ChildsOk mo -> ModelGroups (knownb reg) path mo -> find_resources mo path <> None ->
  Forall is_text pre -> Forall is_text post -> Typed (knownb reg) isroot (XElem (cn "model") a kids) -> Quiet (knownb reg) [] (XElem (cn "model") a kids) ->
  exists mf, on_events reg isroot path later (flat_map events (pre ++ XElem (cn "model") a kids :: post)) (m_init mo) = Some mf /\ m_errs mf = [].
Proof.
  intros C G R P1 P2 Ty Q.
  assert (N : on_events reg isroot path later (flat_map events (pre ++ XElem (cn "model") a kids :: post)) (m_init mo) <> None).
  { eapply tame_events; [apply inv_init, R|]. apply tame_known. exact (file_tame (knownb reg) pre a kids post P1 P2 Q). }
  destruct (on_events _ _ _ _ _ (m_init mo)) as [mf|] eqn:E; [|congruence]. exists mf. split; [reflexivity|].
  destruct (events_blame reg isroot path later _ _ _ (init_ok reg path mo C G) E) as (new & EN & FN). rewrite EN. cbn.
  destruct FN as [|x l B _]; [reflexivity|]. exfalso.
  destruct B as (n & at_ & y & t & rq & cnt & ir & loc & i & B1 & B2 & B3 & B4 & _).
  pose proof (file_typed (knownb reg) isroot pre a kids post P1 P2 Ty n at_ B1 y t rq ir B2 B3) as F.
  pose proof (flaw_unique _ _ _ _ F B4). discriminate.
Qed.
(** A run without errors gets to the end of the input. *)
Lemma clean_run strict every fin later fuel : forall i d m evs d' mf, scan_loop fin true fuel d = SDone evs XEOF d' ->
  on_events reg isroot path later evs m = Some mf -> m_errs mf = [] ->
  exists n, decode_loop reg isroot strict path every (fun _ => false) fin later fuel i d m = DRet (s_model (m_st mf)) DNone n d'.
Proof.
  induction fuel as [|f IH]; intros i d m evs d' mf H E N; [discriminate|]. cbn [scan_loop decode_loop] in *.
  destruct (raw_token fin true d) as [ev d1|e1 d1|]; [| |discriminate].
  - destruct (scan_loop fin true f d1) as [evs1 e1 d2|] eqn:ES; [|discriminate]. injection H as <- -> ->. rewrite on_events_app in E.
    destruct (on_events reg isroot path later ev m) as [m1|] eqn:E1; [|discriminate].
    destruct (on_events_errs _ _ _ _ _ _ _ E) as (r & R). rewrite N in R. symmetry in R. apply app_eq_nil in R as [R _]. rewrite R.
    cbn [List.length Nat.eqb negb]. rewrite !andb_false_r. exact (IH _ _ _ _ _ _ ES E N).
  - injection H as <- -> ->. injection E as <-. rewrite N. exists (S i). reflexivity.
Qed.

(** A file of a child model that is empty so far, and one that is the root of a blank model *)
Lemma root_found M : root_file M path -> seq path "" || seq path (mo_path M) || (seq (mo_path M) "" && seq path DefaultModelPath) = true.
Proof. intros [->|[-> ->]]; [rewrite (seq_refl (mo_path M)), orb_true_r|cbn; rewrite ?orb_true_r]; reflexivity. Qed.
Lemma blank_ok M : Blank M -> root_file M path -> ChildsOk M -> ModelGroups (knownb reg) path M /\ find_resources M path <> None.
Proof.
  intros (_ & _ & _ & _ & B1 & _ & B2 & B3 & _) R C. assert (F : find_resources M path = Some res_zero) by (unfold find_resources; rewrite (root_found M R), B2; reflexivity).
  split; [|congruence]. unfold ModelGroups. rewrite B1, B3. split; [constructor|]. split; [constructor|]. intros r A. apply find_resources_spec in A; [|exact C].
  rewrite F in A. injection A as <-. constructor.
Qed.
Lemma child_ok M : Forall (group_at (knownb reg) "model") (mo_anyattr M) -> Forall (group_at (knownb reg) "build") (bu_any (mo_build M)) -> ChildsOk M ->
  find_resources M path = Some res_zero -> ModelGroups (knownb reg) path M.
Proof. intros G1 G2 C F. split; [exact G1|]. split; [exact G2|]. intros r A. apply find_resources_spec in A; [|exact C]. rewrite F in A. injection A as <-. constructor. Qed.
Lemma child_found M c : ChildsOk M -> ~ root_file M path -> path <> "" -> In (path, c) (mo_childs M) -> find_resources M path = Some (ch_res c).
Proof.
  intros ND R NE HC. unfold find_resources.
  destruct (seq_spec path ""); [contradiction|]. destruct (seq_spec path (mo_path M)) as [->|]; [exfalso; apply R; left; reflexivity|]. cbn [orb].
  assert (X : seq (mo_path M) "" && seq path DefaultModelPath = false).
  { destruct (seq_spec (mo_path M) ""); [|reflexivity]. destruct (seq_spec path DefaultModelPath); [|reflexivity]. exfalso. apply R. right. auto. }
  rewrite X. unfold find_child. unfold ChildsOk in ND. clear - ND HC. induction (mo_childs M) as [|[k c'] l IH]; [destruct HC|]. cbn [map fst] in ND. inversion ND as [|? ? N1 N2]; subst. cbn [aget].
  destruct (seq_spec path k) as [->|NK].
  - destruct HC as [[= ->]|HC]; [reflexivity|]. exfalso. apply N1. apply in_map_iff. exists (k, c). auto.
  - destruct HC as [[= -> _]|HC]; [contradiction|]. apply IH; assumption.
Qed.
End Run.

Section Files.
Context (reg : Reg).
Lemma root_read strict path every fin later input M pre a kids post d : Blank M -> root_file M path -> ChildsOk M ->
  scan fin input = SDone (flat_map events (pre ++ XElem (cn "model") a kids :: post)) XEOF d -> Forall is_text pre -> Forall is_text post ->
  Conforming (knownb reg) true a kids ->
  exists n, decode_with reg true strict path every (fun _ => false) fin later input M = DRet (model_of (knownb reg) later M a kids) DNone n d.
Proof.
  intros B R C S P1 P2 (PF & Ty & Q). destruct (blank_ok reg path M B R C) as [G F].
  destruct (conforming_events reg true path later M pre a kids post C G F P1 P2 Ty Q) as (mf & E & N).
  rewrite <- (root_meaning reg path later M pre a kids post mf B R P1 P2 PF E N). unfold decode_with. unfold scan in S. exact (clean_run reg true path strict every fin later _ _ _ _ _ _ _ S E N).
Qed.
Lemma child_read strict path every fin later input M pre a kids post d c :
  Forall (group_at (knownb reg) "model") (mo_anyattr M) -> Forall (group_at (knownb reg) "build") (bu_any (mo_build M)) ->
  ChildsOk M -> ~ root_file M path -> path <> "" -> In (path, c) (mo_childs M) -> ch_res c = res_zero ->
  scan fin input = SDone (flat_map events (pre ++ XElem (cn "model") a kids :: post)) XEOF d -> Forall is_text pre -> Forall is_text post ->
  Conforming (knownb reg) false a kids ->
  exists n, decode_with reg false strict path every (fun _ => false) fin later input M = DRet (child_of (knownb reg) later M path kids) DNone n d.
Proof.
  intros G1 G2 C R NE IC EC S P1 P2 (PF & Ty & Q). pose proof (child_found path M c C R NE IC) as F. rewrite EC in F. pose proof (child_ok reg path M G1 G2 C F) as G.
  destruct (conforming_events reg false path later M pre a kids post C G ltac:(congruence) P1 P2 Ty Q) as (mf & E & N).
  rewrite <- (child_meaning reg path later M pre a kids post mf C R NE F P1 P2 PF E N). unfold decode_with. unfold scan in S. exact (clean_run reg false path strict every fin later _ _ _ _ _ _ _ S E N).
Qed.
End Files.

(** ** A check, for the examples *)
Section Check.
Context (known : string -> bool) (isroot : bool).
Definition typedb1 (t : vtype) (v : string) : bool :=
  match t with
  | TUint => snd (parse_u32 v)
  | TFloat => snd (parse_float v)
  | TMatrix => snd (parse_matrix v)
  | TColour => snd (parse_rgba v)
  | TUuid => uuid_validate v
  | TWord ws => existsb (seq v) ws
  | TUints => forallb (fun v => snd (parse_u32 v)) (fields v)
  | TFloats => forallb (fun v => snd (parse_float v)) (fields v)
  end.
Definition typedb (x : event) : bool :=
  match x with
  | EvStart n a => forallb (fun x => forallb (fun ir => match attr_rule known isroot ir n x with Some (t, _) => typedb1 t (avalue x) | None => true end) [true; false]) a
  | _ => true
  end.
Lemma wrong_list (P : string -> Prop) (f : string -> bool) l : (forall s, f s = true -> P s) -> forallb f l = true -> Wrong P l 0.
Proof. intros H. induction l as [|s l IH]; intros E; [constructor|]. cbn in E. apply andb_prop in E as [E1 E2]. apply WGood; auto. Qed.
Lemma typedb1_sound t v : typedb1 t v = true -> Flaw t v 0.
Proof.
  assert (W : forall P : string -> Prop, P v -> Wrong P [v] 0) by (intros P H; apply WGood; [exact H|constructor]).
  destruct t; cbn [typedb1 Flaw]; intros H; try (apply W).
  - apply uint_text, H.
  - exact H.
  - apply matrix_text, H.
  - apply colour_text, H.
  - apply uuid_validate_spec, H.
  - apply existsb_exists in H as (w & I & E). destruct (seq_spec v w); [subst; exact I|discriminate].
  - eapply wrong_list; [|exact H]. intros s E. apply uint_text, E.
  - eapply wrong_list; [|exact H]. intros s E. exact E.
Qed.
Lemma typedb_sound t : forallb typedb (events t) = true -> Typed known isroot t.
Proof.
  induction t as [n a kids IH|s r] using XTree_ind2; intros H; [|exact I]. apply typed_all. cbn [events forallb] in H. apply andb_prop in H as [H1 H2].
  rewrite forallb_app in H2. apply andb_prop in H2 as [H2 _]. split.
  - intros x t rq ir Ix R. cbn [typedb] in H1. rewrite forallb_forall in H1. specialize (H1 x Ix). rewrite forallb_forall in H1. specialize (H1 ir). rewrite R in H1.
    apply typedb1_sound, H1. destruct ir; cbn; auto.
  - rewrite Forall_forall in *. intros t It. apply IH; [exact It|]. rewrite forallb_forall in *. intros e Ie. apply H2, in_flat_map. eauto.
Qed.
Fixpoint names_eqb (l l' : list Name) : bool :=
  match l, l' with [], [] => true | a :: l, b :: l' => name_eqb a b && names_eqb l l' | _, _ => false end.
Lemma names_eqb_sound l : forall l', names_eqb l l' = true -> l = l'.
Proof.
  induction l as [|a l IH]; intros [|b l'] H; try discriminate; [reflexivity|]. cbn in H. apply andb_prop in H as [H1 H2].
  destruct (name_eqb_spec' a b) as [->|]; [|discriminate]. f_equal. auto.
Qed.
Definition carriesb (l ns : string) : bool :=
  (seq ns ns_production && existsb (seq l) ["build"; "item"; "object"; "component"]) || (seq ns ns_slices && seq l "object").
Definition tameb (open : list Name) (n : Name) (a : list Attr) : bool :=
  negb (name_eqb n (mkName "" "")) &&
  (negb (seq (nspace n) ns_core) || (negb (existsb (name_eqb n) open) && forallb (fun x => negb (known (nspace (aname x))) || carriesb (nlocal n) (nspace (aname x))) a)) &&
  (negb (name_eqb n (mkName ns_beam "beamlattice")) || negb (existsb (name_eqb (core_name "resources")) open) ||
   names_eqb open [core_name "mesh"; core_name "object"; core_name "resources"; core_name "model"]).
Lemma tameb_sound open n a : tameb open n a = true -> TameStart (fun ns => known ns = true) open n a.
Proof.
  unfold tameb. intros H. apply andb_prop in H as [H H3]. apply andb_prop in H as [H1 H2].
  assert (E : forall m l, In m l -> existsb (name_eqb m) l = true).
  { intros m l Im. apply existsb_exists. exists m. split; [exact Im|]. destruct (name_eqb_spec' m m); congruence. }
  split; [|split; [|split]].
  - intros ->. discriminate.
  - intros C In_. rewrite C, seq_refl in H2. cbn [negb orb] in H2. rewrite (E n open In_) in H2. discriminate.
  - intros C x Ix K. rewrite C, seq_refl in H2. cbn [negb orb] in H2. apply andb_prop in H2 as [_ H2]. rewrite forallb_forall in H2. specialize (H2 x Ix). rewrite K in H2. cbn [negb orb] in H2.
    unfold carriesb in H2. apply orb_prop in H2 as [H2|H2]; apply andb_prop in H2 as [A B].
    + left. destruct (seq_spec (nspace (aname x)) ns_production); [|discriminate]. split; [assumption|]. apply existsb_exists in B as (w & Iw & Ew).
      destruct (seq_spec (nlocal n) w); [subst; exact Iw|discriminate].
    + right. destruct (seq_spec (nspace (aname x)) ns_slices); [|discriminate]. destruct (seq_spec (nlocal n) "object"); [|discriminate]. auto.
  - intros -> _ R. rewrite (E _ _ R) in H3. apply names_eqb_sound, H3.
Qed.
Fixpoint quietb (open : list Name) (t : XTree) : bool :=
  match t with XText _ _ => true | XElem n a kids => tameb open n a && forallb (quietb (n :: open)) kids end.
Lemma quietb_sound t : forall open, quietb open t = true -> Quiet known open t.
Proof.
  induction t as [n a kids IH|s r] using XTree_ind2; intros open H; [|exact I]. cbn [quietb] in H. apply andb_prop in H as [H1 H2]. apply quiet_all. split; [apply tameb_sound, H1|].
  rewrite Forall_forall in *. rewrite forallb_forall in H2. auto.
Qed.
Definition conformingb (a : list Attr) (kids : list XTree) : bool :=
  fileb known isroot a kids && forallb typedb (events (XElem (cn "model") a kids)) && quietb [] (XElem (cn "model") a kids).
Lemma conformingb_sound a kids : conformingb a kids = true -> Conforming known isroot a kids.
Proof.
  unfold conformingb. intros H. apply andb_prop in H as [H H3]. apply andb_prop in H as [H1 H2].
  split; [apply fileb_sound, H1|]. split; [apply typedb_sound, H2|apply quietb_sound, H3].
Qed.
End Check.
