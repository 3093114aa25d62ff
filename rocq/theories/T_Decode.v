(** * Theorems about the decoder of model files *)
From Coq Require Import ZArith.
From Verif Require Import GoBase GoNum GoUtf8 GoFloat GoStrconv Types XmlTypes M_Core M_Errors M_Text M_Xml M_Validate M_Decode M_Printer M_Encode S_Xml S_Validate S_Decode P_Xml P_Xml2 T_Xml P_Decode P_Panic P_State.

(** ** C36: strict and lenient decoding agree.  The context and the contents of the slices of the scan buffer are the
    same in both runs.  Where lenient decoding goes on after an error it may panic (see C37). *)
Theorem C36_strict_lenient reg isroot path every ctx fin later input m :
  match decode_with reg isroot true path every ctx fin later input m, decode_with reg isroot false path every ctx fin later input m with
  | DRet ms es ns ds, DRet ml el nl dl =>
      (es = DNone <-> el = DNone) /\ (es = DNone -> ms = ml) /\
      (forall x, el = DErrs x -> exists g, es = DErrs g /\ FirstOf g x) /\
      ((forall g, es <> DErrs g) -> el = es)
  | DRet _ es _ _, DPanic => exists g, es = DErrs g
  | DPanic, DPanic => True
  | _, _ => False
  end.
Proof.
  unfold decode_with. pose proof (strict_lenient reg isroot path every fin later ctx (scan_fuel input) 0 (dec_new input) (m_init m) eq_refl) as H.
  assert (P : pending (dec_new input) < scan_fuel input) by (unfold pending, scan_fuel; cbn [d_rest d_close dec_new]; lia).
  pose proof (decode_loop_fuel reg isroot path every fin later true ctx _ 0 _ (m_init m) P) as O1.
  pose proof (decode_loop_fuel reg isroot path every fin later false ctx _ 0 _ (m_init m) P) as O2.
  destruct (decode_loop reg isroot true path every ctx fin later (scan_fuel input) 0 (dec_new input) (m_init m)) as [ms es ns ds| |]; [|rewrite H; exact I|congruence].
  destruct H as [(H1 & H2)|(g & -> & H)].
  - rewrite H1. split; [tauto|]. split; [tauto|]. split; [|auto]. intros x E. exfalso. apply (H2 x E).
  - destruct (decode_loop reg isroot false path every ctx fin later (scan_fuel input) 0 (dec_new input) (m_init m)) as [ml el nl dl| |]; [|eauto|congruence].
    destruct H as [H1 H2]. split; [split; [discriminate|tauto]|]. split; [discriminate|]. split.
    + intros x E. exists g. split; [reflexivity|]. apply H2. exact E.
    + intros N. edestruct N; reflexivity.
Qed.
Print Assumptions C36_strict_lenient.

(** ** C49: the context is done from the [j]-th token on.  Decoding returns before [every] (1000 in read.go 23) further
    tokens, with the error of the context, unless it returns the same as without cancellation. *)
Theorem C49_cancelled reg isroot strict path every ctx fin later input m j mm e n d :
  0 < every -> (forall i, j <= i -> ctx i = true) ->
  decode_with reg isroot strict path every ctx fin later input m = DRet mm e n d ->
  n <= j + every /\
  ((e = DCtx /\ ctx (n - 1) = true) \/
   (e <> DCtx /\ decode_with reg isroot strict path every (fun _ => false) fin later input m = DRet mm e n d)).
Proof.
  intros HE HC H. unfold decode_with in *. pose proof (cancel_loop reg isroot path every fin later strict ctx j HC HE (scan_fuel input) 0 (dec_new input) (m_init m)) as L.
  rewrite H in L. exact L.
Qed.
Print Assumptions C49_cancelled.
(** A panic is not prevented and not caused by cancelling: one that happens would have happened anyway. *)
Theorem C49_panic reg isroot strict path every ctx fin later input m j :
  0 < every -> (forall i, j <= i -> ctx i = true) ->
  decode_with reg isroot strict path every ctx fin later input m = DPanic ->
  decode_with reg isroot strict path every (fun _ => false) fin later input m = DPanic.
Proof.
  intros HE HC H. unfold decode_with in *. pose proof (cancel_loop reg isroot path every fin later strict ctx j HC HE (scan_fuel input) 0 (dec_new input) (m_init m)) as L.
  rewrite H in L. exact L.
Qed.

(** ** C59: malformed files are refused.  A file decoded without error, strictly or not, was read up to its end, and
    its tags are those of nested elements that are all closed. *)
Theorem C59_accepted reg isroot strict path every ctx fin input m mm n d :
  decode_file reg isroot strict path every ctx fin input m = DRet mm DNone n d ->
  exists evs, scan fin input = SDone evs XEOF d /\ Nests [] (map ev_token evs) [].
Proof.
  unfold decode_file. destruct (decode_with _ _ _ _ _ _ _ (fun _ => "") input m) as [m1 e1 n1 d1| |]; try discriminate.
  unfold decode_with. intros H. destruct (none_scan _ _ _ _ _ _ _ _ _ _ _ _ _ _ _ H) as (evs & E). exists evs. split; [exact E|].
  destruct (C29_well_nested fin input evs XEOF d E) as (open & N & O). rewrite (O eq_refl) in N. exact N.
Qed.
Print Assumptions C59_accepted.
(** Lenient decoding of a malformed file panics (see C37) or returns the error of the scanner. *)
Theorem C59_reported reg isroot path every fin input m evs e d :
  scan fin input = SDone evs e d -> e <> XEOF ->
  decode_file reg isroot false path every (fun _ => false) fin input m = DPanic \/
  exists mm n, decode_file reg isroot false path every (fun _ => false) fin input m = DRet mm (DScan e) n d.
Proof.
  intros E NE. unfold decode_file, decode_with. unfold scan in E.
  assert (S : scan_err e = DScan e) by (destruct e; try reflexivity; congruence).
  pose proof (lenient_run reg isroot path every fin (fun _ => "") _ 0 _ (m_init m) _ _ _ E) as L.
  destruct (on_events reg isroot path (fun _ => "") evs (m_init m)) as [m1|]; [|rewrite L; left; reflexivity].
  destruct L as (n1 & L). rewrite L.
  pose proof (lenient_run reg isroot path every fin (buf_deref (d_buf d)) _ 0 _ (m_init m) _ _ _ E) as L2.
  destruct (on_events reg isroot path _ evs (m_init m)) as [m2|]; [|left; exact L2].
  destruct L2 as (n2 & L2). right. rewrite L2, S. cbn [finish]. eauto.
Qed.
Print Assumptions C59_reported.
Example C59_nonvacuous :
  (exists mm n d, unmarshal_model (mkReg true true true true) "<model><a></a></model>" model_zero = DRet mm DNone n d) /\
  (exists mm n d m, unmarshal_model (mkReg true true true true) "<model><a></b></model>" model_zero = DRet mm (DScan (XSyntax m)) n d).
Proof. split; vm_compute; repeat eexists. Qed.

(** ** C37: decoding can panic *)
Definition all_specs := mkReg true true true true.
Definition doc_model : string := "<model xmlns=""http://schemas.microsoft.com/3dmanufacturing/core/2015/02""".
Definition doc_exts : string := " xmlns:m=""http://schemas.microsoft.com/3dmanufacturing/material/2015/02"" xmlns:b=""http://schemas.microsoft.com/3dmanufacturing/beamlattice/2017/02"">".
Theorem C37_no_name_refuted : exists input, input = "<:/>" /\ unmarshal_model all_specs input model_zero = DPanic.
Proof. eexists. split; [reflexivity|]. vm_compute. reflexivity. Qed.
Print Assumptions C37_no_name_refuted.
Theorem C37_second_model_refuted : exists input, input = doc_model +++ "/>" +++ doc_model +++ "/>" /\ unmarshal_model all_specs input model_zero = DPanic.
Proof. eexists. split; [reflexivity|]. vm_compute. reflexivity. Qed.
Print Assumptions C37_second_model_refuted.
Theorem C37_nested_model_refuted : exists input, input = doc_model +++ "><model/></model>" /\ unmarshal_model all_specs input model_zero = DPanic.
Proof. eexists. split; [reflexivity|]. vm_compute. reflexivity. Qed.
Print Assumptions C37_nested_model_refuted.
Theorem C37_beamlattice_refuted : exists input, input = doc_model +++ doc_exts +++ "<resources><b:beamlattice/></resources></model>" /\ unmarshal_model all_specs input model_zero = DPanic.
Proof. eexists. split; [reflexivity|]. vm_compute. reflexivity. Qed.
Print Assumptions C37_beamlattice_refuted.
Theorem C37_attribute_refuted : exists input, input = doc_model +++ doc_exts +++ "<build m:x=""""/></model>" /\ unmarshal_model all_specs input model_zero = DPanic.
Proof. eexists. split; [reflexivity|]. vm_compute. reflexivity. Qed.
Print Assumptions C37_attribute_refuted.
(** What holds: a tame document does not panic, whatever its attributes say and however it ends. *)
Theorem C37_no_panic_partial reg isroot strict path every ctx fin later input m evs e d :
  find_resources m path <> None -> scan fin input = SDone evs e d -> Tame (fun ns => load reg ns <> None) false [] (map ev_token evs) ->
  exists mm r n d', decode_with reg isroot strict path every ctx fin later input m = DRet mm r n d'.
Proof.
  intros HR HS HT. unfold decode_with.
  assert (P : pending (dec_new input) < scan_fuel input) by (unfold pending, scan_fuel; cbn [d_rest d_close dec_new]; lia).
  pose proof (decode_loop_fuel reg isroot path every fin later strict ctx _ 0 _ (m_init m) P) as O1.
  pose proof (loop_panic reg isroot strict path every ctx fin later (scan_fuel input) 0 (dec_new input) (m_init m) evs e d HS) as O2.
  assert (N : on_events reg isroot path later evs (m_init m) <> None) by (eapply tame_events; [apply inv_init, HR|exact HT]).
  specialize (O2 N). destruct (decode_loop _ _ _ _ _ _ _ _ _ _ _ _) as [mm r n d'| |]; [eauto 6|congruence|congruence].
Qed.
Print Assumptions C37_no_panic_partial.
Definition doc_bad : string := doc_model +++ "><resources><object id=""x"" pid=""y""/><object id=""3"" pindex=""z""/></resources></model>".
Definition result (r : dres) : option (derr * nat) := match r with DRet _ e n _ => Some (e, n) | _ => None end.
Definition at_object (i : Z) (e : gerr) : gerr := Types.EErr [mkLevel "object" i; mkLevel "resources" (-1); mkLevel "model" (-1)] e "".
Example C36_nonvacuous :
  result (decode_file all_specs true true "" 1000 (fun _ => false) XEOF doc_bad model_zero) = Some (DErrs (at_object 0 (EParse "id" true)), 3) /\
  result (decode_file all_specs true false "" 1000 (fun _ => false) XEOF doc_bad model_zero) =
    Some (DErrs (EList [at_object 0 (EParse "id" true); at_object 0 (EParse "pid" false); at_object 1 (EParse "pindex" false)]), 9).
Proof. split; vm_compute; reflexivity. Qed.
Example C49_nonvacuous :
  result (decode_file all_specs true false "" 2 (fun i => Nat.leb 3 i) XEOF doc_bad model_zero) = Some (DCtx, 5) /\
  forall i, 3 <= i -> Nat.leb 3 i = true.
Proof. split; [vm_compute; reflexivity|]. intros i H. apply Nat.leb_le. exact H. Qed.
Definition doc_tame : string := doc_model +++ doc_exts +++
  "<resources m=""1""><x:a xmlns:x=""x"" id=""2""><x:a/>t</x:a><object id=""1""><mesh><b:beamlattice radius=""z""/></mesh></object></resources><build/></model>".
Example C37_nonvacuous : exists evs d, scan XEOF doc_tame = SDone evs XEOF d /\ List.length evs = 17 /\
  Tame (fun ns => load all_specs ns <> None) false [] (map ev_token evs) /\
  result (unmarshal_model all_specs doc_tame model_zero) <> None.
Proof.
  eexists _, _. split; [vm_compute; reflexivity|]. split; [reflexivity|]. split.
  - cbn [map ev_token].
    assert (T : forall open n a ts, n <> mkName "" "" -> (nspace n = ns_core -> ~ In n open) ->
      (nspace n = ns_core -> forall y, In y a -> load all_specs (nspace (aname y)) = None) ->
      (n = mkName ns_beam "beamlattice" -> open = [core_name "mesh"; core_name "object"; core_name "resources"; core_name "model"]) ->
      Tame (fun ns => load all_specs ns <> None) false (n :: open) ts -> Tame (fun ns => load all_specs ns <> None) false open (TStart n a :: ts)).
    { intros open n a ts H1 H2 H3 H4 H5. apply TaStart; [|exact H5]. split; [exact H1|]. split; [exact H2|]. split; [|auto]. intros C y I K. exfalso. apply K, H3; assumption. }
    repeat first [apply TaModel | apply TaNil | apply TaEnd; [discriminate|] | apply TaChar | apply T;
      [discriminate
      |first [intros H; discriminate H | intros _ H; cbn [In] in H; repeat (destruct H as [H|H]; [discriminate H|]); exact H]
      |first [intros H; discriminate H | intros _ y I; cbn [In] in I; repeat (destruct I as [<-|I]; [reflexivity|]); destruct I]
      |first [intros H; discriminate H | intros _; reflexivity]
      |]].
  - vm_compute. discriminate.
Qed.

(** ** C38: unknown elements *)
(** The events of a document, and the extension elements of the model that is read from it without error *)
Definition tokens_of (input : string) : option (list Token) := match scan XEOF input with SDone evs XEOF _ => Some (map ev_token evs) | _ => None end.
Definition any_of (r : dres) : option (list AnyElem) := match r with DRet m DNone _ _ => Some (mo_any m) | _ => None end.
(** Text inside an unknown element is kept as a slice of the scan buffer, which the scanner overwrites. *)
Theorem C38_text_refuted : exists input any pre post x a,
  load all_specs (nspace x) = None /\ tokens_of input = Some (pre ++ [TStart x a; TChar "one"; TEnd x] ++ post) /\
  any_of (unmarshal_model all_specs input model_zero) = Some any /\ any <> [AnyTokens [TStart x a; TChar "one"; TEnd x]].
Proof.
  exists (doc_model +++ "><x:a xmlns:x=""x"">one</x:a><metadata name=""Title"">something else</metadata></model>").
  eexists _, [TStart (core_name "model") [mkAttr (mkName "" "xmlns") ns_core]], _, (mkName "x" "a"), [mkAttr (mkName "xmlns" "x") "x"].
  split; [reflexivity|]. split; [vm_compute; reflexivity|]. split; [vm_compute; reflexivity|]. discriminate.
Qed.
Print Assumptions C38_text_refuted.
(** An element inside an element of the same name ends it. *)
Theorem C38_nested_refuted : exists input any pre post x a,
  load all_specs (nspace x) = None /\ tokens_of input = Some (pre ++ [TStart x a; TStart x []; TEnd x; TEnd x] ++ post) /\
  any_of (unmarshal_model all_specs input model_zero) = Some any /\ any <> [AnyTokens [TStart x a; TStart x []; TEnd x; TEnd x]].
Proof.
  exists (doc_model +++ "><x:a xmlns:x=""x""><x:a/></x:a></model>").
  eexists _, [TStart (core_name "model") [mkAttr (mkName "" "xmlns") ns_core]], _, (mkName "x" "a"), [mkAttr (mkName "xmlns" "x") "x"].
  split; [reflexivity|]. split; [vm_compute; reflexivity|]. split; [vm_compute; reflexivity|]. discriminate.
Qed.
(** What holds, wherever the decoder is in a model, in resources or in a mesh: an element of an unknown extension that
    has no text and no element with its own name in it is kept as its events, in that order, and the decoder is where it
    was.  Missing: text and elements of the same name. *)
Section Unknown.
  Context (reg : Reg) (isroot : bool) (path : string) (later : Ref -> string) (evs : list event) (x : Name) (a : list Attr) (inner : list Token).
  Context (m : Mach) (i : Z) (rest : list (DK * Name * Z)).
  Context (unknown : nspace x <> ns_core /\ load reg (nspace x) = None) (plain : PlainElement x a inner).
  Context (events : map ev_token evs = TStart x a :: inner ++ [TEnd x]) (stack : m_stack m = (m_cur m, m_name m, i) :: rest).
  Lemma split_events : exists mid, evs = EvStart x a :: mid ++ [EvEnd x] /\ map ev_token mid = inner.
  Proof.
    destruct evs as [|e l]; [discriminate|]. cbn [map] in events. injection events as E1 E2. destruct e; cbn in E1; try discriminate. injection E1 as -> ->.
    destruct l as [|e l _] using rev_ind; [destruct inner; discriminate|]. rewrite map_app in E2. cbn [map] in E2. apply app_inj_tail in E2 as [E2 E3].
    destruct e; cbn in E3; try discriminate. injection E3 as ->. exists l. auto.
  Qed.
  Lemma mid_plain mid : map ev_token mid = inner -> (forall e, In e mid -> ev_token e <> TEnd x) /\ (forall e t, In e mid -> ev_token e <> TChar t).
  Proof.
    destruct plain as (P1 & P2 & P3). intros <-. split; intros e; intros.
    - intros E. apply P3. rewrite <- E. apply in_map. assumption.
    - intros E. apply (P1 t). rewrite <- E. apply in_map. assumption.
  Qed.
  Lemma on_events_snoc l e m0 m1 m2 : on_events reg isroot path later l m0 = Some m1 -> on_event reg isroot path later e m1 = Some m2 ->
    on_events reg isroot path later (l ++ [e]) m0 = Some m2.
  Proof. intros H1 H2. rewrite on_events_app, H1. cbn [on_events]. rewrite H2. reflexivity. Qed.
  Theorem C38_model_partial : m_cur m = KModel -> exists m', on_events reg isroot path later evs m = Some m' /\
    mo_any (s_model (m_st m')) = mo_any (s_model (m_st m)) ++ [AnyTokens (TStart x a :: inner ++ [TEnd x])] /\
    m_cur m' = m_cur m /\ m_name m' = m_name m /\ m_stack m' = m_stack m /\ m_errs m' = m_errs m.
  Proof.
    intros K. destruct split_events as (mid & E & Em). destruct (mid_plain mid Em) as [M1 M2]. destruct unknown as [U1 U2].
    destruct m as [s k nm stk errs]. cbn [m_st m_cur m_name m_stack m_errs] in *. subst k stk.
    eexists. split.
    - rewrite E. cbn [on_events on_event]. unfold on_start. cbn [m_cur has_child child m_st]. unfold model_child, new_element_decoder.
      destruct (seq_spec (nspace x) ns_core) as [C|_]; [contradiction|]. rewrite U2. cbn [start]. cbn [m_stack m_errs].
      eapply on_events_snoc; [apply unk_events; [reflexivity|exact M1|exact M2]|]. cbn [on_event]. unfold on_end. cbn [m_name m_cur m_st m_stack m_errs].
      destruct (name_eqb_spec' x x) as [_|C]; [|congruence]. cbn [end_]. reflexivity.
    - cbn [m_st m_cur m_name m_stack m_errs]. split; [|auto].
      change (upd_any path LModel ?f) with (upd_any path LModel f). 
      cbn [upd_any s_model with_model mo_any mo_set_any]. rewrite upd_last_snoc. cbn [app].
      match goal with |- context [fold_left ?f ?l ?s0] => change s0 with (with_model (mo_set_any (mo_any (s_model s) ++ [AnyTokens [TStart x a]]) (s_model s)) s) end.
      rewrite appends_model, append_model, Em. cbn. reflexivity.
  Qed.
  Theorem C38_mesh_partial : m_cur m = KMesh -> res_get path (m_st m) <> None -> s_obj_done (m_st m) = false -> (exists me, get_mesh path (m_st m) = Some me) ->
    exists m', on_events reg isroot path later evs m = Some m' /\
    (exists me me', get_mesh path (m_st m) = Some me /\ get_mesh path (m_st m') = Some me' /\
       me_ext me' = me_ext me ++ [AnyTokens (TStart x a :: inner ++ [TEnd x])] /\ me_verts me' = me_verts me /\ me_tris me' = me_tris me) /\
    m_cur m' = m_cur m /\ m_name m' = m_name m /\ m_stack m' = m_stack m /\ m_errs m' = m_errs m.
  Proof.
    intros K HR D (me & HM). destruct split_events as (mid & E & Em). destruct (mid_plain mid Em) as [M1 M2]. destruct unknown as [U1 U2].
    destruct m as [s k nm stk errs]. cbn [m_st m_cur m_name m_stack m_errs] in *. subst k stk.
    eexists. split.
    - rewrite E. cbn [on_events on_event]. unfold on_start. cbn [m_cur has_child child m_st]. unfold mesh_child, new_element_decoder.
      destruct (seq_spec (nspace x) ns_core) as [C|_]; [contradiction|]. rewrite U2. cbn [start]. cbn [m_stack m_errs].
      eapply on_events_snoc; [apply unk_events; [reflexivity|exact M1|exact M2]|]. cbn [on_event]. unfold on_end. cbn [m_name m_cur m_st m_stack m_errs].
      destruct (name_eqb_spec' x x) as [_|C]; [|congruence]. cbn [end_]. reflexivity.
    - cbn [m_st m_cur m_name m_stack m_errs]. split; [|auto].
      change (upd_any path LMesh (fun e => match e with AnyTokens ts => AnyTokens (ts ++ [TStart x a]) | AnyExt _ => e end)) with (append_token path (KUnk LMesh) (TStart x a)).
      rewrite append_mesh, appends_mesh, append_mesh by exact HR. cbn [app]. rewrite Em. exists me. eexists. split; [exact HM|].
      unfold get_mesh, upd_mesh in *. rewrite get_upd_obj by (congruence || exact HR). cbn. rewrite HM. cbn. auto.
  Qed.
  Theorem C38_resources_partial r : m_cur m = KRes -> res_get path (m_st m) = Some r ->
    exists m' id, on_events reg isroot path later evs m = Some m' /\
    res_get path (m_st m') = Some (mkRes (rs_assets r ++ [AUnknown id (TStart x a :: inner ++ [TEnd x])]) (rs_objects r) (rs_any r)) /\
    ((forall b, In b a -> aname b <> mkName "" "id") -> id = 0%N /\ m_errs m' = m_errs m) /\
    m_cur m' = m_cur m /\ m_name m' = m_name m /\ m_stack m' = m_stack m.
  Proof.
    intros K HR. destruct split_events as (mid & E & Em). destruct (mid_plain mid Em) as [M1 M2]. destruct unknown as [U1 U2].
    destruct m as [s k nm stk errs]. cbn [m_st m_cur m_name m_stack m_errs] in *. subst k stk.
    set (s0 := res_set path r (with_unk [] 0 s)).
    assert (R0 : res_get path s0 = Some r). { apply res_get_set. change (res_get path (with_unk [] 0 s)) with (res_get path s). congruence. }
    assert (U0 : s_unk s0 = [] /\ s_unk_id s0 = 0%N). { unfold s0, res_set. destruct (_ || _); [auto|]. destruct (find_child _ _); auto. }
    destruct U0 as [U3 U4].
    assert (ST : exists id e, start reg isroot path KUnkAsset x a s0 = Some (with_unk [TStart x a] id s0, e) /\ ((forall b, In b a -> aname b <> mkName "" "id") -> id = 0%N /\ e = None)).
    { cbn [start]. rewrite U3, U4. destruct (first_attr (is_attr "id") a) as [b|] eqn:F.
      - destruct (get_u32 b true) as [id er]. eexists id, _. split; [reflexivity|]. intros H. exfalso.
        assert (In b a /\ is_attr "id" b = true) as [I1 I2]. { clear - F. induction a as [|c l IH]; cbn [first_attr] in F; [discriminate|]. destruct (is_attr "id" c) eqn:Q; [injection F as <-; split; [left; reflexivity|exact Q]|]. destruct (IH F). split; [right|]; assumption. }
        apply (H b I1). unfold is_attr in I2. apply andb_true_iff in I2 as [I2 I3]. destruct (seq_spec (nspace (aname b)) ""), (seq_spec (nlocal (aname b)) "id"); try discriminate. destruct (aname b); cbn in *; congruence.
      - eexists _, _. split; [reflexivity|]. auto. }
    destruct ST as (id & e & ST & STid).
    assert (FIN : forall errs', exists m', on_events reg isroot path later (mid ++ [EvEnd x]) (mkM (with_unk [TStart x a] id s0) KUnkAsset x ((KUnkAsset, x, zlen (rs_assets r)) :: (KRes, nm, i) :: rest) errs') = Some m' /\
      res_get path (m_st m') = Some (mkRes (rs_assets r ++ [AUnknown id (TStart x a :: inner ++ [TEnd x])]) (rs_objects r) (rs_any r)) /\
      m_errs m' = errs' /\ m_cur m' = KRes /\ m_name m' = nm /\ m_stack m' = (KRes, nm, i) :: rest).
    { intros errs'. eexists. split.
      - eapply on_events_snoc; [apply unk_events; [reflexivity|exact M1|exact M2]|]. cbn [on_event]. unfold on_end. cbn [m_name m_cur m_st m_stack m_errs].
        destruct (name_eqb_spec' x x) as [_|C]; [|congruence]. rewrite appends_asset, Em. cbn [end_]. unfold res_upd.
        change (res_get path (with_unk ?t ?i (with_unk ?t' ?i' s0))) with (res_get path s0).
        match goal with |- context [res_get path ?y] => change (res_get path y) with (res_get path s0) end. rewrite R0. cbn [m_stack]. reflexivity.
      - cbn [m_st m_cur m_name m_stack m_errs]. split; [|auto]. rewrite res_get_set; [reflexivity|]. match goal with |- res_get path ?y <> _ => change (res_get path y) with (res_get path s0) end. congruence. }
    rewrite E. cbn [on_events on_event]. unfold on_start. cbn [m_cur has_child child m_st]. unfold res_child.
    destruct (seq_spec (nspace x) ns_core) as [C|_]; [contradiction|]. rewrite U2.
    change (res_get path (with_unk [] 0 s)) with (res_get path s). rewrite HR. fold s0. rewrite ST. cbn [m_stack m_errs].
    destruct e as [e|].
    - destruct (FIN (append_list errs [Some (wrap_stack e ((KUnkAsset, x, zlen (rs_assets r)) :: (KRes, nm, i) :: rest))])) as (m' & F1 & F2 & F3 & F4 & F5 & F6).
      exists m', id. split; [exact F1|]. split; [exact F2|]. split; [intros H; destruct (STid H); discriminate|]. auto.
    - destruct (FIN errs) as (m' & F1 & F2 & F3 & F4 & F5 & F6).
      exists m', id. split; [exact F1|]. split; [exact F2|]. split; [intros H; split; [apply STid, H|exact F3]|]. auto.
  Qed.
End Unknown.
Print Assumptions C38_resources_partial.
(** The events are handed to the printer as they are, in the place of the element. *)
Theorem C38_written_partial prec ts id : write_any1 prec (AnyTokens ts) = map OpTok ts /\ write_asset prec (AUnknown id ts) = map OpTok ts.
Proof. split; reflexivity. Qed.
Example C38_nonvacuous : PlainElement (mkName "x" "a") [] [TStart (mkName "x" "b") []; TStart (mkName "y" "a") []; TEnd (mkName "y" "a"); TEnd (mkName "x" "b")] /\
  any_of (unmarshal_model all_specs (doc_model +++ "><x:a><x:b><y:a/></x:b></x:a><x:a/></model>") model_zero) =
    Some [AnyTokens [TStart (mkName "x" "a") []; TStart (mkName "x" "b") []; TStart (mkName "y" "a") []; TEnd (mkName "y" "a"); TEnd (mkName "x" "b"); TEnd (mkName "x" "a")];
          AnyTokens [TStart (mkName "x" "a") []; TEnd (mkName "x" "a")]].
Proof.
  split; [|vm_compute; reflexivity]. repeat split; intros; intros H; cbn in H; intuition discriminate.
Qed.

(** ** C24: metadata with a prefix *)
Definition meta_of (r : dres) : option (Model * list Metadata) := match r with DRet m DNone _ _ => Some (m, mo_md m) | _ => None end.
Theorem C24_refuted : exists input m md, meta_of (unmarshal_model all_specs input model_zero) = Some (m, [md]) /\
  (exists e, In e (mo_exts m) /\ ex_local e = "a" /\ ex_ns e = "http://a") /\
  tokens_of input = Some [TStart (core_name "model") [mkAttr (mkName "" "xmlns") ns_core; mkAttr (mkName "xmlns" "a") "http://a"];
     TStart (core_name "metadata") [mkAttr (mkName "" "name") "a:b"]; TChar "v"; TEnd (core_name "metadata"); TEnd (core_name "model")] /\
  metadata_validate m md = Some (EList [ESent "ErrMetadataNamespace"]).
Proof.
  exists (doc_model +++ " xmlns:a=""http://a""><metadata name=""a:b"">v</metadata></model>"). eexists _, _.
  split; [vm_compute; reflexivity|]. split; [eexists; split; [left; reflexivity|split; reflexivity]|]. split; [vm_compute; reflexivity|]. vm_compute. reflexivity.
Qed.
Print Assumptions C24_refuted.
(** What holds: the decoder keeps the prefix as the namespace, so the metadata passes exactly if the prefix is the name of a
    declared namespace. *)
Theorem C24_exact_partial m x p l : (exists e, In e (mo_exts m) /\ ex_local e = p) -> ~ In ":"%char (chars p) -> p <> "" -> l <> "" ->
  (metadata_validate m (meta_attr (mo_exts m) x (mkAttr (mkName "" "name") (p +++ ":" +++ l))) = None <-> exists e, In e (mo_exts m) /\ ex_ns e = p).
Proof.
  intros (e & He & El) Hp Hp0 Hl. unfold meta_attr. cbn [aname nspace nlocal avalue]. change (seq "" "") with true. change (seq "name" "name") with true. cbn [negb].
  change (p +++ ":" +++ l) with (p +++ String ":" l). assert (S : split_at ":" (p +++ String ":" l) = Some (p, l)) by (apply split_at_some; auto). rewrite S.
  assert (X : existsb (fun e => seq (ex_local e) p) (mo_exts m) = true) by (apply existsb_exists; exists e; split; [exact He|rewrite El; apply seq_refl]). rewrite X.
  unfold metadata_validate. cbn [md_name nlocal nspace]. destruct (seq_spec l "") as [C|_]; [contradiction|]. destruct (seq_spec p "") as [C|_]; [contradiction|].
  destruct (existsb (fun ext => seq (ex_ns ext) p) (mo_exts m)) eqn:Y; cbn [negb add_if].
  - split; [|reflexivity]. intros _. apply existsb_exists in Y as (e' & H1 & H2). exists e'. split; [exact H1|]. destruct (seq_spec (ex_ns e') p); congruence.
  - split; [discriminate|]. intros (e' & H1 & H2). exfalso. assert (existsb (fun ext => seq (ex_ns ext) p) (mo_exts m) = true) by (apply existsb_exists; exists e'; split; [exact H1|rewrite H2; apply seq_refl]). congruence.
Qed.
Print Assumptions C24_exact_partial.
Example C24_nonvacuous : exists m, (exists e, In e (mo_exts m) /\ ex_local e = "urn-a") /\ ~ In ":"%char (chars "urn-a") /\
  metadata_validate m (meta_attr (mo_exts m) meta_zero (mkAttr (mkName "" "name") "urn-a:b")) = None.
Proof.
  exists (mo_head "" 0 "" [mkExt "urn-a" "urn-a" false] [] model_zero). split; [eexists; split; [left; reflexivity|reflexivity]|].
  split; [cbn; intuition discriminate|reflexivity].
Qed.
