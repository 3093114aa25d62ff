(** * Theorems about whole documents: C76, C77 *)
From Coq Require Import Permutation ZArith.
From Verif Require Import GoBase GoNum GoUtf8 GoFloat GoStrconv Types XmlTypes M_Core M_Errors M_Text M_Xml M_Decode
  S_Core S_Text S_Errors S_Xml S_Lex S_Decode S_Attr S_Meaning S_Read S_Document P_Core P_Panic P_Attr P_Xml P_Xml2 P_Lex P_Printer P_MeaningModel P_Read P_Document P_Alike
  T_Decode T_Attr T_Meaning T_Read.
From Verif Require Import Types.
Local Open Scope list_scope.

(** ** C76: a document is read as the tree it spells *)
(** The scanner delivers the events of the tree, and all of it, whatever white space, quotes, references, prefixes,
    empty-element tags and processing instructions it is spelled with. *)
Theorem C76_tree doc ts : Content [] doc ts -> exists xs d, scan XEOF doc = SDone (flat_map events xs) XEOF d /\ map unplaced xs = ts.
Proof. apply document_scanned. Qed.
Print Assumptions C76_tree.
Lemma map_mid ts : forall pre t post, map unplaced ts = pre ++ t :: post -> exists pre' t' post', ts = pre' ++ t' :: post' /\ map unplaced pre' = pre /\ unplaced t' = t /\ map unplaced post' = post.
Proof.
  induction ts as [|x ts IH]; intros [|y pre] t post H; try discriminate H.
  - injection H as H1 H2. exists [], x, ts. auto.
  - injection H as H1 H2. destruct (IH pre t post H2) as (a & b & c & -> & <- & E2 & E3). exists (x :: a), b, c. rewrite <- H1. auto.
Qed.
Lemma texts_unplaced l : Forall is_text (map unplaced l) -> Forall is_text l.
Proof.
  induction l as [|t l IH]; intros H; [constructor|]. cbn [map] in H. constructor; [|apply IH; exact (Forall_inv_tail H)].
  destruct t; [destruct (Forall_inv H)|exact I].
Qed.
(** The bytes of a document of a conforming model are read as that model.  Elements that are kept as they are have no
    texts inside; see C38 for what becomes of those. *)
Theorem C76_read reg doc M pre a kids post :
  Blank M -> mo_path M = "" \/ mo_path M = DefaultModelPath -> NoDup (map fst (mo_childs M)) ->
  Content [] doc (pre ++ XElem (cn "model") a kids :: post) -> Forall is_text pre -> Forall is_text post ->
  Conforming (knownb reg) true a kids -> Forall (KeptTextless (knownb reg)) kids ->
  exists n d, unmarshal_model reg doc M = DRet (model_of (knownb reg) (fun _ => "") M a kids) DNone n d.
Proof.
  intros B R C H P1 P2 CF KT. destruct (document_scanned doc _ H) as (xs & d & S & U).
  destruct (map_mid xs _ _ _ U) as (pre' & t' & post' & -> & <- & ET & <-). destruct t' as [n b k|s r]; [|discriminate ET]. cbn [unplaced] in ET. injection ET as -> -> <-.
  apply conforming_unplaced in CF. destruct (C74_unmarshal reg doc M pre' a k post' d B R C S (texts_unplaced _ P1) (texts_unplaced _ P2) CF) as (n & E).
  exists n, d. rewrite E. f_equal. apply model_same; [apply same_attrs_refl, CF|]. apply alike_unplaced; [apply CF|exact KT].
Qed.
Print Assumptions C76_read.

(** ** C77: how a model file is spelled does not matter *)
(** Two documents that differ in the order of attributes, in texts between elements, in elements that are ignored, and
    in how they are spelled, are read as the same model. *)
Theorem C77_same reg doc doc' M pre a kids post pre' a' kids' post' :
  Blank M -> mo_path M = "" \/ mo_path M = DefaultModelPath -> NoDup (map fst (mo_childs M)) ->
  Content [] doc (pre ++ XElem (cn "model") a kids :: post) -> Forall is_text pre -> Forall is_text post -> Conforming (knownb reg) true a kids ->
  Content [] doc' (pre' ++ XElem (cn "model") a' kids' :: post') -> Forall is_text pre' -> Forall is_text post' -> Conforming (knownb reg) true a' kids' ->
  Forall (KeptTextless (knownb reg)) kids -> Forall (KeptTextless (knownb reg)) kids' ->
  SameAttrs (cn "model") a a' -> Alike (knownb reg) true (cn "model") kids kids' ->
  exists m n d n' d', unmarshal_model reg doc M = DRet m DNone n d /\ unmarshal_model reg doc' M = DRet m DNone n' d'.
Proof.
  intros B R C H P1 P2 CF H' P1' P2' CF' KT KT' SA AL.
  destruct (C76_read reg doc M pre a kids post B R C H P1 P2 CF KT) as (n & d & E). destruct (C76_read reg doc' M pre' a' kids' post' B R C H' P1' P2' CF' KT') as (n' & d' & E').
  eexists _, n, d, n', d'. split; [exact E|]. rewrite E'. f_equal. symmetry. apply model_same; assumption.
Qed.
Print Assumptions C77_same.

(** ** Spelled documents, for the examples: texts without references *)
Record RawAttr := mkRaw { ra_w1 : string; ra_name : string; ra_w2 : string; ra_w3 : string; ra_quote : ascii; ra_value : string }.
Inductive Sp := SpElem (nm : string) (a : list RawAttr) (w : string) (kids : list Sp) | SpEmpty (nm : string) (a : list RawAttr) (w : string) | SpText (s : string) | SpInst (nm w body : string).
Definition attr_text (r : RawAttr) (s : string) : string :=
  ra_w1 r +++ ra_name r +++ ra_w2 r +++ "=" +++ ra_w3 r +++ String (ra_quote r) (ra_value r +++ String (ra_quote r) s).
Definition attrs_text (l : list RawAttr) (w : string) : string := fold_right attr_text w l.
Definition raw_attrs (l : list RawAttr) : list Attr := map (fun r => mkAttr (ns_name (ra_name r)) (ra_value r)) l.
Fixpoint spell1 (x : Sp) (r : string) : string :=
  match x with
  | SpElem nm a w kids => "<" +++ nm +++ attrs_text a w +++ ">" +++ fold_right spell1 "" kids +++ "</" +++ nm +++ "" +++ ">" +++ r
  | SpEmpty nm a w => "<" +++ nm +++ attrs_text a w +++ "/>" +++ r
  | SpText s => s +++ r
  | SpInst nm w body => "<?" +++ nm +++ w +++ body +++ "?>" +++ r
  end.
Definition spell (l : list Sp) : string := fold_right spell1 "" l.
Fixpoint grow1 (ns : list (string * string)) (x : Sp) : list XTree :=
  let elem nm a (f : list (string * string) -> list XTree) :=
    let ns' := fst (declare (raw_attrs a) ns []) in [XElem (translate ns' (ns_name nm) true) (map (tr_attr ns') (raw_attrs a)) (f ns')] in
  match x with
  | SpElem nm a w kids => elem nm a (fun ns' => flat_map (grow1 ns') kids)
  | SpEmpty nm a w => elem nm a (fun _ => [])
  | SpText s => [XText s nowhere]
  | SpInst _ _ _ => []
  end.
Definition plainb (q : option ascii) (c : ascii) : bool :=
  negb (ceq c "<") && negb (ceq c "&") && negb (ceq c cr) && match q with Some x => negb (ceq c x) | None => true end.
Definition nameb (s : string) : bool := negb (seq s "") && sall in_name s.
Definition blankb (s : string) : bool := sall is_space s.
Definition rattrb (r : RawAttr) : bool :=
  blankb (ra_w1 r) && nameb (ra_name r) && blankb (ra_w2 r) && blankb (ra_w3 r) && (ceq (ra_quote r) """" || ceq (ra_quote r) "'") && sall (plainb (Some (ra_quote r))) (ra_value r) && negb (seq (ra_w1 r) "").
Fixpoint has_close (s : string) : bool := match s with String a r => (ceq a "?" && match r with String b _ => ceq b ">" | EmptyString => false end) || has_close r | EmptyString => false end.
Fixpoint altb (l : list Sp) : bool := match l with SpText _ :: ((SpText _ :: _) as t) => false | _ :: t => altb t | [] => true end.
Fixpoint spb (x : Sp) : bool :=
  match x with
  | SpElem nm a w kids => nameb nm && forallb rattrb a && blankb w && forallb spb kids && altb kids
  | SpEmpty nm a w => nameb nm && forallb rattrb a && blankb w
  | SpText s => negb (seq s "") && sall (plainb None) s
  | SpInst nm w body => nameb nm && blankb w && (negb (seq w "") || seq body "") && negb (has_close body)
  end.
Lemma nameb_means s : nameb s = true -> NameMeans s (ns_name s).
Proof.
  unfold nameb, ns_name. rewrite andb_true_iff, negb_true_iff. intros [N A]. apply seq_false in N. rewrite sall_forall in A. destruct (split_at ":" s) as [[p l]|] eqn:ES.
  - apply split_at_some in ES as [-> NP]. apply NmPrefix.
    + intros c Hc. split; [apply in_name_spec, A; rewrite chars_app; apply in_or_app; auto|]. intros ->. auto.
    + intros c Hc. apply in_name_spec, A. rewrite chars_app. apply in_or_app. right. right. exact Hc.
  - apply NmLocal; [exact N|]. intros c Hc. split; [apply in_name_spec, A, Hc|]. intros ->. apply split_at_none in ES. auto.
Qed.
Lemma blankb_means s : blankb s = true -> S_Lex.Blank s.
Proof.
  unfold blankb. rewrite sall_forall. intros H c Hc. specialize (H c Hc). unfold is_space in H. rewrite !orb_true_iff in H.
  destruct H as [[[K|K]|K]|K]; apply ceq_true in K; subst; cbn; auto.
Qed.
Lemma plainb_means q s : sall (plainb q) s = true -> TextMeans q false s s.
Proof.
  induction s as [|c s IH]; [constructor|]. cbn [sall]. rewrite andb_true_iff. intros [H1 H2]. unfold plainb in H1. rewrite !andb_true_iff, !negb_true_iff in H1. destruct H1 as [[[K1 K2] K3] K4].
  apply ceq_false in K1, K2, K3. apply TmPlain; [|intros <-; rewrite ceq_refl in K4; discriminate|discriminate|auto]. intros [K|[K|[K|[]]]]; congruence.
Qed.
Lemma attrsb_means l w : forallb rattrb l = true -> S_Lex.Blank w -> AttrsMean (attrs_text l w) (raw_attrs l).
Proof.
  intros H W. induction l as [|r l IH]; [apply AmNil, W|]. cbn [forallb] in H. apply andb_true_iff in H as [H1 H2]. unfold rattrb in H1. rewrite !andb_true_iff in H1. destruct H1 as [[[[[[A1 A2] A3] A4] A5] A6] _].
  cbn [attrs_text fold_right raw_attrs map]. unfold attr_text. apply AmCons; [apply blankb_means, A1|apply nameb_means, A2|apply blankb_means, A3|apply blankb_means, A4| |apply plainb_means, A6|apply IH, H2].
  apply orb_true_iff in A5 as [A5|A5]; apply ceq_true in A5; rewrite A5; cbn; auto.
Qed.
Lemma attrs_first l w : forallb rattrb l = true -> S_Lex.Blank w -> forall c q, attrs_text l w = String c q -> ~ NameByte c.
Proof.
  assert (X : forall s c q, S_Lex.Blank s -> s <> "" -> forall r, s +++ r = String c q -> ~ NameByte c).
  { intros [|x s] c q B N r; [congruence|]. cbn [String.append]. intros [= <- _] K. apply in_name_spec in K. rewrite (blank_name x) in K; [discriminate|]. apply B. left. reflexivity. }
  intros H W c q E. destruct l as [|r l].
  - cbn in E. destruct w as [|x w]; [discriminate|]. apply (X (String x w) c q W ltac:(discriminate) ""). rewrite sapp_nil_r. exact E.
  - cbn [forallb] in H. apply andb_true_iff in H as [H1 _]. unfold rattrb in H1. rewrite !andb_true_iff in H1. destruct H1 as [[[[[[A1 _] _] _] _] _] A7]. apply negb_true_iff, seq_false in A7.
    cbn [attrs_text fold_right] in E. unfold attr_text in E. exact (X _ _ _ (blankb_means _ A1) A7 _ E).
Qed.
Lemma declare_stk a : forall ns s s', fst (declare a ns s) = fst (declare a ns s').
Proof.
  induction a as [|x a IH]; intros ns s s'; [reflexivity|]. rewrite !declare_step. destruct (decl_of x); [|apply IH]. apply IH.
Qed.
Lemma Sp_ind2 (P : Sp -> Prop) : (forall nm a w kids, Forall P kids -> P (SpElem nm a w kids)) -> (forall nm a w, P (SpEmpty nm a w)) -> (forall s, P (SpText s)) ->
  (forall nm w body, P (SpInst nm w body)) -> forall x, P x.
Proof.
  intros A B C D. fix IH 1. intros [nm a w kids|nm a w|s|nm w body]; [|apply B|apply C|apply D]. apply A. induction kids as [|t l IHl]; constructor; [apply IH|exact IHl].
Qed.
Lemma has_close_spec s : has_close s = false -> forall x y, s <> x +++ "?>" +++ y.
Proof.
  induction s as [|c s IH]; intros H x y E; [destruct x; discriminate|]. cbn [has_close] in H. apply orb_false_iff in H as [H1 H2]. destruct x as [|z x].
  - cbn in E. injection E as -> ->. cbn in H1. discriminate.
  - cbn in E. injection E as _ E. exact (IH H2 _ _ E).
Qed.
Lemma sall_frames stk ns sc names a n : Frames stk ns sc names -> Forall AttrOk a -> Frames (SStart n :: snd (declare a ns stk)) (fst (declare a ns stk)) (a :: sc) (n :: names).
Proof. intros F A. econstructor; [exact F|exact A|apply eqmap_refl]. Qed.
Lemma resolved_tr stk ns sc names a : Frames stk ns sc names -> Resolved sc a (map (tr_attr ns) a).
Proof. intros F. induction a as [|x a IH]; constructor; [|exact IH]. split; [reflexivity|]. cbn [tr_attr aname]. eapply translate_means, F. Qed.
Lemma spelled_content1 : forall x stk ns sc names r ts, Frames stk ns sc names -> spb x = true -> (forall s, x = SpText s -> follows r) -> Content sc r ts ->
  Content sc (spell1 x r) (grow1 ns x ++ ts).
Proof.
  assert (LS : forall kids, Forall (fun x => forall stk ns sc names r ts, Frames stk ns sc names -> spb x = true -> (forall s, x = SpText s -> follows r) -> Content sc r ts -> Content sc (spell1 x r) (grow1 ns x ++ ts)) kids ->
    forall stk ns sc names, Frames stk ns sc names -> forallb spb kids = true -> altb kids = true -> Content sc (fold_right spell1 "" kids) (flat_map (grow1 ns) kids)).
  { intros kids H stk ns sc names F. induction H as [|x l H _ IH]; intros S A; [apply CoNil|]. cbn [forallb] in S. apply andb_true_iff in S as [S1 S2]. cbn [fold_right flat_map].
    assert (AL : altb l = true) by (destruct x, l as [|[] l]; try discriminate A; try exact A; reflexivity).
    apply (H stk ns sc names); [exact F|exact S1| |apply IH; assumption]. intros s ->. destruct l as [|[nm a w k|nm a w|s'|nm w body] l]; [left; reflexivity|right; eexists; reflexivity..|discriminate A|right; eexists; reflexivity]. }
  induction x as [nm a w kids IH|nm a w|s|nm w body] using Sp_ind2; intros stk ns sc names r ts F S T C; cbn [spell1 grow1]; cbv zeta; cbn [spb] in S.
  - rewrite !andb_true_iff in S. destruct S as ((((S1 & S2) & S3) & S4) & S5). apply blankb_means in S3. pose proof (attrsb_means a w S2 S3) as AM.
    rewrite (declare_stk _ ns [] stk). pose proof (sall_frames _ _ _ _ _ (translate (fst (declare (raw_attrs a) ns stk)) (ns_name nm) true) F (attrs_ok _ _ AM)) as F'.
    cbn [app]. eapply CoElem; [apply nameb_means, S1|exact AM|apply attrs_first; assumption|eapply translate_means, F'|eapply resolved_tr, F'| |intros ? []|exact C].
    eapply LS; [exact IH|exact F'|exact S4|exact S5].
  - rewrite !andb_true_iff in S. destruct S as ((S1 & S2) & S3). apply blankb_means in S3. pose proof (attrsb_means a w S2 S3) as AM.
    rewrite (declare_stk _ ns [] stk). pose proof (sall_frames _ _ _ _ _ (translate (fst (declare (raw_attrs a) ns stk)) (ns_name nm) true) F (attrs_ok _ _ AM)) as F'.
    cbn [app]. eapply CoEmpty; [apply nameb_means, S1|exact AM|apply attrs_first; assumption|eapply translate_means, F'|eapply resolved_tr, F'|exact C].
  - rewrite andb_true_iff, negb_true_iff in S. destruct S as [S1 S2]. apply seq_false in S1. cbn [app]. apply CoText; [exact S1|apply plainb_means, S2|exact (T s eq_refl)|exact C].
  - rewrite !andb_true_iff, orb_true_iff, !negb_true_iff in S. destruct S as (((S1 & S2) & S3) & S4). cbn [app]. eapply CoInst; [apply nameb_means, S1|apply blankb_means, S2| |apply has_close_spec, S4|exact C].
    intros ->. destruct S3 as [S3|S3]; [discriminate|]. apply seq_true, S3.
Qed.
Lemma spelled_content l : forallb spb l = true -> altb l = true -> Content [] (spell l) (flat_map (grow1 []) l).
Proof.
  intros S A. assert (F : Frames [] [] [] []) by (constructor; apply eqmap_refl).
  assert (X : forall l, forallb spb l = true -> altb l = true -> Content [] (fold_right spell1 "" l) (flat_map (grow1 []) l)); [|apply X; assumption]. clear l S A.
  induction l as [|x l IH]; intros S A; [apply CoNil|]. cbn [forallb] in S. apply andb_true_iff in S as [S1 S2]. cbn [fold_right flat_map].
  assert (AL : altb l = true) by (destruct x, l as [|[] l]; try discriminate A; try exact A; reflexivity).
  apply (spelled_content1 x [] [] [] []); [exact F|exact S1| |apply IH; assumption]. intros s ->. destruct l as [|[nm a w k|nm a w|s'|nm w body] l]; [left; reflexivity|right; eexists; reflexivity..|discriminate A|right; eexists; reflexivity].
Qed.
Definition at1 (n v : string) : RawAttr := mkRaw " " n "" "" """" v.
Definition at2 (n v : string) : RawAttr := mkRaw (String lf " ") n " " "  " "'" v.
Definition sp_doc (c : string) (va tr ob ite : list RawAttr) (extra between : list Sp) (empty : bool) : list Sp :=
  SpInst "xml" " " "version=""1.0""" :: between ++
  [SpElem (c +++ "model") [at2 "xmlns" ns_core; at1 "xmlns:c" ns_core; at1 "unit" "inch"] "" (between ++
    [SpElem (c +++ "metadata") [at1 "name" "Title"] "" [SpText "A > B"]] ++
    [SpElem "resources" [] " " [SpElem "object" ob "" (extra ++ [SpElem (c +++ "mesh") [] "" [
       SpElem "vertices" [] "" ([SpEmpty (c +++ "vertex") va ""] ++ between);
       SpElem (c +++ "triangles") [] "" [if empty then SpEmpty "triangle" tr "" else SpElem "triangle" tr " " []]]])];
     SpElem "build" [] "" (between ++ [SpEmpty "item" ite ""])])].
Definition doc_a : list Sp := sp_doc "" [at1 "x" "1"; at1 "y" "2"; at1 "z" "3"] [at1 "v1" "0"; at1 "v2" "1"; at1 "v3" "2"] [at1 "id" "1"; at1 "type" "support"] [at1 "objectid" "1"; at1 "partnumber" "p"] [] [] true.
Definition doc_b : list Sp := sp_doc "c:" [at2 "y" "2"; at1 "x" "1"; at2 "z" "3"] [at1 "v3" "2"; at1 "v1" "0"; at2 "v2" "1"] [at2 "type" "support"; at1 "id" "1"] [at2 "partnumber" "p"; at1 "objectid" "1"]
  [SpElem "c:novelty" [] "" [SpText "whatever"; SpEmpty "x" [at1 "x" "y"] ""]] [SpText (String lf "  ")] false.
Definition root_of (ts : list XTree) : list XTree * list Attr * list XTree :=
  match ts with
  | XElem _ a k :: _ => ([], a, k)
  | t :: XElem _ a k :: _ => ([t], a, k)
  | _ => ([], [], [])
  end.
Ltac perm := first [apply Permutation_refl|apply perm_skip; perm|apply (Permutation_cons_app [_] _); perm|apply (Permutation_cons_app [_; _] _); perm].
Ltac attrs := split; [cbn [map aname]; repeat (apply NoDup_cons; [vm_compute; intuition discriminate|]); apply NoDup_nil|split; [perm|split; [reflexivity|first [intros _; reflexivity|vm_compute; intuition discriminate]]]].
Ltac alike := lazymatch goal with
  | |- Alike _ _ _ [] [] => apply AlNil
  | |- Alike _ _ (mkName _ "metadata") (XText _ _ :: _) (XText _ _ :: _) => apply AlText; alike
  | |- Alike _ _ _ (XText _ _ :: _) _ => apply AlLessText; [vm_compute; discriminate|alike]
  | |- Alike _ _ _ _ (XText _ _ :: _) => apply AlMoreText; [vm_compute; discriminate|alike]
  | |- Alike _ _ _ (XElem ?n _ _ :: _) (XElem ?n _ _ :: _) => apply AlElem; [left; reflexivity|attrs|alike|alike]
  | |- Alike _ _ _ _ (XElem _ _ _ :: _) => apply AlMore; [reflexivity|reflexivity|alike]
  end.
Example C77_nonvacuous : exists pre a kids pre' a' kids', Forall is_text pre /\ Forall is_text pre' /\
  Content [] (spell doc_a) (pre ++ XElem (cn "model") a kids :: []) /\ Content [] (spell doc_b) (pre' ++ XElem (cn "model") a' kids' :: []) /\
  Conforming (knownb all_specs) true a kids /\ Conforming (knownb all_specs) true a' kids' /\
  Forall (KeptTextless (knownb all_specs)) kids /\ Forall (KeptTextless (knownb all_specs)) kids' /\
  SameAttrs (cn "model") a a' /\ Alike (knownb all_specs) true (cn "model") kids kids' /\ spell doc_a <> spell doc_b /\ map is_text kids <> map is_text kids' /\
  map ob_id (rs_objects (mo_res (model_of (knownb all_specs) (fun _ => "") model_zero a' kids'))) = [1]%N.
Proof.
  let r := eval vm_compute in (root_of (flat_map (grow1 []) doc_a)) in match r with (?p, ?a, ?k) => exists p, a, k end.
  let r := eval vm_compute in (root_of (flat_map (grow1 []) doc_b)) in match r with (?p, ?a, ?k) => exists p, a, k end.
  split; [repeat constructor|]. split; [repeat constructor|].
  split; [exact (spelled_content doc_a ltac:(vm_compute; reflexivity) ltac:(vm_compute; reflexivity))|]. split; [exact (spelled_content doc_b ltac:(vm_compute; reflexivity) ltac:(vm_compute; reflexivity))|].
  split; [apply conformingb_sound; vm_compute; reflexivity|]. split; [apply conformingb_sound; vm_compute; reflexivity|].
  split; [repeat (constructor; try (cbn; intuition congruence))|]. split; [repeat (constructor; try (cbn; intuition congruence))|].
  split; [attrs|]. split; [|split; [vm_compute; discriminate|split; [discriminate|vm_compute; reflexivity]]]. alike.
Qed.
Example C76_nonvacuous : exists pre a kids, Content [] (spell doc_b) (pre ++ XElem (cn "model") a kids :: []) /\ Forall is_text pre /\ pre <> [] /\
  Conforming (knownb all_specs) true a kids /\ Forall (KeptTextless (knownb all_specs)) kids.
Proof. destruct C77_nonvacuous as (_ & _ & _ & p & a & k & _ & H2 & _ & H4 & _ & H6 & _ & H8 & _). exists p, a, k. split; [exact H4|]. split; [exact H2|]. split; [|split; assumption].
  intros ->. destruct (document_scanned _ _ H4) as (xs & d & S & U). assert (X : exists t evs, scan XEOF (spell doc_b) = SDone (EvChar t (0, 3) :: evs) XEOF d) by (rewrite S; revert S; vm_compute; intros [= <-]; eauto).
  destruct X as (t & evs & X). rewrite S in X. injection X as X. destruct xs as [|[n b l|s r] xs]; try discriminate X. discriminate U.
Qed.
(** References in texts and values *)
Example C76_references_nonvacuous : Content [] "<a b='&#x41;'>x&lt;</a>" [XElem (mkName "" "a") [mkAttr (mkName "" "b") "A"] [XText "x<" nowhere]].
Proof.
  apply (CoElem [] "a" (mkName "" "a") " b='&#x41;'" [mkAttr (mkName "" "b") "A"] (mkName "" "a") [mkAttr (mkName "" "b") "A"] "x&lt;" [XText "x<" nowhere] "" "" []).
  - exact (nameb_means "a" eq_refl).
  - apply (AmCons " " "b" (mkName "" "b") "" "" "'" "&#x41;" "A" "" []); [intros c [<-|[]]; cbn; auto|exact (nameb_means "b" eq_refl)|intros ? []|intros ? []|cbn; auto| |apply AmNil; intros ? []].
    apply (TmHex _ false "41" 65 "A" "" ""); [|unfold XmlChar; lia|apply (U1 65); lia|apply TmNil]. apply (NuMore 16 "4" 4 "1" 1); [apply NuOne; [lia|left; reflexivity]|lia|left; reflexivity].
  - intros c q [= <- _] K. apply in_name_spec in K. vm_compute in K. discriminate.
  - apply MeFree; [discriminate|discriminate|auto|]. intros u B. inversion B as [l r p u' D|l r p u' N B' ]; subst; [|inversion B'].
    change [mkAttr (mkName "" "b") "A"] with ([] ++ [mkAttr (mkName "" "b") "A"]) in D. apply declares_inv in D. cbn in D. destruct D as [[D _]|[_ D]]; [discriminate D|inversion D as [[|? []]|[|? []]]].
  - constructor; [|constructor]. split; [reflexivity|]. apply MeAttr. reflexivity.
  - apply (CoText _ "x&lt;" "x<" "" []); [discriminate| |left; reflexivity|apply CoNil]. apply TmPlain; [cbn; intuition discriminate|discriminate|discriminate|].
    apply (TmNamed None false "lt" "<" "" ""); [left; reflexivity|apply TmNil].
  - intros ? [].
  - apply CoNil.
Qed.
