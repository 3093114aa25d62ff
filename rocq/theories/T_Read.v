(** * Theorems about reading conforming files and packages of them: C74, C75 *)
From Coq Require Import ZArith.
From Verif Require Import GoBase GoNum GoUtf8 GoFloat GoStrconv Types XmlTypes PkgTypes M_Core M_Errors M_Text M_Xml M_Decode M_Package M_Childs M_Decoder
  S_Core S_Text S_Errors S_Xml S_Decode S_Attr S_Meaning S_Read S_Package S_Childs P_Core P_Attr P_Package P_Childs P_MeaningModel P_Read
  T_Decode T_Childs T_Package T_Attr T_Meaning.
From Verif Require P_RTPkg.
From Verif Require Import Types.
Local Open Scope list_scope.

(** ** C74: a conforming file is read *)
(** The root file, strictly or not: there is no error, all of the input is read, and the model is the one its elements
    say. *)
Theorem C74_root reg strict path every fin later input M pre a kids post d :
  Blank M -> root_file M path -> NoDup (map fst (mo_childs M)) ->
  scan fin input = SDone (flat_map events (pre ++ XElem (cn "model") a kids :: post)) XEOF d -> Forall is_text pre -> Forall is_text post ->
  Conforming (knownb reg) true a kids ->
  exists n, decode_with reg true strict path every (fun _ => false) fin later input M = DRet (model_of (knownb reg) later M a kids) DNone n d.
Proof. apply root_read. Qed.
Print Assumptions C74_root.
(** The same as the user of UnmarshalModel sees it *)
Theorem C74_unmarshal reg input M pre a kids post d :
  Blank M -> mo_path M = "" \/ mo_path M = DefaultModelPath -> NoDup (map fst (mo_childs M)) ->
  scan XEOF input = SDone (flat_map events (pre ++ XElem (cn "model") a kids :: post)) XEOF d -> Forall is_text pre -> Forall is_text post ->
  Conforming (knownb reg) true a kids ->
  exists n, unmarshal_model reg input M = DRet (model_of (knownb reg) (buf_deref (d_buf d)) M a kids) DNone n d.
Proof.
  intros B R C S P1 P2 CF. assert (RF : root_file M DefaultModelPath) by (destruct R as [R|R]; [right|left]; auto). unfold unmarshal_model, decode_file.
  destruct (root_read reg false DefaultModelPath 1000 XEOF (fun _ => "") input M pre a kids post d B RF C S P1 P2 CF) as (n & ->).
  exact (root_read reg false DefaultModelPath 1000 XEOF (buf_deref (d_buf d)) input M pre a kids post d B RF C S P1 P2 CF).
Qed.
Print Assumptions C74_unmarshal.
(** The file of a child model, into a model whose other parts may have been read before *)
Theorem C74_child reg strict path every fin later input M pre a kids post d c :
  Forall (group_at (knownb reg) "model") (mo_anyattr M) -> Forall (group_at (knownb reg) "build") (bu_any (mo_build M)) ->
  NoDup (map fst (mo_childs M)) -> ~ root_file M path -> path <> "" -> In (path, c) (mo_childs M) -> ch_res c = res_zero ->
  scan fin input = SDone (flat_map events (pre ++ XElem (cn "model") a kids :: post)) XEOF d -> Forall is_text pre -> Forall is_text post ->
  Conforming (knownb reg) false a kids ->
  exists n, decode_with reg false strict path every (fun _ => false) fin later input M = DRet (child_of (knownb reg) later M path kids) DNone n d.
Proof. apply child_read. Qed.
Print Assumptions C74_child.
(** A document with elements of all the specifications conforms. *)
Example C74_nonvacuous : exists a kids d,
  Blank model_zero /\ scan XEOF doc_all = SDone (flat_map events ([] ++ XElem (cn "model") a kids :: [])) XEOF d /\
  Conforming (knownb all_specs) true a kids /\ Conforming (knownb all_specs) false a kids /\ List.length (rs_assets (mo_res (model_of (knownb all_specs) (buf_deref (d_buf d)) model_zero a kids))) = 4.
Proof.
  let r := eval vm_compute in (tree_of doc_all) in match r with Some (?a, ?k, ?d) => exists a, k, d end.
  split; [repeat split|]. split; [vm_compute; reflexivity|]. split; [apply conformingb_sound; vm_compute; reflexivity|]. split; [apply conformingb_sound; vm_compute; reflexivity|vm_compute; reflexivity].
Qed.
Example C74_child_nonvacuous : NoDup (map fst (mo_childs with_child)) /\ ~ root_file with_child "/3D/part.model" /\
  In ("/3D/part.model", child_zero) (mo_childs with_child) /\ ch_res child_zero = res_zero.
Proof. split; [repeat constructor; intros []|]. split; [intros [H|[_ H]]; discriminate H|]. split; [left; reflexivity|reflexivity]. Qed.

(** ** C75: a package of conforming files is read *)
(** The file [f] is the document of the model element with the attributes [a] and the children [kids], and conforms;
    [d] is the scanner at its end. *)
Definition Holds (reg : Reg) (isroot : bool) (f : PFile) (a : list Attr) (kids : list XTree) (d : Dec) : Prop :=
  exists data pre post, pf_data f = Some data /\
    scan XEOF data = SDone (flat_map events (pre ++ XElem (cn "model") a kids :: post)) XEOF d /\
    Forall is_text pre /\ Forall is_text post /\ Conforming (knownb reg) isroot a kids.

Section Package.
Context (reg : Reg) (strict : bool) (every : nat) (resolve : string -> string -> string) (later : string -> Ref -> string).
Context (p : PkgIn) (root : PFile) (cs : list PFile) (l1 l2 : list Relationship) (r : Relationship) (ra : list Attr) (rk : list XTree) (rd : Dec).
Context (Names : NoDup (map pf_name (pi_files p))).
Context (Rels : pi_rels p = l1 ++ r :: l2) (One : rel_type r = type_3dmodel) (Others : forall x, In x (l1 ++ l2) -> rel_type x <> type_3dmodel).
Context (Root : Target resolve p "/" r root) (Childs : Models resolve p (pf_name root) (pf_rels root) cs) (Distinct : NoDup (map pf_name cs)).
Context (Named : forall c, In c cs -> pf_name c <> "" /\ pf_name c <> pf_name root) (Rooted : pf_name root <> "").
Context (RootFile : Holds reg true root ra rk rd).
Context (ChildFile : forall c, In c cs -> exists a kids d, Holds reg false c a kids d /\ flat_map (S_Meaning.any_of (knownb reg) (later (pf_name c))) kids = []).

Lemma holds_unique isroot isroot' f a kids d a' kids' d' : Holds reg isroot f a kids d -> Holds reg isroot' f a' kids' d' -> a = a' /\ kids = kids' /\ d = d'.
Proof.
  intros (x & pre & post & E & S & P1 & P2 & _) (x' & pre' & post' & E' & S' & P1' & P2' & _). rewrite E in E'. injection E' as <-. rewrite S in S'. injection S' as EV <-.
  assert (U : pre ++ XElem (cn "model") a kids :: post = pre' ++ XElem (cn "model") a' kids' :: post').
  { destruct (events_inj (pre ++ XElem (cn "model") a kids :: post) [] (pre' ++ XElem (cn "model") a' kids' :: post') []) as (<- & _); [left; reflexivity|left; reflexivity|rewrite !app_nil_r; exact EV|reflexivity]. }
  clear - U P1 P1'. revert pre' P1' U. induction P1 as [|t l Ht Hl IH]; intros pre' P1' U.
  - destruct P1' as [|t' l' Ht' _]; cbn in U; [injection U as -> -> _; auto|]. injection U as <- _. destruct Ht'.
  - destruct P1' as [|t' l' Ht' Hl']; cbn in U; [injection U as -> _; destruct Ht|]. injection U as _ U. eauto.
Qed.
Definition res_read (c : PFile) (kids : list XTree) : Resources :=
  the_elem (cn "resources") kids (resources_of (knownb reg) (later (pf_name c)) []) res_zero.

Lemma opened : exists m1, process_opc resolve p model_zero = Some (m1, cs, root) /\ P_RTPkg.Keeps model_zero m1 /\ mo_path m1 = pf_name root.
Proof.
  assert (TO : forall x, In x (pi_rels p) -> rel_type x = type_3dmodel -> exists f, Target resolve p "/" x f).
  { intros x Hx Tx. rewrite Rels in Hx. apply in_app_or in Hx as [Hx|[<-|Hx]]; [destruct (Others x); [apply in_or_app; auto|exact Tx]|eauto|destruct (Others x); [apply in_or_app; auto|exact Tx]]. }
  destruct (P_RTPkg.opc_total resolve p model_zero r TO) as (m1 & cs' & f & E); [rewrite Rels; apply in_or_app; right; left; reflexivity|exact One|].
  destruct (C47_relationships resolve p model_zero m1 cs' f l1 r l2 Names Rels One Others E) as (H1 & H2 & H3 & _).
  assert (f = root) as -> by (destruct H1 as [A1 A2], Root as [B1 B2]; apply (names_unique p Names); congruence).
  assert (cs' = cs) as -> by (rewrite (models_unique resolve p Names _ _ _ H3), (models_unique resolve p Names _ _ _ Childs); reflexivity).
  exists m1. split; [exact E|]. split; [eapply P_RTPkg.opc_keeps; exact E|exact H2].
Qed.
(** What is read: the root model says what its elements say; each child has the resources its elements say and its
    relationships; the relationships and attachments are those of C47. *)
Record ReadPackage (m : Model) : Prop := {
  rd_root : exists m1, Blank m1 /\ m = model_of (knownb reg) (buf_deref (d_buf rd)) m1 ra rk;
  rd_path : mo_path m = pf_name root;
  rd_rootrels : forall k, Kept resolve p "/" (pi_rels p) k -> mo_rootrels m = map fst k;
  rd_rels : forall k, Kept resolve p (pf_name root) (pf_rels root) k -> mo_rels m = map fst k;
  rd_keys : NoDup (map fst (mo_childs m));
  rd_childs : forall x, In x (map fst (mo_childs m)) <-> In x (map pf_name cs);
  rd_atts : forall x, In x (mo_atts m) -> exists f d, Reached resolve p root cs f /\ pf_data f = Some d /\ x = mkAtt d (pf_name f) (pf_ctype f);
  rd_reached : (forall f g, In f (pi_files p) -> In g (pi_files p) -> SameFold (pf_name f) (pf_name g) -> f = g) ->
    forall f d, Reached resolve p root cs f -> pf_data f = Some d -> In (mkAtt d (pf_name f) (pf_ctype f)) (mo_atts m);
  rd_child : forall c a kids d k, In c cs -> Holds reg false c a kids d -> Kept resolve p (pf_name c) (pf_rels c) k ->
    In (pf_name c, mkChild (res_read c kids) (map fst k) []) (mo_childs m)
}.
Lemma all_read : (forall res, decodes reg strict every resolve later p model_zero res -> exists m, res = PModel m /\ ReadPackage m) /\
  (exists m, decodes reg strict every resolve later p model_zero (PModel m)) /\
  (exists m1 bound, process_opc resolve p model_zero = Some (m1, cs, root) /\ forall n x, csteps reg strict every false n (c_init (map (job_of later) cs) m1) x ->
     n <= bound /\ (c_done x \/ exists y, cstep reg strict every false x y)).
Proof.
  destruct opened as (m1 & EO & KP & MP).
  destruct (C47_relationships resolve p model_zero m1 cs root l1 r l2 Names Rels One Others EO) as (_ & _ & _ & RR & RL & CH & CO).
  destruct (C47_attachments_partial resolve p model_zero m1 cs root l1 r l2 Names Rels One Others EO) as (new & AT & AT1 & _ & _ & AT2). cbn [app model_zero mo_atts] in AT.
  specialize (CH Distinct).
  assert (ND1 : NoDup (map fst (mo_childs m1))) by (destruct KP as (_ & _ & _ & _ & _ & _ & _ & _ & _ & KN); apply KN; constructor).
  assert (KK : forall c, In c cs -> exists k, Kept resolve p (pf_name c) (pf_rels c) k /\ In (pf_name c, mkChild res_zero (map fst k) []) (mo_childs m1)).
  { intros c Hc. exists (kept resolve p (pf_name c) (pf_rels c)). assert (K : Kept resolve p (pf_name c) (pf_rels c) (kept resolve p (pf_name c) (pf_rels c))) by apply kept_spec.
    split; [exact K|]. apply P_RTPkg.aget_in. apply CH; assumption. }
  assert (KEYS : forall x, In x (map fst (mo_childs m1)) <-> In x (map pf_name cs)).
  { intros x. split.
    - intros Hx. destruct (in_dec string_dec x (map pf_name cs)) as [I|I]; [exact I|]. apply (P_RTPkg.aget_keys later) in Hx. exfalso. rewrite CO in Hx; [apply Hx; reflexivity|].
      intros c Hc <-. apply I, in_map, Hc.
    - intros Hx. apply in_map_iff in Hx as (c & <- & Hc). destruct (KK c Hc) as (k & _ & Hk). apply (in_map fst) in Hk. exact Hk. }
  pose proof KP as (K1 & K2 & K3 & K4 & K5 & K6 & K7 & K8 & K9 & _).
  cbn [model_zero mo_lang mo_units mo_thumb mo_res mo_build mo_exts mo_md mo_any mo_anyattr] in K1, K2, K3, K4, K5, K6, K7, K8, K9.
  assert (NR : forall c, In c cs -> ~ root_file m1 (pf_name c)).
  { intros c Hc [H|[H _]]; [destruct (Named c Hc) as [_ N]; congruence|congruence]. }
  assert (AL : forall c a kids d, In c cs -> Holds reg false c a kids d -> Alone reg strict every m1 (job_of later c) DNone (res_read c kids)).
  { intros c a kids d Hc HH. destruct (ChildFile c Hc) as (a0 & kids0 & d0 & H0 & AN). destruct (holds_unique _ _ _ _ _ _ _ _ _ HH H0) as (<- & <- & <-). destruct (KK c Hc) as (k & _ & HK). destruct (Named c Hc) as [NE _].
    destruct HH as (data & pre & post & ED & S & P1 & P2 & CF).
    assert (G1 : Forall (group_at (knownb reg) "model") (mo_anyattr m1)) by (rewrite K9; constructor).
    assert (G2 : Forall (group_at (knownb reg) "build") (bu_any (mo_build m1))) by (rewrite K5; constructor).
    destruct (child_read reg strict (pf_name c) every XEOF (later (pf_name c)) data m1 pre a kids post d _ G1 G2 ND1 (NR c Hc) NE HK eq_refl S P1 P2 CF) as (n & X).
    exists data, XEOF, (child_of (knownb reg) (later (pf_name c)) m1 (pf_name c) kids), n, d.
    split; [unfold job_of; cbn [jb_open]; rewrite ED; reflexivity|]. cbn [job_of jb_path jb_later]. split; [exact X|].
    split; [cbn [child_of mo_any]; rewrite AN, app_nil_r; reflexivity|].
    assert (NR' : ~ root_file (child_of (knownb reg) (later (pf_name c)) m1 (pf_name c) kids) (pf_name c)) by exact (NR c Hc).
    erewrite child_found; [| |exact NR'|exact NE|].
    - instantiate (1 := mkChild (res_read c kids) (map fst k) []). reflexivity.
    - unfold ChildsOk. cbn [child_of mo_childs]. rewrite map_map.
      replace (map (fun x => fst (if seq (fst x) (pf_name c) then (fst x, mkChild _ _ _) else x)) (mo_childs m1)) with (map fst (mo_childs m1)); [exact ND1|].
      apply map_ext. intros [x y]. cbn. destruct (seq x (pf_name c)); reflexivity.
    - cbn [child_of mo_childs]. apply in_map_iff. exists (pf_name c, mkChild res_zero (map fst k) []). split; [|exact HK]. cbn [fst snd ch_rels ch_any]. rewrite seq_refl.
      unfold res_read. rewrite K6. reflexivity. }
  assert (AE : forall j, In j (map (job_of later) cs) -> exists x, Alone reg strict every m1 j DNone x).
  { intros j Hj. apply in_map_iff in Hj as (c & <- & Hc). destruct (ChildFile c Hc) as (a & kids & d & H & _). eauto. }
  assert (SE : Separate reg strict every m1 (map (job_of later) cs)).
  { constructor; [exact ND1|rewrite map_map; exact Distinct| |].
    - intros j Hj. apply in_map_iff in Hj as (c & <- & Hc). cbn [job_of jb_path]. destruct (Named c Hc) as [N1 N2].
      split; [apply KEYS, in_map, Hc|]. split; [exact N1|]. split; [congruence|]. intros E. congruence.
    - intros j Hj. right. destruct (AE j Hj). eauto. }
  assert (RT : forall m2 errs, childs_return reg strict every false (map (job_of later) cs) m1 m2 errs ->
    errs = None /\ exists m', root_model reg strict every root m2 = Some (PModel m') /\ ReadPackage m').
  { intros m2 errs R. pose proof (C48_no_error_partial _ _ _ _ _ _ _ SE AE R) as ->. split; [reflexivity|]. apply C48_merged_partial in R as [_ R]; [|exact SE].
    destruct R as [G1 G2 G3 G4 G5 G6 G7 G8 G9 G10 G11 G12 G13 GC].
    assert (KEY : map fst (mo_childs m2) = map fst (mo_childs m1)) by (clear -GC; induction GC as [|x y l l' (H & _) _ IH]; [reflexivity|]; cbn [map]; congruence).
    assert (B : Blank m2) by (unfold Blank; repeat split; congruence).
    destruct RootFile as (data & pre & post & ED & S & P1 & P2 & CF).
    assert (RF : root_file m2 (pf_name root)) by (left; congruence).
    assert (C2 : ChildsOk m2) by (unfold ChildsOk; rewrite KEY; exact ND1).
    destruct (root_read reg strict (pf_name root) every XEOF (fun _ => "") data m2 pre ra rk post rd B RF C2 S P1 P2 CF) as (n & X).
    destruct (root_read reg strict (pf_name root) every XEOF (buf_deref (d_buf rd)) data m2 pre ra rk post rd B RF C2 S P1 P2 CF) as (n' & X').
    exists (model_of (knownb reg) (buf_deref (d_buf rd)) m2 ra rk). split; [unfold root_model, decode_file; rewrite ED, X, X'; reflexivity|].
    constructor.
    - eauto.
    - cbn [model_of mo_path]. congruence.
    - intros k K. cbn [model_of mo_rootrels]. rewrite G10. rewrite (RR k K). reflexivity.
    - intros k K. cbn [model_of mo_rels]. rewrite G11. rewrite (RL k K). reflexivity.
    - cbn [model_of mo_childs]. exact C2.
    - intros x. cbn [model_of mo_childs]. rewrite KEY. apply KEYS.
    - cbn [model_of mo_atts]. rewrite G7, AT. exact AT1.
    - cbn [model_of mo_atts]. rewrite G7, AT. intros FD. exact (AT2 FD eq_refl).
    - intros c a kids d k Hc HH K. cbn [model_of mo_childs]. pose proof (CH c k Hc K) as HA. apply P_RTPkg.aget_in in HA.
      destruct (P_RTPkg.forall2_in_l _ _ _ _ GC HA) as ([k' c'] & Hk' & E1 & E2 & E3 & E4 & _). cbn [fst snd ch_rels ch_any] in *. subst k'.
      assert (IP : In (pf_name c) (map jb_path (map (job_of later) cs))) by (rewrite map_map; apply (in_map pf_name), Hc).
      destruct (E4 IP) as (j & Hj & PJ & AJ). apply in_map_iff in Hj as (f & <- & Hf). cbn [job_of jb_path] in PJ.
      assert (f = c) as ->.
      { clear - Hf Hc PJ Distinct. induction cs as [|x l IH]; [destruct Hf|]. cbn [map] in Distinct. inversion Distinct as [|? ? N1 N2]; subst.
        destruct Hf as [<-|Hf], Hc as [<-|Hc]; [reflexivity| | |auto]; destruct N1; [rewrite PJ|rewrite <- PJ]; apply in_map; assumption. }
      destruct (alone_unique _ _ _ _ _ _ _ _ _ AJ (AL c a kids d Hc HH)) as [_ ER]. destruct c' as [r1 r2 r3]. cbn [ch_res ch_rels ch_any] in *. subst. exact Hk'. }
  split; [|split].
  - intros res H. destruct H as [H|m1' cs' root' m2 e H R|m1' cs' root' m2 res H R HR].
    + congruence.
    + rewrite EO in H. injection H as <- <- <-. destruct (RT _ _ R) as [X _]. discriminate.
    + rewrite EO in H. injection H as <- <- <-. destruct (RT _ _ R) as [_ (m' & X & Y)]. rewrite X in HR. injection HR as <-. eauto.
  - destruct (P_RTPkg.returns reg strict every _ _ SE) as (m2 & errs & R). destruct (RT _ _ R) as [-> (m' & X & _)]. exists m'. eapply DecRoot; eassumption.
  - exists m1. destruct (C48_returns_partial reg strict every false m1 _ SE) as (bound & B). exists bound. auto.
Qed.
End Package.

(** In every execution of the goroutines that read the children, strictly or not, the package is read without error, and
    the model is what its files say.  Missing: packages whose children have elements of other namespaces in their model
    element (C48 says what happens then), and packages with several root models. *)
Theorem C75_read_partial : forall reg strict every resolve later p root cs l1 r l2 ra rk rd,
  NoDup (map pf_name (pi_files p)) ->
  pi_rels p = l1 ++ r :: l2 -> rel_type r = type_3dmodel -> (forall x, In x (l1 ++ l2) -> rel_type x <> type_3dmodel) ->
  Target resolve p "/" r root -> Models resolve p (pf_name root) (pf_rels root) cs -> NoDup (map pf_name cs) ->
  (forall c, In c cs -> pf_name c <> "" /\ pf_name c <> pf_name root) -> pf_name root <> "" ->
  Holds reg true root ra rk rd ->
  (forall c, In c cs -> exists a kids d, Holds reg false c a kids d /\ flat_map (S_Meaning.any_of (knownb reg) (later (pf_name c))) kids = []) ->
  (forall res, decodes reg strict every resolve later p model_zero res -> exists m, res = PModel m /\ ReadPackage reg resolve later p root cs ra rk rd m) /\
  exists m, decodes reg strict every resolve later p model_zero (PModel m).
Proof. intros. edestruct all_read as (A & B & _); try eassumption. split; [exact A|exact B]. Qed.
Print Assumptions C75_read_partial.
(** No execution goes on for ever or gets stuck, in particular no goroutine panics. *)
Theorem C75_ends_partial : forall reg strict every resolve later p root cs l1 r l2 ra rk rd,
  NoDup (map pf_name (pi_files p)) ->
  pi_rels p = l1 ++ r :: l2 -> rel_type r = type_3dmodel -> (forall x, In x (l1 ++ l2) -> rel_type x <> type_3dmodel) ->
  Target resolve p "/" r root -> Models resolve p (pf_name root) (pf_rels root) cs -> NoDup (map pf_name cs) ->
  (forall c, In c cs -> pf_name c <> "" /\ pf_name c <> pf_name root) -> pf_name root <> "" ->
  Holds reg true root ra rk rd ->
  (forall c, In c cs -> exists a kids d, Holds reg false c a kids d /\ flat_map (S_Meaning.any_of (knownb reg) (later (pf_name c))) kids = []) ->
  exists m1 bound, process_opc resolve p model_zero = Some (m1, cs, root) /\ forall n x, csteps reg strict every false n (c_init (map (job_of later) cs) m1) x ->
     n <= bound /\ (c_done x \/ exists y, cstep reg strict every false x y).
Proof. intros. edestruct all_read as (_ & _ & C); try eassumption. Qed.
Print Assumptions C75_ends_partial.
(** A package with a root model, a child and a thumbnail *)
Definition doc_part : string := doc_ns +++ "<resources><object id=""7""><mesh><vertices/><triangles/></mesh></object></resources><build/></model>".
Definition pkg_all : PkgIn :=
  mkPI [mkRel "/t.png" type_thumbnail "r1"; mkRel "/3D/3dmodel.model" type_3dmodel "r2"]
    [mkPF "/3D/3dmodel.model" "m" (Some doc_all) [mkRel "/3D/part.model" type_3dmodel "r3"];
     mkPF "/3D/part.model" "m" (Some doc_part) [mkRel "/t.png" "http://x" "r4"]; mkPF "/t.png" "image/png" (Some "PNG") []].
Fixpoint rounds (n : nat) (x : Shared * list (Job * gor)) : nat :=
  match n with O => 0 | S n => match run_at all_specs true 1000 0 (fst x) (snd x) with Some y => S (rounds n y) | None => 0 end end.
Example C75_nonvacuous : exists root c ra rk rd ca ck cd m,
  pi_files pkg_all = [root; c; mkPF "/t.png" "image/png" (Some "PNG") []] /\
  Target (fun _ n => n) pkg_all "/" (mkRel "/3D/3dmodel.model" type_3dmodel "r2") root /\
  Models (fun _ n => n) pkg_all (pf_name root) (pf_rels root) [c] /\
  Holds all_specs true root ra rk rd /\ Holds all_specs false c ca ck cd /\ flat_map (S_Meaning.any_of (knownb all_specs) (fun _ => "")) ck = [] /\
  decodes all_specs true 1000 (fun _ n => n) (fun _ _ => "") pkg_all model_zero (PModel m) /\
  map (fun kc => (fst kc, map ob_id (rs_objects (ch_res (snd kc))), map rel_id (ch_rels (snd kc)))) (mo_childs m) = [("/3D/part.model", [7]%N, ["r4"])] /\
  map ob_id (rs_objects (mo_res m)) = [5; 6]%N /\ mo_atts m = [mkAtt "PNG" "/t.png" "image/png"].
Proof.
  exists (mkPF "/3D/3dmodel.model" "m" (Some doc_all) [mkRel "/3D/part.model" type_3dmodel "r3"]), (mkPF "/3D/part.model" "m" (Some doc_part) [mkRel "/t.png" "http://x" "r4"]).
  let r := eval vm_compute in (tree_of doc_all) in match r with Some (?a, ?k, ?d) => exists a, k, d end.
  let r := eval vm_compute in (tree_of doc_part) in match r with Some (?a, ?k, ?d) => exists a, k, d end.
  let j := constr:(job_of (fun _ _ => "") (mkPF "/3D/part.model" "m" (Some doc_part) [mkRel "/t.png" "http://x" "r4"])) in
  let o := eval vm_compute in (process_opc (fun _ n => n) pkg_all model_zero) in
  match o with Some (?m1, _, ?f) =>
    let k := eval vm_compute in (rounds 1000 (c_init [j] m1)) in
    let z := eval vm_compute in (run all_specs true 1000 (repeat 0 k) (c_init [j] m1)) in
    match z with Some (?sh, _) =>
      let r := eval vm_compute in (root_model all_specs true 1000 f (sh_model sh)) in
      match r with Some (PModel ?m) => exists m end end end.
  split; [reflexivity|]. split; [split; [left; reflexivity|reflexivity]|]. split; [apply MKeep; [reflexivity|split; [right; left; reflexivity|reflexivity]|constructor]|].
  split; [eexists _, [], []; split; [reflexivity|]; split; [vm_compute; reflexivity|]; split; [constructor|]; split; [constructor|]; apply conformingb_sound; vm_compute; reflexivity|].
  split; [eexists _, [], []; split; [reflexivity|]; split; [vm_compute; reflexivity|]; split; [constructor|]; split; [constructor|]; apply conformingb_sound; vm_compute; reflexivity|].
  split; [vm_compute; reflexivity|]. split; [|repeat (split; [vm_compute; reflexivity|]); vm_compute; reflexivity].
  eapply DecRoot; [vm_compute; reflexivity| |].
  - match goal with |- childs_return _ _ _ _ ?js ?m1 _ _ => let k := eval vm_compute in (rounds 1000 (c_init js m1)) in
      let z := eval vm_compute in (run all_specs true 1000 (repeat 0 k) (c_init js m1)) in
      match z with Some ?z => exact (run_returns all_specs true 1000 (repeat 0 k) js m1 z ltac:(vm_compute; reflexivity) ltac:(repeat constructor)) end end.
  - vm_compute. reflexivity.
Qed.
