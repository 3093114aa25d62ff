(** * Theorems: packages of conforming files one child of which has elements of other namespaces: C75 *)
From Coq Require Import ZArith.
From Verif Require Import GoBase GoNum GoUtf8 GoFloat GoStrconv Types XmlTypes PkgTypes M_Core M_Errors M_Text M_Xml M_Decode M_Package M_Childs M_Decoder
  S_Core S_Text S_Errors S_Xml S_Decode S_Attr S_Meaning S_Read S_Package S_Childs S_Used P_Core P_Attr P_Package P_Childs P_MeaningModel P_Read
  T_Decode T_Childs T_Childs2 T_Package T_Attr T_Meaning T_Read T_Used.
From Verif Require P_RTPkg P_Childs2.
From Verif Require Import Types.
Local Open Scope list_scope.

Section Package.
Context (reg : Reg) (strict : bool) (every : nat) (resolve : string -> string -> string) (later : string -> Ref -> string).
Context (p : PkgIn) (root : PFile) (cs : list PFile) (l1 l2 : list Relationship) (r : Relationship) (ra : list Attr) (rk : list XTree) (rd : Dec) (star : string).
Context (Names : NoDup (map pf_name (pi_files p))).
Context (Rels : pi_rels p = l1 ++ r :: l2) (One : rel_type r = type_3dmodel) (Others : forall x, In x (l1 ++ l2) -> rel_type x <> type_3dmodel).
Context (Root : Target resolve p "/" r root) (Childs : Models resolve p (pf_name root) (pf_rels root) cs) (Distinct : NoDup (map pf_name cs)).
Context (Named : forall c, In c cs -> pf_name c <> "" /\ pf_name c <> pf_name root) (Rooted : pf_name root <> "").
Context (RootFile : Holds reg true root ra rk rd).
Context (ChildFile : forall c, In c cs -> exists a kids d, Holds reg false c a kids d /\ (pf_name c <> star -> flat_map (S_Meaning.any_of (knownb reg) (later (pf_name c))) kids = [])).
Notation ReadPackage := (T_Read.ReadPackage reg resolve later p root cs ra rk rd).
Notation res_read := (T_Read.res_read reg later).

(** The package read without the elements of the child at [star], and those before the ones of the root model *)
Definition ReadOne (m : Model) : Prop := exists mr al, ReadPackage mr /\ m = any_is (al ++ mo_any mr) mr /\
  (~ In star (map pf_name cs) -> al = []) /\
  forall c a kids d, In c cs -> pf_name c = star -> Holds reg false c a kids d -> al = flat_map (S_Meaning.any_of (knownb reg) (later star)) kids.
Lemma one_read : (forall res, decodes reg strict every resolve later p model_zero res -> exists m, res = PModel m /\ ReadOne m) /\
  (exists m, decodes reg strict every resolve later p model_zero (PModel m)) /\
  (exists m1 bound, process_opc resolve p model_zero = Some (m1, cs, root) /\ forall n x, csteps reg strict every false n (c_init (map (job_of later) cs) m1) x ->
     n <= bound /\ (c_done x \/ exists y, cstep reg strict every false x y)).
Proof.
  destruct (opened resolve p root cs l1 l2 r Names Rels One Others Root Childs) as (m1 & EO & KP & MP).
  destruct (C47_relationships resolve p model_zero m1 cs root l1 r l2 Names Rels One Others EO) as (_ & _ & _ & RR & RL & CH & CO).
  destruct (C47_attachments_partial resolve p model_zero m1 cs root l1 r l2 Names Rels One Others EO) as (new & AT & AT1 & _ & _ & AT2). cbn [app model_zero mo_atts] in AT.
  specialize (CH Distinct).
  assert (ND1 : NoDup (map fst (mo_childs m1))) by (destruct KP as (_ & _ & _ & _ & _ & _ & _ & _ & _ & KN); apply KN; constructor).
  assert (KK : forall c, In c cs -> exists k, Kept resolve p (pf_name c) (pf_rels c) k /\ In (pf_name c, mkChild res_zero (map fst k) []) (mo_childs m1)).
  { intros c Hc. exists (kept resolve p (pf_name c) (pf_rels c)). assert (K : Kept resolve p (pf_name c) (pf_rels c) (kept resolve p (pf_name c) (pf_rels c))) by apply kept_spec.
    split; [exact K|]. apply P_RTPkg.aget_in. apply CH; assumption. }
  assert (KEYS : forall x, In x (map fst (mo_childs m1)) <-> In x (map pf_name cs)).
  { intros x. split.
    - intros Hx. destruct (in_dec string_dec x (map pf_name cs)) as [I|I]; [exact I|]. apply (P_RTPkg.aget_keys later) in Hx. exfalso. rewrite CO in Hx; [apply Hx; reflexivity|].
      intros c Hc <-. apply I, in_map, Hc.
    - intros Hx. apply in_map_iff in Hx as (c & <- & Hc). destruct (KK c Hc) as (k & _ & Hk). apply (in_map fst) in Hk. exact Hk. }
  pose proof KP as (K1 & K2 & K3 & K4 & K5 & K6 & K7 & K8 & K9 & _).
  cbn [model_zero mo_lang mo_units mo_thumb mo_res mo_build mo_exts mo_md mo_any mo_anyattr] in K1, K2, K3, K4, K5, K6, K7, K8, K9.
  assert (NR : forall c, In c cs -> ~ root_file m1 (pf_name c)).
  { intros c Hc [H|[H _]]; [destruct (Named c Hc) as [_ N]; congruence|congruence]. }
  assert (AL : forall c a kids d, In c cs -> Holds reg false c a kids d -> AloneAny reg strict every m1 (job_of later c) DNone (res_read c kids) (flat_map (S_Meaning.any_of (knownb reg) (later (pf_name c))) kids)).
  { intros c a kids d Hc HH. destruct (KK c Hc) as (k & _ & HK). destruct (Named c Hc) as [NE _].
    destruct HH as (data & pre & post & ED & S & P1 & P2 & CF).
    assert (G1 : Forall (group_at (knownb reg) "model") (mo_anyattr m1)) by (rewrite K9; constructor).
    assert (G2 : Forall (group_at (knownb reg) "build") (bu_any (mo_build m1))) by (rewrite K5; constructor).
    destruct (child_read reg strict (pf_name c) every XEOF (later (pf_name c)) data m1 pre a kids post d _ G1 G2 ND1 (NR c Hc) NE HK eq_refl S P1 P2 CF) as (n & X).
    exists data, XEOF, (child_of (knownb reg) (later (pf_name c)) m1 (pf_name c) kids), n, d.
    split; [unfold job_of; cbn [jb_open]; rewrite ED; reflexivity|]. cbn [job_of jb_path jb_later]. split; [exact X|].
    split; [cbn [child_of mo_any]; rewrite K8; reflexivity|].
    assert (NR' : ~ root_file (child_of (knownb reg) (later (pf_name c)) m1 (pf_name c) kids) (pf_name c)) by exact (NR c Hc).
    erewrite child_found; [| |exact NR'|exact NE|].
    - instantiate (1 := mkChild (res_read c kids) (map fst k) []). reflexivity.
    - unfold ChildsOk. cbn [child_of mo_childs]. rewrite map_map.
      replace (map (fun x => fst (if seq (fst x) (pf_name c) then (fst x, mkChild _ _ _) else x)) (mo_childs m1)) with (map fst (mo_childs m1)); [exact ND1|].
      apply map_ext. intros [x y]. cbn. destruct (seq x (pf_name c)); reflexivity.
    - cbn [child_of mo_childs]. apply in_map_iff. exists (pf_name c, mkChild res_zero (map fst k) []). split; [|exact HK]. cbn [fst snd ch_rels ch_any]. rewrite seq_refl.
      unfold res_read. rewrite K6. reflexivity. }
  assert (AE : forall j, In j (map (job_of later) cs) -> exists x al, AloneAny reg strict every m1 j DNone x al).
  { intros j Hj. apply in_map_iff in Hj as (c & <- & Hc). destruct (ChildFile c Hc) as (a & kids & d & H & _). eauto. }
  assert (UQ : forall j e x al e' x' al', AloneAny reg strict every m1 j e x al -> AloneAny reg strict every m1 j e' x' al' -> e = e' /\ x = x' /\ al = al')
    by (intros j e x al e' x' al' X Y; exact (P_Childs2.alone2_unique _ _ _ _ _ _ _ _ _ _ _ X Y)).
  assert (SE : OneForeign reg strict every m1 (map (job_of later) cs) star).
  { constructor; [exact ND1|rewrite map_map; exact Distinct| | |].
    - intros j Hj. apply in_map_iff in Hj as (c & <- & Hc). cbn [job_of jb_path]. destruct (Named c Hc) as [N1 N2].
      split; [apply KEYS, in_map, Hc|]. split; [exact N1|]. split; [congruence|]. intros E. congruence.
    - intros j Hj. right. destruct (AE j Hj) as (x & al & X). eauto.
    - intros j e x al Hj X NS. apply in_map_iff in Hj as (c & <- & Hc). cbn [job_of jb_path] in NS. destruct (ChildFile c Hc) as (a & kids & d & H & AN).
      destruct (UQ _ _ _ _ _ _ _ X (AL c a kids d Hc H)) as (_ & _ & ->). rewrite (AN NS), K8. reflexivity. }
  assert (RT : forall m2 errs, childs_return reg strict every false (map (job_of later) cs) m1 m2 errs ->
    errs = None /\ exists m', root_model reg strict every root m2 = Some (PModel m') /\ ReadOne m').
  { intros m2 errs R. pose proof (one_no_error _ _ _ _ _ _ _ _ SE AE R) as ->. split; [reflexivity|]. apply (C48_one_foreign_partial _ _ _ _ _ _ star) in R as (_ & al & AN & AS & R); [|exact SE].
    destruct R as [G1 G2 G3 G4 G5 G6 G7 G8 G9 G10 G11 G12 G13 GC].
    cbn [any_is mo_path mo_lang mo_units mo_thumb mo_res mo_build mo_atts mo_exts mo_md mo_childs mo_rootrels mo_rels mo_any mo_anyattr] in *.
    assert (KEY : map fst (mo_childs m2) = map fst (mo_childs m1)) by (clear -GC; induction GC as [|x y l l' (H & _) _ IH]; [reflexivity|]; cbn [map]; congruence).
    assert (B : Blank (emptied m2)) by (unfold Blank, emptied; cbn; rewrite G5, G6, K4, K5; cbn; repeat split; congruence).
    destruct RootFile as (data & pre & post & ED & S & P1 & P2 & CF).
    assert (RF : root_file (emptied m2) (pf_name root)) by (left; cbn; congruence).
    assert (C2 : ChildsOk (emptied m2)) by (unfold ChildsOk; cbn [emptied mo_childs]; rewrite KEY; exact ND1).
    destruct (root_read reg strict (pf_name root) every XEOF (fun _ => "") data (emptied m2) pre ra rk post rd B RF C2 S P1 P2 CF) as (n & X).
    destruct (root_read reg strict (pf_name root) every XEOF (buf_deref (d_buf rd)) data (emptied m2) pre ra rk post rd B RF C2 S P1 P2 CF) as (n' & X').
    set (mr := model_of (knownb reg) (buf_deref (d_buf rd)) (emptied m2) ra rk).
    assert (DF : decode_file reg true strict (pf_name root) every (fun _ => false) XEOF data (emptied m2) = DRet mr DNone n' rd) by (unfold decode_file; rewrite X, X'; reflexivity).
    destruct (proj1 (C81_file_partial reg true strict (pf_name root) every (fun _ => false) XEOF data m2) _ _ _ _ DF) as (e' & EE & DF'). destruct e'; try discriminate EE.
    exists (onto m2 mr). split; [unfold root_model; rewrite ED, DF'; reflexivity|].
    exists mr, al. split; [|split; [|split]].
    2:{ unfold onto, any_is. rewrite G5, G6, G9, G12, K4, K5, K7. cbn [res_zero rs_assets rs_objects bu_items app]. destruct (mo_res mr), (mo_build mr). reflexivity. }
    2:{ intros I. rewrite <- K8. apply AN. rewrite map_map. exact I. }
    2:{ intros c a kids d Hc ES HH. destruct (AS (job_of later c) (in_map _ _ _ Hc) ES) as (x & Y). destruct (UQ _ _ _ _ _ _ _ Y (AL c a kids d Hc HH)) as (_ & _ & ->). rewrite ES. reflexivity. }
    constructor.
    - eauto.
    - subst mr; cbn [model_of emptied mo_path]. congruence.
    - intros k K. subst mr; cbn [model_of emptied mo_rootrels]. rewrite G10. rewrite (RR k K). reflexivity.
    - intros k K. subst mr; cbn [model_of emptied mo_rels]. rewrite G11. rewrite (RL k K). reflexivity.
    - subst mr; cbn [model_of emptied mo_childs]. exact C2.
    - intros x. subst mr; cbn [model_of emptied mo_childs]. rewrite KEY. apply KEYS.
    - subst mr; cbn [model_of emptied mo_atts]. rewrite G7, AT. exact AT1.
    - subst mr; cbn [model_of emptied mo_atts]. rewrite G7, AT. intros FD. exact (AT2 FD eq_refl).
    - intros c a kids d k Hc HH K. subst mr; cbn [model_of emptied mo_childs]. pose proof (CH c k Hc K) as HA. apply P_RTPkg.aget_in in HA.
      destruct (P_RTPkg.forall2_in_l _ _ _ _ GC HA) as ([k' c'] & Hk' & E1 & E2 & E3 & E4 & _). cbn [fst snd ch_rels ch_any] in *. subst k'.
      assert (IP : In (pf_name c) (map jb_path (map (job_of later) cs))) by (rewrite map_map; apply (in_map pf_name), Hc).
      destruct (E4 IP) as (j & al' & Hj & PJ & AJ). apply in_map_iff in Hj as (f & <- & Hf). cbn [job_of jb_path] in PJ.
      assert (f = c) as ->.
      { clear - Hf Hc PJ Distinct. induction cs as [|x l IH]; [destruct Hf|]. cbn [map] in Distinct. inversion Distinct as [|? ? N1 N2]; subst.
        destruct Hf as [<-|Hf], Hc as [<-|Hc]; [reflexivity| | |auto]; destruct N1; [rewrite PJ|rewrite <- PJ]; apply in_map; assumption. }
      destruct (UQ _ _ _ _ _ _ _ AJ (AL c a kids d Hc HH)) as (_ & ER & _). destruct c' as [r1 r2 r3]. cbn [ch_res ch_rels ch_any] in *. subst. exact Hk'. }
  destruct (C48_one_error_partial reg strict every false _ _ _ SE) as ((bound & B) & _).
  assert (RET : exists m2 errs, childs_return reg strict every false (map (job_of later) cs) m1 m2 errs).
  { assert (X : forall k n x, bound - n <= k -> csteps reg strict every false n (c_init (map (job_of later) cs) m1) x -> exists n' x', csteps reg strict every false n' (c_init (map (job_of later) cs) m1) x' /\ c_done x').
    { induction k as [|k IH]; intros n x L R; destruct (B n x R) as [Bn [Dn|(y & Sy)]]; eauto.
      - destruct (B (Datatypes.S n) y) as [By _]; [econstructor; eassumption|]. lia.
      - destruct (B (Datatypes.S n) y) as [By _]; [econstructor; eassumption|]. apply (IH (Datatypes.S n) y); [lia|]. econstructor; eassumption. }
    destruct (X bound 0 (c_init (map (job_of later) cs) m1)) as (n & x & R & Dn); [lia|constructor|]. exists (sh_model (fst x)), (sh_errs (fst x)), n, x. auto. }
  split; [|split].
  - intros res H. destruct H as [H|m1' cs' root' m2 e H R|m1' cs' root' m2 res H R HR].
    + congruence.
    + rewrite EO in H. injection H as <- <- <-. destruct (RT _ _ R) as [X _]. discriminate.
    + rewrite EO in H. injection H as <- <- <-. destruct (RT _ _ R) as [_ (m' & X & Y)]. rewrite X in HR. injection HR as <-. eauto.
  - destruct RET as (m2 & errs & R). destruct (RT _ _ R) as [-> (m' & X & _)]. exists m'. eapply DecRoot; eassumption.
  - exists m1, bound. auto.
Qed.
End Package.

(** In every execution of the goroutines, strictly or not, the package is read without error; the elements of other
    namespaces that the child at [star] has in its model element are read too, as elements of the root model, before its
    own.  Missing: packages with two such children, whose elements come in an order that depends on the execution
    (C48_order_refuted), and packages with several root models. *)
Theorem C75_one_foreign_partial : forall reg strict every resolve later p root cs l1 r l2 ra rk rd star,
  NoDup (map pf_name (pi_files p)) ->
  pi_rels p = l1 ++ r :: l2 -> rel_type r = type_3dmodel -> (forall x, In x (l1 ++ l2) -> rel_type x <> type_3dmodel) ->
  Target resolve p "/" r root -> Models resolve p (pf_name root) (pf_rels root) cs -> NoDup (map pf_name cs) ->
  (forall c, In c cs -> pf_name c <> "" /\ pf_name c <> pf_name root) -> pf_name root <> "" ->
  Holds reg true root ra rk rd ->
  (forall c, In c cs -> exists a kids d, Holds reg false c a kids d /\
     (pf_name c <> star -> flat_map (S_Meaning.any_of (knownb reg) (later (pf_name c))) kids = [])) ->
  (forall res, decodes reg strict every resolve later p model_zero res -> exists m, res = PModel m /\ ReadOne reg resolve later p root cs ra rk rd star m) /\
  (exists m, decodes reg strict every resolve later p model_zero (PModel m)) /\
  exists m1 bound, process_opc resolve p model_zero = Some (m1, cs, root) /\ forall n x, csteps reg strict every false n (c_init (map (job_of later) cs) m1) x ->
     n <= bound /\ (c_done x \/ exists y, cstep reg strict every false x y).
Proof. intros. eapply one_read; eassumption. Qed.
Print Assumptions C75_one_foreign_partial.

(** The children of the root model are [c], with two elements of another namespace, and [b], with none; the root has one. *)
Definition doc_extra : string := doc_ns +++ "<x:one xmlns:x=""http://x""/><resources><object id=""7""><mesh><vertices/><triangles/></mesh></object></resources><x:two xmlns:x=""http://x"" k=""v""><x:in/></x:two><build/></model>".
Definition doc_home : string := doc_ns +++ "<resources/><x:own xmlns:x=""http://x""/><build/></model>".
Definition pkg_extra : PkgIn :=
  mkPI [mkRel "/3D/3dmodel.model" type_3dmodel "r2"]
    [mkPF "/3D/3dmodel.model" "m" (Some doc_home) [mkRel "/3D/part.model" type_3dmodel "r3"; mkRel "/3D/more.model" type_3dmodel "r4"];
     mkPF "/3D/part.model" "m" (Some doc_part) []; mkPF "/3D/more.model" "m" (Some doc_extra) []].
Example C75_one_nonvacuous : exists root b c ra rk rd ba bk bd ca ck cd m,
  pi_files pkg_extra = [root; b; c] /\
  Target (fun _ n => n) pkg_extra "/" (mkRel "/3D/3dmodel.model" type_3dmodel "r2") root /\
  Models (fun _ n => n) pkg_extra (pf_name root) (pf_rels root) [b; c] /\
  Holds all_specs true root ra rk rd /\ Holds all_specs false b ba bk bd /\ flat_map (S_Meaning.any_of (knownb all_specs) (fun _ => "")) bk = [] /\
  Holds all_specs false c ca ck cd /\ List.length (flat_map (S_Meaning.any_of (knownb all_specs) (fun _ => "")) ck) = 2 /\
  decodes all_specs true 1000 (fun _ n => n) (fun _ _ => "") pkg_extra model_zero (PModel m) /\ List.length (mo_any m) = 3.
Proof.
  exists (mkPF "/3D/3dmodel.model" "m" (Some doc_home) [mkRel "/3D/part.model" type_3dmodel "r3"; mkRel "/3D/more.model" type_3dmodel "r4"]), (mkPF "/3D/part.model" "m" (Some doc_part) []), (mkPF "/3D/more.model" "m" (Some doc_extra) []).
  let r := eval vm_compute in (tree_of doc_home) in match r with Some (?a, ?k, ?d) => exists a, k, d end.
  let r := eval vm_compute in (tree_of doc_part) in match r with Some (?a, ?k, ?d) => exists a, k, d end.
  let r := eval vm_compute in (tree_of doc_extra) in match r with Some (?a, ?k, ?d) => exists a, k, d end.
  let jb := constr:(job_of (fun _ _ => "") (mkPF "/3D/part.model" "m" (Some doc_part) [])) in
  let jc := constr:(job_of (fun _ _ => "") (mkPF "/3D/more.model" "m" (Some doc_extra) [])) in
  let o := eval vm_compute in (process_opc (fun _ n => n) pkg_extra model_zero) in
  match o with Some (?m1, _, ?f) =>
    let kb := eval vm_compute in (rounds 1000 (c_init [jb] m1)) in let kc := eval vm_compute in (rounds 1000 (c_init [jc] m1)) in
    let z := eval vm_compute in (run all_specs true 1000 (repeat 1 kc ++ repeat 0 kb) (c_init [jb; jc] m1)) in
    match z with Some (?sh, _) =>
      let r := eval vm_compute in (root_model all_specs true 1000 f (sh_model sh)) in
      match r with Some (PModel ?m) => exists m end end end.
  split; [reflexivity|]. split; [split; [left; reflexivity|reflexivity]|].
  split; [apply MKeep; [reflexivity|split; [right; left; reflexivity|reflexivity]|apply MKeep; [reflexivity|split; [right; right; left; reflexivity|reflexivity]|constructor]]|].
  split; [eexists _, [], []; split; [reflexivity|]; split; [vm_compute; reflexivity|]; split; [constructor|]; split; [constructor|]; apply conformingb_sound; vm_compute; reflexivity|].
  split; [eexists _, [], []; split; [reflexivity|]; split; [vm_compute; reflexivity|]; split; [constructor|]; split; [constructor|]; apply conformingb_sound; vm_compute; reflexivity|].
  split; [vm_compute; reflexivity|].
  split; [eexists _, [], []; split; [reflexivity|]; split; [vm_compute; reflexivity|]; split; [constructor|]; split; [constructor|]; apply conformingb_sound; vm_compute; reflexivity|].
  split; [vm_compute; reflexivity|]. split; [|vm_compute; reflexivity].
  eapply DecRoot; [vm_compute; reflexivity| |].
  - cbn [map]. match goal with |- childs_return _ _ _ _ [?jb; ?jc] ?m1 _ _ => let kb := eval vm_compute in (rounds 1000 (c_init [jb] m1)) in let kc := eval vm_compute in (rounds 1000 (c_init [jc] m1)) in
      let z := eval vm_compute in (run all_specs true 1000 (repeat 1 kc ++ repeat 0 kb) (c_init [jb; jc] m1)) in
      match z with Some ?z => exact (run_returns all_specs true 1000 (repeat 1 kc ++ repeat 0 kb) [jb; jc] m1 z ltac:(vm_compute; reflexivity) ltac:(repeat constructor)) end end.
  - vm_compute. reflexivity.
Qed.
