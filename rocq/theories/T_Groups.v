(** * Property theorem C102 *)
From Coq Require Import ZArith.
From Verif Require Import GoBase GoNum GoUtf8 GoFloat GoStrconv Types XmlTypes M_Core M_Errors M_Text M_Decode M_Get S_Groups P_Groups.
From Verif Require Import Types.
Local Open Scope list_scope.

(** Get returns the first group of the namespace. *)
Theorem C102_get : forall ns any,
  match any_get ns any with
  | Some g => exists l r, any = l ++ g :: r /\ space_of g = ns /\ ~ In ns (map space_of l)
  | None => ~ In ns (map space_of any)
  end.
Proof.
  intros ns any. induction any as [|g any IH]; cbn [any_get map In]; [auto|].
  rewrite <- space_of_ns. destruct (seq_spec (space_of g) ns) as [E|N].
  - exists [], any. cbn. auto.
  - destruct (any_get ns any) as [g'|].
    + destruct IH as (l & r & -> & Es & Nl). exists (g :: l), r. split; [reflexivity|]. split; [exact Es|]. cbn [map In]. intuition congruence.
    + intuition congruence.
Qed.
Print Assumptions C102_get.

(** What an element has after its attributes, whatever they are: repeated, wrong, in any order. *)
Definition ByNamespace (reg : Reg) (parent : string) (attrs : list Attr) (any : AnyAttr) : Prop :=
  map space_of any = once (map (fun a => nspace (aname a)) attrs) /\
  NoDup (map space_of any) /\
  (forall ns, In ns (map space_of any) <-> of_space ns attrs <> []) /\
  (forall ns, load reg ns = None -> any_get ns any = match of_space ns attrs with [] => None | l => Some (GUnknown ns l) end) /\
  (forall ns, exists any1 e, group_start reg parent [] (of_space ns attrs) = Some (any1, e) /\ any_get ns any = any_get ns any1).
Lemma by_run reg parent l any : run reg parent [] l = Some any -> ByNamespace reg parent l any.
Proof.
  intros H. pose proof (run_spaces _ _ _ _ _ H) as S. cbn [map app existsb negb] in S.
  assert (F : forall l0 : list string, filter (fun _ => true) l0 = l0) by (induction l0 as [|y l0 IH]; cbn [filter]; congruence).
  rewrite F in S. assert (E : map space_of any = once (map (fun a => nspace (aname a)) l)).
  { rewrite <- S. apply map_ext. exact space_of_ns. }
  split; [exact E|]. split; [rewrite E; apply once_nodup|]. split; [|split].
  - intros ns. rewrite E, once_in, in_map_iff. split.
    + intros (a & Ea & Ha) X. assert (Y : In a (of_space ns l)) by (apply filter_In; split; [exact Ha|rewrite Ea; apply seq_refl]). rewrite X in Y. destruct Y.
    + intros X. destruct (of_space ns l) as [|a r] eqn:Eo; [congruence|]. assert (Y : In a (of_space ns l)) by (rewrite Eo; left; reflexivity).
      apply filter_In in Y as [Y1 Y2]. exists a. split; [|exact Y1]. destruct (seq_spec (nspace (aname a)) ns); congruence.
  - intros ns L. exact (unknown_get _ _ ns l any L H).
  - intros ns. destruct (run_part _ _ ns l [] [] any H eq_refl) as (any1 & H1). destruct (run_loop _ _ _ _ _ None H1) as (e & He).
    exists any1, e. split; [exact He|]. rewrite (run_get _ _ ns _ _ _ H), (run_get _ _ ns _ _ _ H1).
    f_equal. unfold of_space. clear. induction l as [|a l IH]; cbn [filter]; [reflexivity|].
    destruct (seq (nspace (aname a)) ns) eqn:X; [cbn [filter]; rewrite X, <- IH; reflexivity|exact IH].
Qed.

(** build, resources, mesh, vertices, triangles, components and groups of metadata *)
Theorem C102_group : forall reg parent attrs any e,
  group_start reg parent [] attrs = Some (any, e) -> ByNamespace reg parent attrs any.
Proof.
  intros reg parent attrs any e H. apply by_run. unfold group_start in H.
  apply (loop_run reg parent _ (fun x => x) (fun _ => false)) in H.
  - assert (F : filter (fun _ => negb false) attrs = attrs) by (clear; induction attrs as [|a l IH]; cbn [filter negb]; [reflexivity|f_equal; exact IH]).
    rewrite F in H. exact H.
  - intros x a x' e' E. eauto.
Qed.
Print Assumptions C102_group.
Theorem C102_item : forall reg i attrs i' e, it_any i = [] ->
  attrs_loop (item_attr reg) i None attrs = Some (i', e) -> ByNamespace reg "item" (qualified attrs) (it_any i').
Proof.
  intros reg i attrs i' e I H. apply by_run.
  apply (loop_run reg "item" _ it_any (fun a => seq (nspace (aname a)) "")) in H; [rewrite I in H; exact H|].
  intros x a x' e'. unfold item_attr. cbv zeta. destruct (seq (nspace (aname a)) "").
  - destruct (seq _ "objectid"); [destruct (get_u32 a true); intros [= <- <-]; reflexivity|].
    destruct (seq _ "partnumber"); [intros [= <- <-]; reflexivity|].
    destruct (seq _ "transform"); [destruct (parse_matrix _); intros [= <- <-]; reflexivity|]. intros [= <- <-]. reflexivity.
  - destruct (any_attr reg "item" (it_any x) a) as [[any e1]|]; [|discriminate]. intros [= <- <-]. eauto.
Qed.
Print Assumptions C102_item.
Theorem C102_object : forall reg o attrs o' e, ob_any o = [] ->
  attrs_loop (obj_attr reg) o None attrs = Some (o', e) -> ByNamespace reg "object" (qualified attrs) (ob_any o').
Proof.
  intros reg o attrs o' e I H. apply by_run.
  apply (loop_run reg "object" _ ob_any (fun a => seq (nspace (aname a)) "")) in H; [rewrite I in H; exact H|].
  intros x a x' e'. unfold obj_attr. cbv zeta. destruct (seq (nspace (aname a)) "").
  - destruct (seq _ "id"); [destruct (get_u32 a true); intros [= <- <-]; reflexivity|].
    destruct (seq _ "type"); [destruct (match new_object_type _ with Some _ => _ | None => _ end); intros [= <- <-]; reflexivity|].
    destruct (seq _ "thumbnail"); [intros [= <- <-]; reflexivity|]. destruct (seq _ "name"); [intros [= <- <-]; reflexivity|].
    destruct (seq _ "partnumber"); [intros [= <- <-]; reflexivity|].
    destruct (seq _ "pid"); [destruct (get_u32 a false); intros [= <- <-]; reflexivity|].
    destruct (seq _ "pindex"); [destruct (get_u32 a false); intros [= <- <-]; reflexivity|]. intros [= <- <-]. reflexivity.
  - destruct (any_attr reg "object" (ob_any x) a) as [[any e1]|]; [|discriminate]. intros [= <- <-]. eauto.
Qed.
Print Assumptions C102_object.
Theorem C102_component : forall reg c attrs c' e, co_any c = [] ->
  attrs_loop (comp_attr reg) c None attrs = Some (c', e) -> ByNamespace reg "component" (qualified attrs) (co_any c').
Proof.
  intros reg c attrs c' e I H. apply by_run.
  apply (loop_run reg "component" _ co_any (fun a => seq (nspace (aname a)) "")) in H; [rewrite I in H; exact H|].
  intros x a x' e'. unfold comp_attr. cbv zeta. destruct (seq (nspace (aname a)) "").
  - destruct (seq _ "objectid"); [destruct (get_u32 a true); intros [= <- <-]; reflexivity|].
    destruct (seq _ "transform"); [destruct (parse_matrix _); intros [= <- <-]; reflexivity|]. intros [= <- <-]. reflexivity.
  - destruct (any_attr reg "component" (co_any x) a) as [[any e1]|]; [|discriminate]. intros [= <- <-]. eauto.
Qed.
Print Assumptions C102_component.
Theorem C102_base_materials : forall reg b attrs b' e, bs_any b = [] ->
  attrs_loop (bm_attr reg) b None attrs = Some (b', e) -> ByNamespace reg "basematerials" (qualified attrs) (bs_any b').
Proof.
  intros reg b attrs b' e I H. apply by_run.
  apply (loop_run reg "basematerials" _ bs_any (fun a => seq (nspace (aname a)) "")) in H; [rewrite I in H; exact H|].
  intros x a x' e'. unfold bm_attr. destruct (seq (nspace (aname a)) "").
  - destruct (seq _ "id"); [destruct (get_u32 a true); intros [= <- <-]; reflexivity|]. intros [= <- <-]. reflexivity.
  - destruct (any_attr reg "basematerials" (bs_any x) a) as [[any e1]|]; [|discriminate]. intros [= <- <-]. eauto.
Qed.
Print Assumptions C102_base_materials.
Theorem C102_base : forall reg b attrs b' e, ba_any b = [] ->
  attrs_loop (base_attr reg) b None attrs = Some (b', e) -> ByNamespace reg "base" (qualified attrs) (ba_any b').
Proof.
  intros reg b attrs b' e I H. apply by_run.
  apply (loop_run reg "base" _ ba_any (fun a => seq (nspace (aname a)) "")) in H; [rewrite I in H; exact H|].
  intros x a x' e'. unfold base_attr. destruct (seq (nspace (aname a)) "").
  - destruct (seq _ "name"); [intros [= <- <-]; reflexivity|].
    destruct (seq _ "displaycolor"); [destruct (parse_rgba _); intros [= <- <-]; reflexivity|]. intros [= <- <-]. reflexivity.
  - destruct (any_attr reg "base" (ba_any x) a) as [[any e1]|]; [|discriminate]. intros [= <- <-]. eauto.
Qed.
Print Assumptions C102_base.
Theorem C102_triangle : forall reg t attrs t' e, tv_any t = [] ->
  attrs_loop (tri_attr reg) t None attrs = Some (t', e) -> ByNamespace reg "triangle" (qualified attrs) (tv_any t').
Proof.
  intros reg t attrs t' e I H. apply by_run.
  apply (loop_run reg "triangle" _ tv_any (fun a => seq (nspace (aname a)) "")) in H; [rewrite I in H; exact H|].
  intros x a x' e'. unfold tri_attr. cbv zeta. destruct (seq (nspace (aname a)) "").
  - destruct (get_u32 a _) as [v e0]. intros [= <- <-].
    repeat match goal with |- context [if ?c then _ else _] => destruct c end; reflexivity.
  - destruct (any_attr reg "triangle" (tv_any x) a) as [[any e1]|]; [|discriminate]. intros [= <- <-]. eauto.
Qed.
Print Assumptions C102_triangle.
(** Declarations of namespaces and the attributes of the namespace xml are no attributes of extensions. *)
Definition own (a : Attr) : bool :=
  seq (nspace (aname a)) "" || seq (nspace (aname a)) "http://www.w3.org/XML/1998/namespace" || seq (nspace (aname a)) "xmlns".
Theorem C102_model : forall reg m attrs m' req e, mo_anyattr m = [] ->
  attrs_loop (model_attr reg) (m, []) None attrs = Some ((m', req), e) ->
  ByNamespace reg "model" (filter (fun a => negb (own a)) attrs) (mo_anyattr m').
Proof.
  intros reg m attrs m' req e I H. apply by_run.
  apply (loop_run reg "model" _ (fun x => mo_anyattr (fst x)) own) in H; [cbn [fst] in H; rewrite I in H; exact H|].
  intros [x q] a [x' q'] e'. unfold model_attr, model_nocore, own. cbn [fst]. cbv zeta. destruct (seq (nspace (aname a)) ""); cbn [orb].
  - destruct (seq _ "unit"); [destruct (new_units _); intros [= <- <- <-]; reflexivity|].
    destruct (seq _ "thumbnail"); [intros [= <- <- <-]; reflexivity|].
    destruct (seq _ "requiredextensions"); intros [= <- <- <-]; reflexivity.
  - destruct (seq _ "http://www.w3.org/XML/1998/namespace"); cbn [orb].
    { destruct (seq _ "lang"); intros [= <- <- <-]; reflexivity. }
    destruct (seq _ "xmlns"); [intros [= <- <- <-]; reflexivity|].
    destruct (any_attr reg "model" (mo_anyattr x) a) as [[any e1]|]; [|discriminate]. intros [= <- <- <-]. eauto.
Qed.
Print Assumptions C102_model.
(** How the namespaces are mixed does not matter to Get. *)
Theorem C102_order : forall reg parent l l' any any', SameBySpace l l' ->
  ByNamespace reg parent l any -> ByNamespace reg parent l' any' -> forall ns, any_get ns any = any_get ns any'.
Proof.
  intros reg parent l l' any any' S (_ & _ & _ & _ & H) (_ & _ & _ & _ & H') ns.
  destruct (H ns) as (a1 & e1 & G1 & E1), (H' ns) as (a2 & e2 & G2 & E2). rewrite (S ns) in G1. congruence.
Qed.
Print Assumptions C102_order.

(** Two namespaces mixed, a repeated path and a UUID that is none. *)
Definition c102_attrs : list Attr :=
  [mkAttr (mkName "urn:a" "x") "1"; mkAttr (mkName ns_production "path") "/a"; mkAttr (mkName "" "objectid") "7";
   mkAttr (mkName "urn:a" "y") "2"; mkAttr (mkName ns_production "UUID") "none"; mkAttr (mkName ns_production "path") "/b"].
Example C102_nonvacuous : exists i e, attrs_loop (item_attr (mkReg false true false false)) (mkItem 0 (it_tr item_zero) "" mg_zero []) None c102_attrs = Some (i, e) /\
  e <> None /\ it_oid i = 7%N /\ it_any i = [GUnknown "urn:a" [mkAttr (mkName "urn:a" "x") "1"; mkAttr (mkName "urn:a" "y") "2"]; GItem "" "/b"] /\
  any_get ns_production (it_any i) = Some (GItem "" "/b") /\ any_get "urn:b" (it_any i) = None.
Proof. eexists _, _. split; [vm_compute; reflexivity|]. split; [discriminate|]. vm_compute. auto. Qed.
Example C102_mixed : SameBySpace (qualified c102_attrs) (rev (qualified c102_attrs)) -> False.
Proof. intros H. specialize (H "urn:a"). vm_compute in H. discriminate. Qed.
Example C102_sorted : SameBySpace (qualified c102_attrs) (of_space "urn:a" c102_attrs ++ of_space ns_production c102_attrs).
Proof.
  intros ns.
  set (x := mkAttr (mkName "urn:a" "x") "1"). set (y := mkAttr (mkName "urn:a" "y") "2").
  set (p := mkAttr (mkName ns_production "path") "/a"). set (u := mkAttr (mkName ns_production "UUID") "none").
  set (q := mkAttr (mkName ns_production "path") "/b").
  assert (E1 : qualified c102_attrs = [x; p; y; u; q]) by reflexivity.
  assert (E2 : of_space "urn:a" c102_attrs ++ of_space ns_production c102_attrs = [x; y; p; u; q]) by reflexivity.
  rewrite E1, E2. unfold of_space, x, y, p, u, q. cbn [filter nspace aname].
  destruct (seq_spec "urn:a" ns) as [<-|_]; [reflexivity|]. destruct (seq ns_production ns); reflexivity.
Qed.
