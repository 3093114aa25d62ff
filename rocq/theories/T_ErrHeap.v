(** * C73: wrapping and appending errors *)
From Verif Require Import GoBase Types ErrTypes M_Errors S_ErrHeap M_ErrHeap P_ErrHeap.

(** C73, full statement: wrapping an error, or appending to one, changes no error that somebody else holds.  False: the
    one given is changed itself, so an error kept by its owner and wrapped for two places has the levels of both at each *)
Theorem C73_wrap_refuted : exists H v e H1 v1 H2 v2 e2,
  Reads H v e /\ wrap_h (mkLevel "object" 1) None 9 H v = Some (H1, v1) /\
  wrap_h (mkLevel "object" 2) None 9 H1 v = Some (H2, v2) /\
  ~ Reads H1 v e /\ Reads H2 v1 e2 /\ Reads H2 v2 e2 /\
  places e2 = [([mkLevel "mesh" (-1); mkLevel "object" 1; mkLevel "object" 2], ESent "e", "")].
Proof.
  exists [CellErr [mkLevel "mesh" (-1)] (EvLeaf (ESent "e")) ""], (EvPtr 0), (EErr [mkLevel "mesh" (-1)] (ESent "e") "").
  eexists _, _, _, _, _. split; [econstructor; [reflexivity|constructor; exact I]|].
  split; [vm_compute; reflexivity|]. split; [vm_compute; reflexivity|]. split.
  { intros R. inversion R as [|p t v path e E R'|]; subst. discriminate E. }
  split; [econstructor; [reflexivity|constructor; exact I]|]. split; [econstructor; [reflexivity|constructor; exact I]|].
  reflexivity.
Qed.
(** Append changes the list it is given, and so each of two lists made from the same one has the errors of both *)
Theorem C73_append_refuted : exists H v e H1 v1 H2 v2 e2,
  Reads H v e /\ append_h H v [EvLeaf (ESent "b")] = Some (H1, v1) /\ append_h H1 v [EvLeaf (ESent "c")] = Some (H2, v2) /\
  ~ Reads H1 v e /\ Reads H2 v1 e2 /\ Reads H2 v2 e2 /\
  places e2 = [([], ESent "a", ""); ([], ESent "b", ""); ([], ESent "c", "")].
Proof.
  exists [CellList [EvLeaf (ESent "a")]], (EvPtr 0), (EList [ESent "a"]). eexists _, _, _, _, (EList [ESent "a"; ESent "b"; ESent "c"]).
  split; [econstructor; [reflexivity|repeat constructor]|].
  split; [vm_compute; reflexivity|]. split; [vm_compute; reflexivity|]. split.
  { intros R. inversion R as [| |p vs l E R']; subst. cbn in E. injection E as <-. inversion R' as [|? ? ? ? ? R2]; subst. inversion R2. }
  split; [econstructor; [reflexivity|repeat constructor]|]. split; [econstructor; [reflexivity|repeat constructor]|].
  reflexivity.
Qed.

(** What holds: if each result is used once, as the repository does, the error made is the one that was meant, each part
    at its places, and no error made before changes.  Missing: errors used twice (above). *)
Theorem C73_once_partial x H : leaves x ->
  exists H' v e, eval_h x H = Some (H', v) /\ ReadsErr H' v e /\ places_err e = places_exp x /\
    (forall v0 e0, Reads H v0 e0 -> Reads H' v0 e0).
Proof.
  intros Lv. destruct (eval_ok x Lv H) as (H' & v & fp & E & R & N & (L & K & _)).
  exists H', v, (eval_v x). split; [exact E|]. split.
  - destruct (eval_v x) as [e|]; cbn in *; [exact (proj1 (Rp_reads H') _ _ _ R)|tauto].
  - split; [exact (places_eval x Lv)|]. apply (proj1 (Reads_frame H H' ltac:(intros i Li; apply K; [exact Li|intros []]))).
Qed.
(** It is the error that M_Errors computes, so the theorems about errors as values hold of the pointers *)
Theorem C73_value_partial x H : leaves x -> exists H' v, eval_h x H = Some (H', v) /\ ReadsErr H' v (eval_v x).
Proof.
  intros Lv. destruct (eval_ok x Lv H) as (H' & v & fp & E & R & N & W).
  exists H', v. split; [exact E|]. destruct (eval_v x) as [e|]; cbn in *; [exact (proj1 (Rp_reads H') _ _ _ R)|tauto].
Qed.
(** A memory has one reading of an error *)
Theorem C73_determined H v e e' : Reads H v e -> Reads H v e' -> e = e'.
Proof.
  intros R. revert e'. revert R.
  assert (A : (forall v e, Reads H v e -> forall e', Reads H v e' -> e = e') /\ (forall vs l, ReadsAll H vs l -> forall l', ReadsAll H vs l' -> l = l')).
  { apply (Reads_mut H (fun v e _ => forall e', Reads H v e' -> e = e') (fun vs l _ => forall l', ReadsAll H vs l' -> l = l')).
    - intros x Lx e' R. inversion R. reflexivity.
    - intros p t w path x E R IH e' R'. inversion R' as [|? ? ? ? ? E' R2|? ? ? E']; subst; rewrite E in E'; [|discriminate].
      injection E' as <- <- <-. rewrite (IH _ R2). reflexivity.
    - intros p vs l E R IH e' R'. inversion R' as [|? ? ? ? ? E'|? ? ? E' R2]; subst; rewrite E in E'; [discriminate|].
      injection E' as <-. rewrite (IH _ R2). reflexivity.
    - intros l' R. inversion R. reflexivity.
    - intros w vs x l R IH RA IHA l' R'. inversion R' as [|? ? ? ? R1 R2]; subst. rewrite (IH _ R1), (IHA _ R2). reflexivity. }
  intros R e'. exact (proj1 A v e R e').
Qed.

(** Two errors of a mesh in a list, inside a resource of the model, in a memory with an error of somebody else *)
Example C73_nonvacuous :
  let x := XWrapPath (XWrap (XAppend XNil [XWrap (XNew (ESent "v")) "vertex" 3; XNil; XWrap (XNew (EMissing "id")) "triangle" 4]) "mesh" (-1))
             "resources" "/a.model" in
  let H := [CellErr [mkLevel "b" 0] (EvLeaf (ESent "other")) ""] in
  leaves x /\ places_exp x =
    [([mkLevel "vertex" 3; mkLevel "mesh" (-1); mkLevel "resources" (-1)], ESent "v", "/a.model");
     ([mkLevel "triangle" 4; mkLevel "mesh" (-1); mkLevel "resources" (-1)], EMissing "id", "/a.model")] /\
  exists H', eval_h x H = Some (H', EvPtr 3) /\ List.length H' = 4 /\ Reads H (EvPtr 0) (EErr [mkLevel "b" 0] (ESent "other") "").
Proof.
  cbv zeta. split; [repeat split|]. split; [reflexivity|]. eexists. split; [vm_compute; reflexivity|]. split; [reflexivity|].
  econstructor; [reflexivity|constructor; exact I].
Qed.

Print Assumptions C73_wrap_refuted.
Print Assumptions C73_append_refuted.
Print Assumptions C73_once_partial.
Print Assumptions C73_value_partial.
Print Assumptions C73_determined.
