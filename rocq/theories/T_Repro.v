(** * Theorems: saving a model twice: C83 *)
From Coq Require Import Permutation.
From Verif Require Import GoBase GoNum GoFloat Types PkgTypes XmlTypes M_Core M_Xml M_Printer M_Decode M_Encode M_Package M_Decoder S_Repro S_PkgTrip P_Revalid2 P_Repro T_PkgTrip.
From Verif Require Import Types.
Local Open Scope list_scope.

(** What holds: whatever the orders of the iterations over the children are, two saves of a model give the same
    relationships of the package, the same attachments and the same root model up to the order of its relationships,
    and the same children in some order.  Missing: these orders, see C83_refuted. *)
Theorem C83_same_partial : forall normalize resolve refuses p m order1 order2 order1' order2' w w',
  NoDup (map fst (mo_childs m)) ->
  Permutation order1 (mo_childs m) -> Permutation order2 (mo_childs m) -> Permutation order1' (mo_childs m) -> Permutation order2' (mo_childs m) ->
  encode normalize resolve refuses p order1 order2 m = Some w -> encode normalize resolve refuses p order1' order2' m = Some w' ->
  SameSave w w'.
Proof.
  intros * ND O1 O2 O1' O2'. rewrite !encode_parts. destruct (accepts _ _ _); [|discriminate]. destruct (accepts _ _ _); [|discriminate]. intros [= <-] [= <-].
  split; [reflexivity|]. exists (map (att_part normalize) (mo_atts m)), (root_part normalize p m order1), (root_part normalize p m order1'),
    (map (child_part normalize resolve p m) order2), (map (child_part normalize resolve p m) order2').
  split; [reflexivity|]. split; [reflexivity|]. split.
  - split; [reflexivity|]. split; [reflexivity|]. split; [reflexivity|]. apply root_rels.
    + exact (Permutation_trans O1 (Permutation_sym O1')).
    + exact (Permutation_NoDup (Permutation_map fst (Permutation_sym O1)) ND).
  - apply Permutation_map. exact (Permutation_trans O2 (Permutation_sym O2')).
Qed.
Print Assumptions C83_same_partial.
(** With one child at most, there is one result. *)
Theorem C83_one_child_partial : forall normalize resolve refuses p m order1 order2 order1' order2',
  List.length (mo_childs m) <= 1 ->
  Permutation order1 (mo_childs m) -> Permutation order2 (mo_childs m) -> Permutation order1' (mo_childs m) -> Permutation order2' (mo_childs m) ->
  encode normalize resolve refuses p order1 order2 m = encode normalize resolve refuses p order1' order2' m.
Proof.
  intros * L O1 O2 O1' O2'. destruct (mo_childs m) as [|x [|y l]]; [| |cbn in L; lia].
  - apply Permutation_sym, Permutation_nil in O1, O2, O1', O2'. congruence.
  - apply Permutation_sym, Permutation_length_1_inv in O1, O2, O1', O2'. congruence.
Qed.
Print Assumptions C83_one_child_partial.
(** If the library refuses parts regardless of their order, all saves fail or none. *)
Theorem C83_success : forall normalize resolve refuses p m order1 order2 order1' order2',
  OrderBlind refuses ->
  Permutation order1 (mo_childs m) -> Permutation order2 (mo_childs m) -> Permutation order1' (mo_childs m) -> Permutation order2' (mo_childs m) ->
  (encode normalize resolve refuses p order1 order2 m = None <-> encode normalize resolve refuses p order1' order2' m = None).
Proof.
  intros * (bad & clash & SY & RE) O1 O2 O1' O2'. rewrite !encode_parts.
  assert (B1 : forall l s s', Permutation s s' -> accepts refuses s l = accepts refuses s' l).
  { induction l as [|x l IH]; intros s s' P; [reflexivity|]. cbn [accepts]. rewrite !RE, (existsb_perm _ _ _ P). f_equal. apply IH, Permutation_app_tail, P. }
  assert (B2 : forall l l', Permutation l l' -> forall s, accepts refuses s l = accepts refuses s l').
  { intros l l' P. induction P as [|x l l' P IH|x y l|l l1 l2 P1 IH1 P2 IH2]; intros s; [reflexivity|cbn [accepts]; rewrite IH; reflexivity| |rewrite IH1; apply IH2].
    cbn [accepts]. rewrite !RE, !existsb_app. cbn [existsb]. rewrite !orb_false_r, (SY (pt_name x) (pt_name y)).
    rewrite (B1 l ((s ++ [pt_name y]) ++ [pt_name x]) ((s ++ [pt_name x]) ++ [pt_name y])) by (rewrite <- !app_assoc; apply Permutation_app_head, perm_swap).
    destruct (bad (pt_name y) _), (existsb (clash (pt_name y)) s), (bad (pt_name x) _), (existsb (clash (pt_name x)) s), (clash (pt_name y) (pt_name x)); reflexivity. }
  assert (E : accepts refuses [] (parts normalize resolve p m order1 order2) = accepts refuses [] (parts normalize resolve p m order1' order2')).
  { unfold parts. rewrite !accepts_app. f_equal. cbn [accepts]. f_equal. apply B2, Permutation_map. exact (Permutation_trans O2 (Permutation_sym O2')). }
  rewrite E. match goal with |- context [if ?c then _ else _] => destruct c end; split; intros ?; first [reflexivity|discriminate].
Qed.
Print Assumptions C83_success.

(** ** False in general: two children, each with an attachment *)
Definition twin (n : string) : string * Child := ("/3D/" +++ n +++ ".model", mkChild res_zero [mkRel ("/" +++ n +++ ".txt") "http://x" ""] []).
Definition twins_model : Model :=
  mkModel "" "" 0 "" res_zero (mkBuild [] []) [mkAtt "1" "/a.txt" "text/plain"; mkAtt "2" "/b.txt" "text/plain"] [] [] [twin "a"; twin "b"] [] [] [] [].
Definition save (order1 order2 : list (string * Child)) : option Pkg := encode (fun n => n) (fun _ n => n) (fun _ _ _ => false) 4 order1 order2 twins_model.
(** The parts come in two orders, independently the relationships of the root model, and the attachments of the model
    that is read too. *)
Theorem C83_refuted : exists w w', save [twin "a"; twin "b"] [twin "a"; twin "b"] = Some w /\ save [twin "b"; twin "a"] [twin "b"; twin "a"] = Some w' /\
  map pt_name (pk_parts w) <> map pt_name (pk_parts w') /\ map pt_rels (pk_parts w) <> map pt_rels (pk_parts w') /\
  exists m1 n1 f1 m2 n2 f2, process_opc (fun _ n => n) (read_of w) model_zero = Some (m1, n1, f1) /\
    process_opc (fun _ n => n) (read_of w') model_zero = Some (m2, n2, f2) /\ map at_path (mo_atts m1) = ["/a.txt"; "/b.txt"] /\ map at_path (mo_atts m2) = ["/b.txt"; "/a.txt"].
Proof.
  eexists. eexists. split; [vm_compute; reflexivity|]. split; [vm_compute; reflexivity|]. split; [vm_compute; discriminate|]. split; [vm_compute; discriminate|].
  do 6 eexists. split; [vm_compute; reflexivity|]. split; [vm_compute; reflexivity|]. split; reflexivity.
Qed.
Print Assumptions C83_refuted.
Example C83_nonvacuous : NoDup (map fst (mo_childs twins_model)) /\ Permutation [twin "b"; twin "a"] (mo_childs twins_model) /\
  OrderBlind (fun l n c => seq c "" || existsb (fun k => seq (slower n) (slower k)) l) /\ (exists w, save [twin "b"; twin "a"] [twin "a"; twin "b"] = Some w).
Proof.
  split; [repeat constructor; cbn; intuition discriminate|]. split; [apply perm_swap|]. split; [|eexists; vm_compute; reflexivity].
  exists (fun _ c => seq c ""), (fun n k => seq (slower n) (slower k)). split; [|reflexivity]. intros n k. destruct (seq_spec (slower n) (slower k)) as [->|H]; [symmetry; apply seq_refl|]. symmetry. apply seq_false. congruence.
Qed.
