(** * Theorems on what the checks look at: C92 *)
From Coq Require Import Permutation.
From Verif Require Import GoBase GoFloat Types M_Core M_Errors M_Geom M_Validate M_ExtValidate M_Coherency S_Core S_Same P_Core P_Same T_Coherency.
From Verif Require Import Types.
Local Open Scope list_scope.

(** C92: Validate, ValidateCoherency and BoundingBox return the same, whatever the order in which the map of parts is
    iterated and whatever the language, units, thumbnail, unknown content, contents of attachments and prefixes. *)
Theorem C92_validate : forall fuel loaded m m', NoDup (map fst (mo_childs m)) -> Same m m' ->
  validate loaded (registry fuel) m' = validate loaded (registry fuel) m.
Proof. intros fuel loaded m m' D S. apply sa_validate; assumption. Qed.
Print Assumptions C92_validate.
Theorem C92_box : forall fuel m m' r, NoDup (map fst (mo_childs m)) -> Same m m' ->
  (model_bbox fuel m' r <-> model_bbox fuel m r).
Proof. intros fuel m m' r D S. apply sa_bbox; assumption. Qed.
Print Assumptions C92_box.
Theorem C92_coherency : forall m m' r, Same m m' -> (model_coherency m' r <-> model_coherency m r).
Proof. intros m m' r S. apply sa_coherency, S. Qed.
Print Assumptions C92_coherency.
(** So do the lookups. *)
Theorem C92_lookups : forall m m' path id, NoDup (map fst (mo_childs m)) -> Same m m' ->
  find_resources m' path = find_resources m path /\ find_object m' path id = find_object m path id /\
  find_asset m' path id = find_asset m path id.
Proof.
  intros m m' path id D S. split; [apply sa_resources|split; [apply sa_object|apply sa_asset]]; assumption.
Qed.
Print Assumptions C92_lookups.

(** Two parts, one with an object of a bad mesh, the other with one without an identifier *)
Definition part_a : string * Child := ("/a.model", mkChild (mkRes [] [coh_obj 0 flipped] []) [mkRel "/t.png" "thumb" "1"] []).
Definition part_b (any : list AnyElem) : string * Child := ("/b.model", mkChild (mkRes [] [obj_zero] []) [] any).
Definition two_parts (lang : string) (units : N) (data : string) (pre : string) (cs : list (string * Child)) : Model :=
  mkModel "" lang units "" (mkRes [] [coh_obj 0 tetra] []) (mkBuild [] []) [mkAtt data "/t.png" "image/png"] [mkExt "ns" pre false] [] cs [] [] [] [].
Definition in_order : Model := two_parts "en" 0 "abc" "p" [part_a; part_b []].
Definition out_of_order : Model := two_parts "de" 3 "xyz" "q" [part_b [AnyTokens []]; part_a].
Example C92_nonvacuous : NoDup (map fst (mo_childs in_order)) /\ Same in_order out_of_order /\
  validate (fun _ => true) (registry 3) in_order <> None /\ (exists r, model_coherency in_order r /\ r <> None).
Proof.
  split; [constructor; [intros [H|[]]; discriminate|constructor; [intros []|constructor]]|].
  split; [constructor; try reflexivity; apply perm_swap|]. split; [discriminate|].
  destruct (C18_model_coherency in_order) as ((r & H) & K & _).
  - constructor; [intros [H|[]]; discriminate|constructor; [intros []|constructor]].
  - intros [H|[H|[]]]; discriminate.
  - intros p i o me [j o' H|p' c j o' H H'] M.
    + destruct j as [|[|j]]; cbn in H; try discriminate. injection H as <-. injection M as <-. reflexivity.
    + destruct H as [H|[H|[]]]; injection H as <- <-; destruct j as [|[|j]]; cbn in H'; try discriminate; injection H' as <-; [|discriminate].
      injection M as <-. reflexivity.
  - exists r. split; [exact H|]. destruct (K r H) as (_ & _ & E). intros ->. destruct E as [E _]. apply (E eq_refl (S_Coherency.mesh_location 0, "/a.model", ESent "ErrMeshConsistency")).
    exists "/a.model", 0, (coh_obj 0 flipped), flipped, (ESent "ErrMeshConsistency").
    split; [eapply S_Coherency.AtChild; [left|]; reflexivity|]. split; [left; reflexivity|]. split; [reflexivity|]. split; [apply C17_nonvacuous|reflexivity].
Qed.
