(** * Theorems: renumbering the resources of a model: C89 *)
From Coq Require Import ZArith Lia Permutation.
From Verif Require Import GoBase GoFloat Types Conc M_Core M_Errors M_Geom M_Validate M_ExtValidate M_Coherency S_Core S_Errors S_Geom S_Validate S_ExtValidate S_Added S_Renumber
  P_Core P_Errors P_Geom P_Validate P_Validate2 P_ExtSlices P_Renumber T_Core T_Geom T_Validate T_ExtSlices T_Added.
From Verif Require Import Types.
Local Open Scope list_scope.

(** C89: if the resources of every part are renumbered, each part in its own way, and the references to them with them,
    Validate returns the same, error by error.  If the slices extension is declared, the parts must be renumbered in the
    same way. *)
Theorem C89_validate : forall loaded fuel m F, Renumbering m F ->
  (In slice_ns (map ex_ns (mo_exts m)) -> forall p, F p = F "") ->
  validate loaded (registry fuel) (renumber F m) = validate loaded (registry fuel) m.
Proof. intros loaded fuel m F R C. apply ren_validate; assumption. Qed.
Print Assumptions C89_validate.

(** C89: ValidateCoherency does not depend on identifiers at all. *)
Theorem C89_coherency : forall m F r, model_coherency (renumber F m) r <-> model_coherency m r.
Proof. intros m F r. apply ren_coherency. Qed.
Print Assumptions C89_coherency.

(** C89: BoundingBox returns the same boxes if all parts are renumbered in the same way. *)
Theorem C89_box_partial : forall fuel m F, Renumbering m F -> (forall p, F p = F "") ->
  forall r, model_bbox fuel (renumber F m) r <-> model_bbox fuel m r.
Proof. intros fuel m F R C r. apply ren_bbox; assumption. Qed.
Print Assumptions C89_box_partial.

(** C89: parts cannot be renumbered in different ways when there are slices, or when the box matters: references are
    looked up in the wrong part (C16, C27).  In the first model the object 3 of the part, which the build does not place,
    becomes number 2; in the second the objects of the part change numbers. *)
Definition swap (p : string) (a b : N) (q : string) (id : N) : N :=
  if seq q p then if (id =? a)%N then b else if (id =? b)%N then a else id else id.
Lemma swap_renumbering p a b m : p <> "" -> p <> root_path m -> a <> 0%N -> b <> 0%N -> Renumbering m (swap p a b).
Proof.
  intros N1 N2 A B. constructor.
  - intros q. unfold swap. destruct (seq q p); [|reflexivity]. destruct (N.eqb_spec 0 a); [congruence|]. destruct (N.eqb_spec 0 b); [congruence|reflexivity].
  - intros q x y. unfold swap. destruct (seq q p); [|auto].
    destruct (N.eqb_spec x a), (N.eqb_spec y a), (N.eqb_spec x b), (N.eqb_spec y b); intros E; congruence.
  - unfold swap. assert (E1 : seq (root_path m) p = false) by (destruct (seq_spec (root_path m) p); congruence).
    assert (E2 : seq "" p = false) by (destruct (seq_spec "" p); congruence). rewrite E1, E2. reflexivity.
Qed.
Lemma single_bbox fuel m it : bu_items (mo_build m) = [it] -> forall r, model_bbox fuel m r <-> model_bbox_seq fuel m = Some r.
Proof.
  intros E r. unfold model_bbox, model_bbox_seq. rewrite E. cbn [map]. generalize (item_task fuel m it). intros [t|]; cbn [all_some].
  - split.
    + intros (ts & A & O). injection A as <-. apply outcome_serial in O as (order & P & ->). f_equal.
      destruct t as [g|]; cbn in P |- *.
      * apply Permutation_sym, Permutation_length_1_inv in P as ->. reflexivity.
      * apply Permutation_sym, Permutation_nil in P as ->. reflexivity.
    + intros A. injection A as <-. exists [t]. split; [reflexivity|apply outcome_sequential].
  - split; [intros (ts & A & _); discriminate|discriminate].
Qed.
Definition ex_turning3 : Object := ex_cobj 3 [mkComp 1 ex_tilt []].
Theorem C89_parts_refuted :
  (exists loaded fuel m F, Renumbering m F /\ validate loaded (registry fuel) m = None /\ validate loaded (registry fuel) (renumber F m) <> None) /\
  (exists fuel m F r, Renumbering m F /\ model_bbox fuel m r /\ (forall r', model_bbox fuel m r' -> r' = r) /\ ~ model_bbox fuel (renumber F m) r).
Proof.
  split.
  - exists (fun _ => true), 3, (ex_amodel [] [ex_turning3] ex_aslices), (swap "/a.model" 3 2).
    split; [apply swap_renumbering; discriminate|]. split; [vm_compute; reflexivity|vm_compute; discriminate].
  - exists 3, ex_nested, (swap "/a.model" 2 3), (mkBox (P3 f_one f_one f_one) (P3 f_one f_one f_one)).
    split; [apply swap_renumbering; discriminate|].
    assert (E : model_bbox_seq 3 ex_nested = Some (mkBox (P3 f_one f_one f_one) (P3 f_one f_one f_one))) by (vm_compute; reflexivity).
    split; [|split].
    + apply (single_bbox 3 ex_nested (ex_item 1) eq_refl), E.
    + intros r' H. apply (single_bbox 3 ex_nested (ex_item 1) eq_refl) in H. congruence.
    + intros H. apply (single_bbox 3 (renumber (swap "/a.model" 2 3) ex_nested) (ren_item (swap "/a.model" 2 3) (ex_item 1)) eq_refl) in H.
      revert H. vm_compute. discriminate.
Qed.
Print Assumptions C89_parts_refuted.

(** The hypotheses are met by a model with slices and parts whose objects 1 and 2 are exchanged; it is not the same. *)
Definition ex_exchange (p : string) (id : N) : N := if (id =? 1)%N then 2%N else if (id =? 2)%N then 1%N else id.
Example C89_nonvacuous :
  Renumbering (ex_amodel [] [ex_turning] ex_aslices) ex_exchange /\ (forall p, ex_exchange p = ex_exchange "") /\
  renumber ex_exchange (ex_amodel [] [ex_turning] ex_aslices) <> ex_amodel [] [ex_turning] ex_aslices /\
  validate (fun _ => true) (registry 3) (ex_amodel [] [ex_turning] ex_aslices) <> None /\
  Renumbering (ex_vmodel 1 2) (swap "/a.model" 1 7) /\ renumber (swap "/a.model" 1 7) (ex_vmodel 1 2) <> ex_vmodel 1 2.
Proof.
  split; [|split; [reflexivity|]].
  - constructor; [reflexivity| |reflexivity]. intros p a b. unfold ex_exchange.
    destruct (N.eqb_spec a 1), (N.eqb_spec a 2), (N.eqb_spec b 1), (N.eqb_spec b 2); intros E; congruence.
  - split; [intros E; vm_compute in E; discriminate|]. split; [vm_compute; discriminate|].
    split; [apply swap_renumbering; discriminate|]. intros E; vm_compute in E; discriminate.
Qed.
