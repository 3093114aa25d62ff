(** * C62: error texts and testing for errors *)
From Verif Require Import GoBase GoNum GoFloat Types M_Errors S_Errors P_Errors M_ErrText S_ErrText P_ErrText M_Validate S_Validate T_Validate.

(** C62: the text of an error has one line per violation, in order, with its number, part, location and message. *)
Theorem C62_text : forall message e, BuiltErr e -> TextOf message e (err_text message e).
Proof. exact text_of. Qed.
Print Assumptions C62_text.
(** The functions of the package build such errors *)
Theorem C62_built : forall e n i p errs, BuiltErr_o e -> (-1 <= i)%Z -> Forall BuiltErr_o errs ->
  BuiltErr_o (wrap e n) /\ BuiltErr_o (wrap_index e n i) /\ BuiltErr_o (wrap_path e n p) /\ BuiltErr_o (append e errs).
Proof.
  intros e n i p errs He Hi H. split; [|split; [|split; [|apply built_append; assumption]]]; (destruct e as [e|]; [|exact I]).
  - apply (built_index e n (-1)); [lia|exact He].
  - apply built_index; assumption.
  - apply built_path. exact He.
Qed.
Print Assumptions C62_built.
(** C62, partial: errors.Is finds the first violation that was reported, and only that one. *)
Theorem C62_is_partial : forall e s, BuiltErr e ->
  (errors_is (Some e) s = true <-> exists loc p r, located_o (Some e) = (loc, p, ESent s) :: r).
Proof. intros e s. apply is_first. Qed.
Print Assumptions C62_is_partial.
(** Whatever error is located, even one that locates another, and however often: errors.Is says the same of it. *)
Theorem C62_wrapped : forall e n i p s,
  errors_is (wrap e n) s = errors_is e s /\ errors_is (wrap_index e n i) s = errors_is e s /\ errors_is (wrap_path e n p) s = errors_is e s /\ forall t x q, e = Some (EErr t x q) -> errors_is e s = errors_is (Some x) s.
Proof.
  intros [e|] n i p s; [|repeat split; intros; discriminate]. unfold wrap. cbn [wrap_index wrap_path errors_is].
  set (g := fun x => match x with ESent s0 => seq s0 s | _ => false end).
  assert (HI : forall j, existsb g (chain (wrap_index1 e n j)) = existsb g (chain e)).
  { intros j. induction e as [x|f|a r|t x q IH|l IH] using gerr_ind'; try reflexivity. destruct l as [|x l]; [reflexivity|].
    cbn [wrap_index1 map chain existsb g orb]. inversion IH; assumption. }
  assert (HP : existsb g (chain (wrap_path1 e n p)) = existsb g (chain e)).
  { clear HI. induction e as [x|f|a r|t x q IH|l IH] using gerr_ind'; try reflexivity. destruct l as [|x l]; [reflexivity|].
    cbn [wrap_path1 map chain existsb g orb]. inversion IH; assumption. }
  split; [apply HI|]. split; [apply HI|]. split; [exact HP|]. intros t x q [= ->]. reflexivity.
Qed.
Print Assumptions C62_wrapped.
(** C62 is false of errors.Is: Validate reports that an item refers to an unknown object, and errors.Is says it does not. *)
Theorem C62_is_refuted : exists m loc p,
  In (loc, p, ESent "ErrMissingResource") (located_o (validate (fun _ => false) (fun _ => None) m)) /\
  errors_is (validate (fun _ => false) (fun _ => None) m) "ErrMissingResource" = false.
Proof.
  exists (ex_vmodel 2 5), [mkLevel "model" (-1); mkLevel "build" (-1); mkLevel "item" 0], "".
  split; [|vm_compute; reflexivity]. vm_compute. auto 10.
Qed.
Print Assumptions C62_is_refuted.
Example C62_nonvacuous :
  BuiltErr (EList [EErr [mkLevel "item" 3; mkLevel "build" (-1)] (ESent "ErrMissingResource") "/a.model"; EMissing "id"]) /\
  err_text (fun s => s) (EList [EErr [mkLevel "item" 3; mkLevel "build" (-1)] (ESent "ErrMissingResource") "/a.model"; EMissing "id"]) =
    "2 errors occurred:" +++ nl +++ tab +++ "* go3mf: Path: /a.model XPath: /build/item[3]: ErrMissingResource" +++ nl +++ tab +++
    "* required field 'id' is not set" +++ nl /\
  errors_is (Some (EList [EErr [mkLevel "item" 3; mkLevel "build" (-1)] (ESent "ErrMissingResource") "/a.model"; EMissing "id"])) "ErrMissingResource" = true.
Proof.
  split; [|split; reflexivity]. apply BList; [discriminate|]. constructor; [|constructor; [constructor; exact I|constructor]].
  apply BErr; [exact I|discriminate|]. repeat constructor; cbn; lia.
Qed.
