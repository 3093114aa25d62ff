(** * Theorems: what is saved is well-formed XML: C78 *)
From Coq Require Import ZArith.
From Verif Require Import GoBase GoNum GoUtf8 GoFloat Types XmlTypes M_Core M_Errors M_Validate M_ExtValidate M_Text M_Xml M_Decode M_Printer M_Encode
  S_Core S_Xml S_Printer S_Lex S_RoundTrip S_WellFormed P_RTText P_WellFormed P_Saved P_Malformed T_RoundTrip.

(** The model part, as written by MarshalModel (without the XML declaration) and by Encode (with it), at any precision.
    Missing: names that are not XML names, namespaces without an extension that declares them, and elements that are kept
    with declarations of their own; see below for what becomes of those. *)
Theorem C78_well_formed_partial prec m : ModelOk m -> WellFormed (print (write_model prec m)) /\ WellFormed (xml_header +++ print (write_model prec m)).
Proof.
  intros H. pose proof (model_written prec m H) as W. split; [left; exact W|right]. exists (print (write_model prec m)). split; [exact W|].
  unfold xml_header. rewrite sapp_assoc. reflexivity.
Qed.
Print Assumptions C78_well_formed_partial.
(** The parts of child models *)
Theorem C78_child_partial prec m c : ChildOk m c -> WellFormed (xml_header +++ print (write_child prec m c)).
Proof.
  intros H. pose proof (child_written prec m c H) as W. right. exists (print (write_child prec m c)). split; [exact W|].
  unfold xml_header. rewrite sapp_assoc. reflexivity.
Qed.
Print Assumptions C78_child_partial.

(** ** Models that are not *)
Lemma not_well_formed r : checks (String "<" (String "m" r)) = false ->
  ~ WellFormed (String "<" (String "m" r)) /\ ~ WellFormed (xml_header +++ String "<" (String "m" r)).
Proof.
  intros H. pose proof (malformed _ H) as M. split.
  - intros [W|(q & _ & E)]; [exact (M W)|discriminate E].
  - intros [W|(q & W & E)].
    + revert W. apply malformed. reflexivity.
    + unfold xml_header in E. cbn [String.append str1] in E. injection E as E. apply M. rewrite E. exact W.
Qed.
(** An element that declares its own prefix is kept when a file is read, and then saved with another name in its start
    tag than in its end tag: <a xmlns:y="u"></y:a>.  The reader refuses what was saved. *)
Definition local_doc : string :=
  "<model xmlns=""http://schemas.microsoft.com/3dmanufacturing/core/2015/02"" unit=""millimeter"" xml:lang=""en-US""><resources></resources><build></build><y:a xmlns:y=""u""></y:a></model>".
Theorem C78_local_refuted : exists doc m n d m' e n' d', unmarshal_model reg_all doc model_zero = DRet m DNone n d /\
  (forall fuel, validate (fun _ => true) (registry (S fuel)) m = None) /\
  (~ WellFormed (marshal_model m) /\ ~ WellFormed (xml_header +++ marshal_model m)) /\
  unmarshal_model reg_all (marshal_model m) model_zero = DRet m' (DScan (XSyntax e)) n' d'.
Proof.
  exists local_doc. eexists _, _, _, _, _, _, _. split; [vm_compute; reflexivity|]. split; [intros fuel; vm_compute; reflexivity|]. split; [|vm_compute; reflexivity].
  match goal with |- ~ WellFormed (marshal_model ?m) /\ _ => set (s := marshal_model m); vm_compute in s; subst s end. apply not_well_formed. vm_compute. reflexivity.
Qed.
Print Assumptions C78_local_refuted.
(** Attributes of a namespace that no extension of the model declares have the namespace itself for a prefix. *)
Definition undeclared_model : Model :=
  mkModel "" "en-US" 0 "" (mkRes [] [] []) (mkBuild [] [GBuild rt_uuid]) [] [] [] [] [] [] [] [].
Theorem C78_undeclared_refuted : exists m m' e n' d', (forall fuel, validate (fun _ => true) (registry (S fuel)) m = None) /\
  (~ WellFormed (marshal_model m) /\ ~ WellFormed (xml_header +++ marshal_model m)) /\
  unmarshal_model reg_all (marshal_model m) model_zero = DRet m' (DScan (XSyntax e)) n' d'.
Proof.
  exists undeclared_model. eexists _, _, _, _. split; [intros fuel; vm_compute; reflexivity|]. split; [|vm_compute; reflexivity].
  match goal with |- ~ WellFormed (marshal_model ?m) /\ _ => set (s := marshal_model m); vm_compute in s; subst s end. apply not_well_formed. vm_compute. reflexivity.
Qed.
Print Assumptions C78_undeclared_refuted.

(** ** Not vacuous *)
Local Notation ex := (mo_exts rt_example).
Lemma ex_nil raw : AnyOk ex raw [].
Proof. split; [constructor|]. split; [constructor|]. intros _. constructor. Qed.
Lemma ex_name ns l : In ns [ns_production; "http://x"] -> word_name l = true -> NameOk ex (mkName ns l).
Proof. intros H W. split; [apply word_nc, W|]. right. unfold Has. cbn [map In ex_ns mo_exts rt_example nspace]. destruct H as [<-|[<-|[]]]; auto. Qed.
Lemma ex_one g ns l : attr_names g = [mkName ns l] -> In ns [ns_production; "http://x"] -> word_name l = true -> AnyOk ex false [g].
Proof.
  intros E H W. unfold AnyOk. cbn [flat_map]. rewrite E. cbn [app]. split; [constructor; [intros []|constructor]|]. split; [constructor; [apply ex_name; assumption|constructor]|discriminate].
Qed.
Ltac one := first [apply ex_nil | eapply ex_one; [reflexivity|cbn; auto|reflexivity]].
Definition rt_child : Child := mkChild (mo_res rt_example) [] [].
Example C78_nonvacuous : ModelOk rt_example /\ ChildOk rt_example rt_child.
Proof.
  assert (R : ResOk ex (mo_res rt_example)).
  { split; [one|]. split.
    - constructor; [split; [one|]; constructor; [one|]; constructor; [one|constructor]|]. constructor; [|constructor]. constructor; [|constructor]. repeat split; reflexivity.
    - constructor; [|constructor; [|constructor]].
      + split; [one|]. split; [one|]. split; [|discriminate]. intros me E. injection E as <-. split; [one|]. split; [one|]. split; [one|]. split.
        * cbn [me_tris]. repeat (apply ToCons; [one|left; reflexivity|]). constructor.
        * constructor; [|constructor]. cbn [ElemOk].
          apply (FoElem ex (mkName "http://x" "tag") _ [TStart (mkName "http://x" "inner") []; TEnd (mkName "http://x" "inner")] []); [apply word_nc; reflexivity|constructor; [intros []|constructor]| | |constructor].
          -- constructor; [|constructor]. right. split; [apply word_nc; reflexivity|]. split; [reflexivity|discriminate].
          -- apply (FoElem ex (mkName "http://x" "inner") [] [] []); [apply word_nc; reflexivity|constructor..].
      + split; [one|]. split; [one|]. split; [discriminate|]. intros c E. injection E as <-. split; [one|]. constructor; [|constructor]. cbn [co_any].
        unfold AnyOk. cbn [flat_map attr_names]. change (seq "/3D/other.model" "") with false. cbv iota. cbn [app]. split; [|split; [|discriminate]].
        * constructor; [intros [H|[]]; discriminate H|]. constructor; [intros []|constructor].
        * constructor; [apply ex_name; [cbn; auto|reflexivity]|]. constructor; [apply ex_name; [cbn; auto|reflexivity]|constructor]. }
  assert (H : HeadOk ex rt_example).
  { split; [|split; [one|]].
    - split; [cbn [map ex_local mo_exts rt_example]; repeat (constructor; [cbn [In]; intuition discriminate|]); constructor|].
      cbn [mo_exts rt_example]. repeat (constructor; [split; [apply word_nc; reflexivity|]; split; [discriminate|]; split; [discriminate|]; split; [apply printable_xml; reflexivity|]; cbn [In ex_ns]; intuition discriminate|]). constructor.
    - cbn [In]. intros [E|[]]. discriminate E. }
  split; (split; [exact H|]); (split; [exact R|]).
  - split; [|constructor]. split; [one|]. constructor; [|constructor]. split; one.
  - constructor.
Qed.
