(** * Theorems about the encoder *)
From Coq Require Import ZArith.
From Verif Require Import GoBase GoNum GoUtf8 GoFloat GoStrconv Types XmlTypes M_Core M_Text M_Printer M_Encode M_Xml M_Decode S_Xml S_Encode P_Encode.

(** ** C45 *)
(** A model is written balanced if its unknown elements are. *)
Theorem C45_balanced_partial prec m : (forall ts, ModelTokens m ts -> Nests [] ts []) -> Balances false [] (write_model prec m) false [].
Proof. intros H. apply bal_model, H. Qed.
Print Assumptions C45_balanced_partial.
Theorem C45_child_partial prec m c : (forall ts, ChildTokens c ts -> Nests [] ts []) -> Balances false [] (write_child prec m c) false [].
Proof. intros H. apply bal_child, H. Qed.
(** The condition is needed, and decoding does not establish it: an element inside an element of its own name is read
    without error, and what is written afterwards is not XML. *)
Lemma bal_fun a o ops a1 o1 : Balances a o ops a1 o1 -> forall a2 o2, Balances a o ops a2 o2 -> a1 = a2 /\ o1 = o2.
Proof. induction 1; intros a2 o2 H2; inversion H2; subst; auto. Qed.
Definition nested_doc : string :=
  "<model xmlns=""http://schemas.microsoft.com/3dmanufacturing/core/2015/02"" xmlns:x=""x""><x:a><x:a/></x:a></model>".
Theorem C45_refuted : exists m n d, unmarshal_model (mkReg true true true true) nested_doc model_zero = DRet m DNone n d /\
  ~ (exists a o, Balances false [] (write_model 4 m) a o) /\
  exists evs e d', scan XEOF (marshal_model m) = SDone evs e d' /\ e <> XEOF.
Proof.
  eexists _, _, _. split; [vm_compute; reflexivity|]. split.
  - intros (a & o & H). vm_compute in H. repeat match goal with H : Balances _ _ (_ :: _) _ _ |- _ => inversion H; subst; clear H end.
  - eexists _, _, _. split; [vm_compute; reflexivity|]. discriminate.
Qed.
Print Assumptions C45_refuted.
Example C45_nonvacuous : exists m, mo_any m <> [] /\ (exists ts, ModelTokens m ts) /\ forall ts, ModelTokens m ts -> Nests [] ts [].
Proof.
  exists (mo_set_any [AnyTokens [TStart (mkName "x" "a") []; TChar "t"; TEnd (mkName "x" "a")]] model_zero).
  split; [discriminate|]. split; [eexists; right; left; reflexivity|].
  intros ts [[(id & [])|(o & me & [] & _)]|[E|[]]]. injection E as <-. repeat constructor.
Qed.

(** ** C44 *)
(** Only the first element of an Any list is written: two models that differ give the same text. *)
Theorem C44_refuted : exists m m', mo_any m <> mo_any m' /\ marshal_model m = marshal_model m'.
Proof.
  pose (e l := AnyTokens [TStart (mkName "" l) []; TEnd (mkName "" l)]).
  exists (mo_set_any [e "a"; e "b"] model_zero), (mo_set_any [e "a"] model_zero). split; [discriminate|vm_compute; reflexivity].
Qed.
Print Assumptions C44_refuted.
(** What holds: an Any list of at most one element is written completely. *)
Theorem C44_single_partial prec l : List.length l <= 1 -> write_any prec l = flat_map (write_any1 prec) l.
Proof. destruct l as [|e [|e2 l]]; cbn; intros H; [reflexivity|rewrite app_nil_r; reflexivity|lia]. Qed.
Example C44_nonvacuous : List.length [AnyExt (XColorGroup (mkCG 1 [rgba_zero]))] <= 1 /\
  write_any 4 [AnyExt (XColorGroup (mkCG 1 [rgba_zero]))] <> [].
Proof. split; [cbn; lia|discriminate]. Qed.
