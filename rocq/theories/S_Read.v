(** * Specification: files that are read

    Files whose elements are where the specifications put them and whose attributes have values of their types *)
From Verif Require Import GoBase GoUtf8 Types XmlTypes S_Core S_Errors S_Decode S_Attr S_Meaning.

Section Read.
(** The namespaces of the registered extensions; whether the file is the root model *)
Context (known : string -> bool) (isroot : bool).
(** Every attribute that has a type has a value of that type; here wherever the element is, so that every attribute
    id of an element of a namespace that is not registered is a number, not only those directly in the resources. *)
Definition TypedTag (n : Name) (a : list Attr) : Prop := forall x t rq inres,
  In x a -> attr_rule known isroot inres n x = Some (t, rq) -> Flaw t (avalue x) 0.
Fixpoint Typed (t : XTree) : Prop :=
  match t with
  | XText _ _ => True
  | XElem n a kids => TypedTag n a /\ (fix all l := match l with [] => True | t :: r => Typed t /\ all r end) kids
  end.
(** Every start tag is one the reader can handle inside the elements [open], see [TameStart]. *)
Fixpoint Quiet (open : list Name) (t : XTree) : Prop :=
  match t with
  | XText _ _ => True
  | XElem n a kids =>
      TameStart (fun ns => known ns = true) open n a /\
      (fix all l := match l with [] => True | t :: r => Quiet (n :: open) t /\ all r end) kids
  end.
(** A file of one model element that is plain (S_Meaning), whose attributes are typed and whose tags can be handled *)
Definition Conforming (a : list Attr) (kids : list XTree) : Prop :=
  PlainFile known isroot a kids /\ Typed (XElem (cn "model") a kids) /\ Quiet [] (XElem (cn "model") a kids).
End Read.
