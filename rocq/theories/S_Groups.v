(** * Specification: the attributes of an element, by namespace *)
From Verif Require Import GoBase Types XmlTypes.

(** The attributes of one namespace, in their order. *)
Definition of_space (ns : string) (l : list Attr) : list Attr := filter (fun a => seq (nspace (aname a)) ns) l.
(** The attributes that have a namespace. *)
Definition qualified (l : list Attr) : list Attr := filter (fun a => negb (seq (nspace (aname a)) "")) l.
(** A list without the repetitions of what came before. *)
Fixpoint once (l : list string) : list string :=
  match l with [] => [] | x :: r => x :: filter (fun y => negb (seq y x)) (once r) end.
(** The namespace a group of attributes belongs to. *)
Definition space_of (g : AttrGroup) : string :=
  match g with
  | GUnknown ns _ => ns
  | GSlice _ _ => ns_slices
  | _ => ns_production
  end.
(** Two lists of attributes that differ in how the namespaces are mixed only. *)
Definition SameBySpace (l l' : list Attr) : Prop := forall ns, of_space ns l = of_space ns l'.
