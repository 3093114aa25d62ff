(** * Specification of the decoder of model files *)
From Verif Require Import GoBase GoUtf8 GoFloat Types XmlTypes.

(** ** Documents on which decoding cannot panic *)
(** The extensions the program knows *)
Definition Known := string -> Prop.
Definition core_name (l : string) : Name := mkName ns_core l.
(** The element of the core specification named [l] may carry attributes of the known namespace [ns]. *)
Definition Carries (l ns : string) : Prop :=
  (ns = ns_production /\ In l ["build"; "item"; "object"; "component"]) \/ (ns = ns_slices /\ l = "object").
(** A start tag inside the elements [open] (innermost first) that the decoder can handle:
    - it has a name;
    - there is one model element, it is not inside another one, nothing starts after it (see [Tame]);
    - no element of the core specification is inside one with the same name;
    - attributes of the known extensions are only where the extension defines some;
    - a beam lattice inside resources is a child of the mesh of an object of the resources of the model. *)
Definition TameStart (known : Known) (open : list Name) (n : Name) (a : list Attr) : Prop :=
  n <> mkName "" "" /\
  (nspace n = ns_core -> ~ In n open) /\
  (nspace n = ns_core -> forall x, In x a -> known (nspace (aname x)) -> Carries (nlocal n) (nspace (aname x))) /\
  (n = mkName ns_beam "beamlattice" -> known ns_beam -> In (core_name "resources") open ->
     open = [core_name "mesh"; core_name "object"; core_name "resources"; core_name "model"]).
(** [closed]: the model element has ended *)
Inductive Tame (known : Known) : bool -> list Name -> list Token -> Prop :=
| TaNil closed open : Tame known closed open []
| TaStart open n a ts : TameStart known open n a -> Tame known false (n :: open) ts -> Tame known false open (TStart n a :: ts)
| TaEnd closed open n ts : n <> core_name "model" -> Tame known closed open ts -> Tame known closed (n :: open) (TEnd n :: ts)
| TaModel closed open ts : Tame known true open ts -> Tame known closed (core_name "model" :: open) (TEnd (core_name "model") :: ts)
| TaChar closed open s ts : Tame known closed open ts -> Tame known closed open (TChar s :: ts).

(** ** Errors *)
(** [g] is the first of the errors of [x] *)
Definition FirstOf (g x : gerr) : Prop := x = g \/ exists r, r <> [] /\ x = EList (g :: r).

(** ** Unknown elements *)
(** The tokens of an element without text in which no element has the name of the element itself *)
Definition PlainElement (n : Name) (a : list Attr) (inner : list Token) : Prop :=
  (forall s, ~ In (TChar s) inner) /\ (forall b, ~ In (TStart n b) inner) /\ ~ In (TEnd n) inner.
