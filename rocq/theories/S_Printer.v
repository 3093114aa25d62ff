(** * Specification of the XML printer: which documents are printed faithfully *)
From Verif Require Import GoBase GoUtf8 GoFloat Types XmlTypes S_Xml.

(** A name without prefix *)
Definition NameStr (s : string) : Prop :=
  s <> "" /\ (forall c, In c (chars s) -> NameByte c /\ c <> ":"%char).
(** Text without bytes that have a meaning in an attribute value *)
Definition PlainText (s : string) : Prop :=
  forall c, In c (chars s) -> ~ In c ["<"%char; "&"%char; """"%char; "'"%char; byte 13].
(** The namespaces declared on the root element: the default one, and the prefixes with their namespace *)
Record Env := mkEnv { en_default : option string; en_decl : list (string * string) }.
Definition Declared (e : Env) (u : string) : Prop := u <> "" /\ exists p, aget seq p (en_decl e) = Some u.
Definition nsxml : string := "http://www.w3.org/XML/1998/namespace".
(** An attribute that is no declaration, in no namespace, that of xml, or a declared one *)
Definition AttrFits (e : Env) (skip : bool) (a : Attr) : Prop :=
  NameStr (nlocal (aname a)) /\
  ((nspace (aname a) = "" /\ nlocal (aname a) <> "xmlns") \/ nspace (aname a) = nsxml \/ Declared e (nspace (aname a))) /\
  (if skip then PlainText (avalue a) else XmlText (avalue a)).
(** A tag whose namespace is the default one or a declared one; none stands for the default one *)
Definition TagFits (e : Env) (n : Name) : Prop :=
  NameStr (nlocal n) /\ nlocal n <> "xmlns" /\
  (nspace n = "" \/ Some (nspace n) = en_default e \/ Declared e (nspace n)).
(** The attributes of the root: declarations of new prefixes, and others that fit those made so far *)
Inductive RootAttrs : Env -> list Attr -> Env -> Prop :=
| RaNil e : RootAttrs e [] e
| RaDefault ds u r e' : XmlText u -> RootAttrs (mkEnv (Some u) ds) r e' ->
    RootAttrs (mkEnv None ds) (mkAttr (mkName "" "xmlns") u :: r) e'
| RaPrefix df ds p u r e' : NameStr p -> p <> "xml" -> p <> "xmlns" -> aget seq p ds = None -> XmlText u -> u <> "xmlns" ->
    RootAttrs (mkEnv df ((p, u) :: ds)) r e' -> RootAttrs (mkEnv df ds) (mkAttr (mkName "xmlns" p) u :: r) e'
| RaOther e a r e' : AttrFits e false a -> RootAttrs e r e' -> RootAttrs e (a :: r) e'.
(** [Emits e auto skip open ops ts]: with the elements [open] open, the operations describe the tokens [ts] and
    close everything.  In auto-close mode a start tag stands for an empty element. *)
Inductive Emits (e : Env) : bool -> bool -> list Name -> list op -> list Token -> Prop :=
| EmNil au sk : Emits e au sk [] [] []
| EmStart sk n a m o ops ts : TagFits e n -> Forall (AttrFits e sk) a -> Emits e false sk (n :: m :: o) ops ts ->
    Emits e false sk (m :: o) (OpTok (TStart n a) :: ops) (TStart n a :: ts)
| EmEmpty sk n a m o ops ts : TagFits e n -> Forall (AttrFits e sk) a -> Emits e true sk (m :: o) ops ts ->
    Emits e true sk (m :: o) (OpTok (TStart n a) :: ops) (TStart n a :: TEnd n :: ts)
| EmEnd au sk n o ops ts : Emits e au sk o ops ts -> Emits e au sk (n :: o) (OpTok (TEnd n) :: ops) (TEnd n :: ts)
| EmChar au sk s m o ops ts : XmlText s -> Emits e au sk (m :: o) ops ts ->
    Emits e au sk (m :: o) (OpTok (TChar s) :: ops) (TChar s :: ts)
| EmAuto au sk b o ops ts : Emits e b sk o ops ts -> Emits e au sk o (OpAuto b :: ops) ts
| EmSkip au sk b o ops ts : Emits e au b o ops ts -> Emits e au sk o (OpSkip b :: ops) ts
| EmRel au sk r o ops ts : Emits e au sk o ops ts -> Emits e au sk o (OpRel r :: ops) ts.
(** The name meant: an element without namespace is in the default one *)
Definition qual (e : Env) (n : Name) : Name :=
  if seq (nspace n) "" then mkName (match en_default e with Some u => u | None => "" end) (nlocal n) else n.
Definition qtok (e : Env) (t : Token) : Token :=
  match t with TStart n a => TStart (qual e n) a | TEnd n => TEnd (qual e n) | TChar s => TChar s end.
(** Adjacent texts are one text, and an empty text is none. *)
Definition text_tok (p : string) : list Token := if seq p "" then [] else [TChar p].
Fixpoint join_texts (p : string) (ts : list Token) : list Token :=
  match ts with
  | [] => text_tok p
  | TChar s :: r => join_texts (p +++ s) r
  | t :: r => text_tok p ++ t :: join_texts "" r
  end.
(** A whole document *)
Definition Document (e : Env) (ops : list op) (ts : list Token) : Prop :=
  exists n a r ts', ops = OpTok (TStart n a) :: r /\ ts = TStart n a :: ts' /\
    NameStr (nlocal n) /\ nlocal n <> "xmlns" /\ (nspace n = "" \/ Some (nspace n) = en_default e) /\
    RootAttrs (mkEnv None []) a e /\ Emits e false false [n] r ts'.
