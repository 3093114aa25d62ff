(** * Specification of the XML scanner *)
From Verif Require Import GoBase GoUtf8 GoFloat Types XmlTypes.

(** ** Nesting.  [Nests open ts open']: reading the tokens [ts] with the elements [open] open
    (innermost first) closes only the innermost open element, by its name, and
    leaves [open'] open. *)
Inductive Nests : list Name -> list Token -> list Name -> Prop :=
| NeNil o : Nests o [] o
| NeStart o o' n a ts : Nests (n :: o) ts o' -> Nests o (TStart n a :: ts) o'
| NeEnd o o' n ts : Nests o ts o' -> Nests (n :: o) (TEnd n :: ts) o'
| NeChar o o' s ts : Nests o ts o' -> Nests o (TChar s :: ts) o'.

(** ** Namespace scopes *)
(** The declarations of a tag: xmlns:p="u" and xmlns="u"; the last one of a prefix counts. *)
Inductive Declares : list Attr -> string -> string -> Prop :=
| DeLast l a p u : (aname a = mkName "xmlns" p \/ (p = "" /\ aname a = mkName "" "xmlns")) -> avalue a = u ->
    Declares (l ++ [a]) p u
| DeSkip l a p u : Declares l p u -> aname a <> mkName "xmlns" p -> ~ (p = "" /\ aname a = mkName "" "xmlns") ->
    Declares (l ++ [a]) p u.
(** A prefix is bound by the innermost open tag that declares it. *)
Inductive Bound : list (list Attr) -> string -> string -> Prop :=
| BoHere l r p u : Declares l p u -> Bound (l :: r) p u
| BoOuter l r p u : (forall v, ~ Declares l p v) -> Bound r p u -> Bound (l :: r) p u.
(** The meaning of a name read in a scope.  The default namespace is not used for attributes; xml
    and xmlns have fixed meanings. *)
Inductive Means (sc : list (list Attr)) (elem : bool) : Name -> Name -> Prop :=
| MeXmlns l : Means sc elem (mkName "xmlns" l) (mkName "xmlns" l)
| MeXml l : Means sc elem (mkName "xml" l) (mkName "http://www.w3.org/XML/1998/namespace" l)
| MeAttr l : elem = false -> Means sc elem (mkName "" l) (mkName "" l)
| MeDecl : Means sc elem (mkName "" "xmlns") (mkName "" "xmlns")
| MeBound p l u : p <> "xmlns" -> p <> "xml" -> (p = "" -> elem = true /\ l <> "xmlns") -> Bound sc p u ->
    Means sc elem (mkName p l) (mkName u l)
| MeFree p l : p <> "xmlns" -> p <> "xml" -> (p = "" -> elem = true) -> (forall u, ~ Bound sc p u) ->
    Means sc elem (mkName p l) (mkName p l).
(** The attributes of the open tags after some steps, innermost first *)
Inductive Scopes : list step -> list (list Attr) -> Prop :=
| ScNil : Scopes [] []
| ScStart l sc n a e : Scopes l sc -> Scopes (l ++ [Lexed (RwStart n a e)]) (a :: sc)
| ScEnd l a sc s : Scopes l (a :: sc) -> (exists n, s = Closed n \/ s = Lexed (RwEnd n)) -> Scopes (l ++ [s]) sc
| ScOther l sc s : Scopes l sc -> (s = Lexed RwInst \/ exists t r, s = Lexed (RwChar t r)) -> Scopes (l ++ [s]) sc.
(** An end is supplied right after an empty-element tag, for it, and only there. *)
Definition Supplied (l : list step) : Prop :=
  (forall l1 n l2, l = l1 ++ Closed n :: l2 -> exists l0 a, l1 = l0 ++ [Lexed (RwStart n a true)]) /\
  (forall l1 n a s l2, l = l1 ++ Lexed (RwStart n a true) :: s :: l2 -> s = Closed n).
(** The events of a step in a scope *)
Inductive Event (sc : list (list Attr)) : step -> list Token -> Prop :=
| EvtStart n a e n' a' : Means (a :: sc) true n n' ->
    Forall2 (fun x y => avalue x = avalue y /\ Means (a :: sc) false (aname x) (aname y)) a a' ->
    Event sc (Lexed (RwStart n a e)) [TStart n' a']
| EvtEnd n n' : Means sc true n n' -> Event sc (Lexed (RwEnd n)) [TEnd n']
| EvtClosed n n' : Means sc true n n' -> Event sc (Closed n) [TEnd n']
| EvtChar t r : Event sc (Lexed (RwChar t r)) [TChar t]
| EvtInst : Event sc (Lexed RwInst) [].

(** ** Names *)
(** A byte that may occur in a name: a letter, a digit, one of _ : . - or a byte of a
    multi-byte character *)
Definition NameByte (c : ascii) : Prop :=
  (128 <= bN c)%N \/ In c (chars "ABCDEFGHIJKLMNOPQRSTUVWXYZabcdefghijklmnopqrstuvwxyz0123456789_:.-").
(** [s] is the longest name at the start of [input], followed by [rest] *)
Definition NameAt (input s rest : string) : Prop :=
  input = s +++ rest /\ s <> "" /\ (forall c, In c (chars s) -> NameByte c) /\
  exists c r, rest = String c r /\ ~ NameByte c.

(** ** Escaping *)
(** A character allowed in XML *)
Definition XmlChar (r : N) : Prop :=
  (r = 9 \/ r = 10 \/ r = 13 \/ 32 <= r <= 55295 \/ 57344 <= r <= 65533 \/ 65536 <= r <= 1114111)%N.
(** The UTF-8 encoding of a character: the bytes are given by their bits *)
Inductive Utf8 : N -> string -> Prop :=
| U1 r : (r < 128)%N -> Utf8 r (str1 r)
| U2 a b : (2 <= a < 32)%N -> (b < 64)%N -> Utf8 (64 * a + b) (str1 (192 + a) +++ str1 (128 + b))
| U3 a b c : (a < 16)%N -> (b < 64)%N -> (c < 64)%N -> (2048 <= 4096 * a + 64 * b + c)%N ->
    Utf8 (4096 * a + 64 * b + c) (str1 (224 + a) +++ str1 (128 + b) +++ str1 (128 + c))
| U4 a b c d : (a < 8)%N -> (b < 64)%N -> (c < 64)%N -> (d < 64)%N ->
    (65536 <= 262144 * a + 4096 * b + 64 * c + d <= 1114111)%N ->
    Utf8 (262144 * a + 4096 * b + 64 * c + d)
         (str1 (240 + a) +++ str1 (128 + b) +++ str1 (128 + c) +++ str1 (128 + d)).
(** Text made of XML characters *)
Inductive XmlText : string -> Prop :=
| XtNil : XmlText ""
| XtCons r e s : XmlChar r -> Utf8 r e -> XmlText s -> XmlText (e +++ s).
