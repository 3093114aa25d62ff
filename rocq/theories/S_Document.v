(** * Specification: documents, and which differences between them do not matter *)
From Coq Require Import Permutation.
From Verif Require Import GoBase GoUtf8 GoFloat Types XmlTypes S_Core S_Xml S_Lex S_Errors S_Attr S_Meaning.

(** ** The text of a document and its tree
    XML without comments, CDATA sections and document types.  [Content sc s ts]: inside the tags with the attributes
    [sc] (innermost first), the text [s] stands for the elements and texts [ts]. *)
Definition nowhere : Ref := (0, 0).
(** The attributes of a tag, with the namespaces in place of the prefixes *)
Definition Resolved (sc : list (list Attr)) (a b : list Attr) : Prop :=
  Forall2 (fun x y => avalue x = avalue y /\ Means sc false (aname x) (aname y)) a b.
Inductive Content : list (list Attr) -> string -> list XTree -> Prop :=
| CoNil sc : Content sc "" []
| CoText sc s t r ts : s <> "" -> TextMeans None false s t -> r = "" \/ (exists q, r = String "<" q) ->
    Content sc r ts -> Content sc (s +++ r) (XText t nowhere :: ts)
| CoElem sc nm p s a n b body kids w r ts : NameMeans nm p -> AttrsMean s a -> (forall c q, s = String c q -> ~ NameByte c) ->
    Means (a :: sc) true p n -> Resolved (a :: sc) a b -> Content (a :: sc) body kids -> S_Lex.Blank w -> Content sc r ts ->
    Content sc ("<" +++ nm +++ s +++ ">" +++ body +++ "</" +++ nm +++ w +++ ">" +++ r) (XElem n b kids :: ts)
| CoEmpty sc nm p s a n b r ts : NameMeans nm p -> AttrsMean s a -> (forall c q, s = String c q -> ~ NameByte c) ->
    Means (a :: sc) true p n -> Resolved (a :: sc) a b -> Content sc r ts ->
    Content sc ("<" +++ nm +++ s +++ "/>" +++ r) (XElem n b [] :: ts)
| CoInst sc nm p w body r ts : NameMeans nm p -> S_Lex.Blank w -> (w = "" -> body = "") -> (forall x y, body <> x +++ "?>" +++ y) ->
    Content sc r ts -> Content sc ("<?" +++ nm +++ w +++ body +++ "?>" +++ r) ts.
(** A tree without the places of its texts *)
Fixpoint unplaced (t : XTree) : XTree :=
  match t with XElem n a kids => XElem n a (map unplaced kids) | XText s _ => XText s nowhere end.

(** ** Differences that do not matter *)
Section Alike.
Context (known : string -> bool) (isroot : bool).
(** The elements without attributes of their own *)
Definition bare : list Name := map cn ["metadatagroup"; "build"; "resources"; "mesh"; "vertices"; "triangles"; "components"].
(** The same attributes.  Those without namespace are in any order and at any place among the others, where the element
    has some. *)
Definition SameAttrs (n : Name) (a b : list Attr) : Prop :=
  NoDup (map aname a) /\ Permutation a b /\ foreign a = foreign b /\ (In n bare -> a = b).
Fixpoint Textless (t : XTree) : Prop :=
  match t with
  | XText _ _ => False
  | XElem _ _ kids => (fix all l := match l with [] => True | t :: r => Textless t /\ all r end) kids
  end.
(** The children of an element named [p]: texts matter in metadata only, elements that are ignored do not. *)
Inductive Alike : Name -> list XTree -> list XTree -> Prop :=
| AlNil p : Alike p [] []
| AlText p s r r' l l' : Alike p l l' -> Alike p (XText s r :: l) (XText s r' :: l')
| AlLessText p s r l l' : p <> cn "metadata" -> Alike p l l' -> Alike p (XText s r :: l) l'
| AlMoreText p s r l l' : p <> cn "metadata" -> Alike p l l' -> Alike p l (XText s r :: l')
| AlLess p n a k l l' : takes known isroot p n = false -> misplaced known p n = false -> Alike p l l' -> Alike p (XElem n a k :: l) l'
| AlMore p n a k l l' : takes known isroot p n = false -> misplaced known p n = false -> Alike p l l' -> Alike p l (XElem n a k :: l')
| AlKept p n a k l l' : nspace n <> ns_core -> known (nspace n) = false -> Textless (XElem n a k) -> Alike p l l' ->
    Alike p (XElem n a k :: l) (XElem n a k :: l')
| AlElem p n a b k k' l l' : nspace n = ns_core \/ known (nspace n) = true -> SameAttrs n a b -> Alike n k k' -> Alike p l l' ->
    Alike p (XElem n a k :: l) (XElem n b k' :: l').
(** No text in the elements that are kept as they are *)
Fixpoint KeptTextless (t : XTree) : Prop :=
  match t with
  | XText _ _ => True
  | XElem n a kids =>
      (nspace n <> ns_core -> known (nspace n) = false -> Textless t) /\
      (fix all l := match l with [] => True | t :: r => KeptTextless t /\ all r end) kids
  end.
End Alike.
