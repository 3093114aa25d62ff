(** * Specification: well-formed XML, and the models that are saved as such

    The grammar derives only documents that are well-formed by XML 1.0 (fifth edition) and Namespaces in XML 1.0; the
    numbers in brackets are those of their productions.  It does not derive all of them: there are no comments, CDATA
    sections, document types, processing instructions and entities of one's own, no white space around = and before the
    ends of tags, and > and the characters that readers replace (CR; in attributes TAB and LF) are always references. *)
From Verif Require Import GoBase GoUtf8 GoFloat Types XmlTypes S_Core S_Xml S_Printer S_Lex S_RoundTrip.

(** ** Names *)
(** [4] without the colon *)
Definition NameStart (r : N) : Prop :=
  (65 <= r <= 90 \/ r = 95 \/ 97 <= r <= 122 \/ 192 <= r <= 214 \/ 216 <= r <= 246 \/ 248 <= r <= 767 \/ 880 <= r <= 893 \/
   895 <= r <= 8191 \/ 8204 <= r <= 8205 \/ 8304 <= r <= 8591 \/ 11264 <= r <= 12271 \/ 12289 <= r <= 55295 \/
   63744 <= r <= 64975 \/ 65008 <= r <= 65533 \/ 65536 <= r <= 983039)%N.
(** [4a] *)
Definition NameChar (r : N) : Prop :=
  (NameStart r \/ r = 45 \/ r = 46 \/ 48 <= r <= 57 \/ r = 183 \/ 768 <= r <= 879 \/ 8255 <= r <= 8256)%N.
Inductive NameRest : string -> Prop :=
| NrNil : NameRest ""
| NrCons r e s : NameChar r -> Utf8 r e -> NameRest s -> NameRest (e +++ s).
(** Namespaces [4]: a name without colon *)
Definition NcName (s : string) : Prop := exists r e q, NameStart r /\ Utf8 r e /\ NameRest q /\ s = e +++ q.
(** Namespaces [7]: the name [s] has the prefix [p] (empty if there is none) and the local part [l] *)
Definition QName (s p l : string) : Prop := NcName l /\ (p = "" /\ s = l \/ NcName p /\ s = p +++ ":" +++ l).

(** ** Texts *)
(** [66], [68]: a reference and what it stands for *)
Inductive Reference : string -> string -> Prop :=
| RfNamed nm v : In (nm, v) [("lt", "<"); ("gt", ">"); ("amp", "&"); ("apos", "'"); ("quot", """")] -> Reference ("&" +++ nm +++ ";") v
| RfDec ds r e : Numeral 10 ds r -> XmlChar r -> Utf8 r e -> Reference ("&#" +++ ds +++ ";") e
| RfHex ds r e : Numeral 16 ds r -> XmlChar r -> Utf8 r e -> Reference ("&#x" +++ ds +++ ";") e.
(** [Written no s t]: the text [s] of characters other than [no] and of references stands for [t] *)
Inductive Written (no : list N) : string -> string -> Prop :=
| WrNil : Written no "" ""
| WrChar r e s t : XmlChar r -> ~ In r no -> Utf8 r e -> Written no s t -> Written no (e +++ s) (e +++ t)
| WrRef x v s t : Reference x v -> Written no s t -> Written no (x +++ s) (v +++ t).
(** [14]: not < & > CR *)
Definition in_text : list N := [60; 38; 62; 13]%N.
(** [10] with double quotes: not < & quote TAB LF CR *)
Definition in_value : list N := [60; 38; 34; 9; 10; 13]%N.

(** ** Tags *)
(** An attribute: prefix, local part, value *)
Definition XAttr : Type := string * string * string.
(** [41] with white space before it *)
Inductive Attributes : string -> list XAttr -> Prop :=
| AsNil : Attributes "" []
| AsCons w nm p l s v r as_ : S_Lex.Blank w -> w <> "" -> QName nm p l -> Written in_value s v -> Attributes r as_ ->
    Attributes (w +++ nm +++ "=""" +++ s +++ """" +++ r) ((p, l, v) :: as_).
Definition ns_xmlns : string := "http://www.w3.org/2000/xmlns/".
(** The prefixes in scope and what they stand for, innermost first; the empty prefix is the default namespace *)
Definition Scope : Type := list (string * string).
Definition declarations (a : list XAttr) : Scope :=
  flat_map (fun x => match x with (p, l, v) => if seq p "xmlns" then [(l, v)] else if seq p "" && seq l "xmlns" then [("", v)] else [] end) a.
Definition others (a : list XAttr) : list XAttr :=
  filter (fun x => match x with (p, l, v) => negb (seq p "xmlns") && negb (seq p "" && seq l "xmlns") end) a.
(** Namespaces, section 3: a declaration of a prefix *)
Definition DeclOk (d : string * string) : Prop :=
  fst d <> "xml" /\ fst d <> "xmlns" /\ (fst d <> "" -> snd d <> "") /\ snd d <> nsxml /\ snd d <> ns_xmlns.
(** The namespace of a prefix *)
Inductive InScope (sc : Scope) : string -> string -> Prop :=
| IsNone : InScope sc "" ""
| IsXml : InScope sc "xml" nsxml
| IsDecl p u : p <> "" -> aget seq p sc = Some u -> InScope sc p u.
(** Unprefixed attributes are in no namespace; no two attributes have the same name or the same namespace and local part
    ([40], Namespaces section 6.3) *)
Definition TagOk (sc : Scope) (p : string) (a : list XAttr) : Prop :=
  (exists u, InScope sc p u) /\ Forall DeclOk (declarations a) /\ NoDup (map fst (declarations a)) /\
  exists ns, Forall2 (fun x n => InScope sc (fst (fst x)) (fst n) /\ snd n = snd (fst x)) (others a) ns /\ NoDup ns.

(** ** Elements *)
(** [43]; the last index says for each item whether it is an element *)
Inductive Well : Scope -> string -> list bool -> Prop :=
| WlNil sc : Well sc "" []
| WlText sc s t r k : Written in_text s t -> Well sc r k -> Well sc (s +++ r) (false :: k)
| WlElem sc nm p l s a body kb r k : QName nm p l -> Attributes s a -> TagOk (declarations a ++ sc) p a ->
    Well (declarations a ++ sc) body kb -> Well sc r k ->
    Well sc ("<" +++ nm +++ s +++ ">" +++ body +++ "</" +++ nm +++ ">" +++ r) (true :: k)
| WlEmpty sc nm p l s a r k : QName nm p l -> Attributes s a -> TagOk (declarations a ++ sc) p a -> Well sc r k ->
    Well sc ("<" +++ nm +++ s +++ "/>" +++ r) (true :: k).
(** [1], [22], [23]: a document is one element, with or without the XML declaration before it *)
Definition WellFormed (s : string) : Prop :=
  Well [] s [true] \/
  exists r, Well [] r [true] /\ s = "<?xml version=""1.0"" encoding=""UTF-8""?>" +++ String lf r.

(** ** Models that are saved as well-formed XML *)
Section Saved.
(** The prefixes of the extensions, with their namespaces *)
Context (exts : list Extension).
Definition Has (ns : string) : Prop := In ns (map ex_ns exts).
(** Prefixes are names and distinct; their namespaces can be declared.  (The printer takes the namespace "xmlns" for its
    own mark.) *)
Definition ExtsOk : Prop :=
  NoDup (map ex_local exts) /\
  Forall (fun x => NcName (ex_local x) /\ ex_local x <> "xml" /\ ex_local x <> "xmlns" /\ XmlText (ex_ns x) /\
                   ~ In (ex_ns x) [""; "xmlns"; nsxml; ns_xmlns]) exts.
(** The names of the attributes of a group, and their texts *)
Definition attr_names (g : AttrGroup) : list Name :=
  match g with
  | GUnknown _ a => map aname a
  | GBuild _ | GObj _ => [mkName ns_production "UUID"]
  | GItem _ p | GComp _ p => (if seq p "" then [] else [mkName ns_production "path"]) ++ [mkName ns_production "UUID"]
  | GSlice _ _ => [mkName ns_slices "slicestackid"; mkName ns_slices "meshresolution"]
  end.
Definition attr_texts (g : AttrGroup) : list string :=
  match g with
  | GUnknown _ a => map avalue a
  | GBuild u | GObj u => [u]
  | GItem u p | GComp u p => [u; p]
  | GSlice _ _ => []
  end.
(** A text that is a value as it is *)
Definition Verbatim (s : string) : Prop := exists t, Written in_value s t.
(** Attributes with names of declared namespaces or that of xml, no two the same; [raw]: they are written without escaping *)
Definition NameOk (n : Name) : Prop := NcName (nlocal n) /\ (nspace n = nsxml \/ Has (nspace n)).
Definition AnyOk (raw : bool) (any : AnyAttr) : Prop :=
  NoDup (flat_map attr_names any) /\ Forall NameOk (flat_map attr_names any) /\
  (raw = true -> Forall Verbatim (flat_map attr_texts any)).
(** Elements kept as tokens: those of a forest, in which attributes may also be in no namespace; no declarations *)
Inductive Forest : list Token -> Prop :=
| FoNil : Forest []
| FoText s r : Forest r -> Forest (TChar s :: r)
| FoElem n a l r : NcName (nlocal n) -> NoDup (map aname a) ->
    Forall (fun x => NameOk (aname x) \/ NcName (nlocal (aname x)) /\ nspace (aname x) = "" /\ nlocal (aname x) <> "xmlns") a ->
    Forest l -> Forest r -> Forest (TStart n a :: l ++ TEnd n :: r).
Definition ColorsOk (x : ExtElem) : Prop :=
  match x with XColorGroup g => Forall ColorFits (cg_colors g) | _ => True end.
Definition ElemOk (x : AnyElem) : Prop := match x with AnyTokens l => Forest l | AnyExt x => ColorsOk x end.
Definition MdOk (g : MetadataGroup) : Prop := AnyOk false (mg_any g).
Definition AssetOk (a : Asset) : Prop :=
  match a with
  | ABase b => AnyOk false (bs_any b) /\ Forall (fun b => AnyOk false (ba_any b)) (bs_mats b)
  | AUnknown _ l => Forest l
  | AExt x => ColorsOk x
  end.
(** Attributes of extensions of a triangle, but for those of the last one, spoil those of the following ones unless all
    seven attributes are there (C40). *)
Inductive TrisOk : list Triangle -> Prop :=
| ToNil : TrisOk []
| ToCons t r : AnyOk true (t_any t) -> (t_any t = [] \/ AllWritten t \/ r = []) -> TrisOk r -> TrisOk (t :: r).
Definition MeshOk (m : Mesh) : Prop :=
  AnyOk false (me_any m) /\ AnyOk false (me_vany m) /\ AnyOk false (me_tany m) /\ TrisOk (me_tris m) /\ Forall ElemOk (me_ext m).
Definition CompsOk (c : Components) : Prop := AnyOk false (cs_any c) /\ Forall (fun c => AnyOk false (co_any c)) (cs_list c).
Definition ObjOk (o : Object) : Prop :=
  AnyOk false (ob_any o) /\ MdOk (ob_md o) /\ (forall m, ob_mesh o = Some m -> MeshOk m) /\ (forall c, ob_comps o = Some c -> CompsOk c).
Definition ResOk (r : Resources) : Prop := AnyOk false (rs_any r) /\ Forall AssetOk (rs_assets r) /\ Forall ObjOk (rs_objects r).
Definition BuildOk (b : Build) : Prop :=
  AnyOk false (bu_any b) /\ Forall (fun i => AnyOk false (it_any i) /\ MdOk (it_md i)) (bu_items b).
(** The attributes of the model element, which has xml:lang itself *)
Definition HeadOk (m : Model) : Prop :=
  ExtsOk /\ AnyOk false (mo_anyattr m) /\ ~ In (mkName nsxml "lang") (flat_map attr_names (mo_anyattr m)).
End Saved.
Definition ModelOk (m : Model) : Prop :=
  HeadOk (mo_exts m) m /\ ResOk (mo_exts m) (mo_res m) /\ BuildOk (mo_exts m) (mo_build m) /\ Forall (ElemOk (mo_exts m)) (mo_any m).
Definition ChildOk (m : Model) (c : Child) : Prop :=
  HeadOk (mo_exts m) m /\ ResOk (mo_exts m) (ch_res c) /\ Forall (ElemOk (mo_exts m)) (ch_any c).
