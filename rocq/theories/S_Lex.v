(** * Specification of reading text and tags as they are written *)
From Verif Require Import GoBase GoUtf8 GoFloat Types XmlTypes S_Xml.

Definition lf : ascii := byte 10.
Definition cr : ascii := byte 13.
(** The value of a digit *)
Definition DigitVal (c : ascii) (d : N) : Prop :=
  nth_error (chars "0123456789abcdef") (N.to_nat d) = Some c \/ nth_error (chars "0123456789ABCDEF") (N.to_nat d) = Some c.
(** A number written in a base *)
Inductive Numeral (base : N) : string -> N -> Prop :=
| NuOne c d : (d < base)%N -> DigitVal c d -> Numeral base (String c "") d
| NuMore s n c d : Numeral base s n -> (d < base)%N -> DigitVal c d -> Numeral base (s +++ String c "") (n * base + d).
(** [TextMeans q after s t]: the text [s], in which the quote [q] does not occur, stands for [t]; [after]: the byte
    before it was a CR.  CR and CR LF stand for LF, references for the characters they name. *)
Inductive TextMeans (q : option ascii) : bool -> string -> string -> Prop :=
| TmNil a : TextMeans q a "" ""
| TmPlain a c s t : ~ In c ["<"%char; "&"%char; cr] -> Some c <> q -> (a = true -> c <> lf) -> TextMeans q false s t ->
    TextMeans q a (String c s) (String c t)
| TmCr a s t : TextMeans q true s t -> TextMeans q a (String cr s) (String lf t)
| TmCrLf s t : TextMeans q false s t -> TextMeans q true (String lf s) t
| TmNamed a nm v s t : In (nm, v) [("lt", "<"); ("gt", ">"); ("amp", "&"); ("apos", "'"); ("quot", """")] ->
    TextMeans q false s t -> TextMeans q a ("&" +++ nm +++ ";" +++ s) (v +++ t)
| TmDec a ds r e s t : Numeral 10 ds r -> XmlChar r -> Utf8 r e -> TextMeans q false s t -> TextMeans q a ("&#" +++ ds +++ ";" +++ s) (e +++ t)
| TmHex a ds r e s t : Numeral 16 ds r -> XmlChar r -> Utf8 r e -> TextMeans q false s t -> TextMeans q a ("&#x" +++ ds +++ ";" +++ s) (e +++ t).
(** White space *)
Definition Blank (s : string) : Prop := forall c, In c (chars s) -> In c [" "%char; byte 9; lf; cr].
(** A name as written: a prefix and a local part, or just a local part *)
Inductive NameMeans : string -> Name -> Prop :=
| NmLocal s : s <> "" -> (forall c, In c (chars s) -> NameByte c /\ c <> ":"%char) -> NameMeans s (mkName "" s)
| NmPrefix p l : (forall c, In c (chars p) -> NameByte c /\ c <> ":"%char) -> (forall c, In c (chars l) -> NameByte c) ->
    NameMeans (p +++ ":" +++ l) (mkName p l).
(** The attributes of a tag as written *)
Inductive AttrsMean : string -> list Attr -> Prop :=
| AmNil w : Blank w -> AttrsMean w []
| AmCons w1 nm n w2 w3 q rv v s l : Blank w1 -> NameMeans nm n -> Blank w2 -> Blank w3 -> In q [""""%char; "'"%char] ->
    TextMeans (Some q) false rv v -> AttrsMean s l ->
    AttrsMean (w1 +++ nm +++ w2 +++ "=" +++ w3 +++ String q (rv +++ String q s)) (mkAttr n v :: l).
