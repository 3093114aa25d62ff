(** * Events of the XML scanner *)
From Verif Require Import GoBase GoUtf8 GoFloat Types.

(** io.EOF, another error of the reader, or a SyntaxError (internal/xml/xml.go 278-280) *)
Inductive xerr := XEOF | XRead (e : string) | XSyntax (msg : string).

(** What the callbacks of the scanner receive (internal/xml/xml.go 90-92).  Character data is a slice of
    the scan buffer: the text it holds during the callback and the reference. *)
Inductive event :=
| EvStart (n : Name) (attrs : list Attr)
| EvEnd (n : Name)
| EvChar (now : string) (r : Ref).

(** What one call of RawToken reads (internal/xml/xml.go 337-487), before prefixes are
    replaced; the name of a start tag is split at its first colon.  [RwInst]: a
    processing instruction. *)
Inductive raw :=
| RwStart (n : Name) (attrs : list Attr) (empty : bool)
| RwEnd (n : Name)
| RwChar (now : string) (r : Ref)
| RwInst.

(** The token given to a callback *)
Definition ev_token (e : event) : Token :=
  match e with EvStart n a => TStart n a | EvEnd n => TEnd n | EvChar s _ => TChar s end.

(** What a call of RawToken read, or the end it supplied for an empty-element tag (internal/xml/xml.go 327-336) *)
Inductive step := Lexed (t : raw) | Closed (n : Name).

(** A client of the reader: it reads a byte or an error, may put that byte back, and goes on.  The scanner is
    one: it calls getc, and ungetc with the byte just read, and looks at nothing else. *)
Inductive client (A : Type) := Ret (a : A) | Get (k : ascii + xerr -> bool * client A).
Arguments Ret {A}. Arguments Get {A}.

(** What the encoder asks its xmlEncoder to do: EncodeToken, SetAutoClose, SetSkipAttrEscape,
    AddRelationship (encoder.go 38-84); Flush does not change the text *)
Inductive op := OpTok (t : Token) | OpAuto (b : bool) | OpSkip (b : bool) | OpRel (r : Relationship).
