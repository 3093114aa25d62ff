(** * The XML printer (internal/xml/printer.go, encoder.go 22-84)

    A buffered writer that never fails is modelled by the text written. *)
From Verif Require Import GoBase GoNum GoUtf8 GoFloat Types XmlTypes.

(** internal/xml/printer.go 12-17 *)
Record Printer := mkPrinter { pr_auto : bool; pr_skip : bool; pr_prefix : list (string * string) }.
Definition printer_new : Printer := mkPrinter false false [].
(** internal/xml/printer.go 9 *)
Definition ns_xml : string := "http://www.w3.org/XML/1998/namespace".
(** A missing key of a map of strings gives the empty string *)
Definition prefix_of (m : list (string * string)) (ns : string) : string :=
  match aget seq ns m with Some p => p | None => "" end.
(** internal/xml/printer.go 21-41, createAttrPrefix *)
Definition create_attr_prefix (m : list (string * string)) (a : Attr) : string * list (string * string) :=
  let sp := nspace (aname a) in
  if negb (seq (prefix_of m sp) "") then (prefix_of m sp, m)
  else if seq sp ns_xml then ("xml", m)
  else
    let ns := if seq sp "xmlns" then avalue a else sp in
    (sp, aset seq ns (nlocal (aname a)) m).
(** internal/xml/printer.go 51-58 and 86-96: a tag name *)
Definition tag_name (m : list (string * string)) (n : Name) : string :=
  (if negb (seq (nspace n) "") && negb (seq (prefix_of m (nspace n)) "") then prefix_of m (nspace n) +++ ":" else "") +++ nlocal n.
(** internal/xml/printer.go 61-79: the attributes *)
Fixpoint write_attrs (skip : bool) (m : list (string * string)) (l : list Attr) : string * list (string * string) :=
  match l with
  | [] => ("", m)
  | a :: r =>
      if seq (nlocal (aname a)) "" then write_attrs skip m r
      else
        let (pre, m) := if negb (seq (nspace (aname a)) "")
                        then let (p, m) := create_attr_prefix m a in (p +++ ":", m) else ("", m) in
        let (s, m) := write_attrs skip m r in
        (" " +++ pre +++ nlocal (aname a) +++ "=""" +++ (if skip then avalue a else escape_text (avalue a)) +++ """" +++ s, m)
  end.
(** internal/xml/printer.go 50-84, WriteStart *)
Definition write_start (p : Printer) (n : Name) (attrs : list Attr) : string * Printer :=
  let (s, m) := write_attrs (pr_skip p) (pr_prefix p) attrs in
  ("<" +++ tag_name (pr_prefix p) n +++ s +++ (if pr_auto p then "/" else "") +++ ">", mkPrinter (pr_auto p) (pr_skip p) m).
(** internal/xml/printer.go 86-97, WriteEnd *)
Definition write_end (p : Printer) (n : Name) : string := "</" +++ tag_name (pr_prefix p) n +++ ">".
(** encoder.go 58-68, EncodeToken, and 78-84 *)
Definition print_op (p : Printer) (o : op) : string * Printer :=
  match o with
  | OpTok (TStart n a) => write_start p n a
  | OpTok (TEnd n) => (write_end p n, p)
  | OpTok (TChar s) => (escape_text s, p)
  | OpAuto b => ("", mkPrinter b (pr_skip p) (pr_prefix p))
  | OpSkip b => ("", mkPrinter (pr_auto p) b (pr_prefix p))
  | OpRel _ => ("", p)
  end.
Fixpoint print_ops (p : Printer) (l : list op) : string * Printer :=
  match l with
  | [] => ("", p)
  | o :: r => let (s, p) := print_op p o in let (t, p) := print_ops p r in (s +++ t, p)
  end.
Definition print (l : list op) : string := fst (print_ops printer_new l).
(** encoding/xml.Header, written before the root element by Encode (encoder.go 161, 192) *)
Definition xml_header : string := "<?xml version=""1.0"" encoding=""UTF-8""?>" +++ str1 10.
