(** * Saving to a writer that may fail (encoder.go 58-84, 146-218, 240-281, internal/xml/printer.go, bufio.Writer, io.Copy)

    M_Printer and M_Package take writing for granted.  Here each write goes to a package writer that may fail at any point.
    The relationships, which are handed over when the package is closed, are left out. *)
From Verif Require Import GoBase GoNum GoUtf8 GoFloat Types PkgTypes WriteTypes XmlTypes M_Core M_Xml M_Printer M_Decode M_Encode M_Package.

Section Write.
Context (W : Oracle).
(** A call of Write of the part *)
Definition do_write (h : list ev) (s : string) : list ev * nat * option werr :=
  match o_write W h s with
  | None => (h ++ [EvWrite s (String.length s) None], String.length s, None)
  | Some (n, e) => (h ++ [EvWrite s (Nat.min n (String.length s)) (Some e)], Nat.min n (String.length s), Some e)
  end.
(** ** bufio.Writer, with a buffer of [size] bytes (4096) *)
Context (size : nat).
Record BW := mkBW { bw_h : list ev; bw_buf : string; bw_err : option werr }.
Definition avail (b : BW) : nat := size - String.length (bw_buf b).
Definition put (b : BW) (s : string) : BW := mkBW (bw_h b) (bw_buf b +++ s) (bw_err b).
(** Flush: what was not taken stays in the buffer, the error stays *)
Definition bw_flush (b : BW) : BW :=
  match bw_err b with
  | Some _ => b
  | None =>
      if seq (bw_buf b) "" then b
      else let '(h, n, e) := do_write (bw_h b) (bw_buf b) in
           match e with None => mkBW h "" None | Some e => mkBW h (sdrop n (bw_buf b)) (Some e) end
  end.
(** Write with an empty buffer and more bytes than fit *)
Definition bw_direct (b : BW) (s : string) : BW :=
  let '(h, _, e) := do_write (bw_h b) s in mkBW h (bw_buf b) e.
(** Write: the loop runs at most twice, since a write that returns no error takes everything *)
Definition bw_write (b : BW) (s : string) : BW :=
  match bw_err b with
  | Some _ => b
  | None =>
      if Nat.leb (String.length s) (avail b) then put b s
      else if seq (bw_buf b) "" then bw_direct b s
      else let b' := bw_flush (put b (stake (avail b) s)) in
           let r := sdrop (avail b) s in
           match bw_err b' with
           | Some _ => b'
           | None => if Nat.leb (String.length r) (avail b') then put b' r else bw_direct b' r
           end
  end.
(** WriteByte *)
Definition bw_byte (b : BW) (c : ascii) : BW :=
  match bw_err b with
  | Some _ => b
  | None =>
      let b := if Nat.eqb (avail b) 0 then bw_flush b else b in
      match bw_err b with Some _ => b | None => put b (String c "") end
  end.
(** WriteString to a writer without a method WriteString (opc.go 12-15 has none): pieces of the size of the buffer *)
Fixpoint bw_string (fuel : nat) (b : BW) (s : string) : BW :=
  match bw_err b with
  | Some _ => b
  | None =>
      if Nat.leb (String.length s) (avail b) then put b s
      else match fuel with
           | O => b
           | S fuel => bw_string fuel (bw_flush (put b (stake (avail b) s))) (sdrop (avail b) s)
           end
  end.
Definition bw_call (b : BW) (c : call) : BW :=
  match c with
  | CByte c => bw_byte b c
  | CStr s => bw_string (S (String.length s)) b s
  | CBytes s => bw_write b s
  | CFlush => bw_flush b
  end.
Definition bw_calls (b : BW) (l : list call) : BW := fold_left bw_call l b.

(** ** The calls of the printer; [esc] are the pieces encoding/xml.EscapeText writes a text in *)
Context (esc : string -> list string).
Definition escaped (s : string) : list call := map CBytes (esc s).
(** internal/xml/printer.go 51-58, 88-94 *)
Definition tag_calls (m : list (string * string)) (n : Name) : list call :=
  (if negb (seq (nspace n) "") && negb (seq (prefix_of m (nspace n)) "") then [CStr (prefix_of m (nspace n)); CByte ":"] else []) ++ [CStr (nlocal n)].
(** internal/xml/printer.go 61-79 *)
Fixpoint attr_calls (skip : bool) (m : list (string * string)) (l : list Attr) : list call * list (string * string) :=
  match l with
  | [] => ([], m)
  | a :: r =>
      if seq (nlocal (aname a)) "" then attr_calls skip m r
      else
        let (pre, m) := if negb (seq (nspace (aname a)) "")
                        then let (p, m) := create_attr_prefix m a in ([CStr p; CByte ":"], m) else ([], m) in
        let (s, m) := attr_calls skip m r in
        ([CByte " "] ++ pre ++ [CStr (nlocal (aname a)); CStr "="""] ++ (if skip then [CStr (avalue a)] else escaped (avalue a)) ++ [CByte """"] ++ s, m)
  end.
(** encoder.go 58-68 with internal/xml/printer.go 50-97 *)
Definition op_calls (p : Printer) (o : op) : list call * Printer :=
  match o with
  | OpTok (TStart n attrs) =>
      let (s, m) := attr_calls (pr_skip p) (pr_prefix p) attrs in
      ([CByte "<"] ++ tag_calls (pr_prefix p) n ++ s ++ (if pr_auto p then [CByte "/"] else []) ++ [CByte ">"], mkPrinter (pr_auto p) (pr_skip p) m)
  | OpTok (TEnd n) => ([CByte "<"; CByte "/"] ++ tag_calls (pr_prefix p) n ++ [CByte ">"], p)
  | OpTok (TChar s) => (escaped s, p)
  | OpAuto b => ([], mkPrinter b (pr_skip p) (pr_prefix p))
  | OpSkip b => ([], mkPrinter (pr_auto p) b (pr_prefix p))
  | OpRel _ => ([], p)
  end.
Fixpoint ops_calls (p : Printer) (l : list op) : list call :=
  match l with [] => [] | o :: r => let (s, p) := op_calls p o in s ++ ops_calls p r end.
(** The calls for a model; [flushed] says after which of them Flush is called (encoder.go 335, 342).  An error of such a
    Flush ends the encoding early: the calls left out would have no effect, since the error stays. *)
Definition printer_calls (flushed : nat -> bool) (l : list op) : list call :=
  concat (mapi (fun i c => if flushed i then [c; CFlush] else [c]) (ops_calls printer_new l)).

(** ** Encode *)
Context (normalize : string -> string) (resolve : string -> string -> string) (calls : list op -> list call).
Definition do_create (h : list ev) (name ctype : string) : list ev * option werr :=
  let e := o_create W h (normalize name) ctype in (h ++ [EvCreate (normalize name) ctype e], e).
(** io.Copy *)
Fixpoint io_copy (h : list ev) (l : list string) (fin : option werr) : list ev * option werr :=
  match l with
  | [] => (h, fin)
  | s :: l =>
      if seq s "" then io_copy h l fin
      else let '(h, _, e) := do_write h s in match e with Some e => (h, Some e) | None => io_copy h l fin end
  end.
(** encoder.go 207-218, writeAttachements *)
Fixpoint copy_attachments (h : list ev) (l : list (Attachment * Stream)) : list ev * option werr :=
  match l with
  | [] => (h, None)
  | (a, (d, fin)) :: l =>
      let (h, e) := do_create h (at_path a) (at_ctype a) in
      match e with
      | Some e => (h, Some e)
      | None => let (h, e) := io_copy h d fin in match e with Some e => (h, Some e) | None => copy_attachments h l end
      end
  end.
(** encoder.go 155-169 and 189-198: a model part: the header, the calls of the printer, the last Flush *)
Definition model_part (h : list ev) (name : string) (ops : list op) : list ev * option werr :=
  let (h, e) := do_create h name ctype_model in
  match e with
  | Some e => (h, Some e)
  | None =>
      let '(h, _, e) := do_write h M_Package.xml_header in
      match e with
      | Some e => (h, Some e)
      | None => let b := bw_flush (bw_calls (mkBW h "" None) (calls ops)) in (bw_h b, bw_err b)
      end
  end.
(** encoder.go 182-205 *)
Fixpoint child_parts (prec : nat) (m : Model) (h : list ev) (l : list (string * Child)) : list ev * option werr :=
  match l with
  | [] => (h, None)
  | (k, c) :: l =>
      let (h, e) := model_part h (resolve (path_or_default m) k) (write_child prec m c) in
      match e with Some e => (h, Some e) | None => child_parts prec m h l end
  end.
(** encoder.go 146-180, Encode: what happened at the package writer, and the error returned *)
Definition encode_io (prec : nat) (order2 : list (string * Child)) (streams : list Stream) (m : Model) : list ev * option werr :=
  let (h, e) := copy_attachments [] (combine (mo_atts m) streams) in
  match e with
  | Some e => (h, Some e)
  | None =>
      let (h, e) := model_part h (path_or_default m) (write_model prec m) in
      match e with
      | Some e => (h, Some e)
      | None =>
          let (h, e) := child_parts prec m h order2 in
          match e with
          | Some e => (h, Some e)
          | None => let e := o_close W h in (h ++ [EvClose e], e)
          end
      end
  end.
End Write.
