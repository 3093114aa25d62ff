(** * The byte reader of the XML scanner (internal/xml/xml.go 23-82, 524-544)

    A reader delivers the chunks [rs_reads] without error, then [rs_last] together with
    [rs_fin], and from then on [rs_fin] and no bytes.  The array of the buffer is
    abstracted to its unread part buf[r:w]: [fill] is called only when it is empty, so
    the slide copies nothing and Read gets the whole array of 4096 bytes. *)
From Verif Require Import GoBase GoNum GoUtf8 GoFloat Types XmlTypes.

Record Source := mkSource { rs_reads : list string; rs_last : option string; rs_fin : xerr }.
(** io.Reader.Read *)
Definition source_read (s : Source) : string * option xerr * Source :=
  match rs_reads s with
  | x :: l => (x, None, mkSource l (rs_last s) (rs_fin s))
  | [] => match rs_last s with
          | Some x => (x, Some (rs_fin s), mkSource [] None (rs_fin s))
          | None => ("", Some (rs_fin s), s)
          end
  end.

(** internal/xml/xml.go 23-29: the unread bytes, err, nextByte and rd *)
Record Reader := mkReader { r_buf : string; r_err : option xerr; r_next : option ascii; r_src : Source }.
(** internal/xml/xml.go 106-120 *)
Definition reader_new (s : Source) : Reader := mkReader "" None None s.
Definition max_empty_reads : nat := 100.
Definition no_progress : xerr := XRead "multiple Read calls return no data or error".
(** internal/xml/xml.go 57-82, fill *)
Fixpoint fill_loop (i : nat) (b : Reader) : Reader :=
  match i with
  | O => mkReader (r_buf b) (Some no_progress) (r_next b) (r_src b)
  | S i =>
      let '(x, err, src) := source_read (r_src b) in
      let b := mkReader (r_buf b +++ x) (r_err b) (r_next b) src in
      match err with
      | Some e => mkReader (r_buf b) (Some e) (r_next b) (r_src b)
      | None => match x with EmptyString => fill_loop i b | _ => b end
      end
  end.
Definition fill (b : Reader) : Reader := fill_loop max_empty_reads b.
(** internal/xml/xml.go 40-54, ReadByte; [None]: the loop has not ended after [fuel] rounds *)
Fixpoint read_loop (fuel : nat) (b : Reader) : option ((ascii + xerr) * Reader) :=
  match fuel with
  | O => None
  | S f =>
      match r_buf b with
      | String c r => Some (inl c, mkReader r (r_err b) (r_next b) (r_src b))
      | EmptyString =>
          match r_err b with
          | Some e => Some (inr e, mkReader "" None (r_next b) (r_src b))
          | None => read_loop f (fill b)
          end
      end
  end.
Definition read_byte (fuel : nat) (b : Reader) : option ((ascii + xerr) * Reader) :=
  match r_next b with
  | Some c => Some (inl c, mkReader (r_buf b) (r_err b) None (r_src b))
  | None => read_loop fuel b
  end.
(** internal/xml/xml.go 524-528, getc, and 542-544, ungetc *)
Definition getc := read_byte.
Definition ungetc (c : ascii) (b : Reader) : Reader := mkReader (r_buf b) (r_err b) (Some c) (r_src b).

(** What the client computes with the reader, and the rounds a read may take *)
Fixpoint serve {A} (fuel : nat) (c : client A) (b : Reader) : option A :=
  match c with
  | Ret a => Some a
  | Get k =>
      match getc fuel b with
      | None => None
      | Some (x, b) =>
          let (back, c) := k x in
          serve fuel c (match x, back with inl y, true => ungetc y b | _, _ => b end)
      end
  end.
