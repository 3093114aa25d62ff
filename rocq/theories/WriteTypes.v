(** * Writers that fail: what happens at the package writer while a model is saved *)
From Verif Require Import GoBase.

(** An error of the writer, of the stream of an attachment, or io.ErrShortWrite *)
Inductive werr := WErr (code : N) | WRead (code : N).
(** Calls of the package writer with their results: a part is created; [n] bytes of [s] are written to it; the package is closed *)
Inductive ev :=
| EvCreate (name ctype : string) (e : option werr)
| EvWrite (s : string) (n : nat) (e : option werr)
| EvClose (e : option werr).
(** A package writer: what it answers, given all that happened before.  A write either takes everything or fails after
    some bytes (at most all): that is the contract of io.Writer. *)
Record Oracle := mkOracle {
  o_create : list ev -> string -> string -> option werr;
  o_write : list ev -> string -> option (nat * werr);
  o_close : list ev -> option werr
}.
(** The stream of an attachment: the pieces it is read in, and an error instead of the end *)
Definition Stream : Type := list string * option werr.
(** Calls of bufio.Writer by the printer *)
Inductive call := CByte (c : ascii) | CStr (s : string) | CBytes (s : string) | CFlush.
