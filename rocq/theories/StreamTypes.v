(** * The operations on streams and their log *)
From Verif Require Import GoBase.

Inductive sop := SOpen | SRead | SClose.
(** The streams of one Decode: of the [i]-th attachment copied, of the [i]-th child model, of the root model *)
Inductive sid := SAtt (i : nat) | SChild (i : nat) | SRoot.
(** What was done with which stream, in order of time *)
Definition slog := list (sid * sop).
