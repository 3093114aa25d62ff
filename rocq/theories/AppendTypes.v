(** * Slices in memory *)
From Verif Require Import GoBase.

(** A slice is three words: where its array is, its length and its capacity (reflect.SliceHeader).  The arrays are
    numbered. *)
Inductive word := WPtr | WLen | WCap.
Record SHeader := mkSH { sh_ptr : nat; sh_len : nat; sh_cap : nat }.
(** The cells of the arrays; [None]: nothing has been written to the cell *)
Definition Arrays (E : Type) : Type := list (list (option E)).
