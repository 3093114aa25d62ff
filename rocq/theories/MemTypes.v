(** * Models in memory: slices that may share their arrays, and the streams of attachments *)
From Verif Require Import GoBase Types.

(** A slice of relationships: array, offset, length and capacity *)
Record RSlice := mkRSl { sl_arr : nat; sl_off : nat; sl_len : nat; sl_cap : nat }.
(** The arrays, and what the readers have still to give *)
Record Mem := mkMem { mm_arrays : list (list Relationship); mm_streams : list string }.
Definition contents (M : Mem) (s : RSlice) : list Relationship :=
  firstn (sl_len s) (skipn (sl_off s) (nth (sl_arr s) (mm_arrays M) [])).
(** core.go 107-122, 211-226: a model whose relationships and attachments are in memory.  The relationships, children and
    contents of attachments of [mm_model] are not used: they are [mm_rootrels], [mm_rels], [mm_childs] and, one reader for
    each attachment, [mm_readers]. *)
Record MemModel := mkMM { mm_model : Model; mm_readers : list nat; mm_rootrels : RSlice; mm_rels : RSlice;
                        mm_childs : list (string * (Child * RSlice)) }.
