(** * Attribute values in memory *)
From Verif Require Import GoBase Types.

(** A []byte: the array, from its first byte on, and the length; nil has no array *)
Record Bytes := mkBytes { by_arr : option nat; by_len : nat }.
(** The arrays *)
Definition Arrays := list string.
(** What a []byte reads as *)
Definition read_bytes (A : Arrays) (b : Bytes) : string :=
  match by_arr b with Some a => stake (by_len b) (nth a A "") | None => "" end.
(** XMLAttr of internal/xml (spec/spec.go 60-63): the name and the slice *)
Record PAttr := mkPAttr { pa_name : Name; pa_value : Bytes }.
Definition read_attr (A : Arrays) (a : PAttr) : Attr := mkAttr (pa_name a) (read_bytes A (pa_value a)).
