(** * Specification: identifiers that are repeated (C02) *)
From Verif Require Import GoBase Types S_Core.

(** An identifier that cannot have been given out once: 0, or one that two resources have *)
Definition Repeated (rs : Resources) (k : N) : Prop := (if (k =? 0)%N then 1 else 2) <= id_count rs k.
