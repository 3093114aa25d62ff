(** * Specification of concurrent appending (C84) *)
From Coq Require Import Permutation.
From Verif Require Import GoBase AppendTypes.

Section S.
Context {E : Type}.
(** The slice is a proper one and holds the elements [l]. *)
Definition SliceOf (mem : Arrays E) (h : SHeader) (l : list E) : Prop :=
  firstn (sh_len h) (nth (sh_ptr h) mem []) = map Some l /\ List.length l = sh_len h /\
  sh_len h <= sh_cap h /\ sh_cap h <= List.length (nth (sh_ptr h) mem []).
(** At most one of the goroutines has something to append. *)
Definition OneWriter (progs : list (list E)) : Prop :=
  forall i j x y, nth_error progs i = Some x -> nth_error progs j = Some y -> x <> [] -> y <> [] -> i = j.
(** Nothing is lost and nothing is added: the elements there were, and those of all goroutines in some order. *)
Definition AllKept (mem : Arrays E) (h : SHeader) (l : list E) (progs : list (list E)) : Prop :=
  exists new, SliceOf mem h (l ++ new) /\ Permutation new (concat progs).
End S.
