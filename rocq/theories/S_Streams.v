(** * What may be done with a stream that is opened *)
From Verif Require Import GoBase StreamTypes.

(** What was done with one of the streams *)
Inductive On (s : sid) : slog -> list sop -> Prop :=
| OnNil : On s [] []
| OnThis o l r : On s l r -> On s ((s, o) :: l) (o :: r)
| OnOther t o l r : t <> s -> On s l r -> On s ((t, o) :: l) r.
(** Not opened at all, or opened, read any number of times, and closed once at the end *)
Definition Settled (l : list sop) : Prop := l = [] \/ exists n, l = SOpen :: repeat SRead n ++ [SClose].
(** Opened and not yet closed *)
Definition Held (l : list sop) : Prop := exists n, l = SOpen :: repeat SRead n.
