(** * What an error in memory reads as, and what an expression means *)
From Verif Require Import GoBase Types ErrTypes.

Inductive Reads (H : EHeap) : EVal -> gerr -> Prop :=
| R_leaf e : leaf e -> Reads H (EvLeaf e) e
| R_err p t v path e : nth_error H p = Some (CellErr t v path) -> Reads H v e -> Reads H (EvPtr p) (EErr t e path)
| R_list p vs l : nth_error H p = Some (CellList vs) -> ReadsAll H vs l -> Reads H (EvPtr p) (EList l)
with ReadsAll (H : EHeap) : list EVal -> list gerr -> Prop :=
| RA_nil : ReadsAll H [] []
| RA_cons v vs e l : Reads H v e -> ReadsAll H vs l -> ReadsAll H (v :: vs) (e :: l).
(** A nil error is [None] *)
Definition ReadsErr (H : EHeap) (v : EVal) (e : error) : Prop :=
  match e with None => v = EvNil | Some e => Reads H v e end.

(** Where the errors of an error are: its levels, innermost first, the error without them, and the path *)
Fixpoint places (e : gerr) : list (list Level * gerr * string) :=
  match e with
  | EErr t x p => [(t, x, p)]
  | EList l => flat_map places l
  | e => [([], e, "")]
  end.
Definition places_err (e : error) : list (list Level * gerr * string) := match e with None => [] | Some e => places e end.
(** The places of what an expression makes: wrapping adds a level to each, appending puts them one after the other *)
Fixpoint places_exp (x : EExp) : list (list Level * gerr * string) :=
  match x with
  | XNil => []
  | XNew e => [([], e, "")]
  | XWrap x n i => map (fun '(t, e, p) => (t ++ [mkLevel n i], e, p)) (places_exp x)
  | XWrapPath x n path => map (fun '(t, e, _) => (t ++ [mkLevel n (-1)], e, path)) (places_exp x)
  | XAppend x l => places_exp x ++ flat_map places_exp l
  end.
Fixpoint leaves (x : EExp) : Prop :=
  match x with
  | XNil => True
  | XNew e => leaf e
  | XWrap x _ _ | XWrapPath x _ _ => leaves x
  | XAppend x l => leaves x /\ fold_right and True (map leaves l)
  end.
