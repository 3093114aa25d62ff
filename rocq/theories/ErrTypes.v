(** * Errors in memory *)
From Verif Require Import GoBase Types.

(** An interface value of type error: nil, a value without pointer, or a pointer to an Error or a List *)
Inductive EVal := EvNil | EvLeaf (e : gerr) | EvPtr (p : nat).
(** errors/errors.go 52-56 and errors/list.go 13-15 *)
Inductive ECell := CellErr (target : list Level) (err : EVal) (path : string) | CellList (errs : list EVal).
Definition EHeap := list ECell.

(** Errors made with the package; each result is used once *)
Inductive EExp :=
| XNil
| XNew (e : gerr)
| XWrap (x : EExp) (name : string) (index : Z)
| XWrapPath (x : EExp) (name path : string)
| XAppend (x : EExp) (l : list EExp).

Definition leaf (e : gerr) : Prop := match e with EErr _ _ _ | EList _ => False | _ => True end.
