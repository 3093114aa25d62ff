(** * What a registry does *)
From Verif Require Import GoBase RegTypes.

(** The value registered for [ns] by the calls of [l], the last first, or the one there was at the start *)
Fixpoint registered (start : string -> option SpecVal) (l : list RegOp) (ns : string) : option SpecVal :=
  match l with
  | [] => start ns
  | ORegister ns' v :: l => if String.eqb ns' ns then Some v else registered start l ns
  | _ :: l => registered start l ns
  end.
(** What a call returns when the calls of [l] came before it *)
Definition returns (start : string -> option SpecVal) (l : list RegOp) (o : RegOp) (r : RegOut) : Prop :=
  match o with
  | ORegister _ _ => r = RDone
  | OLoad ns => r = match registered start l ns with Some v => RValue v true | None => RValue SpecNil false end
  | OLoadValidator ns => r = match registered start l ns with Some (SpecIs id true) => RValue (SpecIs id true) true | _ => RValue SpecNil false end
  end.

(** The calls in the order they got at the map, the last first *)
Fixpoint order (evs : list RegEv) (acc : list RegOp) : list RegOp :=
  match evs with
  | [] => acc
  | EvMap _ o _ :: evs => order evs (o :: acc)
  | _ :: evs => order evs acc
  end.
(** Each call returns what it returns in that order *)
Definition Sequential (start : string -> option SpecVal) (evs : list RegEv) : Prop :=
  forall pre i o r post, evs = pre ++ EvMap i o r :: post -> returns start (order pre []) o r.

Definition of_gor (e : RegEv) : nat := match e with EvBegin i _ | EvMap i _ _ | EvReturn i _ _ => i end.
(** What goroutine [i] does: its calls in order, each begins, gets at the map once, and returns what it got *)
Inductive Calls (i : nat) : list RegOp -> list RegEv -> Prop :=
| Cl_nil p : Calls i p []
| Cl_begin o p : Calls i (o :: p) [EvBegin i o]
| Cl_map o p r : Calls i (o :: p) [EvBegin i o; EvMap i o r]
| Cl_return o p r evs : Calls i p evs -> Calls i (o :: p) (EvBegin i o :: EvMap i o r :: EvReturn i o r :: evs).
