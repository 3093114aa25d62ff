(** * The registry of specs: calls and what happens *)
From Verif Require Import GoBase.

(** A value of type Spec (spec/spec.go 43-49): nil, or one of the registered values; [true]: it is a ValidateSpec too *)
Inductive SpecVal := SpecNil | SpecIs (id : nat) (validates : bool).
(** The calls of the package *)
Inductive RegOp := ORegister (ns : string) (v : SpecVal) | OLoad (ns : string) | OLoadValidator (ns : string).
(** What they return: nothing, or a value and a bool *)
Inductive RegOut := RDone | RValue (v : SpecVal) (ok : bool).
(** What happens in an execution: goroutine [i] begins a call, gets at the map, returns *)
Inductive RegEv := EvBegin (i : nat) (o : RegOp) | EvMap (i : nat) (o : RegOp) (r : RegOut) | EvReturn (i : nat) (o : RegOp) (r : RegOut).
