(** * The registry of specs and its lock (spec/spec.go 11-41)

    Any number of goroutines call Register, Load and LoadValidator.  A call takes the RWMutex, gets at the map, and gives
    the mutex back; these are three steps, and the steps of goroutines come in any order.  sync.RWMutex: Lock waits until
    nobody holds it, RLock until no writer does.  (A waiting writer also keeps new readers out; that only removes
    orders.) *)
From Verif Require Import GoBase RegTypes.

(** Where a goroutine is in its first call: before it, holding the mutex, or done with the map *)
Inductive Where := Before | Holding | Done (r : RegOut).
(** A goroutine: the calls left, the place in the first of them *)
Record Gor := mkGor { g_calls : list RegOp; g_where : Where }.
(** spec/spec.go 11-14: specs, and the state of specMu: the number of readers, whether a writer holds it *)
Record Reg := mkReg { rg_specs : list (string * SpecVal); rg_readers : nat; rg_writer : bool; rg_gors : list Gor }.

Definition writes (o : RegOp) : bool := match o with ORegister _ _ => true | _ => false end.
(** spec/spec.go 38: the assertion to ValidateSpec fails for nil *)
Definition assert_validator (v : SpecVal) : SpecVal * bool :=
  match v with SpecIs _ true => (v, true) | _ => (SpecNil, false) end.
(** spec/spec.go 22, 27, 34-40: what a call does with the map and returns; a missing key gives nil *)
Definition on_map (o : RegOp) (specs : list (string * SpecVal)) : list (string * SpecVal) * RegOut :=
  match o with
  | ORegister ns v => (aset seq ns v specs, RDone)
  | OLoad ns => (specs, match aget seq ns specs with Some v => RValue v true | None => RValue SpecNil false end)
  | OLoadValidator ns =>
      (specs, match aget seq ns specs with
              | Some v => let (v, ok) := assert_validator v in RValue v ok
              | None => RValue SpecNil false
              end)
  end.

Definition set_gor (i : nat) (g : Gor) (l : list Gor) : list Gor := firstn i l ++ g :: skipn (S i) l.
(** A step of goroutine [i] *)
Inductive RegStep : Reg -> RegEv -> Reg -> Prop :=
(** spec/spec.go 20: Lock *)
| St_lock s i o ops : nth_error (rg_gors s) i = Some (mkGor (o :: ops) Before) -> writes o = true ->
    rg_readers s = 0 -> rg_writer s = false ->
    RegStep s (EvBegin i o) (mkReg (rg_specs s) 0 true (set_gor i (mkGor (o :: ops) Holding) (rg_gors s)))
(** spec/spec.go 26, 33: RLock *)
| St_rlock s i o ops : nth_error (rg_gors s) i = Some (mkGor (o :: ops) Before) -> writes o = false ->
    rg_writer s = false ->
    RegStep s (EvBegin i o) (mkReg (rg_specs s) (S (rg_readers s)) false (set_gor i (mkGor (o :: ops) Holding) (rg_gors s)))
(** spec/spec.go 22, 27, 34 *)
| St_map s i o ops specs r : nth_error (rg_gors s) i = Some (mkGor (o :: ops) Holding) -> on_map o (rg_specs s) = (specs, r) ->
    RegStep s (EvMap i o r) (mkReg specs (rg_readers s) (rg_writer s) (set_gor i (mkGor (o :: ops) (Done r)) (rg_gors s)))
(** spec/spec.go 21: Unlock, deferred *)
| St_unlock s i o ops r : nth_error (rg_gors s) i = Some (mkGor (o :: ops) (Done r)) -> writes o = true ->
    RegStep s (EvReturn i o r) (mkReg (rg_specs s) (rg_readers s) false (set_gor i (mkGor ops Before) (rg_gors s)))
(** spec/spec.go 28, 35: RUnlock *)
| St_runlock s i o ops r : nth_error (rg_gors s) i = Some (mkGor (o :: ops) (Done r)) -> writes o = false ->
    RegStep s (EvReturn i o r) (mkReg (rg_specs s) (pred (rg_readers s)) (rg_writer s) (set_gor i (mkGor ops Before) (rg_gors s))).

Definition reg_start (specs : list (string * SpecVal)) (progs : list (list RegOp)) : Reg :=
  mkReg specs 0 false (map (fun p => mkGor p Before) progs).
(** The executions: what happened so far and the state reached *)
Inductive RegExec (specs : list (string * SpecVal)) (progs : list (list RegOp)) : list RegEv -> Reg -> Prop :=
| RE_start : RegExec specs progs [] (reg_start specs progs)
| RE_step evs s e s' : RegExec specs progs evs s -> RegStep s e s' -> RegExec specs progs (evs ++ [e]) s'.

(** spec/spec.go 105-112 and 114-119, and decoder.go 300-306: the methods of the spec loaded are called if [ok]; a nil interface
    panics.  [None]: the unknown attributes or elements are kept as they are. *)
Inductive called := CallPanic | CallMethod (id : nat) | CallUnknown.
Definition call_loaded (r : RegOut) : called :=
  match r with
  | RValue (SpecIs id _) true => CallMethod id
  | RValue SpecNil true => CallPanic
  | _ => CallUnknown
  end.
