(** * The stack of the scanner in memory *)
From Verif Require Import GoBase Types.

(** internal/xml/xml.go 196-200 *)
Inductive Kind := KStart | KNs | KEOF.
(** internal/xml/xml.go 189-194: a node; pointers are positions in the memory.  A new node is zero. *)
Record Node := mkNode { nd_next : option nat; nd_kind : Kind; nd_name : Name; nd_ok : bool }.
Definition node_zero : Node := mkNode None KStart (mkName "" "") false.
(** internal/xml/xml.go 96-97: the nodes made so far, [stk] and [free] *)
Record Nodes := mkNodes { ns_mem : list Node; ns_stk : option nat; ns_free : option nat }.

(** What was put on a stack *)
Inductive Entry := EnStart (n : Name) | EnNs (local url : string) (ok : bool) | EnEof.
(** The methods called, with their arguments *)
Inductive StackOp := OElement (n : Name) | ONs (local url : string) (ok : bool) | OPop | OPushEof | OPopEof.
(** What a method gives its caller: nothing, the entry popped (nil if there is none), or a bool *)
Inductive StackOut := OutNone | OutEntry (e : option Entry) | OutBool (b : bool).
