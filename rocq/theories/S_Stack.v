(** * What a stack does *)
From Verif Require Import GoBase Types StackTypes.

Definition is_ns (e : Entry) : Prop := match e with EnNs _ _ _ => True | _ => False end.
Definition is_start (e : Entry) : Prop := match e with EnStart _ => True | _ => False end.

(** What a method does with the entries, the top first *)
Inductive Does : StackOp -> list Entry -> list Entry -> StackOut -> Prop :=
| D_element n s : Does (OElement n) s (EnStart n :: s) OutNone
| D_ns l u ok s : Does (ONs l u ok) s (EnNs l u ok :: s) OutNone
| D_pop e s : Does OPop (e :: s) s (OutEntry (Some e))
| D_pop_empty : Does OPop [] [] (OutEntry None)
(** below the topmost element and the declarations that belong to it *)
| D_push_eof up n nss rest :
    (forall e, In e up -> ~ is_start e) -> (forall e, In e nss -> is_ns e) ->
    (forall e r, rest = e :: r -> ~ is_ns e) ->
    Does OPushEof (up ++ EnStart n :: nss ++ rest) (up ++ EnStart n :: nss ++ EnEof :: rest) OutNone
| D_pop_eof s : Does OPopEof (EnEof :: s) s (OutBool true)
| D_pop_eof_no s : (forall r, s <> EnEof :: r) -> Does OPopEof s s (OutBool false).

Inductive DoAll : list StackOp -> list Entry -> list Entry -> list StackOut -> Prop :=
| DA_nil s : DoAll [] s s []
| DA_cons o ops s s1 s2 out outs : Does o s s1 out -> DoAll ops s1 s2 outs -> DoAll (o :: ops) s s2 (out :: outs).

(** Reading the nodes from a pointer on gives these entries *)
Definition holds (nd : Node) (e : Entry) : Prop :=
  match e with
  | EnStart n => nd_kind nd = KStart /\ nd_name nd = n
  | EnNs l u ok => nd_kind nd = KNs /\ nd_name nd = mkName u l /\ nd_ok nd = ok
  | EnEof => nd_kind nd = KEOF
  end.
Inductive Reads (mem : list Node) : option nat -> list Entry -> Prop :=
| Rd_nil : Reads mem None []
| Rd_cons p nd e s : nth_error mem p = Some nd -> holds nd e -> Reads mem (nd_next nd) s -> Reads mem (Some p) (e :: s).

(** The highest the stack has been *)
Inductive Deepest : list StackOp -> list Entry -> nat -> Prop :=
| Dp_nil s : Deepest [] s (length s)
| Dp_cons o ops s s1 out k : Does o s s1 out -> Deepest ops s1 k -> Deepest (o :: ops) s (Nat.max (length s) k).
