(** * Looking up the attributes of an extension (spec/spec.go 84-93) *)
From Verif Require Import GoBase Types M_Decode.

(** spec/spec.go 86-93, AnyAttr.Get; [None] is the nil interface *)
Fixpoint any_get (ns : string) (any : AnyAttr) : option AttrGroup :=
  match any with
  | [] => None
  | g :: r => if seq (group_ns g) ns then Some g else any_get ns r
  end.
