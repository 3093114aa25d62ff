(** * Specification: resources added one after the other *)
From Coq Require Import Sorted.
From Verif Require Import GoBase GoFloat Types S_Core.

(** One asset or object with the identifier is put anywhere into its list. *)
Inductive AddedOne : Resources -> N -> Resources -> Prop :=
| AoAsset u v os any a : AddedOne (mkRes (u ++ v) os any) (asset_id a) (mkRes (u ++ a :: v) os any)
| AoObject ass u v any o : AddedOne (mkRes ass (u ++ v) any) (ob_id o) (mkRes ass (u ++ o :: v) any).
(** A caller that asks [next] for an identifier, adds a resource with it, and so on *)
Inductive Run (next : Resources -> N) : Resources -> list N -> Resources -> Prop :=
| RunNil rs : Run next rs [] rs
| RunStep rs rs1 ids rs2 : AddedOne rs (next rs) rs1 -> Run next rs1 ids rs2 -> Run next rs (next rs :: ids) rs2.
(** The first numbers, from 1 on and in their order, that are no identifiers *)
Definition FirstUnused (rs : Resources) (ids : list N) : Prop :=
  StronglySorted N.lt ids /\
  forall id, In id ids -> (0 < id)%N /\ ~ IdInUse rs id /\ forall k, (0 < k < id)%N -> IdInUse rs k \/ In k ids.
