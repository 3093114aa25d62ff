(** * Specification of the byte reader *)
From Verif Require Import GoBase GoUtf8 GoFloat Types XmlTypes.

(** The client on the bytes themselves: after the last byte comes the error, again and again. *)
Fixpoint on_bytes {A} (fin : xerr) (c : client A) (rest : string) : A :=
  match c with
  | Ret a => a
  | Get k =>
      match rest with
      | EmptyString => on_bytes fin (snd (k (inr fin))) ""
      | String x r => on_bytes fin (snd (k (inl x))) (if fst (k (inl x)) then rest else r)
      end
  end.
(** No 100 empty reads in a row *)
Definition Patient (reads : list string) : Prop :=
  forall a b, reads <> a ++ repeat "" 100 ++ b.
