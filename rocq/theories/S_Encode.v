(** * Specification of the encoder *)
From Verif Require Import GoBase GoUtf8 GoFloat Types XmlTypes S_Xml.

(** ** Balance.  [Balances auto open ops auto' open']: the operations [ops], begun with the elements [open] open
    (innermost first), close only the innermost open element, by its name, and leave [open'] open.  A start in
    auto-close mode is a whole element; elements end in the other mode. *)
Inductive Balances : bool -> list Name -> list op -> bool -> list Name -> Prop :=
| BaNil auto open : Balances auto open [] auto open
| BaStart open n a ops auto' open' : Balances false (n :: open) ops auto' open' -> Balances false open (OpTok (TStart n a) :: ops) auto' open'
| BaClosed open n a ops auto' open' : Balances true open ops auto' open' -> Balances true open (OpTok (TStart n a) :: ops) auto' open'
| BaEnd open n ops auto' open' : Balances false open ops auto' open' -> Balances false (n :: open) (OpTok (TEnd n) :: ops) auto' open'
| BaChar open s ops auto' open' : Balances false open ops auto' open' -> Balances false open (OpTok (TChar s) :: ops) auto' open'
| BaAuto auto open b ops auto' open' : Balances b open ops auto' open' -> Balances auto open (OpAuto b :: ops) auto' open'
| BaSkip auto open b ops auto' open' : Balances auto open ops auto' open' -> Balances auto open (OpSkip b :: ops) auto' open'
| BaRel auto open r ops auto' open' : Balances auto open ops auto' open' -> Balances auto open (OpRel r :: ops) auto' open'.

(** The token lists of unknown elements in resources and in a model *)
Definition ResTokens (r : Resources) (l : list Token) : Prop :=
  (exists id, In (AUnknown id l) (rs_assets r)) \/
  (exists o me, In o (rs_objects r) /\ ob_mesh o = Some me /\ In (AnyTokens l) (me_ext me)).
Definition ModelTokens (m : Model) (l : list Token) : Prop := ResTokens (mo_res m) l \/ In (AnyTokens l) (mo_any m).
Definition ChildTokens (c : Child) (l : list Token) : Prop := ResTokens (ch_res c) l \/ In (AnyTokens l) (ch_any c).
