(** * Specification of error texts and of testing errors *)
From Verif Require Import GoBase GoNum GoFloat Types S_Errors.

(** The errors the package builds: a leaf, a leaf with its location, or a list of at least one of these *)
Definition Leaf (e : gerr) : Prop := match e with EErr _ _ _ | EList _ => False | _ => True end.
Inductive BuiltErr : gerr -> Prop :=
| BLeaf e : Leaf e -> BuiltErr e
| BErr t x p : Leaf x -> t <> [] -> Forall (fun l => (-1 <= lv_index l)%Z) t -> BuiltErr (EErr t x p)
| BList l : l <> [] -> Forall BuiltErr l -> BuiltErr (EList l).
Definition BuiltErr_o (e : error) : Prop := match e with None => True | Some e => BuiltErr e end.

(** The texts: a line per member of a list, in order, each with part and location *)
Inductive TextOf (message : string -> string) : gerr -> string -> Prop :=
| TxSent s : TextOf message (ESent s) (message s)
| TxMissing f : TextOf message (EMissing f) ("required field '" +++ f +++ "' is not set")
| TxRequired a : TextOf message (EParse a true) ("error parsing required attribute '" +++ a +++ "'")
| TxOptional a : TextOf message (EParse a false) ("error parsing optional attribute '" +++ a +++ "'")
| TxErr t x p part loc text :
    (p = "" /\ part = "" \/ p <> "" /\ part = "Path: " +++ p +++ " ") -> PathText (rev t) loc -> TextOf message x text ->
    TextOf message (EErr t x p) ("go3mf: " +++ part +++ "XPath: " +++ loc +++ ": " +++ text)
| TxList l texts count noun :
    Forall2 (TextOf message) l texts -> count <> "" -> sall is_digit count = true -> dec_val count = N.of_nat (List.length l) ->
    noun = (if Nat.eqb (List.length l) 1 then " error occurred:" else " errors occurred:") ->
    TextOf message (EList l)
      (count +++ noun +++ sjoin "" (map (fun t => String "010" (String "009" ("* " +++ t))) texts) +++ String "010" "").
