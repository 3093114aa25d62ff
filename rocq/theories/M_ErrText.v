(** * What errors print and how they are tested (errors/errors.go, errors/list.go) *)
From Verif Require Import GoBase GoNum GoFloat Types M_Errors.

Definition nl : string := String "010"%char "".
Definition tab : string := String "009"%char "".
Section Text.
(** The texts of the sentinel errors, e.g. errors/errors.go 15-38 *)
Variable message : string -> string.
(** errors/errors.go 110-115 (Error.Error), 125-127 (MissingFieldError), 138-144 (ParseAttrError); errors/list.go 38-43 and 103-116
    (List.Error, listFormatFunc).  [%v] and [%s] of an error print what its method Error returns. *)
Fixpoint err_text (e : gerr) : string :=
  match e with
  | ESent s => message s
  | EMissing f => "required field '" +++ f +++ "' is not set"
  | EParse a req => "error parsing " +++ (if req then "required" else "optional") +++ " attribute '" +++ a +++ "'"
  | EErr t x p =>
      if seq p "" then "go3mf: XPath: " +++ xpath t +++ ": " +++ err_text x
      else "go3mf: Path: " +++ p +++ " XPath: " +++ xpath t +++ ": " +++ err_text x
  | EList l =>
      match l with
      | [x] => "1 error occurred:" +++ nl +++ tab +++ "* " +++ err_text x +++ nl
      | _ => fmt_dec (N.of_nat (List.length l)) +++ " errors occurred:" +++ nl +++ tab +++
             sjoin (nl +++ tab) (map (fun x => "* " +++ err_text x) l) +++ nl
      end
  end.
End Text.

(** errors/errors.go 98-100 (Error.Unwrap), errors/list.go 46-51 (List.Unwrap), and the loop of errors.Is of the standard library
    for a sentinel error, which is compared by identity: [chain] lists the errors that are compared. *)
Fixpoint chain (e : gerr) : list gerr :=
  e :: match e with
       | EErr _ x _ => chain x
       | EList (x :: _) => chain x
       | _ => []
       end.
Definition errors_is (e : error) (target : string) : bool :=
  match e with
  | None => false
  | Some e => existsb (fun x => match x with ESent s => seq s target | _ => false end) (chain e)
  end.
