(** * Specification of the error collection *)
From Verif Require Import GoBase GoFloat Types.

(** The members of an error: none for nil, the elements of a list, else itself. *)
Definition members (e : error) : list gerr :=
  match e with
  | None => []
  | Some (EList l) => l
  | Some x => [x]
  end.

(** A located error: the location from the outermost level to the innermost one,
    the path of the part, and the innermost error.  [located e] lists them in
    order, looking through lists at any depth. *)
Fixpoint located (e : gerr) : list (list Level * string * gerr) :=
  match e with
  | EErr t x p => [(rev t, p, x)]
  | EList l => (fix go l := match l with [] => [] | e :: r => located e ++ go r end) l
  | x => [([], "", x)]
  end.
Definition located_o (e : error) := match e with None => [] | Some x => located x end.

(** One more level outside, and a new part path. *)
Definition outer (lv : Level) (x : list Level * string * gerr) : list Level * string * gerr :=
  let '(loc, p, e) := x in (lv :: loc, p, e).
Definition in_part (p' : string) (x : list Level * string * gerr) : list Level * string * gerr :=
  let '(loc, _, e) := x in (loc, p', e).

(** The XPath text: "/name" or "/name[index]" for each level, outermost first. *)
Inductive LevelText : Level -> string -> Prop :=
| LTPlain n : LevelText (mkLevel n (-1)) n
| LTIndex n (i : N) digits : (* the decimal digits of the index *)
    sall is_digit digits = true -> digits <> "" ->
    fold_left (fun a c => (a * 10 + (bN c - 48))%N) (chars digits) 0%N = i ->
    LevelText (mkLevel n (Z.of_N i)) (n +++ "[" +++ digits +++ "]").
Inductive PathText : list Level -> string -> Prop :=
| PTNil : PathText [] ""
| PTCons l ls t ts : LevelText l t -> PathText ls ts -> PathText (l :: ls) ("/" +++ t +++ ts).
