(** * Package errors (errors/errors.go, errors/list.go) *)
From Verif Require Import GoBase GoNum GoFloat Types.

(** errors/errors.go 45-50, Level.String *)
Definition level_string (l : Level) : string :=
  if (lv_index l =? -1)%Z then lv_name l else lv_name l +++ "[" +++ fmt_int (lv_index l) +++ "]".

(** errors/errors.go 62-77, WrapIndex on a non-nil error *)
Fixpoint wrap_index1 (e : gerr) (name : string) (index : Z) : gerr :=
  match e with
  | EErr t x p => EErr (t ++ [mkLevel name index]) x p
  | EList l => EList (map (fun e1 => wrap_index1 e1 name index) l)
  | _ => EErr [mkLevel name index] e ""
  end.
Definition wrap_index (e : error) (name : string) (index : Z) : error :=
  match e with None => None | Some e => Some (wrap_index1 e name index) end.
(** errors/errors.go 58-60, Wrap *)
Definition wrap (e : error) (name : string) : error := wrap_index e name (-1).
(** errors/errors.go 79-95, WrapPath *)
Fixpoint wrap_path1 (e : gerr) (name path : string) : gerr :=
  match e with
  | EErr t x _ => EErr (t ++ [mkLevel name (-1)]) x path
  | EList l => EList (map (fun e1 => wrap_path1 e1 name path) l)
  | _ => EErr [mkLevel name (-1)] e path
  end.
Definition wrap_path (e : error) (name path : string) : error :=
  match e with None => None | Some e => Some (wrap_path1 e name path) end.

(** errors/errors.go 101-107, Error.XPath: level [i] of Target goes to place [len-i-1]. *)
Definition xpath (target : list Level) : string :=
  "/" +++ sjoin "/" (rev (map level_string target)).

(** errors/list.go 65-84: the loop of Append when err is a *List *)
Fixpoint append_list (l : list gerr) (errs : list error) : list gerr :=
  match errs with
  | [] => l
  | None :: r => append_list l r
  | Some (EList l') :: r => append_list (l ++ l') r
  | Some e :: r => append_list (l ++ [e]) r
  end.
(** errors/list.go 87-95: the non-nil members *)
Fixpoint non_nil (errs : list error) : list error :=
  match errs with
  | [] => []
  | None :: r => non_nil r
  | Some e :: r => Some e :: non_nil r
  end.
(** errors/list.go 59-101, Append *)
Definition append (err : error) (errs : list error) : error :=
  match errs with
  | [] => err
  | _ =>
      match err with
      | Some (EList l) => Some (EList (append_list l errs))
      | _ =>
          let news := non_nil (err :: errs) in
          match news with
          | [] => None
          | _ => Some (EList (append_list [] news))
          end
      end
  end.

(** errors/list.go 17-22, List.Len, and 46-51, List.Unwrap, on a list value *)
Definition err_len (l : list gerr) : nat := List.length l.
Definition list_unwrap (l : list gerr) : error := match l with [] => None | e :: _ => Some e end.
