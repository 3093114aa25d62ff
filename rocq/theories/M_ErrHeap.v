(** * Package errors with its pointers (errors/errors.go, errors/list.go)

    M_Errors has errors as values.  Here they are what the code has: pointers to cells, which Wrap, WrapPath and Append
    change in place.  The slices Target and Errors belong to their cell. *)
From Verif Require Import GoBase Types ErrTypes M_Errors.

Definition set_cell (p : nat) (c : ECell) (H : EHeap) : EHeap := firstn p H ++ c :: skipn (S p) H.
Definition alloc (c : ECell) (H : EHeap) : EHeap * EVal := (H ++ [c], EvPtr (List.length H)).
Definition set_member (i : nat) (v : EVal) (l : list EVal) : list EVal := firstn i l ++ v :: skipn (S i) l.

(** errors/errors.go 71-73 and 90-92, for i, e1 := range e.Errors of the list at [p]: [n] members are left, from [i] on.  The
    slice is that of the beginning, its members are read one by one. *)
Definition members (w : EHeap -> EVal -> option (EHeap * EVal)) (p : nat) : nat -> nat -> EHeap -> option EHeap :=
  fix go n i H :=
  match n with
  | O => Some H
  | S n =>
      match nth_error H p with
      | Some (CellList vs) =>
          match nth_error vs i with
          | Some e1 =>
              match w H e1 with
              | Some (H, e1') =>
                  match nth_error H p with
                  | Some (CellList vs) => go n (S i) (set_cell p (CellList (set_member i e1' vs)) H)
                  | _ => None
                  end
              | None => None
              end
          | None => None
          end
      | _ => None
      end
  end.

Section Wrap.
(** What is done with an Error: the level added, and the path set by WrapPath *)
Context (lv : Level) (path : option string).
Definition new_path (old : string) : string := match path with Some p => p | None => old end.
(** errors/errors.go 62-77 and 79-96, WrapIndex and WrapPath.  [None]: a nil pointer or no end ([fuel]). *)
Fixpoint wrap_h (fuel : nat) (H : EHeap) (v : EVal) : option (EHeap * EVal) :=
  match fuel with
  | O => None
  | S fuel =>
      match v with
      | EvNil => Some (H, EvNil)
      | EvLeaf _ => Some (alloc (CellErr [lv] v (new_path "")) H)
      | EvPtr p =>
          match nth_error H p with
          | Some (CellErr t x pa) => Some (set_cell p (CellErr (t ++ [lv]) x (new_path pa)) H, v)
          | Some (CellList vs) =>
              match members (wrap_h fuel) p (List.length vs) 0 H with Some H => Some (H, v) | None => None end
          | None => None
          end
      end
  end.
End Wrap.

(** errors/list.go 64-84: [p] is the *List *)
Fixpoint append_list_h (H : EHeap) (p : nat) (errs : list EVal) : option EHeap :=
  match errs with
  | [] => Some H
  | e :: errs =>
      match nth_error H p with
      | Some (CellList vs) =>
          match e with
          | EvNil => append_list_h H p errs
          | EvLeaf _ => append_list_h (set_cell p (CellList (vs ++ [e])) H) p errs
          | EvPtr q =>
              match nth_error H q with
              | Some (CellList vs') => append_list_h (set_cell p (CellList (vs ++ vs')) H) p errs
              | Some (CellErr _ _ _) => append_list_h (set_cell p (CellList (vs ++ [e])) H) p errs
              | None => None
              end
          end
      | _ => None
      end
  end.
Definition not_nil (v : EVal) : bool := match v with EvNil => false | _ => true end.
(** errors/list.go 59-101, Append *)
Definition append_h (H : EHeap) (err : EVal) (errs : list EVal) : option (EHeap * EVal) :=
  match errs with
  | [] => Some (H, err)
  | _ =>
      let other :=
        match filter not_nil (err :: errs) with
        | [] => Some (H, EvNil)
        | news =>
            let (H, l) := alloc (CellList []) H in
            match l with EvPtr p => option_map (fun H => (H, l)) (append_list_h H p news) | _ => None end
        end in
      match err with
      | EvPtr p =>
          match nth_error H p with
          | Some (CellList _) => option_map (fun H => (H, err)) (append_list_h H p errs)
          | Some (CellErr _ _ _) => other
          | None => None
          end
      | _ => other
      end
  end.

Definition eval_all (ev : EExp -> EHeap -> option (EHeap * EVal)) : list EExp -> EHeap -> option (EHeap * list EVal) :=
  fix all l H :=
  match l with
  | [] => Some (H, [])
  | y :: l => match ev y H with
              | Some (H, v) => match all l H with Some (H, vs) => Some (H, v :: vs) | None => None end
              | None => None
              end
  end.
(** An expression, its arguments from left to right; wrapping never nests deeper than there are cells *)
Fixpoint eval_h (x : EExp) (H : EHeap) : option (EHeap * EVal) :=
  match x with
  | XNil => Some (H, EvNil)
  | XNew e => Some (H, EvLeaf e)
  | XWrap x n i => match eval_h x H with Some (H, v) => wrap_h (mkLevel n i) None (S (S (List.length H))) H v | None => None end
  | XWrapPath x n p => match eval_h x H with Some (H, v) => wrap_h (mkLevel n (-1)) (Some p) (S (S (List.length H))) H v | None => None end
  | XAppend x l =>
      match eval_h x H with
      | Some (H, v) =>
          match eval_all eval_h l H with
          | Some (H, vs) => append_h H v vs
          | None => None
          end
      | None => None
      end
  end.

(** The same expression with errors as values (M_Errors) *)
Fixpoint eval_v (x : EExp) : error :=
  match x with
  | XNil => None
  | XNew e => Some e
  | XWrap x n i => wrap_index (eval_v x) n i
  | XWrapPath x n p => wrap_path (eval_v x) n p
  | XAppend x l => append (eval_v x) (map eval_v l)
  end.
