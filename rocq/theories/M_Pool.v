(** * The buffers of attribute values (internal/xml/xml.go 102-114, 436-486)

    The values of the attributes of a start tag are kept in a pool of buffers that is used again for the next start tag;
    M_Xml has them as strings. *)
From Verif Require Import GoBase Types PoolTypes.

Section Pool.
(** How much larger than needed bytes.Buffer makes a new array *)
Context (grow : nat -> nat -> nat).
(** bytes.Buffer: its slice starts at the first byte of its array, since nothing is read from it *)
Record Buffer := mkBuffer { bf_arr : option nat; bf_len : nat }.
Definition buffer_zero : Buffer := mkBuffer None 0.
(** The arrays with that of [b] overwritten from [at] on *)
Definition overwrite (at_ : nat) (s : string) (old : string) : string := stake at_ old +++ s +++ sdrop (at_ + String.length s) old.
Definition set_arr (a : nat) (s : string) (A : Arrays) : Arrays := firstn a A ++ s :: skipn (S a) A.
(** bytes.Buffer.Reset *)
Definition buf_reset (b : Buffer) : Buffer := mkBuffer (bf_arr b) 0.
Definition zeros (n : nat) : string := string_of_list_ascii (repeat (Ascii.ascii_of_nat 0) n).
(** bytes.Buffer.Write: in place if it fits, otherwise in a new array with the bytes written so far *)
Definition buf_write (A : Arrays) (b : Buffer) (data : string) : Arrays * Buffer :=
  let n := String.length data in
  let fresh := (A ++ [(match bf_arr b with Some a => stake (bf_len b) (nth a A "") | None => "" end) +++ data +++ zeros (grow (bf_len b) n)],
                mkBuffer (Some (List.length A)) (bf_len b + n)) in
  match bf_arr b with
  | Some a =>
      if Nat.leb (bf_len b + n) (String.length (nth a A "")) then
        (set_arr a (overwrite (bf_len b) data (nth a A "")) A, mkBuffer (Some a) (bf_len b + n))
      else fresh
  | None => if Nat.eqb n 0 then (A, b) else fresh
  end.
(** bytes.Buffer.Bytes *)
Definition buf_bytes (b : Buffer) : Bytes := mkBytes (bf_arr b) (bf_len b).

(** internal/xml/xml.go 102-103; a zero XMLAttr *)
Record Pool := mkPool { po_arrays : Arrays; po_attrs : list PAttr; po_bufs : list Buffer }.
Definition pattr_zero : PAttr := mkPAttr (mkName "" "") (mkBytes None 0).
(** internal/xml/xml.go 113-114 *)
Definition pool_new (A : Arrays) : Pool := mkPool A (repeat pattr_zero 10) (repeat buffer_zero 10).

Definition set_nth {X} (i : nat) (x : X) (l : list X) : list X := firstn i l ++ x :: skipn (S i) l.
(** internal/xml/xml.go 471-480: attribute number [i], from 0; [None]: an index out of range.  Growing copies the buffers, which then
    share their arrays with those left behind and never used again. *)
Definition pool_attr (P : Pool) (i : nat) (n : Name) (data : string) : option Pool :=
  let P := if Nat.ltb (List.length (po_attrs P)) (S i)
           then mkPool (po_arrays P) (po_attrs P ++ repeat pattr_zero (List.length (po_attrs P))) (po_bufs P ++ repeat buffer_zero (List.length (po_bufs P)))
           else P in
  match nth_error (po_bufs P) i, nth_error (po_attrs P) i with
  | Some b, Some _ =>
      let (A, b) := buf_write (po_arrays P) (buf_reset b) data in
      Some (mkPool A (set_nth i (mkPAttr n (buf_bytes b)) (po_attrs P)) (set_nth i b (po_bufs P)))
  | _, _ => None
  end.
(** internal/xml/xml.go 436-486: the attributes of a start tag, [i] of them before *)
Fixpoint pool_attrs (P : Pool) (i : nat) (l : list Attr) : option Pool :=
  match l with
  | [] => Some P
  | a :: l => match pool_attr P i (aname a) (avalue a) with Some P => pool_attrs P (S i) l | None => None end
  end.
(** internal/xml/xml.go 486: what the callback of a start tag is given *)
Definition pool_tag (P : Pool) (l : list Attr) : option (Pool * list PAttr) :=
  match pool_attrs P 0 l with Some P => Some (P, firstn (List.length l) (po_attrs P)) | None => None end.
(** One start tag after the other: what each callback is given, with the memory at that time *)
Fixpoint pool_tags (P : Pool) (tags : list (list Attr)) : option (Pool * list (Arrays * list PAttr)) :=
  match tags with
  | [] => Some (P, [])
  | l :: tags =>
      match pool_tag P l with
      | Some (P, given) => match pool_tags P tags with Some (P', r) => Some (P', (po_arrays P, given) :: r) | None => None end
      | None => None
      end
  end.
End Pool.
