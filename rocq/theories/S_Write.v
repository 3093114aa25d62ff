(** * Specification: what a writer got (C69) *)
From Verif Require Import GoBase Types WriteTypes.

Definition failing (x : ev) : option werr := match x with EvCreate _ _ e | EvWrite _ _ e | EvClose e => e end.
(** Nothing failed so far *)
Definition Fine (h : list ev) : Prop := Forall (fun x => failing x = None) h.
(** The parts that were created with the bytes they got, in order *)
Definition got (ps : list (string * string * string)) (x : ev) : list (string * string * string) :=
  match x with
  | EvCreate n c None => ps ++ [(n, c, "")]
  | EvWrite s n _ => upd_last (fun p => (fst p, snd p +++ stake n s)) ps
  | _ => ps
  end.
Definition parts_got (h : list ev) : list (string * string * string) := fold_left got h [].
(** The beginning of the parts [q]: all but the last complete *)
Inductive Begins : list (string * string * string) -> list (string * string * string) -> Prop :=
| BNone q : Begins [] q
| BPart n c d d' q : Begins [(n, c, d)] ((n, c, d +++ d') :: q)
| BMore p ps q : Begins ps q -> Begins (p :: ps) (p :: q).
(** The text of the calls *)
Definition call_text (c : call) : string := match c with CByte c => String c "" | CStr s | CBytes s => s | CFlush => "" end.
Definition calls_text (l : list call) : string := fold_right (fun c t => call_text c +++ t) "" l.
(** The pieces of a stream together *)
Definition joined (l : list string) : string := fold_right String.append "" l.
(** The model with what its streams have to say as attachments *)
Definition filled (streams : list Stream) (m : Model) : Model :=
  mkModel (mo_path m) (mo_lang m) (mo_units m) (mo_thumb m) (mo_res m) (mo_build m)
    (map (fun x => mkAtt (joined (fst (snd x))) (at_path (fst x)) (at_ctype (fst x))) (combine (mo_atts m) streams))
    (mo_exts m) (mo_md m) (mo_childs m) (mo_rootrels m) (mo_rels m) (mo_any m) (mo_anyattr m).
(** The results are those the writer gave *)
Inductive Answered (W : Oracle) : list ev -> Prop :=
| ANone : Answered W []
| ACreate h n c : Answered W h -> Answered W (h ++ [EvCreate n c (o_create W h n c)])
| AWrite h s : Answered W h -> o_write W h s = None -> Answered W (h ++ [EvWrite s (String.length s) None])
| AWriteErr h s n e : Answered W h -> o_write W h s = Some (n, e) -> Answered W (h ++ [EvWrite s (Nat.min n (String.length s)) (Some e)])
| AClose h : Answered W h -> Answered W (h ++ [EvClose (o_close W h)]).
