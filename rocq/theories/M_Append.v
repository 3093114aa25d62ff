(** * Appending to model.Any from several goroutines, word by word (decoder.go 41-47, read.go 215-238)

    The goroutines that read the child models share the *Model.  For an element of another namespace in the element
    model of a child, modelDecoder.Child executes d.model.Any = append(d.model.Any, ...) (decoder.go 46) without
    synchronisation.  A slice is three words; Go promises nothing larger than a word of racing accesses.  Each goroutine
    is given by the elements it appends; what it does in between does not touch the slice.  The words are loaded in any
    order, and stored in any order, also relative to the element itself; the compiler chooses one of these orders.
    Simplifications: an element (an interface, two words) is one cell; growslice copies the elements in one step; the
    capacity it chooses is any that suffices; what is written outside of an array is ignored. *)
From Verif Require Import GoBase AppendTypes.

Section Append.
Context {E : Type}.
Definition get_word (w : word) (h : SHeader) : nat := match w with WPtr => sh_ptr h | WLen => sh_len h | WCap => sh_cap h end.
Definition set_word (w : word) (v : nat) (h : SHeader) : SHeader :=
  match w with WPtr => mkSH v (sh_len h) (sh_cap h) | WLen => mkSH (sh_ptr h) v (sh_cap h) | WCap => mkSH (sh_ptr h) (sh_len h) v end.
Fixpoint upd {A} (i : nat) (f : A -> A) (l : list A) : list A :=
  match l, i with [] , _ => [] | x :: r, O => f x :: r | x :: r, S i => x :: upd i f r end.
(** What remains to be done when it is known where the element goes: the element, and the words that change *)
Inductive act := Elem (p i : nat) (x : E) | Word (w : word) (v : nat).
Definition act_do (a : act) (s : Arrays E * SHeader) : Arrays E * SHeader :=
  match a with
  | Elem p i x => (upd p (upd i (fun _ => Some x)) (fst s), snd s)
  | Word w v => (fst s, set_word w v (snd s))
  end.
(** decoder.go 46: loading the words, then storing *)
Inductive pc := Loading (p l c : option nat) | Storing (todo : list act).
Definition start : pc := Loading None None None.
Definition pad (c : nat) (l : list (option E)) : list (option E) := l ++ repeat None (c - List.length l).
(** A step of a goroutine that has [x] to append next and [r] after it *)
Inductive astep (x : E) (r : list E) : Arrays E * SHeader -> pc -> Arrays E * SHeader -> pc -> list E -> Prop :=
| LoadPtr mem h l c : astep x r (mem, h) (Loading None l c) (mem, h) (Loading (Some (sh_ptr h)) l c) (x :: r)
| LoadLen mem h p c : astep x r (mem, h) (Loading p None c) (mem, h) (Loading p (Some (sh_len h)) c) (x :: r)
| LoadCap mem h p l : astep x r (mem, h) (Loading p l None) (mem, h) (Loading p l (Some (sh_cap h))) (x :: r)
(** There is room: the element, and the length *)
| InPlace mem h p l c : l < c ->
    astep x r (mem, h) (Loading (Some p) (Some l) (Some c)) (mem, h) (Storing [Elem p l x; Word WLen (l + 1)]) (x :: r)
(** There is none: growslice *)
| Grow mem h p l c c' : c <= l -> l < c' ->
    astep x r (mem, h) (Loading (Some p) (Some l) (Some c)) (mem ++ [pad c' (firstn l (nth p mem []))], h)
      (Storing [Elem (List.length mem) l x; Word WPtr (List.length mem); Word WLen (l + 1); Word WCap c']) (x :: r)
| Store s a todo b : astep x r s (Storing (a ++ todo :: b)) (act_do todo s) (Storing (a ++ b)) (x :: r)
| Next s : astep x r s (Storing []) s start r.
Definition AState : Type := ((Arrays E * SHeader) * list (pc * list E))%type.
Inductive mstep : AState -> AState -> Prop :=
| MStep s a k x r b s' k' r' : astep x r s k s' k' r' -> mstep (s, a ++ (k, x :: r) :: b) (s', a ++ (k', r') :: b).
Inductive msteps : AState -> AState -> Prop :=
| MRefl s : msteps s s
| MTrans s t u : msteps s t -> mstep t u -> msteps s u.
Definition m_init (mem : Arrays E) (h : SHeader) (progs : list (list E)) : AState := ((mem, h), map (fun l => (start, l)) progs).
(** wg.Wait has returned (read.go 234) *)
Definition m_done (s : AState) : Prop := Forall (fun t => snd t = []) (snd s).
End Append.
Arguments act : clear implicits.
Arguments pc : clear implicits.
