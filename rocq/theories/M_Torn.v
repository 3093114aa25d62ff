(** * The variable errs of processNonRootModels, word by word (read.go 215-238)

    The goroutines assign to errs (229) without synchronisation.  A Go interface value is two words, the dynamic type
    and the data, and Go promises nothing larger than a word of racing assignments.  This machine is that of M_Childs
    except that an assignment is two steps: the type, then the data, the order of the gc compiler.  The variable is
    read after wg.Wait, when no goroutine runs.  The memory model of Go allows yet more (reordered words); what is
    refuted here is refuted there, too. *)
From Verif Require Import GoBase GoNum GoUtf8 GoFloat Types XmlTypes M_Core M_Errors M_Xml M_Decode M_Childs.

(** Dynamic types: that of the error of Open and that of the reader, of which nothing is known here; *xml.SyntaxError
    (internal/xml/xml.go 95-104); *errors.errorString, of context.Canceled and the sentinels (errors/errors.go 11-38); *Error,
    *List, *MissingFieldError, *ParseAttrError (errors/errors.go 53, 121, 129, errors/list.go 17).  The end of input and
    nil errors are not assigned. *)
Inductive etype := YOpen | YRead | YSyntax | YString | YError | YList | YMissing | YParse | YNil.
Definition dyn_gerr (e : gerr) : etype :=
  match e with ESent _ => YString | EMissing _ => YMissing | EParse _ _ => YParse | Types.EErr _ _ _ => YError | EList _ => YList end.
Definition dyn (e : cerr) : etype :=
  match e with
  | COpenErr => YOpen
  | CDec (DScan (XSyntax _)) => YSyntax
  | CDec (DScan (XRead _)) => YRead
  | CDec (DScan XEOF) => YString
  | CDec DCtx => YString
  | CDec (DErrs e) => dyn_gerr e
  | CDec DNone => YNil
  end.
(** A goroutine as in M_Childs, or between the words of the assignment *)
Inductive tgor := TG (g : gor) | THalf (e : cerr).
(** The type word; the rest as in M_Childs, [sh_errs] being the data word *)
Definition TState := (option etype * (Shared * list (Job * tgor)))%type.
Section Torn.
Context (reg : Reg) (strict : bool) (every : nat).
Definition tgor_step (j : Job) (ty : option etype) (sh : Shared) (g : tgor) : option etype * Shared * tgor :=
  match g with
  | TG (GStore e) => (Some (dyn e), sh, THalf e)
  | THalf e => (ty, mkSh (sh_model sh) (Some e) (sh_cancel sh), TG GCancel)
  | TG g => let (sh, g) := gor_step reg strict every j sh g in (ty, sh, TG g)
  end.
Definition tlive (g : tgor) : bool := match g with TG g => live g | THalf _ => true end.
Inductive tstep (outer : bool) : TState -> TState -> Prop :=
| TStep ty sh a j g b ty' sh' g' : tlive g = true -> tgor_step j ty sh g = (ty', sh', g') ->
    tstep outer (ty, (sh, a ++ (j, g) :: b)) (ty', (sh', a ++ (j, g') :: b))
| TOuter ty sh l : outer = true -> sh_cancel sh = false ->
    tstep outer (ty, (sh, l)) (ty, (mkSh (sh_model sh) (sh_errs sh) true, l)).
Inductive tsteps (outer : bool) : TState -> TState -> Prop :=
| TRefl x : tsteps outer x x
| TTrans x y z : tsteps outer x y -> tstep outer y z -> tsteps outer x z.
Definition t_init (jobs : list Job) (m : Model) : TState := (None, (mkSh m None false, map (fun j => (j, TG GReady)) jobs)).
Definition t_done (x : TState) : Prop := Forall (fun jg => snd jg = TG GDone) (snd (snd x)).
(** processNonRootModels returns with the model [m'] and errs made of the type [ty] and the data [data]. *)
Definition torn_return (outer : bool) (jobs : list Job) (m m' : Model) (ty : option etype) (data : option cerr) : Prop :=
  exists x, tsteps outer (t_init jobs m) x /\ t_done x /\ sh_model (fst (snd x)) = m' /\ fst x = ty /\ sh_errs (fst (snd x)) = data.
End Torn.
