(** * Decoding the child models: one goroutine for each (read.go 215-238, 308-322)

    The goroutines run in any order.  What they share is the model, the variable errs and the context.  One step is:
    opening a file; a round of the loop of decodeModelFile, i.e. a token, its callbacks and the poll of the context;
    the poll at the end; the assignment to errs; the call of cancel.  A smaller step would show nothing more as long as
    no two goroutines write the same place of the model or read what another writes; where they do (the elements of
    other namespaces, all added to the Any of the model), Go gives the program no meaning. *)
From Verif Require Import GoBase GoNum GoUtf8 GoFloat Types XmlTypes M_Core M_Errors M_Xml M_Decode.

(** A file of nonRootModels: its name; its bytes and the error at their end, or Open fails.  [jb_later]: what the
    slices of its scan buffer show in the end, see M_Decode. *)
Record Job := mkJob { jb_path : string; jb_open : option (string * xerr); jb_later : Ref -> string }.
(** The error of Open, or of decodeModelFile or the context *)
Inductive cerr := COpenErr | CDec (e : derr).
(** A goroutine: about to open the file; before the i-th call of RawToken; decoded (read.go 316); about to assign
    errs; about to cancel; finished.  [GPanic], [GStuck]: the callbacks panicked, the scanner did not end (it does) *)
Inductive gor := GReady | GRun (i : nat) (d : Dec) (m : Mach) | GPoll (e : derr) | GStore (e : cerr) | GCancel | GDone | GPanic | GStuck.
Record Shared := mkSh { sh_model : Model; sh_errs : option cerr; sh_cancel : bool }.
(** The decoder works on the shared model. *)
Definition plug (m : Model) (x : Mach) : Mach := mkM (with_model m (m_st x)) (m_cur x) (m_name x) (m_stack x) (m_errs x).

Section Childs.
Context (reg : Reg) (strict : bool) (every : nat).
Definition gor_step (j : Job) (sh : Shared) (g : gor) : Shared * gor :=
  match g with
  | GReady => (* 309-313 *)
      match jb_open j with
      | None => (sh, GStore COpenErr)
      | Some (input, _) => (sh, GRun 0 (dec_new input) (m_init (sh_model sh)))
      end
  | GRun i d m => (* 131-159 *)
      let fin := match jb_open j with Some (_, fin) => fin | None => XEOF end in
      match raw_token fin true d with
      | ROut => (sh, GStuck)
      | RErr e d => (sh, GPoll (finish strict (m_errs m) (scan_err e)))
      | RTok evs d =>
          match on_events reg false (jb_path j) (jb_later j) evs (plug (sh_model sh) m) with
          | None => (sh, GPanic)
          | Some m =>
              let sh := mkSh (s_model (m_st m)) (sh_errs sh) (sh_cancel sh) in
              if strict && negb (Nat.eqb (List.length (m_errs m)) 0) then (sh, GPoll (finish strict (m_errs m) DNone))
              else if Nat.eqb (i mod every) 0 && sh_cancel sh then (sh, GPoll (finish strict (m_errs m) DCtx))
              else (sh, GRun (S i) d m)
          end
      end
  | GPoll e => (* 316-321, 227 *)
      let e := if sh_cancel sh then DCtx else e in
      (sh, match e with DNone => GDone | e => GStore (CDec e) end)
  | GStore e => (mkSh (sh_model sh) (Some e) (sh_cancel sh), GCancel)
  | GCancel => (mkSh (sh_model sh) (sh_errs sh) true, GDone)
  | g => (sh, g)
  end.
Definition live (g : gor) : bool := match g with GDone | GPanic | GStuck => false | _ => true end.
(** [outer]: whether the caller's context may be cancelled, at any time *)
Inductive cstep (outer : bool) : Shared * list (Job * gor) -> Shared * list (Job * gor) -> Prop :=
| CStep sh a j g b sh' g' : live g = true -> gor_step j sh g = (sh', g') ->
    cstep outer (sh, a ++ (j, g) :: b) (sh', a ++ (j, g') :: b)
| COuter sh l : outer = true -> sh_cancel sh = false -> cstep outer (sh, l) (mkSh (sh_model sh) (sh_errs sh) true, l).
(** An execution of [n] steps *)
Inductive csteps (outer : bool) : nat -> Shared * list (Job * gor) -> Shared * list (Job * gor) -> Prop :=
| CRefl x : csteps outer 0 x x
| CTrans n x y z : csteps outer n x y -> cstep outer y z -> csteps outer (S n) x z.
Definition c_init (jobs : list Job) (m : Model) : Shared * list (Job * gor) := (mkSh m None false, map (fun j => (j, GReady)) jobs).
Definition c_done (x : Shared * list (Job * gor)) : Prop := Forall (fun jg => snd jg = GDone) (snd x).
(** processNonRootModels returns (wg.Wait) with the model [m'] and [errs]. *)
Definition childs_return (outer : bool) (jobs : list Job) (m m' : Model) (errs : option cerr) : Prop :=
  exists n x, csteps outer n (c_init jobs m) x /\ c_done x /\ sh_model (fst x) = m' /\ sh_errs (fst x) = errs.
End Childs.
