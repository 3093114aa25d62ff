(** * The streams that DecodeContext opens, reads and closes (read.go 45-62, 182-238, 240-333)

    M_Package, M_Childs and M_Reuse say what is read; here is in addition when a stream is opened, read and closed.  How
    often a stream is read is not determined: the scanner and io.Copy have buffers of their own. *)
From Verif Require Import GoBase GoNum GoUtf8 GoFloat Types XmlTypes PkgTypes M_Core M_Errors M_Xml M_Decode M_Package M_Childs M_Decoder M_Reuse StreamTypes.

(** read.go 292-306, addAttachment: the file that is copied, if any *)
Definition copied (atts : list Attachment) (f : PFile) : list PFile :=
  if existsb (fun a => eq_fold (at_path a) (pf_name f)) atts then [] else [f].
(** The rounds of a loop whose state is [st]: the files they copy *)
Fixpoint rounds {S A} (body : S -> A -> S) (copies : S -> A -> list PFile) (st : S) (l : list A) : list PFile :=
  match l with [] => [] | x :: r => copies st x ++ rounds body copies (body st x) r end.

Section Copies.
Context (resolve : string -> string -> string) (p : PkgIn).
(** read.go 268-290, a round of the loop of extractCoreAttachments, cf. [extract1] *)
Definition extract1_copies (src : PFile) (root : bool) (st : Model * list PFile) (r : Relationship) : list PFile :=
  match find_from resolve p (pf_name src) (rel_path r) with
  | None => []
  | Some f =>
      if is_model_rel r then []
      else if root then copied (mo_atts (fst st)) f
      else match aget seq (pf_name src) (mo_childs (fst st)) with
           | None => []
           | Some _ => copied (mo_atts (fst st)) f
           end
  end.
Definition extract_copies (src : PFile) (root : bool) (st : Model * list PFile) : list PFile :=
  rounds (extract1 resolve p src root) (extract1_copies src root) st (pf_rels src).
(** read.go 246-261, a round of the loop of processOPC, cf. [process_rel] *)
Definition rel_copies (st : (Model * list PFile) * option PFile) (r : Relationship) : list PFile :=
  let '((m, nr), root) := st in
  match find_from resolve p "/" (rel_path r) with
  | Some f =>
      if is_model_rel r then
        let st0 := (mo_set_pkg (pf_name f) (mo_atts m) (mo_childs m) (mo_rootrels m) (mo_rels m) m, nr) in
        let st := extract resolve p f true st0 in
        extract_copies f true st0
        ++ rounds (fun st c => extract resolve p c false st) (fun st c => extract_copies c false st) st (snd st)
      else copied (mo_atts m) f
  | None => []
  end.
(** The loop, which ends early where a root model is not there, cf. [process_rels] *)
Fixpoint rels_copies (l : list Relationship) (st : (Model * list PFile) * option PFile) : list PFile :=
  match l with
  | [] => []
  | r :: l => rel_copies st r ++ match process_rel resolve p st r with Some st => rels_copies l st | None => [] end
  end.
(** read.go 240-266, processOPC of a Decoder whose nonRootModels are [nr] *)
Definition opc_copies (nr : list PFile) (m : Model) : list PFile := rels_copies (pi_rels p) ((m, nr), None).
End Copies.

(** read.go 324-333, copyFile: [pf_data] is [None] if Open fails, or if reading does.  The stream is closed in
    both cases of the error of io.Copy. *)
Inductive copy_file (f : PFile) : list sop -> Prop :=
| CopyNotOpened : pf_data f = None -> copy_file f []
| CopyOpened n : copy_file f (SOpen :: repeat SRead n ++ [SClose]).
(** The copies are made one after the other. *)
Inductive copy_files : nat -> list PFile -> slog -> Prop :=
| CopyNone i : copy_files i [] []
| CopyNext i f fs o l : copy_file f o -> copy_files (S i) fs l -> copy_files i (f :: fs) (map (pair (SAtt i)) o ++ l).

Section Streams.
Context (reg : Reg) (strict : bool) (every : nat).
(** What a step of a goroutine from [g] to [g'] does with its stream (read.go 308-322): Open is in the first step;
    a round of the loop reads, and closes if it panics, for file.Close is deferred; it is run at the return, which is in
    the step of the last poll. *)
Inductive gor_ops (j : Job) : gor -> gor -> list sop -> Prop :=
| OpsOpen x g' : jb_open j = Some x -> gor_ops j GReady g' [SOpen]
| OpsFail g' : jb_open j = None -> gor_ops j GReady g' []
| OpsPanic i d m n : gor_ops j (GRun i d m) GPanic (repeat SRead n ++ [SClose])
| OpsRead i d m g' n : g' <> GPanic -> gor_ops j (GRun i d m) g' (repeat SRead n)
| OpsReturn e g' : gor_ops j (GPoll e) g' [SClose]
| OpsStore e g' : gor_ops j (GStore e) g' []
| OpsCancel g' : gor_ops j GCancel g' [].
(** [cstep] and [csteps] of M_Childs with what is done with the streams; a goroutine is known by its position. *)
Inductive lstep (outer : bool) : Shared * list (Job * gor) -> slog -> Shared * list (Job * gor) -> Prop :=
| LStep sh a j g b sh' g' o : live g = true -> gor_step reg strict every j sh g = (sh', g') -> gor_ops j g g' o ->
    lstep outer (sh, a ++ (j, g) :: b) (map (pair (SChild (List.length a))) o) (sh', a ++ (j, g') :: b)
| LOuter sh l : outer = true -> sh_cancel sh = false -> lstep outer (sh, l) [] (mkSh (sh_model sh) (sh_errs sh) true, l).
Inductive lsteps (outer : bool) : nat -> Shared * list (Job * gor) -> slog -> Shared * list (Job * gor) -> Prop :=
| LRefl x : lsteps outer 0 x [] x
| LTrans n x l y k z : lsteps outer n x l y -> lstep outer y k z -> lsteps outer (S n) x (l ++ k) z.
(** processNonRootModels returns, cf. [childs_return]. *)
Definition childs_log (outer : bool) (jobs : list Job) (m m' : Model) (errs : option cerr) (l : slog) : Prop :=
  exists n x, lsteps outer n (c_init jobs m) l x /\ c_done x /\ sh_model (fst x) = m' /\ sh_errs (fst x) = errs.

(** read.go 202-213, processRootModel: f.Close is deferred, and so is run whether decodeModelFile returns or panics. *)
Inductive root_log (j : Job) : slog -> Prop :=
| RootNotOpened : jb_open j = None -> root_log j []
| RootOpened x n : jb_open j = Some x ->
    root_log j ((SRoot, SOpen) :: repeat (SRoot, SRead) n ++ [(SRoot, SClose)]).

(** read.go 183-193, DecodeContext of a Decoder whose nonRootModels are [nr], up to its return or to the panic of the
    root model; a goroutine that panics ends the program.  [job]: what the files of the models contain, cf. [job_of];
    [outer]: whether the caller's context may be cancelled. *)
Inductive decode_log (resolve : string -> string -> string) (job : PFile -> Job) (outer : bool) (nr : list PFile) (p : PkgIn) (m : Model) : slog -> Prop :=
| LogPackage l : process_opc_again resolve nr p m = None -> copy_files 0 (opc_copies resolve p nr m) l ->
    decode_log resolve job outer nr p m l
| LogChild m1 cs root m2 e l k : process_opc_again resolve nr p m = Some (m1, cs, root) -> copy_files 0 (opc_copies resolve p nr m) l ->
    childs_log outer (map job cs) m1 m2 (Some e) k -> decode_log resolve job outer nr p m (l ++ k)
| LogRoot m1 cs root m2 l k r : process_opc_again resolve nr p m = Some (m1, cs, root) -> copy_files 0 (opc_copies resolve p nr m) l ->
    childs_log outer (map job cs) m1 m2 None k -> root_log (job root) r -> decode_log resolve job outer nr p m (l ++ k ++ r).
End Streams.

(** read.go 45-57, OpenReader: what is done with the file, and whether a ReadCloser is returned, which holds it;
    [opens], [stats]: whether os.Open and Stat succeed *)
Definition open_reader (opens stats : bool) : list sop * bool :=
  if opens then if stats then ([SOpen], true) else ([SOpen; SClose], false) else ([], false).
(** read.go 59-62, Close *)
Definition close_reader : list sop := [SClose].
