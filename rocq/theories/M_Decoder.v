(** * Decoder.Decode: the package, the child models, the root model (read.go 177-193) *)
From Verif Require Import GoBase GoNum GoUtf8 GoFloat Types XmlTypes PkgTypes M_Core M_Errors M_Xml M_Decode M_Package M_Childs.

Section Decoder.
Context (reg : Reg) (strict : bool) (every : nat) (resolve : string -> string -> string).
(** What the slices of the scan buffers of the child models show in the end, see M_Decode; by the name of the file *)
Context (later : string -> Ref -> string).
(** opc.go 77-79, Open: a file that opens is read to its end without error *)
Definition job_of (f : PFile) : Job := mkJob (pf_name f) (option_map (fun d => (d, XEOF)) (pf_data f)) (later (pf_name f)).
(** The errors of processOPC, processNonRootModels and processRootModel *)
Inductive perr := PPackage | PChild (e : cerr) | PRootOpen | PRoot (e : derr).
Inductive pres := PModel (m : Model) | PErr (e : perr).
(** read.go 202-213, processRootModel *)
Definition root_model (f : PFile) (m : Model) : option pres :=
  match pf_data f with
  | None => Some (PErr PRootOpen)
  | Some data =>
      match decode_file reg true strict (pf_name f) every (fun _ => false) XEOF data m with
      | DRet m DNone _ _ => Some (PModel m)
      | DRet _ e _ _ => Some (PErr (PRoot e))
      | _ => None
      end
  end.
(** read.go 178-193, Decode: the context is never done.  The relation has one result for each execution of the
    goroutines; what the model is after an error is left out, and so are executions that panic. *)
Inductive decodes (p : PkgIn) (m : Model) : pres -> Prop :=
| DecPackage : process_opc resolve p m = None -> decodes p m (PErr PPackage)
| DecChild m1 cs root m2 e : process_opc resolve p m = Some (m1, cs, root) ->
    childs_return reg strict every false (map job_of cs) m1 m2 (Some e) -> decodes p m (PErr (PChild e))
| DecRoot m1 cs root m2 r : process_opc resolve p m = Some (m1, cs, root) ->
    childs_return reg strict every false (map job_of cs) m1 m2 None -> root_model root m2 = Some r -> decodes p m r.
End Decoder.
