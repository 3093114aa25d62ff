(** * A Decoder that is used several times (read.go 160-193, 240-290)

    The field nonRootModels of a Decoder is appended to and never cleared: M_Decoder is the first Decode of a new Decoder. *)
From Verif Require Import GoBase GoNum GoUtf8 GoFloat Types XmlTypes PkgTypes M_Core M_Errors M_Xml M_Decode M_Package M_Childs M_Decoder.

Section Reuse.
Context (reg : Reg) (strict : bool) (every : nat) (resolve : string -> string -> string) (later : string -> Ref -> string).
(** read.go 240-266, processOPC of a Decoder whose nonRootModels are [nr] *)
Definition process_opc_again (nr : list PFile) (p : PkgIn) (m : Model) : option (Model * list PFile * PFile) :=
  match process_rels resolve p (pi_rels p) ((m, nr), None) with
  | Some (st, Some f) => Some (fst st, snd st, f)
  | _ => None
  end.
(** read.go 178-193, Decode of such a Decoder *)
Inductive decodes_again (nr : list PFile) (p : PkgIn) (m : Model) : pres -> Prop :=
| AgainPackage : process_opc_again nr p m = None -> decodes_again nr p m (PErr PPackage)
| AgainChild m1 cs root m2 e : process_opc_again nr p m = Some (m1, cs, root) ->
    childs_return reg strict every false (map (job_of later) cs) m1 m2 (Some e) -> decodes_again nr p m (PErr (PChild e))
| AgainRoot m1 cs root m2 r : process_opc_again nr p m = Some (m1, cs, root) ->
    childs_return reg strict every false (map (job_of later) cs) m1 m2 None -> root_model reg strict every root m2 = Some r -> decodes_again nr p m r.
(** nonRootModels after [n] calls of Decode with new models; after a package error it is not used here *)
Fixpoint files_after (p : PkgIn) (n : nat) : list PFile :=
  match n with
  | O => []
  | S n => match process_opc_again (files_after p n) p model_zero with Some (_, cs, _) => cs | None => files_after p n end
  end.
End Reuse.
