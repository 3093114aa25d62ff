(** * The package: parts, relationships and attachments (opc.go, read.go 183-345, encoder.go 146-218)

    The zip container and the XML of its content types and relationships are the business of the library
    github.com/qmuntal/opc, which is not modelled: a package written is the list of its parts with their
    relationships, a package read likewise.  Its functions NormalizePartName, ResolveRelationship and the check
    of CreatePart are parameters. *)
From Verif Require Import GoBase GoNum GoFloat Types PkgTypes XmlTypes M_Core M_Xml M_Printer M_Decode M_Encode.

(** core.go 23 *)
Definition ctype_model : string := "application/vnd.ms-package.3dmanufacturing-3dmodel+xml".
(** encoding/xml.Header *)
Definition xml_header : string := "<?xml version=""1.0"" encoding=""UTF-8""?>" +++ String "010" "".

(** ** Relationships *)
(** opc.go 17-28 and 47-58, AddRelationship of a part and of the package *)
Definition opc_add (rels : list Relationship) (r : Relationship) : list Relationship :=
  if existsb (fun ro => seq (rel_type ro) (rel_type r) && seq (rel_path ro) (rel_path r)) rels then rels else rels ++ [r].
Definition opc_adds (rels l : list Relationship) : list Relationship := fold_left opc_add l rels.
(** encoder.go 38-49, xmlEncoder.AddRelationship *)
Definition enc_add (rels : list Relationship) (r : Relationship) : list Relationship :=
  if existsb (fun ro => seq (rel_path ro) (rel_path r)) rels then rels else rels ++ [r].
Definition enc_adds (rels l : list Relationship) : list Relationship := fold_left enc_add l rels.
(** The calls of AddRelationship among the operations of the encoder *)
Definition op_rels (l : list op) : list Relationship := flat_map (fun o => match o with OpRel r => [r] | _ => [] end) l.

Section Opc.
Context (normalize : string -> string) (resolve : string -> string -> string).
(** Whether opc.Writer.CreatePart refuses a part, given the names of the earlier ones *)
Context (refuses : list string -> string -> string -> bool).
(** opc.go 38-45, Create, and what is then written to the part and its relationships *)
Definition create (w : Pkg) (name ctype data : string) (rels : list Relationship) : option Pkg :=
  let name := normalize name in
  if refuses (map pt_name (pk_parts w)) name ctype then None
  else Some (mkPkg (pk_rels w) (pk_parts w ++ [mkPart name ctype data rels])).
Fixpoint creates {A} (f : Pkg -> A -> option Pkg) (w : Pkg) (l : list A) : option Pkg :=
  match l with [] => Some w | x :: r => match f w x with Some w => creates f w r | None => None end end.
(** encoder.go 207-218, writeAttachements *)
Definition write_attachments (w : Pkg) (l : list Attachment) : option Pkg :=
  creates (fun w a => create w (at_path a) (at_ctype a) (at_data a) []) w l.
Definition child_rel (path : string) : Relationship := mkRel path rel_model "".
(** encoder.go 182-205, writeChildModels; the relationships start as those of the child, without a copy: what
    append may write behind them in memory is the business of M_Save *)
Definition write_childs (prec : nat) (m : Model) (w : Pkg) (l : list (string * Child)) : option Pkg :=
  creates (fun w kc =>
    let ops := write_child prec m (snd kc) in
    create w (resolve (path_or_default m) (fst kc)) ctype_model (xml_header +++ print ops)
      (opc_adds [] (enc_adds (ch_rels (snd kc)) (op_rels ops)))) w l.
(** encoder.go 146-180, Encode; [order1] and [order2] are the children in the orders of the two iterations of the map;
    [None] is an error of CreatePart.  The streams of the attachments are read without error. *)
Definition encode (prec : nat) (order1 order2 : list (string * Child)) (m : Model) : option Pkg :=
  match write_attachments (mkPkg [] []) (mo_atts m) with
  | None => None
  | Some w =>
      let ops := write_model prec m in
      (* 149-153, and 226-229 (modelToken), which is before the parts of the children *)
      let rels := opc_adds [] (mo_rootrels m ++ [mkRel (path_or_default m) rel_model ""]
                    ++ (if nonempty (mo_thumb m) then [mkRel (mo_thumb m) rel_thumbnail ""] else [])) in
      match create (mkPkg rels (pk_parts w)) (path_or_default m) ctype_model (xml_header +++ print ops)
              (opc_adds [] (enc_adds (enc_adds (mo_rels m) (map (fun kc => child_rel (fst kc)) order1)) (op_rels ops))) with
      | None => None
      | Some w => write_childs prec m w order2
      end
  end.

(** ** Reading *)
Context (p : PkgIn).
(** opc.go 125-132, findOPCFileFromName *)
Definition find_file (name : string) : option PFile := find (fun f => seq (pf_name f) name) (pi_files p).
(** opc.go 86-89 and 116-119, FindFileFromName of a part and of the package *)
Definition find_from (source rel : string) : option PFile := find_file (resolve source rel).
Definition is_model_rel (r : Relationship) : bool := seq (rel_type r) rel_model.
Definition mo_set_pkg (path : string) (atts : list Attachment) (childs : list (string * Child)) (rootrels rels : list Relationship) (m : Model) : Model :=
  mkModel path (mo_lang m) (mo_units m) (mo_thumb m) (mo_res m) (mo_build m) atts (mo_exts m) (mo_md m) childs
          rootrels rels (mo_any m) (mo_anyattr m).
(** read.go 292-306, addAttachment (324-333, copyFile).  strings.EqualFold is modelled on ASCII letters. *)
Definition add_attachment (atts : list Attachment) (f : PFile) : list Attachment :=
  if existsb (fun a => eq_fold (at_path a) (pf_name f)) atts then atts
  else match pf_data f with Some d => atts ++ [mkAtt d (pf_name f) (pf_ctype f)] | None => atts end.
(** Assignment to a map *)
Fixpoint aset {A} (l : list (string * A)) (k : string) (v : A) : list (string * A) :=
  match l with
  | [] => [(k, v)]
  | (k', v') :: r => if seq k' k then (k', v) :: r else (k', v') :: aset r k v
  end.
(** read.go 268-290, the body of the loop of extractCoreAttachments for a relationship of [src]; the second component
    of the state is d.nonRootModels *)
Definition extract1 (src : PFile) (root : bool) (st : Model * list PFile) (r : Relationship) : Model * list PFile :=
  let (m, nr) := st in
  match find_from (pf_name src) (rel_path r) with
  | None => st
  | Some f =>
      if root then
        if is_model_rel r
        then (mo_set_pkg (mo_path m) (mo_atts m) (aset (mo_childs m) (pf_name f) child_zero) (mo_rootrels m) (mo_rels m) m, nr ++ [f])
        else (mo_set_pkg (mo_path m) (add_attachment (mo_atts m) f) (mo_childs m) (mo_rootrels m) (mo_rels m ++ [r]) m, nr)
      else if is_model_rel r then st
      else match aget seq (pf_name src) (mo_childs m) with
           | None => st
           | Some c => (mo_set_pkg (mo_path m) (add_attachment (mo_atts m) f)
                          (aset (mo_childs m) (pf_name src) (mkChild (ch_res c) (ch_rels c ++ [r]) (ch_any c))) (mo_rootrels m) (mo_rels m) m, nr)
           end
  end.
Definition extract (src : PFile) (root : bool) (st : Model * list PFile) : Model * list PFile :=
  fold_left (extract1 src root) (pf_rels src) st.
(** read.go 246-261, the body of the loop of processOPC; [None]: the root model is not there *)
Definition process_rel (st : (Model * list PFile) * option PFile) (r : Relationship) : option ((Model * list PFile) * option PFile) :=
  let '((m, nr), root) := st in
  match find_from "/" (rel_path r) with
  | Some f =>
      if is_model_rel r then
        let st := extract f true (mo_set_pkg (pf_name f) (mo_atts m) (mo_childs m) (mo_rootrels m) (mo_rels m) m, nr) in
        Some (fold_left (fun st c => extract c false st) (snd st) st, Some f)
      else Some ((mo_set_pkg (mo_path m) (add_attachment (mo_atts m) f) (mo_childs m) (mo_rootrels m ++ [r]) (mo_rels m) m, nr), root)
  | None => if is_model_rel r then None else Some st
  end.
Fixpoint process_rels (l : list Relationship) (st : (Model * list PFile) * option PFile) : option ((Model * list PFile) * option PFile) :=
  match l with [] => Some st | r :: l => match process_rel st r with Some st => process_rels l st | None => None end end.
(** read.go 240-266, processOPC of a new Decoder: the model, the files of the children, the file of the root model;
    [None] is an error *)
Definition process_opc (m : Model) : option (Model * list PFile * PFile) :=
  match process_rels (pi_rels p) ((m, []), None) with
  | Some (st, Some f) => Some (fst st, snd st, f)
  | _ => None
  end.
End Opc.
