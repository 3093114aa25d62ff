(** * Encode and the memory of the model (encoder.go 38-49, 146-218)

    M_Package takes the relationships and attachments of the model for values.  Here they are in memory: the relationships
    of a child are extended in place, and the stream of an attachment is read to its end. *)
From Verif Require Import GoBase GoNum GoFloat Types PkgTypes MemTypes XmlTypes M_Core M_Xml M_Printer M_Decode M_Encode M_Package.

Fixpoint set_nth {A} (n : nat) (x : A) (l : list A) : list A :=
  match l, n with
  | [], _ => []
  | _ :: l, O => x :: l
  | y :: l, S n => y :: set_nth n x l
  end.
Section Save.
(** How much larger than needed append makes a new array *)
Context (grow : nat -> nat).
(** The built-in append with one element *)
Definition append1 (M : Mem) (s : RSlice) (r : Relationship) : Mem * RSlice :=
  if Nat.ltb (sl_len s) (sl_cap s) then
    (mkMem (set_nth (sl_arr s) (set_nth (sl_off s + sl_len s) r (nth (sl_arr s) (mm_arrays M) [])) (mm_arrays M)) (mm_streams M),
     mkRSl (sl_arr s) (sl_off s) (S (sl_len s)) (sl_cap s))
  else
    (mkMem (mm_arrays M ++ [contents M s ++ r :: repeat (mkRel "" "" "") (grow (sl_len s))]) (mm_streams M),
     mkRSl (List.length (mm_arrays M)) 0 (S (sl_len s)) (S (sl_len s) + grow (sl_len s))).
(** encoder.go 38-49, xmlEncoder.AddRelationship *)
Definition enc_add_mem (Ms : Mem * RSlice) (r : Relationship) : Mem * RSlice :=
  let (M, s) := Ms in
  if existsb (fun ro => seq (rel_path ro) (rel_path r)) (contents M s) then (M, s) else append1 M s r.
Definition enc_adds_mem (Ms : Mem * RSlice) (l : list Relationship) : Mem * RSlice := fold_left enc_add_mem l Ms.

Context (normalize : string -> string) (resolve : string -> string -> string) (refuses : list string -> string -> string -> bool).
(** encoder.go 207-218, writeAttachements: io.Copy reads the stream to its end, where it stays.  Streams that fail are
    not modelled. *)
Fixpoint write_attachments_mem (M : Mem) (w : Pkg) (l : list (Attachment * nat)) : option Pkg * Mem :=
  match l with
  | [] => (Some w, M)
  | (a, i) :: l =>
      match create normalize refuses w (at_path a) (at_ctype a) (nth i (mm_streams M) "") [] with
      | None => (None, M)
      | Some w => write_attachments_mem (mkMem (mm_arrays M) (set_nth i "" (mm_streams M))) w l
      end
  end.
(** encoder.go 182-205, writeChildModels *)
Fixpoint write_childs_mem (prec : nat) (m : Model) (M : Mem) (w : Pkg) (l : list (string * (Child * RSlice))) : option Pkg * Mem :=
  match l with
  | [] => (Some w, M)
  | (k, (c, s)) :: l =>
      let ops := write_child prec m c in
      let (M', s') := enc_adds_mem (M, s) (op_rels ops) in
      match create normalize refuses w (resolve (path_or_default m) k) ctype_model (xml_header +++ print ops) (opc_adds [] (contents M' s')) with
      | None => (None, M)
      | Some w => write_childs_mem prec m M' w l
      end
  end.
(** encoder.go 146-180, Encode; the relationships of the root are copied *)
Definition encode_mem (prec : nat) (order1 order2 : list (string * (Child * RSlice))) (M : Mem) (mm : MemModel) : option Pkg * Mem :=
  let m := mm_model mm in
  match write_attachments_mem M (mkPkg [] []) (combine (mo_atts m) (mm_readers mm)) with
  | (None, M) => (None, M)
  | (Some w, M) =>
      let ops := write_model prec m in
      let rels := opc_adds [] (contents M (mm_rootrels mm) ++ [mkRel (path_or_default m) rel_model ""]
                    ++ (if nonempty (mo_thumb m) then [mkRel (mo_thumb m) rel_thumbnail ""] else [])) in
      match create normalize refuses (mkPkg rels (pk_parts w)) (path_or_default m) ctype_model (xml_header +++ print ops)
              (opc_adds [] (enc_adds (enc_adds (contents M (mm_rels mm)) (map (fun kc => child_rel (fst kc)) order1)) (op_rels ops))) with
      | None => (None, M)
      | Some w => write_childs_mem prec m M w order2
      end
  end.
End Save.
