(** * What decoding the children concurrently must give *)
From Verif Require Import GoBase Types.

(** [p] is the path of a child, not of the root model. *)
Definition IsChild (m : Model) (p : string) : Prop :=
  In p (map fst (mo_childs m)) /\ p <> "" /\ p <> mo_path m /\ (mo_path m = "" -> p <> "/3D/3dmodel.model").
(** [m'] is [m] except that the child at each of the paths [ps] has the resources [res p]. *)
Record Merged (m : Model) (ps : list string) (res : string -> Resources -> Prop) (m' : Model) : Prop := {
  mg_path : mo_path m' = mo_path m;
  mg_lang : mo_lang m' = mo_lang m;
  mg_units : mo_units m' = mo_units m;
  mg_thumb : mo_thumb m' = mo_thumb m;
  mg_res : mo_res m' = mo_res m;
  mg_build : mo_build m' = mo_build m;
  mg_atts : mo_atts m' = mo_atts m;
  mg_exts : mo_exts m' = mo_exts m;
  mg_md : mo_md m' = mo_md m;
  mg_rootrels : mo_rootrels m' = mo_rootrels m;
  mg_rels : mo_rels m' = mo_rels m;
  mg_any : mo_any m' = mo_any m;
  mg_anyattr : mo_anyattr m' = mo_anyattr m;
  mg_childs : Forall2 (fun kc kc' => fst kc' = fst kc /\ ch_rels (snd kc') = ch_rels (snd kc) /\ ch_any (snd kc') = ch_any (snd kc) /\
    (In (fst kc) ps -> res (fst kc) (ch_res (snd kc'))) /\ (~ In (fst kc) ps -> ch_res (snd kc') = ch_res (snd kc))) (mo_childs m) (mo_childs m')
}.
