(** * Specification: models that differ in nothing a check looks at *)
From Coq Require Import Permutation.
From Verif Require Import GoBase GoFloat Types.

(** What counts of an attachment, an extension and a part. *)
Definition att_seen (a : Attachment) : string * string := (at_path a, at_ctype a).
Definition ext_seen (e : Extension) : string * bool := (ex_ns e, ex_req e).
Definition part_seen (pc : string * Child) : string * (Resources * list Relationship) := (fst pc, (ch_res (snd pc), ch_rels (snd pc))).
(** The parts of the map may come in any order.  Language, units, thumbnail, unknown elements and attributes of the model
    and of its parts, the contents of attachments and the prefixes of namespaces may differ. *)
Record Same (m m' : Model) : Prop := {
  sm_path : mo_path m' = mo_path m;
  sm_res : mo_res m' = mo_res m;
  sm_build : mo_build m' = mo_build m;
  sm_atts : map att_seen (mo_atts m') = map att_seen (mo_atts m);
  sm_exts : map ext_seen (mo_exts m') = map ext_seen (mo_exts m);
  sm_md : mo_md m' = mo_md m;
  sm_childs : Permutation (map part_seen (mo_childs m')) (map part_seen (mo_childs m));
  sm_rootrels : mo_rootrels m' = mo_rootrels m;
  sm_rels : mo_rels m' = mo_rels m }.
