(** * Specification: what saving may change (C67) *)
From Verif Require Import GoBase Types PkgTypes MemTypes.

(** The model that is in memory *)
Definition seen_child (M : Mem) (kc : string * (Child * RSlice)) : string * Child :=
  (fst kc, mkChild (ch_res (fst (snd kc))) (contents M (snd (snd kc))) (ch_any (fst (snd kc)))).
Definition seen_atts (M : Mem) (l : list (Attachment * nat)) : list Attachment :=
  map (fun ai => mkAtt (nth (snd ai) (mm_streams M) "") (at_path (fst ai)) (at_ctype (fst ai))) l.
Definition seen (M : Mem) (mm : MemModel) : Model :=
  let m := mm_model mm in
  mkModel (mo_path m) (mo_lang m) (mo_units m) (mo_thumb m) (mo_res m) (mo_build m) (seen_atts M (combine (mo_atts m) (mm_readers mm)))
    (mo_exts m) (mo_md m) (map (seen_child M) (mm_childs mm)) (contents M (mm_rootrels mm)) (contents M (mm_rels mm)) (mo_any m) (mo_anyattr m).
(** The slices of the model *)
Definition child_slices (mm : MemModel) : list RSlice := map (fun kc => snd (snd kc)) (mm_childs mm).
Definition slices (mm : MemModel) : list RSlice := mm_rootrels mm :: mm_rels mm :: child_slices mm.
(** Slices are parts of arrays; each attachment has a reader, and a reader of its own *)
Definition InMemory (M : Mem) (mm : MemModel) : Prop :=
  (forall s, In s (slices mm) -> sl_len s <= sl_cap s /\ sl_arr s < List.length (mm_arrays M) /\
     sl_off s + sl_cap s <= List.length (nth (sl_arr s) (mm_arrays M) [])) /\
  List.length (mm_readers mm) = List.length (mo_atts (mm_model mm)) /\ NoDup (mm_readers mm) /\
  (forall i, In i (mm_readers mm) -> i < List.length (mm_streams M)).
(** No relationship of the model is in the spare room behind the relationships of a child *)
Definition Separate (mm : MemModel) : Prop :=
  forall s t, In s (child_slices mm) -> In t (slices mm) -> sl_arr s = sl_arr t ->
    sl_off s + sl_cap s <= sl_off t \/ sl_off t + sl_len t <= sl_off s + sl_len s.
(** The package without the contents of its first [n] parts *)
Definition emptied (n : nat) (w : Pkg) : Pkg :=
  mkPkg (pk_rels w) (map (fun p => mkPart (pt_name p) (pt_ctype p) "" (pt_rels p)) (firstn n (pk_parts w)) ++ skipn n (pk_parts w)).
