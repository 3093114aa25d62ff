(** * Specification of writing a package and reading it again (C54) *)
From Coq Require Import ZArith Permutation.
From Verif Require Import GoBase GoNum GoUtf8 GoFloat Types XmlTypes PkgTypes S_RoundTrip S_Package.

(** The library gives a relationship an identifier if it has none. *)
Definition SameRel (a b : Relationship) : Prop :=
  rel_path b = rel_path a /\ rel_type b = rel_type a /\ (rel_id a <> "" -> rel_id b = rel_id a).
Definition SameRels : list Relationship -> list Relationship -> Prop := Forall2 SameRel.
(** [p] is what is read from the container of [w]: the same parts in any order, with the same relationships *)
Definition Carried (w : Pkg) (p : PkgIn) : Prop :=
  SameRels (pk_rels w) (pi_rels p) /\
  exists fs, Permutation fs (pi_files p) /\
    Forall2 (fun a f => pf_name f = pt_name a /\ pf_ctype f = pt_ctype a /\ pf_data f = Some (pt_data a) /\ SameRels (pt_rels a) (pf_rels f)) (pk_parts w) fs.

Definition root_path (m : Model) : string := match mo_path m with EmptyString => "/3D/3dmodel.model" | q => q end.
Definition thumb_rels (m : Model) : list Relationship := match mo_thumb m with EmptyString => [] | t => [mkRel t type_thumbnail ""] end.
(** The relationships of a part with resources: its own, and those its resources demand *)
Definition part_rels (own : list Relationship) (r : Resources) : list Relationship := own ++ demands r.
Definition package_rels (m : Model) : list Relationship := mo_rootrels m ++ thumb_rels m.
Definition all_rels (m : Model) : list Relationship :=
  package_rels m ++ part_rels (mo_rels m) (mo_res m) ++ flat_map (fun kc => part_rels (ch_rels (snd kc)) (ch_res (snd kc))) (mo_childs m).
Definition all_paths (m : Model) : list string := root_path m :: map fst (mo_childs m) ++ map at_path (mo_atts m).

Section Fits.
Context (normalize : string -> string) (resolve : string -> string -> string) (known : string -> Prop) (p : nat).
(** The parts have absolute names that differ in more than case; relationships lead to attachments, and every
    attachment has one; no path is used with two types by one part; children have no elements of other namespaces
    beside their resources and no namespaced metadata. *)
Record PackageFits (m : Model) : Prop := {
  pf_model : ModelFits known p m;
  pf_childs : forall k c, In (k, c) (mo_childs m) -> ResFits (env_of m) known p [] (ch_res c) /\ ch_any c = [];
  pf_distinct : NoDup (map slower (all_paths m));
  pf_plain : forall n, In n (all_paths m) -> n <> "" /\ normalize n = n /\ forall s, resolve s n = n;
  pf_types : forall r, In r (all_rels m) -> rel_type r <> type_3dmodel;
  pf_targets : forall r, In r (all_rels m) -> In (rel_path r) (map at_path (mo_atts m));
  pf_reached : forall a, In a (mo_atts m) -> exists r, In r (all_rels m) /\ rel_path r = at_path a;
  pf_onetype : OneType (part_rels (mo_rels m) (mo_res m)) /\ forall k c, In (k, c) (mo_childs m) -> OneType (part_rels (ch_rels c) (ch_res c));
  pf_textures : NoTextures (mo_res m) /\ NoTexture (mo_any m) /\ forall k c, In (k, c) (mo_childs m) -> NoTextures (ch_res c)
}.
(** What is read: relationships that are demanded are added, and those that repeat an earlier one are dropped. *)
Definition RelsRead (l l' : list Relationship) : Prop := exists out, WithoutDuplicates l out /\ SameRels out l'.
Record SamePackage (m m' : Model) : Prop := {
  sp_model : SameModel p m m';
  sp_path : mo_path m' = root_path m;
  sp_rootrels : RelsRead (package_rels m) (mo_rootrels m');
  sp_rels : RelsRead (part_rels (mo_rels m) (mo_res m)) (mo_rels m');
  sp_names : Permutation (map fst (mo_childs m)) (map fst (mo_childs m'));
  sp_children : forall k c, In (k, c) (mo_childs m) -> exists c', In (k, c') (mo_childs m') /\
    SameRes p (ch_res c) (ch_res c') /\ ch_any c' = [] /\ RelsRead (part_rels (ch_rels c) (ch_res c)) (ch_rels c');
  sp_attachments : Permutation (mo_atts m) (mo_atts m')
}.
End Fits.
