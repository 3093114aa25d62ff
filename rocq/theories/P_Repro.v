(** * Proofs: saving a model twice *)
From Coq Require Import Permutation.
From Verif Require Import GoBase GoNum GoFloat Types PkgTypes XmlTypes M_Core M_Xml M_Printer M_Decode M_Encode M_Package P_Revalid2 P_Core.
From Verif Require Import Types.
Local Open Scope list_scope.

(** ** Lists of relationships without repetitions *)
Section Adds.
Context (same : Relationship -> Relationship -> bool).
Definition add1 (rels : list Relationship) (r : Relationship) : list Relationship :=
  if existsb (fun ro => same ro r) rels then rels else rels ++ [r].
Definition adds (rels l : list Relationship) : list Relationship := fold_left add1 l rels.
Lemma add1_perm a b r : Permutation a b -> Permutation (add1 a r) (add1 b r).
Proof. intros P. unfold add1. rewrite (existsb_perm _ _ _ P). destruct (existsb _ a); [exact P|apply Permutation_app_tail, P]. Qed.
Lemma adds_perm l : forall a b, Permutation a b -> Permutation (adds a l) (adds b l).
Proof. induction l as [|r l IH]; intros a b P; [exact P|]. cbn [adds fold_left]. apply IH, add1_perm, P. Qed.
Lemma adds_rest l : forall a b, Permutation a b -> exists x, adds a l = a ++ x /\ adds b l = b ++ x.
Proof.
  induction l as [|r l IH]; intros a b P; [exists []; rewrite !app_nil_r; auto|]. cbn [adds fold_left]. unfold add1 at 2 4. rewrite (existsb_perm _ _ _ P).
  destruct (existsb _ a); [exact (IH a b P)|]. destruct (IH (a ++ [r]) (b ++ [r]) (Permutation_app_tail _ P)) as (x & E1 & E2).
  exists (r :: x). rewrite <- app_assoc in E1, E2. split; assumption.
Qed.
(** Relationships that differ from each other *)
Definition Distinct (l : list Relationship) : Prop := ForallOrdPairs (fun a b => same a b = false /\ same b a = false) l.
Lemma add1_swap a r s : same r s = false -> same s r = false -> Permutation (add1 (add1 a r) s) (add1 (add1 a s) r).
Proof.
  intros H1 H2. unfold add1 at 2 4. destruct (existsb (fun ro => same ro r) a) eqn:R, (existsb (fun ro => same ro s) a) eqn:S; unfold add1;
    rewrite ?existsb_app, ?R, ?S; cbn [existsb]; rewrite ?H1, ?H2; cbn [orb]; try apply Permutation_refl.
  rewrite <- !app_assoc. apply Permutation_app_head. apply perm_swap.
Qed.
Lemma distinct_perm l l' : Permutation l l' -> Distinct l -> Distinct l'.
Proof.
  intros P. induction P as [|x l l' P IH|x y l|l l1 l2 P1 IH1 P2 IH2]; intros D; [exact D| | |auto].
  - inversion D as [|? ? D1 D2]; subst. constructor; [|apply IH, D2]. apply Forall_forall. intros y Hy. apply (proj1 (Forall_forall _ _) D1), (Permutation_in _ (Permutation_sym P)), Hy.
  - inversion D as [|? ? D1 D2]; subst. inversion D2 as [|? ? D3 D4]; subst. pose proof (Forall_inv D1) as [E1 E2]. pose proof (Forall_inv_tail D1) as D5.
    constructor; [constructor; [split; assumption|exact D3]|constructor; assumption].
Qed.
Lemma adds_shuffle l l' : Permutation l l' -> Distinct l -> forall a, Permutation (adds a l) (adds a l').
Proof.
  intros P. induction P as [|x l l' P IH|x y l|l l1 l2 P1 IH1 P2 IH2]; intros D a.
  - apply Permutation_refl.
  - cbn [adds fold_left]. inversion D; subst. apply IH. assumption.
  - cbn [adds fold_left]. inversion D as [|? ? D1 D2]; subst. destruct (Forall_inv D1) as [E1 E2]. apply adds_perm, add1_swap; assumption.
  - eapply Permutation_trans; [apply IH1, D|]. apply IH2. exact (distinct_perm _ _ P1 D).
Qed.
(** What is added of relationships that differ from each other *)
Lemma adds_distinct l : forall a, Distinct l -> adds a l = a ++ filter (fun r => negb (existsb (fun ro => same ro r) a)) l.
Proof.
  induction l as [|r l IH]; intros a D; [symmetry; apply app_nil_r|]. inversion D as [|? ? D1 D2]; subst. cbn [adds fold_left filter]. fold (adds (add1 a r) l). rewrite (IH _ D2).
  unfold add1. destruct (existsb (fun ro => same ro r) a) eqn:E; cbn [negb]; [reflexivity|]. rewrite <- app_assoc. cbn [app]. do 2 f_equal.
  apply filter_ext_in. intros s Hs. rewrite existsb_app. cbn [existsb]. destruct (proj1 (Forall_forall _ _) D1 s Hs) as [-> _]. rewrite orb_false_r. reflexivity.
Qed.
End Adds.
Lemma filter_perm {A} (f : A -> bool) l l' : Permutation l l' -> Permutation (filter f l) (filter f l').
Proof.
  intros P. induction P as [|x l l' P IH|x y l|l l1 l2 P1 IH1 P2 IH2]; cbn [filter]; [constructor| | |eapply Permutation_trans; eassumption].
  - destruct (f x); [constructor|]; exact IH.
  - destruct (f x), (f y); try apply Permutation_refl. apply perm_swap.
Qed.
Lemma distinct_filter same f l : Distinct same l -> Distinct same (filter f l).
Proof.
  intros D. induction D as [|x l D1 D IH]; [constructor|]. cbn [filter]. destruct (f x); [|exact IH]. constructor; [|exact IH].
  apply Forall_forall. intros y Hy. apply filter_In in Hy as [Hy _]. exact (proj1 (Forall_forall _ _) D1 y Hy).
Qed.
Definition same_path (a b : Relationship) : bool := seq (rel_path a) (rel_path b).
Definition same_key (a b : Relationship) : bool := seq (rel_type a) (rel_type b) && seq (rel_path a) (rel_path b).
Lemma distinct_childs (l : list (string * Child)) : NoDup (map fst l) -> Distinct same_path (map (fun kc => child_rel (fst kc)) l).
Proof.
  induction l as [|[k c] l IH]; intros N; [constructor|]. cbn [map fst] in *. inversion N as [|? ? N1 N2]; subst. constructor; [|exact (IH N2)].
  apply Forall_forall. intros r Hr. apply in_map_iff in Hr as ([k' c'] & <- & Hk). cbn [fst]. assert (k <> k') by (intros ->; apply N1, in_map_iff; exists (k', c'); auto).
  unfold same_path, child_rel. cbn [rel_path]. split; apply seq_false; congruence.
Qed.
Lemma distinct_key l : Distinct same_path l -> Distinct same_key l.
Proof.
  intros D. induction D as [|x l D1 D IH]; constructor; [|exact IH]. apply Forall_forall. intros y Hy. destruct (proj1 (Forall_forall _ _) D1 y Hy) as [E1 E2].
  unfold same_path in E1, E2. unfold same_key. rewrite E1, E2, !andb_false_r. auto.
Qed.
Lemma root_rels a o (l l' : list (string * Child)) : Permutation l l' -> NoDup (map fst l) ->
  Permutation (opc_adds [] (enc_adds (enc_adds a (map (fun kc => child_rel (fst kc)) l)) o)) (opc_adds [] (enc_adds (enc_adds a (map (fun kc => child_rel (fst kc)) l')) o)).
Proof.
  intros P N. pose proof (distinct_childs l N) as D. pose proof (Permutation_map (fun kc : string * Child => child_rel (fst kc)) P) as PR.
  set (c := map (fun kc : string * Child => child_rel (fst kc)) l) in *. set (c' := map (fun kc : string * Child => child_rel (fst kc)) l') in *. clearbody c c'. pose proof (distinct_perm _ _ _ PR D) as D'.
  change enc_adds with (adds same_path). change opc_adds with (adds same_key).
  rewrite (adds_distinct same_path c a D), (adds_distinct same_path c' a D'). set (f := fun r => _). pose proof (filter_perm f _ _ PR) as PF.
  destruct (adds_rest same_path o (a ++ filter f c) (a ++ filter f c') (Permutation_app_head a PF)) as (x & -> & ->).
  unfold adds. rewrite !fold_left_app. fold (adds same_key [] a). set (b := adds same_key [] a). fold (adds same_key b (filter f c)) (adds same_key b (filter f c')).
  apply (adds_perm same_key x). apply adds_shuffle; [exact PF|]. apply distinct_key, distinct_filter, D.
Qed.

Section Encode.
Context (normalize : string -> string) (resolve : string -> string -> string) (refuses : list string -> string -> string -> bool) (p : nat) (m : Model).
Definition child_part (kc : string * Child) : Part :=
  let ops := write_child p m (snd kc) in
  mkPart (normalize (resolve (path_or_default m) (fst kc))) ctype_model (xml_header +++ print ops) (opc_adds [] (enc_adds (ch_rels (snd kc)) (op_rels ops))).
Definition att_part (a : Attachment) : Part := mkPart (normalize (at_path a)) (at_ctype a) (at_data a) [].
Definition root_part (l : list (string * Child)) : Part :=
  let ops := write_model p m in
  mkPart (normalize (path_or_default m)) ctype_model (xml_header +++ print ops)
    (opc_adds [] (enc_adds (enc_adds (mo_rels m) (map (fun kc => child_rel (fst kc)) l)) (op_rels ops))).
(** Parts are accepted one after the other. *)
Fixpoint accepts (seen : list string) (l : list Part) : bool :=
  match l with [] => true | x :: r => negb (refuses seen (pt_name x) (pt_ctype x)) && accepts (seen ++ [pt_name x]) r end.
Definition put (w : Pkg) (x : Part) : option Pkg :=
  if refuses (map pt_name (pk_parts w)) (pt_name x) (pt_ctype x) then None else Some (mkPkg (pk_rels w) (pk_parts w ++ [x])).
Lemma puts l : forall w, creates put w l = if accepts (map pt_name (pk_parts w)) l then Some (mkPkg (pk_rels w) (pk_parts w ++ l)) else None.
Proof.
  induction l as [|x l IH]; intros w; cbn [creates accepts]; [rewrite app_nil_r; destruct w; reflexivity|]. unfold put at 1.
  destruct (refuses _ _ _); cbn [negb andb]; [reflexivity|]. rewrite IH. cbn [pk_parts pk_rels]. rewrite map_app, <- app_assoc. reflexivity.
Qed.
Lemma creates_map {A} (f : A -> Part) l : forall w, creates (fun w a => put w (f a)) w l = creates put w (map f l).
Proof. induction l as [|x l IH]; intros w; cbn [creates map]; [reflexivity|]. destruct (put w (f x)); [apply IH|reflexivity]. Qed.
Definition pkg_rels : list Relationship :=
  opc_adds [] (mo_rootrels m ++ [mkRel (path_or_default m) rel_model ""] ++ (if nonempty (mo_thumb m) then [mkRel (mo_thumb m) rel_thumbnail ""] else [])).
Definition parts (order1 order2 : list (string * Child)) : list Part := map att_part (mo_atts m) ++ root_part order1 :: map child_part order2.
Lemma accepts_app l1 : forall seen l2, accepts seen (l1 ++ l2) = accepts seen l1 && accepts (seen ++ map pt_name l1) l2.
Proof.
  induction l1 as [|x l1 IH]; intros seen l2; cbn [app accepts map]; [rewrite app_nil_r; reflexivity|]. rewrite IH, <- app_assoc, andb_assoc. reflexivity.
Qed.
Lemma encode_parts order1 order2 : encode normalize resolve refuses p order1 order2 m =
  if accepts [] (parts order1 order2) then Some (mkPkg pkg_rels (parts order1 order2)) else None.
Proof.
  unfold encode, write_attachments, write_childs, parts.
  change (fun (w : Pkg) (a : Attachment) => create normalize refuses w (at_path a) (at_ctype a) (at_data a) []) with (fun w a => put w (att_part a)).
  rewrite creates_map, puts. cbn [pk_parts pk_rels map app]. rewrite accepts_app. cbn [app].
  destruct (accepts [] (map att_part (mo_atts m))); cbn [andb]; [|reflexivity]. cbv zeta. cbn [pk_parts]. fold pkg_rels.
  match goal with |- match ?c with Some _ => _ | None => _ end = _ => change c with (put (mkPkg pkg_rels (map att_part (mo_atts m))) (root_part order1)) end.
  unfold put at 1. cbn [pk_parts pk_rels accepts].
  destruct (refuses _ _ _); cbn [negb andb]; [reflexivity|].
  match goal with |- creates ?f _ _ = _ => change f with (fun w kc => put w (child_part kc)) end.
  rewrite creates_map, puts. cbn [pk_parts pk_rels]. rewrite map_app. cbn [map]. rewrite <- app_assoc. reflexivity.
Qed.
End Encode.
