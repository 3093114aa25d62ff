(** * Proofs about writing a package and reading it again *)
From Coq Require Import ZArith Permutation.
From Verif Require Import GoBase GoNum GoUtf8 GoFloat Types XmlTypes PkgTypes M_Core M_Errors M_Text M_Xml M_Decode M_Printer M_Encode M_Package M_Childs M_Decoder
  S_Xml S_Printer S_Text S_Core S_Geom S_Strconv S_RoundTrip S_Package S_Childs P_Printer P_Text P_Decode P_Package P_Childs P_RTBase P_RTText P_RTAttr P_RTExt P_RTCore P_RTModel
  T_Printer T_Decode T_Childs T_Package S_PkgTrip GoStrconv.
Import M_Decode.

(** ** One file, strict or not *)
Lemma run_with reg isroot strict path every input M evs d mm later : scan XEOF input = SDone evs XEOF d ->
  on_events reg isroot path later evs (m_init M) = Some mm -> m_errs mm = [] ->
  exists n d, decode_with reg isroot strict path every (fun _ => false) XEOF later input M = DRet (s_model (m_st mm)) DNone n d.
Proof.
  intros S H E. assert (L : exists n d, decode_with reg isroot false path every (fun _ => false) XEOF later input M = DRet (s_model (m_st mm)) DNone n d).
  { unfold decode_with. unfold scan in S. pose proof (lenient_run reg isroot path every XEOF later _ 0 _ (m_init M) _ _ _ S) as L. rewrite H in L. destruct L as (n & L). exists n, d. rewrite L, E. reflexivity. }
  destruct strict; [|exact L]. destruct L as (n & d' & L). pose proof (C36_strict_lenient reg isroot path every (fun _ => false) XEOF later input M) as X. rewrite L in X.
  destruct (decode_with reg isroot true path every (fun _ => false) XEOF later input M) as [ms es ns ds| |]; [|destruct X|destruct X].
  destruct X as (X1 & X2 & _). assert (es = DNone) as -> by (apply X1; reflexivity). rewrite X2 by reflexivity. eauto.
Qed.
Lemma file_with reg isroot strict path every input M evs d mm : scan XEOF input = SDone evs XEOF d ->
  (forall later, on_events reg isroot path later evs (m_init M) = Some mm) -> m_errs mm = [] ->
  exists n d, decode_file reg isroot strict path every (fun _ => false) XEOF input M = DRet (s_model (m_st mm)) DNone n d.
Proof.
  intros S H E. unfold decode_file. destruct (run_with reg isroot strict path every input M evs d mm (fun _ => "") S (H _) E) as (n & d' & ->).
  apply (run_with reg isroot strict path every input M evs d mm _ S (H _) E).
Qed.

(** ** A child model *)
Lemma rset_same path r M : NoDup (map fst (mo_childs M)) -> find_resources M path = Some r -> rset path r M = M.
Proof.
  intros ND H. unfold rset, res_set, find_resources in *. cbn [d_init s_model]. destruct (_ || _); [injection H as <-; destruct M; reflexivity|].
  unfold find_child in *. destruct (aget seq path (mo_childs M)) as [c|] eqn:E; [|reflexivity]. injection H as <-. cbn [s_model with_model]. unfold mo_set_childs.
  assert (X : map (fun kc => if seq (fst kc) path then (fst kc, mkChild (ch_res c) (ch_rels (snd kc)) (ch_any (snd kc))) else kc) (mo_childs M) = mo_childs M).
  { revert ND E. induction (mo_childs M) as [|[k x] l IH]; intros ND E; [reflexivity|]. cbn in ND. apply NoDup_cons_iff in ND as [N1 N2]. cbn [map aget fst snd] in *.
    destruct (seq_spec path k) as [->|N].
    - injection E as ->. rewrite seq_refl. f_equal; [destruct c; reflexivity|]. clear -N1. induction l as [|[k' x'] l IH]; [reflexivity|]. cbn in *. destruct (seq_spec k' k) as [->|]; [tauto|]. f_equal. apply IH. tauto.
    - destruct (seq_spec k path) as [->|_]; [contradiction|]. f_equal. apply IH; assumption. }
  rewrite X. destruct M; reflexivity.
Qed.
Section ChildFile.
  Context (reg : Reg) (path : string) (p : nat) (m M : Model) (c : Child).
  Notation e := (env_of m).
  Lemma child_run r0 : NoDup (map fst (mo_childs M)) -> HeadFits (knows reg) m -> ResFits e (knows reg) p (map ex_local (mo_exts M)) (ch_res c) -> ch_any c = [] ->
    find_resources M path = Some r0 -> r0 = res_zero ->
    exists ts s2, Document e (write_child p m c) ts /\ s_model s2 = rset path (rt_res p (ch_res c)) M /\
      forall later evs, map ev_token evs = join_texts "" (map (qtok e) ts) -> on_events reg false path later evs (m_init M) = Some (top_mach s2).
  Proof.
    intros ND F1 F2 F3 HF ->. unfold write_child. rewrite F3.
    assert (PR : Prints e false false (write_resources p (ch_res c) ++ element (lname "build") [] [] ++ [])).
    { apply pr_app; [apply (resources_print reg e p M), F2|]. apply pr_app; [|apply pr_nil]. apply pr_element; [apply tag_core; reflexivity|constructor|apply pr_nil]. }
    destruct (top_document reg m false _ F1 PR) as (ts & D & EM). exists (TStart (lname "model") (model_attrs m false) :: ts).
    assert (HN : find_resources M path <> None) by congruence.
    assert (T : Tr reg false path e KModel false (write_resources p (ch_res c)) (VR path M res_zero) (VR path M (rt_res p (ch_res c)))).
    { apply (resources_read reg false path e p M eq_refl HN); try reflexivity. exact F2. }
    assert (ES : start reg false path KModel (mkName ns_core "model") (model_attrs m false) (d_init M) = Some (d_init M, None)) by reflexivity.
    destruct (T (d_init M)) as (s2 & R & V).
    { unfold VR. cbn [d_init s_model]. symmetry. apply rset_same; assumption. }
    exists s2. split; [exact D|]. split; [exact V|]. apply (top_run reg false path m M false _ ts _ s2 ES EM). intros stk errs.
    rewrite <- app_assoc, R. reflexivity.
  Qed.
End ChildFile.

(** ** Lists of relationships *)
Lemma firsts_filter {A} (R : A -> A -> Prop) (P : A -> bool) : (forall x y, R x y -> P x = P y) -> forall seen l out,
  Firsts R seen l out -> Firsts R (filter P seen) (filter P l) (filter P out).
Proof.
  intros HP seen l out H. induction H as [seen|seen x l out N H IH|seen x l out y Hy Rxy H IH]; cbn [filter]; [constructor| |].
  - rewrite filter_app in IH. cbn [filter] in IH. destruct (P x); [|rewrite app_nil_r in IH; exact IH].
    apply FKeep; [|exact IH]. intros y Hy. apply filter_In in Hy as [Hy _]. apply N, Hy.
  - destruct (P x) eqn:E; [|exact IH]. apply (FDrop _ _ _ _ _ y); [|exact Rxy|exact IH]. apply filter_In. split; [exact Hy|]. rewrite (HP _ _ Rxy). exact E.
Qed.
Lemma firsts_distinct seen l out : Firsts SameKey seen l out -> NoDup (map rel_path (seen ++ l)) -> out = l.
Proof.
  induction 1 as [seen|seen x l out N H IH|seen x l out y Hy [_ Rxy] H IH]; intros D; [reflexivity| |].
  - f_equal. apply IH. rewrite <- app_assoc. exact D.
  - exfalso. rewrite map_app in D. cbn [map] in D. apply NoDup_remove_2 in D. apply D, in_or_app. left. rewrite <- Rxy. apply in_map, Hy.
Qed.
Lemma forall2_filter {A B} (R : A -> B -> Prop) (P : A -> bool) (Q : B -> bool) : (forall a b, R a b -> P a = Q b) -> forall l l',
  Forall2 R l l' -> Forall2 R (filter P l) (filter Q l').
Proof.
  intros HP l l' H. induction H as [|a b l l' H H2 IH]; [constructor|]. cbn [filter]. rewrite <- (HP _ _ H). destruct (P a); [constructor; assumption|exact IH].
Qed.
Lemma forall2_in_r {A B} (R : A -> B -> Prop) l l' b : Forall2 R l l' -> In b l' -> exists a, In a l /\ R a b.
Proof. induction 1 as [|a b' l l' H H2 IH]; [intros []|]. intros [<-|Hb]; [exists a; split; [left; reflexivity|exact H]|]. destruct (IH Hb) as (a' & X & Y). exists a'. split; [right; exact X|exact Y]. Qed.
Lemma forall2_in_l {A B} (R : A -> B -> Prop) l l' a : Forall2 R l l' -> In a l -> exists b, In b l' /\ R a b.
Proof. induction 1 as [|a' b l l' H H2 IH]; [intros []|]. intros [<-|Hb]; [exists b; split; [left; reflexivity|exact H]|]. destruct (IH Hb) as (b' & X & Y). exists b'. split; [right; exact X|exact Y]. Qed.
Lemma filter_one {A} (P : A -> bool) l x : filter P l = [x] -> exists a b, l = a ++ x :: b /\ P x = true /\ forall y, In y (a ++ b) -> P y = false.
Proof.
  induction l as [|y l IH]; [discriminate|]. cbn [filter]. destruct (P y) eqn:E.
  - intros H. injection H as -> H. exists [], l. split; [reflexivity|]. split; [exact E|]. intros z Hz. destruct (P z) eqn:Ez; [|reflexivity].
    assert (X : In z (filter P l)) by (apply filter_In; auto). rewrite H in X. destruct X.
  - intros H. destruct (IH H) as (a & b & -> & H1 & H2). exists (y :: a), b. split; [reflexivity|]. split; [exact H1|]. intros z [<-|Hz]; [exact E|apply H2, Hz].
Qed.
Definition other_rel (r : Relationship) : bool := negb (is_model_rel r).
Lemma other_spec r : other_rel r = true <-> rel_type r <> type_3dmodel.
Proof. unfold other_rel. rewrite negb_true_iff, <- not_true_iff_false, model_rel_spec. reflexivity. Qed.
Lemma model_spec_false r : is_model_rel r = false <-> rel_type r <> type_3dmodel.
Proof. rewrite <- not_true_iff_false, model_rel_spec. reflexivity. Qed.
Lemma samekey_model a b : SameKey a b -> is_model_rel a = is_model_rel b.
Proof. intros [E _]. unfold is_model_rel. rewrite E. reflexivity. Qed.
Lemma samekey_other a b : SameKey a b -> other_rel a = other_rel b.
Proof. intros E. unfold other_rel. rewrite (samekey_model _ _ E). reflexivity. Qed.
Lemma samerel_model a b : SameRel a b -> is_model_rel a = is_model_rel b.
Proof. intros (_ & E & _). unfold is_model_rel. rewrite E. reflexivity. Qed.
Lemma samerel_other a b : SameRel a b -> other_rel a = other_rel b.
Proof. intros E. unfold other_rel. rewrite (samerel_model _ _ E). reflexivity. Qed.
Lemma filter_all {A} (P : A -> bool) l : (forall x, In x l -> P x = true) -> filter P l = l.
Proof. induction l as [|x l IH]; intros H; [reflexivity|]. cbn [filter]. rewrite H by (left; reflexivity). f_equal. apply IH. intros; apply H; right; assumption. Qed.
Lemma filter_none {A} (P : A -> bool) l : (forall x, In x l -> P x = false) -> filter P l = [].
Proof. induction l as [|x l IH]; intros H; [reflexivity|]. cbn [filter]. rewrite H by (left; reflexivity). apply IH. intros; apply H; right; assumption. Qed.

(** ** Reading the relationships *)
Section ReadRels.
Context (resolve : string -> string -> string) (q : PkgIn).
Lemma kept_filter src l : (forall r, In r l -> rel_type r <> type_3dmodel -> exists f, Target resolve q src r f) -> map fst (kept resolve q src l) = filter other_rel l.
Proof.
  induction l as [|r l IH]; intros H; [reflexivity|]. cbn [kept filter]. pose proof (find_target resolve q src r) as T.
  assert (H' : forall x, In x l -> rel_type x <> type_3dmodel -> exists f, Target resolve q src x f) by (intros; apply H; [right|]; assumption).
  unfold other_rel at 1. destruct (is_model_rel r) eqn:EM; cbn [negb].
  - destruct (find_from _ _ _ _); apply IH, H'.
  - destruct (find_from _ _ _ _); [cbn [map fst]; f_equal; apply IH, H'|]. destruct (H r (or_introl eq_refl)) as (f & Hf); [apply model_spec_false, EM|]. destruct (T f Hf).
Qed.
Lemma models_names src l : (forall r, In r l -> rel_type r = type_3dmodel -> exists f, Target resolve q src r f) ->
  map pf_name (models resolve q src l) = map (fun r => resolve src (rel_path r)) (filter is_model_rel l).
Proof.
  induction l as [|r l IH]; intros H; [reflexivity|]. cbn [models filter]. pose proof (find_target resolve q src r) as T.
  assert (H' : forall x, In x l -> rel_type x = type_3dmodel -> exists f, Target resolve q src x f) by (intros; apply H; [right|]; assumption).
  destruct (is_model_rel r) eqn:EM.
  - destruct (find_from _ _ _ _) as [f|]; [cbn [map]; f_equal; [exact (proj2 T)|apply IH, H']|]. destruct (H r (or_introl eq_refl)) as (f & Hf); [apply model_rel_spec, EM|]. destruct (T f Hf).
  - destruct (find_from _ _ _ _); apply IH, H'.
Qed.
Lemma models_in src l f : In f (models resolve q src l) -> In f (pi_files q).
Proof.
  induction l as [|r l IH]; intros H; [destruct H|]. cbn [models] in H. pose proof (find_target resolve q src r) as T. destruct (find_from _ _ _ _) as [g|]; [|auto].
  destruct (is_model_rel r); [|auto]. destruct H as [<-|H]; [exact (proj1 T)|auto].
Qed.
(** processOPC succeeds, and changes nothing else *)
Definition Keeps (a b : Model) : Prop :=
  mo_lang b = mo_lang a /\ mo_units b = mo_units a /\ mo_thumb b = mo_thumb a /\ mo_res b = mo_res a /\ mo_build b = mo_build a /\ mo_exts b = mo_exts a /\
  mo_md b = mo_md a /\ mo_any b = mo_any a /\ mo_anyattr b = mo_anyattr a /\ (NoDup (map fst (mo_childs a)) -> NoDup (map fst (mo_childs b))).
Lemma keeps_refl a : Keeps a a.
Proof. unfold Keeps. repeat (split; [reflexivity|]). auto. Qed.
Lemma keeps_trans a b c : Keeps a b -> Keeps b c -> Keeps a c.
Proof. intros (A1 & A2 & A3 & A4 & A5 & A6 & A7 & A8 & A9 & A10) (B1 & B2 & B3 & B4 & B5 & B6 & B7 & B8 & B9 & B10). unfold Keeps. repeat (split; [congruence|]). auto. Qed.
Lemma keeps_pkg path atts childs rr rl a : (NoDup (map fst (mo_childs a)) -> NoDup (map fst childs)) -> Keeps a (mo_set_pkg path atts childs rr rl a).
Proof. intros H. unfold Keeps. repeat (split; [reflexivity|]). exact H. Qed.
Lemma aset_keys {A} (l : list (string * A)) k v : NoDup (map fst l) -> NoDup (map fst (aset l k v)).
Proof.
  assert (K : forall l x, In x (map fst (aset l k v)) -> x = k \/ In x (map fst l)).
  { clear. induction l as [|[k' v'] l IH]; intros x; cbn [aset map fst].
    - intros [<-|[]]; auto.
    - destruct (seq_spec k' k) as [->|N]; cbn [map fst In]; [intros [<-|H]; auto|]. intros [<-|H]; [auto|]. destruct (IH x H); auto. }
  induction l as [|[k' v'] l IH]; cbn [aset map fst]; intros H; [repeat constructor; intros []|]. apply NoDup_cons_iff in H as [H1 H2].
  destruct (seq_spec k' k) as [->|N]; cbn [map fst]; constructor; auto. intros X. apply K in X as [X|X]; [congruence|auto].
Qed.
Lemma extract1_keeps src root st r : Keeps (fst st) (fst (extract1 resolve q src root st r)).
Proof.
  destruct st as [a nr]. unfold extract1. destruct (find_from _ _ _ _) as [f|]; [|apply keeps_refl]. destruct root, (is_model_rel r); cbn [fst]; try apply keeps_refl.
  - apply keeps_pkg, aset_keys.
  - apply keeps_pkg. auto.
  - destruct (aget _ _ _); [apply keeps_pkg, aset_keys|apply keeps_refl].
Qed.
Lemma extract_keeps src root st : Keeps (fst st) (fst (extract resolve q src root st)).
Proof. unfold extract. revert st. induction (pf_rels src) as [|r l IH]; intros st; [apply keeps_refl|]. cbn [fold_left]. eapply keeps_trans; [apply extract1_keeps|apply IH]. Qed.
Lemma extracts_keeps l : forall st, Keeps (fst st) (fst (fold_left (fun st c => extract resolve q c false st) l st)).
Proof. induction l as [|r l IH]; intros st; [apply keeps_refl|]. cbn [fold_left]. eapply keeps_trans; [apply extract_keeps|apply IH]. Qed.
Lemma process_keeps st r st' : process_rel resolve q st r = Some st' -> Keeps (fst (fst st)) (fst (fst st')).
Proof.
  destruct st as [[a nr] root]. unfold process_rel. destruct (find_from _ _ _ _) as [f|].
  - destruct (is_model_rel r); intros H; injection H as <-; cbn [fst].
    + eapply keeps_trans; [|apply extracts_keeps]. eapply keeps_trans; [|apply extract_keeps]. cbn [fst]. apply keeps_pkg. auto.
    + apply keeps_pkg. auto.
  - destruct (is_model_rel r); [discriminate|]. intros H. injection H as <-. apply keeps_refl.
Qed.
Lemma processes_keeps l : forall st st', process_rels resolve q l st = Some st' -> Keeps (fst (fst st)) (fst (fst st')).
Proof.
  induction l as [|r l IH]; intros st st'; cbn [process_rels]; [intros H; injection H as <-; apply keeps_refl|]. destruct (process_rel _ _ _ _) as [st1|] eqn:E; [|discriminate].
  intros H. eapply keeps_trans; [eapply process_keeps, E|apply IH, H].
Qed.
Lemma opc_keeps a a' cs f : process_opc resolve q a = Some (a', cs, f) -> Keeps a a'.
Proof.
  unfold process_opc. destruct (process_rels _ _ _ _) as [[st [g|]]|] eqn:E; try discriminate. intros H. injection H as <- _ _. apply processes_keeps in E. exact E.
Qed.
Lemma processes_total l : (forall r, In r l -> rel_type r = type_3dmodel -> exists f, Target resolve q "/" r f) -> forall st, exists st', process_rels resolve q l st = Some st' /\
  (snd st <> None \/ (exists r, In r l /\ rel_type r = type_3dmodel) -> snd st' <> None).
Proof.
  induction l as [|r l IH]; intros H st; cbn [process_rels].
  - exists st. split; [reflexivity|]. intros [X|(r & [] & _)]. exact X.
  - assert (H' : forall x, In x l -> rel_type x = type_3dmodel -> exists f, Target resolve q "/" x f) by (intros; apply H; [right|]; assumption).
    pose proof (find_target resolve q "/" r) as T. destruct st as [[a nr] root]. unfold process_rel. destruct (find_from _ _ _ _) as [f|].
    + destruct (is_model_rel r) eqn:EM.
      * destruct (IH H' (fold_left (fun st c => extract resolve q c false st) (snd (extract resolve q f true (mo_set_pkg (pf_name f) (mo_atts a) (mo_childs a) (mo_rootrels a) (mo_rels a) a, nr))) (extract resolve q f true (mo_set_pkg (pf_name f) (mo_atts a) (mo_childs a) (mo_rootrels a) (mo_rels a) a, nr)), Some f)) as (st' & E & X).
        exists st'. split; [exact E|]. intros _. apply X. left. discriminate.
      * destruct (IH H' ((mo_set_pkg (mo_path a) (add_attachment (mo_atts a) f) (mo_childs a) (mo_rootrels a ++ [r]) (mo_rels a) a, nr), root)) as (st' & E & X).
        exists st'. split; [exact E|]. cbn [snd] in *. intros [Y|(z & [<-|Hz] & Y)]; apply X; [auto| |right; eauto]. apply model_spec_false in EM. contradiction.
    + destruct (is_model_rel r) eqn:EM; [destruct (H r (or_introl eq_refl)) as (f & Hf); [apply model_rel_spec, EM|destruct (T f Hf)]|].
      destruct (IH H' ((a, nr), root)) as (st' & E & X). exists st'. split; [exact E|]. cbn [snd] in *. intros [Y|(z & [<-|Hz] & Y)]; apply X; [auto| |right; eauto]. apply model_spec_false in EM. contradiction.
Qed.
Lemma opc_total a r : (forall x, In x (pi_rels q) -> rel_type x = type_3dmodel -> exists f, Target resolve q "/" x f) -> In r (pi_rels q) -> rel_type r = type_3dmodel ->
  exists a' cs f, process_opc resolve q a = Some (a', cs, f).
Proof.
  intros H Hr T. destruct (processes_total _ H ((a, []), None)) as ([st g] & E & X). unfold process_opc. rewrite E. destruct g as [f|]; [eauto|]. destruct X; [right; eauto|reflexivity].
Qed.
End ReadRels.

(** ** The package *)
Section Trip.
Context (reg : Reg) (strict : bool) (every : nat) (normalize : string -> string) (resolve : string -> string -> string)
  (refuses : list string -> string -> string -> bool) (later : string -> Ref -> string) (p : nat) (m : Model) (order1 order2 : list (string * Child)) (w : Pkg) (q : PkgIn).
Context (F : PackageFits normalize resolve (knows reg) p m) (O1 : Permutation order1 (mo_childs m)) (O2 : Permutation order2 (mo_childs m))
  (E : encode normalize resolve refuses p order1 order2 m = Some w) (C : Carried w q).
Notation paths := (all_paths m).
Definition Held (a : Part) (f : PFile) : Prop :=
  pf_name f = pt_name a /\ pf_ctype f = pt_ctype a /\ pf_data f = Some (pt_data a) /\ SameRels (pt_rels a) (pf_rels f).
Lemma root_path_eq : path_or_default m = root_path m.
Proof. unfold path_or_default, root_path. destruct (mo_path m); reflexivity. Qed.
Lemma plain n : In n paths -> normalize n = n /\ forall s, resolve s n = n.
Proof. intros H. apply (pf_plain _ _ _ _ _ F n) in H as (_ & H). exact H. Qed.
Lemma paths_nodup : NoDup paths.
Proof. eapply NoDup_map_inv, (pf_distinct _ _ _ _ _ F). Qed.
Lemma in_root : In (root_path m) paths.
Proof. left. reflexivity. Qed.
Lemma in_child k c : In (k, c) (mo_childs m) -> In k paths.
Proof. intros H. right. apply in_or_app. left. apply (in_map fst) in H. exact H. Qed.
Lemma in_att n : In n (map at_path (mo_atts m)) -> In n paths.
Proof. intros H. right. apply in_or_app. auto. Qed.
Lemma ordered l : Permutation l (mo_childs m) -> forall k c, In (k, c) l -> In (k, c) (mo_childs m).
Proof. intros H k c. apply Permutation_in, H. Qed.
Lemma part_names : Permutation (map pt_name (pk_parts w)) paths.
Proof.
  apply encode_parts in E as [_ ->]. rewrite map_app. cbn [map root_part pt_name]. rewrite !map_map. cbn [att_part child_part pt_name].
  rewrite root_path_eq, (proj1 (plain _ in_root)).
  rewrite (map_ext_in (fun x => normalize (at_path x)) at_path) by (intros a Ha; apply plain, in_att, in_map, Ha).
  rewrite (map_ext_in (fun x => normalize (resolve (root_path m) (fst x))) fst).
  2: { intros [k c] Hk. cbn [fst]. destruct (plain k (in_child k c (ordered _ O2 k c Hk))) as [N1 N2]. rewrite N2. exact N1. }
  rewrite Permutation_app_comm. cbn [app]. constructor. apply Permutation_app_tail, Permutation_map, O2.
Qed.
Lemma file_part f : In f (pi_files q) -> exists a, In a (pk_parts w) /\ Held a f.
Proof. destruct C as (_ & fs & P & H). intros Hf. apply (Permutation_in _ (Permutation_sym P)) in Hf. destruct (forall2_in_r _ _ _ _ H Hf) as (a & Ha & X). exists a. auto. Qed.
Lemma part_file a : In a (pk_parts w) -> exists f, In f (pi_files q) /\ Held a f.
Proof. destruct C as (_ & fs & P & H). intros Ha. destruct (forall2_in_l _ _ _ _ H Ha) as (f & Hf & X). exists f. split; [apply (Permutation_in _ P), Hf|exact X]. Qed.
Lemma file_names : Permutation (map pf_name (pi_files q)) paths.
Proof.
  destruct C as (_ & fs & P & H). rewrite <- part_names. rewrite <- (Permutation_map pf_name P). clear -H.
  assert (X : map pf_name fs = map pt_name (pk_parts w)); [|rewrite X; apply Permutation_refl]. induction H as [|a f l l' (X & _) _ IH]; [reflexivity|]. cbn [map]. congruence.
Qed.
Lemma names_nodup : NoDup (map pf_name (pi_files q)).
Proof. eapply Permutation_NoDup; [apply Permutation_sym, file_names|apply paths_nodup]. Qed.
Lemma names_fold f g : In f (pi_files q) -> In g (pi_files q) -> SameFold (pf_name f) (pf_name g) -> f = g.
Proof.
  intros Hf Hg X. apply (names_unique q names_nodup); try assumption. pose proof (pf_distinct _ _ _ _ _ F) as D.
  assert (I : forall x, In x (pi_files q) -> In (pf_name x) paths) by (intros x Hx; apply (Permutation_in _ file_names), in_map, Hx).
  apply I in Hf, Hg. revert D Hf Hg X. generalize (pf_name f), (pf_name g), paths. clear. intros a b l D Ha Hb X.
  induction l as [|y l IH]; [destruct Ha|]. cbn [map] in D. apply NoDup_cons_iff in D as [D1 D2]. unfold SameFold in X. destruct Ha as [<-|Ha], Hb as [<-|Hb]; auto.
  - destruct D1. rewrite X. apply in_map, Hb.
  - destruct D1. rewrite <- X. apply in_map, Ha.
Qed.
Lemma target src r : In (rel_path r) paths -> exists f, Target resolve q src r f.
Proof.
  intros H. pose proof (Permutation_in _ (Permutation_sym file_names) H) as X. apply in_map_iff in X as (f & X & Y). exists f. split; [exact Y|]. rewrite X, (proj2 (plain _ H)). reflexivity.
Qed.
Lemma root_in : In (root_part normalize p order1 m) (pk_parts w).
Proof. apply encode_parts in E as [_ ->]. apply in_or_app. right. left. reflexivity. Qed.
Lemma child_in k c : In (k, c) (mo_childs m) -> In (child_part normalize resolve p m (k, c)) (pk_parts w).
Proof. intros H. apply encode_parts in E as [_ ->]. apply in_or_app. right. right. apply in_map, (Permutation_in _ (Permutation_sym O2)), H. Qed.
Lemma att_in a : In a (mo_atts m) -> In (att_part normalize a) (pk_parts w).
Proof. intros H. apply encode_parts in E as [_ ->]. apply in_or_app. left. apply in_map, H. Qed.
Lemma held_named a f : In a (pk_parts w) -> In f (pi_files q) -> pf_name f = pt_name a -> Held a f.
Proof.
  intros Ha Hf N. destruct (part_file a Ha) as (g & Hg & H). assert (g = f) as <-; [|exact H]. apply (names_unique q names_nodup); try assumption. destruct H as [H _]. congruence.
Qed.
Lemma root_name : pt_name (root_part normalize p order1 m) = root_path m.
Proof. cbn [root_part pt_name]. rewrite root_path_eq. apply plain, in_root. Qed.
Lemma child_name k c : In (k, c) (mo_childs m) -> pt_name (child_part normalize resolve p m (k, c)) = k.
Proof. intros H. cbn [child_part pt_name fst]. destruct (plain k (in_child k c H)) as [N1 N2]. rewrite N2. exact N1. Qed.
Lemma att_name a : In a (mo_atts m) -> pt_name (att_part normalize a) = at_path a.
Proof. intros H. apply plain, in_att, in_map, H. Qed.

(** The relationships *)
Definition all_other (l : list Relationship) := forall r, In r l -> rel_type r <> type_3dmodel /\ In (rel_path r) (map at_path (mo_atts m)).
Lemma others l : (forall r, In r l -> In r (all_rels m)) -> all_other l.
Proof. intros H r Hr. split; [apply (pf_types _ _ _ _ _ F)|apply (pf_targets _ _ _ _ _ F)]; apply H, Hr. Qed.
Lemma all_package : all_other (package_rels m).
Proof. apply others. intros r H. apply in_or_app. auto. Qed.
Lemma all_root : all_other (part_rels (mo_rels m) (mo_res m)).
Proof. apply others. intros r H. apply in_or_app. right. apply in_or_app. auto. Qed.
Lemma all_child k c : In (k, c) (mo_childs m) -> all_other (part_rels (ch_rels c) (ch_res c)).
Proof. intros Hk. apply others. intros r H. apply in_or_app. right. apply in_or_app. right. apply in_flat_map. exists (k, c). auto. Qed.
Lemma filter_others l : all_other l -> filter other_rel l = l /\ filter is_model_rel l = [].
Proof. intros H. split; [apply filter_all; intros x Hx; apply other_spec, H, Hx|apply filter_none; intros x Hx; apply model_spec_false, H, Hx]. Qed.
(** [ws] is written for [own] and the relationships of type 3dmodel [ms]; [rs] is read for [ws]. *)
Lemma rels_read l own ms ws rs : all_other own -> (forall r, In r ms -> rel_type r = type_3dmodel) -> NoDup (map rel_path ms) ->
  filter other_rel l = own -> filter is_model_rel l = ms -> WithoutDuplicates l ws -> SameRels ws rs ->
  RelsRead own (filter other_rel rs) /\ SameRels ms (filter is_model_rel rs) /\
  (forall r, In r rs -> rel_type r <> type_3dmodel -> exists x, In x own /\ rel_path r = rel_path x) /\
  (forall x, In x own -> exists r, In r rs /\ rel_type r <> type_3dmodel /\ rel_path r = rel_path x).
Proof.
  intros H1 H2 H3 H4 H5 W S.
  pose proof (firsts_filter SameKey other_rel samekey_other _ _ _ W) as WO. rewrite H4 in WO. cbn [filter] in WO.
  pose proof (firsts_filter SameKey is_model_rel samekey_model _ _ _ W) as WM. rewrite H5 in WM. cbn [filter] in WM.
  pose proof (forall2_filter _ _ _ samerel_other _ _ S) as SO. pose proof (forall2_filter _ _ _ samerel_model _ _ S) as SM.
  rewrite (firsts_distinct _ _ _ WM H3) in SM. split; [exists (filter other_rel ws); auto|]. split; [exact SM|]. split.
  - intros r Hr N. assert (X : In r (filter other_rel rs)) by (apply filter_In; split; [exact Hr|apply other_spec, N]).
    destruct (forall2_in_r _ _ _ _ SO X) as (x & Hx & P & _). exists x. split; [apply (firsts_in _ _ _ _ WO), Hx|exact P].
  - intros x Hx. destruct (firsts_covers SameKey (fun z => conj eq_refl eq_refl) [] _ _ WO x Hx) as (y & Hy & _ & Py).
    destruct (forall2_in_l _ _ _ _ SO Hy) as (r & Hr & Pr & _). apply filter_In in Hr as [Hr Nr]. exists r. split; [exact Hr|]. split; [apply other_spec, Nr|congruence].
Qed.
Lemma thumb_eq : (if nonempty (mo_thumb m) then [mkRel (mo_thumb m) rel_thumbnail ""] else []) = thumb_rels m.
Proof. unfold thumb_rels. destruct (mo_thumb m); reflexivity. Qed.
Lemma package_read : RelsRead (package_rels m) (filter other_rel (pi_rels q)) /\ SameRels [mkRel (root_path m) type_3dmodel ""] (filter is_model_rel (pi_rels q)) /\
  (forall r, In r (pi_rels q) -> rel_type r <> type_3dmodel -> exists x, In x (package_rels m) /\ rel_path r = rel_path x) /\
  (forall x, In x (package_rels m) -> exists r, In r (pi_rels q) /\ rel_type r <> type_3dmodel /\ rel_path r = rel_path x).
Proof.
  pose proof (encode_parts _ _ _ _ _ _ _ _ E) as [W _]. rewrite thumb_eq, root_path_eq in W. destruct C as [S _].
  pose proof (filter_others _ all_package) as [X1 X2]. unfold package_rels in X1, X2. rewrite filter_app in X1, X2.
  apply (rels_read (mo_rootrels m ++ [mkRel (root_path m) rel_model ""] ++ thumb_rels m) (package_rels m) [mkRel (root_path m) type_3dmodel ""] (pk_rels w)); try exact S.
  - exact all_package.
  - intros r [<-|[]]. reflexivity.
  - repeat constructor. intros [].
  - rewrite !filter_app. exact X1.
  - rewrite !filter_app. cbn [filter]. apply app_eq_nil in X2 as [-> ->]. reflexivity.
  - rewrite W. apply opc_without.
Qed.
Lemma child_paths l : Permutation l (mo_childs m) -> NoDup (map fst l) /\ forall k, In k (map fst l) -> ~ In k (map at_path (mo_atts m)) /\ k <> root_path m.
Proof.
  intros P. pose proof paths_nodup as D. apply NoDup_cons_iff in D as [D1 D2]. split.
  - apply (Permutation_NoDup (Permutation_map fst (Permutation_sym P))). clear -D2. induction (map fst (mo_childs m)) as [|h l IH]; [constructor|]. cbn in D2. apply NoDup_cons_iff in D2 as [N1 N2]. constructor; [|auto]. intros X. apply N1, in_or_app. auto.
  - intros k Hk. apply (Permutation_in _ (Permutation_map fst P)) in Hk. split.
    + intros X. clear -D2 Hk X. induction (map fst (mo_childs m)) as [|h l IH]; [destruct Hk|]. cbn in D2. apply NoDup_cons_iff in D2 as [N1 N2]. destruct Hk as [->|Hk]; [apply N1, in_or_app; auto|auto].
    + intros ->. apply D1, in_or_app. auto.
Qed.
Lemma root_read f : In f (pi_files q) -> pf_name f = root_path m ->
  pf_data f = Some (xml_header +++ print (write_model p m)) /\
  RelsRead (part_rels (mo_rels m) (mo_res m)) (filter other_rel (pf_rels f)) /\ SameRels (map (fun kc => child_rel (fst kc)) order1) (filter is_model_rel (pf_rels f)) /\
  (forall r, In r (pf_rels f) -> rel_type r <> type_3dmodel -> exists x, In x (part_rels (mo_rels m) (mo_res m)) /\ rel_path r = rel_path x) /\
  (forall x, In x (part_rels (mo_rels m) (mo_res m)) -> exists r, In r (pf_rels f) /\ rel_type r <> type_3dmodel /\ rel_path r = rel_path x).
Proof.
  intros Hf N. destruct (held_named _ f root_in Hf) as (_ & _ & D & S); [rewrite root_name; exact N|]. split; [exact D|].
  destruct (pf_textures _ _ _ _ _ F) as (T1 & T2 & _). destruct (pf_onetype _ _ _ _ _ F) as [OT _].
  pose proof (filter_others _ all_root) as [X1 X2]. unfold part_rels in X1, X2. rewrite filter_app in X1, X2. destruct (child_paths _ O1) as [CD CN].
  assert (CM : filter is_model_rel (map (fun kc => child_rel (fst kc)) order1) = map (fun kc => child_rel (fst kc)) order1) by (apply filter_all; intros x Hx; apply in_map_iff in Hx as (kc & <- & _); reflexivity).
  assert (CO : filter other_rel (map (fun kc => child_rel (fst kc)) order1) = []) by (apply filter_none; intros x Hx; apply in_map_iff in Hx as (kc & <- & _); reflexivity).
  cbn [root_part pt_rels] in S.
  eapply (rels_read (mo_rels m ++ map (fun kc => child_rel (fst kc)) order1 ++ demands (mo_res m))); try exact S.
  - exact all_root.
  - intros r Hr. apply in_map_iff in Hr as (kc & <- & _). reflexivity.
  - rewrite map_map. exact CD.
  - rewrite !filter_app, CO. exact X1.
  - rewrite !filter_app, CM. apply app_eq_nil in X2 as [-> ->]. cbn. rewrite app_nil_r. reflexivity.
  - rewrite enc_enc, rels_model by assumption. apply enc_opc. intros a b Ha Hb P.
    assert (K : forall x, In x (mo_rels m ++ map (fun kc => child_rel (fst kc)) order1 ++ demands (mo_res m)) ->
      (In x (part_rels (mo_rels m) (mo_res m)) /\ In (rel_path x) (map at_path (mo_atts m))) \/ (rel_type x = type_3dmodel /\ ~ In (rel_path x) (map at_path (mo_atts m)))).
    { intros x Hx. assert (Y : In x (part_rels (mo_rels m) (mo_res m)) \/ In x (map (fun kc => child_rel (fst kc)) order1)).
      { unfold part_rels. apply in_app_or in Hx as [Hx|Hx]; [left; apply in_or_app; auto|]. apply in_app_or in Hx as [Hx|Hx]; [auto|left; apply in_or_app; auto]. }
      destruct Y as [Y|Y]; [left; split; [exact Y|apply all_root, Y]|]. right. apply in_map_iff in Y as (kc & <- & Y). split; [reflexivity|]. exact (proj1 (CN (fst kc) (in_map fst _ _ Y))). }
    apply K in Ha, Hb. destruct Ha as [[A1 A2]|[A1 A2]], Hb as [[B1 B2]|[B1 B2]].
    + apply OT; assumption.
    + rewrite P in A2. contradiction.
    + rewrite P in A2. contradiction.
    + congruence.
Qed.
Lemma child_read f k c : In (k, c) (mo_childs m) -> In f (pi_files q) -> pf_name f = k ->
  pf_data f = Some (xml_header +++ print (write_child p m c)) /\
  RelsRead (part_rels (ch_rels c) (ch_res c)) (filter other_rel (pf_rels f)) /\
  (forall r, In r (pf_rels f) -> rel_type r <> type_3dmodel -> exists x, In x (part_rels (ch_rels c) (ch_res c)) /\ rel_path r = rel_path x) /\
  (forall x, In x (part_rels (ch_rels c) (ch_res c)) -> exists r, In r (pf_rels f) /\ rel_type r <> type_3dmodel /\ rel_path r = rel_path x).
Proof.
  intros Hk Hf N. destruct (held_named _ f (child_in k c Hk) Hf) as (_ & _ & D & S); [rewrite (child_name k c Hk); exact N|]. split; [exact D|].
  destruct (pf_textures _ _ _ _ _ F) as (_ & _ & T). destruct (pf_onetype _ _ _ _ _ F) as [_ OT]. destruct (pf_childs _ _ _ _ _ F k c Hk) as [_ NA].
  pose proof (filter_others _ (all_child k c Hk)) as [X1 X2]. cbn [child_part pt_rels snd] in S.
  assert (W : WithoutDuplicates (part_rels (ch_rels c) (ch_res c)) (opc_adds [] (enc_adds (ch_rels c) (op_rels (write_child p m c))))).
  { rewrite rels_child; [|apply (T k c Hk)|rewrite NA; intros t []]. apply enc_opc, (OT k c Hk). }
  destruct (rels_read _ _ [] _ _ (all_child k c Hk) (fun r H => match H with end) (NoDup_nil _) X1 X2 W S) as (R1 & _ & R2 & R3). auto.
Qed.
Lemma att_read f a : In a (mo_atts m) -> In f (pi_files q) -> pf_name f = at_path a -> pf_data f = Some (at_data a) /\ pf_ctype f = at_ctype a.
Proof. intros Ha Hf N. destruct (held_named _ f (att_in a Ha) Hf) as (_ & T & D & _); [rewrite (att_name a Ha); exact N|]. auto. Qed.
Lemma aget_keys {A} (l : list (string * A)) k : aget seq k l <> None <-> In k (map fst l).
Proof.
  induction l as [|[k' v] l IH]; cbn [aget map fst In]; [tauto|]. destruct (seq_spec k k') as [->|N]; [split; [auto|discriminate]|]. rewrite IH. split; [auto|]. intros [X|X]; [congruence|exact X].
Qed.
Lemma aget_in {A} (l : list (string * A)) k v : aget seq k l = Some v -> In (k, v) l.
Proof. induction l as [|[k' x] l IH]; cbn [aget]; [discriminate|]. destruct (seq_spec k k') as [->|N]; [intros H; injection H as ->; left; reflexivity|right; auto]. Qed.
Lemma in_aget {A} (l : list (string * A)) k v : NoDup (map fst l) -> In (k, v) l -> aget seq k l = Some v.
Proof.
  induction l as [|[k' x] l IH]; intros D H; [destruct H|]. cbn [map fst] in D. apply NoDup_cons_iff in D as [D1 D2]. cbn [aget]. destruct H as [H|H].
  - injection H as -> ->. rewrite seq_refl. reflexivity.
  - destruct (seq_spec k k') as [->|N]; [|auto]. destruct D1. apply (in_map fst) in H. exact H.
Qed.
Lemma opened : exists m1 cs root, process_opc resolve q model_zero = Some (m1, cs, root) /\ In root (pi_files q) /\ pf_name root = root_path m /\
  Keeps model_zero m1 /\ mo_path m1 = root_path m /\ RelsRead (package_rels m) (mo_rootrels m1) /\ RelsRead (part_rels (mo_rels m) (mo_res m)) (mo_rels m1) /\
  map pf_name cs = map fst order1 /\ (forall f, In f cs -> In f (pi_files q)) /\
  Permutation (map fst (mo_childs m)) (map fst (mo_childs m1)) /\
  (forall k c, In (k, c) (mo_childs m) -> exists rels, aget seq k (mo_childs m1) = Some (mkChild res_zero rels []) /\ RelsRead (part_rels (ch_rels c) (ch_res c)) rels) /\
  Permutation (mo_atts m) (mo_atts m1).
Proof.
  destruct package_read as (P1 & P2 & P3 & P4). assert (X : exists r, filter is_model_rel (pi_rels q) = [r] /\ SameRel (mkRel (root_path m) type_3dmodel "") r).
  { destruct (filter is_model_rel (pi_rels q)) as [|r [|r' l]]; [inversion P2| |]; inversion P2 as [|? ? ? ? S1 S2]; subst; [eauto|inversion S2]. }
  clear P2. destruct X as (r & H1 & S1).
  destruct (filter_one _ _ _ H1) as (a & b & EL & TR & OT). apply model_rel_spec in TR.
  assert (OT' : forall x, In x (a ++ b) -> rel_type x <> type_3dmodel) by (intros x Hx; apply model_spec_false, OT, Hx). clear OT.
  destruct S1 as (PR & _ & _). cbn [rel_path] in PR.
  assert (TP : forall x, In x (pi_rels q) -> exists f, Target resolve q "/" x f).
  { intros x Hx. apply target. destruct (is_model_rel x) eqn:EM.
    - assert (X : In x (filter is_model_rel (pi_rels q))) by (apply filter_In; auto). rewrite H1 in X. destruct X as [<-|[]]. rewrite PR. apply in_root.
    - destruct (P3 x Hx) as (y & Hy & ->); [apply model_spec_false, EM|]. apply in_att, all_package, Hy. }
  destruct (opc_total resolve q model_zero r) as (m1 & cs & root & EO); [intros; apply TP; assumption|rewrite EL; apply in_or_app; right; left; reflexivity|exact TR|].
  exists m1, cs, root. split; [exact EO|].
  destruct (process_one resolve q model_zero m1 cs root a r b EL TR OT' EO) as ((RI & RN) & CS & MP & RR & RL & _ & _ & CH & CO).
  rewrite PR, (proj2 (plain _ in_root)) in RN. destruct (root_read root RI RN) as (_ & R1 & R2 & R3 & R4).
  pose proof (opc_keeps resolve q _ _ _ _ EO) as KP.
  split; [exact RI|]. split; [exact RN|]. split; [exact KP|]. split; [congruence|].
  split; [rewrite RR; cbn [model_zero mo_rootrels app]; rewrite kept_filter; [exact P1|intros; apply TP; assumption]|].
  assert (TR' : forall x, In x (pf_rels root) -> In (rel_path x) paths).
  { intros x Hx. destruct (is_model_rel x) eqn:EM.
    - assert (X : In x (filter is_model_rel (pf_rels root))) by (apply filter_In; auto). destruct (forall2_in_r _ _ _ _ R2 X) as (y & Hy & PX & _). rewrite PX.
      apply in_map_iff in Hy as ((k & c) & <- & Hy). cbn. apply (in_child k c), (ordered _ O1), Hy.
    - destruct (R3 x Hx) as (y & Hy & ->); [apply model_spec_false, EM|]. apply in_att, all_root, Hy. }
  split; [rewrite RL; cbn [model_zero mo_rels app]; unfold kept_of; rewrite kept_filter; [exact R1|intros; apply target, TR'; assumption]|].
  assert (CN : map pf_name cs = map fst order1).
  { rewrite CS, models_names by (intros; apply target, TR'; assumption).
    transitivity (map rel_path (filter is_model_rel (pf_rels root))).
    - apply map_ext_in. intros x Hx. apply filter_In in Hx as [Hx _]. apply plain, TR', Hx.
    - clear -R2. revert R2. generalize (filter is_model_rel (pf_rels root)). induction order1 as [|kc l IH]; intros l' H; inversion H as [|x y z t (P & _) H2]; subst; [reflexivity|]. cbn [map]. f_equal; [exact P|apply IH, H2]. }
  split; [exact CN|]. assert (CF : forall f, In f cs -> In f (pi_files q)) by (intros f Hf; rewrite CS in Hf; eapply models_in, Hf). split; [exact CF|].
  destruct (child_paths _ O1) as [ND _]. rewrite <- CN in ND.
  assert (CG : forall k c, In (k, c) (mo_childs m) -> exists f, In f cs /\ pf_name f = k).
  { intros k c Hk. apply (Permutation_in _ (Permutation_sym O1)), (in_map fst) in Hk. rewrite <- CN in Hk. apply in_map_iff in Hk as (f & X & Y). eauto. }
  assert (GC : forall f, In f cs -> exists c, In (pf_name f, c) (mo_childs m)).
  { intros f Hf. apply (in_map pf_name) in Hf. rewrite CN in Hf. apply in_map_iff in Hf as ((k & c) & X & Y). exists c. rewrite <- X. apply (ordered _ O1), Y. }
  assert (TC : forall f x, In f cs -> In x (pf_rels f) -> rel_type x <> type_3dmodel -> In (rel_path x) (map at_path (mo_atts m))).
  { intros f x Hf Hx N. destruct (GC f Hf) as (c & Hc). destruct (child_read f _ c Hc (CF f Hf) eq_refl) as (_ & _ & X & _). destruct (X x Hx N) as (y & Hy & ->). apply (all_child _ c Hc), Hy. }
  split; [|split].
  - apply NoDup_Permutation; [apply (child_paths _ (Permutation_refl _))| |].
    + destruct KP as (_ & _ & _ & _ & _ & _ & _ & _ & _ & KP). apply KP. constructor.
    + intros k. split.
      * intros Hk. apply in_map_iff in Hk as ((k' & c) & <- & Hk). cbn [fst]. destruct (CG k' c Hk) as (f & Hf & <-). apply aget_keys. rewrite (CH ND f Hf). discriminate.
      * intros Hk. apply aget_keys in Hk. destruct (in_dec string_dec k (map fst (mo_childs m))) as [X|X]; [exact X|]. exfalso. apply Hk.
        rewrite CO; [reflexivity|]. intros f Hf <-. destruct (GC f Hf) as (c & Hc). apply X. apply (in_map fst) in Hc. exact Hc.
  - intros k c Hk. destruct (CG k c Hk) as (f & Hf & <-). rewrite (CH ND f Hf). eexists. split; [reflexivity|]. destruct (child_read f _ c Hk (CF f Hf) eq_refl) as (_ & X & _).
    unfold kept_of. rewrite kept_filter; [exact X|]. intros x Hx N. apply target, in_att, (TC f x Hf Hx N).
  - destruct (C47_attachments_partial resolve q model_zero m1 cs root a r b names_nodup EL TR OT' EO) as (new & EN & N1 & N2 & _ & N3). cbn [model_zero mo_atts app] in EN, N2. rewrite EN.
    assert (NA : forall f, Reached resolve q root cs f -> exists x, In x (mo_atts m) /\ pf_data f = Some (at_data x) /\ mkAtt (at_data x) (pf_name f) (pf_ctype f) = x).
    { intros f (src & l & r' & HS & Hr & NT & FI & FN).
      assert (X : In (rel_path r') (map at_path (mo_atts m))).
      { destruct HS as [[-> ->]|(g & [<-|Hg] & -> & ->)].
        - destruct (P3 r' Hr NT) as (y & Hy & ->). apply all_package, Hy.
        - destruct (R3 r' Hr NT) as (y & Hy & ->). apply all_root, Hy.
        - apply (TC g r' Hg Hr NT). }
      rewrite (proj2 (plain _ (in_att _ X))) in FN. apply in_map_iff in X as (x & PX & Hx). exists x. split; [exact Hx|].
      destruct (att_read f x Hx FI) as [D1 D2]; [congruence|]. split; [exact D1|]. rewrite D2, FN, <- PX. destruct x; reflexivity. }
    apply NoDup_Permutation.
    + pose proof paths_nodup as D. unfold all_paths in D. apply NoDup_cons_iff in D as [_ D]. clear -D. induction (map fst (mo_childs m)) as [|h l IH]; cbn in D; [eapply NoDup_map_inv, D|]. apply NoDup_cons_iff in D as [_ D]. auto.
    + clear -N2. induction new as [|x l IH] using rev_ind; [constructor|]. apply NoDup_rev in IH.
      * apply (Permutation_NoDup (Permutation_app_comm [x] l)). cbn. constructor; [|rewrite <- (rev_involutive l); apply NoDup_rev, IH]. intros X. apply (N2 l x [] x eq_refl X). reflexivity.
      * intros u y v z EU Hz. apply (N2 u y (v ++ [x]) z); [rewrite EU, <- app_assoc; reflexivity|exact Hz].
    + intros x. split.
      * intros Hx. destruct (pf_reached _ _ _ _ _ F x Hx) as (y & Hy & PY).
        assert (RC : exists src l r', (src = "/" /\ l = pi_rels q \/ exists g, In g (root :: cs) /\ src = pf_name g /\ l = pf_rels g) /\ In r' l /\ rel_type r' <> type_3dmodel /\ rel_path r' = rel_path y).
        { apply in_app_or in Hy as [Hy|Hy]; [|apply in_app_or in Hy as [Hy|Hy]].
          - destruct (P4 y Hy) as (r' & A1 & A2 & A3). exists "/", (pi_rels q), r'. auto.
          - destruct (R4 y Hy) as (r' & A1 & A2 & A3). exists (pf_name root), (pf_rels root), r'. split; [right; exists root; cbn; auto|auto].
          - apply in_flat_map in Hy as ((k & c) & Hk & Hy). destruct (CG k c Hk) as (f & Hf & <-). cbn [snd] in Hy. destruct (child_read f _ c Hk (CF f Hf) eq_refl) as (_ & _ & _ & X).
            destruct (X y Hy) as (r' & A1 & A2 & A3). exists (pf_name f), (pf_rels f), r'. split; [right; exists f; cbn; auto|auto]. }
        destruct RC as (src & l & r' & HS & A1 & A2 & A3). rewrite PY in A3. assert (IA : In (rel_path r') paths) by (rewrite A3; apply in_att, in_map, Hx).
        destruct (target src r' IA) as (f & FI & FN). pose proof FN as FN'. rewrite (proj2 (plain _ IA)), A3 in FN'. destruct (att_read f x Hx FI FN') as [D1 D2].
        assert (X := N3 names_fold eq_refl f (at_data x)). rewrite FN', D2 in X. replace x with (mkAtt (at_data x) (at_path x) (at_ctype x)) by (destruct x; reflexivity). apply X; [|exact D1].
        exists src, l, r'. split; [exact HS|]. split; [exact A1|]. split; [exact A2|]. split; assumption.
      * intros Hx. destruct (N1 x Hx) as (f & d & RF & DF & ->). destruct (NA f RF) as (x & Hx' & D1 & D2). rewrite DF in D1. injection D1 as ->. rewrite D2. exact Hx'.
Qed.

(** The children *)
Lemma header_events (isroot : bool) path e ops ts M mm : Document e ops ts ->
  (forall later evs, map ev_token evs = join_texts "" (map (qtok e) ts) -> on_events reg isroot path later evs (m_init M) = Some mm) ->
  exists evs d, scan XEOF (xml_header +++ print ops) = SDone evs XEOF d /\ forall later, on_events reg isroot path later evs (m_init M) = Some mm.
Proof.
  intros D R. destruct (C35_header _ _ _ D) as (evs & d & S & T). exists evs, d. split; [exact S|]. intros la.
  destruct evs as [|ev evs]; [discriminate|]. cbn [map] in T. injection T as T1 T2. destruct ev as [x a|x|now r]; try discriminate. cbn [on_events on_event]. exact (R la evs T2).
Qed.
Lemma root_not_empty : root_path m <> "".
Proof. apply (pf_plain _ _ _ _ _ F), in_root. Qed.
Lemma child_found m1 k c rels : mo_path m1 = root_path m -> In (k, c) (mo_childs m) -> aget seq k (mo_childs m1) = Some (mkChild res_zero rels []) ->
  IsChild m1 k /\ find_resources m1 k = Some res_zero.
Proof.
  intros HP Hk HA. assert (K0 : k <> "") by (apply (pf_plain _ _ _ _ _ F), (in_child k c), Hk).
  assert (K1 : k <> root_path m) by (apply (child_paths _ (Permutation_refl _)), (in_map fst _ _ Hk)).
  pose proof root_not_empty as R0. split.
  - split; [apply aget_keys; congruence|]. split; [exact K0|]. rewrite HP. split; [exact K1|]. intros X. contradiction.
  - unfold find_resources, find_child. rewrite HP. destruct (seq_spec k ""); [contradiction|]. destruct (seq_spec k (root_path m)); [contradiction|]. destruct (seq_spec (root_path m) ""); [contradiction|].
    cbn [orb andb]. rewrite HA. reflexivity.
Qed.
Lemma child_alone m1 f k c rels : Keeps model_zero m1 -> mo_path m1 = root_path m -> In (k, c) (mo_childs m) -> aget seq k (mo_childs m1) = Some (mkChild res_zero rels []) ->
  In f (pi_files q) -> pf_name f = k -> Alone reg strict every m1 (job_of later f) DNone (rt_res p (ch_res c)).
Proof.
  intros (_ & _ & _ & _ & _ & KE & _ & KA & _ & KN) HP Hk HA Hf N. destruct (child_found m1 k c rels HP Hk HA) as [_ HR].
  destruct (child_read f k c Hk Hf N) as (D & _). destruct (pf_childs _ _ _ _ _ F k c Hk) as [CF CA]. pose proof (pf_model _ _ _ _ _ F) as (HF & _).
  destruct (child_run reg k p m m1 c res_zero) as (ts & s2 & DO & EM & RU); try assumption; try reflexivity.
  { apply KN. constructor. }
  { rewrite KE. exact CF. }
  destruct (header_events false k _ _ ts m1 (top_mach s2) DO RU) as (evs & d & S & RE).
  destruct (run_with reg false strict k every _ m1 evs d (top_mach s2) (later (pf_name f)) S (RE _) eq_refl) as (n & d' & X).
  exists (xml_header +++ print (write_child p m c)), XEOF, (s_model s2), n, d'. split; [unfold job_of; cbn [jb_open]; rewrite D; reflexivity|].
  cbn [job_of jb_path jb_later]. rewrite N in *. split; [exact X|]. rewrite EM. split.
  - unfold rset, res_set. cbn [d_init s_model]. destruct (_ || _); [reflexivity|]. destruct (find_child _ _); reflexivity.
  - apply find_rset. congruence.
Qed.
Lemma returns jobs m1 : Separate reg strict every m1 jobs -> exists m2 errs, childs_return reg strict every false jobs m1 m2 errs.
Proof.
  intros S. destruct (C48_returns_partial reg strict every false m1 jobs S) as (bound & B).
  assert (X : forall k n x, bound - n <= k -> csteps reg strict every false n (c_init jobs m1) x -> exists n' x', csteps reg strict every false n' (c_init jobs m1) x' /\ c_done x').
  { induction k as [|k IH]; intros n x L R; destruct (B n x R) as [Bn [Dn|(y & Sy)]]; eauto.
    - destruct (B (Datatypes.S n) y) as [By _]; [econstructor; eassumption|]. lia.
    - destruct (B (Datatypes.S n) y) as [By _]; [econstructor; eassumption|]. apply (IH (Datatypes.S n) y); [lia|]. econstructor; eassumption. }
  destruct (X bound 0 (c_init jobs m1)) as (n & x & R & Dn); [lia|constructor|]. exists (sh_model (fst x)), (sh_errs (fst x)), n, x. auto.
Qed.
(** What is read, exactly *)
Record RtPackage (m' : Model) : Prop := {
  rp_exts : mo_exts m' = mo_exts m;
  rp_md : mo_md m' = mo_md m;
  rp_res : mo_res m' = rt_res p (mo_res m);
  rp_build : mo_build m' = rt_build (mo_build m);
  rp_distinct : NoDup (map fst (mo_childs m'));
  rp_children : forall k c, In (k, c) (mo_childs m) -> exists c', In (k, c') (mo_childs m') /\ ch_res c' = rt_res p (ch_res c)
}.
Lemma trip : (forall r, decodes reg strict every resolve later q model_zero r -> exists m', r = PModel m' /\ SamePackage p m m' /\ RtPackage m') /\
  exists m', decodes reg strict every resolve later q model_zero (PModel m').
Proof.
  destruct opened as (m1 & cs & root & EO & RI & RN & KP & MP & RR & RL & CN & CF & CP & CH & AT).
  destruct (child_paths _ O1) as [ND _].
  assert (GC : forall f, In f cs -> exists c, In (pf_name f, c) (mo_childs m)).
  { intros f Hf. apply (in_map pf_name) in Hf. rewrite CN in Hf. apply in_map_iff in Hf as ((k & c) & X & Y). exists c. rewrite <- X. apply (ordered _ O1), Y. }
  assert (AL : forall f c, In f cs -> In (pf_name f, c) (mo_childs m) -> Alone reg strict every m1 (job_of later f) DNone (rt_res p (ch_res c))).
  { intros f c Hf Hc. destruct (CH _ c Hc) as (rels & HA & _). apply (child_alone m1 f (pf_name f) c rels); auto. }
  assert (SE : Separate reg strict every m1 (map (job_of later) cs)).
  { constructor.
    - destruct KP as (_ & _ & _ & _ & _ & _ & _ & _ & _ & KN). apply KN. constructor.
    - rewrite map_map. change (NoDup (map pf_name cs)). rewrite CN. exact ND.
    - intros j Hj. apply in_map_iff in Hj as (f & <- & Hf). cbn [job_of jb_path]. destruct (GC f Hf) as (c & Hc). destruct (CH _ c Hc) as (rels & HA & _). apply (child_found m1 _ c rels MP Hc HA).
    - intros j Hj. apply in_map_iff in Hj as (f & <- & Hf). right. destruct (GC f Hf) as (c & Hc). eauto. }
  assert (NE : forall j, In j (map (job_of later) cs) -> exists r, Alone reg strict every m1 j DNone r).
  { intros j Hj. apply in_map_iff in Hj as (f & <- & Hf). destruct (GC f Hf) as (c & Hc). eauto. }
  assert (RT : forall m2 errs, childs_return reg strict every false (map (job_of later) cs) m1 m2 errs -> errs = None /\ exists m', root_model reg strict every root m2 = Some (PModel m') /\ SamePackage p m m' /\ RtPackage m').
  { intros m2 errs R. pose proof (C48_no_error_partial _ _ _ _ _ _ _ SE NE R) as ->. split; [reflexivity|]. apply C48_merged_partial in R as [_ R]; [|exact SE].
    destruct R as [G1 G2 G3 G4 G5 G6 G7 G8 G9 G10 G11 G12 G13 GC2].
    destruct KP as (K1 & K2 & K3 & K4 & K5 & K6 & K7 & K8 & K9 & KN).
    cbn [model_zero mo_lang mo_units mo_thumb mo_res mo_build mo_exts mo_md mo_any mo_anyattr] in K1, K2, K3, K4, K5, K6, K7, K8, K9.
    destruct (root_run reg (root_path m) p m m2 (pf_model _ _ _ _ _ F)) as (ts & s2 & DO & EM & RU); try congruence.
    { rewrite G1, MP, seq_refl, orb_true_r. reflexivity. }
    destruct (header_events true (root_path m) _ _ ts m2 (top_mach s2) DO RU) as (evs & d & S & RE).
    destruct (file_with reg true strict (root_path m) every _ m2 evs d (top_mach s2) S RE eq_refl) as (n & d' & X).
    destruct (root_read root RI RN) as (DR & _). exists (s_model s2). split; [unfold root_model; rewrite DR, RN, X; reflexivity|]. rewrite EM.
    assert (KEY : map fst (mo_childs m2) = map fst (mo_childs m1)) by (clear -GC2; induction GC2 as [|a b l l' (H & _) _ IH]; [reflexivity|]; cbn [map]; congruence).
    assert (D1 : NoDup (map fst (mo_childs m1))) by (apply KN; constructor).
    assert (CS : forall k c, In (k, c) (mo_childs m) -> exists c', In (k, c') (mo_childs m2) /\ ch_res c' = rt_res p (ch_res c) /\ ch_any c' = [] /\ RelsRead (part_rels (ch_rels c) (ch_res c)) (ch_rels c')).
    { intros k c Hk. destruct (CH k c Hk) as (rels & HA & HR). apply aget_in in HA. destruct (forall2_in_l _ _ _ _ GC2 HA) as ([k' c'] & Hk' & E1 & E2 & E3 & E4 & _). cbn [fst snd ch_rels ch_any] in *. subst k'.
      exists c'. split; [exact Hk'|].
      assert (IP : In k (map jb_path (map (job_of later) cs))).
      { rewrite map_map. change (In k (map pf_name cs)). rewrite CN. apply (Permutation_in _ (Permutation_map fst (Permutation_sym O1))). apply (in_map fst) in Hk. exact Hk. }
      destruct (E4 IP) as (j & Hj & PJ & AJ). apply in_map_iff in Hj as (f & <- & Hf). cbn [job_of jb_path] in PJ. subst k.
      pose proof (alone_unique _ _ _ _ _ _ _ _ _ AJ (AL f c Hf Hk)) as [_ ->]. split; [reflexivity|split; [exact E3|rewrite E2; exact HR]]. }
    split; [constructor|constructor; try reflexivity].
    - apply (model_same (knows reg)), (pf_model _ _ _ _ _ F).
    - cbn [rt_model mo_path]. congruence.
    - cbn [rt_model mo_rootrels]. rewrite G10. exact RR.
    - cbn [rt_model mo_rels]. rewrite G11. exact RL.
    - cbn [rt_model mo_childs]. rewrite KEY. exact CP.
    - intros k c Hk. cbn [rt_model mo_childs]. destruct (CS k c Hk) as (c' & X1 & X2 & X3 & X4). exists c'. split; [exact X1|]. rewrite X2. split; [|split; assumption].
      apply (res_same p (env_of m) (knows reg) []), (pf_childs _ _ _ _ _ F _ _ Hk).
    - cbn [rt_model mo_atts]. rewrite G7. exact AT.
    - cbn [rt_model mo_childs]. rewrite KEY. exact D1.
    - intros k c Hk. cbn [rt_model mo_childs]. destruct (CS k c Hk) as (c' & X1 & X2 & _). eauto. }
  split.
  - intros r H. destruct H as [H|m1' cs' root' m2 e H R|m1' cs' root' m2 r H R HR].
    + congruence.
    + rewrite EO in H. injection H as <- <- <-. destruct (RT _ _ R) as [X _]. discriminate.
    + rewrite EO in H. injection H as <- <- <-. destruct (RT _ _ R) as [_ (m' & X & Y)]. rewrite X in HR. injection HR as <-. eauto.
  - destruct (returns _ _ SE) as (m2 & errs & R). destruct (RT _ _ R) as [-> (m' & X & _)]. exists m'. eapply DecRoot; eassumption.
Qed.
End Trip.
