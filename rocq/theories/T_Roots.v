(** * Theorems about the root model of a package: C85 *)
From Verif Require Import GoBase GoNum GoFloat Types PkgTypes XmlTypes M_Core M_Xml M_Printer M_Decode M_Encode M_Package S_Package P_Package.
From Verif Require Import Types.
Local Open Scope list_scope.

Section Roots.
Context (resolve : string -> string -> string) (p : PkgIn).
(** The children listed so far are in the map. *)
Definition Listed (m : Model) (nr : list PFile) : Prop := forall c, In c nr -> aget seq (pf_name c) (mo_childs m) <> None.
(** What the relationships [l] have made of [m] *)
Definition After (l : list Relationship) (m : Model) (nr : list PFile) (root : option PFile) (st : (Model * list PFile) * option PFile) : Prop :=
  let roots := models resolve p "/" l in let m' := fst (fst st) in
  snd (fst st) = nr ++ flat_map (fun f => models resolve p (pf_name f) (pf_rels f)) roots /\
  mo_rootrels m' = mo_rootrels m ++ map fst (kept resolve p "/" l) /\
  mo_rels m' = mo_rels m ++ flat_map (fun f => map fst (kept_of resolve p f)) roots /\
  snd st = last (map Some roots) root /\ mo_path m' = last (map pf_name roots) (mo_path m) /\
  (mo_res m', mo_build m', mo_md m', mo_any m') = (mo_res m, mo_build m, mo_md m, mo_any m) /\ Listed m' (snd (fst st)).
Lemma last_cons {A} (x y d : A) l : last (x :: y :: l) d = last (y :: l) x.
Proof. cbn [last]. revert y x d. induction l as [|z l IH]; intros y x d; [reflexivity|]. cbn [last] in *. apply IH. Qed.
Lemma last_first {A} (x d : A) l : last (x :: l) d = last l x.
Proof. destruct l; [reflexivity|apply last_cons]. Qed.
Lemma extract_present k src b l : forall st, aget seq k (mo_childs (fst st)) <> None -> aget seq k (mo_childs (fst (fold_left (extract1 resolve p src b) l st))) <> None.
Proof.
  induction l as [|r l IH]; intros [m nr] H; [exact H|]. cbn [fold_left]. apply IH. unfold extract1. destruct (find_from _ _ _ _) as [f|]; [|exact H].
  destruct b, (is_model_rel r); cbn [fst mo_childs mo_set_pkg]; try exact H.
  - rewrite aget_aset. destruct (seq k (pf_name f)); [discriminate|exact H].
  - cbn [fst] in H. destruct (aget seq (pf_name src) (mo_childs m)) as [c|]; [|exact H]. cbn [fst mo_childs mo_set_pkg]. rewrite aget_aset. destruct (seq k (pf_name src)); [discriminate|exact H].
Qed.
Lemma extracts_present k cs : forall st, aget seq k (mo_childs (fst st)) <> None -> aget seq k (mo_childs (fst (fold_left (fun st c => extract resolve p c false st) cs st))) <> None.
Proof. induction cs as [|c cs IH]; intros st H; [exact H|]. cbn [fold_left]. apply IH. apply extract_present, H. Qed.
Lemma process_step r m nr root : Listed m nr ->
  match process_rel resolve p ((m, nr), root) r with
  | Some st => After [r] m nr root st
  | None => rel_type r = type_3dmodel /\ forall f, ~ Target resolve p "/" r f
  end.
Proof.
  intros L. unfold process_rel. pose proof (find_target resolve p "/" r) as T. unfold After. cbn [models kept].
  destruct (find_from resolve p "/" (rel_path r)) as [f|] eqn:EF.
  - destruct (is_model_rel r) eqn:EM.
    + match goal with |- context [extract resolve p f true ?x] => change (extract resolve p f true x) with (fold_left (extract1 resolve p f true) (pf_rels f) x) end. rewrite extract_root. cbn [snd mo_path mo_atts mo_childs mo_rootrels mo_rels mo_set_pkg].
      set (cs := nr ++ models resolve p (pf_name f) (pf_rels f)). match goal with |- context [fold_left _ cs (?mm, cs)] => set (m0 := mm) end.
      assert (L0 : forall c, In c cs -> aget seq (pf_name c) (mo_childs m0) <> None).
      { intros c Hc. cbn [m0 mo_childs mo_set_pkg]. rewrite add_childs_get. destruct (existsb _ _) eqn:X; [discriminate|]. apply in_app_or in Hc as [Hc|Hc]; [exact (L c Hc)|].
        apply not_true_iff_false in X. destruct X. apply existsb_exists. exists c. split; [exact Hc|apply seq_refl]. }
      pose proof (fun c Hc => extracts_present (pf_name c) cs (m0, cs) (L0 c Hc)) as L1. destruct (extract_childs resolve p cs m0 cs L0) as (childs & E & _ & _). rewrite E in *. cbn [fst mo_childs mo_set_pkg] in L1.
      unfold m0. cbn [fst snd flat_map map last app mo_path mo_atts mo_childs mo_rootrels mo_rels mo_res mo_build mo_md mo_any mo_set_pkg]. rewrite !app_nil_r.
      repeat (split; [reflexivity|]). exact L1.
    + cbn [fst snd flat_map map last app mo_path mo_atts mo_childs mo_rootrels mo_rels mo_res mo_build mo_md mo_any mo_set_pkg]. rewrite !app_nil_r. repeat (split; [reflexivity|]). exact L.
  - destruct (is_model_rel r) eqn:EM; [split; [apply model_rel_spec, EM|exact T]|]. cbn [fst snd flat_map map last app]. rewrite !app_nil_r. repeat (split; [reflexivity|]). exact L.
Qed.
Lemma models_app src a b : models resolve p src (a ++ b) = models resolve p src a ++ models resolve p src b.
Proof. induction a as [|r a IH]; cbn [app models]; [reflexivity|]. destruct (find_from _ _ _ _); [destruct (is_model_rel r)|]; rewrite IH; reflexivity. Qed.
Lemma kept_app src a b : kept resolve p src (a ++ b) = kept resolve p src a ++ kept resolve p src b.
Proof. induction a as [|r a IH]; cbn [app kept]; [reflexivity|]. destruct (find_from _ _ _ _); [destruct (is_model_rel r)|]; rewrite IH; reflexivity. Qed.
Lemma last_app {A} (a b : list A) d : last (a ++ b) d = last b (last a d).
Proof. revert d. induction a as [|x a IH]; intros d; [reflexivity|]. cbn [app]. rewrite !last_first. apply IH. Qed.
Lemma process_all l : forall m nr root, Listed m nr ->
  match process_rels resolve p l ((m, nr), root) with
  | Some st => After l m nr root st /\ forall r, In r l -> rel_type r = type_3dmodel -> exists f, Target resolve p "/" r f
  | None => exists r, In r l /\ rel_type r = type_3dmodel /\ forall f, ~ Target resolve p "/" r f
  end.
Proof.
  induction l as [|r l IH]; intros m nr root L; cbn [process_rels].
  - split; [|intros r []]. unfold After. cbn. rewrite !app_nil_r. repeat (split; [reflexivity|]). exact L.
  - pose proof (process_step r m nr root L) as P. destruct (process_rel resolve p ((m, nr), root) r) as [[[m1 nr1] root1]|] eqn:E1; [|exists r; split; [left; reflexivity|exact P]].
    destruct P as (P1 & P2 & P3 & P4 & P5 & P6 & P7). cbn [fst snd] in *. specialize (IH m1 nr1 root1 P7).
    assert (TR : rel_type r = type_3dmodel -> exists f, Target resolve p "/" r f).
    { intros R. apply model_rel_spec in R. unfold process_rel in E1. pose proof (find_target resolve p "/" r) as T. destruct (find_from resolve p "/" (rel_path r)) as [f|]; [exists f; exact T|]. rewrite R in E1. discriminate. }
    destruct (process_rels resolve p l (m1, nr1, root1)) as [st|]; [|destruct IH as (r' & H1 & H2); exists r'; split; [right; exact H1|exact H2]].
    destruct IH as ((Q1 & Q2 & Q3 & Q4 & Q5 & Q6 & Q7) & QT). split; [|intros r' [<-|H] R; [exact (TR R)|exact (QT r' H R)]].
    unfold After. change (r :: l) with ([r] ++ l). rewrite models_app, kept_app, !flat_map_app, !map_app, !last_app.
    rewrite Q1, P1, Q2, P2, Q3, P3, Q4, P4, Q5, P5, Q6, P6. rewrite <- !app_assoc. repeat (split; [reflexivity|]). rewrite Q1, P1, <- app_assoc in Q7. exact Q7.
Qed.
Lemma last_some (l : list PFile) : forall d, last (map Some l) d = match rev l with [] => d | f :: _ => Some f end.
Proof.
  induction l as [|f l IH] using rev_ind; intros d; [reflexivity|]. rewrite map_app, last_app, rev_app_distr. reflexivity.
Qed.
End Roots.

(** A package is accepted exactly if it has a relationship to a root model and all such relationships lead to parts. *)
Theorem C85_accepts : forall resolve p m, (exists res, process_opc resolve p m = Some res) <->
  (exists r, In r (pi_rels p) /\ rel_type r = type_3dmodel) /\
  (forall r, In r (pi_rels p) -> rel_type r = type_3dmodel -> exists f, Target resolve p "/" r f).
Proof.
  intros *. unfold process_opc. pose proof (process_all resolve p (pi_rels p) m [] None) as H. destruct (process_rels _ _ _ _) as [[st root]|].
  - destruct H as ((_ & _ & _ & H4 & _) & HT); [intros c []|]. cbn [snd] in H4. rewrite last_some in H4.
    assert (X : (exists r, In r (pi_rels p) /\ rel_type r = type_3dmodel) <-> models resolve p "/" (pi_rels p) <> []).
    { clear H4. induction (pi_rels p) as [|r l IH]; cbn [models]; [split; [intros (r & [] & _)|congruence]|]. pose proof (find_target resolve p "/" r) as T.
      destruct (find_from resolve p "/" (rel_path r)) as [f|].
      - destruct (is_model_rel r) eqn:EM; [split; [discriminate|intros _; exists r; split; [left; reflexivity|apply model_rel_spec, EM]]|].
        rewrite <- IH by (intros; apply HT; [right|]; assumption). split; [intros (r' & [<-|K] & R); [apply model_rel_spec in R; congruence|eauto]|intros (r' & K & R); exists r'; split; [right|]; assumption].
      - rewrite <- IH by (intros; apply HT; [right|]; assumption). split; [intros (r' & [<-|K] & R); [destruct (HT r (or_introl eq_refl) R) as (f & K); destruct (T f K)|eauto]|intros (r' & K & R); exists r'; split; [right|]; assumption]. }
    rewrite X. destruct (rev (models resolve p "/" (pi_rels p))) as [|f l] eqn:ER.
    + subst root. split; [intros (? & [=])|]. intros [N _]. destruct N. rewrite <- (rev_involutive (models _ _ _ _)), ER. reflexivity.
    + subst root. split; [|eauto]. intros _. split; [|exact HT]. intros E. rewrite E in ER. discriminate.
  - destruct H as (r & H1 & H2 & H3); [intros c []|]. split; [intros (? & [=])|]. intros [_ HT]. destruct (HT r H1 H2) as (f & T). destruct (H3 f T).
Qed.
Print Assumptions C85_accepts.
(** Of several root models the last is the one that is read; the relationships of all of them become those of the
    model, and the children of all of them are read.  Nothing is read of the content of the others. *)
Theorem C85_last : forall resolve p m m' cs root, NoDup (map pf_name (pi_files p)) -> process_opc resolve p m = Some (m', cs, root) ->
  exists others, Models resolve p "/" (pi_rels p) (others ++ [root]) /\ mo_path m' = pf_name root /\
    (exists mss, Forall2 (fun f ms => Models resolve p (pf_name f) (pf_rels f) ms) (others ++ [root]) mss /\ cs = concat mss) /\
    (exists kss, Forall2 (fun f ks => Kept resolve p (pf_name f) (pf_rels f) ks) (others ++ [root]) kss /\ mo_rels m' = mo_rels m ++ map fst (concat kss)) /\
    (exists k, Kept resolve p "/" (pi_rels p) k /\ mo_rootrels m' = mo_rootrels m ++ map fst k) /\
    mo_res m' = mo_res m /\ mo_build m' = mo_build m /\ mo_md m' = mo_md m /\ mo_any m' = mo_any m.
Proof.
  intros * ND. unfold process_opc. pose proof (process_all resolve p (pi_rels p) m [] None) as H. destruct (process_rels _ _ _ _) as [[st rt]|]; [|discriminate].
  destruct rt as [f|]; [|discriminate]. intros [= <- <- <-]. destruct H as ((H1 & H2 & H3 & H4 & H5 & H6 & _) & _); [intros c []|]. cbn [fst snd app] in *.
  rewrite last_some in H4. destruct (rev (models resolve p "/" (pi_rels p))) as [|g l] eqn:ER; [discriminate|]. injection H4 as <-.
  assert (EM : models resolve p "/" (pi_rels p) = rev l ++ [f]) by (rewrite <- (rev_involutive (models _ _ _ _)), ER; reflexivity).
  exists (rev l). rewrite <- EM. split; [apply models_spec|]. split; [rewrite H5, EM, map_app, last_app; reflexivity|]. split; [|split; [|split]].
  - exists (map (fun f => models resolve p (pf_name f) (pf_rels f)) (models resolve p "/" (pi_rels p))). rewrite <- flat_map_concat_map. split; [|exact H1].
    clear. induction (models _ _ _ _); cbn [map]; constructor; [apply models_spec|assumption].
  - exists (map (kept_of resolve p) (models resolve p "/" (pi_rels p))). split; [clear; induction (models _ _ _ _); cbn [map]; constructor; [apply kept_spec|assumption]|].
    rewrite H3. f_equal. rewrite flat_map_concat_map, concat_map, map_map. reflexivity.
  - exists (kept resolve p "/" (pi_rels p)). split; [apply kept_spec|exact H2].
  - injection H6 as -> -> -> ->. auto.
Qed.
Print Assumptions C85_last.
(** A package with two root models is accepted: a model of the first is lost, its relationships are those of the other,
    and those of its child are there twice. *)
Definition two_roots : PkgIn :=
  mkPI [mkRel "/a.model" type_3dmodel "r1"; mkRel "/b.model" type_3dmodel "r2"]
    [mkPF "/a.model" "" (Some "A") [mkRel "/c.model" type_3dmodel ""; mkRel "/t.png" "x" "t1"]; mkPF "/b.model" "" (Some "B") [];
     mkPF "/c.model" "" (Some "C") [mkRel "/t.png" "x" "t2"]; mkPF "/t.png" "image/png" (Some "T") []].
Theorem C85_two_refuted : exists p m' cs root, process_opc (fun _ n => n) p model_zero = Some (m', cs, root) /\
  Models (fun _ n => n) p "/" (pi_rels p) [mkPF "/a.model" "" (Some "A") [mkRel "/c.model" type_3dmodel ""; mkRel "/t.png" "x" "t1"]; root] /\
  pf_rels root = [] /\ mo_rels m' = [mkRel "/t.png" "x" "t1"] /\ map pf_name cs = ["/c.model"] /\
  map (fun kc => ch_rels (snd kc)) (mo_childs m') = [[mkRel "/t.png" "x" "t2"; mkRel "/t.png" "x" "t2"]].
Proof.
  exists two_roots. do 3 eexists. split; [vm_compute; reflexivity|]. split; [|repeat split; reflexivity]. exact (models_spec (fun _ n => n) two_roots "/" (pi_rels two_roots)).
Qed.
Print Assumptions C85_two_refuted.
Example C85_nonvacuous : NoDup (map pf_name (pi_files two_roots)) /\ (exists res, process_opc (fun _ n => n) two_roots model_zero = Some res) /\
  process_opc (fun _ n => n) (mkPI [mkRel "/t.png" "x" ""] (pi_files two_roots)) model_zero = None /\
  process_opc (fun _ n => n) (mkPI (pi_rels two_roots ++ [mkRel "/d.model" type_3dmodel ""]) (pi_files two_roots)) model_zero = None.
Proof. split; [repeat constructor; cbn; intuition discriminate|]. split; [eexists; vm_compute; reflexivity|]. split; vm_compute; reflexivity. Qed.
