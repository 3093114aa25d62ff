(** * Proofs about the streams of Decode *)
From Verif Require Import GoBase GoNum GoUtf8 GoFloat Types XmlTypes PkgTypes M_Core M_Errors M_Xml M_Decode M_Package M_Childs M_Decoder M_Reuse StreamTypes S_Streams M_Streams.
From Coq Require Import Lia.

Definition sid_dec (s t : sid) : {s = t} + {s <> t}.
Proof. decide equality; apply Nat.eq_dec. Defined.
Fixpoint on (s : sid) (l : slog) : list sop :=
  match l with [] => [] | (t, o) :: r => if sid_dec t s then o :: on s r else on s r end.
Lemma On_on s l r : On s l r <-> on s l = r.
Proof.
  split.
  - induction 1; cbn; [reflexivity| |]; (destruct sid_dec; [|]); try congruence.
  - intros <-. induction l as [|[t o] l IH]; cbn; [constructor|].
    destruct (sid_dec t s) as [->|D]; constructor; assumption.
Qed.
Lemma on_app s a b : on s (a ++ b) = on s a ++ on s b.
Proof. induction a as [|[t o] a IH]; cbn; [reflexivity|]. destruct sid_dec; cbn; rewrite IH; reflexivity. Qed.
Lemma on_same s o : on s (map (pair s) o) = o.
Proof. induction o as [|x o IH]; cbn; [reflexivity|]. destruct (sid_dec s s); [|congruence]. rewrite IH. reflexivity. Qed.
Lemma on_other s t o : t <> s -> on s (map (pair t) o) = [].
Proof. intros D. induction o as [|x o IH]; cbn; [reflexivity|]. destruct (sid_dec t s); [congruence|]. exact IH. Qed.
Lemma settled_all n : Settled (SOpen :: repeat SRead n ++ [SClose]).
Proof. right. exists n. reflexivity. Qed.
Lemma settled_nil : Settled [].
Proof. left. reflexivity. Qed.
Lemma held_read l n : Held l -> Held (l ++ repeat SRead n).
Proof. intros [k ->]. exists (k + n). rewrite repeat_app. reflexivity. Qed.
Lemma held_close l : Held l -> Settled (l ++ [SClose]).
Proof. intros [k ->]. right. exists k. reflexivity. Qed.

(** ** The copies *)
Lemma copies_on i fs l : copy_files i fs l ->
  (forall k, Settled (on (SAtt k) l)) /\ (forall k, k < i -> on (SAtt k) l = []) /\ (forall k, on (SChild k) l = []) /\ on SRoot l = [].
Proof.
  induction 1 as [i|i f fs o l C L [A [B [D E]]]].
  - repeat split; intros; try reflexivity. apply settled_nil.
  - split; [|split; [|split]].
    + intros k. rewrite on_app. destruct (Nat.eq_dec k i) as [->|N].
      * rewrite on_same, (B i), app_nil_r by lia. destruct C; [apply settled_nil|apply settled_all].
      * rewrite on_other by congruence. apply A.
    + intros k K. rewrite on_app, on_other by (intros X; injection X; lia). apply B. lia.
    + intros k. rewrite on_app, on_other by discriminate. apply D.
    + rewrite on_app, on_other by discriminate. exact E.
Qed.

(** ** The child models *)
Section Childs.
Context (reg : Reg) (strict : bool) (every : nat) (outer : bool).
Definition gor_ok (g : gor) (o : list sop) : Prop :=
  match g with
  | GReady => o = []
  | GRun _ _ _ | GPoll _ | GStuck => Held o
  | GStore _ | GCancel | GDone | GPanic => Settled o
  end.
Lemma gor_step_ok j sh g sh' g' o l : gor_step reg strict every j sh g = (sh', g') -> gor_ops j g g' o -> gor_ok g l -> gor_ok g' (l ++ o).
Proof.
  intros E O. revert E. destruct O; cbn [gor_step]; intros E G.
  - rewrite H in E. destruct x. injection E as <- <-. cbn in *. subst. exists 0. reflexivity.
  - rewrite H in E. injection E as <- <-. cbn in *. subst. apply settled_nil.
  - cbn in *. rewrite app_assoc. apply held_close, held_read. exact G.
  - pose proof (held_read _ n G) as X.
    destruct (raw_token _ _ _) as [evs d'|e d'|]; [|injection E as <- <-; exact X|injection E as <- <-; exact X].
    destruct (on_events _ _ _ _ _ _) as [m'|]; [|injection E as <- <-; congruence].
    cbv zeta in E.
    destruct (strict && _)%bool; [injection E as <- <-; exact X|].
    destruct (_ && _)%bool; injection E as <- <-; exact X.
  - injection E as <- <-. pose proof (held_close _ G) as X. destruct (sh_cancel sh); [|destruct e]; exact X.
  - injection E as <- <-. rewrite app_nil_r. exact G.
  - injection E as <- <-. rewrite app_nil_r. exact G.
Qed.
Definition childs_ok (l : slog) (xs : list (Job * gor)) : Prop :=
  (forall k j g, nth_error xs k = Some (j, g) -> gor_ok g (on (SChild k) l))
  /\ (forall k, nth_error xs k = None -> on (SChild k) l = [])
  /\ (forall k, on (SAtt k) l = []) /\ on SRoot l = [].
Lemma nth_split {A} (a : list A) x y b k : (k = List.length a /\ nth_error (a ++ x :: b) k = Some x /\ nth_error (a ++ y :: b) k = Some y)
  \/ (k <> List.length a /\ nth_error (a ++ x :: b) k = nth_error (a ++ y :: b) k).
Proof.
  destruct (lt_eq_lt_dec k (List.length a)) as [[L|E]|L].
  - right. split; [lia|]. rewrite !nth_error_app1 by lia. reflexivity.
  - left. subst. split; [reflexivity|]. rewrite !nth_error_app2, Nat.sub_diag by lia. split; reflexivity.
  - right. split; [lia|]. rewrite !nth_error_app2 by lia. destruct (k - List.length a) eqn:E; [lia|]. reflexivity.
Qed.
Lemma lstep_ok x k y l : lstep reg strict every outer x k y -> childs_ok l (snd x) -> childs_ok (l ++ k) (snd y).
Proof.
  destruct 1 as [sh a j g b sh' g' o V E O|sh xs V C]; cbn [snd]; intros [A [B [D R]]].
  - split; [|split; [|split]].
    + intros k j1 g1. rewrite on_app. destruct (nth_split a (j, g) (j, g') b k) as [[-> [X Y]]|[N X]].
      * rewrite Y. intros F. injection F as <- <-. rewrite on_same. exact (gor_step_ok _ _ _ _ _ _ _ E O (A _ _ _ X)).
      * rewrite <- X, on_other, app_nil_r by congruence. apply A.
    + intros k. rewrite on_app. destruct (nth_split a (j, g) (j, g') b k) as [[-> [X Y]]|[N X]].
      * rewrite Y. discriminate.
      * rewrite <- X, on_other, app_nil_r by congruence. apply B.
    + intros k. rewrite on_app, on_other, app_nil_r by discriminate. apply D.
    + rewrite on_app, on_other, app_nil_r by discriminate. exact R.
  - rewrite app_nil_r. repeat split; assumption.
Qed.
Lemma lsteps_ok n x l y : lsteps reg strict every outer n x l y -> childs_ok [] (snd x) -> childs_ok l (snd y).
Proof. induction 1; [auto|]. intros I. exact (lstep_ok _ _ _ _ H0 (IHlsteps I)). Qed.
Lemma init_ok jobs m : childs_ok [] (snd (c_init jobs m)).
Proof.
  repeat split; try reflexivity. intros k j g. cbn [c_init snd]. intros H. apply nth_error_In in H. apply in_map_iff in H.
  destruct H as [j' [H _]]. injection H as <- <-. reflexivity.
Qed.
Lemma childs_settled jobs m m' e l : childs_log reg strict every outer jobs m m' e l ->
  (forall k, Settled (on (SChild k) l)) /\ (forall k, on (SAtt k) l = []) /\ on SRoot l = [].
Proof.
  intros [n [x [L [D _]]]]. destruct (lsteps_ok _ _ _ _ L (init_ok _ _)) as [A [B [C R]]].
  split; [|split; assumption]. intros k. destruct (nth_error (snd x) k) as [[j g]|] eqn:E.
  - pose proof (A _ _ _ E) as X. pose proof (proj1 (Forall_forall _ _) D _ (nth_error_In _ _ E)) as Y. cbn in Y. subst. exact X.
  - rewrite (B _ E). apply settled_nil.
Qed.
(** The executions with a log are the executions. *)
Lemma lsteps_csteps n x l y : lsteps reg strict every outer n x l y -> csteps reg strict every outer n x y.
Proof.
  induction 1; [constructor|]. econstructor; [exact IHlsteps|]. destruct H0; [eapply CStep|eapply COuter]; eassumption.
Qed.
Lemma gor_ops_some j g g' : live g = true -> exists o, gor_ops j g g' o.
Proof.
  destruct g; intros L; try discriminate L.
  - destruct (jb_open j) eqn:E; [exists [SOpen]; exact (OpsOpen _ _ _ E)|exists []; exact (OpsFail _ _ E)].
  - assert (g' = GPanic \/ g' <> GPanic) as [->|N] by (destruct g'; (left; reflexivity) || (right; discriminate)).
    + exists (repeat SRead 0 ++ [SClose]). apply OpsPanic.
    + exists (repeat SRead 0). apply OpsRead, N.
  - exists [SClose]. constructor.
  - exists []. constructor.
  - exists []. constructor.
Qed.
Lemma csteps_lsteps n x y : csteps reg strict every outer n x y -> exists l, lsteps reg strict every outer n x l y.
Proof.
  induction 1 as [|n x y z S [l IH] T]; [exists []; constructor|].
  destruct T as [sh a j g b sh' g' V E|sh xs V C].
  - destruct (gor_ops_some j g g' V) as [o O]. eexists. econstructor; [exact IH|]. exact (LStep _ _ _ _ _ _ _ _ _ _ _ _ V E O).
  - eexists. econstructor; [exact IH|]. exact (LOuter _ _ _ _ _ _ V C).
Qed.
End Childs.
Lemma childs_log_some reg strict every outer jobs m m' e : childs_return reg strict every outer jobs m m' e <-> exists l, childs_log reg strict every outer jobs m m' e l.
Proof.
  split.
  - intros [n [x [C D]]]. destruct (csteps_lsteps _ _ _ _ _ _ _ C) as [l L]. exists l, n, x. split; assumption.
  - intros [l [n [x [L D]]]]. exists n, x. split; [exact (lsteps_csteps _ _ _ _ _ _ _ _ L)|exact D].
Qed.

(** ** Decode *)
Lemma root_settled j l : root_log j l -> (forall k, on (SAtt k) l = []) /\ (forall k, on (SChild k) l = []) /\ Settled (on SRoot l).
Proof.
  destruct 1 as [E|x n E]; [repeat split; left; reflexivity|].
  replace ((SRoot, SOpen) :: repeat (SRoot, SRead) n ++ [(SRoot, SClose)]) with (map (pair SRoot) (SOpen :: repeat SRead n ++ [SClose])).
  - split; [|split]; [intros k; apply on_other; discriminate..|]. rewrite on_same. apply settled_all.
  - cbn [map]. rewrite map_app. f_equal. f_equal. induction n as [|n IH]; cbn; [reflexivity|]. f_equal. exact IH.
Qed.
Lemma decode_settled reg strict every resolve job outer nr p m l :
  decode_log reg strict every resolve job outer nr p m l -> forall s, Settled (on s l).
Proof.
  destruct 1 as [l P C|m1 cs root m2 e l k P C K|m1 cs root m2 l k r P C K R]; destruct (copies_on _ _ _ C) as [A [_ [B D]]].
  - intros [i|i|]; [apply A|rewrite B; apply settled_nil|rewrite D; apply settled_nil].
  - destruct (childs_settled _ _ _ _ _ _ _ _ _ K) as [E [F G]].
    intros [i|i|]; rewrite on_app; [rewrite F, app_nil_r; apply A|rewrite B; apply E|rewrite D, G; apply settled_nil].
  - destruct (childs_settled _ _ _ _ _ _ _ _ _ K) as [E [F G]]. destruct (root_settled _ _ R) as [H [I J]].
    intros [i|i|]; rewrite !on_app; [rewrite F, H, !app_nil_r; apply A|rewrite B, I, app_nil_r; apply E|rewrite D, G; apply J].
Qed.
Lemma copy_files_some fs : forall i, exists l, copy_files i fs l.
Proof.
  induction fs as [|f fs IH]; intros i; [exists []; constructor|]. destruct (IH (S i)) as [l L].
  eexists. econstructor; [exact (CopyOpened f 0)|exact L].
Qed.
Lemma root_log_some j : exists l, root_log j l.
Proof. destruct (jb_open j) eqn:E; eexists; [exact (RootOpened j _ 0 E)|exact (RootNotOpened j E)]. Qed.
Lemma decode_log_some reg strict every resolve later nr p m r : decodes_again reg strict every resolve later nr p m r ->
  exists l, decode_log reg strict every resolve (job_of later) false nr p m l.
Proof.
  destruct (copy_files_some (opc_copies resolve p nr m) 0) as [l L].
  destruct 1 as [P|m1 cs root m2 e P C|m1 cs root m2 r P C R].
  - exists l. exact (LogPackage _ _ _ _ _ _ _ _ _ _ P L).
  - apply childs_log_some in C. destruct C as [k K]. exists (l ++ k). eapply LogChild; eassumption.
  - apply childs_log_some in C. destruct C as [k K]. destruct (root_log_some (job_of later root)) as [t T]. exists (l ++ k ++ t). eapply LogRoot; eassumption.
Qed.

(** ** Which child models are opened *)
Section Opened.
Context (reg : Reg) (strict : bool) (every : nat) (outer : bool).
Definition opened_ok (jg : Job * gor) (o : list sop) : Prop :=
  match snd jg with
  | GReady => True
  | GStore _ | GCancel | GDone => o = [] <-> jb_open (fst jg) = None
  | _ => jb_open (fst jg) <> None /\ o <> []
  end.
Lemma app_not_nil {A} (a b : list A) : a <> [] -> a ++ b <> [].
Proof. destruct a; [congruence|discriminate]. Qed.
Lemma gor_step_opened j sh g sh' g' o l : gor_step reg strict every j sh g = (sh', g') -> gor_ops j g g' o ->
  (g = GReady -> l = []) -> opened_ok (j, g) l -> opened_ok (j, g') (l ++ o).
Proof.
  intros E O. revert E. destruct O; cbn [gor_step opened_ok fst snd]; intros E Z G.
  - rewrite H in E. destruct x. injection E as <- <-. rewrite (Z eq_refl). cbn. split; congruence.
  - rewrite H in E. injection E as <- <-. rewrite (Z eq_refl). cbn. tauto.
  - cbn. split; [tauto|]. apply app_not_nil. tauto.
  - assert (X : jb_open j <> None /\ l ++ repeat SRead n <> []) by (split; [tauto|apply app_not_nil; tauto]).
    destruct (raw_token _ _ _) as [evs d'|e d'|]; [|injection E as <- <-; exact X|injection E as <- <-; exact X].
    destruct (on_events _ _ _ _ _ _) as [m'|]; [|injection E as <- <-; congruence].
    cbv zeta in E.
    destruct (strict && _)%bool; [injection E as <- <-; exact X|].
    destruct (_ && _)%bool; injection E as <- <-; exact X.
  - injection E as <- <-. assert (X : l ++ [SClose] = [] <-> jb_open j = None) by (split; [intros X; destruct l; discriminate X|intros X; tauto]).
    destruct (sh_cancel sh); [|destruct e]; exact X.
  - injection E as <- <-. rewrite app_nil_r. exact G.
  - injection E as <- <-. rewrite app_nil_r. exact G.
Qed.
Lemma lsteps_opened n jobs m l y : lsteps reg strict every outer n (c_init jobs m) l y ->
  map fst (snd y) = jobs /\ forall k jg, nth_error (snd y) k = Some jg -> opened_ok jg (on (SChild k) l).
Proof.
  intros L. remember (c_init jobs m) as x eqn:X. revert X. induction L as [x|n x l y k z L IH T]; intros ->.
  - split; [cbn; rewrite map_map; apply map_id|]. intros k jg H. apply nth_error_In, in_map_iff in H. destruct H as [j [<- _]]. exact I.
  - pose proof (lsteps_ok _ _ _ _ _ _ _ _ L (init_ok _ _)) as [A _]. destruct (IH eq_refl) as [M B]. clear IH L. revert M A B.
    destruct T as [sh a j g b sh' g' o V E O|sh xs V C]; cbn [snd]; intros M A B.
    + split; [rewrite <- M, !map_app; reflexivity|]. intros k jg. rewrite on_app. destruct (nth_split a (j, g) (j, g') b k) as [[-> [X Y]]|[N X]].
      * rewrite Y. intros F. injection F as <-. rewrite on_same. refine (gor_step_opened _ _ _ _ _ _ _ E O _ (B _ _ X)).
        intros ->. exact (A _ _ _ X).
      * rewrite <- X, on_other, app_nil_r by congruence. apply B.
    + rewrite app_nil_r. split; assumption.
Qed.
Lemma childs_opened jobs m m' e l : childs_log reg strict every outer jobs m m' e l ->
  forall k j, nth_error jobs k = Some j -> (on (SChild k) l = [] <-> jb_open j = None).
Proof.
  intros [n [x [L [D _]]]] k j H. destruct (lsteps_opened _ _ _ _ _ L) as [M B]. rewrite <- M in H. rewrite nth_error_map in H.
  destruct (nth_error (snd x) k) as [[j' g]|] eqn:E; [|discriminate]. injection H as ->. specialize (B _ _ E).
  pose proof (proj1 (Forall_forall _ _) D _ (nth_error_In _ _ E)) as Y. cbn in Y. subst. exact B.
Qed.
End Opened.
Lemma on_none s l : (forall o, ~ In (s, o) l) -> on s l = [].
Proof.
  induction l as [|[t o] l IH]; cbn; [reflexivity|]. intros H. destruct (sid_dec t s) as [->|D]; [destruct (H o); left; reflexivity|].
  apply IH. intros o' I. apply (H o'). right. exact I.
Qed.
Lemma on_in s o l : In (s, o) l -> In o (on s l).
Proof.
  induction l as [|[t x] l IH]; cbn; [tauto|]. intros [E|I]; [injection E as -> ->; destruct (sid_dec s s); [left; reflexivity|congruence]|].
  destruct (sid_dec t s); [right|]; apply IH, I.
Qed.

(** ** The attachments are what is copied *)
Section Attachments.
Context (resolve : string -> string -> string) (p : PkgIn).
Definition att_of (f : PFile) : list Attachment := match pf_data f with Some d => [mkAtt d (pf_name f) (pf_ctype f)] | None => [] end.
Lemma add_copied atts f : add_attachment atts f = atts ++ flat_map att_of (copied atts f).
Proof.
  unfold add_attachment, copied. destruct (existsb _ _); [symmetry; apply app_nil_r|]. cbn. rewrite app_nil_r. unfold att_of.
  destruct (pf_data f); [reflexivity|symmetry; apply app_nil_r].
Qed.
Lemma extract1_copied src root st r :
  mo_atts (fst (extract1 resolve p src root st r)) = mo_atts (fst st) ++ flat_map att_of (extract1_copies resolve p src root st r).
Proof.
  unfold extract1, extract1_copies. destruct st as [m nr]. cbn [fst]. destruct (find_from _ _ _ _) as [f|]; [|symmetry; apply app_nil_r].
  destruct root, (is_model_rel r); try (symmetry; apply app_nil_r); [apply add_copied|].
  destruct (aget _ _ _); [apply add_copied|symmetry; apply app_nil_r].
Qed.
Lemma rounds_copied {A} (body : Model * list PFile -> A -> Model * list PFile) copies l :
  (forall st x, mo_atts (fst (body st x)) = mo_atts (fst st) ++ flat_map att_of (copies st x)) ->
  forall st, mo_atts (fst (fold_left body l st)) = mo_atts (fst st) ++ flat_map att_of (rounds body copies st l).
Proof.
  intros H. induction l as [|x l IH]; intros st; cbn [fold_left rounds]; [symmetry; apply app_nil_r|].
  rewrite IH, H, flat_map_app, app_assoc. reflexivity.
Qed.
Lemma extract_copied src root st :
  mo_atts (fst (extract resolve p src root st)) = mo_atts (fst st) ++ flat_map att_of (extract_copies resolve p src root st).
Proof. apply rounds_copied. apply extract1_copied. Qed.
Lemma rel_copied st r st' : process_rel resolve p st r = Some st' ->
  mo_atts (fst (fst st')) = mo_atts (fst (fst st)) ++ flat_map att_of (rel_copies resolve p st r).
Proof.
  destruct st as [[m nr] root]. unfold process_rel, rel_copies. destruct (find_from _ _ _ _) as [f|].
  - destruct (is_model_rel r); cbv zeta; intros E; injection E as <-; cbn [fst].
    + rewrite (rounds_copied _ (fun st c => extract_copies resolve p c false st)) by (intros; apply extract_copied).
      rewrite extract_copied, flat_map_app, app_assoc. reflexivity.
    + apply add_copied.
  - destruct (is_model_rel r); intros E; [discriminate|]. injection E as <-. symmetry. apply app_nil_r.
Qed.
Lemma rels_copied l : forall st st', process_rels resolve p l st = Some st' ->
  mo_atts (fst (fst st')) = mo_atts (fst (fst st)) ++ flat_map att_of (rels_copies resolve p l st).
Proof.
  induction l as [|r l IH]; intros st st'; cbn [process_rels rels_copies]; [intros E; injection E as <-; symmetry; apply app_nil_r|].
  destruct (process_rel resolve p st r) as [st1|] eqn:E; [|discriminate]. intros H. rewrite (IH _ _ H), (rel_copied _ _ _ E), flat_map_app, app_assoc. reflexivity.
Qed.
Lemma opc_copied nr m m1 cs root : process_opc_again resolve nr p m = Some (m1, cs, root) ->
  mo_atts m1 = mo_atts m ++ flat_map att_of (opc_copies resolve p nr m).
Proof.
  unfold process_opc_again, opc_copies. destruct (process_rels _ _ _ _) as [[st [f|]]|] eqn:E; try discriminate. intros H. injection H as <- _ _.
  exact (rels_copied _ _ _ E).
Qed.
Lemma copy_each i fs l : copy_files i fs l -> forall k f, nth_error fs k = Some f -> on (SAtt (i + k)) l = [] -> pf_data f = None.
Proof.
  induction 1 as [i|i f fs o l C L IH]; intros k g; [destruct k; discriminate|]. rewrite on_app. destruct k as [|k].
  - intros E. injection E as ->. rewrite Nat.add_0_r, on_same. destruct C; [auto|discriminate].
  - cbn [nth_error]. rewrite on_other by (intros X; injection X; lia). cbn [app]. intros E Q. apply (IH k g E). rewrite <- Q. f_equal. f_equal. lia.
Qed.
End Attachments.
