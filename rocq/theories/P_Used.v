(** * Proofs: decoding a package into a used model *)
From Coq Require Import ZArith Lia.
From Verif Require Import GoBase GoNum GoUtf8 GoFloat GoStrconv Types XmlTypes PkgTypes M_Core M_Errors M_Text M_Xml M_Decode M_Package M_Childs M_Decoder M_Reuse S_Xml S_Decode S_Used P_Xml P_Decode P_Panic P_State P_Frame P_ErrText P_Onto.

(** ** The goroutines of the child models *)
Section Childs.
  Context (reg : Reg) (strict : bool) (every : nat) (M : Model).
  Definition gmrel (m m' : Mach) : Prop := forall X, mrel M (plug X m) (plug (onto M X) m').
  Definition cerel (a b : cerr) : Prop := match a, b with COpenErr, COpenErr => True | CDec e, CDec e' => derel e e' | _, _ => False end.
  Definition oerel (a b : option cerr) : Prop := match a, b with Some a, Some b => cerel a b | None, None => True | _, _ => False end.
  Definition grel (g g' : gor) : Prop :=
    match g, g' with
    | GReady, GReady | GCancel, GCancel | GDone, GDone | GPanic, GPanic | GStuck, GStuck => True
    | GRun i d m, GRun i' d' m' => i' = i /\ d' = d /\ gmrel m m'
    | GPoll e, GPoll e' => derel e e'
    | GStore e, GStore e' => cerel e e'
    | _, _ => False
    end.
  Definition shrel (a b : Shared) : Prop := sh_model b = onto M (sh_model a) /\ oerel (sh_errs a) (sh_errs b) /\ sh_cancel b = sh_cancel a.
  Definition ginv (X : Model) (jg : Job * gor) : Prop := match snd jg with GRun _ _ m => minv (jb_path (fst jg)) (plug X m) | _ => True end.
  Definition growm (X Y : Model) : Prop := forall s, grow (with_model X s) (with_model Y s).
  Lemma growm_refl X : growm X X. Proof. intros s. apply grow_refl. reflexivity. Qed.
  Lemma ginv_grow X Y jg : growm X Y -> ginv X jg -> ginv Y jg.
  Proof.
    intros G. unfold ginv. destruct (snd jg) as [|i d m| | | | | |]; try exact (fun x => x). intros (I & H & F).
    specialize (G (m_st m)). split; [|split].
    - pose proof G as (A & B & C & _). destruct I as (X1 & X2 & X3). specialize (A (jb_path (fst jg))). specialize (B (jb_path (fst jg))).
      repeat split; intros Q; [specialize (X1 Q)|specialize (X2 Q)|specialize (X3 Q)]; cbn [plug m_st] in *; lia.
    - exact (has_grow _ _ _ _ G H).
    - exact (has_all _ _ _ _ G F).
  Qed.
  Lemma grow_growm s s' : grow s s' -> growm (s_model s) (s_model s').
  Proof. intros G t. exact G. Qed.
  Lemma plug_same m : plug (s_model (m_st m)) m = m.
  Proof. destruct m as [s k n st e]. unfold plug. cbn. destruct s. reflexivity. Qed.
  Lemma gstep_inv j sh g sh' g' : ginv (sh_model sh) (j, g) -> gor_step reg strict every j sh g = (sh', g') ->
    ginv (sh_model sh') (j, g') /\ growm (sh_model sh) (sh_model sh').
  Proof.
    intros V. destruct g as [|i d m|e|e| | | |]; cbn [gor_step].
    - destruct (jb_open j) as [[input fin]|]; intros [= <- <-]; (split; [|apply growm_refl]); [|exact I]. unfold ginv. cbn [snd fst]. apply init_minv.
    - destruct (raw_token _ true d) as [evs d1|e d1|]; [|intros [= <- <-]; split; [exact I|apply growm_refl]..].
      destruct (on_events reg false (jb_path j) (jb_later j) evs (plug (sh_model sh) m)) as [m1|] eqn:E; [|intros [= <- <-]; split; [exact I|apply growm_refl]].
      destruct (events_inv _ _ _ _ _ _ _ V E) as [V1 G1]. cbv zeta. cbn [sh_cancel sh_errs].
      assert (GM : growm (sh_model sh) (s_model (m_st m1))) by exact (grow_growm _ _ G1).
      destruct (strict && _); [|destruct (_ && _)]; intros [= <- <-]; (split; [|exact GM]); try exact I.
      unfold ginv. cbn [snd fst sh_model]. rewrite plug_same. exact V1.
    - intros [= <- <-]. split; [|apply growm_refl]. unfold ginv. cbn [snd]. destruct (if sh_cancel sh then DCtx else e); exact I.
    - intros [= <- <-]. split; [exact I|apply growm_refl].
    - intros [= <- <-]. split; [exact I|apply growm_refl].
    - intros [= <- <-]. split; [exact I|apply growm_refl].
    - intros [= <- <-]. split; [exact I|apply growm_refl].
    - intros [= <- <-]. split; [exact I|apply growm_refl].
  Qed.
  Lemma mrel_gmrel m m' : mrel M m m' -> gmrel m m'.
  Proof. intros (A & B & C & D & E) X. repeat split; cbn; try assumption. rewrite A. reflexivity. Qed.
  Lemma live_rel g g' : grel g g' -> live g' = live g.
  Proof. destruct g, g'; cbn; intros H; try contradiction; reflexivity. Qed.
  Lemma gstep_rel j sh sh' g g' : ginv (sh_model sh) (j, g) -> shrel sh sh' -> grel g g' ->
    shrel (fst (gor_step reg strict every j sh g)) (fst (gor_step reg strict every j sh' g')) /\ grel (snd (gor_step reg strict every j sh g)) (snd (gor_step reg strict every j sh' g')).
  Proof.
    intros V S R. pose proof S as (SM & SE & SC). destruct g as [|i d m|e|e| | | |], g' as [|i' d' m'|e'|e'| | | |]; cbn [grel] in R; try contradiction; cbn [gor_step].
    - destruct (jb_open j) as [[input fin]|]; cbn [fst snd grel cerel]; (split; [exact S|]); [|exact I]. repeat split.
    - destruct R as (-> & -> & R).
      assert (EQ : erel (m_errs m) (m_errs m')) by exact (proj2 (proj2 (proj2 (proj2 (R (sh_model sh)))))).
      destruct (raw_token _ true d) as [evs d1|e d1|]; cbn [fst snd grel]; [|split; [exact S|apply finish_rel, EQ]|split; [exact S|exact I]].
      rewrite SM. pose proof (events_rel reg false (jb_path j) (jb_later j) M evs _ _ V (R (sh_model sh))) as E.
      destruct (on_events reg false (jb_path j) (jb_later j) evs (plug (sh_model sh) m)) as [m1|], (on_events reg false (jb_path j) (jb_later j) evs (plug (onto M (sh_model sh)) m')) as [m1'|];
        cbn [orel] in E; try contradiction; [|split; [exact S|exact I]].
      cbv zeta. cbn [sh_cancel sh_errs].
      assert (L : List.length (m_errs m1') = List.length (m_errs m1)) by (destruct E as (_ & _ & _ & _ & E); rewrite <- (map_length unindexed (m_errs m1')), E, map_length; reflexivity).
      rewrite L, SC. pose proof E as (EM & _ & _ & _ & EE).
      assert (SH : shrel (mkSh (s_model (m_st m1)) (sh_errs sh) (sh_cancel sh)) (mkSh (s_model (m_st m1')) (sh_errs sh') (sh_cancel sh))).
      { split; [cbn; rewrite EM; reflexivity|split; [exact SE|reflexivity]]. }
      destruct (strict && _); [|destruct (_ && _)]; cbn [fst snd grel]; (split; [exact SH|]); try (apply finish_rel, EE).
      split; [reflexivity|]. split; [reflexivity|]. apply mrel_gmrel, E.
    - cbn [fst snd]. split; [exact S|]. rewrite SC. destruct (sh_cancel sh); [exact I|]. destruct e, e'; cbn [derel] in R; try contradiction; cbn [grel cerel derel]; try exact I; exact R.
    - cbn [fst snd grel]. split; [|exact I]. split; [exact SM|split; [exact R|exact SC]].
    - cbn [fst snd grel]. split; [|exact I]. split; [exact SM|split; [exact SE|reflexivity]].
    - split; [exact S|exact I].
    - split; [exact S|exact I].
    - split; [exact S|exact I].
  Qed.
  Definition lrel (a b : list (Job * gor)) : Prop := Forall2 (fun x y => fst y = fst x /\ grel (snd x) (snd y)) a b.
  Definition xrel (x y : Shared * list (Job * gor)) : Prop := shrel (fst x) (fst y) /\ lrel (snd x) (snd y).
  Definition xinv (x : Shared * list (Job * gor)) : Prop := Forall (ginv (sh_model (fst x))) (snd x).
  Lemma cstep_inv outer x y : cstep reg strict every outer x y -> xinv x -> xinv y.
  Proof.
    intros S. destruct S as [sh a j g b sh' g' L E|sh l _ _]; [|exact (fun v => v)]. unfold xinv. cbn [fst snd]. intros V. apply Forall_app in V. destruct V as [VA VB].
    destruct (gstep_inv _ _ _ _ _ (Forall_inv VB) E) as [V1 G]. apply Forall_app. split; [|constructor; [exact V1|]].
    - eapply Forall_impl; [|exact VA]. intros x. apply ginv_grow, G.
    - eapply Forall_impl; [|exact (Forall_inv_tail VB)]. intros x. apply ginv_grow, G.
  Qed.
  Lemma csteps_inv outer n x y : csteps reg strict every outer n x y -> xinv x -> xinv y.
  Proof. intros S. induction S as [|n x y z S IH T]; intros V; [exact V|]. exact (cstep_inv _ _ _ T (IH V)). Qed.
  Lemma cstep_fwd outer x y x' : cstep reg strict every outer x y -> xinv x -> xrel x x' -> exists y', cstep reg strict every outer x' y' /\ xrel y y'.
  Proof.
    intros S. destruct S as [sh a j g b sh1 g1 L E|sh l O C]; unfold xinv; cbn [fst snd]; intros V [R1 R2]; cbn [fst snd] in R1, R2; destruct x' as [sh' l']; cbn [fst snd] in R1, R2.
    - apply Forall2_app_inv_l in R2. destruct R2 as (a' & b' & RA & RB & ->). inversion RB as [|? [j' g'] ? b2 [J G] RB2]; subst. cbn [fst snd] in J, G. subst j'.
      apply Forall_app in V. destruct V as [_ V]. pose proof (gstep_rel j sh sh' g g' (Forall_inv V) R1 G) as [P Q]. rewrite E in P, Q. cbn [fst snd] in P, Q.
      destruct (gor_step reg strict every j sh' g') as [sh2 g2] eqn:E2. exists (sh2, a' ++ (j, g2) :: b2). split.
      + eapply CStep; [|exact E2]; rewrite (live_rel _ _ G); exact L.
      + split; [exact P|]. cbn [snd]. apply Forall2_app; [exact RA|]. constructor; [split; [reflexivity|exact Q]|exact RB2].
    - destruct R1 as (A & B & D). exists (mkSh (sh_model sh') (sh_errs sh') true, l'). split; [apply COuter; [exact O|rewrite D; exact C]|]. split; [split; [exact A|split; [exact B|reflexivity]]|exact R2].
  Qed.
  Lemma cstep_bwd outer x x' y' : cstep reg strict every outer x' y' -> xinv x -> xrel x x' -> exists y, cstep reg strict every outer x y /\ xrel y y'.
  Proof.
    intros S. destruct S as [sh' a' j g' b' sh1 g1 L E|sh' l' O C]; unfold xinv; intros V [R1 R2]; cbn [fst snd] in R1, R2; destruct x as [sh l]; cbn [fst snd] in R1, R2, V.
    - apply Forall2_app_inv_r in R2. destruct R2 as (a & b & RA & RB & ->). inversion RB as [|[j' g] ? b2 ? [J G] RB2]; subst. cbn [fst snd] in J, G. subst j'.
      apply Forall_app in V. destruct V as [_ V]. pose proof (gstep_rel j sh sh' g g' (Forall_inv V) R1 G) as [P Q]. rewrite E in P, Q. cbn [fst snd] in P, Q.
      destruct (gor_step reg strict every j sh g) as [sh2 g2] eqn:E2. exists (sh2, a ++ (j, g2) :: b2). split.
      + eapply CStep; [|exact E2]; rewrite <- (live_rel _ _ G); exact L.
      + split; [exact P|]. cbn [snd]. apply Forall2_app; [exact RA|]. constructor; [split; [reflexivity|exact Q]|exact RB2].
    - destruct R1 as (A & B & D). exists (mkSh (sh_model sh) (sh_errs sh) true, l). split; [apply COuter; [exact O|rewrite <- D; exact C]|]. split; [split; [exact A|split; [exact B|reflexivity]]|exact R2].
  Qed.
  Lemma csteps_fwd outer n x y x' : csteps reg strict every outer n x y -> xinv x -> xrel x x' -> exists y', csteps reg strict every outer n x' y' /\ xrel y y'.
  Proof.
    intros S. revert x'. induction S as [|n x y z S IH T]; intros x' V R; [exists x'; split; [constructor|exact R]|].
    destruct (IH x' V R) as (y' & S' & R'). destruct (cstep_fwd _ _ _ _ T (csteps_inv _ _ _ _ S V) R') as (z' & T' & R2). exists z'. split; [econstructor; eassumption|exact R2].
  Qed.
  Lemma csteps_bwd outer n x x' y' : csteps reg strict every outer n x' y' -> xinv x -> xrel x x' -> exists y, csteps reg strict every outer n x y /\ xrel y y'.
  Proof.
    intros S. revert x. induction S as [x0|n x' y' z' S IH T]; intros x V R; [exists x; split; [constructor|exact R]|].
    destruct (IH x V R) as (y & S' & R'). destruct (cstep_bwd _ _ _ _ T (csteps_inv _ _ _ _ S' V) R') as (z & T' & R2). exists z. split; [econstructor; eassumption|exact R2].
  Qed.
  Lemma init_xinv jobs m : xinv (c_init jobs m).
  Proof. unfold xinv, c_init. cbn [fst snd]. apply Forall_map. apply Forall_forall. intros j _. exact I. Qed.
  Lemma init_xrel jobs m : xrel (c_init jobs m) (c_init jobs (onto M m)).
  Proof. split; [repeat split|]. cbn [c_init snd]. induction jobs as [|j l IH]; constructor; [split; [reflexivity|exact I]|exact IH]. Qed.
  Lemma done_rel x y : xrel x y -> (c_done x <-> c_done y).
  Proof.
    intros [_ R]. unfold c_done. induction R as [|a b l l' [_ G] R IH]; [split; constructor|]. split; intros H.
    - constructor; [|apply IH, (Forall_inv_tail H)]. pose proof (Forall_inv H) as X. cbv beta in X. rewrite X in G. destruct (snd b); try contradiction. reflexivity.
    - constructor; [|apply IH, (Forall_inv_tail H)]. pose proof (Forall_inv H) as X. cbv beta in X. rewrite X in G. destruct (snd a); try contradiction. reflexivity.
  Qed.
  Lemma childs_fwd outer jobs m m1 e : childs_return reg strict every outer jobs m m1 e ->
    exists e', oerel e e' /\ childs_return reg strict every outer jobs (onto M m) (onto M m1) e'.
  Proof.
    intros (n & x & S & D & A & B). destruct (csteps_fwd _ _ _ _ _ S (init_xinv jobs m) (init_xrel jobs m)) as (y & S' & R).
    exists (sh_errs (fst y)). destruct (proj1 R) as (R1 & R2 & _). rewrite B in R2. split; [exact R2|]. exists n, y. split; [exact S'|]. split; [apply (done_rel _ _ R), D|]. split; [rewrite R1, A; reflexivity|reflexivity].
  Qed.
  Lemma childs_bwd outer jobs m m1' e' : childs_return reg strict every outer jobs (onto M m) m1' e' ->
    exists m1 e, m1' = onto M m1 /\ oerel e e' /\ childs_return reg strict every outer jobs m m1 e.
  Proof.
    intros (n & y & S & D & A & B). destruct (csteps_bwd _ _ _ _ _ S (init_xinv jobs m) (init_xrel jobs m)) as (x & S' & R).
    exists (sh_model (fst x)), (sh_errs (fst x)). destruct (proj1 R) as (R1 & R2 & _). rewrite B in R2. split; [rewrite <- A; exact R1|]. split; [exact R2|]. exists n, x. split; [exact S'|]. split; [apply (done_rel _ _ R), D|]. split; reflexivity.
  Qed.
End Childs.

(** ** The package *)
Section Package.
  Context (reg : Reg) (strict : bool) (every : nat) (resolve : string -> string -> string) (later : string -> Ref -> string) (p : PkgIn) (M : Model).
  Notation up := (fun st : Model * list PFile => (onto M (fst st), snd st)).
  Lemma extract1_up src root st r : extract1 resolve p src root (up st) r = up (extract1 resolve p src root st r).
  Proof.
    destruct st as [m nr]. cbn [extract1 fst snd]. destruct (find_from resolve p (pf_name src) (rel_path r)) as [f|]; [|reflexivity].
    destruct root; [destruct (is_model_rel r); reflexivity|]. destruct (is_model_rel r); [reflexivity|]. cbn [onto mo_childs].
    destruct (aget seq (pf_name src) (mo_childs m)) as [c|]; reflexivity.
  Qed.
  Lemma extract_up src root st : extract resolve p src root (up st) = up (extract resolve p src root st).
  Proof.
    unfold extract. revert st. induction (pf_rels src) as [|r l IH]; intros st; cbn [fold_left]; [reflexivity|]. rewrite extract1_up. apply IH.
  Qed.
  Lemma extracts_up l : forall st, fold_left (fun st c => extract resolve p c false st) l (up st) = up (fold_left (fun st c => extract resolve p c false st) l st).
  Proof. induction l as [|c l IH]; intros st; cbn [fold_left]; [reflexivity|]. rewrite extract_up. apply IH. Qed.
  Lemma process_rel_up st root r : process_rel resolve p (up st, root) r = option_map (fun x => (up (fst x), snd x)) (process_rel resolve p (st, root) r).
  Proof.
    destruct st as [m nr]. cbn [process_rel fst snd]. destruct (find_from resolve p "/" (rel_path r)) as [f|]; [|destruct (is_model_rel r); reflexivity].
    destruct (is_model_rel r); [|reflexivity]. cbv zeta. cbn [option_map fst snd].
    pose proof (extract_up f true (mo_set_pkg (pf_name f) (mo_atts m) (mo_childs m) (mo_rootrels m) (mo_rels m) m, nr)) as X. cbn [fst snd] in X |- *.
    change (mo_set_pkg (pf_name f) (mo_atts (onto M m)) (mo_childs (onto M m)) (mo_rootrels (onto M m)) (mo_rels (onto M m)) (onto M m))
      with (onto M (mo_set_pkg (pf_name f) (mo_atts m) (mo_childs m) (mo_rootrels m) (mo_rels m) m)). rewrite X. cbn [snd].
    f_equal. f_equal. apply extracts_up.
  Qed.
  Lemma process_rels_up l : forall st root, process_rels resolve p l (up st, root) = option_map (fun x => (up (fst x), snd x)) (process_rels resolve p l (st, root)).
  Proof.
    induction l as [|r l IH]; intros st root; cbn [process_rels]; [reflexivity|]. rewrite process_rel_up.
    destruct (process_rel resolve p (st, root) r) as [[st1 root1]|]; cbn [option_map]; [|reflexivity]. cbn [fst snd]. apply (IH st1 root1).
  Qed.
  Lemma process_opc_up nr m : process_opc_again resolve nr p (onto M m) = option_map (fun x => (onto M (fst (fst x)), snd (fst x), snd x)) (process_opc_again resolve nr p m).
  Proof.
    unfold process_opc_again. pose proof (process_rels_up (pi_rels p) (m, nr) None) as X. cbn [fst snd] in X. rewrite X.
    destruct (process_rels resolve p (pi_rels p) (m, nr, None)) as [[st [f|]]|]; reflexivity.
  Qed.
  Definition perel (a b : perr) : Prop :=
    match a, b with PPackage, PPackage | PRootOpen, PRootOpen => True | PChild e, PChild e' => cerel e e' | PRoot e, PRoot e' => derel e e' | _, _ => False end.
  Definition prel (a b : pres) : Prop := match a, b with PModel m, PModel m' => m' = onto M m | PErr e, PErr e' => perel e e' | _, _ => False end.
  Lemma root_up f m : match root_model reg strict every f m, root_model reg strict every f (onto M m) with Some a, Some b => prel a b | None, None => True | _, _ => False end.
  Proof.
    unfold root_model. destruct (pf_data f) as [data|]; [|exact I].
    pose proof (file_onto reg true strict (pf_name f) every (fun _ => false) XEOF data M m) as R.
    destruct (decode_file reg true strict (pf_name f) every (fun _ => false) XEOF data m) as [a e n d| |], (decode_file reg true strict (pf_name f) every (fun _ => false) XEOF data (onto M m)) as [a' e' n' d'| |];
      cbn [drel] in R; try contradiction; try exact I. destruct R as (-> & R & _). destruct e, e'; cbn [derel] in R; try contradiction; cbn [prel perel derel]; try reflexivity; try exact R.
  Qed.
  Lemma decodes_fwd nr m r : decodes_again reg strict every resolve later nr p m r -> exists r', prel r r' /\ decodes_again reg strict every resolve later nr p (onto M m) r'.
  Proof.
    intros D. destruct D as [D|m1 cs root m2 e D C|m1 cs root m2 r D C R].
    - exists (PErr PPackage). split; [exact I|]. apply AgainPackage. rewrite process_opc_up, D. reflexivity.
    - destruct (childs_fwd _ _ _ M _ _ _ _ _ C) as ([e'|] & E & C'); [|contradiction]. exists (PErr (PChild e')). split; [exact E|].
      eapply AgainChild; [rewrite process_opc_up, D; reflexivity|exact C'].
    - destruct (childs_fwd _ _ _ M _ _ _ _ _ C) as ([e'|] & E & C'); [contradiction|]. pose proof (root_up root m2) as U. rewrite R in U.
      destruct (root_model reg strict every root (onto M m2)) as [r'|] eqn:R'; [|contradiction]. exists r'. split; [exact U|].
      eapply AgainRoot; [rewrite process_opc_up, D; reflexivity|exact C'|exact R'].
  Qed.
  Lemma decodes_bwd nr m r' : decodes_again reg strict every resolve later nr p (onto M m) r' -> exists r, prel r r' /\ decodes_again reg strict every resolve later nr p m r.
  Proof.
    intros D. destruct D as [D|m1 cs root m2 e D C|m1 cs root m2 r D C R]; rewrite process_opc_up in D; destruct (process_opc_again resolve nr p m) as [[[m0 cs0] root0]|] eqn:D0; try discriminate D.
    - exists (PErr PPackage). split; [exact I|]. apply AgainPackage. exact D0.
    - injection D as <- <- <-. cbn [fst snd] in C. destruct (childs_bwd _ _ _ M _ _ _ _ _ C) as (m3 & [e'|] & -> & E & C'); [|contradiction]. exists (PErr (PChild e')). split; [exact E|].
      eapply AgainChild; [exact D0|exact C'].
    - injection D as <- <- <-. cbn [fst snd] in C, R. destruct (childs_bwd _ _ _ M _ _ _ _ _ C) as (m3 & [e'|] & -> & E & C'); [contradiction|]. pose proof (root_up root0 m3) as U. rewrite R in U.
      destruct (root_model reg strict every root0 m3) as [r'|] eqn:R'; [|contradiction]. exists r'. split; [exact U|].
      eapply AgainRoot; [exact D0|exact C'|exact R'].
  Qed.
End Package.
