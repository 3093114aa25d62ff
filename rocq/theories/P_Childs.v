(** * Proofs: decoding the children concurrently *)
From Coq Require Import ZArith.
From Verif Require Import GoBase GoNum GoUtf8 GoFloat Types XmlTypes M_Core M_Errors M_Xml M_Decode M_Childs S_Childs P_Xml P_Xml2 P_Decode P_Panic P_State P_Frame.

Lemma seq_neq a b : a <> b -> seq a b = false.
Proof. intros N. destruct (seq_spec a b); [congruence|reflexivity]. Qed.
(** ** Models that differ in the resources of the children only *)
Definition apply_res (rho : string -> Resources) (m : Model) : Model :=
  mo_set_childs (map (fun kc => (fst kc, mkChild (rho (fst kc)) (ch_rels (snd kc)) (ch_any (snd kc)))) (mo_childs m)) m.
Definition upd (rho : string -> Resources) (p : string) (r : Resources) (k : string) : Resources := if seq k p then r else rho k.
Definition rho0 (m : Model) (k : string) : Resources := match find_child m k with Some c => ch_res c | None => res_zero end.
Lemma apply_ext a b m : (forall k, a k = b k) -> apply_res a m = apply_res b m.
Proof. intros H. unfold apply_res. f_equal. apply map_ext. intros [k c]. cbn. rewrite H. reflexivity. Qed.
Lemma apply_rho0 m : NoDup (map fst (mo_childs m)) -> apply_res (rho0 m) m = m.
Proof.
  intros H. unfold apply_res, rho0, find_child. destruct m. cbn in *. unfold mo_set_childs. cbn. f_equal.
  assert (G : forall l, incl l mo_childs -> map (fun kc => (fst kc, mkChild (match aget seq (fst kc) mo_childs with Some c => ch_res c | None => res_zero end) (ch_rels (snd kc)) (ch_any (snd kc)))) l = l).
  { induction l as [|[k c] l IH]; intros I; [reflexivity|]. cbn [map fst snd]. rewrite IH by (intros x Hx; apply I; right; exact Hx).
    assert (E : aget seq k mo_childs = Some c).
    { assert (Hin : In (k, c) mo_childs) by (apply I; left; reflexivity). clear -H Hin. induction mo_childs as [|[q x] l IH]; [destruct Hin|].
      cbn [aget map fst] in *. inversion H as [|? ? N1 N2]; subst. destruct (seq_spec k q) as [->|N].
      - destruct Hin as [[= <-]|Hin]; [reflexivity|]. destruct N1. apply (in_map fst) in Hin. exact Hin.
      - destruct Hin as [[= <- <-]|Hin]; [congruence|]. apply IH; assumption. }
    rewrite E. destruct c. reflexivity. }
  apply G. intros x Hx. exact Hx.
Qed.
Lemma child_inroot m p : IsChild m p -> seq p "" || seq p (mo_path m) || (seq (mo_path m) "" && seq p DefaultModelPath) = false.
Proof.
  intros (_ & A & B & C). apply seq_neq in A, B. rewrite A, B. cbn [orb]. destruct (seq_spec (mo_path m) "") as [E|E]; [|reflexivity].
  cbn [andb]. apply seq_neq. apply C, E.
Qed.
Lemma find_apply rho m p : In p (map fst (mo_childs m)) -> exists c, find_child (apply_res rho m) p = Some c /\ ch_res c = rho p.
Proof.
  unfold find_child, apply_res. destruct m. cbn. intros H. induction mo_childs as [|[k c] l IH]; [destruct H|]. cbn [map aget fst snd] in *.
  destruct (seq_spec p k) as [->|N]; [eexists; split; reflexivity|]. apply IH. destruct H as [<-|H]; [congruence|exact H].
Qed.
Lemma path_apply rho m : mo_path (apply_res rho m) = mo_path m. Proof. reflexivity. Qed.
Lemma res_apply rho m p : IsChild m p -> find_resources (apply_res rho m) p = Some (rho p).
Proof.
  intros H. unfold find_resources. rewrite path_apply, (child_inroot m p H). destruct H as [H _]. destruct (find_apply rho m p H) as (c & -> & ->). reflexivity.
Qed.
Lemma set_apply rho m p r s : IsChild m p -> res_set p r (with_model (apply_res rho m) s) = with_model (apply_res (upd rho p r) m) s.
Proof.
  intros H. unfold res_set. cbn [s_model with_model]. rewrite path_apply, (child_inroot m p H). destruct H as [H _].
  destruct (find_apply rho m p H) as (c & -> & _). unfold with_model. cbn. f_equal. unfold apply_res, mo_set_childs. cbn. f_equal.
  rewrite map_map. apply map_ext. intros [k x]. cbn. unfold upd. destruct (seq k p); reflexivity.
Qed.
Lemma emb_apply rho m p s : IsChild m p -> rho p = getr p s -> emb p (apply_res rho m) s = with_model (apply_res rho m) s.
Proof.
  intros H E. unfold emb. rewrite set_apply by exact H. f_equal. apply apply_ext. intros k. unfold upd. destruct (seq_spec k p) as [->|N]; [auto|reflexivity].
Qed.
Lemma emb_apply_model rho m p s : IsChild m p -> s_model (emb p (apply_res rho m) s) = apply_res (upd rho p (getr p s)) m.
Proof. intros H. unfold emb. rewrite set_apply by exact H. reflexivity. Qed.
Lemma plug_memb m m1 p x : plug m (memb p m1 x) = plug m x.
Proof. unfold plug, memb. cbn. f_equal. unfold emb. rewrite regs_res_set. reflexivity. Qed.
Lemma keep_loop reg strict path every cd fin later f : forall i d m m' e n d',
  decode_loop reg false strict path every cd fin later f i d m = DRet m' e n d' -> List.length (mo_any (s_model (m_st m))) <= List.length (mo_any m').
Proof.
  induction f as [|f IH]; intros i d m m' e n d'; cbn [decode_loop]; [discriminate|].
  destruct (raw_token fin true d) as [evs d1|e1 d1|]; [|intros [= <- _ _ _]; auto|discriminate].
  destruct (on_events reg false path later evs m) as [m1|] eqn:E; [|discriminate]. apply keep_events in E as [_ E].
  destruct (strict && _); [intros [= <- _ _ _]; exact E|]. destruct (_ && cd i); [intros [= <- _ _ _]; exact E|]. intros H. apply IH in H. lia.
Qed.

Section Childs.
  Context (reg : Reg) (strict : bool) (every : nat) (outer : bool) (m0 : Model) (jobs : list Job).
  Context (Keys : NoDup (map fst (mo_childs m0))) (Paths : NoDup (map jb_path jobs)).
  Context (Kids : forall j, In j jobs -> IsChild m0 (jb_path j)).
  (** What the child decodes to alone, in the model [m0], without cancellation *)
  Definition alone (j : Job) (e : derr) (r : Resources) : Prop := exists input fin m' n d,
    jb_open j = Some (input, fin) /\ decode_with reg false strict (jb_path j) every (fun _ => false) fin (jb_later j) input m0 = DRet m' e n d /\
    mo_any m' = mo_any m0 /\ find_resources m' (jb_path j) = Some r.
  Context (Alone : forall j, In j jobs -> jb_open j = None \/ exists e r, alone j e r).
  Lemma alone_unique j e r e' r' : alone j e r -> alone j e' r' -> e = e' /\ r = r'.
  Proof.
    intros (i1 & f1 & m1 & n1 & d1 & A1 & A2 & _ & A3) (i2 & f2 & m2 & n2 & d2 & B1 & B2 & _ & B3).
    rewrite A1 in B1. injection B1 as <- <-. rewrite A2 in B2. injection B2 as <- <- _ _. rewrite A3 in B3. injection B3 as <-. auto.
  Qed.
  Definition fails (j : Job) : Prop := jb_open j = None \/ exists e r, alone j e r /\ e <> DNone.
  Definition own_error (j : Job) (e : cerr) : Prop := (e = COpenErr /\ jb_open j = None) \/ exists de r, e = CDec de /\ de <> DNone /\ alone j de r.
  Lemma own_fails j e : own_error j e -> fails j.
  Proof. intros [[_ H]|(de & r & _ & N & A)]; [left; exact H|right; eauto]. Qed.
  Definition reason : Prop := outer = true \/ exists j, In j jobs /\ fails j.
  Definition ok_error (e : cerr) : Prop := (e = CDec DCtx /\ reason) \/ exists j, In j jobs /\ own_error j e.
  Lemma ok_reason e : ok_error e -> reason.
  Proof. intros [[_ H]|(j & Hj & H)]; [exact H|]. right. exists j. split; [exact Hj|]. eapply own_fails, H. Qed.
  Definition sim (a b : Mach) : Prop := plug model_zero a = plug model_zero b.
  Lemma sim_plug a b m : sim a b -> plug m a = plug m b.
  Proof. intros H. assert (E : forall x, plug m x = plug m (plug model_zero x)) by reflexivity. rewrite (E a), (E b), H. reflexivity. Qed.
  Definition running (j : Job) (i : nat) (d : Dec) (m : Mach) (r : Resources) : Prop := exists input fin ma f m' e n d',
    jb_open j = Some (input, fin) /\
    decode_loop reg false strict (jb_path j) every (fun _ => false) fin (jb_later j) f i d ma = DRet m' e n d' /\
    decode_with reg false strict (jb_path j) every (fun _ => false) fin (jb_later j) input m0 = DRet m' e n d' /\
    mo_any m' = mo_any m0 /\ sim m ma /\ r = getr (jb_path j) (m_st ma) /\
    emb (jb_path j) m0 (m_st ma) = m_st ma /\ okm ma /\ Good (jb_path j) (m_st ma).
  Definition ginv (rho : string -> Resources) (errs : option cerr) (cancel : bool) (j : Job) (g : gor) : Prop :=
    match g with
    | GReady => rho (jb_path j) = rho0 m0 (jb_path j)
    | GRun i d m => running j i d m (rho (jb_path j))
    | GPoll e => cancel = true \/ alone j e (rho (jb_path j))
    | GStore e => (e = CDec DCtx /\ cancel = true) \/ own_error j e
    | GCancel => errs <> None
    | GDone => errs <> None \/ alone j DNone (rho (jb_path j))
    | GPanic | GStuck => False
    end.
  Record inv (x : Shared * list (Job * gor)) (rho : string -> Resources) : Prop := {
    v_model : sh_model (fst x) = apply_res rho m0;
    v_jobs : map fst (snd x) = jobs;
    v_rho : forall k, ~ In k (map jb_path jobs) -> rho k = rho0 m0 k;
    v_errs : forall e, sh_errs (fst x) = Some e -> ok_error e;
    v_cancel : sh_cancel (fst x) = true -> reason;
    v_gors : forall j g, In (j, g) (snd x) -> ginv rho (sh_errs (fst x)) (sh_cancel (fst x)) j g
  }.
  Lemma inv_init : inv (mkSh m0 None false, map (fun j => (j, GReady)) jobs) (rho0 m0).
  Proof.
    constructor; cbn [fst snd sh_model sh_errs sh_cancel]; try discriminate; auto.
    - symmetry. apply apply_rho0, Keys.
    - rewrite map_map. cbn. apply map_id.
    - intros j g H. apply in_map_iff in H as (j' & [= <- <-] & _). reflexivity.
  Qed.
  (** The other goroutines do not notice. *)
  Lemma ginv_mono rho rho' errs errs' c c' j g : rho' (jb_path j) = rho (jb_path j) -> (errs <> None -> errs' <> None) -> (c = true -> c' = true) ->
    ginv rho errs c j g -> ginv rho' errs' c' j g.
  Proof. intros R E C. destruct g; cbn [ginv]; rewrite ?R; intuition. Qed.
  Lemma other_path (a : list (Job * gor)) j g b j' g' : map fst (a ++ (j, g) :: b) = jobs -> In (j', g') (a ++ b) -> jb_path j' <> jb_path j.
  Proof.
    intros E H X. rewrite <- E in Paths. rewrite map_map, map_app in Paths. cbn [map fst] in Paths. apply NoDup_remove_2 in Paths. apply Paths.
    rewrite <- map_app. apply in_map_iff. exists (j', g'). auto.
  Qed.
  Lemma inv_gor a j g b sh sh' g' rho rho' : inv (sh, a ++ (j, g) :: b) rho ->
    sh_model sh' = apply_res rho' m0 -> (forall k, k <> jb_path j -> rho' k = rho k) ->
    (forall e, sh_errs sh' = Some e -> ok_error e) -> (sh_cancel sh' = true -> reason) ->
    (sh_errs sh <> None -> sh_errs sh' <> None) -> (sh_cancel sh = true -> sh_cancel sh' = true) ->
    ginv rho' (sh_errs sh') (sh_cancel sh') j g' -> inv (sh', a ++ (j, g') :: b) rho'.
  Proof.
    intros [V1 V2 V3 V4 V5 V6] M R E C ME MC G. cbn [fst snd] in *. constructor; cbn [fst snd]; auto.
    - rewrite map_app in *. exact V2.
    - intros k K. rewrite R; [apply V3, K|]. intros ->. apply K. apply in_map. rewrite <- V2, map_app. apply in_or_app. right. left. reflexivity.
    - intros j' g1 H. assert (H' : In (j', g1) (a ++ b) \/ (j', g1) = (j, g')) by (apply in_app_or in H as [H|[H|H]]; [left; apply in_or_app; auto|auto|left; apply in_or_app; auto]).
      destruct H' as [H'|[= -> ->]]; [|exact G]. eapply ginv_mono; [|exact ME|exact MC|].
      + apply R. eapply other_path; eassumption.
      + apply V6. apply in_app_or in H' as [H'|H']; apply in_or_app; [left; exact H'|right; right; exact H'].
  Qed.
  Lemma exts_emb p s : emb p m0 s = s -> mo_exts (s_model s) = mo_exts m0.
  Proof. intros <-. apply emb_exts. Qed.
  Lemma any_emb p s : IsChild m0 p -> emb p m0 s = s -> mo_any (s_model s) = mo_any m0.
  Proof. intros K E. rewrite <- E. rewrite <- (apply_rho0 m0 Keys) at 1. rewrite emb_apply_model by exact K. reflexivity. Qed.
  Lemma res_of_emb p s : IsChild m0 p -> emb p m0 s = s -> find_resources (s_model s) p = Some (getr p s).
  Proof.
    intros K E. rewrite <- E at 1. rewrite <- (apply_rho0 m0 Keys) at 1. rewrite emb_apply_model by exact K. rewrite res_apply by exact K.
    unfold upd. rewrite seq_refl. reflexivity.
  Qed.
  Lemma init_emb p : IsChild m0 p -> emb p m0 (d_init m0) = d_init m0 /\ getr p (d_init m0) = rho0 m0 p /\ Good p (d_init m0).
  Proof.
    intros K. assert (E : find_resources m0 p = Some (rho0 m0 p)).
    { rewrite <- (apply_rho0 m0 Keys) at 1. apply res_apply, K. }
    assert (G : getr p (d_init m0) = rho0 m0 p) by (unfold getr, res_get; cbn [s_model d_init]; rewrite E; reflexivity).
    split; [|split; [exact G|unfold Good, res_get; cbn [s_model d_init]; rewrite E; discriminate]].
    rewrite <- (apply_rho0 m0 Keys) at 1. rewrite emb_apply; [|exact K|symmetry; exact G]. rewrite apply_rho0 by exact Keys. reflexivity.
  Qed.
  Lemma finish_ctx s l : finish s l DCtx = DCtx. Proof. destruct l; reflexivity. Qed.
  Lemma inv_step x y rho : inv x rho -> cstep reg strict every outer x y -> exists rho', inv y rho'.
  Proof.
    intros V S. destruct S as [sh a j g b sh' g' L S|sh l O OC].
    2: { exists rho. destruct V as [V1 V2 V3 V4 V5 V6]. constructor; cbn [fst snd sh_model sh_errs sh_cancel] in *; auto.
         - intros _. left. exact O.
         - intros j g H. apply (ginv_mono rho rho (sh_errs sh) (sh_errs sh) (sh_cancel sh)); [reflexivity|auto|auto|apply V6, H]. }
    assert (Hin : In (j, g) (a ++ (j, g) :: b)) by (apply in_or_app; right; left; reflexivity).
    pose proof (v_gors _ _ V j g Hin) as G. cbn [fst] in G. pose proof (v_model _ _ V) as VM. pose proof (v_errs _ _ V) as VE. pose proof (v_cancel _ _ V) as VC. cbn [fst] in VM, VE, VC.
    assert (Hj : In j jobs) by (rewrite <- (v_jobs _ _ V); cbn [snd]; rewrite map_app; apply in_or_app; right; left; reflexivity).
    pose proof (Kids j Hj) as K.
    destruct g as [|i d m|e|e| | | |]; try discriminate L; cbn [gor_step ginv] in *.
    - destruct (jb_open j) as [[input fin]|] eqn:EO; injection S as <- <-; exists rho; apply (inv_gor _ _ GReady _ sh sh _ rho rho V); auto; cbn [ginv].
      + destruct (init_emb (jb_path j) K) as (I1 & I2 & I3). destruct (Alone j Hj) as [H|(e & r & H)]; [congruence|].
        destruct H as (input' & fin' & m' & n & d' & E1 & E2 & E3 & E4). rewrite EO in E1. injection E1 as <- <-.
        exists input, fin, (m_init m0), (scan_fuel input), m', e, n, d'. cbn [m_init m_st]. repeat split; auto.
        * congruence.
        * constructor.
      + right. left. auto.
    - destruct G as (input & fin & ma & f & m' & e & n & d' & EO & EL & EW & EA & SI & ER & EE & OK & GO). rewrite EO in S.
      destruct f as [|f]; [discriminate EL|]. cbn [decode_loop] in EL.
      pose proof (any_emb _ _ K EE) as AN. pose proof (exts_emb _ _ EE) as EX.
      assert (SE : m_errs m = m_errs ma) by exact (f_equal m_errs SI).
      destruct (raw_token fin true d) as [evs d1|e1 d1|]; [| |discriminate EL].
      + destruct (on_events reg false (jb_path j) (jb_later j) evs ma) as [ma1|] eqn:EV; [|discriminate EL].
        assert (LE : List.length (mo_any (s_model (m_st ma1))) = List.length (mo_any (s_model (m_st ma)))).
        { pose proof (keep_events _ _ _ _ _ _ EV) as [_ K1]. assert (K2 : List.length (mo_any (s_model (m_st ma1))) <= List.length (mo_any m')).
          { destruct (strict && _); [injection EL as <- _ _ _; auto|]. rewrite andb_false_r in EL. apply keep_loop in EL. exact EL. }
          rewrite EA in K2. rewrite AN in *. lia. }
        assert (FR : forall F, find_resources F (jb_path j) <> None -> mo_exts F = mo_exts m0 ->
          on_events reg false (jb_path j) (jb_later j) evs (memb (jb_path j) F ma) = Some (memb (jb_path j) F ma1) /\ okm ma1 /\ Good (jb_path j) (m_st ma1)).
        { intros F HF HX. destruct (emb_events reg (jb_path j) (jb_later j) F evs HF ma ma1 OK GO) as (A1 & A2 & A3 & _); auto; congruence. }
        assert (Em : plug (sh_model sh) m = memb (jb_path j) (apply_res rho m0) ma).
        { rewrite VM, (sim_plug _ _ _ SI). unfold plug, memb. rewrite emb_apply by assumption. reflexivity. }
        rewrite Em in S. destruct (FR (apply_res rho m0)) as (A1 & A2 & A3); [rewrite res_apply by exact K; discriminate|reflexivity|]. rewrite A1 in S. cbn [memb m_errs m_st sh_cancel] in S.
        assert (E0 : emb (jb_path j) m0 (m_st ma1) = m_st ma1).
        { destruct (FR m0) as (B1 & _ & _); [rewrite <- (apply_rho0 m0 Keys), res_apply by exact K; discriminate|reflexivity|].
          assert (X : memb (jb_path j) m0 ma = ma) by (unfold memb; rewrite EE; destruct ma; reflexivity). rewrite X, EV in B1. injection B1 as B1.
          unfold memb in B1. apply (f_equal m_st) in B1. cbn [m_st] in B1. auto. }
        rewrite emb_apply_model in S by exact K. set (rho' := upd rho (jb_path j) (getr (jb_path j) (m_st ma1))) in *.
        assert (Rp : rho' (jb_path j) = getr (jb_path j) (m_st ma1)) by (unfold rho', upd; rewrite seq_refl; reflexivity).
        assert (Ro : forall k, k <> jb_path j -> rho' k = rho k) by (intros k N; unfold rho', upd; apply seq_neq in N; rewrite N; reflexivity).
        exists rho'. destruct (strict && negb (Nat.eqb (List.length (m_errs ma1)) 0)) eqn:ES.
        * injection S as <- <-. eapply inv_gor; [exact V|reflexivity|exact Ro|exact VE|exact VC|auto|auto|]. cbn [ginv sh_cancel]. right.
          injection EL as <- <- <- <-. exists input, fin, (s_model (m_st ma1)), (S i), d1. split; [exact EO|]. split; [exact EW|]. split; [exact EA|]. rewrite Rp. apply res_of_emb; assumption.
        * rewrite andb_false_r in EL. destruct (Nat.eqb (i mod every) 0 && sh_cancel sh) eqn:EC; injection S as <- <-; (eapply inv_gor; [exact V|reflexivity|exact Ro|exact VE|exact VC|auto|auto|]); cbn [ginv sh_cancel].
          -- left. apply andb_prop in EC. apply EC.
          -- exists input, fin, ma1, f, m', e, n, d'. split; [exact EO|]. split; [exact EL|]. split; [exact EW|]. split; [exact EA|]. split; [|split; [exact Rp|auto]].
             apply (plug_memb model_zero (apply_res rho m0) (jb_path j) ma1).
      + injection S as <- <-. exists rho. apply (inv_gor _ _ (GRun i d m) _ sh sh _ rho rho V); auto. cbn [ginv]. right. rewrite SE. injection EL as <- <- <- <-.
        exists input, fin, (s_model (m_st ma)), (S i), d1. split; [exact EO|]. split; [exact EW|]. split; [exact EA|]. rewrite ER. apply res_of_emb; assumption.
    - injection S as <- <-. exists rho. apply (inv_gor _ _ (GPoll e) _ sh sh _ rho rho V); auto.
      destruct (sh_cancel sh) eqn:EC.
      + cbn [ginv]. left. auto.
      + destruct G as [G|G]; [discriminate|]. destruct e; cbn [ginv].
        * right. exact G.
        * right. right. exists (DScan e), (rho (jb_path j)). repeat split; [discriminate|exact G].
        * right. right. exists DCtx, (rho (jb_path j)). repeat split; [discriminate|exact G].
        * right. right. exists (DErrs e), (rho (jb_path j)). repeat split; [discriminate|exact G].
    - injection S as <- <-. exists rho. eapply inv_gor; [exact V|exact VM|auto| |exact VC|discriminate|auto|cbn; discriminate].
      cbn [sh_errs]. intros e' [= <-]. destruct G as [[-> G]|G]; [left; auto|right; eauto].
    - injection S as <- <-. exists rho. eapply inv_gor; [exact V|exact VM|auto|exact VE| |auto|auto|cbn; auto].
      intros _. destruct (sh_errs sh) as [e|] eqn:EE; [|congruence]. eapply ok_reason, VE. reflexivity.
  Qed.
  Lemma inv_steps n x y : csteps reg strict every outer n x y -> forall rho, inv x rho -> exists rho', inv y rho'.
  Proof.
    induction 1 as [x|n x y z S IH T]; intros rho V; [eauto|]. destruct (IH rho V) as (r1 & V1). eapply inv_step; eassumption.
  Qed.
  Lemma merged_apply rho (R : string -> Resources -> Prop) : (forall k, ~ In k (map jb_path jobs) -> rho k = rho0 m0 k) -> (forall p, In p (map jb_path jobs) -> R p (rho p)) ->
    Merged m0 (map jb_path jobs) R (apply_res rho m0).
  Proof.
    intros H1 H2. constructor; try reflexivity. unfold apply_res. cbn.
    pose proof (apply_rho0 m0 Keys) as E. apply (f_equal mo_childs) in E. unfold apply_res in E. cbn in E.
    induction (mo_childs m0) as [|[k c] l IH]; cbn [map]; constructor.
    - cbn. repeat split; auto. intros N. rewrite H1 by exact N. cbn [map] in E. injection E as E _. apply (f_equal ch_res) in E. exact E.
    - apply IH; [inversion Keys; assumption|]. cbn [map] in E. injection E as _ E. exact E.
  Qed.
  Theorem childs_result m' errs : childs_return reg strict every outer jobs m0 m' errs ->
    (forall e, errs = Some e -> ok_error e) /\
    (errs = None -> (forall j, In j jobs -> exists r, alone j DNone r) /\
       Merged m0 (map jb_path jobs) (fun p r => exists j, In j jobs /\ jb_path j = p /\ alone j DNone r) m').
  Proof.
    intros (n & x & S & D & <- & <-). destruct (inv_steps _ _ _ S _ inv_init) as (rho & [V1 V2 V3 V4 V5 V6]).
    split; [exact V4|]. intros NE. rewrite NE in V6. assert (A : forall j, In j jobs -> alone j DNone (rho (jb_path j))).
    { intros j Hj. rewrite <- V2 in Hj. apply in_map_iff in Hj as ((j' & g) & <- & Hg). unfold c_done in D. rewrite Forall_forall in D. pose proof (D _ Hg) as Eg. cbn in Eg. subst g.
      destruct (V6 _ _ Hg) as [[]|H]; [reflexivity|exact H]. }
    split; [eauto|]. rewrite V1. apply merged_apply; [exact V3|]. intros p Hp. apply in_map_iff in Hp as (j & <- & Hj). exists j. auto.
  Qed.
  (** ** They end *)
  Lemma can_step n x : csteps reg strict every outer n (c_init jobs m0) x -> c_done x \/ exists y, cstep reg strict every outer x y.
  Proof.
    intros S. destruct (inv_steps _ _ _ S _ inv_init) as (rho & [_ _ _ _ _ V6]). destruct x as [sh l]. cbn [fst snd] in V6. unfold c_done. cbn [snd].
    assert (H : Forall (fun jg : Job * gor => snd jg = GDone) l \/ exists a j g b, l = a ++ (j, g) :: b /\ live g = true).
    { clear S. induction l as [|[j g] l IH]; [left; constructor|]. destruct IH as [IH|(a & j' & g' & b & -> & L)]; [intros; apply V6; right; assumption| |].
      - pose proof (V6 j g (or_introl eq_refl)) as G. destruct g; cbn [ginv] in G; try contradiction; try (right; exists [], j; eexists _, _; split; reflexivity). left. constructor; auto.
      - right. exists ((j, g) :: a), j', g', b. auto. }
    destruct H as [H|(a & j & g & b & -> & L)]; [auto|]. right. destruct (gor_step reg strict every j sh g) as [sh' g'] eqn:E. eexists. eapply CStep; eassumption.
  Qed.
End Childs.
Definition gor_left (j : Job) (g : gor) : nat :=
  match g with
  | GReady => 5 + match jb_open j with Some (i, _) => pending (dec_new i) | None => 0 end
  | GRun _ d _ => 4 + pending d
  | GPoll _ => 3 | GStore _ => 2 | GCancel => 1 | _ => 0
  end.
Definition left (x : Shared * list (Job * gor)) : nat := (if sh_cancel (fst x) then 0 else 1) + list_sum (map (fun jg => gor_left (fst jg) (snd jg)) (snd x)).
Lemma left_step reg strict every outer x y : cstep reg strict every outer x y -> left y < left x.
Proof.
  intros [sh a j g b sh' g' L S|sh l O C]; unfold left; cbn [fst snd].
  - rewrite !map_app, !list_sum_app. cbn [map list_sum fold_right fst snd]. fold (list_sum (map (fun jg => gor_left (fst jg) (snd jg)) b)).
    assert (X : (sh_cancel sh = true -> sh_cancel sh' = true) /\ gor_left j g' < gor_left j g).
    { destruct g; try discriminate L; cbn [gor_step] in S.
      - destruct (jb_open j) as [[i f]|] eqn:E; injection S as <- <-; cbn [gor_left]; rewrite E; split; auto; lia.
      - pose proof (raw_token_measure (match jb_open j with Some (_, fin) => fin | None => XEOF end) true d) as M.
        destruct (raw_token _ true d) as [evs d1|e d1|]; [|injection S as <- <-; cbn [gor_left]; split; auto; lia..]. specialize (M _ _ eq_refl).
        assert (P : pending d1 < pending d).
        { unfold pending. destruct M as [M|(M1 & M2 & M3)]; [destruct (d_close d), (d_close d1); lia|]. rewrite M1, M3. destruct (d_close d); [lia|congruence]. }
        destruct (on_events _ _ _ _ _ _) as [m1|]; [|injection S as <- <-; cbn [gor_left]; split; auto; lia]. cbn [sh_cancel] in S.
        destruct (strict && _); [injection S as <- <-; cbn [gor_left]; split; auto; lia|]. destruct (_ && _); injection S as <- <-; cbn [gor_left]; split; auto; lia.
      - destruct (sh_cancel sh) eqn:C; [|destruct e]; cbv iota zeta in S; injection S as <- <-; cbn [gor_left]; rewrite ?C; split; auto; lia.
      - injection S as <- <-; cbn [gor_left]; split; auto; lia.
      - injection S as <- <-; cbn [gor_left]; split; auto; lia. }
    destruct X as [X1 X2]. destruct (sh_cancel sh) eqn:C1, (sh_cancel sh'); lia.
  - rewrite C. cbn. lia.
Qed.
Lemma left_steps reg strict every outer n x y : csteps reg strict every outer n x y -> n + left y <= left x.
Proof. induction 1 as [x|n x y z S IH T]; [lia|]. apply left_step in T. lia. Qed.
(** ** Running a schedule *)
Section Run.
  Context (reg : Reg) (strict : bool) (every : nat).
  Fixpoint run_at (k : nat) (sh : Shared) (l : list (Job * gor)) : option (Shared * list (Job * gor)) :=
    match l with
    | [] => None
    | (j, g) :: r =>
        match k with
        | O => if live g then let (sh', g') := gor_step reg strict every j sh g in Some (sh', (j, g') :: r) else None
        | S k => match run_at k sh r with Some (sh', r') => Some (sh', (j, g) :: r') | None => None end
        end
    end.
  Fixpoint run (ks : list nat) (x : Shared * list (Job * gor)) : option (Shared * list (Job * gor)) :=
    match ks with
    | [] => Some x
    | k :: ks => match run_at k (fst x) (snd x) with Some y => run ks y | None => None end
    end.
  Lemma run_at_step k : forall sh l y, run_at k sh l = Some y -> cstep reg strict every false (sh, l) y.
  Proof.
    assert (H : forall k sh l y, run_at k sh l = Some y -> forall a, cstep reg strict every false (sh, a ++ l) (fst y, a ++ snd y)).
    { clear k. induction k as [|k IH]; intros sh [|[j g] l] y; cbn [run_at]; try discriminate.
      - destruct (live g) eqn:L; [|discriminate]. destruct (gor_step reg strict every j sh g) as [sh' g'] eqn:E. intros [= <-] a. apply CStep; assumption.
      - destruct (run_at k sh l) as [[sh' r']|] eqn:E; [|discriminate]. intros [= <-] a. specialize (IH _ _ _ E (a ++ [(j, g)])). rewrite <- !app_assoc in IH. exact IH. }
    intros sh l [sh' l'] E. exact (H _ _ _ _ E []).
  Qed.
  Lemma run_steps ks : forall n x y z, csteps reg strict every false n x y -> run ks y = Some z -> csteps reg strict every false (List.length ks + n) x z.
  Proof.
    induction ks as [|k ks IH]; intros n x y z ST; cbn [run List.length]; [intros [= <-]; exact ST|].
    destruct (run_at k (fst y) (snd y)) as [y1|] eqn:E; [|discriminate]. intros H. destruct y as [sh l]. apply run_at_step in E.
    replace (S (List.length ks) + n) with (List.length ks + S n) by lia. eapply IH; [|exact H]. eapply CTrans; eassumption.
  Qed.
  Lemma run_returns ks jobs m z : run ks (c_init jobs m) = Some z -> c_done z -> childs_return reg strict every false jobs m (sh_model (fst z)) (sh_errs (fst z)).
  Proof. intros R D. exists (List.length ks + 0), z. split; [|auto]. eapply run_steps; [apply CRefl|exact R]. Qed.
End Run.
