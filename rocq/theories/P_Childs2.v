(** * Proofs: decoding the children concurrently, when one of them has elements of other namespaces *)
From Coq Require Import ZArith.
From Verif Require Import GoBase GoNum GoUtf8 GoFloat Types XmlTypes M_Core M_Errors M_Xml M_Decode M_Childs S_Childs P_Xml P_Xml2 P_Decode P_Panic P_State P_Frame P_Frame2 P_Childs.
From Verif Require Import Types.

Section Childs2.
  Context (reg : Reg) (strict : bool) (every : nat) (outer : bool) (m0 : Model) (jobs : list Job) (star : string).
  Context (Keys : NoDup (map fst (mo_childs m0))) (Paths : NoDup (map jb_path jobs)).
  Context (Kids : forall j, In j jobs -> IsChild m0 (jb_path j)).
  (** What the child decodes to alone, in the model [m0], without cancellation *)
  Definition alone2 (j : Job) (e : derr) (r : Resources) (al : list AnyElem) : Prop := exists input fin m' n d,
    jb_open j = Some (input, fin) /\ decode_with reg false strict (jb_path j) every (fun _ => false) fin (jb_later j) input m0 = DRet m' e n d /\
    mo_any m' = al /\ find_resources m' (jb_path j) = Some r.
  Context (Alone : forall j, In j jobs -> jb_open j = None \/ exists e r al, alone2 j e r al).
  Context (Only : forall j e r al, In j jobs -> alone2 j e r al -> jb_path j <> star -> al = mo_any m0).
  Lemma alone2_unique j e r al e' r' al' : alone2 j e r al -> alone2 j e' r' al' -> e = e' /\ r = r' /\ al = al'.
  Proof.
    intros (i1 & f1 & m1 & n1 & d1 & A1 & A2 & A4 & A3) (i2 & f2 & m2 & n2 & d2 & B1 & B2 & B4 & B3).
    rewrite A1 in B1. injection B1 as <- <-. rewrite A2 in B2. injection B2 as <- <- _ _. rewrite A3 in B3. injection B3 as <-. repeat split; congruence.
  Qed.
  Definition fails2 (j : Job) : Prop := jb_open j = None \/ exists e r al, alone2 j e r al /\ e <> DNone.
  Definition own_error2 (j : Job) (e : cerr) : Prop := (e = COpenErr /\ jb_open j = None) \/ exists de r al, e = CDec de /\ de <> DNone /\ alone2 j de r al.
  Lemma own_fails2 j e : own_error2 j e -> fails2 j.
  Proof. intros [[_ H]|(de & r & al & _ & N & A)]; [left; exact H|right; eauto]. Qed.
  Definition reason2 : Prop := outer = true \/ exists j, In j jobs /\ fails2 j.
  Definition ok_error2 (e : cerr) : Prop := (e = CDec DCtx /\ reason2) \/ exists j, In j jobs /\ own_error2 j e.
  Lemma ok_reason2 e : ok_error2 e -> reason2.
  Proof. intros [[_ H]|(j & Hj & H)]; [exact H|]. right. exists j. split; [exact Hj|]. eapply own_fails2, H. Qed.
  Definition running2 (j : Job) (i : nat) (d : Dec) (m : Mach) (r : Resources) (al : list AnyElem) : Prop := exists input fin ma f m' e n d',
    jb_open j = Some (input, fin) /\
    decode_loop reg false strict (jb_path j) every (fun _ => false) fin (jb_later j) f i d ma = DRet m' e n d' /\
    decode_with reg false strict (jb_path j) every (fun _ => false) fin (jb_later j) input m0 = DRet m' e n d' /\
    sim m ma /\ r = getr (jb_path j) (m_st ma) /\ al = mo_any (s_model (m_st ma)) /\
    emb2 (jb_path j) m0 (m_st ma) = m_st ma /\ okm2 ma /\ Good (jb_path j) (m_st ma) /\
    (jb_path j <> star -> mo_any m' = mo_any m0 /\ emb (jb_path j) m0 (m_st ma) = m_st ma /\ okm ma).
  Definition ginv2 (rho : string -> Resources) (al : list AnyElem) (errs : option cerr) (cancel : bool) (j : Job) (g : gor) : Prop :=
    match g with
    | GReady => rho (jb_path j) = rho0 m0 (jb_path j) /\ al = mo_any m0
    | GRun i d m => running2 j i d m (rho (jb_path j)) al
    | GPoll e => cancel = true \/ alone2 j e (rho (jb_path j)) al
    | GStore e => (e = CDec DCtx /\ cancel = true) \/ own_error2 j e
    | GCancel => errs <> None
    | GDone => errs <> None \/ alone2 j DNone (rho (jb_path j)) al
    | GPanic | GStuck => False
    end.
  (** What the goroutine of [j] has added to the Any of the model *)
  Definition mine (al : list AnyElem) (j : Job) : list AnyElem := if seq (jb_path j) star then al else mo_any m0.
  Definition whole (rho : string -> Resources) (al : list AnyElem) : Model := apply_res rho (mo_set_any al m0).
  Record inv2 (x : Shared * list (Job * gor)) (rho : string -> Resources) (al : list AnyElem) : Prop := {
    w_model : sh_model (fst x) = whole rho al;
    w_jobs : map fst (snd x) = jobs;
    w_rho : forall k, ~ In k (map jb_path jobs) -> rho k = rho0 m0 k;
    w_any : ~ In star (map jb_path jobs) -> al = mo_any m0;
    w_errs : forall e, sh_errs (fst x) = Some e -> ok_error2 e;
    w_cancel : sh_cancel (fst x) = true -> reason2;
    w_gors : forall j g, In (j, g) (snd x) -> ginv2 rho (mine al j) (sh_errs (fst x)) (sh_cancel (fst x)) j g
  }.
  Lemma set_any_self : mo_set_any (mo_any m0) m0 = m0.
  Proof. destruct m0; reflexivity. Qed.
  Lemma mine_init j : mine (mo_any m0) j = mo_any m0.
  Proof. unfold mine. destruct (seq _ _); reflexivity. Qed.
  Lemma inv2_init : inv2 (mkSh m0 None false, map (fun j => (j, GReady)) jobs) (rho0 m0) (mo_any m0).
  Proof.
    constructor; cbn [fst snd sh_model sh_errs sh_cancel]; try discriminate; auto.
    - unfold whole. rewrite set_any_self. symmetry. apply apply_rho0, Keys.
    - rewrite map_map. cbn. apply map_id.
    - intros j g H. apply in_map_iff in H as (j' & [= <- <-] & _). cbn [ginv2]. split; [reflexivity|apply mine_init].
  Qed.
  (** The other goroutines do not notice. *)
  Lemma ginv2_mono rho rho' al al' errs errs' c c' j g : rho' (jb_path j) = rho (jb_path j) -> al' = al -> (errs <> None -> errs' <> None) -> (c = true -> c' = true) ->
    ginv2 rho al errs c j g -> ginv2 rho' al' errs' c' j g.
  Proof. intros R -> E C. destruct g; cbn [ginv2]; rewrite ?R; intuition. Qed.
  Lemma inv2_gor a j g b sh sh' g' rho rho' al al' : inv2 (sh, a ++ (j, g) :: b) rho al ->
    sh_model sh' = whole rho' al' -> (forall k, k <> jb_path j -> rho' k = rho k) -> (jb_path j <> star -> al' = al) ->
    (forall e, sh_errs sh' = Some e -> ok_error2 e) -> (sh_cancel sh' = true -> reason2) ->
    (sh_errs sh <> None -> sh_errs sh' <> None) -> (sh_cancel sh = true -> sh_cancel sh' = true) ->
    ginv2 rho' (mine al' j) (sh_errs sh') (sh_cancel sh') j g' -> inv2 (sh', a ++ (j, g') :: b) rho' al'.
  Proof.
    intros [V1 V2 V3 VA V4 V5 V6] M R RA E C ME MC G. cbn [fst snd] in *.
    assert (Hj : In (jb_path j) (map jb_path jobs)) by (apply in_map; rewrite <- V2, map_app; apply in_or_app; right; left; reflexivity).
    constructor; cbn [fst snd]; auto.
    - rewrite map_app in *. exact V2.
    - intros k K. rewrite R; [apply V3, K|]. intros ->. apply K, Hj.
    - intros N. rewrite RA; [apply VA, N|]. intros X. rewrite X in Hj. contradiction.
    - intros j' g1 H. assert (H' : In (j', g1) (a ++ b) \/ (j', g1) = (j, g')) by (apply in_app_or in H as [H|[H|H]]; [left; apply in_or_app; auto|auto|left; apply in_or_app; auto]).
      destruct H' as [H'|[= -> ->]]; [|exact G]. pose proof (other_path jobs Paths a j g b j' g1 V2 H') as NP. eapply ginv2_mono; [| |exact ME|exact MC|].
      + apply R, NP.
      + assert (X : mine al' j' = mine al j'); [|exact X]. unfold mine. destruct (seq_spec (jb_path j') star) as [X|X]; [|reflexivity]. apply RA. congruence.
      + apply V6. apply in_app_or in H' as [H'|H']; apply in_or_app; [left; exact H'|right; right; exact H'].
  Qed.
  Lemma emb2_plain p s : emb p m0 s = s -> IsChild m0 p -> emb2 p m0 s = s.
  Proof. intros E K. unfold emb2, fr. rewrite (any_emb m0 Keys p s K E), set_any_self. exact E. Qed.
  Lemma res_of_emb2 p s : IsChild m0 p -> emb2 p m0 s = s -> find_resources (s_model s) p = Some (getr p s).
  Proof. intros K E. exact (res_of_emb (fr m0 s) Keys p s K E). Qed.
  (** A token of the goroutine of [j], in the shared model *)
  Lemma token_step j d fin f i evs d1 m ma ma1 m' e n d' rho al : IsChild m0 (jb_path j) ->
    raw_token fin true d = RTok evs d1 ->
    decode_loop reg false strict (jb_path j) every (fun _ => false) fin (jb_later j) (S f) i d ma = DRet m' e n d' ->
    on_events reg false (jb_path j) (jb_later j) evs ma = Some ma1 ->
    sim m ma -> rho (jb_path j) = getr (jb_path j) (m_st ma) -> mine al j = mo_any (s_model (m_st ma)) ->
    emb2 (jb_path j) m0 (m_st ma) = m_st ma -> okm2 ma -> Good (jb_path j) (m_st ma) ->
    (jb_path j <> star -> mo_any m' = mo_any m0 /\ emb (jb_path j) m0 (m_st ma) = m_st ma /\ okm ma) ->
    exists al' mr, on_events reg false (jb_path j) (jb_later j) evs (plug (whole rho al) m) = Some mr /\ m_errs mr = m_errs ma1 /\ sim mr ma1 /\
      s_model (m_st mr) = whole (upd rho (jb_path j) (getr (jb_path j) (m_st ma1))) al' /\ (jb_path j <> star -> al' = al) /\ mine al' j = mo_any (s_model (m_st ma1)) /\
      emb2 (jb_path j) m0 (m_st ma1) = m_st ma1 /\ okm2 ma1 /\ Good (jb_path j) (m_st ma1) /\
      (jb_path j <> star -> mo_any m' = mo_any m0 /\ emb (jb_path j) m0 (m_st ma1) = m_st ma1 /\ okm ma1).
  Proof.
    intros K RT EL EV SI ER EA EE OK GO NS. cbn [decode_loop] in EL. rewrite RT, EV in EL.
    assert (SF : Self (jb_path j) (m_st ma)) by (eapply self_emb; exact EE).
    assert (EX : mo_exts (s_model (m_st ma)) = mo_exts m0) by exact (exts_emb (fr m0 (m_st ma)) (jb_path j) (m_st ma) EE).
    assert (HR : forall r, find_resources (apply_res r m0) (jb_path j) <> None) by (intros r; rewrite res_apply by exact K; discriminate).
    assert (H0 : find_resources m0 (jb_path j) <> None) by (rewrite <- (apply_rho0 m0 Keys); apply HR).
    destruct (emb2_events reg (jb_path j) (jb_later j) m0 evs H0 ma ma1 OK GO SF EX EV) as (B1 & OK1 & GO1 & SF1).
    assert (X : memb2 (jb_path j) m0 ma = ma) by (unfold memb2; rewrite EE; destruct ma; reflexivity). rewrite X, EV in B1. injection B1 as B1.
    assert (EE1 : emb2 (jb_path j) m0 (m_st ma1) = m_st ma1) by (apply (f_equal m_st) in B1; cbn [memb2 m_st] in B1; auto).
    destruct (seq_spec (jb_path j) star) as [ST|ST].
    - destruct (emb2_events reg (jb_path j) (jb_later j) (apply_res rho m0) evs (HR rho) ma ma1 OK GO SF EX EV) as (C1 & _).
      assert (AL : al = mo_any (s_model (m_st ma))) by (unfold mine in EA; rewrite ST, seq_refl in EA; exact EA).
      exists (mo_any (s_model (m_st ma1))), (memb2 (jb_path j) (apply_res rho m0) ma1).
      split; [|split; [reflexivity|split; [|split; [|split; [congruence|split; [|split; [exact EE1|split; [exact OK1|split; [exact GO1|congruence]]]]]]]]].
      + assert (Em : plug (whole rho al) m = memb2 (jb_path j) (apply_res rho m0) ma).
        { rewrite (sim_plug _ _ _ SI). unfold plug, memb2, emb2. rewrite AL.
          change (fr (apply_res rho m0) (m_st ma)) with (apply_res rho (mo_set_any (mo_any (s_model (m_st ma))) m0)). rewrite emb_apply; [reflexivity|exact K|exact ER]. }
        rewrite Em. exact C1.
      + exact (plug_memb model_zero (fr (apply_res rho m0) (m_st ma1)) (jb_path j) ma1).
      + cbn [memb2 m_st]. unfold emb2. change (fr (apply_res rho m0) (m_st ma1)) with (apply_res rho (mo_set_any (mo_any (s_model (m_st ma1))) m0)). apply emb_apply_model, K.
      + unfold mine. rewrite ST, seq_refl. reflexivity.
    - destruct (NS ST) as (AN & E0 & K0). pose proof (any_emb m0 Keys _ _ K E0) as AM.
      assert (LE : List.length (mo_any (s_model (m_st ma1))) = List.length (mo_any (s_model (m_st ma)))).
      { pose proof (keep_events _ _ _ _ _ _ EV) as [_ K1]. assert (K2 : List.length (mo_any (s_model (m_st ma1))) <= List.length (mo_any m')).
        { destruct (strict && _); [injection EL as <- _ _ _; auto|]. rewrite andb_false_r in EL. apply keep_loop in EL. exact EL. }
        rewrite AN in K2. rewrite AM in *. lia. }
      destruct (emb_events reg (jb_path j) (jb_later j) m0 evs H0 ma ma1 K0 GO EX EV LE) as (D1 & D2 & _).
      assert (X' : memb (jb_path j) m0 ma = ma) by (unfold memb; rewrite E0; destruct ma; reflexivity). rewrite X', EV in D1. injection D1 as D1.
      assert (E1 : emb (jb_path j) m0 (m_st ma1) = m_st ma1) by (apply (f_equal m_st) in D1; cbn [memb m_st] in D1; auto).
      assert (HW : find_resources (whole rho al) (jb_path j) <> None) by exact (HR rho).
      destruct (emb_events reg (jb_path j) (jb_later j) (whole rho al) evs HW ma ma1 K0 GO EX EV LE) as (C1 & _).
      exists al, (memb (jb_path j) (whole rho al) ma1).
      split; [|split; [reflexivity|split; [|split; [|split; [reflexivity|split; [|split; [exact EE1|split; [exact OK1|split; [exact GO1|auto]]]]]]]]].
      + assert (Em : plug (whole rho al) m = memb (jb_path j) (whole rho al) ma).
        { rewrite (sim_plug _ _ _ SI). unfold plug, memb, whole. rewrite emb_apply; [reflexivity|exact K|exact ER]. }
        rewrite Em. exact C1.
      + exact (plug_memb model_zero (whole rho al) (jb_path j) ma1).
      + cbn [memb m_st]. unfold whole. apply emb_apply_model. exact K.
      + unfold mine. apply seq_neq in ST. rewrite ST. symmetry. exact (any_emb m0 Keys _ _ K E1).
  Qed.
  Lemma inv2_step x y rho al : inv2 x rho al -> cstep reg strict every outer x y -> exists rho' al', inv2 y rho' al'.
  Proof.
    intros V S. destruct S as [sh a j g b sh' g' L S|sh l O OC].
    2: { exists rho, al. destruct V as [V1 V2 V3 VA V4 V5 V6]. constructor; cbn [fst snd sh_model sh_errs sh_cancel] in *; auto.
         - intros _. left. exact O.
         - intros j g H. apply (ginv2_mono rho rho (mine al j) (mine al j) (sh_errs sh) (sh_errs sh) (sh_cancel sh)); [reflexivity|reflexivity|auto|auto|apply V6, H]. }
    assert (Hin : In (j, g) (a ++ (j, g) :: b)) by (apply in_or_app; right; left; reflexivity).
    pose proof (w_gors _ _ _ V j g Hin) as G. cbn [fst] in G. pose proof (w_model _ _ _ V) as VM. pose proof (w_errs _ _ _ V) as VE. pose proof (w_cancel _ _ _ V) as VC. cbn [fst] in VM, VE, VC.
    assert (Hj : In j jobs) by (rewrite <- (w_jobs _ _ _ V); cbn [snd]; rewrite map_app; apply in_or_app; right; left; reflexivity).
    pose proof (Kids j Hj) as K.
    destruct g as [|i d m|e|e| | | |]; try discriminate L; cbn [gor_step ginv2] in *.
    - destruct (jb_open j) as [[input fin]|] eqn:EO; injection S as <- <-; exists rho, al; apply (inv2_gor _ _ GReady _ sh sh _ rho rho al al V); auto; cbn [ginv2].
      + destruct G as [G GA]. destruct (init_emb m0 Keys (jb_path j) K) as (I1 & I2 & I3). destruct (Alone j Hj) as [H|(e & r & al1 & H)]; [congruence|].
        pose proof (Only j e r al1 Hj H) as ON. destruct H as (input' & fin' & m' & n & d' & E1 & E2 & E3 & E4). rewrite EO in E1. injection E1 as <- <-.
        exists input, fin, (m_init m0), (scan_fuel input), m', e, n, d'. cbn [m_init m_st]. repeat split; auto; try congruence; try constructor.
        * apply emb2_plain; assumption.
        * rewrite E3. auto.
      + right. left. auto.
    - destruct G as (input & fin & ma & f & m' & e & n & d' & EO & EL & EW & SI & ER & EA & EE & OK & GO & NS). rewrite EO in S.
      destruct f as [|f]; [discriminate EL|]. assert (SE : m_errs m = m_errs ma) by exact (f_equal m_errs SI). pose proof EL as EL0. cbn [decode_loop] in EL.
      destruct (raw_token fin true d) as [evs d1|e1 d1|] eqn:RT; [| |discriminate EL].
      + destruct (on_events reg false (jb_path j) (jb_later j) evs ma) as [ma1|] eqn:EV; [|discriminate EL].
        destruct (token_step j d fin f i evs d1 m ma ma1 m' e n d' rho al K RT EL0 EV SI ER EA EE OK GO NS) as (al' & mr & C1 & C2 & C3 & C4 & C5 & C6 & C7 & C8 & C9 & C10).
        rewrite VM, C1 in S. rewrite C4, C2 in S. set (rho' := upd rho (jb_path j) (getr (jb_path j) (m_st ma1))) in *.
        assert (Rp : rho' (jb_path j) = getr (jb_path j) (m_st ma1)) by (unfold rho', upd; rewrite seq_refl; reflexivity).
        assert (Ro : forall k, k <> jb_path j -> rho' k = rho k) by (intros k N; unfold rho', upd; apply seq_neq in N; rewrite N; reflexivity).
        exists rho', al'. cbn [sh_cancel] in S. destruct (strict && negb (Nat.eqb (List.length (m_errs ma1)) 0)) eqn:ES.
        * injection S as <- <-. eapply inv2_gor; [exact V|reflexivity|exact Ro|exact C5|exact VE|exact VC|auto|auto|]. cbn [ginv2 sh_cancel]. right.
          injection EL as <- <- <- <-. exists input, fin, (s_model (m_st ma1)), (S i), d1. split; [exact EO|]. split; [exact EW|]. split; [auto|]. rewrite Rp. apply res_of_emb2; assumption.
        * rewrite andb_false_r in EL. destruct (Nat.eqb (i mod every) 0 && sh_cancel sh) eqn:EC; injection S as <- <-; (eapply inv2_gor; [exact V|reflexivity|exact Ro|exact C5|exact VE|exact VC|auto|auto|]); cbn [ginv2 sh_cancel].
          -- left. apply andb_prop in EC. apply EC.
          -- exists input, fin, ma1, f, m', e, n, d'. split; [exact EO|]. split; [exact EL|]. split; [exact EW|]. split; [exact C3|]. split; [exact Rp|]. auto 10.
      + injection S as <- <-. exists rho, al. apply (inv2_gor _ _ (GRun i d m) _ sh sh _ rho rho al al V); auto. cbn [ginv2]. right. rewrite SE. injection EL as <- <- <- <-.
        exists input, fin, (s_model (m_st ma)), (S i), d1. split; [exact EO|]. split; [exact EW|]. split; [auto|]. rewrite ER. apply res_of_emb2; assumption.
    - injection S as <- <-. exists rho, al. apply (inv2_gor _ _ (GPoll e) _ sh sh _ rho rho al al V); auto.
      destruct (sh_cancel sh) eqn:EC.
      + cbn [ginv2]. left. auto.
      + destruct G as [G|G]; [discriminate|]. destruct e; cbn [ginv2].
        * right. exact G.
        * right. right. exists (DScan e), (rho (jb_path j)), (mine al j). repeat split; [discriminate|exact G].
        * right. right. exists DCtx, (rho (jb_path j)), (mine al j). repeat split; [discriminate|exact G].
        * right. right. exists (DErrs e), (rho (jb_path j)), (mine al j). repeat split; [discriminate|exact G].
    - injection S as <- <-. exists rho, al. eapply inv2_gor; [exact V|exact VM|auto|auto| |exact VC|discriminate|auto|cbn; discriminate].
      cbn [sh_errs]. intros e' [= <-]. destruct G as [[-> G]|G]; [left; auto|right; eauto].
    - injection S as <- <-. exists rho, al. eapply inv2_gor; [exact V|exact VM|auto|auto|exact VE| |auto|auto|cbn; auto].
      intros _. destruct (sh_errs sh) as [e|] eqn:EE; [|congruence]. eapply ok_reason2, VE. reflexivity.
  Qed.
  Lemma inv2_steps n x y : csteps reg strict every outer n x y -> forall rho al, inv2 x rho al -> exists rho' al', inv2 y rho' al'.
  Proof.
    induction 1 as [x|n x y z S IH T]; intros rho al V; [eauto|]. destruct (IH rho al V) as (r1 & a1 & V1). eapply inv2_step; eassumption.
  Qed.
  Theorem childs_result2 m' errs : childs_return reg strict every outer jobs m0 m' errs ->
    (forall e, errs = Some e -> ok_error2 e) /\
    (errs = None -> (forall j, In j jobs -> exists r al, alone2 j DNone r al) /\
       exists al, (~ In star (map jb_path jobs) -> al = mo_any m0) /\ (forall j, In j jobs -> jb_path j = star -> exists r, alone2 j DNone r al) /\
       Merged (mo_set_any al m0) (map jb_path jobs) (fun p r => exists j al, In j jobs /\ jb_path j = p /\ alone2 j DNone r al) m').
  Proof.
    intros (n & x & S & D & <- & <-). destruct (inv2_steps _ _ _ S _ _ inv2_init) as (rho & al & [V1 V2 V3 VA V4 V5 V6]).
    split; [exact V4|]. intros NE. rewrite NE in V6. assert (A : forall j, In j jobs -> alone2 j DNone (rho (jb_path j)) (mine al j)).
    { intros j Hj. rewrite <- V2 in Hj. apply in_map_iff in Hj as ((j' & g) & <- & Hg). unfold c_done in D. rewrite Forall_forall in D. pose proof (D _ Hg) as Eg. cbn in Eg. subst g.
      destruct (V6 _ _ Hg) as [[]|H]; [reflexivity|exact H]. }
    split; [eauto|]. exists al. split; [exact VA|]. split.
    - intros j Hj E. exists (rho (jb_path j)). pose proof (A j Hj) as H. unfold mine in H. rewrite E, seq_refl in H. rewrite E. exact H.
    - rewrite V1. unfold whole. apply (merged_apply (mo_set_any al m0) jobs Keys rho); [exact V3|]. intros p Hp. apply in_map_iff in Hp as (j & <- & Hj). exists j. eauto.
  Qed.
  Lemma can_step2 n x : csteps reg strict every outer n (c_init jobs m0) x -> c_done x \/ exists y, cstep reg strict every outer x y.
  Proof.
    intros S. destruct (inv2_steps _ _ _ S _ _ inv2_init) as (rho & al & [_ _ _ _ _ _ V6]). destruct x as [sh l]. cbn [fst snd] in V6. unfold c_done. cbn [snd].
    assert (H : Forall (fun jg : Job * gor => snd jg = GDone) l \/ exists a j g b, l = a ++ (j, g) :: b /\ live g = true).
    { clear S. induction l as [|[j g] l IH]; [left; constructor|]. destruct IH as [IH|(a & j' & g' & b & -> & L)]; [intros; apply V6; right; assumption| |].
      - pose proof (V6 j g (or_introl eq_refl)) as G. destruct g; cbn [ginv2] in G; try contradiction; try (right; exists [], j; eexists _, _; split; reflexivity). left. constructor; auto.
      - right. exists ((j, g) :: a), j', g', b. auto. }
    destruct H as [H|(a & j & g & b & -> & L)]; [auto|]. right. destruct (gor_step reg strict every j sh g) as [sh' g'] eqn:E. eexists. eapply CStep; eassumption.
  Qed.
End Childs2.
