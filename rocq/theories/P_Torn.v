(** * Proofs about the words of errs *)
From Verif Require Import GoBase GoNum GoUtf8 GoFloat Types XmlTypes M_Core M_Errors M_Xml M_Decode M_Childs M_Torn S_Childs P_Decode P_Panic P_State P_Frame P_Childs.

Definition unhalf (g : tgor) : gor := match g with TG g => g | THalf e => GStore e end.
Definition unh (jg : Job * tgor) : Job * gor := (fst jg, unhalf (snd jg)).
Definition untorn (x : TState) : Shared * list (Job * gor) := (fst (snd x), map unh (snd (snd x))).
Section Sim.
  Context (reg : Reg) (strict : bool) (every : nat).
  (** A step here is a step there, or none. *)
  Lemma untorn_step outer x y : tstep reg strict every outer x y -> untorn y = untorn x \/ cstep reg strict every outer (untorn x) (untorn y).
  Proof.
    intros [ty sh a j g b ty' sh' g' L S|ty sh l O C]; unfold untorn; cbn [fst snd].
    - rewrite !map_app. cbn [map unh fst snd]. destruct g as [g|e]; cbn [unhalf].
      + assert (H : (exists e, g = GStore e) \/ tgor_step reg strict every j ty sh (TG g) = (let (sh, g) := gor_step reg strict every j sh g in (ty, sh, TG g))).
        { destruct g; try (right; reflexivity). left. eauto. }
        destruct H as [[e ->]|H].
        * injection S as <- <- <-. left. reflexivity.
        * rewrite H in S. destruct (gor_step reg strict every j sh g) as [sh1 g1] eqn:E. injection S as <- <- <-. right. apply CStep; [exact L|exact E].
      + injection S as <- <- <-. right. apply CStep; reflexivity.
    - right. apply COuter; assumption.
  Qed.
  Lemma untorn_init jobs m : untorn (t_init jobs m) = c_init jobs m.
  Proof. unfold untorn, t_init, c_init. cbn [fst snd]. rewrite map_map. reflexivity. Qed.
  Lemma untorn_steps outer jobs m x : tsteps reg strict every outer (t_init jobs m) x -> exists n, csteps reg strict every outer n (c_init jobs m) (untorn x).
  Proof.
    rewrite <- untorn_init. induction 1 as [x|x y z _ (n & IH) T]; [exists 0; constructor|].
    destruct (untorn_step _ _ _ T) as [->|U]; [eauto|]. exists (S n). econstructor; eassumption.
  Qed.
  Lemma untorn_done x : t_done x -> c_done (untorn x).
  Proof. unfold t_done, c_done, untorn. cbn [snd]. intros H. apply Forall_map. eapply Forall_impl; [|exact H]. intros [j g] E. cbn in *. subst. reflexivity. Qed.
  Lemma torn_childs outer jobs m m' ty data : torn_return reg strict every outer jobs m m' ty data -> childs_return reg strict every outer jobs m m' data.
  Proof. intros (x & S & D & <- & <- & <-). destruct (untorn_steps _ _ _ _ S) as (n & C). exists n, (untorn x). split; [exact C|]. split; [apply untorn_done, D|auto]. Qed.
  (** Neither word is set, or both, when all is done. *)
  Definition both (x : TState) : Prop := (fst x = None -> sh_errs (fst (snd x)) = None) /\
    (sh_errs (fst (snd x)) = None -> fst x <> None -> exists j e, In (j, THalf e) (snd (snd x))) /\
    (forall j e, In (j, THalf e) (snd (snd x)) -> fst x <> None).
  Lemma gor_errs j sh g sh' g' : gor_step reg strict every j sh g = (sh', g') -> (forall e, g <> GStore e) -> sh_errs sh' = sh_errs sh.
  Proof.
    destruct g; cbn [gor_step]; intros S N.
    - destruct (jb_open j) as [[i f]|]; injection S as <- <-; reflexivity.
    - destruct (raw_token _ _ _); [|injection S as <- <-; reflexivity..]. destruct (on_events _ _ _ _ _ _); [|injection S as <- <-; reflexivity].
      destruct (strict && _); [injection S as <- <-; reflexivity|]. destruct (_ && _); injection S as <- <-; reflexivity.
    - injection S as <- <-; reflexivity.
    - destruct (N e eq_refl).
    - injection S as <- <-; reflexivity.
    - injection S as <- <-; reflexivity.
    - injection S as <- <-; reflexivity.
    - injection S as <- <-; reflexivity.
  Qed.
  Lemma tgor_cases j ty sh g ty' sh' g' : tgor_step reg strict every j ty sh g = (ty', sh', g') ->
    (exists e, g = TG (GStore e) /\ ty' = Some (dyn e) /\ sh' = sh /\ g' = THalf e) \/
    (exists e, g = THalf e /\ ty' = ty /\ sh' = mkSh (sh_model sh) (Some e) (sh_cancel sh) /\ g' = TG GCancel) \/
    (exists g0 g1, g = TG g0 /\ (forall e, g0 <> GStore e) /\ ty' = ty /\ g' = TG g1 /\ gor_step reg strict every j sh g0 = (sh', g1)).
  Proof.
    destruct g as [g|e]; cbn [tgor_step]; [|intros [= <- <- <-]; right; left; eauto 6].
    destruct g; try (destruct (gor_step reg strict every j sh _) as [s1 g1] eqn:E; intros [= <- <- <-]; right; right; eexists _, _; repeat split; [discriminate|exact E]).
    intros [= <- <- <-]. left. eauto 6.
  Qed.
  Lemma in_mid {A} (a b : list A) x y z : In z (a ++ x :: b) -> z = x \/ In z (a ++ y :: b).
  Proof. intros H. apply in_app_or in H as [H|[<-|H]]; [right; apply in_or_app; auto|left; reflexivity|right; apply in_or_app; right; right; exact H]. Qed.
  Lemma both_step outer x y : tstep reg strict every outer x y -> both x -> both y.
  Proof.
    intros [ty sh a j g b ty' sh' g' L S|ty sh l O C] (B1 & B2 & B3); unfold both; cbn [fst snd sh_errs] in *; [|auto].
    destruct (tgor_cases _ _ _ _ _ _ _ S) as [(e & -> & -> & -> & ->)|[(e & -> & -> & -> & ->)|(g0 & g1 & -> & N & -> & -> & T)]]; cbn [sh_errs].
    - split; [discriminate|]. split; [|discriminate]. intros _ _. exists j, e. apply in_or_app. right. left. reflexivity.
    - split; [|split; [discriminate|]].
      + intros E. destruct (B3 j e); [apply in_or_app; right; left; reflexivity|exact E].
      + intros j1 e1 H. apply (in_mid _ _ _ (j, THalf e)) in H as [[=]|H]. exact (B3 _ _ H).
    - rewrite (gor_errs _ _ _ _ _ T N). split; [exact B1|]. split.
      + intros E1 E2. destruct (B2 E1 E2) as (j1 & e1 & H). exists j1, e1. apply (in_mid _ _ _ (j, TG g1)) in H as [[=]|H]. exact H.
      + intros j1 e1 H. apply (in_mid _ _ _ (j, TG g0)) in H as [[=]|H]. exact (B3 _ _ H).
  Qed.
  Lemma both_steps outer jobs m x : tsteps reg strict every outer (t_init jobs m) x -> both x.
  Proof.
    remember (t_init jobs m) as i eqn:I. induction 1 as [x|x y z _ IH T]; [subst|eapply both_step; [exact T|exact (IH I)]].
    unfold both, t_init. cbn [fst snd sh_errs]. split; [auto|]. split; [congruence|]. intros j e H. apply in_map_iff in H as (? & [=] & _).
  Qed.
  Lemma torn_nil outer jobs m m' ty data : torn_return reg strict every outer jobs m m' ty data -> (ty = None <-> data = None).
  Proof.
    intros (x & S & D & _ & <- & <-). destruct (both_steps _ _ _ _ S) as (B1 & B2 & _). split; [exact B1|]. intros E.
    destruct (fst x) as [t|]; [|reflexivity]. destruct (B2 E) as (j & e & H); [discriminate|]. unfold t_done in D. rewrite Forall_forall in D. discriminate (D _ H).
  Qed.
End Sim.
Section Whole.
  Context (reg : Reg) (strict : bool) (every : nat) (m0 : Model) (jobs : list Job).
  Context (Keys : NoDup (map fst (mo_childs m0))) (Paths : NoDup (map jb_path jobs)).
  Context (Kids : forall j, In j jobs -> IsChild m0 (jb_path j)).
  Notation al := (alone reg strict every m0).
  Notation own := (own_error reg strict every m0).
  Context (Al : forall j, In j jobs -> jb_open j = None \/ exists e r, al j e r).
  (** At most one child fails on its own. *)
  Context (One : forall j j' e e', In j jobs -> In j' jobs -> own j e -> own j' e' -> j = j').
  Notation Inv := (inv reg strict every false m0 jobs).
  Lemma own_unique j e e' : own j e -> own j e' -> e = e'.
  Proof.
    intros [[-> O]|(de & r & -> & N & A)] [[-> O']|(de' & r' & -> & N' & A')].
    - reflexivity.
    - destruct A' as (i & f & m' & n & d & E & _). congruence.
    - destruct A as (i & f & m' & n & d & E & _). congruence.
    - destruct (alone_unique _ _ _ _ _ _ _ _ _ A A'). congruence.
  Qed.
  Record one (x : Shared * list (Job * gor)) : Prop := {
    o_cancel : sh_cancel (fst x) = false -> forall j, In (j, GCancel) (snd x) -> exists e, own j e;
    o_done : sh_cancel (fst x) = true -> exists j e, In (j, GDone) (snd x) /\ own j e;
    o_store : sh_cancel (fst x) = true -> forall j e, In (j, GStore e) (snd x) -> e = CDec DCtx
  }.
  Lemma one_init : one (c_init jobs m0).
  Proof. constructor; cbn; try discriminate. intros _ j H. apply in_map_iff in H as (? & [=] & _). Qed.
  Lemma gor_cancel j sh g sh' g' : gor_step reg strict every j sh g = (sh', g') -> g <> GCancel -> sh_cancel sh' = sh_cancel sh.
  Proof.
    destruct g; cbn [gor_step]; intros S N.
    - destruct (jb_open j) as [[i f]|]; injection S as <- <-; reflexivity.
    - destruct (raw_token _ _ _); [|injection S as <- <-; reflexivity..]. destruct (on_events _ _ _ _ _ _); [|injection S as <- <-; reflexivity].
      destruct (strict && _); [injection S as <- <-; reflexivity|]. destruct (_ && _); injection S as <- <-; reflexivity.
    - injection S as <- <-; reflexivity.
    - injection S as <- <-; reflexivity.
    - destruct (N eq_refl).
    - injection S as <- <-; reflexivity.
    - injection S as <- <-; reflexivity.
    - injection S as <- <-; reflexivity.
  Qed.
  Lemma gor_to j sh g sh' g' : gor_step reg strict every j sh g = (sh', g') -> live g = true ->
    (g' = GCancel -> exists e, g = GStore e) /\
    (forall e, g' = GStore e -> (g = GReady /\ jb_open j = None /\ e = COpenErr) \/ (exists e0, g = GPoll e0 /\ e = CDec (if sh_cancel sh then DCtx else e0) )).
  Proof.
    destruct g; cbn [gor_step]; intros S L; try discriminate L.
    - destruct (jb_open j) as [[i f]|]; injection S as <- <-; split; try discriminate. intros e [= <-]. left. auto.
    - destruct (raw_token _ _ _); [|injection S as <- <-; split; discriminate..]. destruct (on_events _ _ _ _ _ _); [|injection S as <- <-; split; discriminate].
      destruct (strict && _); [injection S as <- <-; split; discriminate|]. destruct (_ && _); injection S as <- <-; split; discriminate.
    - injection S as <- <-. split; [destruct (if sh_cancel sh then DCtx else e); discriminate|]. intros e1 H. right. exists e. split; [reflexivity|].
      destruct (if sh_cancel sh then DCtx else e); congruence.
    - injection S as <- <-. split; [eauto|discriminate].
    - injection S as <- <-. split; discriminate.
  Qed.
  Lemma in_jobs x rho j g : Inv x rho -> In (j, g) (snd x) -> In j jobs.
  Proof. intros V H. rewrite <- (v_jobs _ _ _ _ _ _ _ _ V). apply in_map_iff. exists (j, g). auto. Qed.
  (** Two of the same job are one. *)
  Lemma elsewhere a j g b sh rho g1 : Inv (sh, a ++ (j, g) :: b) rho -> ~ In (j, g1) (a ++ b).
  Proof. intros V H. eapply (other_path jobs Paths a j g b j g1); [exact (v_jobs _ _ _ _ _ _ _ _ V)|exact H|reflexivity]. Qed.
  Lemma in_split {A} (a b : list A) x z : In z (a ++ x :: b) -> z = x \/ In z (a ++ b).
  Proof. intros H. apply in_app_or in H as [H|[<-|H]]; [right; apply in_or_app; auto|left; reflexivity|right; apply in_or_app; auto]. Qed.
  Lemma split_in {A} (a b : list A) x z : z = x \/ In z (a ++ b) -> In z (a ++ x :: b).
  Proof. intros [->|H]; [apply in_or_app; right; left; reflexivity|]. apply in_app_or in H as [H|H]; apply in_or_app; [auto|right; right; exact H]. Qed.
  Lemma one_step x y rho : Inv x rho -> cstep reg strict every false x y -> one x -> one y.
  Proof.
    intros V T O. revert V O. destruct T as [sh a j g b sh' g' L S|sh l F C]; [|discriminate]. intros V [O1 O2 O3]. cbn [fst snd] in *.
    assert (Hin : In (j, g) (a ++ (j, g) :: b)) by (apply split_in; auto).
    pose proof (v_gors _ _ _ _ _ _ _ _ V j g Hin) as G. cbn [fst] in G. pose proof (in_jobs _ _ j g V Hin) as Hj.
    destruct (gor_to _ _ _ _ _ S L) as (T1 & T2).
    assert (D : g = GCancel \/ g <> GCancel) by (destruct g; (left; reflexivity) || (right; discriminate)). destruct D as [->|D].
    { injection S as <- <-. constructor; cbn [fst snd sh_cancel].
      - discriminate.
      - intros _. destruct (sh_cancel sh) eqn:C.
        + destruct (O2 eq_refl) as (k & e & K1 & K2). exists k, e. split; [|exact K2]. apply in_split in K1 as [[=]|K1]. apply split_in. auto.
        + destruct (O1 eq_refl j Hin) as (e & E). exists j, e. split; [apply split_in; auto|exact E].
      - intros _ k e K. apply in_split in K as [[=]|K]. assert (K' : In (k, GStore e) (a ++ (j, GCancel) :: b)) by (apply split_in; auto).
        destruct (sh_cancel sh) eqn:C; [exact (O3 eq_refl k e K')|]. destruct (O1 eq_refl j Hin) as (e1 & E1).
        pose proof (v_gors _ _ _ _ _ _ _ _ V _ _ K') as GK. cbn [fst ginv] in GK. destruct GK as [[_ GK]|GK]; [congruence|].
        pose proof (One k j _ _ (in_jobs _ _ _ _ V K') Hj GK E1) as ->. destruct (elsewhere _ _ _ _ _ _ _ V K). }
    pose proof (gor_cancel _ _ _ _ _ S D) as C. constructor; cbn [fst snd]; rewrite C.
    - intros F k K. apply in_split in K as [[= -> <-]|K]; [|apply (O1 F), split_in; auto]. destruct (T1 eq_refl) as (e & ->). cbn [ginv] in G.
      destruct G as [[_ G]|G]; [congruence|eauto].
    - intros F. destruct (O2 F) as (k & e & K1 & K2). exists k, e. split; [|exact K2]. apply in_split in K1 as [[= -> <-]|K1]; [discriminate L|apply split_in; auto].
    - intros F k e K. apply in_split in K as [[= -> <-]|K]; [|apply (O3 F k), split_in; auto].
      destruct (T2 e eq_refl) as [(-> & OP & ->)|(e0 & -> & ->)]; [|rewrite F; reflexivity].
      destruct (O2 F) as (k & e & K1 & K2). assert (OW : own j COpenErr) by (left; auto).
      pose proof (One k j _ _ (in_jobs _ _ _ _ V K1) Hj K2 OW) as ->. apply in_split in K1 as [[=]|K1]. destruct (elsewhere _ _ _ _ _ _ _ V K1).
  Qed.
  (** All errors about to be assigned are the same. *)
  Lemma same_store x rho j j' e e' : Inv x rho -> one x -> In (j, GStore e) (snd x) -> In (j', GStore e') (snd x) -> e = e'.
  Proof.
    intros V O H H'. destruct (sh_cancel (fst x)) eqn:C.
    - rewrite (o_store _ O C _ _ H), (o_store _ O C _ _ H'). reflexivity.
    - pose proof (v_gors _ _ _ _ _ _ _ _ V _ _ H) as G. pose proof (v_gors _ _ _ _ _ _ _ _ V _ _ H') as G'. cbn [ginv] in G, G'.
      destruct G as [[_ G]|G]; [congruence|]. destruct G' as [[_ G']|G']; [congruence|].
      pose proof (One j j' _ _ (in_jobs _ _ _ _ V H) (in_jobs _ _ _ _ V H') G G') as ->. eapply own_unique; eassumption.
  Qed.
  Definition whole (x : TState) : Prop := (forall j e, In (j, THalf e) (snd (snd x)) -> fst x = Some (dyn e)) /\
    ((forall j e, ~ In (j, THalf e) (snd (snd x))) -> fst x = option_map dyn (sh_errs (fst (snd x)))).
  Lemma in_unh l j e : In (j, THalf e) l -> In (j, GStore e) (map unh l).
  Proof. intros H. apply in_map_iff. exists (j, THalf e). auto. Qed.
  Lemma whole_step x y rho : Inv (untorn x) rho -> one (untorn x) -> tstep reg strict every false x y -> whole x -> whole y.
  Proof.
    intros V O T W. revert V O W. destruct T as [ty sh a j g b ty' sh' g' L S|ty sh l F C]; [|discriminate]. intros V O (W1 & W2). unfold whole. cbn [fst snd] in *.
    destruct (tgor_cases _ _ _ _ _ _ _ _ _ _ S) as [(e & -> & -> & -> & ->)|[(e & -> & -> & -> & ->)|(g0 & g1 & -> & N & -> & -> & T)]]; cbn [sh_errs].
    - split.
      + intros k e1 K. apply in_split in K as [[= _ <-]|K]; [reflexivity|]. assert (K' : In (k, THalf e1) (a ++ (j, TG (GStore e)) :: b)) by (apply split_in; auto).
        apply in_unh in K'. assert (e = e1) as ->; [|reflexivity]. eapply (same_store _ _ j k); [exact V|exact O| |exact K'].
        unfold untorn. cbn [snd]. apply in_map_iff. exists (j, TG (GStore e)). split; [reflexivity|apply split_in; auto].
      + intros H. destruct (H j e). apply split_in. auto.
    - assert (E : ty = Some (dyn e)) by (apply (W1 j), split_in; auto). split.
      + intros k e1 K. apply in_split in K as [[=]|K]. apply (W1 k), split_in. auto.
      + intros _. exact E.
    - split.
      + intros k e K. apply in_split in K as [[=]|K]. apply (W1 k), split_in. auto.
      + intros H. rewrite (gor_errs _ _ _ _ _ _ _ _ T N). apply W2. intros k e K. apply in_split in K as [[=]|K]. apply (H k e), split_in. auto.
  Qed.
  Lemma whole_steps x : tsteps reg strict every false (t_init jobs m0) x -> (exists rho, Inv (untorn x) rho) /\ one (untorn x) /\ whole x.
  Proof.
    remember (t_init jobs m0) as i eqn:I. induction 1 as [x|x y z _ IH T]; [subst|].
    - rewrite untorn_init. split; [exists (rho0 m0); apply inv_init; assumption|]. split; [apply one_init|]. split.
      + intros j e H. apply in_map_iff in H as (? & [=] & _).
      + reflexivity.
    - destruct (IH I) as ((rho & V) & O & W). split; [|split].
      + destruct (untorn_step _ _ _ _ _ _ T) as [->|C]; [eauto|]. eapply inv_step; eassumption.
      + destruct (untorn_step _ _ _ _ _ _ T) as [->|C]; [eauto|]. eapply one_step; eassumption.
      + eapply whole_step; eassumption.
  Qed.
  Lemma torn_whole m' ty data : torn_return reg strict every false jobs m0 m' ty data -> ty = option_map dyn data.
  Proof.
    intros (x & S & D & _ & <- & <-). destruct (whole_steps x S) as (_ & _ & _ & W). apply W. intros j e H.
    unfold t_done in D. rewrite Forall_forall in D. discriminate (D _ H).
  Qed.
End Whole.
(** ** Running a schedule *)
Section Run.
  Context (reg : Reg) (strict : bool) (every : nat).
  (** The k-th goroutine steps; [None] where it cannot. *)
  Fixpoint trun_at (k : nat) (ty : option etype) (sh : Shared) (l : list (Job * tgor)) : option TState :=
    match l with
    | [] => None
    | (j, g) :: r =>
        match k with
        | O => if tlive g then let '(ty', sh', g') := tgor_step reg strict every j ty sh g in Some (ty', (sh', (j, g') :: r)) else None
        | S k => match trun_at k ty sh r with Some (ty', (sh', r')) => Some (ty', (sh', (j, g) :: r')) | None => None end
        end
    end.
  Definition cancelled (x : TState) : TState := (fst x, (mkSh (sh_model (fst (snd x))) (sh_errs (fst (snd x))) true, snd (snd x))).
  Fixpoint trun (ks : list nat) (x : TState) : option TState :=
    match ks with
    | [] => Some x
    | k :: ks => match trun_at k (fst x) (fst (snd x)) (snd (snd x)) with Some y => trun ks y | None => None end
    end.
  Lemma trun_at_step outer k : forall ty sh l y, trun_at k ty sh l = Some y -> tstep reg strict every outer (ty, (sh, l)) y.
  Proof.
    assert (H : forall k ty sh l y, trun_at k ty sh l = Some y -> forall a, tstep reg strict every outer (ty, (sh, a ++ l)) (fst y, (fst (snd y), a ++ snd (snd y)))).
    { clear k. induction k as [|k IH]; intros ty sh [|[j g] l] y; cbn [trun_at]; try discriminate.
      - destruct (tlive g) eqn:L; [|discriminate]. destruct (tgor_step reg strict every j ty sh g) as [[ty' sh'] g'] eqn:E. intros [= <-] a. apply TStep; assumption.
      - destruct (trun_at k ty sh l) as [[ty' [sh' r']]|] eqn:E; [|discriminate]. intros [= <-] a. specialize (IH _ _ _ _ E (a ++ [(j, g)])). rewrite <- !app_assoc in IH. exact IH. }
    intros ty sh l [ty' [sh' l']] E. exact (H _ _ _ _ _ E []).
  Qed.
  Lemma trun_steps outer ks : forall x y z, tsteps reg strict every outer x y -> trun ks y = Some z -> tsteps reg strict every outer x z.
  Proof.
    induction ks as [|k ks IH]; intros x y z ST; cbn [trun]; [intros [= <-]; exact ST|].
    destruct (trun_at k _ _ _) as [y1|] eqn:E; [|discriminate]. intros H. destruct y as [ty [sh l]]. apply (trun_at_step outer) in E.
    eapply IH; [|exact H]. eapply TTrans; eassumption.
  Qed.
  Lemma trun_returns outer ks jobs m z : trun ks (t_init jobs m) = Some z -> t_done z -> torn_return reg strict every outer jobs m (sh_model (fst (snd z))) (fst z) (sh_errs (fst (snd z))).
  Proof. intros R D. exists z. split; [|auto]. eapply trun_steps; [apply TRefl|exact R]. Qed.
  (** The caller cancels in between. *)
  Lemma trun_cancel ks1 ks2 jobs m y z : trun ks1 (t_init jobs m) = Some y -> sh_cancel (fst (snd y)) = false -> trun ks2 (cancelled y) = Some z -> t_done z ->
    torn_return reg strict every true jobs m (sh_model (fst (snd z))) (fst z) (sh_errs (fst (snd z))).
  Proof.
    intros R C Q D. exists z. split; [|auto]. eapply trun_steps; [|exact Q]. eapply TTrans; [eapply trun_steps; [apply TRefl|exact R]|].
    destruct y as [ty [sh l]]. apply TOuter; [reflexivity|exact C].
  Qed.
End Run.
