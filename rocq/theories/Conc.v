(** * Goroutines that update one variable under one mutex

    The pattern of core.go 241-260 (Model.BoundingBox) and validate.go 371-408
    (Model.ValidateCoherency): one goroutine per task; each first computes, from
    data nobody writes, whether it has something to record; if so it locks the
    mutex, reads the shared variable, writes the updated value and unlocks.
    WaitGroup.Wait returns when all goroutines are done.  The scheduler may
    interleave the individual steps in any order. *)
From Coq Require Import Permutation.
From Verif Require Import GoBase.

Section Conc.
  Context {S : Type}.
  (** What a goroutine will do: nothing, or update the shared variable. *)
  Definition task := option (S -> S).

  Inductive thread :=
  | TStart (t : task)           (* not started *)
  | TWait (f : S -> S)          (* computed its update, about to lock *)
  | THold (f : S -> S)          (* holds the mutex *)
  | TLoaded (f : S -> S) (v : S)  (* has read the shared variable *)
  | TStored                     (* has written it, still holds the mutex *)
  | TDone.
  Record state := mkState { shared : S; locked : bool; threads : list thread }.

  Inductive step : state -> state -> Prop :=
  | StepNothing s lk a b :
      step (mkState s lk (a ++ TStart None :: b)) (mkState s lk (a ++ TDone :: b))
  | StepCompute s lk a b f :
      step (mkState s lk (a ++ TStart (Some f) :: b)) (mkState s lk (a ++ TWait f :: b))
  | StepLock s a b f :
      step (mkState s false (a ++ TWait f :: b)) (mkState s true (a ++ THold f :: b))
  | StepLoad s lk a b f :
      step (mkState s lk (a ++ THold f :: b)) (mkState s lk (a ++ TLoaded f s :: b))
  | StepStore s lk a b f v :
      step (mkState s lk (a ++ TLoaded f v :: b)) (mkState (f v) lk (a ++ TStored :: b))
  | StepUnlock s lk a b :
      step (mkState s lk (a ++ TStored :: b)) (mkState s false (a ++ TDone :: b)).
  Inductive steps : state -> state -> Prop :=
  | StepsRefl s : steps s s
  | StepsTrans s1 s2 s3 : steps s1 s2 -> step s2 s3 -> steps s1 s3.

  Definition init (s : S) (ts : list task) : state := mkState s false (map TStart ts).
  Definition all_done (st : state) : Prop := Forall (fun t => t = TDone) (threads st).
  (** [r] is a possible value of the shared variable after Wait. *)
  Definition outcome (s : S) (ts : list task) (r : S) : Prop :=
    exists st, steps (init s ts) st /\ all_done st /\ shared st = r.

  (** ** Serialisation *)
  Definition opt_list {A} (o : option A) : list A := match o with Some x => [x] | None => [] end.
  Definition pend (t : thread) : list (S -> S) :=
    match t with
    | TStart t => opt_list t | TWait f | THold f | TLoaded f _ => [f] | TStored | TDone => []
    end.
  Definition crit (t : thread) : nat :=
    match t with THold _ | TLoaded _ _ | TStored => 1 | _ => 0 end.
  Definition ncrit (l : list thread) : nat := list_sum (map crit l).
  Definition apply_all (fs : list (S -> S)) (s : S) : S := fold_left (fun s f => f s) fs s.
  Definition updates (ts : list task) : list (S -> S) := concat (map opt_list ts).

  Definition Inv (s0 : S) (ts : list task) (st : state) : Prop :=
    ncrit (threads st) = (if locked st then 1 else 0) /\
    (forall f v, In (TLoaded f v) (threads st) -> v = shared st) /\
    exists order, shared st = apply_all order s0 /\
      Permutation (order ++ concat (map pend (threads st))) (updates ts).

  Arguments ncrit : simpl never.
  Lemma ncrit_app a b : ncrit (a ++ b) = ncrit a + ncrit b.
  Proof. unfold ncrit. rewrite map_app, list_sum_app. reflexivity. Qed.
  Lemma ncrit_cons t b : ncrit (t :: b) = crit t + ncrit b.
  Proof. reflexivity. Qed.
  Lemma ncrit_loaded l f v : In (TLoaded f v) l -> 1 <= ncrit l.
  Proof.
    intros H. apply in_split in H as (a & b & ->). rewrite ncrit_app, ncrit_cons. cbn. lia.
  Qed.

  Lemma inv_init s0 ts : Inv s0 ts (init s0 ts).
  Proof.
    unfold Inv, init; cbn. split; [|split].
    - induction ts; cbn; auto.
    - intros f v H. apply in_map_iff in H as (x & H & _); discriminate.
    - exists []. split; [reflexivity|]. cbn. unfold updates. rewrite map_map. apply Permutation_refl.
  Qed.

  Ltac pends := rewrite ?map_app, ?concat_app; cbn [map concat pend opt_list app].

  Lemma inv_step s0 ts st st' : Inv s0 ts st -> step st st' -> Inv s0 ts st'.
  Proof.
    intros (Hc & Hl & order & Hs & HP) Hst; destruct Hst; cbn [threads locked shared] in *; rewrite ncrit_app, ncrit_cons in Hc; cbn [crit Nat.add] in Hc.
    - split; [|split]; cbn [threads locked shared].
      + rewrite ncrit_app, ncrit_cons; exact Hc.
      + intros f v H. apply (Hl f v). apply in_app_iff in H as [H|[H|H]]; try discriminate;
          apply in_app_iff; cbn; tauto.
      + exists order; split; [exact Hs|]. revert HP. pends. auto.
    - split; [|split]; cbn [threads locked shared].
      + rewrite ncrit_app, ncrit_cons; exact Hc.
      + intros g v H. apply (Hl g v). apply in_app_iff in H as [H|[H|H]]; try discriminate;
          apply in_app_iff; cbn; tauto.
      + exists order; split; [exact Hs|]. revert HP. pends. auto.
    - split; [|split]; cbn [threads locked shared].
      + rewrite ncrit_app, ncrit_cons; cbn. lia.
      + intros g v H. apply (Hl g v). apply in_app_iff in H as [H|[H|H]]; try discriminate;
          apply in_app_iff; cbn; tauto.
      + exists order; split; [exact Hs|]. revert HP. pends. auto.
    - split; [|split]; cbn [threads locked shared].
      + rewrite ncrit_app, ncrit_cons; exact Hc.
      + intros g v H. apply in_app_iff in H as [H|[H|H]].
        * apply (Hl g v). apply in_app_iff; cbn; tauto.
        * congruence.
        * apply (Hl g v). apply in_app_iff; cbn; tauto.
      + exists order; split; [exact Hs|]. revert HP. pends. auto.
    - assert (v = s) as -> by (apply (Hl f v); apply in_app_iff; cbn; tauto).
      split; [|split]; cbn [threads locked shared].
      + rewrite ncrit_app, ncrit_cons; exact Hc.
      + intros g v H. exfalso.
        assert (1 <= ncrit a \/ 1 <= ncrit b).
        { apply in_app_iff in H as [H|[H|H]]; [left|discriminate|right]; eapply ncrit_loaded; eassumption. }
        destruct lk; lia.
      + exists (order ++ [f]). split.
        * rewrite Hs. unfold apply_all. rewrite fold_left_app. reflexivity.
        * eapply Permutation_trans; [|exact HP]. pends. rewrite <- app_assoc. apply Permutation_app_head.
          cbn. apply Permutation_middle.
    - split; [|split]; cbn [threads locked shared].
      + rewrite ncrit_app, ncrit_cons; cbn. destruct lk; lia.
      + intros g v H. apply (Hl g v). apply in_app_iff in H as [H|[H|H]]; try discriminate;
          apply in_app_iff; cbn; tauto.
      + exists order; split; [exact Hs|]. revert HP. pends. auto.
  Qed.
  Lemma inv_steps s0 ts st st' : Inv s0 ts st -> steps st st' -> Inv s0 ts st'.
  Proof. intros Hi H; induction H; [exact Hi|]. eapply inv_step; [apply IHsteps; exact Hi|eassumption]. Qed.

  Lemma outcome_serial s0 ts r : outcome s0 ts r ->
    exists order, Permutation order (updates ts) /\ r = apply_all order s0.
  Proof.
    intros (st & Hs & Hd & <-). destruct (inv_steps _ _ _ _ (inv_init s0 ts) Hs) as (_ & _ & order & Ho & HP).
    exists order. split; [|exact Ho].
    assert (E : concat (map pend (threads st)) = []).
    { clear HP. unfold all_done in Hd. induction Hd as [|t l Ht _ IH]; [reflexivity|]. subst. exact IH. }
    rewrite E, app_nil_r in HP. exact HP.
  Qed.

  (** ** No deadlock, and termination: every step decreases the work left. *)
  Definition work (t : thread) : nat :=
    match t with TStart _ => 5 | TWait _ => 4 | THold _ => 3 | TLoaded _ _ => 2 | TStored => 1 | TDone => 0 end.
  Definition total_work (st : state) : nat := list_sum (map work (threads st)).
  Lemma step_work st st' : step st st' -> total_work st' < total_work st.
  Proof.
    intros H; destruct H; unfold total_work; cbn; rewrite !map_app, !list_sum_app; cbn; lia.
  Qed.
  Lemma progress s0 ts st : steps (init s0 ts) st -> all_done st \/ exists st', step st st'.
  Proof.
    intros H. pose proof (inv_steps _ _ _ _ (inv_init s0 ts) H) as (Hc & _ & _). destruct st as [s lk l]; cbn [threads locked shared] in *.
    destruct lk.
    - (* some thread is inside the critical section: it can move *)
      right. assert (exists a t b, l = a ++ t :: b /\ crit t = 1) as (a & t & b & -> & Ht).
      { clear H. induction l as [|t l IH]; [discriminate|]. rewrite ncrit_cons in Hc.
        destruct (crit t) eqn:E.
        - destruct (IH Hc) as (a & t' & b & -> & Ht). exists (t :: a), t', b; auto.
        - exists [], t, l. split; [reflexivity|]. destruct t; cbn in *; lia. }
      destruct t; try discriminate; eexists; [apply StepLoad|apply StepStore|apply StepUnlock].
    - destruct (Forall_Exists_dec (fun t => t = TDone) (fun t => match t with TDone => left eq_refl | _ => ltac:(right; discriminate) end) l) as [Hd|He].
      + left; exact Hd.
      + right. apply Exists_exists in He as (t & Hin & Hne). apply in_split in Hin as (a & b & ->).
        rewrite ncrit_app, ncrit_cons in Hc.
        destruct t as [[f|]|f|f|f v| |]; cbn in Hc; try lia; try congruence; eexists;
          [apply StepCompute|apply StepNothing|apply StepLock].
  Qed.
  (** Every order of the updates is the outcome of some schedule. *)
  Lemma outcome_exists s0 ts : exists r, outcome s0 ts r.
  Proof.
    assert (H : forall n st, total_work st <= n -> steps (init s0 ts) st -> exists r, outcome s0 ts r).
    { induction n as [|n IH]; intros st Hw Hs.
      - destruct (progress _ _ _ Hs) as [Hd|(st' & H)].
        + exists (shared st), st; auto.
        + apply step_work in H. lia.
      - destruct (progress _ _ _ Hs) as [Hd|(st' & H)].
        + exists (shared st), st; auto.
        + apply (IH st').
          * apply step_work in H; lia.
          * eapply StepsTrans; eassumption. }
    apply (H _ _ (le_n _) (StepsRefl _)).
  Qed.
  Lemma steps_app s1 s2 s3 : steps s1 s2 -> steps s2 s3 -> steps s1 s3.
  Proof.
    intros H1 H2; induction H2 as [s|a b c Hab IH Hbc]; [exact H1|].
    eapply StepsTrans; [apply IH; exact H1|exact Hbc].
  Qed.

  (** In the order of the tasks: one after the other. *)
  Lemma outcome_sequential s0 ts : outcome s0 ts (apply_all (updates ts) s0).
  Proof.
    assert (H : forall ts' s d, Forall (fun t => t = TDone) d ->
      exists st, steps (mkState s false (d ++ map TStart ts')) st /\ all_done st /\
                 shared st = apply_all (updates ts') s).
    { induction ts' as [|t ts' IH]; intros s d Hd.
      - exists (mkState s false d). cbn. rewrite app_nil_r. split; [constructor|split; [exact Hd|reflexivity]].
      - assert (Hd' : Forall (fun t => t = TDone) (d ++ [TDone])) by (apply Forall_app; auto).
        destruct t as [f|].
        + destruct (IH (f s) _ Hd') as (st & Hs & Ha & Hr). exists st. split; [|split; [exact Ha|exact Hr]].
          eapply steps_app; [|exact Hs]. rewrite <- app_assoc. cbn [app map].
          do 5 (eapply StepsTrans; [|constructor]). constructor.
        + destruct (IH s _ Hd') as (st & Hs & Ha & Hr). exists st. split; [|split; [exact Ha|exact Hr]].
          eapply steps_app; [|exact Hs]. rewrite <- app_assoc. cbn [app map].
          eapply StepsTrans; [|constructor]. constructor. }
    destruct (H ts s0 [] ltac:(constructor)) as (st & Hs & Ha & Hr). exists st; auto.
  Qed.

  (** Conversely every order of the updates is realised by some schedule. *)
  Definition idle (t : thread) : Prop := match t with TStart _ | TDone => True | _ => False end.
  Lemma run_none s l : Forall idle l -> concat (map pend l) = [] ->
    forall d, Forall (fun t => t = TDone) d ->
    exists l', steps (mkState s false (d ++ l)) (mkState s false l') /\ Forall (fun t => t = TDone) l'.
  Proof.
    induction l as [|t l IH]; intros Hi Hp d Hd.
    - exists d. rewrite app_nil_r. split; [constructor|exact Hd].
    - inversion_clear Hi as [|? ? Ht Hl]. cbn in Hp. apply app_eq_nil in Hp as [Hp1 Hp2].
      assert (Hd' : Forall (fun t => t = TDone) (d ++ [TDone])) by (apply Forall_app; auto).
      destruct (IH Hl Hp2 (d ++ [TDone]) Hd') as (l' & Hs & Hf). exists l'. split; [|exact Hf].
      rewrite <- app_assoc in Hs. cbn in Hs.
      destruct t as [[f|]| | | | |]; cbn in *; try contradiction; try discriminate.
      + eapply steps_app; [|exact Hs]. eapply StepsTrans; [constructor|]. apply StepNothing.
      + exact Hs.
  Qed.
  Lemma run_order order : forall s l, Forall idle l -> Permutation order (concat (map pend l)) ->
    exists l', steps (mkState s false l) (mkState (apply_all order s) false l') /\ Forall (fun t => t = TDone) l'.
  Proof.
    induction order as [|f order IH]; intros s l Hi HP.
    - apply Permutation_nil in HP. destruct (run_none s l Hi HP [] ltac:(constructor)) as (l' & H1 & H2). exists l'; auto.
    - assert (Hin : In f (concat (map pend l))) by (rewrite <- HP; left; reflexivity).
      apply in_concat in Hin as (k & Hk & Hf). apply in_map_iff in Hk as (t & <- & Ht).
      apply in_split in Ht as (a & b & ->). apply Forall_app in Hi as [Ha Hb]. inversion_clear Hb as [|? ? Ht Hb'].
      destruct t as [[g|]| | | | |]; cbn in *; try contradiction. destruct Hf as [<-|[]].
      destruct (IH (g s) (a ++ TDone :: b)) as (l' & H1 & H2).
      + apply Forall_app; split; [exact Ha|constructor; [exact I|exact Hb']].
      + apply (Permutation_cons_inv (a := g)). eapply Permutation_trans; [exact HP|].
        pends. apply Permutation_sym, Permutation_middle.
      + exists l'. split; [|exact H2]. eapply steps_app; [|exact H1].
        do 5 (eapply StepsTrans; [|constructor]). constructor.
  Qed.
  Lemma outcome_order s0 ts order : Permutation order (updates ts) -> outcome s0 ts (apply_all order s0).
  Proof.
    intros HP. destruct (run_order order s0 (map TStart ts)) as (l' & H1 & H2).
    - apply Forall_forall. intros t Ht. apply in_map_iff in Ht as (x & <- & _). exact I.
    - rewrite map_map. exact HP.
    - exists (mkState (apply_all order s0) false l'). auto.
  Qed.
End Conc.
Arguments task : clear implicits.
