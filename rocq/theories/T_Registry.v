(** * C71: the registry of specs *)
From Verif Require Import GoBase RegTypes M_Registry S_Registry P_Registry.

(** spec/spec.go 16-18 says that Register panics when it is called twice for a namespace or with a nil spec.  It does neither:
    the second spec replaces the first, and a nil spec is loaded as if it were one, so that the caller panics. *)
Theorem C71_panics_refuted : exists ns v1 v2 evs1 s1 evs2 s2,
  v1 <> v2 /\
  RegExec [] [[ORegister ns v1; ORegister ns v2; OLoad ns]] evs1 s1 /\ In (EvReturn 0 (OLoad ns) (RValue v2 true)) evs1 /\
  RegExec [] [[ORegister ns SpecNil; OLoad ns]] evs2 s2 /\
  exists r, In (EvReturn 0 (OLoad ns) r) evs2 /\ call_loaded r = CallPanic.
Proof.
  exists "u", (SpecIs 0 true), (SpecIs 1 true). do 4 eexists. split; [discriminate|]. split; [|split; [|split; [|eexists; split]]].
  - eapply (run_sched_ok _ _ [0; 0; 0; 0; 0; 0; 0; 0; 0]); [apply RE_start | vm_compute; reflexivity].
  - cbn [In]. auto 12.
  - eapply (run_sched_ok _ _ [0; 0; 0; 0; 0; 0]); [apply RE_start | vm_compute; reflexivity].
  - cbn [In]. auto 12.
  - reflexivity.
Qed.

(** Full claim: that, and a spec, once registered, is what the lookups return.  What holds: every execution of any number of
    goroutines is sequential: the calls of each goroutine come in its order, each gets at the map once between its
    beginning and its end, and returns what it returns in that order, which for a lookup is the value registered last.
    Missing: the panics that the comment promises, see above. *)
Theorem C71_sequential_partial : forall specs progs evs s, RegExec specs progs evs s ->
  Sequential (fun ns => aget seq ns specs) evs /\
  (forall e, In e evs -> of_gor e < length progs) /\
  forall i p, nth_error progs i = Some p -> Calls i p (filter (fun e => Nat.eqb (of_gor e) i) evs).
Proof.
  intros specs progs evs s E. split; [apply (exec_map _ _ _ _ E)|]. split; [apply (exec_of _ _ _ _ E)|].
  intros i p Hp. destruct (exec_gor _ _ _ _ E) as (Ln & G).
  destruct (nth_error (rg_gors s) i) as [g|] eqn:Hg.
  - destruct (G i p g Hp Hg) as (l & -> & B). fold (mine i evs). rewrite B. apply calls_of.
  - apply nth_error_None in Hg. assert (i < length progs) by (apply nth_error_Some; congruence). lia.
Qed.
(** The map is never written while another goroutine gets at it *)
Theorem C71_no_race_partial : forall specs progs evs s i j o1 ops1 o2 ops2, RegExec specs progs evs s ->
  nth_error (rg_gors s) i = Some (mkGor (o1 :: ops1) Holding) -> nth_error (rg_gors s) j = Some (mkGor (o2 :: ops2) Holding) ->
  writes o1 = true -> i = j.
Proof.
  intros specs progs evs s i j o1 ops1 o2 ops2 E Hi Hj W. destruct (Nat.eq_dec i j) as [->|N]; [reflexivity|]. exfalso.
  pose proof (exec_lock _ _ _ _ E) as (L1 & L2 & L3 & L4).
  assert (Wi : writing (mkGor (o1 :: ops1) Holding) = true) by (unfold writing, inside; cbn [g_where g_calls andb]; exact W).
  destruct (writes o2) eqn:W2.
  - assert (Wj : writing (mkGor (o2 :: ops2) Holding) = true) by (unfold writing, inside; cbn [g_where g_calls andb]; exact W2).
    pose proof (count_two writing _ i j _ _ Hi Hj Wi Wj N). destruct (rg_writer s); cbn [b2n] in L2; lia.
  - assert (Rj : reading (mkGor (o2 :: ops2) Holding) = true) by (unfold reading, inside; cbn [g_where g_calls andb]; now rewrite W2).
    pose proof (count_pos _ _ _ _ Hj Rj). pose proof (count_pos _ _ _ _ Hi Wi).
    destruct (rg_writer s); cbn [b2n] in L2; [specialize (L3 eq_refl)|]; lia.
Qed.
(** Every call returns: as long as there are calls some goroutine can go on, and after three steps for each call none is left *)
Theorem C71_progress_partial : forall specs progs evs s, RegExec specs progs evs s ->
  length evs <= 3 * length (concat progs) /\
  ((exists e s', RegStep s e s') \/
   length evs = 3 * length (concat progs) /\ (forall g, In g (rg_gors s) -> g_calls g = []) /\ rg_readers s = 0 /\ rg_writer s = false).
Proof.
  intros specs progs evs s E. pose proof (exec_length _ _ _ _ E) as L. split; [lia|].
  destruct (left (rg_gors s)) as [|k] eqn:Z.
  - right. pose proof (exec_lock _ _ _ _ E) as K. pose proof (left_zero s K Z) as Fin. split; [lia|].
    assert (All : forall g, In g (rg_gors s) -> g_calls g = [] /\ g_where g = Before).
    { intros g Hg. apply In_nth_error in Hg as (i & Hi). eapply Fin; eauto. }
    split; [intros g Hg; apply (All g Hg)|]. destruct K as (L1 & L2 & _ & _).
    assert (None_in : forall f, (forall x, f x = true -> inside x = true) -> count f (rg_gors s) = 0).
    { intros f Hf. unfold count. revert All. generalize (rg_gors s). induction l as [|x l IH]; intros All; [reflexivity|]. cbn [filter].
      destruct (f x) eqn:Fx.
      - apply Hf in Fx. destruct (All x (or_introl eq_refl)) as (_ & Hw). unfold inside in Fx. now rewrite Hw in Fx.
      - apply IH. intros g Hg. apply All. now right. }
    rewrite (None_in reading) in L1 by (unfold reading; intros x Hx; now apply andb_true_iff in Hx as (Hx & _)).
    rewrite (None_in writing) in L2 by (unfold writing; intros x Hx; now apply andb_true_iff in Hx as (Hx & _)).
    split; [exact L1|]. destruct (rg_writer s); [discriminate L2 | reflexivity].
  - left. apply (exec_progress _ _ _ _ E).
    assert (X : forall l, left l <> 0 -> exists i g, nth_error l i = Some g /\ g_calls g <> []).
    { induction l as [|g l IH]; intros Hl; [now destruct Hl|]. destruct (g_calls g) as [|o ops] eqn:Eg.
      - destruct IH as (i & h & Hi & Hc).
        + cbn [left] in Hl. unfold left1 in Hl. rewrite Eg in Hl. cbn [length] in Hl. lia.
        + exists (S i), h. auto.
      - exists 0, g. split; [reflexivity|]. rewrite Eg. discriminate. }
    apply X. lia.
Qed.

(** Two goroutines: one registers while the other looks up *)
Example C71_nonvacuous : exists evs s,
  RegExec [] [[ORegister "u" (SpecIs 7 false)]; [OLoadValidator "u"; OLoad "u"]] evs s /\ length evs = 5 /\
  In (EvReturn 1 (OLoadValidator "u") (RValue SpecNil false)) evs /\ nth_error (rg_gors s) 0 = Some (mkGor [ORegister "u" (SpecIs 7 false)] (Done RDone)) /\
  nth_error (rg_gors s) 1 = Some (mkGor [OLoad "u"] Before).
Proof.
  do 2 eexists. split; [|split; [|split; [|split]]].
  - eapply (run_sched_ok _ _ [1; 1; 1; 0; 0]); [apply RE_start | vm_compute; reflexivity].
  - reflexivity.
  - cbn [In]. auto 8.
  - reflexivity.
  - reflexivity.
Qed.
Print Assumptions C71_panics_refuted.
Print Assumptions C71_sequential_partial.
Print Assumptions C71_no_race_partial.
Print Assumptions C71_progress_partial.
