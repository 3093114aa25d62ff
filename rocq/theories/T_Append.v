(** * Theorems about the elements of other namespaces of the children: C84 *)
From Coq Require Import Permutation.
From Verif Require Import GoBase AppendTypes M_Append S_Append P_Append.
Local Open Scope list_scope.

(** What holds: if at most one goroutine has something to append, the slice ends up with what it held and all the new
    elements, in their order, in every execution.  Missing: several goroutines, see below. *)
Theorem C84_kept_partial : forall (E : Type) (mem : Arrays E) h l progs s,
  SliceOf mem h l -> OneWriter progs -> msteps (m_init mem h progs) s -> m_done s ->
  SliceOf (fst (fst s)) (snd (fst s)) (l ++ concat progs) /\ AllKept (fst (fst s)) (snd (fst s)) l progs.
Proof.
  intros * SL W St D. enough (X : SliceOf (fst (fst s)) (snd (fst s)) (l ++ concat progs)) by (split; [exact X|exists (concat progs); split; [exact X|apply Permutation_refl]]).
  destruct (one_writer progs W) as [->|(a & p & b & -> & Fa & Fb)].
  - inversion St as [|? t ? St' L]; subst; [cbn; rewrite app_nil_r; exact SL|]. clear St D. exfalso. remember (m_init mem h []) as s0 eqn:E0. assert (m_done t).
    { clear L. induction St' as [|? t1 t2 St1 IH L]; subst; [constructor|]. destruct (no_steps t1 (IH eq_refl) _ L). }
    exact (no_steps t H _ L).
  - assert (S0 : Single l p (m_init mem h (a ++ p :: b))).
    { unfold m_init. exists (map (fun l => (start, l)) a), start, p, (map (fun l => (start, l)) b), []. cbn [fst snd]. rewrite map_app. split; [reflexivity|].
      split; [apply Forall_map; exact Fa|]. split; [apply Forall_map; exact Fb|]. split; [reflexivity|]. rewrite app_nil_r. split; [exact SL|]. repeat split; discriminate. }
    destruct (single_steps _ _ _ _ St S0) as (a' & k & r & b' & d & Es & _ & _ & Ep & At). unfold m_done in D. rewrite Es in D. apply Forall_app in D as [_ D]. apply Forall_inv in D. cbn [snd] in D. subst r.
    rewrite concat_app. cbn [concat]. rewrite (idle_concat a Fa), (idle_concat b Fb), app_nil_r. cbn [app]. rewrite Ep, app_nil_r.
    destruct k as [? ? ?|todo]; [exact (proj1 At)|]. destruct At as (x & r & [=] & _).
Qed.
Print Assumptions C84_kept_partial.
(** Executions end: none is infinite, and whoever is not done can go on. *)
Theorem C84_ends : forall (E : Type) (mem : Arrays E) h progs,
  (forall f : nat -> AState, f 0 = m_init mem h progs -> ~ forall n, mstep (f n) (f (S n))) /\
  (forall s, msteps (m_init mem h progs) s -> m_done s \/ exists t, mstep s t).
Proof.
  intros *. split; [|intros s _; apply can_step]. intros f _ H.
  assert (X : forall n, todo_all (snd (f n)) + n <= todo_all (snd (f 0))).
  { induction n as [|n IH]; [lia|]. pose proof (step_less _ _ (H n)). lia. }
  specialize (X (S (todo_all (snd (f 0))))). lia.
Qed.
Print Assumptions C84_ends.

(** ** False with two children *)
Ltac lf := cbn -[firstn]; eapply go_left.
Ltac rt := cbn -[firstn]; eapply go_right.
(** Both have one element: one is lost. *)
Theorem C84_lost_refuted : exists s, msteps (m_init [[]] (mkSH 0 0 0) [["a"]; ["b"]]) s /\ m_done s /\
  SliceOf (fst (fst s)) (snd (fst s)) ["b"] /\ ~ AllKept (fst (fst s)) (snd (fst s)) [] [["a"]; ["b"]].
Proof.
  eexists. split.
  - unfold m_init, start. cbn [map].
    lf; [apply LoadPtr|]. lf; [apply LoadLen|]. lf; [apply LoadCap|].
    rt; [apply LoadPtr|]. rt; [apply LoadLen|]. rt; [apply LoadCap|].
    lf; [apply Grow with (c' := 1); cbn; lia|]. rt; [apply Grow with (c' := 1); lia|].
    do 4 (lf; [apply (Store _ _ _ [])|]). do 4 (rt; [apply (Store _ _ _ [])|]). lf; [apply Next|]. rt; [apply Next|]. apply MRefl.
  - split; [repeat constructor|]. split; [repeat split; cbn; cbn; lia|]. intros (new & (H & _) & P). cbn in H. destruct new as [|x [|y new]]; cbn in H; try discriminate.
    apply Permutation_length in P. discriminate P.
Qed.
Print Assumptions C84_lost_refuted.
(** One has two elements: the length of one goroutine and the array of the other (each stores
    capacity, array, length and then the element, the order of the gc compiler), a slice that is longer than its
    array; whoever goes through it reads what is behind the array. *)
Theorem C84_torn_refuted : exists s, msteps (m_init [[]] (mkSH 0 0 0) [["a"; "b"]; ["c"]]) s /\ m_done s /\
  List.length (nth (sh_ptr (snd (fst s))) (fst (fst s)) []) < sh_len (snd (fst s)) /\
  forall l, ~ SliceOf (fst (fst s)) (snd (fst s)) l.
Proof.
  eexists. split.
  - unfold m_init, start. cbn [map].
    rt; [apply LoadPtr|]. rt; [apply LoadLen|]. rt; [apply LoadCap|].
    lf; [apply LoadPtr|]. lf; [apply LoadLen|]. lf; [apply LoadCap|].
    lf; [apply Grow with (c' := 1); cbn; lia|]. do 4 (lf; [apply (Store _ _ _ [])|]). lf; [apply Next|]. unfold start.
    lf; [apply LoadPtr|]. lf; [apply LoadLen|]. lf; [apply LoadCap|]. lf; [apply Grow with (c' := 2); cbn; lia|]. rt; [apply Grow with (c' := 1); lia|].
    lf; [apply (Store _ _ _ [_; _; _])|]. lf; [apply (Store _ _ _ [_])|].
    rt; [apply (Store _ _ _ [_; _; _])|]. rt; [apply (Store _ _ _ [_])|]. rt; [apply (Store _ _ _ [_])|].
    lf; [apply (Store _ _ _ [_])|]. lf; [apply (Store _ _ _ [])|]. rt; [apply (Store _ _ _ [])|]. lf; [apply Next|]. rt; [apply Next|]. apply MRefl.
  - split; [repeat constructor|]. cbn. split; [lia|]. intros l (_ & _ & H3 & H4). cbn in *. lia.
Qed.
Print Assumptions C84_torn_refuted.
Example C84_nonvacuous : SliceOf [[Some "z"; None]] (mkSH 0 1 2) ["z"] /\ OneWriter [[]; ["a"; "b"]; []] /\
  exists s, msteps (m_init [[Some "z"; None]] (mkSH 0 1 2) [[]; ["a"; "b"]]) s /\ m_done s /\ SliceOf (fst (fst s)) (snd (fst s)) ["z"; "a"; "b"].
Proof.
  split; [repeat split; cbn; cbn; lia|]. split.
  { intros [|[|[|i]]] [|[|[|j]]] x y Hi Hj Nx Ny; cbn in *; try congruence; try (destruct i; discriminate); try (destruct j; discriminate). }
  eexists. split.
  - unfold m_init, start. cbn [map].
    rt; [apply LoadCap|]. rt; [apply LoadLen|]. rt; [apply LoadPtr|]. rt; [apply InPlace; cbn; lia|]. do 2 (rt; [apply (Store _ _ _ [])|]). rt; [apply Next|]. unfold start.
    rt; [apply LoadPtr|]. rt; [apply LoadLen|]. rt; [apply LoadCap|]. rt; [apply Grow with (c' := 4); cbn; lia|]. do 4 (rt; [apply (Store _ _ _ [])|]). rt; [apply Next|]. apply MRefl.
  - split; [repeat constructor|]. repeat split; cbn; lia.
Qed.
