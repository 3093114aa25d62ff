(** * Proofs about the registry of specs *)
From Verif Require Import GoBase RegTypes M_Registry S_Registry.

Definition count (f : Gor -> bool) (l : list Gor) : nat := length (filter f l).
Definition b2n (b : bool) : nat := if b then 1 else 0.
Definition inside (g : Gor) : bool := match g_where g with Before => false | _ => true end.
Definition reading (g : Gor) : bool := inside g && match g_calls g with o :: _ => negb (writes o) | [] => false end.
Definition writing (g : Gor) : bool := inside g && match g_calls g with o :: _ => writes o | [] => false end.

Lemma nth_split_set l i (g : Gor) : nth_error l i = Some g -> exists l1 l2, l = l1 ++ g :: l2 /\ length l1 = i /\ forall g', set_gor i g' l = l1 ++ g' :: l2.
Proof.
  intros H. destruct (nth_error_split l i H) as (l1 & l2 & -> & L). exists l1, l2. split; [reflexivity|]. split; [exact L|].
  intros g'. unfold set_gor. rewrite <- L. rewrite firstn_app, firstn_all, Nat.sub_diag. cbn [firstn]. rewrite app_nil_r. f_equal. f_equal.
  rewrite skipn_app. rewrite skipn_all2 by lia. now replace (S (length l1) - length l1) with 1 by lia.
Qed.
Lemma count_set f l i g g' : nth_error l i = Some g -> count f (set_gor i g' l) + b2n (f g) = count f l + b2n (f g').
Proof.
  intros H. destruct (nth_split_set l i g H) as (l1 & l2 & -> & _ & E). rewrite E. unfold count. rewrite !filter_app, !app_length. cbn [filter].
  destruct (f g), (f g'); cbn [b2n length]; lia.
Qed.
Lemma nth_set_same l i g g' : nth_error l i = Some g -> nth_error (set_gor i g' l) i = Some g'.
Proof.
  intros H. destruct (nth_split_set l i g H) as (l1 & l2 & _ & L & E). rewrite E. rewrite nth_error_app2 by lia. rewrite L, Nat.sub_diag. reflexivity.
Qed.
Lemma nth_set_other l i j g g' : nth_error l i = Some g -> i <> j -> nth_error (set_gor i g' l) j = nth_error l j.
Proof.
  intros H N. destruct (nth_split_set l i g H) as (l1 & l2 & -> & L & E). rewrite E. destruct (lt_dec j (length l1)) as [D|D].
  - now rewrite !nth_error_app1 by exact D.
  - rewrite !nth_error_app2 by lia. destruct (j - length l1) as [|k] eqn:Ek; [lia|reflexivity].
Qed.
Lemma count_pos f l i g : nth_error l i = Some g -> f g = true -> 0 < count f l.
Proof.
  intros H F. destruct (nth_error_split l i H) as (l1 & l2 & -> & L). unfold count. rewrite filter_app, app_length. cbn [filter]. rewrite F. cbn [length]. lia.
Qed.
Lemma count_two f l i j g h : nth_error l i = Some g -> nth_error l j = Some h -> f g = true -> f h = true -> i <> j -> 2 <= count f l.
Proof.
  intros Hi Hj Fg Fh N.
  destruct (nth_error_split l i Hi) as (l1 & l2 & -> & L). unfold count. rewrite filter_app, app_length. cbn [filter]. rewrite Fg. cbn [length].
  destruct (lt_dec j (length l1)) as [D|D].
  - rewrite nth_error_app1 in Hj by exact D. pose proof (count_pos f l1 j h Hj Fh). unfold count in *. lia.
  - rewrite nth_error_app2 in Hj by lia. destruct (j - length l1) as [|k] eqn:Ek; [lia|]. cbn [nth_error] in Hj.
    pose proof (count_pos f l2 k h Hj Fh). unfold count in *. lia.
Qed.

(** The mutex: its readers and its writer are the goroutines inside their calls *)
Definition LockInv (s : Reg) : Prop :=
  rg_readers s = count reading (rg_gors s) /\ b2n (rg_writer s) = count writing (rg_gors s) /\
  (rg_writer s = true -> rg_readers s = 0) /\
  (forall i g, nth_error (rg_gors s) i = Some g -> inside g = true -> g_calls g <> []).

Lemma lock_start specs progs : LockInv (reg_start specs progs).
Proof.
  unfold reg_start. split; [|split; [|split]]; cbn [rg_readers rg_writer rg_gors b2n].
  - unfold count. induction progs as [|p progs IH]; [reflexivity | exact IH].
  - unfold count. induction progs as [|p progs IH]; [reflexivity | exact IH].
  - discriminate.
  - intros i g H. apply nth_error_In in H. apply in_map_iff in H as (p & <- & _). discriminate.
Qed.
Lemma lock_step s e s' : LockInv s -> RegStep s e s' -> LockInv s'.
Proof.
  intros (L1 & L2 & L3 & L4) St.
  assert (Keep : forall i g g', nth_error (rg_gors s) i = Some g -> (inside g' = true -> g_calls g' <> []) ->
    forall j h, nth_error (set_gor i g' (rg_gors s)) j = Some h -> inside h = true -> g_calls h <> []).
  { intros i g g' H Hg j h Hj. destruct (Nat.eq_dec i j) as [<-|N].
    - rewrite (nth_set_same _ _ _ _ H) in Hj. injection Hj as <-. exact Hg.
    - rewrite (nth_set_other _ _ _ _ _ H N) in Hj. exact (L4 j h Hj). }
  inversion St as [s0 i o ops H W R Wr|s0 i o ops H W Wr|s0 i o ops specs r H M|s0 i o ops r H W|s0 i o ops r H W]; subst;
    match goal with |- LockInv (mkReg _ _ _ (set_gor i ?g' _)) =>
      pose proof (count_set reading _ i _ g' H) as Cr; pose proof (count_set writing _ i _ g' H) as Cw end;
    cbn [reading writing inside g_where g_calls] in Cr, Cw; unfold reading, writing, inside in Cr, Cw; cbn [g_where g_calls] in Cr, Cw;
    (split; [|split; [|split]]); cbn [rg_readers rg_writer rg_gors]; try (eapply Keep; [exact H | discriminate]); try (eapply Keep; [exact H | intros X; discriminate X]);
    unfold reading, writing, inside in *; try rewrite W in *; cbn [andb negb b2n] in *; try rewrite ?Wr in *; cbn [b2n] in *.
  all: try lia; try discriminate; try (intros; lia).
  all: destruct (rg_writer s), (writes o); cbn [andb negb b2n] in *; try lia; try (intros _; specialize (L3 eq_refl); lia); try discriminate.
Qed.

Lemma exec_lock specs progs evs s : RegExec specs progs evs s -> LockInv s.
Proof. induction 1 as [|evs s e s' E IH St]; [apply lock_start | eapply lock_step; eauto]. Qed.

(** The map holds what was registered last *)
Lemma order_app a b acc : order (a ++ b) acc = order b (order a acc).
Proof. revert acc. induction a as [|e a IH]; intros acc; cbn [app order]; [reflexivity|]. destruct e; apply IH. Qed.
Lemma exec_map specs progs evs s : RegExec specs progs evs s ->
  (forall ns, aget seq ns (rg_specs s) = registered (fun ns => aget seq ns specs) (order evs []) ns) /\
  Sequential (fun ns => aget seq ns specs) evs.
Proof.
  induction 1 as [|evs s e s' E (M & Sq) St].
  - split; [reflexivity|]. intros pre i o r post H. destruct pre; discriminate.
  - assert (Sq' : (forall i o r, e = EvMap i o r -> returns (fun ns => aget seq ns specs) (order evs []) o r) -> Sequential (fun ns => aget seq ns specs) (evs ++ [e])).
    { intros Hn pre i o r post H. destruct post as [|x post'] using rev_ind.
      - apply app_inj_tail in H as (<- & ->). eapply Hn. reflexivity.
      - clear IHpost'. rewrite app_comm_cons, app_assoc in H. apply app_inj_tail in H as (H & _). eapply Sq; eauto. }
    rewrite order_app.
    inversion St as [s0 i o ops H W R Wr|s0 i o ops H W Wr|s0 i o ops sp r H Mp|s0 i o ops r H W|s0 i o ops r H W]; subst;
      cbn [order rg_specs]; try (split; [exact M | apply Sq'; discriminate]).
    split.
    + intros ns. destruct o as [k v|k|k]; cbn [on_map] in Mp; injection Mp as <- <-; cbn [registered]; [|apply M|apply M].
      fold (seq k ns). destruct (seq_spec k ns) as [->|N].
      * apply aget_aset_same. exact seq_spec.
      * rewrite aget_aset_other; [apply M | exact seq_spec | now apply not_eq_sym].
    + apply Sq'. intros i' o' r' [= <- <- <-]. destruct o as [k v|k|k]; cbn [on_map] in Mp; injection Mp as _ <-; cbn [returns].
      * reflexivity.
      * now rewrite M.
      * rewrite M. destruct (registered (fun ns => aget seq ns specs) (order evs []) k) as [[|id [|]]|]; reflexivity.
Qed.

(** What each goroutine has done *)
Definition full (i : nat) (l : list (RegOp * RegOut)) : list RegEv :=
  flat_map (fun '(o, r) => [EvBegin i o; EvMap i o r; EvReturn i o r]) l.
Definition part (i : nat) (g : Gor) : list RegEv :=
  match g_where g, g_calls g with
  | Holding, o :: _ => [EvBegin i o]
  | Done r, o :: _ => [EvBegin i o; EvMap i o r]
  | _, _ => []
  end.
Definition mine (i : nat) (evs : list RegEv) : list RegEv := filter (fun e => Nat.eqb (of_gor e) i) evs.
Definition GorInv (progs : list (list RegOp)) (evs : list RegEv) (s : Reg) : Prop :=
  length (rg_gors s) = length progs /\
  forall i p g, nth_error progs i = Some p -> nth_error (rg_gors s) i = Some g ->
    exists l, p = map fst l ++ g_calls g /\ mine i evs = full i l ++ part i g.

Lemma set_length i g l : i < length l -> length (set_gor i g l) = length l.
Proof. intros H. unfold set_gor. rewrite app_length. cbn [length]. rewrite firstn_length, skipn_length. lia. Qed.
Lemma mine_app i a b : mine i (a ++ b) = mine i a ++ mine i b.
Proof. apply filter_app. Qed.
Lemma exec_gor specs progs evs s : RegExec specs progs evs s -> GorInv progs evs s.
Proof.
  induction 1 as [|evs s e s' E (Ln & G) St].
  - unfold reg_start. split; cbn [rg_gors]; [apply map_length|]. intros i p g Hp Hg. rewrite nth_error_map, Hp in Hg. injection Hg as <-.
    exists []. split; reflexivity.
  - assert (Go : forall i g g' sp rd wr, s' = mkReg sp rd wr (set_gor i g' (rg_gors s)) -> nth_error (rg_gors s) i = Some g -> of_gor e = i ->
      (forall p l, p = map fst l ++ g_calls g -> mine i evs = full i l ++ part i g ->
         exists l', p = map fst l' ++ g_calls g' /\ mine i evs ++ [e] = full i l' ++ part i g') -> GorInv progs (evs ++ [e]) s').
    { intros i g g' sp rd wr -> Hg He Hs. split; cbn [rg_gors].
      - rewrite set_length; [exact Ln|]. apply nth_error_Some. congruence.
      - intros j p h Hp Hh. rewrite mine_app. unfold mine at 2. cbn [filter]. rewrite He. destruct (Nat.eqb_spec i j) as [<-|N].
        + rewrite (nth_set_same _ _ _ _ Hg) in Hh. injection Hh as <-. destruct (G i p g Hp Hg) as (l & A & B). now apply (Hs p l).
        + rewrite app_nil_r. rewrite (nth_set_other _ _ _ _ _ Hg N) in Hh. now apply G. }
    inversion St as [s0 i o ops H W R Wr|s0 i o ops H W Wr|s0 i o ops sp r H Mp|s0 i o ops r H W|s0 i o ops r H W]; subst;
      (eapply Go; [reflexivity | exact H | reflexivity |]); intros p l A B; cbn [g_calls] in A; cbn [part g_where g_calls] in *.
    + exists l. split; [exact A|]. rewrite B. now rewrite app_nil_r.
    + exists l. split; [exact A|]. rewrite B. now rewrite app_nil_r.
    + exists l. split; [exact A|]. rewrite B. now rewrite <- app_assoc.
    + exists (l ++ [(o, r)]). rewrite map_app. cbn [map fst]. rewrite <- app_assoc. split; [exact A|]. rewrite B.
      unfold full. rewrite flat_map_app. cbn [flat_map app]. rewrite <- !app_assoc. reflexivity.
    + exists (l ++ [(o, r)]). rewrite map_app. cbn [map fst]. rewrite <- app_assoc. split; [exact A|]. rewrite B.
      unfold full. rewrite flat_map_app. cbn [flat_map app]. rewrite <- !app_assoc. reflexivity.
Qed.
Lemma calls_of i l g : Calls i (map fst l ++ g_calls g) (full i l ++ part i g).
Proof.
  induction l as [|[o r] l IH]; cbn [map full flat_map app fst].
  - unfold part. destruct (g_where g), (g_calls g); constructor.
  - constructor. exact IH.
Qed.
Lemma exec_of specs progs evs s : RegExec specs progs evs s -> forall e, In e evs -> of_gor e < length progs.
Proof.
  induction 1 as [|evs s e s' E IH St]; intros x Hx; [destruct Hx|]. apply in_app_or in Hx as [Hx|[<-|[]]]; [now apply IH|].
  destruct (exec_gor _ _ _ _ E) as (Ln & _). rewrite <- Ln. inversion St; subst; cbn [of_gor]; apply nth_error_Some; congruence.
Qed.

(** Some goroutine can go on *)
Lemma exec_progress specs progs evs s : RegExec specs progs evs s ->
  (exists i g, nth_error (rg_gors s) i = Some g /\ g_calls g <> []) -> exists e s', RegStep s e s'.
Proof.
  intros E (i & g & Hg & Hc). pose proof (exec_lock _ _ _ _ E) as (L1 & L2 & L3 & L4).
  (* somebody inside a call can go on *)
  assert (In1 : forall j h, nth_error (rg_gors s) j = Some h -> inside h = true -> exists e s', RegStep s e s').
  { intros j h Hh Hi. pose proof (L4 j h Hh Hi) as Hn. destruct h as [[|o ops] w]; [contradiction|]. cbn [inside g_where] in Hi. unfold inside in Hi. cbn [g_where] in Hi.
    destruct w as [| |r]; [discriminate| |].
    - destruct (on_map o (rg_specs s)) as [sp r] eqn:M. do 2 eexists. eapply St_map; eauto.
    - destruct (writes o) eqn:W; do 2 eexists; [eapply St_unlock | eapply St_runlock]; eauto. }
  destruct (existsb inside (rg_gors s)) eqn:Ex.
  - apply existsb_exists in Ex as (h & Hh & Hi). apply In_nth_error in Hh as (j & Hj). eapply In1; eauto.
  - (* the mutex is free *)
    assert (None_in : forall f, (forall x, f x = true -> inside x = true) -> count f (rg_gors s) = 0).
    { intros f Hf. unfold count. revert Ex. generalize (rg_gors s). induction l as [|x l IH]; [reflexivity|]. cbn [existsb filter].
      destruct (inside x) eqn:Ix; [discriminate|]. cbn [orb]. intros Ex. destruct (f x) eqn:Fx; [rewrite (Hf x Fx) in Ix; discriminate | now apply IH]. }
    rewrite (None_in reading) in L1 by (unfold reading; intros x Hx; now apply andb_true_iff in Hx as (Hx & _)).
    rewrite (None_in writing) in L2 by (unfold writing; intros x Hx; now apply andb_true_iff in Hx as (Hx & _)).
    assert (Wf : rg_writer s = false) by (destruct (rg_writer s); [discriminate L2 | reflexivity]).
    assert (Ib : inside g = false).
    { destruct (inside g) eqn:Ig; [|reflexivity]. rewrite <- Ex. symmetry. apply existsb_exists. exists g. split; [eapply nth_error_In; eauto | exact Ig]. }
    destruct g as [[|o ops] w]; [contradiction|]. unfold inside in Ib. cbn [g_where] in Ib. destruct w; try discriminate.
    destruct (writes o) eqn:W; do 2 eexists; [eapply St_lock | eapply St_rlock]; eauto.
Qed.
(** and only so many steps are possible *)
Definition left1 (g : Gor) : nat := 3 * length (g_calls g) - match g_where g with Before => 0 | Holding => 1 | Done _ => 2 end.
Fixpoint left (l : list Gor) : nat := match l with [] => 0 | g :: l => left1 g + left l end.
Lemma left_app a b : left (a ++ b) = left a + left b.
Proof. induction a as [|g a IH]; cbn [app left]; [reflexivity | rewrite IH; lia]. Qed.
Lemma step_left s e s' : RegStep s e s' -> left (rg_gors s) = S (left (rg_gors s')).
Proof.
  intros St. inversion St as [s0 i o ops H W R Wr|s0 i o ops H W Wr|s0 i o ops sp r H Mp|s0 i o ops r H W|s0 i o ops r H W]; subst; cbn [rg_gors];
    destruct (nth_split_set _ _ _ H) as (l1 & l2 & E1 & _ & E2); rewrite E2, E1, !left_app; cbn [left left1 g_calls g_where]; unfold left1; cbn [g_calls g_where length]; lia.
Qed.
Lemma exec_length specs progs evs s : RegExec specs progs evs s -> length evs + left (rg_gors s) = 3 * length (concat progs).
Proof.
  induction 1 as [|evs s e s' E IH St].
  - unfold reg_start. cbn [rg_gors length]. induction progs as [|p progs IH]; [reflexivity|]. cbn [map left concat]. rewrite app_length.
    unfold left1. cbn [g_calls g_where]. lia.
  - rewrite app_length. cbn [length]. apply step_left in St. lia.
Qed.
Lemma left_zero s : LockInv s -> left (rg_gors s) = 0 -> forall i g, nth_error (rg_gors s) i = Some g -> g_calls g = [] /\ g_where g = Before.
Proof.
  intros (_ & _ & _ & L4) Z i g H. assert (Zg : left1 g = 0).
  { clear - Z H. revert i H Z. generalize (rg_gors s). induction l as [|x l IH]; intros [|i] H Z; try discriminate; cbn [left] in Z.
    - injection H as <-. lia.
    - eapply IH; eauto. lia. }
  specialize (L4 i g H). unfold left1, inside in *. destruct g as [calls w]. cbn [g_calls g_where] in *. destruct calls as [|o ops]; cbn [length] in Zg.
  - split; [reflexivity|]. destruct w; [reflexivity | now destruct L4 | now destruct L4].
  - destruct w; lia.
Qed.

(** ** Executions of a given schedule, for examples *)
Definition step_fun (s : Reg) (i : nat) : option (RegEv * Reg) :=
  match nth_error (rg_gors s) i with
  | Some (mkGor (o :: ops) Before) =>
      if writes o then
        if Nat.eqb (rg_readers s) 0 && negb (rg_writer s) then
          Some (EvBegin i o, mkReg (rg_specs s) 0 true (set_gor i (mkGor (o :: ops) Holding) (rg_gors s)))
        else None
      else if negb (rg_writer s) then
        Some (EvBegin i o, mkReg (rg_specs s) (S (rg_readers s)) false (set_gor i (mkGor (o :: ops) Holding) (rg_gors s)))
      else None
  | Some (mkGor (o :: ops) Holding) =>
      let (sp, r) := on_map o (rg_specs s) in
      Some (EvMap i o r, mkReg sp (rg_readers s) (rg_writer s) (set_gor i (mkGor (o :: ops) (Done r)) (rg_gors s)))
  | Some (mkGor (o :: ops) (Done r)) =>
      Some (EvReturn i o r, mkReg (rg_specs s) (if writes o then rg_readers s else pred (rg_readers s)) (if writes o then false else rg_writer s)
                              (set_gor i (mkGor ops Before) (rg_gors s)))
  | _ => None
  end.
Lemma step_fun_ok s i e s' : step_fun s i = Some (e, s') -> RegStep s e s'.
Proof.
  unfold step_fun. destruct (nth_error (rg_gors s) i) as [[[|o ops] [| |r]]|] eqn:H; try discriminate.
  - destruct (writes o) eqn:W.
    + destruct (Nat.eqb_spec (rg_readers s) 0) as [R|]; [|discriminate]. destruct (rg_writer s) eqn:Wr; [discriminate|].
      cbn [andb negb]. intros [= <- <-]. now apply St_lock.
    + destruct (rg_writer s) eqn:Wr; [discriminate|]. cbn [negb]. intros [= <- <-]. now apply St_rlock.
  - destruct (on_map o (rg_specs s)) as [sp r] eqn:M. intros [= <- <-]. now apply St_map.
  - intros [= <- <-]. destruct (writes o) eqn:W; [now apply St_unlock | now apply St_runlock].
Qed.
Fixpoint run_sched (evs : list RegEv) (s : Reg) (sched : list nat) : option (list RegEv * Reg) :=
  match sched with
  | [] => Some (evs, s)
  | i :: sched => match step_fun s i with Some (e, s) => run_sched (evs ++ [e]) s sched | None => None end
  end.
Lemma run_sched_ok specs progs sched : forall evs s evs' s', RegExec specs progs evs s -> run_sched evs s sched = Some (evs', s') ->
  RegExec specs progs evs' s'.
Proof.
  induction sched as [|i sched IH]; intros evs s evs' s' E; cbn [run_sched].
  - now intros [= <- <-].
  - destruct (step_fun s i) as [[e s1]|] eqn:F; [|discriminate]. apply IH. econstructor; [exact E | now apply (step_fun_ok s i)].
Qed.
