(** * Proofs about the stack of the scanner *)
From Verif Require Import GoBase GoNum GoUtf8 GoFloat Types XmlTypes StackTypes S_Stack M_Xml M_Stack.

Inductive Path (mem : list Node) : option nat -> list nat -> Prop :=
| Pt_nil : Path mem None []
| Pt_cons p nd l : nth_error mem p = Some nd -> Path mem (nd_next nd) l -> Path mem (Some p) (p :: l).

Lemma nth_upd_same p nd (l : list Node) : p < length l -> nth_error (upd p nd l) p = Some nd.
Proof.
  intros H. unfold upd. rewrite nth_error_app2 by (rewrite firstn_length; lia).
  rewrite firstn_length_le by lia. now rewrite Nat.sub_diag.
Qed.
Lemma nth_upd_other p q nd (l : list Node) : p < length l -> p <> q -> nth_error (upd p nd l) q = nth_error l q.
Proof.
  intros H Hn. unfold upd. destruct (lt_dec q p) as [L|L].
  - rewrite nth_error_app1 by (rewrite firstn_length; lia).
    rewrite <- (firstn_skipn p l) at 2. now rewrite nth_error_app1 by (rewrite firstn_length; lia).
  - rewrite nth_error_app2 by (rewrite firstn_length; lia). rewrite firstn_length_le by lia.
    destruct (q - p) as [|k] eqn:E; [lia|]. cbn [nth_error].
    rewrite <- (firstn_skipn (S p) l) at 2. rewrite nth_error_app2 by (rewrite firstn_length; lia).
    rewrite firstn_length_le by lia. f_equal. lia.
Qed.
Lemma length_upd p nd (l : list Node) : p < length l -> length (upd p nd l) = length l.
Proof. intros H. unfold upd. rewrite app_length. cbn [length]. rewrite firstn_length, skipn_length. lia. Qed.
Lemma upd_upd p a b (l : list Node) : p < length l -> upd p b (upd p a l) = upd p b l.
Proof.
  intros H. unfold upd. f_equal.
  - rewrite firstn_app. rewrite firstn_firstn, Nat.min_id, firstn_length_le by lia. rewrite Nat.sub_diag.
    cbn [firstn]. apply app_nil_r.
  - f_equal. rewrite skipn_app. rewrite firstn_length_le by lia.
    rewrite (skipn_all2 (firstn p l)) by (rewrite firstn_length; lia).
    replace (S p - p) with 1 by lia. reflexivity.
Qed.
Lemma nth_lt (l : list Node) p nd : nth_error l p = Some nd -> p < length l.
Proof. intros H. apply nth_error_Some. congruence. Qed.

Lemma path_same mem mem' q l : (forall p, In p l -> nth_error mem' p = nth_error mem p) -> Path mem q l -> Path mem' q l.
Proof.
  intros H P. revert H. induction P as [|p nd l E P IH]; intros H; [constructor|].
  econstructor; [rewrite H; [exact E | now left]|]. apply IH. intros q Hq. apply H. now right.
Qed.
Lemma path_fun mem q l l' : Path mem q l -> Path mem q l' -> l = l'.
Proof.
  intros P. revert l'. induction P as [|p nd l E P IH]; intros l' P'; inversion P'; subst; [reflexivity|].
  f_equal. apply IH. congruence.
Qed.

Lemma path_lt mem a l q : Path mem a l -> In q l -> q < length mem.
Proof.
  intros P. induction P as [|p nd l E P IH]; [intros []|]. intros [<-|H]; [eapply nth_lt; eauto | auto].
Qed.

(** The entries held by the nodes of a path *)
Inductive Held (mem : list Node) : list nat -> list Entry -> Prop :=
| H_nil : Held mem [] []
| H_cons p nd e l s : nth_error mem p = Some nd -> holds nd e -> Held mem l s -> Held mem (p :: l) (e :: s).
Lemma held_same mem mem' l s : (forall p, In p l -> nth_error mem' p = nth_error mem p) -> Held mem l s -> Held mem' l s.
Proof.
  intros H P. revert H. induction P as [|p nd e l s E Hh P IH]; intros H; [constructor|].
  econstructor; [rewrite H; [exact E | now left] | exact Hh |]. apply IH. intros q Hq. apply H. now right.
Qed.
Lemma held_length mem l s : Held mem l s -> length l = length s.
Proof. induction 1; cbn [length]; congruence. Qed.
Lemma held_reads mem q l s : Path mem q l -> Held mem l s -> Reads mem q s.
Proof.
  intros P. revert s. induction P as [|p nd l E P IH]; intros s H; inversion H as [|p' nd' e l' s' E' Hh H' E1 E2]; subst; [constructor|].
  replace nd' with nd in * by congruence. econstructor; eauto.
Qed.

(** The stack and the free list share nothing and hold all nodes *)
Definition Inv (m : Nodes) (s : list Entry) : Prop :=
  exists ls lf, Path (ns_mem m) (ns_stk m) ls /\ Path (ns_mem m) (ns_free m) lf /\ NoDup (ls ++ lf) /\
    length (ls ++ lf) = length (ns_mem m) /\ Held (ns_mem m) ls s.

Lemma inv_new : Inv nodes_new [].
Proof. exists [], []. repeat split; constructor. Qed.
Lemma inv_reads m s : Inv m s -> Reads (ns_mem m) (ns_stk m) s.
Proof. intros (ls & lf & P & _ & _ & _ & H). eapply held_reads; eauto. Qed.

(** take: a node of neither list any more *)
Lemma take_spec m s : Inv m s ->
  exists p ls lf nd, take m = (p, snd (take m)) /\ let m' := snd (take m) in
    nth_error (ns_mem m') p = Some nd /\ ns_stk m' = ns_stk m /\
    Path (ns_mem m') (ns_stk m') ls /\ Path (ns_mem m') (ns_free m') lf /\ NoDup (p :: ls ++ lf) /\
    length (p :: ls ++ lf) = length (ns_mem m') /\ Held (ns_mem m') ls s /\
    length (ns_mem m') = Nat.max (length (ns_mem m)) (S (length s)).
Proof.
  intros (ls & lf & Ps & Pf & Nd & Len & He). pose proof (held_length _ _ _ He) as HL. rewrite app_length in Len.
  unfold take. inversion Pf as [E1 E2|p nd l E P E1 E2]; subst lf.
  - (* a new node *)
    assert (Old : forall q, In q ls -> nth_error (ns_mem m ++ [node_zero]) q = nth_error (ns_mem m) q).
    { intros q Hq. apply nth_error_app1.
      exact (path_lt _ _ _ _ Ps Hq). }
    exists (length (ns_mem m)), ls, [], node_zero. cbn [snd]. cbn [ns_mem ns_stk ns_free].
    split; [reflexivity|]. repeat split.
    + rewrite nth_error_app2 by lia. now rewrite Nat.sub_diag.
    + eapply path_same; [|exact Ps]. exact Old.
    + constructor.
    + rewrite app_nil_r in *. constructor; [|exact Nd]. intros Hin.
      pose proof (path_lt _ _ _ _ Ps Hin). lia.
    + rewrite app_nil_r, app_length. cbn [length] in *. lia.
    + eapply held_same; [|exact He]. exact Old.
    + rewrite app_length. cbn [length] in *. lia.
  - rewrite E. exists p, ls, l, nd. cbn [snd]. cbn [ns_mem ns_stk ns_free].
    split; [reflexivity|]. repeat split; auto.
    + pose proof (NoDup_remove_1 _ _ _ Nd). pose proof (NoDup_remove_2 _ _ _ Nd). now constructor.
    + cbn [length] in *. rewrite app_length. lia.
    + cbn [length] in *. lia.
Qed.

Lemma assign_mem p f m nd : nth_error (ns_mem m) p = Some nd -> ns_mem (assign p f m) = upd p (f nd) (ns_mem m).
Proof. intros H. unfold assign. now rewrite H. Qed.
Lemma assign_stk p f m : ns_stk (assign p f m) = ns_stk m.
Proof. unfold assign. now destruct (nth_error (ns_mem m) p). Qed.
Lemma assign_free p f m : ns_free (assign p f m) = ns_free m.
Proof. unfold assign. now destruct (nth_error (ns_mem m) p). Qed.
Lemma assign_assign p f g m : assign p g (assign p f m) = assign p (fun nd => g (f nd)) m.
Proof.
  unfold assign at 2 3. destruct (nth_error (ns_mem m) p) as [nd|] eqn:E.
  - unfold assign. cbn [ns_mem ns_stk ns_free]. pose proof (nth_lt _ _ _ E) as L.
    rewrite nth_upd_same by exact L. now rewrite upd_upd by exact L.
  - unfold assign. now rewrite E.
Qed.

(** A push followed by assignments to the node *)
Lemma push_spec m s k f e : Inv m s ->
  (forall nd, nd_next (f nd) = nd_next nd) ->
  (forall nd, nd_kind nd = k -> holds (f nd) e) ->
  let '(p, m1) := push k m in
  Inv (assign p f m1) (e :: s) /\ length (ns_mem (assign p f m1)) = Nat.max (length (ns_mem m)) (S (length s)).
Proof.
  intros I Hf He. destruct (take_spec m s I) as (p & ls & lf & nd & E & T). cbv zeta in T.
  unfold push. rewrite E. set (m1 := snd (take m)) in *. clearbody m1.
  destruct T as (T1 & T2 & T3 & T4 & T5 & T6 & T7 & T8). pose proof (nth_lt _ _ _ T1) as L.
  set (nd2 := f (with_kind k (with_next (ns_stk m1) nd))).
  assert (G : forall m2, m2 = mkNodes (upd p nd2 (ns_mem m1)) (Some p) (ns_free m1) ->
    Inv m2 (e :: s) /\ length (ns_mem m2) = Nat.max (length (ns_mem m)) (S (length s))).
  2:{ apply G. rewrite assign_assign. unfold assign at 2 3. rewrite T1. cbn [ns_mem ns_stk ns_free].
      unfold assign. cbn [ns_mem ns_stk ns_free]. rewrite nth_upd_same by exact L.
      now rewrite upd_upd by exact L. }
  intros m2 ->. cbn [ns_mem]. split; [|rewrite length_upd by exact L; exact T8].
  apply NoDup_cons_iff in T5 as T5'. destruct T5' as (N1 & N2).
  assert (Old : forall l q nd, (forall r, In r l -> In r (ls ++ lf)) -> In q l -> nth_error (upd p nd (ns_mem m1)) q = nth_error (ns_mem m1) q).
  { intros l q n' Hl Hq. apply nth_upd_other; [exact L|]. intros ->. apply N1. auto. }
  exists (p :: ls), lf. cbn [ns_mem ns_stk ns_free]. repeat split.
  - econstructor; [apply nth_upd_same; exact L|]. unfold nd2. rewrite Hf. unfold with_kind, with_next. cbn [nd_next].
    eapply path_same; [|exact T3]. intros q Hq. apply (Old ls); auto. intros r Hr. apply in_or_app. now left.
  - eapply path_same; [|exact T4]. intros q Hq. apply (Old lf); auto. intros r Hr. apply in_or_app. now right.
  - exact T5.
  - rewrite length_upd by exact L. exact T6.
  - econstructor; [apply nth_upd_same; exact L | apply He; reflexivity |].
    eapply held_same; [|exact T7]. intros q Hq. apply (Old ls); auto. intros r Hr. apply in_or_app. now left.
Qed.

Lemma push_element_spec n m s : Inv m s ->
  Inv (push_element n m) (EnStart n :: s) /\ length (ns_mem (push_element n m)) = Nat.max (length (ns_mem m)) (S (length s)).
Proof.
  intros I. unfold push_element.
  pose proof (push_spec m s KStart (fun nd => mkNode (nd_next nd) (nd_kind nd) n (nd_ok nd)) (EnStart n) I) as P.
  destruct (push KStart m) as [p m1]. apply P; [reflexivity|]. intros nd H. now split.
Qed.
Lemma push_ns_spec l u ok m s : Inv m s ->
  Inv (push_ns l u ok m) (EnNs l u ok :: s) /\ length (ns_mem (push_ns l u ok m)) = Nat.max (length (ns_mem m)) (S (length s)).
Proof.
  intros I. unfold push_ns.
  pose proof (push_spec m s KNs (fun nd => mkNode (nd_next nd) (nd_kind nd) (mkName u l) ok) (EnNs l u ok) I) as P.
  destruct (push KNs m) as [p m1]. rewrite !assign_assign. apply P; [reflexivity|]. intros nd H. now repeat split.
Qed.

(** pop: the node read afterwards still holds what was pushed *)
Lemma pop_spec m s : Inv m s ->
  match s with
  | [] => pop m = (None, m) /\ ns_stk m = None
  | e :: s' => exists p nd, fst (pop m) = Some p /\ nth_error (ns_mem (snd (pop m))) p = Some nd /\ holds nd e /\
                 Inv (snd (pop m)) s' /\ length (ns_mem (snd (pop m))) = length (ns_mem m)
  end.
Proof.
  intros (ls & lf & Ps & Pf & Nd & Len & He). unfold pop. destruct s as [|e s'].
  - inversion He; subst. inversion Ps as [E1 E2|]; subst. now split.
  - inversion He as [|p nd e0 l s0 E Hh He' E1 E2]; subst. inversion Ps as [|? nd' ? E' Ps' E1 E2]; subst.
    replace nd' with nd in * by congruence. rewrite E. unfold assign. cbn [ns_mem ns_stk ns_free]. rewrite E.
    cbn [ns_mem ns_stk ns_free fst snd]. pose proof (nth_lt _ _ _ E) as L.
    cbn [app] in Nd. inversion Nd as [|? ? N1 N2]; subst.
    assert (Old : forall q nd, In q (l ++ lf) -> nth_error (upd p nd (ns_mem m)) q = nth_error (ns_mem m) q).
    { intros q n' Hq. apply nth_upd_other; [exact L|]. now intros ->. }
    exists p, (with_next (ns_free m) nd). split; [reflexivity|]. split; [apply nth_upd_same; exact L|].
    split; [destruct e; exact Hh|]. split; [|apply length_upd; exact L].
    exists l, (p :: lf). cbn [ns_mem ns_stk ns_free]. repeat split.
    + eapply path_same; [|exact Ps']. intros q Hq. apply Old. apply in_or_app. now left.
    + econstructor; [apply nth_upd_same; exact L|]. unfold with_next. cbn [nd_next].
      eapply path_same; [|exact Pf]. intros q Hq. apply Old. apply in_or_app. now right.
    + apply NoDup_Add with (a := p) (l := l ++ lf); [apply Add_app|]. now split.
    + rewrite length_upd by exact L. rewrite <- Len. cbn [app length]. rewrite !app_length. cbn [length]. lia.
    + eapply held_same; [|exact He']. intros q Hq. apply Old. apply in_or_app. now left.
Qed.

Lemma inv_top m s : Inv m s ->
  match s with
  | [] => deref m (ns_stk m) = None
  | e :: _ => exists nd, deref m (ns_stk m) = Some nd /\ holds nd e
  end.
Proof.
  intros (ls & lf & Ps & Pf & Nd & Len & He). destruct s as [|e s'].
  - inversion He; subst. inversion Ps as [E1 E2|]; subst. reflexivity.
  - inversion He as [|p nd e0 l s0 E Hh He' E1 E2]; subst. inversion Ps as [|? nd' ? E' Ps' E1 E2]; subst.
    exists nd'. split; [exact E'|]. congruence.
Qed.

(** ** pushEOF *)
Lemma split_start s : (forall e, In e s -> ~ is_start e) \/
  exists up n nss rest, s = up ++ EnStart n :: nss ++ rest /\ (forall e, In e up -> ~ is_start e) /\
    (forall e, In e nss -> is_ns e) /\ (forall e r, rest = e :: r -> ~ is_ns e).
Proof.
  assert (Ns : forall s, exists nss rest, s = nss ++ rest /\ (forall e, In e nss -> is_ns e) /\ (forall e r, rest = e :: r -> ~ is_ns e)).
  { induction s0 as [|e s0 (nss & rest & -> & H1 & H2)].
    - exists [], []. repeat split; [intros e [] | discriminate].
    - destruct e as [n|l u ok|].
      + exists [], (EnStart n :: nss ++ rest). repeat split; [intros e []|]. intros e r [= <- <-] [].
      + exists (EnNs l u ok :: nss), rest. repeat split; auto. intros e [<-|H]; [exact I | auto].
      + exists [], (EnEof :: nss ++ rest). repeat split; [intros e []|]. intros e r [= <- <-] []. }
  induction s as [|e s IH].
  - left. intros e [].
  - destruct e as [n|l u ok|].
    + right. destruct (Ns s) as (nss & rest & -> & H1 & H2). exists [], n, nss, rest. repeat split; auto.
    + destruct IH as [IH|(up & n & nss & rest & -> & H1 & H2 & H3)].
      * left. intros e [<-|H]; [intros [] | auto].
      * right. exists (EnNs l u ok :: up), n, nss, rest. repeat split; auto. intros e [<-|H]; [intros [] | auto].
    + destruct IH as [IH|(up & n & nss & rest & -> & H1 & H2 & H3)].
      * left. intros e [<-|H]; [intros [] | auto].
      * right. exists (EnEof :: up), n, nss, rest. repeat split; auto. intros e [<-|H]; [intros [] | auto].
Qed.

Lemma find_start_none fuel m p l s : Path (ns_mem m) p l -> Held (ns_mem m) l s -> length l < fuel ->
  (forall e, In e s -> ~ is_start e) -> find_start fuel m p = MPanic.
Proof.
  intros P. revert fuel s. induction P as [|p nd l E P IH]; intros fuel s H L N.
  - destruct fuel; [lia|reflexivity].
  - inversion H as [|p' nd' e l' s' E' Hh H' E1 E2]; subst. replace nd' with nd in * by congruence.
    destruct fuel as [|f]; [cbn [length] in L; lia|]. cbn [find_start]. rewrite E.
    cbn [length] in L.
    assert (X : find_start f m (nd_next nd) = MPanic).
    { apply (IH f s'); [assumption | lia |]. intros e' Hi. apply N. now right. }
    destruct e as [n|a u ok|]; cbn [holds] in Hh.
    + exfalso. apply (N (EnStart n)); [now left | exact I].
    + destruct Hh as (Hk & _). rewrite Hk. exact X.
    + rewrite Hh. exact X.
Qed.
Lemma find_start_some fuel m p l up n t : Path (ns_mem m) p l -> Held (ns_mem m) l (up ++ EnStart n :: t) -> length l < fuel ->
  (forall e, In e up -> ~ is_start e) ->
  exists l1 q l2, l = l1 ++ q :: l2 /\ length l1 = length up /\ find_start fuel m p = MOk q.
Proof.
  intros P. revert fuel up. induction P as [|p nd l E P IH]; intros fuel up H L N.
  - destruct up; inversion H.
  - destruct fuel as [|f]; [cbn [length] in L; lia|]. cbn [find_start]. rewrite E. cbn [length] in L.
    destruct up as [|e up]; cbn [app] in H; inversion H as [|p' nd' e' l' s' E' Hh H' E1 E2]; subst; replace nd' with nd in * by congruence.
    + cbn [holds] in Hh. destruct Hh as (Hk & _). rewrite Hk. exists [], p, l. repeat split.
    + destruct (IH f up H' ltac:(lia)) as (l1 & q & l2 & -> & Hl & F).
      { intros e' Hi. apply N. now right. }
      exists (p :: l1), q, l2. cbn [app length]. split; [reflexivity|]. split; [congruence|].
      destruct e as [n0|a u ok|]; cbn [holds] in Hh.
      * exfalso. apply (N (EnStart n0)); [now left | exact I].
      * destruct Hh as (Hk & _). rewrite Hk. exact F.
      * rewrite Hh. exact F.
Qed.
Lemma skip_ns_some fuel m q l nss rest : Path (ns_mem m) (Some q) (q :: l) -> Held (ns_mem m) l (nss ++ rest) -> length l < fuel ->
  (forall e, In e nss -> is_ns e) -> (forall e r, rest = e :: r -> ~ is_ns e) ->
  exists l3 r l4, q :: l = l3 ++ r :: l4 /\ length l3 = length nss /\ skip_ns fuel m q = MOk r.
Proof.
  revert fuel q l. induction nss as [|e nss IH]; intros fuel q l P H L N1 N2; (destruct fuel as [|f]; [lia|]); cbn [skip_ns];
    inversion P as [|? nd ? E P' E1 E2]; subst; rewrite E.
  - exists [], q, l. cbn [app length]. repeat split. inversion P' as [E1 E2|p' nd' l' E' P'' E1 E2]; subst; [reflexivity|].
    rewrite E'. cbn [app] in H. inversion H as [|? nd2 e ? s' E3 Hh H' E4 E5]; subst. replace nd2 with nd' in * by congruence.
    destruct e as [n|a u ok|]; cbn [holds] in Hh.
    + destruct Hh as (-> & _). reflexivity.
    + exfalso. eapply N2; [reflexivity | exact I].
    + rewrite Hh. reflexivity.
  - cbn [app] in H. inversion H as [|q' nd2 e' l' s' E3 Hh H' E4 E5]; subst.
    destruct (IH f q' l') as (l3 & r & l4 & E6 & Hl & S).
    + inversion P' as [|? nd3 ? E' P'' E1 E2]; subst. econstructor; eauto.
    + exact H'.
    + cbn [length] in L. lia.
    + intros e' Hi. apply N1. now right.
    + exact N2.
    + exists (q :: l3), r, l4. cbn [app length]. rewrite E6. split; [reflexivity|]. split; [congruence|].
      inversion P' as [|? nd3 ? E' P'' E1 E2]; subst. rewrite E'. replace nd2 with nd3 in * by congruence.
      pose proof (N1 e (or_introl eq_refl)) as Hn. destruct e as [n|a u ok|]; try contradiction.
      cbn [holds] in Hh. destruct Hh as (-> & _). exact S.
Qed.

Lemma path_insert mem mem' a la r lb p nd ndp : Path mem a (la ++ r :: lb) -> nth_error mem r = Some nd ->
  nth_error mem' r = Some (with_next (Some p) nd) -> nth_error mem' p = Some ndp -> nd_next ndp = nd_next nd ->
  (forall q, In q la \/ In q lb -> nth_error mem' q = nth_error mem q) -> Path mem' a (la ++ r :: p :: lb).
Proof.
  intros P Er Er' Ep En Old. revert a P. induction la as [|q la IH]; intros a P; cbn [app] in *.
  - inversion P as [|? nd' ? E' P' E1 E2]; subst. replace nd' with nd in * by congruence.
    econstructor; [exact Er'|]. cbn [with_next nd_next]. econstructor; [exact Ep|]. rewrite En.
    eapply path_same; [|exact P']. intros q Hq. apply Old. now right.
  - inversion P as [|? nd' ? E' P' E1 E2]; subst. econstructor; [rewrite Old; [exact E' | left; now left]|].
    apply IH; [|exact P']. intros q' [Hq|Hq]; apply Old; [left; now right | now right].
Qed.
Lemma held_app mem l1 l2 s1 s2 : length l1 = length s1 -> Held mem (l1 ++ l2) (s1 ++ s2) <-> Held mem l1 s1 /\ Held mem l2 s2.
Proof.
  revert s1. induction l1 as [|p l1 IH]; intros [|e s1] Hl; cbn [app length] in *; try discriminate.
  - split; [intros H; split; [constructor | exact H] | now intros (_ & H)].
  - injection Hl as Hl. split.
    + intros H. inversion H as [|? nd ? ? ? E Hh H' E1 E2]; subst. apply (IH s1 Hl) in H' as (A & B). split; [econstructor; eauto | exact B].
    + intros (A & B). inversion A as [|? nd ? ? ? E Hh H' E1 E2]; subst. econstructor; eauto. apply (IH s1 Hl). now split.
Qed.
Lemma path_at mem a la r lb : Path mem a (la ++ r :: lb) -> exists nd, nth_error mem r = Some nd /\ Path mem (Some r) (r :: lb).
Proof.
  revert a. induction la as [|q la IH]; intros a P; cbn [app] in P; inversion P as [|? nd' ? E' P' E1 E2]; subst.
  - exists nd'. split; [exact E' | exact P].
  - eapply IH; eauto.
Qed.

Lemma push_eof_none m s : Inv m s -> (forall e, In e s -> ~ is_start e) -> push_eof m = MPanic.
Proof.
  intros (ls & lf & Ps & Pf & Nd & Len & He) N. unfold push_eof.
  rewrite (find_start_none _ m (ns_stk m) ls s); auto. rewrite <- Len, app_length. lia.
Qed.
Lemma push_eof_some m up n nss rest : Inv m (up ++ EnStart n :: nss ++ rest) ->
  (forall e, In e up -> ~ is_start e) -> (forall e, In e nss -> is_ns e) -> (forall e r, rest = e :: r -> ~ is_ns e) ->
  exists m', push_eof m = MOk m' /\ Inv m' (up ++ EnStart n :: nss ++ EnEof :: rest) /\
    length (ns_mem m') = Nat.max (length (ns_mem m)) (S (length (up ++ EnStart n :: nss ++ rest))).
Proof.
  intros I N1 N2 N3. unfold push_eof. pose proof I as (ls & lf & Ps & Pf & Nd & Len & He).
  rewrite app_length in Len.
  destruct (find_start_some (S (length (ns_mem m))) m (ns_stk m) ls up n (nss ++ rest) Ps He ltac:(lia) N1) as (l1 & q & l2 & El & Hl & ->).
  subst ls. rewrite app_length in Len. cbn [length] in Len. destruct (path_at _ _ _ _ _ Ps) as (nq & Eq & Pq).
  assert (Hq : Held (ns_mem m) l2 (nss ++ rest)).
  { apply held_app in He as (_ & He); [|exact Hl]. now inversion He. }
  destruct (skip_ns_some (S (length (ns_mem m))) m q l2 nss rest Pq Hq ltac:(lia) N2 N3) as (l3 & r & l4 & El & Hl3 & ->).
  rewrite El in *. clear El Pq Hq.
  destruct (take_spec m _ I) as (p & ls & lf' & nd & E & T). cbv zeta in T. rewrite E.
  set (m1 := snd (take m)) in *. clearbody m1. destruct T as (T1 & T2 & T3 & T4 & T5 & T6 & T7 & T8).
  pose proof (nth_lt _ _ _ T1) as L.
  (* the stack is the same path after take *)
  assert (Els : exists la, ls = la ++ r :: l4 /\ length la = length (up ++ nss)).
  { assert (Same : Path (ns_mem m1) (ns_stk m1) (l1 ++ l3 ++ r :: l4)).
    { rewrite T2. unfold take in E. destruct (ns_free m) as [pf|] eqn:Ef.
      - inversion Pf as [|? nf ? Enf Pnf E1 E2]; subst. rewrite Enf in E. injection E as _ <-. exact Ps.
      - injection E as _ <-. cbn [ns_mem]. eapply path_same; [|exact Ps]. intros x Hx. apply nth_error_app1.
        exact (path_lt _ _ _ _ Ps Hx). }
    pose proof (path_fun _ _ _ _ T3 Same) as ->. exists (l1 ++ l3). rewrite app_assoc. split; [reflexivity|].
    rewrite !app_length. congruence. }
  destruct Els as (la & -> & Hla). clear Ps Pf Nd Len He l1 l2 l3 q nq Hl Hl3 Eq lf.
  destruct (path_at _ _ _ _ _ T3) as (nr & Er & _).
  apply NoDup_cons_iff in T5 as T5'. destruct T5' as (Np & Nl).
  assert (Hrp : p <> r). { intros ->. apply Np. rewrite in_app_iff, in_app_iff. left. right. now left. }
  rewrite (assign_mem p _ m1 nd T1). rewrite nth_upd_other by (exact L || exact Hrp). rewrite Er.
  rewrite assign_assign. eexists. split; [reflexivity|].
  set (ndp := with_next (nd_next nr) (with_kind KEOF nd)).
  assert (M2 : ns_mem (assign p (fun nd => with_next (nd_next nr) (with_kind KEOF nd)) m1) = upd p ndp (ns_mem m1)).
  { exact (assign_mem p (fun nd => with_next (nd_next nr) (with_kind KEOF nd)) m1 nd T1). }
  set (m2 := assign p _ m1) in *.
  assert (Er2 : nth_error (ns_mem m2) r = Some nr). { rewrite M2. now rewrite nth_upd_other by (exact L || exact Hrp). }
  pose proof (assign_mem r (with_next (Some p)) m2 nr Er2) as M3.
  pose proof (nth_lt _ _ _ Er2) as Lr.
  assert (Len2 : length (ns_mem m2) = length (ns_mem m1)). { rewrite M2. apply length_upd. exact L. }
  assert (Len3 : length (ns_mem (assign r (with_next (Some p)) m2)) = length (ns_mem m1)). { rewrite M3, length_upd by exact Lr. exact Len2. }
  assert (Old : forall x, x <> p -> x <> r -> nth_error (ns_mem (assign r (with_next (Some p)) m2)) x = nth_error (ns_mem m1) x).
  { intros x X1 X2. rewrite M3, nth_upd_other by (exact Lr || now apply not_eq_sym). rewrite M2. apply nth_upd_other; [exact L | now apply not_eq_sym]. }
  assert (Nr : forall x, In x la \/ In x l4 \/ In x lf' -> x <> p /\ x <> r).
  { intros x Hx. split.
    - intros ->. apply Np. rewrite !in_app_iff. cbn [In]. tauto.
    - intros ->. rewrite <- app_assoc in Nl. apply NoDup_remove_2 in Nl. apply Nl. rewrite !in_app_iff. tauto. }
  assert (Ep : nth_error (ns_mem (assign r (with_next (Some p)) m2)) p = Some ndp).
  { rewrite M3, nth_upd_other by (exact Lr || now apply not_eq_sym). rewrite M2. apply nth_upd_same. exact L. }
  assert (Er3 : nth_error (ns_mem (assign r (with_next (Some p)) m2)) r = Some (with_next (Some p) nr)).
  { rewrite M3. apply nth_upd_same. exact Lr. }
  split; [|rewrite Len3; exact T8].
  exists (la ++ r :: p :: l4), lf'. rewrite assign_stk, assign_free. unfold m2 at 2 4. rewrite assign_stk, assign_free. repeat split.
  - eapply path_insert; [exact T3 | exact Er | exact Er3 | exact Ep | reflexivity |].
    intros x Hx. destruct (Nr x) as (X1 & X2); [tauto|]. now apply Old.
  - eapply path_same; [|exact T4]. intros x Hx. destruct (Nr x) as (X1 & X2); [tauto|]. now apply Old.
  - change (la ++ r :: p :: l4) with (la ++ [r] ++ p :: l4). rewrite app_assoc. rewrite <- app_assoc. cbn [app].
    apply NoDup_Add with (a := p) (l := (la ++ [r]) ++ l4 ++ lf'); [apply Add_app|].
    assert (X : (la ++ [r]) ++ l4 ++ lf' = (la ++ r :: l4) ++ lf'). { rewrite <- !app_assoc. reflexivity. }
    rewrite X. now split.
  - rewrite Len3, <- T6. cbn [length]. rewrite !app_length. cbn [length]. lia.
  - assert (S1 : up ++ EnStart n :: nss ++ rest = (up ++ EnStart n :: nss) ++ rest) by now rewrite <- app_assoc.
    assert (S2 : up ++ EnStart n :: nss ++ EnEof :: rest = (up ++ EnStart n :: nss) ++ EnEof :: rest) by now rewrite <- app_assoc.
    assert (S3 : la ++ r :: l4 = (la ++ [r]) ++ l4) by now rewrite <- app_assoc.
    assert (S4 : la ++ r :: p :: l4 = (la ++ [r]) ++ p :: l4) by now rewrite <- app_assoc.
    assert (Ll : length (la ++ [r]) = length (up ++ EnStart n :: nss)).
    { rewrite !app_length in *. cbn [length]. lia. }
    rewrite S2, S4. rewrite S1, S3 in T7. apply held_app in T7 as (A & B); [|exact Ll]. apply held_app; [exact Ll|]. split.
    + (* the entry of [r] is kept: only its next pointer changed *)
      assert (X : forall l s, (forall x, In x l -> x <> p) -> Held (ns_mem m1) l s -> Held (ns_mem (assign r (with_next (Some p)) m2)) l s).
      { intros l s Hx Hh. induction Hh as [|x nx e l s Ex Hh Hs IH]; [constructor|]. destruct (Nat.eq_dec x r) as [->|D].
        - replace nx with nr in * by congruence. econstructor; [exact Er3 | destruct e; exact Hh |]. apply IH. intros y Hy. apply Hx. now right.
        - econstructor; [rewrite Old; [exact Ex | apply Hx; now left | exact D] | exact Hh |]. apply IH. intros y Hy. apply Hx. now right. }
      apply X; [|exact A]. intros x Hx ->. apply Np. apply in_app_iff in Hx. rewrite !in_app_iff. cbn [In] in *. tauto.
    + econstructor; [exact Ep | reflexivity |]. eapply held_same; [|exact B].
      intros x Hx. destruct (Nr x) as (X1 & X2); [tauto|]. now apply Old.
Qed.

(** ** Any calls *)
Lemma entry_holds nd e : holds nd e -> entry_of nd = e.
Proof.
  unfold entry_of. destruct e as [n|l u ok|]; cbn [holds].
  - now intros (-> & ->).
  - now intros (-> & -> & ->).
  - now intros ->.
Qed.
Lemma held_entry nd e : entry_of nd = e -> holds nd e.
Proof.
  intros <-. unfold entry_of. destruct nd as [nx k [sp lo] ok]. destruct k; now repeat split.
Qed.

(** What one call does, or that it panics *)
Lemma stack_op_spec o m s : Inv m s ->
  (exists m' s' out, stack_op o m = MOk (m', out) /\ Does o s s' out /\ Inv m' s' /\
     length (ns_mem m') = Nat.max (length (ns_mem m)) (length s')) \/
  (stack_op o m = MPanic /\ o = OPushEof /\ forall e, In e s -> ~ is_start e).
Proof.
  intros I. destruct o as [n|l u ok| | |]; cbn [stack_op].
  - left. destruct (push_element_spec n m s I) as (I' & L). do 3 eexists. split; [reflexivity|].
    split; [constructor|]. split; [exact I' | exact L].
  - left. destruct (push_ns_spec l u ok m s I) as (I' & L). do 3 eexists. split; [reflexivity|].
    split; [constructor|]. split; [exact I' | exact L].
  - left. pose proof (pop_spec m s I) as P. destruct s as [|e s'].
    + destruct P as (-> & _). do 3 eexists. split; [reflexivity|]. split; [constructor|]. split; [exact I | cbn [length]; lia].
    + destruct P as (p & nd & P1 & P2 & P3 & P4 & P5). destruct (pop m) as [q m1]. cbn [fst snd] in *. subst q.
      cbn [deref]. rewrite P2. cbn [option_map]. rewrite (entry_holds _ _ P3). do 3 eexists. split; [reflexivity|].
      split; [constructor|]. split; [exact P4|]. rewrite P5.
      destruct I as (ls & lf & _ & _ & _ & Len & He). apply held_length in He. rewrite app_length in Len. cbn [length] in He. lia.
  - destruct (split_start s) as [N|(up & n & nss & rest & -> & H1 & H2 & H3)].
    + right. rewrite (push_eof_none m s I N). auto.
    + left. destruct (push_eof_some m up n nss rest I H1 H2 H3) as (m' & -> & I' & L). do 3 eexists. split; [reflexivity|].
      split; [now constructor|]. split; [exact I'|]. rewrite L. rewrite !app_length. cbn [length]. rewrite !app_length. cbn [length]. lia.
  - left. unfold pop_eof. pose proof (inv_top m s I) as T. pose proof (pop_spec m s I) as P.
    assert (Le : length s <= length (ns_mem m)).
    { destruct I as (ls & lf & _ & _ & _ & Len & He). apply held_length in He. rewrite app_length in Len. lia. }
    destruct s as [|e s'].
    + rewrite T. do 3 eexists. split; [reflexivity|]. split; [constructor; discriminate|]. split; [exact I | lia].
    + destruct T as (nd & -> & Hh). destruct e as [n|l u ok|]; cbn [holds] in Hh.
      * destruct Hh as (-> & _). do 3 eexists. split; [reflexivity|]. split; [constructor; discriminate|]. split; [exact I | lia].
      * destruct Hh as (-> & _). do 3 eexists. split; [reflexivity|]. split; [constructor; discriminate|]. split; [exact I | lia].
      * rewrite Hh. destruct P as (p & nd' & P1 & P2 & P3 & P4 & P5). destruct (pop m) as [q m1]. cbn [fst snd] in *.
        do 3 eexists. split; [reflexivity|]. split; [constructor|]. split; [exact P4|]. cbn [length] in Le. lia.
Qed.

Lemma start_uniq up1 n1 t1 up2 n2 t2 : up1 ++ EnStart n1 :: t1 = up2 ++ EnStart n2 :: t2 ->
  (forall e, In e up1 -> ~ is_start e) -> (forall e, In e up2 -> ~ is_start e) -> up1 = up2 /\ n1 = n2 /\ t1 = t2.
Proof.
  revert up2. induction up1 as [|a up1 IH]; intros [|b up2] E H1 H2; cbn [app] in E; injection E as E1 E2.
  - auto.
  - exfalso. apply (H2 b); [now left|]. rewrite <- E1. exact I.
  - exfalso. apply (H1 a); [now left|]. rewrite E1. exact I.
  - destruct (IH up2 E2) as (-> & -> & ->).
    + intros e H. apply H1. now right.
    + intros e H. apply H2. now right.
    + subst. auto.
Qed.
Lemma ns_uniq nss1 r1 nss2 r2 : nss1 ++ r1 = nss2 ++ r2 -> (forall e, In e nss1 -> is_ns e) -> (forall e, In e nss2 -> is_ns e) ->
  (forall e r, r1 = e :: r -> ~ is_ns e) -> (forall e r, r2 = e :: r -> ~ is_ns e) -> nss1 = nss2 /\ r1 = r2.
Proof.
  revert nss2. induction nss1 as [|a nss1 IH]; intros [|b nss2] E H1 H2 N1 N2; cbn [app] in E.
  - auto.
  - exfalso. apply (N1 b _ E). apply H2. now left.
  - exfalso. apply (N2 a _ (eq_sym E)). apply H1. now left.
  - injection E as -> E. destruct (IH nss2 E) as (-> & ->); auto.
    + intros e H. apply H1. now right.
    + intros e H. apply H2. now right.
Qed.
Lemma does_fun o s s1 out1 s2 out2 : Does o s s1 out1 -> Does o s s2 out2 -> s1 = s2 /\ out1 = out2.
Proof.
  intros D1 D2. destruct o as [n|l u ok| | |].
  - inversion D1; inversion D2; subst; auto.
  - inversion D1; inversion D2; subst; auto.
  - inversion D1; subst; inversion D2; subst; auto.
  - inversion D1 as [| | | |up n nss rest A B C E0 E2| |]; subst s s1 out1. clear D1.
    inversion D2 as [| | | |up' n' nss' rest' A' B' C' E3 E1| |]; subst.
    destruct (start_uniq _ _ _ _ _ _ E1 A' A) as (-> & -> & E). destruct (ns_uniq _ _ _ _ E B' B C' C) as (-> & ->). auto.
  - inversion D1 as [| | | | |s'|s' N]; subst.
    + inversion D2 as [| | | | |s''|s'' N]; subst; [auto|]. exfalso. eapply N. reflexivity.
    + inversion D2 as [| | | | |s''|s'' N']; subst; [|auto]. exfalso. eapply N. reflexivity.
Qed.

Lemma stack_run_spec ops m s : Inv m s ->
  (exists m' s' outs, stack_run ops m = MOk (m', outs) /\ DoAll ops s s' outs /\ Inv m' s' /\
     forall k, Deepest ops s k -> length (ns_mem m') = Nat.max (length (ns_mem m)) k) \/
  (stack_run ops m = MPanic /\
     exists ops1 ops2 s1 outs, ops = ops1 ++ OPushEof :: ops2 /\ DoAll ops1 s s1 outs /\ forall e, In e s1 -> ~ is_start e).
Proof.
  revert m s. induction ops as [|o ops IH]; intros m s I; cbn [stack_run].
  - left. exists m, s, []. split; [reflexivity|]. split; [constructor|]. split; [exact I|].
    intros k D. inversion D; subst. destruct I as (ls & lf & _ & _ & _ & Len & He). apply held_length in He. rewrite app_length in Len. lia.
  - destruct (stack_op_spec o m s I) as [(m1 & s1 & out & -> & D & I1 & L1)|(-> & -> & N)].
    + destruct (IH m1 s1 I1) as [(m2 & s2 & outs & -> & DA & I2 & L2)|(-> & ops1 & ops2 & s2 & outs & -> & DA & N)].
      * left. exists m2, s2, (out :: outs). split; [reflexivity|]. split; [econstructor; eauto|]. split; [exact I2|].
        intros k Dp. inversion Dp as [|o' ops' s' s1' out' k' D' Dp' E1 E2]; subst.
        assert (s1' = s1) as ->.
        { exact (proj1 (does_fun _ _ _ _ _ _ D' D)). }
        rewrite (L2 k' Dp'), L1.
        assert (Le : length s <= length (ns_mem m)).
        { destruct I as (ls & lf & _ & _ & _ & Len & He). apply held_length in He. rewrite app_length in Len. lia. }
        assert (Le' : length s1 <= k'). { inversion Dp'; subst; lia. }
        lia.
      * right. split; [reflexivity|]. exists (o :: ops1), ops2, s2, (out :: outs). split; [reflexivity|]. split; [econstructor; eauto | exact N].
    + right. split; [reflexivity|]. exists [], ops, s, []. split; [reflexivity|]. split; [constructor | exact N].
Qed.

(** ** The scanner *)
Definition ent (e : StkEl) : Entry := match e with SStart n => EnStart n | SNs l u ok => EnNs l u ok end.
Definition no_stk (d : Dec) : Dec := mkDec (d_rest d) (d_err d) [] (d_close d) (d_ns d) (d_names d) (d_buf d).
Definition HRel (h : HDec) (d : Dec) : Prop := h_dec h = no_stk d /\ Inv (h_nodes h) (map ent (d_stk d)).

Lemma declare_h_spec attrs ns m stk : Inv m (map ent stk) ->
  fst (declare_h attrs ns m) = fst (declare attrs ns stk) /\ Inv (snd (declare_h attrs ns m)) (map ent (snd (declare attrs ns stk))).
Proof.
  revert ns m stk. induction attrs as [|a r IH]; intros ns m stk I; cbn [declare_h declare].
  - split; [reflexivity | exact I].
  - destruct (seq (nspace (aname a)) "xmlns") eqn:Ex.
    + assert (Hn : seq (nspace (aname a)) "" = false).
      { apply seq_true in Ex. now rewrite Ex. }
      rewrite Hn. cbn [andb].
      destruct (match aget seq (nlocal (aname a)) ns with Some v => (v, true) | None => ("", false) end) as [v ok].
      apply IH. cbn [map ent]. apply push_ns_spec. exact I.
    + destruct (seq (nspace (aname a)) "" && seq (nlocal (aname a)) "xmlns").
      * destruct (match aget seq "" ns with Some v => (v, true) | None => ("", false) end) as [v ok].
        apply IH. cbn [map ent]. apply push_ns_spec. exact I.
      * apply IH. exact I.
Qed.

Lemma undo_h_spec stk : forall fuel ns m, Inv m (map ent stk) -> length stk < fuel ->
  exists m', undo_h fuel ns m = Some (fst (undo ns stk), m') /\ Inv m' (map ent (snd (undo ns stk))).
Proof.
  induction stk as [|e stk IH]; intros fuel ns m I L; (destruct fuel as [|f]; [lia|]); cbn [undo_h];
    pose proof (inv_top m _ I) as T; cbn [map] in T.
  - rewrite T. exists m. split; [reflexivity | exact I].
  - destruct T as (nd & -> & Hh). destruct e as [n|l u ok]; cbn [ent holds] in Hh; destruct Hh as (-> & Hh).
    + exists m. split; [reflexivity | exact I].
    + pose proof (pop_spec m _ I) as P. cbn [map] in P. destruct P as (p & nd' & P1 & P2 & P3 & P4 & P5).
      destruct (pop m) as [q m1]. cbn [fst snd] in *. subst q. cbn [deref]. rewrite P2.
      cbn [ent holds] in P3. destruct P3 as (_ & -> & ->). cbn [nlocal nspace undo]. apply IH; [exact P4|]. cbn [length] in L. lia.
Qed.
Lemma inv_le m s : Inv m s -> length s <= length (ns_mem m).
Proof. intros (ls & lf & _ & _ & _ & Len & He). apply held_length in He. rewrite app_length in Len. lia. Qed.

Definition HRes (h : htok_res) (t : tok_res) : Prop :=
  match h, t with
  | HTok ev h, RTok ev' d => ev = ev' /\ HRel h d
  | HErr e h, RErr e' d => e = e' /\ HRel h d
  | HOut, ROut => True
  | _, _ => False
  end.

Lemma handle_start_h_spec d m n attrs : Inv m (map ent (d_stk d)) -> HRes (handle_start_h (no_stk d) m n attrs) (handle_start d n attrs).
Proof.
  intros I. unfold handle_start_h, handle_start. cbn [no_stk d_ns].
  pose proof (declare_h_spec attrs (d_ns d) m (d_stk d) I) as (D1 & D2).
  destruct (declare_h attrs (d_ns d) m) as [ns m1], (declare attrs (d_ns d) (d_stk d)) as [ns' stk1]. cbn [fst snd] in *. subst ns'.
  cbn [HRes]. split; [reflexivity|]. split; [reflexivity|]. cbn [h_nodes d_stk map ent]. now apply push_element_spec.
Qed.
Lemma handle_end_h_spec d m n : Inv m (map ent (d_stk d)) -> HRes (handle_end_h (no_stk d) m n) (handle_end d n).
Proof.
  intros I. unfold handle_end_h, handle_end. cbn [no_stk d_ns]. cbv zeta. set (n' := translate (d_ns d) n true). clearbody n'.
  pose proof (pop_spec m _ I) as P. destruct (d_stk d) as [|e stk] eqn:Es; cbn [map] in P.
  - destruct P as (-> & _). cbn [deref HRes tl]. split; [reflexivity|]. split; [reflexivity | exact I].
  - destruct P as (p & nd & P1 & P2 & P3 & P4 & P5). destruct (pop m) as [q m1]. cbn [fst snd] in *. subst q. cbn [deref]. rewrite P2.
    destruct e as [nm|l u ok]; cbn [ent holds] in P3; destruct P3 as (-> & P3).
    + rewrite P3. destruct (negb (seq (nlocal nm) (nlocal n'))); [now repeat split|].
      destruct (negb (seq (nspace nm) (nspace n'))); [now repeat split|].
      destruct (undo_h_spec stk (S (length (ns_mem m1))) (d_ns d) m1 P4) as (m2 & -> & I2).
      { apply inv_le in P4. rewrite map_length in P4. lia. }
      destruct (undo (d_ns d) stk) as [ns' stk']. cbn [fst snd] in *. cbn [HRes]. split; [reflexivity|]. split; [reflexivity | exact I2].
    + now repeat split.
Qed.
Lemma not_stopped m stk : Inv m (map ent stk) ->
  match deref m (ns_stk m) with Some nd => match nd_kind nd with KEOF => true | _ => false end | None => false end = false /\
  forall e, eof_err_h e m = eof_err e stk.
Proof.
  intros I. pose proof (inv_top m _ I) as T. unfold eof_err_h, eof_err. destruct stk as [|e stk]; cbn [map] in T.
  - rewrite T. split; [reflexivity|]. now intros [].
  - destruct T as (nd & -> & Hh). destruct e as [n|l u ok]; cbn [ent holds] in Hh; destruct Hh as (-> & _); (split; [reflexivity | now intros []]).
Qed.
Lemma raw_token_h_spec fin cached h d : HRel h d -> HRes (raw_token_h fin cached h) (raw_token fin cached d).
Proof.
  intros (E & I). unfold raw_token_h, raw_token. destruct (not_stopped _ _ I) as (-> & Ee). rewrite E. cbn [no_stk d_err].
  destruct (d_err d) as [e|].
  - rewrite Ee. cbn [HRes]. split; [reflexivity|]. split; [reflexivity | exact I].
  - cbn [no_stk d_close d_rest d_names d_buf d_ns d_stk]. destruct (d_close d) as [n|].
    + exact (handle_end_h_spec (mkDec (d_rest d) None (d_stk d) None (d_ns d) (d_names d) (d_buf d)) (h_nodes h) n I).
    + destruct (lex fin cached (d_rest d) (d_names d) (d_buf d)) as [t rest err names b|e names b|].
      * destruct t as [n attrs empty|n|now r|].
        -- exact (handle_start_h_spec (mkDec rest err (d_stk d) (if empty then Some n else None) (d_ns d) names b) (h_nodes h) n attrs I).
        -- exact (handle_end_h_spec (mkDec rest err (d_stk d) None (d_ns d) names b) (h_nodes h) n I).
        -- cbn [HRes]. split; [reflexivity|]. split; [reflexivity | exact I].
        -- cbn [HRes]. split; [reflexivity|]. split; [reflexivity | exact I].
      * rewrite Ee. destruct (d_rest d); (cbn [HRes]; split; [reflexivity|]; split; [reflexivity | exact I]).
      * exact Logic.I.
Qed.
Lemma scan_loop_h_spec fin cached fuel : forall h d, HRel h d ->
  scan_loop_h fin cached fuel h = match scan_loop fin cached fuel d with SDone evs e _ => Some (evs, e) | SOut => None end.
Proof.
  induction fuel as [|f IH]; intros h d R; cbn [scan_loop_h scan_loop]; [reflexivity|].
  pose proof (raw_token_h_spec fin cached h d R) as H.
  destruct (raw_token_h fin cached h) as [ev h1|e h1|], (raw_token fin cached d) as [ev' d1|e' d1|]; cbn [HRes] in H; try contradiction.
  - destruct H as (-> & R1). rewrite (IH h1 d1 R1). now destruct (scan_loop fin cached f d1).
  - now destruct H as (-> & _).
  - reflexivity.
Qed.
