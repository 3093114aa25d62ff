(** * Proofs about concurrent appending *)
From Verif Require Import GoBase AppendTypes M_Append S_Append.

Section P.
Context {E : Type}.
Notation mem_t := (Arrays E).
Lemma upd_length {A} f (l : list A) : forall i, List.length (upd i f l) = List.length l.
Proof. induction l as [|x l IH]; intros [|i]; cbn [upd List.length]; auto. Qed.
Lemma nth_upd {A} f (d : A) l : forall i, i < List.length l -> nth i (upd i f l) d = f (nth i l d).
Proof. induction l as [|x l IH]; intros [|i] H; cbn in *; [lia|lia|reflexivity|apply IH; lia]. Qed.
Lemma firstn_upd {A} (f : A -> A) l : forall i, firstn i (upd i f l) = firstn i l.
Proof. induction l as [|x l IH]; intros [|i]; cbn [upd firstn]; [reflexivity|reflexivity|reflexivity|rewrite IH; reflexivity]. Qed.
Lemma firstn_snoc {A} (d : A) l : forall i, i < List.length l -> firstn (i + 1) l = firstn i l ++ [nth i l d].
Proof. induction l as [|x l IH]; intros [|i] H; cbn in *; [lia|lia|reflexivity|rewrite IH by lia; reflexivity]. Qed.

(** Stores to different places commute *)
Inductive key := KElem | KWord (w : word).
Definition key_of (a : act E) : key := match a with Elem _ _ _ => KElem | Word w _ => KWord w end.
Definition do_all (l : list (act E)) (s : mem_t * SHeader) : mem_t * SHeader := fold_left (fun s a => act_do a s) l s.
Lemma act_swap a b (s : mem_t * SHeader) : key_of a <> key_of b -> act_do a (act_do b s) = act_do b (act_do a s).
Proof.
  destruct a as [p i x|w v], b as [q j y|u t]; cbn [key_of]; intros H; try congruence; try reflexivity.
  unfold act_do. cbn [fst snd]. f_equal. destruct w, u; try congruence; reflexivity.
Qed.
Lemma do_later l : forall a s, ~ In (key_of a) (map key_of l) -> do_all l (act_do a s) = act_do a (do_all l s).
Proof.
  induction l as [|b l IH]; intros a s H; [reflexivity|]. cbn [do_all fold_left]. fold (do_all l (act_do b (act_do a s))) (do_all l (act_do b s)).
  rewrite act_swap by (intros X; apply H; left; exact X). apply IH. intros X. apply H. right. exact X.
Qed.
Lemma do_middle l1 a l2 s : NoDup (map key_of (l1 ++ a :: l2)) -> do_all (l1 ++ l2) (act_do a s) = do_all (l1 ++ a :: l2) s.
Proof.
  intros D. unfold do_all. rewrite !fold_left_app. cbn [fold_left]. fold (do_all l1 (act_do a s)) (do_all l1 s). rewrite do_later; [reflexivity|].
  rewrite map_app in D. cbn [map] in D. apply NoDup_remove_2 in D. intros X. apply D, in_or_app. left. exact X.
Qed.

(** The elements [l] and then [x], stored in place and after growing *)
Lemma in_place mem h (l : list E) x : SliceOf mem h l -> sh_len h < sh_cap h ->
  let s := do_all [Elem (sh_ptr h) (sh_len h) x; Word WLen (sh_len h + 1)] (mem, h) in SliceOf (fst s) (snd s) (l ++ [x]).
Proof.
  intros (H1 & H2 & H3 & H4) L. cbn -[upd Nat.add]. unfold SliceOf. cbn [sh_len sh_ptr sh_cap].
  assert (P : sh_ptr h < List.length mem). { destruct (Nat.lt_ge_cases (sh_ptr h) (List.length mem)) as [X|X]; [exact X|]. rewrite nth_overflow in H4 by exact X. cbn in H4. lia. }
  rewrite nth_upd by exact P. rewrite upd_length. split; [|rewrite app_length; cbn [List.length]; lia].
  rewrite (firstn_snoc None) by (rewrite upd_length; lia). rewrite firstn_upd, nth_upd by lia. rewrite map_app, <- H1. reflexivity.
Qed.
Lemma grown mem h (l : list E) x c : SliceOf mem h l -> sh_len h < c ->
  let s := do_all [Elem (List.length mem) (sh_len h) x; Word WPtr (List.length mem); Word WLen (sh_len h + 1); Word WCap c]
             (mem ++ [pad c (firstn (sh_len h) (nth (sh_ptr h) mem []))], h) in SliceOf (fst s) (snd s) (l ++ [x]).
Proof.
  intros (H1 & H2 & H3 & H4) L. cbn -[upd Nat.add]. unfold SliceOf. cbn [sh_len sh_ptr sh_cap].
  rewrite nth_upd by (rewrite app_length; cbn; lia). rewrite app_nth2, Nat.sub_diag by lia. cbn [nth]. rewrite H1, upd_length.
  assert (LP : List.length (pad c (map Some l)) = c) by (unfold pad; rewrite app_length, repeat_length, map_length; lia).
  rewrite LP. split; [|rewrite app_length; cbn [List.length]; lia].
  rewrite (firstn_snoc None) by (rewrite upd_length, LP; lia). rewrite firstn_upd, nth_upd by (rewrite LP; lia). rewrite map_app. f_equal.
  unfold pad. rewrite firstn_app, map_length, H2, Nat.sub_diag, firstn_O, app_nil_r. rewrite <- (map_length Some) in H2. rewrite <- H2. apply firstn_all.
Qed.

(** The only goroutine that appends: it has appended [d] *)
Definition AtPc (l : list E) (s : mem_t * SHeader) (k : pc E) (prog : list E) : Prop :=
  match k with
  | Loading p n c => SliceOf (fst s) (snd s) l /\ (forall v, p = Some v -> v = sh_ptr (snd s)) /\ (forall v, n = Some v -> v = sh_len (snd s)) /\ (forall v, c = Some v -> v = sh_cap (snd s))
  | Storing todo => exists x r, prog = x :: r /\ NoDup (map key_of todo) /\ let t := do_all todo s in SliceOf (fst t) (snd t) (l ++ [x])
  end.
Lemma astep_at x r s k s' k' r' l : astep x r s k s' k' r' -> AtPc l s k (x :: r) ->
  (r' = x :: r /\ AtPc l s' k' (x :: r)) \/ (r' = r /\ AtPc (l ++ [x]) s' k' r).
Proof.
  intros H. destruct H as [mem h n c|mem h p c|mem h p n|mem h p n c L|mem h p n c c' L L'|s a t b|s]; cbn [AtPc fst snd].
  1,2,3: intros (H & H1 & H2 & H3); left; (split; [reflexivity|]; split; [exact H|]; repeat split; first [assumption|intros v [= <-]; reflexivity]).
  - intros (H & H1 & H2 & H3). specialize (H1 _ eq_refl). specialize (H2 _ eq_refl). specialize (H3 _ eq_refl). subst. left. split; [reflexivity|].
    exists x, r. split; [reflexivity|]. split; [repeat constructor; cbn; intuition discriminate|]. apply in_place; assumption.
  - intros (H & H1 & H2 & H3). specialize (H1 _ eq_refl). specialize (H2 _ eq_refl). specialize (H3 _ eq_refl). subst. left. split; [reflexivity|].
    exists x, r. split; [reflexivity|]. split; [repeat constructor; cbn; intuition discriminate|]. apply grown; assumption.
  - intros (y & q & [= <- <-] & D & H). left. split; [reflexivity|]. exists x, r. split; [reflexivity|]. split.
    + rewrite map_app in *. cbn [map] in D. exact (NoDup_remove_1 _ _ _ D).
    + rewrite do_middle by exact D. exact H.
  - intros (y & q & [= <- <-] & _ & H). right. split; [reflexivity|]. split; [exact H|]. repeat split; discriminate.
Qed.
(** All goroutines but one have nothing to append. *)
Definition Idle (t : pc E * list E) : Prop := snd t = [].
Definition Single (l : list E) (prog : list E) (s : AState) : Prop :=
  exists a k r b d, snd s = a ++ (k, r) :: b /\ Forall Idle a /\ Forall Idle b /\ prog = d ++ r /\ AtPc (l ++ d) (fst s) k r.
Lemma single_step l prog s t : mstep s t -> Single l prog s -> Single l prog t.
Proof.
  intros H. destruct H as [s a k x r b s' k' r' St]. intros (a0 & k0 & r0 & b0 & d & Es & Ia & Ib & Ep & At). cbn [fst snd] in *.
  assert (X : a = a0 /\ (k, x :: r) = (k0, r0) /\ b = b0).
  { clear - Es Ia Ib. revert a0 Es Ia. induction a as [|y a IH]; intros [|z a0] Es Ia; cbn [app] in Es.
    - injection Es as -> -> ->. auto.
    - injection Es as Ez _. subst z. apply Forall_inv in Ia. discriminate Ia.
    - injection Es as _ Eb. subst b0. apply Forall_app in Ib as [_ Ib]. apply Forall_inv in Ib. discriminate Ib.
    - injection Es as -> Es. destruct (IH a0 Es (Forall_inv_tail Ia)) as (-> & -> & ->). auto. }
  destruct X as (-> & [= <- <-] & ->). destruct (astep_at _ _ _ _ _ _ _ _ St At) as [[-> At']|[-> At']].
  - exists a0, k', (x :: r), b0, d. auto.
  - exists a0, k', r, b0, (d ++ [x]). rewrite <- app_assoc in At'. rewrite <- app_assoc. auto.
Qed.
Lemma single_steps l prog s t : msteps s t -> Single l prog s -> Single l prog t.
Proof. intros H. induction H; intros S; [exact S|]. eapply single_step; [eassumption|auto]. Qed.
Lemma idle_concat (progs : list (list E)) : Forall (fun p => p = []) progs -> concat progs = [].
Proof. intros F. induction F as [|p l -> F IH]; [reflexivity|exact IH]. Qed.
Lemma one_writer (progs : list (list E)) : OneWriter progs -> progs = [] \/
  exists a p b, progs = a ++ p :: b /\ Forall (fun p => p = []) a /\ Forall (fun p => p = []) b.
Proof.
  induction progs as [|p l IH]; intros W; [auto|right]. destruct p as [|x p].
  - destruct IH as [->|(a & p & b & -> & Fa & Fb)].
    + intros i j u v Hi Hj Hu Hv. assert (S i = S j) by (apply (W (S i) (S j) u v); assumption). congruence.
    + exists [], [], []. auto.
    + exists ([] :: a), p, b. split; [reflexivity|]. split; [constructor; auto|exact Fb].
  - exists [], (x :: p), l. split; [reflexivity|]. split; [constructor|]. apply Forall_forall. intros q Hq. destruct q as [|y q]; [reflexivity|].
    apply In_nth_error in Hq as (j & Hj). assert (0 = S j) by (apply (W 0 (S j) (x :: p) (y :: q)); [reflexivity|exact Hj|discriminate|discriminate]). discriminate.
Qed.
Lemma no_steps s : @m_done E s -> forall t, ~ mstep s t.
Proof.
  intros D t H. destruct H as [s a k x r b s' k' r' St]. unfold m_done in D. cbn [snd] in D. apply Forall_app in D as [_ D]. apply Forall_inv in D. discriminate D.
Qed.
(** Every step brings an end nearer. *)
Definition one (o : option nat) : nat := match o with None => 1 | Some _ => 0 end.
Definition rest (k : pc E) : nat := match k with Loading p n c => one p + one n + one c + 6 | Storing todo => List.length todo + 1 end.
Definition todo_of (t : pc E * list E) : nat := match snd t with [] => 0 | _ :: r => rest (fst t) + 9 * List.length r end.
Definition todo_all (l : list (pc E * list E)) : nat := fold_right (fun t n => todo_of t + n) 0 l.
Lemma todo_app a b : todo_all (a ++ b) = todo_all a + todo_all b.
Proof. unfold todo_all. induction a as [|t a IH]; cbn [app fold_right]; [reflexivity|]. rewrite IH. lia. Qed.
Lemma step_less s t : mstep s t -> S (todo_all (snd t)) <= todo_all (snd s).
Proof.
  intros H. destruct H as [s a k x r b s' k' r' St]. cbn [snd]. rewrite !todo_app. cbn [todo_all fold_right]. enough (S (todo_of (k', r')) <= todo_of (k, x :: r)) by lia.
  destruct St; unfold todo_of; cbn [fst snd rest one List.length]; try lia; [rewrite !app_length; cbn [List.length]; lia|].
  destruct r; cbn [List.length start rest one]; lia.
Qed.
Lemma steps_less s t : msteps s t -> exists n, todo_all (snd t) + n <= todo_all (snd s).
Proof. intros H. induction H as [s|s t u H [n IH] St]; [exists 0; lia|]. apply step_less in St. exists (S n). lia. Qed.
Lemma can_step (s : @AState E) : m_done s \/ exists t, mstep s t.
Proof.
  destruct s as [s l]. unfold m_done. cbn [snd].
  assert (X : Forall (fun t : pc E * list E => snd t = []) l \/ exists a k x r b, l = a ++ (k, x :: r) :: b).
  { induction l as [|[k [|x r]] l IH]; [left; constructor| |right; exists [], k, x, r, l; reflexivity].
    destruct IH as [IH|(a & k' & x & r & b & ->)]; [left; constructor; [reflexivity|exact IH]|]. right. exists ((k, []) :: a), k', x, r, b. reflexivity. }
  destruct X as [X|(a & k & x & r & b & ->)]; [left; exact X|right]. destruct s as [mem h].
  assert (Y : exists s' k' r', astep x r (mem, h) k s' k' r').
  { destruct k as [[p|] [n|] [c|]|[|t todo]]; try (do 3 eexists; constructor; fail).
    - destruct (Nat.lt_ge_cases n c) as [L|L]; do 3 eexists; [apply InPlace, L|apply Grow with (c' := n + 1); [exact L|lia]].
    - do 3 eexists. apply (Store x r _ []). }
  destruct Y as (s' & k' & r' & Y). eexists. apply MStep, Y.
Qed.
(** Executions of two goroutines *)
Lemma msteps_cons (s t u : @AState E) : mstep s t -> msteps t u -> @msteps E s u.
Proof. intros H K. induction K as [t|t u v K IH L]; [eapply MTrans; [apply MRefl|exact H]|]. eapply MTrans; [apply IH, H|exact L]. Qed.
Lemma go_left s k x r s' k' r' (t : pc E * list E) u : astep x r s k s' k' r' -> msteps (s', [(k', r'); t]) u -> msteps (s, [(k, x :: r); t]) u.
Proof. intros H K. eapply msteps_cons; [|exact K]. exact (MStep s [] k x r [t] s' k' r' H). Qed.
Lemma go_right s k x r s' k' r' (t : pc E * list E) u : astep x r s k s' k' r' -> msteps (s', [t; (k', r')]) u -> msteps (s, [t; (k, x :: r)]) u.
Proof. intros H K. eapply msteps_cons; [|exact K]. exact (MStep s [t] k x r [] s' k' r' H). Qed.
End P.
