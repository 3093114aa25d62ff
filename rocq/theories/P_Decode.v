(** * Proofs about the loop of the decoder *)
From Coq Require Import ZArith.
From Verif Require Import GoBase GoNum GoUtf8 GoFloat GoStrconv Types XmlTypes M_Core M_Errors M_Text M_Xml M_Decode P_Xml P_Xml2.

(** The errors found so far stay in front. *)
Lemma append_list_prefix l errs : exists r, append_list l errs = l ++ r.
Proof.
  revert l; induction errs as [|[e|] errs IH]; intros l; cbn [append_list].
  - exists []. symmetry. apply app_nil_r.
  - destruct e; try (match goal with |- context [append_list (l ++ ?x) errs] => destruct (IH (l ++ x)) as (r & ->); exists (x ++ r); rewrite app_assoc; reflexivity end).
  - apply IH.
Qed.
Section Ev.
  Context (reg : Reg) (isroot : bool) (path : string) (later : Ref -> string).
  Lemma on_event_errs e m m' : on_event reg isroot path later e m = Some m' -> exists r, m_errs m' = m_errs m ++ r.
  Proof.
    destruct e as [n a|n|now r]; cbn [on_event].
    - unfold on_start. destruct (has_child (m_cur m)).
      + destruct (child _ _ _ _ _ _) as [| |i k s]; [|discriminate|].
        * intros [= <-]. exists []. symmetry. apply app_nil_r.
        * destruct (start _ _ _ _ _ _ _) as [[s' [g|]]|]; [| |discriminate]; intros [= <-]; cbn [m_errs].
          -- match goal with |- exists r, ?x = _ => change x with (append_list (m_errs m) [Some (wrap_stack (wrap_index1 g (nlocal n) i) (m_stack m))]) end. apply append_list_prefix.
          -- exists []. symmetry. apply app_nil_r.
      + intros [= <-]. exists []. symmetry. apply app_nil_r.
    - unfold on_end. destruct (name_eqb _ _).
      + destruct (end_ _ _ _ _) as [s|]; [|discriminate].
        destruct (m_stack m) as [|x [|[[k n'] i] q]]; try discriminate; intros [= <-]; exists []; symmetry; apply app_nil_r.
      + intros [= <-]. exists []. symmetry. apply app_nil_r.
    - intros [= <-]. exists []. symmetry. apply app_nil_r.
  Qed.
  Lemma on_events_errs l : forall m m', on_events reg isroot path later l m = Some m' -> exists r, m_errs m' = m_errs m ++ r.
  Proof.
    induction l as [|e l IH]; intros m m'; cbn [on_events].
    - intros [= <-]. exists []. symmetry. apply app_nil_r.
    - destruct (on_event _ _ _ _ e m) as [m1|] eqn:E; [|discriminate]. intros H. destruct (on_event_errs _ _ _ E) as (r1 & E1).
      destruct (IH _ _ H) as (r2 & E2). exists (r1 ++ r2). rewrite E2, E1, app_assoc. reflexivity.
  Qed.
  Lemma on_events_app l1 l2 m : on_events reg isroot path later (l1 ++ l2) m =
    match on_events reg isroot path later l1 m with Some m1 => on_events reg isroot path later l2 m1 | None => None end.
  Proof. revert m; induction l1 as [|e l1 IH]; intros m; cbn [app on_events]; [reflexivity|]. destruct (on_event _ _ _ _ e m); [apply IH|reflexivity]. Qed.
End Ev.

Section Loop.
  Context (reg : Reg) (isroot : bool) (path : string) (every : nat) (fin : xerr) (later : Ref -> string).
  Notation loop strict ctx := (decode_loop reg isroot strict path every ctx fin later).
  (** The fuel is enough. *)
  Lemma decode_loop_fuel strict ctx fuel : forall i d m, pending d < fuel -> loop strict ctx fuel i d m <> DOut.
  Proof.
    induction fuel as [|f IH]; intros i d m H; [lia|]. cbn [decode_loop]. pose proof (raw_token_out fin true d) as O.
    destruct (raw_token fin true d) as [ev d'|e d'|] eqn:E; [|discriminate|congruence].
    destruct (on_events _ _ _ _ ev m) as [m'|]; [|discriminate]. destruct (strict && _); [discriminate|]. destruct (_ && ctx i); [discriminate|].
    apply IH. apply raw_token_measure in E. unfold pending in *. destruct E as [E|(E1 & E2 & E3)].
    - destruct (d_close d), (d_close d'); lia.
    - rewrite E1, E3. destruct (d_close d); [lia|congruence].
  Qed.
  Lemma finish_none strict errs e : finish strict errs e = DNone -> e = DNone /\ errs = [].
  Proof. destruct e, errs; cbn [finish]; try discriminate; auto. destruct (_ || _); discriminate. Qed.
  (** Once there is an error, the lenient loop reports one, and the first one stays the first. *)
  Lemma lenient_errs ctx fuel : forall i d m g r, m_errs m = g :: r ->
    match loop false ctx fuel i d m with
    | DRet _ e _ _ => e <> DNone /\ (forall x, e = DErrs x -> x = g \/ exists r', r' <> [] /\ x = EList (g :: r'))
    | _ => True
    end.
  Proof.
    assert (F : forall errs g r e, errs = g :: r -> finish false errs e <> DNone /\
      ((forall x, e <> DErrs x) -> forall x, finish false errs e = DErrs x -> x = g \/ exists r', r' <> [] /\ x = EList (g :: r'))).
    { intros errs g r e ->. destruct e; cbn [finish]; try (split; [discriminate|intros N x [= <-]; edestruct N; reflexivity]); try (split; [discriminate|intros; discriminate]).
      destruct r as [|g2 r]; cbn [List.length Nat.eqb orb]; (split; [discriminate|]); intros _ x [= <-]; [auto|]. right. exists (g2 :: r). split; [discriminate|reflexivity]. }
    induction fuel as [|f IH]; intros i d m g r E; cbn [decode_loop]; [exact I|].
    destruct (raw_token fin true d) as [ev d'|e d'|]; [| |exact I].
    - destruct (on_events _ _ _ _ ev m) as [m'|] eqn:EV; [|exact I]. destruct (on_events_errs _ _ _ _ _ _ _ EV) as (r' & E'). rewrite E in E'. cbn [app] in E'.
      cbn [andb]. destruct (_ && ctx i).
      + destruct (F _ _ _ DCtx E') as [F1 F2]. split; [exact F1|]. apply F2. intros x. discriminate.
      + apply (IH _ _ _ _ _ E').
    - destruct (F _ _ _ (scan_err e) E) as [F1 F2]. split; [exact F1|]. apply F2. intros x. destruct e; discriminate.
  Qed.
  (** The strict loop does what the lenient one does until the first error. *)
  Lemma strict_lenient ctx fuel : forall i d m, m_errs m = [] ->
    match loop true ctx fuel i d m with
    | DPanic => loop false ctx fuel i d m = DPanic
    | DOut => loop false ctx fuel i d m = DOut
    | DRet ms es ns ds =>
        loop false ctx fuel i d m = DRet ms es ns ds /\ (forall g, es <> DErrs g) \/
        exists g, es = DErrs g /\
          match loop false ctx fuel i d m with
          | DRet _ e _ _ => e <> DNone /\ (forall x, e = DErrs x -> x = g \/ exists r', r' <> [] /\ x = EList (g :: r'))
          | _ => True
          end
    end.
  Proof.
    induction fuel as [|f IH]; intros i d m E; [reflexivity|]. cbn [decode_loop].
    destruct (raw_token fin true d) as [ev d'|e d'|]; [| |reflexivity].
    - destruct (on_events _ _ _ _ ev m) as [m'|] eqn:EV; [|reflexivity]. cbn [andb].
      destruct (m_errs m') as [|g r] eqn:E'; cbn [List.length Nat.eqb negb].
      + destruct (_ && ctx i); [|apply IH, E']. left. split; [reflexivity|]. intros g. discriminate.
      + right. exists g. split; [cbn [finish orb]; reflexivity|]. destruct (_ && ctx i).
        * cbn [finish]. split; [discriminate|]. intros; discriminate.
        * apply (lenient_errs ctx f (S i) d' m' g r E').
    - rewrite E. left. split; [destruct e; reflexivity|]. intros g. destruct e; discriminate.
  Qed.

  (** ** Cancellation *)
  Lemma cancel_loop strict ctx j : (forall i, j <= i -> ctx i = true) -> 0 < every -> forall fuel i d m,
    match loop strict ctx fuel i d m with
    | DRet mm e n d' => n <= Nat.max i j + every /\
        ((e = DCtx /\ ctx (n - 1) = true) \/ (e <> DCtx /\ loop strict (fun _ => false) fuel i d m = DRet mm e n d'))
    | r => loop strict (fun _ => false) fuel i d m = r
    end.
  Proof.
    intros HC HE. induction fuel as [|f IH]; intros i d m; [reflexivity|]. cbn [decode_loop].
    destruct (raw_token fin true d) as [ev d'|e d'|]; [| |reflexivity].
    - destruct (on_events _ _ _ _ ev m) as [m'|]; [|reflexivity].
      destruct (strict && _) eqn:ES.
      + split; [lia|]. right. split; [|reflexivity]. destruct (m_errs m'); cbn [finish]; [discriminate|]. destruct (_ || _); discriminate.
      + rewrite andb_false_r. destruct (Nat.eqb (i mod every) 0 && ctx i) eqn:EC.
        * split; [lia|]. left. split; [reflexivity|]. replace (S i - 1) with i by lia. apply andb_true_iff in EC. apply EC.
        * specialize (IH (S i) d' m'). destruct (loop strict ctx f (S i) d' m') as [mm e n d2| |] eqn:ER; [|exact IH|exact IH].
          destruct IH as [IH1 IH2]. split; [|exact IH2].
          (* if j <= i then i is not a multiple, and the next multiple is the last poll *)
          destruct (Nat.le_gt_cases j i) as [L|L]; [|lia]. rewrite (HC i L), andb_true_r in EC. apply Nat.eqb_neq in EC. clear IH1 IH2.
          enough (G : forall f i d m, j <= i -> match loop strict ctx f i d m with DRet _ _ n _ => n <= i + S ((every - i mod every) mod every) | _ => True end).
          { specialize (G f (S i) d' m' ltac:(lia)). rewrite ER in G.
            assert (D : i = every * (i / every) + i mod every) by (apply Nat.div_mod; lia).
            assert (B : i mod every < every) by (apply Nat.mod_upper_bound; lia).
            assert ((every - S i mod every) mod every <= every - 2 \/ S i mod every = 0).
            { destruct (Nat.eq_dec (S i mod every) 0) as [Z|Z]; [auto|left].
              assert (S i mod every = S (i mod every)).
              { destruct (Nat.eq_dec (S (i mod every)) every) as [Q|Q].
                - exfalso. apply Z. rewrite D. replace (S (every * (i / every) + i mod every)) with (0 + (i / every + 1) * every) by lia. rewrite Nat.mod_add by lia. apply Nat.mod_0_l. lia.
                - rewrite D at 1. replace (S (every * (i / every) + i mod every)) with (S (i mod every) + (i / every) * every) by lia. rewrite Nat.mod_add by lia. apply Nat.mod_small. lia. }
              rewrite H. rewrite Nat.mod_small by lia. lia. }
            destruct H as [H|H]; [lia|]. rewrite H, Nat.sub_0_r, Nat.mod_same in G by lia.
            assert (every <> 1) by (intros ->; rewrite Nat.mod_1_r in EC; congruence). lia. }
          clear - HC HE. induction f as [|f IH]; intros i d m L; cbn [decode_loop]; [exact I|].
          destruct (raw_token fin true d) as [ev d'|e d'|]; [|lia|exact I].
          destruct (on_events _ _ _ _ ev m) as [m'|]; [|exact I]. destruct (strict && _); [lia|].
          rewrite (HC i L), andb_true_r. destruct (Nat.eqb_spec (i mod every) 0) as [Z|Z]; [lia|].
          specialize (IH (S i) d' m' ltac:(lia)). destruct (loop strict ctx f (S i) d' m'); [|exact I|exact I].
          assert (D : i = every * (i / every) + i mod every) by (apply Nat.div_mod; lia).
          assert (B : i mod every < every) by (apply Nat.mod_upper_bound; lia).
          rewrite (Nat.mod_small (every - i mod every)) by lia.
          destruct (Nat.eq_dec (S (i mod every)) every) as [Q|Q].
          -- assert (S i mod every = 0). { rewrite D. replace (S (every * (i / every) + i mod every)) with (0 + (i / every + 1) * every) by lia. rewrite Nat.mod_add by lia. apply Nat.mod_0_l. lia. }
             rewrite H, Nat.sub_0_r, Nat.mod_same in IH by lia. lia.
          -- assert (S i mod every = S (i mod every)). { rewrite D at 1. replace (S (every * (i / every) + i mod every)) with (S (i mod every) + (i / every) * every) by lia. rewrite Nat.mod_add by lia. apply Nat.mod_small. lia. }
             rewrite H in IH. rewrite Nat.mod_small in IH by lia. lia.
    - split; [lia|]. right. split; [|reflexivity]. destruct e; cbn [scan_err finish]; destruct (m_errs m); try discriminate; destruct (_ || _); discriminate.
  Qed.
  (** Lenient decoding without cancellation: the events of the scan one after the other *)
  Lemma lenient_run fuel : forall i d m evs e d', scan_loop fin true fuel d = SDone evs e d' ->
    match on_events reg isroot path later evs m with
    | Some m' => exists n, loop false (fun _ => false) fuel i d m = DRet (s_model (m_st m')) (finish false (m_errs m') (scan_err e)) n d'
    | None => loop false (fun _ => false) fuel i d m = DPanic
    end.
  Proof.
    induction fuel as [|f IH]; intros i d m evs e d' H; [discriminate|]. cbn [scan_loop decode_loop] in *.
    destruct (raw_token fin true d) as [ev d1|e1 d1|]; [| |discriminate].
    - destruct (scan_loop fin true f d1) as [evs1 e1 d2|] eqn:E; [|discriminate]. injection H as <- <- <-. rewrite on_events_app.
      destruct (on_events _ _ _ _ ev m) as [m1|]; [|reflexivity]. cbn [andb]. rewrite andb_false_r. apply IH. exact E.
    - injection H as <- <- <-. cbn [on_events]. eexists. reflexivity.
  Qed.
  (** Decoding without error has seen the whole document *)
  Lemma none_scan strict ctx fuel : forall i d m mm n d', loop strict ctx fuel i d m = DRet mm DNone n d' ->
    exists evs, scan_loop fin true fuel d = SDone evs XEOF d'.
  Proof.
    induction fuel as [|f IH]; intros i d m mm n d' H; [discriminate|]. cbn [scan_loop decode_loop] in *.
    destruct (raw_token fin true d) as [ev d1|e1 d1|]; [| |discriminate].
    - destruct (on_events _ _ _ _ ev m) as [m1|]; [|discriminate].
      destruct (strict && negb (Nat.eqb (List.length (m_errs m1)) 0)) eqn:ES.
      + injection H as _ H _ _. apply (finish_none strict (m_errs m1) DNone) in H. destruct H as [_ H]. rewrite H in ES. cbn in ES. rewrite andb_false_r in ES. discriminate.
      + destruct (_ && ctx i); [discriminate|].
        destruct (IH _ _ _ _ _ _ H) as (evs & ->). eexists. reflexivity.
    - injection H as _ H _ <-. apply finish_none in H. destruct H as [H _]. destruct e1; try discriminate. eexists. reflexivity.
  Qed.
End Loop.
