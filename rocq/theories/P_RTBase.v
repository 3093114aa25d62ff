(** * Proofs: running the decoder on the operations of the encoder *)
From Coq Require Import ZArith.
From Verif Require Import GoBase GoNum GoUtf8 GoFloat GoStrconv Types XmlTypes M_Core M_Errors M_Text M_Xml M_Decode M_Printer M_Encode
  S_Xml S_Printer P_Decode P_State.

Section Run.
  Context (reg : Reg) (isroot : bool) (path : string) (e : Env).
  (** Text that does not go to an unknown element, whose slice of the buffer may change later *)
  Definition on_text (t : string) (m : Mach) : option Mach :=
    if seq t "" then Some m
    else match m_cur m with
         | KMeta _ => let s := m_st m in
                      Some (mkM (with_meta (mkMeta (md_name (s_meta s)) t (md_type (s_meta s)) (md_preserve (s_meta s))) s)
                              (m_cur m) (m_name m) (m_stack m) (m_errs m))
         | KUnk _ | KUnkAsset => None
         | _ => Some m
         end.
  Fixpoint ex (au : bool) (p : string) (ops : list op) (m : Mach) : option Mach :=
    match ops with
    | [] => on_text p m
    | OpTok (TStart n a) :: r =>
        match on_text p m with
        | None => None
        | Some m =>
            match on_start reg isroot path (qual e n) a m with
            | None => None
            | Some m => if au then match on_end path (qual e n) m with None => None | Some m => ex au "" r m end else ex au "" r m
            end
        end
    | OpTok (TEnd n) :: r =>
        match on_text p m with
        | None => None
        | Some m => match on_end path (qual e n) m with None => None | Some m => ex au "" r m end
        end
    | OpTok (TChar s) :: r => ex au (p +++ s) r m
    | OpAuto b :: r => ex b p r m
    | OpSkip _ :: r | OpRel _ :: r => ex au p r m
    end.
  Lemma on_text_char later t r m m' : t <> "" -> on_text t m = Some m' -> on_char path later t r m = m'.
  Proof.
    intros N. unfold on_text, on_char. destruct (seq_spec t ""); [contradiction|]. destruct m as [s k nm stk errs]. cbn.
    destruct k; intros H; try discriminate; injection H as <-; reflexivity.
  Qed.
  Lemma text_events later p m m1 ts evs : on_text p m = Some m1 -> map ev_token evs = text_tok p ++ ts ->
    exists evs', map ev_token evs' = ts /\ on_events reg isroot path later evs m = on_events reg isroot path later evs' m1.
  Proof.
    intros H E. unfold text_tok in E. destruct (seq_spec p "") as [->|N].
    - unfold on_text in H. cbn in H. injection H as <-. exists evs. split; [exact E|reflexivity].
    - destruct evs as [|ev evs]; [discriminate|]. cbn in E. injection E as E1 E2. exists evs. split; [exact E2|].
      destruct ev as [n a|n|now r]; try discriminate. cbn in E1. injection E1 as ->. cbn [on_events on_event].
      rewrite (on_text_char later p r m m1 N H). reflexivity.
  Qed.
  Lemma emits_run later au sk o ops ts : Emits e au sk o ops ts -> forall p m m', ex au p ops m = Some m' ->
    forall evs, map ev_token evs = join_texts p (map (qtok e) ts) -> on_events reg isroot path later evs m = Some m'.
  Proof.
    induction 1 as [au sk|sk n a m o ops ts T F H IH|sk n a m o ops ts T F H IH|au sk n o ops ts H IH|au sk s m o ops ts X H IH|au sk b o ops ts H IH|au sk b o ops ts H IH|au sk r o ops ts H IH];
      intros p m1 m' E evs Ev; cbn [ex map qtok join_texts] in *; try (eapply IH; eassumption).
    - rewrite <- (app_nil_r (text_tok p)) in Ev. destruct (text_events later p m1 m' [] evs E Ev) as (evs' & E' & ->). destruct evs'; [reflexivity|discriminate].
    - destruct (on_text p m1) as [m2|] eqn:OT; [|discriminate]. destruct (text_events later p m1 m2 _ evs OT Ev) as (evs' & E' & ->).
      destruct (on_start _ _ _ _ _ m2) as [m3|] eqn:OS; [|discriminate]. destruct evs' as [|ev evs']; [discriminate|]. cbn in E'. injection E' as E1 E2.
      destruct ev as [n' a'|n'|now r]; try discriminate. cbn in E1. injection E1 as -> ->. cbn [on_events on_event]. rewrite OS. eapply IH; eassumption.
    - destruct (on_text p m1) as [m2|] eqn:OT; [|discriminate]. destruct (text_events later p m1 m2 _ evs OT Ev) as (evs' & E' & ->).
      destruct (on_start _ _ _ _ _ m2) as [m3|] eqn:OS; [|discriminate]. destruct evs' as [|ev evs']; [discriminate|]. cbn in E'. injection E' as E1 E2.
      destruct ev as [n' a'|n'|now r]; try discriminate. cbn in E1. injection E1 as -> ->. cbn [on_events on_event]. rewrite OS.
      destruct (on_end path (qual e n) m3) as [m4|] eqn:OE; [|discriminate]. destruct evs' as [|ev evs']; [discriminate|]. cbn in E2. injection E2 as E1 E2.
      destruct ev as [n' a'|n'|now r]; try discriminate. cbn in E1. injection E1 as ->. cbn [on_events on_event]. rewrite OE. eapply IH; eassumption.
    - destruct (on_text p m1) as [m2|] eqn:OT; [|discriminate]. destruct (text_events later p m1 m2 _ evs OT Ev) as (evs' & E' & ->).
      destruct (on_end path (qual e n) m2) as [m4|] eqn:OE; [|discriminate]. destruct evs' as [|ev evs']; [discriminate|]. cbn in E'. injection E' as E1 E2.
      destruct ev as [n' a'|n'|now r]; try discriminate. cbn in E1. injection E1 as ->. cbn [on_events on_event]. rewrite OE. eapply IH; eassumption.
  Qed.

  (** ** Pieces *)
  (** The operations [ops], read by the decoder [k], change the state only *)
  Definition Reads (k : DK) (au : bool) (ops : list op) (s s' : DSt) : Prop :=
    forall nm i stk errs r,
      ex au "" (ops ++ r) (mkM s k nm ((k, nm, i) :: stk) errs) = ex au "" r (mkM s' k nm ((k, nm, i) :: stk) errs).
  Definition Tr (k : DK) (au : bool) (ops : list op) (P Q : DSt -> Prop) : Prop :=
    forall s, P s -> exists s', Reads k au ops s s' /\ Q s'.
  Lemma tr_nil k au (P Q : DSt -> Prop) : (forall s, P s -> Q s) -> Tr k au [] P Q.
  Proof. intros H s Ps. exists s. split; [intros nm i stk errs r; reflexivity|apply H, Ps]. Qed.
  Lemma tr_app k au a b P Q R : Tr k au a P Q -> Tr k au b Q R -> Tr k au (a ++ b) P R.
  Proof.
    intros Ha Hb s Ps. destruct (Ha s Ps) as (s1 & R1 & Q1). destruct (Hb s1 Q1) as (s2 & R2 & Q2). exists s2. split; [|exact Q2].
    intros nm i stk errs r. rewrite <- app_assoc, R1, R2. reflexivity.
  Qed.
  Lemma tr_conseq k au ops (P P' Q Q' : DSt -> Prop) : (forall s, P' s -> P s) -> (forall s, Q s -> Q' s) -> Tr k au ops P Q -> Tr k au ops P' Q'.
  Proof. intros H1 H2 H s Ps. destruct (H s (H1 s Ps)) as (s' & R & Qs). eauto. Qed.
  Lemma tr_auto k ops P Q : Tr k true ops P Q -> Tr k false (auto ops) P Q.
  Proof.
    intros H s Ps. destruct (H s Ps) as (s' & R & Qs). exists s'. split; [|exact Qs]. intros nm i stk errs r. unfold auto. cbn [app ex].
    rewrite <- app_assoc. rewrite R. reflexivity.
  Qed.
  Lemma tr_auto_skip k ops P Q : Tr k true ops P Q -> Tr k false (auto_skip ops) P Q.
  Proof.
    intros H s Ps. destruct (H s Ps) as (s' & R & Qs). exists s'. split; [|exact Qs]. intros nm i stk errs r. unfold auto_skip. cbn [app ex].
    rewrite <- app_assoc. rewrite R. reflexivity.
  Qed.
  Lemma tr_manual k ops P Q : Tr k false ops P Q -> Tr k true (OpAuto false :: ops ++ [OpAuto true]) P Q.
  Proof.
    intros H s Ps. destruct (H s Ps) as (s' & R & Qs). exists s'. split; [|exact Qs]. intros nm i stk errs r. cbn [app ex].
    rewrite <- app_assoc. rewrite R. reflexivity.
  Qed.
  Lemma tr_skip k au b ops P Q : Tr k au ops P Q -> Tr k au (OpSkip b :: ops) P Q.
  Proof. intros H s Ps. destruct (H s Ps) as (s' & R & Qs). exists s'. split; [|exact Qs]. intros nm i stk errs r. cbn [app ex]. apply R. Qed.
  Lemma tr_rel k au x ops P Q : Tr k au ops P Q -> Tr k au (OpRel x :: ops) P Q.
  Proof. intros H s Ps. destruct (H s Ps) as (s' & R & Qs). exists s'. split; [|exact Qs]. intros nm i stk errs r. cbn [app ex]. apply R. Qed.
  Lemma tr_list {A} k au (f : A -> list op) (I : list A -> DSt -> Prop) l :
    (forall d x r, l = d ++ x :: r -> Tr k au (f x) (I d) (I (d ++ [x]))) -> Tr k au (flat_map f l) (I []) (I l).
  Proof.
    intros H. assert (G : forall r d, l = d ++ r -> Tr k au (flat_map f r) (I d) (I l)).
    { induction r as [|x r IH]; intros d E; cbn [flat_map].
      - rewrite app_nil_r in E. subst d. apply tr_nil. auto.
      - eapply tr_app; [apply (H d x r E)|]. apply IH. rewrite <- app_assoc. exact E. }
    apply G. reflexivity.
  Qed.
  Lemma tr_map {A} k au (f : A -> op) (I : list A -> DSt -> Prop) l :
    (forall d x r, l = d ++ x :: r -> Tr k au [f x] (I d) (I (d ++ [x]))) -> Tr k au (map f l) (I []) (I l).
  Proof.
    intros H. assert (E : map f l = flat_map (fun x => [f x]) l).
    { clear H. induction l as [|x l IH]; [reflexivity|]. cbn. rewrite <- IH. reflexivity. }
    rewrite E. apply tr_list, H.
  Qed.
  Lemma on_end_pop k' n s s' i k nm j stk errs : end_ path k' n s = Some s' ->
    on_end path n (mkM s k' n ((k', n, i) :: (k, nm, j) :: stk) errs) = Some (mkM s' k nm ((k, nm, j) :: stk) errs).
  Proof. intros E. unfold on_end. cbn [m_name m_cur m_st m_stack m_errs]. rewrite name_eqb_refl, E. reflexivity. Qed.
  Lemma tr_element k k' n a inner (P Mid Mid' Q : DSt -> Prop) : has_child k = true ->
    (forall s, P s -> exists i s1 s2, child reg isroot path k (qual e n) s = COk i k' s1 /\ start reg isroot path k' (qual e n) a s1 = Some (s2, None) /\ Mid s2) ->
    Tr k' false inner Mid Mid' ->
    (forall s, Mid' s -> exists s', end_ path k' (qual e n) s = Some s' /\ Q s') ->
    Tr k false (element n a inner) P Q.
  Proof.
    intros HC HS HI HE s Ps. destruct (HS s Ps) as (i & s1 & s2 & Ec & Es & M2). destruct (HI s2 M2) as (s3 & R3 & M3).
    destruct (HE s3 M3) as (s4 & E4 & Q4). exists s4. split; [|exact Q4]. intros nm j stk errs r. unfold element. cbn [app ex start_op end_op].
    unfold on_text at 1. cbn [seq String.eqb]. unfold start_op. cbn [ex]. unfold on_text. rewrite seq_refl.
    unfold on_start. cbn [m_cur m_st m_stack m_errs]. rewrite HC, Ec, Es. rewrite <- app_assoc. rewrite R3. cbn [app ex]. unfold end_op. cbn [ex].
    unfold on_text. rewrite seq_refl. rewrite (on_end_pop _ _ _ _ _ _ _ _ _ _ E4). reflexivity.
  Qed.
  Lemma tr_empty k k' n a (P Q : DSt -> Prop) : has_child k = true ->
    (forall s, P s -> exists i s1 s2 s3, child reg isroot path k (qual e n) s = COk i k' s1 /\ start reg isroot path k' (qual e n) a s1 = Some (s2, None) /\
       end_ path k' (qual e n) s2 = Some s3 /\ Q s3) ->
    Tr k true [start_op n a] P Q.
  Proof.
    intros HC HS s Ps. destruct (HS s Ps) as (i & s1 & s2 & s3 & Ec & Es & Ee & Q3). exists s3. split; [|exact Q3].
    intros nm j stk errs r. unfold start_op. cbn [app ex]. unfold on_text. rewrite seq_refl.
    unfold on_start. cbn [m_cur m_st m_stack m_errs]. rewrite HC, Ec, Es. rewrite (on_end_pop _ _ _ _ _ _ _ _ _ _ Ee). reflexivity.
  Qed.
  (** Metadata: an element with a text *)
  Lemma tr_text k l n a v (P Mid Q : DSt -> Prop) : has_child k = true ->
    (forall s, P s -> exists i s1 s2, child reg isroot path k (qual e n) s = COk i (KMeta l) s1 /\
       start reg isroot path (KMeta l) (qual e n) a s1 = Some (s2, None) /\ md_value (s_meta s2) = "" /\ Mid s2) ->
    (forall s, Mid s -> md_value (s_meta s) = "" -> exists s',
       end_ path (KMeta l) (qual e n) (with_meta (mkMeta (md_name (s_meta s)) v (md_type (s_meta s)) (md_preserve (s_meta s))) s) = Some s' /\ Q s') ->
    Tr k false (element n a [OpTok (TChar v)]) P Q.
  Proof.
    intros HC HS HE s Ps. destruct (HS s Ps) as (i & s1 & s2 & Ec & Es & V2 & M2). destruct (HE s2 M2 V2) as (s4 & E4 & Q4). exists s4. split; [|exact Q4].
    intros nm j stk errs r. unfold element, start_op, end_op. cbn [app ex]. unfold on_text at 1. rewrite seq_refl.
    unfold on_start. cbn [m_cur m_st m_stack m_errs]. rewrite HC, Ec, Es. cbn [String.append].
    unfold on_text. destruct (seq_spec v "") as [->|N]; cbn [m_cur m_st m_name m_stack m_errs].
    - assert (X : with_meta (mkMeta (md_name (s_meta s2)) "" (md_type (s_meta s2)) (md_preserve (s_meta s2))) s2 = s2).
      { rewrite <- V2. destruct s2. destruct s_meta. reflexivity. }
      rewrite X in E4. rewrite (on_end_pop _ _ _ _ _ _ _ _ _ _ E4). reflexivity.
    - rewrite (on_end_pop _ _ _ _ _ _ _ _ _ _ E4). reflexivity.
  Qed.

  (** Elements the decoder does not know *)
  Lemma tr_unknown k k' n a inner (P Mid Q : DSt -> Prop) : has_child k = true -> keeps k' = true -> nspace n <> "" ->
    Forall (fun t => match t with TStart m _ => nspace m <> "" | TEnd m => nspace m <> "" /\ m <> n | TChar _ => False end) inner ->
    (forall s, P s -> exists i s1 s2, child reg isroot path k n s = COk i k' s1 /\ start reg isroot path k' n a s1 = Some (s2, None) /\ Mid s2) ->
    (forall s, Mid s -> exists s', end_ path k' n (fold_left (fun s t => append_token path k' t s) inner s) = Some s' /\ Q s') ->
    Tr k false (write_tokens (TStart n a :: inner ++ [TEnd n])) P Q.
  Proof.
    intros HC K Hn HI HS HE s Ps. destruct (HS s Ps) as (i & s1 & s2 & Ec & Es & M2). destruct (HE s2 M2) as (s4 & E4 & Q4). exists s4. split; [|exact Q4].
    intros nm j stk errs r. unfold write_tokens. cbn [map app ex]. unfold on_text at 1. rewrite seq_refl.
    assert (Qn : qual e n = n). { unfold qual. destruct (seq_spec (nspace n) ""); [contradiction|reflexivity]. }
    rewrite Qn. unfold on_start. cbn [m_cur m_st m_stack m_errs]. rewrite HC, Ec, Es. rewrite map_app, <- app_assoc.
    clear -E4 K Hn HI Qn. revert s2 E4. induction HI as [|t inner Ht HI IH]; intros s2 E4.
    - cbn [map app ex]. unfold on_text. rewrite seq_refl, Qn. cbn [fold_left] in E4. rewrite (on_end_pop _ _ _ _ _ _ _ _ _ _ E4). reflexivity.
    - cbn [map app]. cbn [fold_left] in E4. destruct t as [m b|m|t]; [| |contradiction].
      + cbn [ex]. unfold on_text at 1. rewrite seq_refl. assert (Qm : qual e m = m). { unfold qual. destruct (seq_spec (nspace m) ""); [contradiction|reflexivity]. }
        rewrite Qm. unfold on_start. cbn [m_cur m_st m_stack m_errs m_name]. replace (has_child k') with false by (destruct k'; try discriminate K; reflexivity).
        apply IH, E4.
      + destruct Ht as [Ht Hm]. cbn [ex]. unfold on_text at 1. rewrite seq_refl. assert (Qm : qual e m = m). { unfold qual. destruct (seq_spec (nspace m) ""); [contradiction|reflexivity]. }
        rewrite Qm. unfold on_end. cbn [m_cur m_st m_stack m_errs m_name]. destruct (name_eqb_spec n m) as [<-|_]; [contradiction|].
        apply IH, E4.
  Qed.
End Run.

(** ** Loops over attributes *)
Definition AL {A} (f : A -> Attr -> option (A * error)) (x : A) (l : list Attr) (y : A) : Prop := attrs_loop f x None l = Some (y, None).
Lemma al_nil {A} f (x : A) : AL f x [] x.
Proof. reflexivity. Qed.
Lemma al_cons {A} f (x y z : A) a l : f x a = Some (y, None) -> AL f y l z -> AL f x (a :: l) z.
Proof. intros E H. unfold AL. cbn [attrs_loop]. rewrite E. exact H. Qed.
Lemma al_none {A} (f : A -> Attr -> option (A * error)) l : forall (x : A) er y, attrs_loop f x er l = Some (y, None) -> er = None.
Proof.
  induction l as [|a l IH]; intros x er y H; cbn [attrs_loop] in H; [congruence|]. destruct (f x a) as [[x1 e1]|]; [|discriminate]. apply IH in H.
  destruct er as [[]|], e1; cbn in H; try discriminate; reflexivity.
Qed.
Lemma al_app {A} f l1 : forall (x y z : A) l2, AL f x l1 y -> AL f y l2 z -> AL f x (l1 ++ l2) z.
Proof.
  induction l1 as [|a l1 IH]; intros x y z l2 H1 H2; unfold AL in *; cbn [attrs_loop app] in *.
  - injection H1 as ->. exact H2.
  - destruct (f x a) as [[x1 e1]|]; [|discriminate]. pose proof (al_none _ _ _ _ _ H1) as E. rewrite E in *. eapply IH; eassumption.
Qed.
Lemma al_opt {A} f (x y : A) b a : (b = true -> f x a = Some (y, None)) -> (b = false -> x = y) -> AL f x (opt b a) y.
Proof. intros H1 H2. destruct b; cbn [opt]; [eapply al_cons; [apply H1; reflexivity|apply al_nil]|rewrite H2 by reflexivity; apply al_nil]. Qed.
