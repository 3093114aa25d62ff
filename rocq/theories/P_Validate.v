From Coq Require Import Permutation.
From Verif Require Import GoBase GoFloat Types M_Core S_Core P_Core M_Errors S_Errors P_Errors
  M_Geom S_Geom P_Geom P_Coherency M_Validate S_Validate.

Notation L := located_o.

(** ** Members of accumulated errors *)
Lemma in_add x e y : In x (L (add e y)) <-> In x (L e) \/ In x (L y).
Proof. unfold add. rewrite append1_located, in_app_iff. reflexivity. Qed.
Lemma in_add_if c x e y : In x (L (add_if c e y)) <-> In x (L e) \/ (c = true /\ In x (L y)).
Proof.
  unfold add_if. destruct c; [rewrite in_add|]; (split; [intros H|]).
  - destruct H; auto.
  - intros [H|[_ H]]; auto.
  - auto.
  - intros [H|[H _]]; [auto|discriminate].
Qed.
Lemma in_sent x s : In x (L (sent s)) <-> x = ([], "", ESent s).
Proof. cbn. split; [intros [<-|[]]|intros ->]; auto. Qed.
Lemma in_missing x s : In x (L (missing s)) <-> x = ([], "", EMissing s).
Proof. cbn. split; [intros [<-|[]]|intros ->]; auto. Qed.
Lemma in_none x : In x (L None) <-> False.
Proof. reflexivity. Qed.
Lemma in_at_index x e n i : In x (L (at_index e n i)) <->
  exists loc p k, x = (lvi n i :: loc, p, k) /\ In (loc, p, k) (L e).
Proof.
  unfold at_index. rewrite wrap_index_located_o, in_map_iff. split.
  - intros ([[loc p] k] & <- & H). exists loc, p, k. auto.
  - intros (loc & p & k & -> & H). exists (loc, p, k). auto.
Qed.
Lemma in_at_sent x s n i : In x (L (at_index (sent s) n i)) <-> x = ([lvi n i], "", ESent s).
Proof.
  rewrite in_at_index. split.
  - intros (loc & p & k & -> & H). apply in_sent in H. congruence.
  - intros ->. exists [], "", (ESent s). rewrite in_sent. auto.
Qed.
Lemma in_at_missing x s n i : In x (L (at_index (missing s) n i)) <-> x = ([lvi n i], "", EMissing s).
Proof.
  rewrite in_at_index. split.
  - intros (loc & p & k & -> & H). apply in_missing in H. congruence.
  - intros ->. exists [], "", (EMissing s). rewrite in_missing. auto.
Qed.
Lemma in_wrap x e n : In x (L (wrap e n)) <-> exists loc p k, x = (lv n :: loc, p, k) /\ In (loc, p, k) (L e).
Proof.
  rewrite wrap_located_o, in_map_iff. split.
  - intros ([[loc p] k] & <- & H). exists loc, p, k. auto.
  - intros (loc & p & k & -> & H). exists (loc, p, k). auto.
Qed.
Lemma in_wrap_path x e n q : In x (L (wrap_path e n q)) <->
  exists loc p k, x = (lv n :: loc, q, k) /\ In (loc, p, k) (L e).
Proof.
  rewrite wrap_path_located_o, in_map_iff. split.
  - intros ([[loc p] k] & <- & H). exists loc, p, k. auto.
  - intros (loc & p & k & -> & H). exists (loc, p, k). auto.
Qed.
Lemma in_loop {A} (f : nat -> A -> error -> error) (G : nat -> A -> Loc -> Prop) :
  (forall i y e x, In x (L (f i y e)) <-> In x (L e) \/ G i y x) ->
  forall l i e x, In x (L (loop f i l e)) <->
    In x (L e) \/ exists j y, nth_error l j = Some y /\ G (i + j) y x.
Proof.
  intros HG l. induction l as [|y l IH]; intros i e x; cbn [loop].
  - split; [auto|]. intros [H|(j & y & H & _)]; [exact H|destruct j; discriminate].
  - rewrite IH, HG. split.
    + intros [[H|H]|(j & z & Hj & H)]; [auto| |].
      * right. exists 0, y. rewrite Nat.add_0_r. auto.
      * right. exists (S j), z. rewrite Nat.add_succ_r. auto.
    + intros [H|(j & z & Hj & H)]; [auto|]. destruct j as [|j]; cbn in Hj.
      * injection Hj as <-. rewrite Nat.add_0_r in H. auto.
      * right. exists j, z. rewrite Nat.add_succ_r in H. auto.
Qed.

(** ** Non-nil errors have members *)
Lemma nn_add e x : nn e -> nn x -> nn (add e x).
Proof. apply nn_append. Qed.
Lemma nn_add_if c e x : nn e -> nn x -> nn (add_if c e x).
Proof. destruct c; cbn; [apply nn_add|auto]. Qed.
Lemma nn_s s : nn (sent s). Proof. apply nn_sent. Qed.
Lemma nn_m s : nn (missing s). Proof. apply nn_missing. Qed.
Lemma nn_at e n i : nn e -> nn (at_index e n i). Proof. apply nn_wrap_index. Qed.
Lemma nn_loop {A} (f : nat -> A -> error -> error) :
  (forall i y e, nn e -> nn (f i y e)) -> forall l i e, nn e -> nn (loop f i l e).
Proof. intros H l. induction l as [|y l IH]; intros i e He; cbn; auto. Qed.
Create HintDb nn.
#[export] Hint Resolve nn_add nn_add_if nn_s nn_m nn_at nn_loop nn_none nn_wrap nn_wrap_path : nn.
Ltac nn := auto 12 with nn.

(** [match err with None => errs | Some _ => add errs (w err) end] where w nil = nil *)
Lemma in_some_add x (e err : error) (w : error -> error) : w None = None ->
  In x (L (match err with None => e | Some _ => add e (w err) end)) <-> In x (L (add e (w err))).
Proof. intros Hw. destruct err; [reflexivity|]. rewrite in_add, Hw. cbn. tauto. Qed.

(** ** Metadata names *)
Definition is_low (c : ascii) : bool := (bN c <? 128)%N.
Lemma lower_low c : (bN c < 128)%N -> ~ (65 <= bN c <= 90)%N -> lower c = c.
Proof.
  intros _ H. unfold lower, is_upper. destruct (N.leb_spec 65 (bN c)), (N.leb_spec (bN c) 90); cbn; try reflexivity. lia.
Qed.
Lemma lower_up c d : (65 <= bN c <= 90)%N -> bN d = (bN c + 32)%N -> lower c = d.
Proof.
  intros H Hd. apply bN_inj. rewrite Hd. unfold lower, is_upper.
  destruct (N.leb_spec 65 (bN c)), (N.leb_spec (bN c) 90); cbn [andb]; try lia. apply bN_ascii_of_N. lia.
Qed.
Lemma low_not c d : (bN c < 128)%N -> (128 <= bN d)%N -> ceq c d = false.
Proof. intros H1 H2. apply ceq_false. intros ->. lia. Qed.
Lemma to_lower_spec s t : LowersTo s t <-> to_lower s = t /\ sall is_low t = true.
Proof.
  split.
  - induction 1 as [|c s t H1 H2 _ [<- IH]|c d s t H1 H2 _ [<- IH]|s t _ [<- IH]|s t _ [<- IH]]; cbn [to_lower sall].
    + auto.
    + rewrite !low_not by (assumption || (vm_compute; discriminate)). rewrite lower_low by assumption.
      split; [reflexivity|]. unfold is_low at 1. destruct (N.ltb_spec (bN c) 128); [exact IH|lia].
    + assert (Hc : (bN c < 128)%N) by lia.
      rewrite !low_not by (assumption || (vm_compute; discriminate)). rewrite (lower_up c d) by assumption.
      split; [reflexivity|]. unfold is_low at 1. destruct (N.ltb_spec (bN d) 128); [exact IH|lia].
    + split; [reflexivity|]. cbn. exact IH.
    + split; [reflexivity|]. cbn. exact IH.
  - intros [<- H].
    assert (G : forall n s, String.length s <= n -> sall is_low (to_lower s) = true -> LowersTo s (to_lower s)).
    { clear. induction n as [|n IH]; intros s Hl H.
      - destruct s; [constructor|cbn in Hl; lia].
      - destruct s as [|c s]; [constructor|]. cbn [String.length] in Hl.
        cbn [to_lower] in *. destruct (ceq_spec c "196"%char) as [->|Hc].
        + destruct s as [|d s]; [discriminate|]. destruct (ceq_spec d "176"%char) as [->|Hd].
          * cbn [String.length sall] in *. apply LwDotI. apply IH; [lia|]. exact H.
          * cbn [sall] in H. apply andb_true_iff in H as [H _]. discriminate.
        + destruct (ceq_spec c "226"%char) as [->|Hc'].
          * destruct s as [|d [|e s]]; [discriminate|cbn in H; discriminate|].
            destruct (ceq_spec d "132"%char) as [->|Hd]; cbn [andb] in *.
            -- destruct (ceq_spec e "170"%char) as [->|He].
               ++ apply LwKelvin. cbn [String.length] in Hl. apply IH; [lia|]. exact H.
               ++ cbn [sall] in H. apply andb_true_iff in H as [H _]. discriminate.
            -- cbn [sall] in H. apply andb_true_iff in H as [H _]. discriminate.
          * cbn [sall] in H. apply andb_true_iff in H as [H1 H2].
            assert (Hs : LowersTo s (to_lower s)) by (apply IH; [lia|exact H2]).
            unfold lower, is_upper in *.
            destruct (N.leb_spec 65 (bN c)), (N.leb_spec (bN c) 90); cbn [andb] in *;
              try (apply LwSame; [apply N.ltb_lt; exact H1|lia|exact Hs]).
            apply LwUpper; [lia| |exact Hs]. apply bN_ascii_of_N. lia. }
    apply (G (String.length s)); auto.
Qed.
Lemma name_allowed_in s : name_allowed s = true <-> In (to_lower s) allowed_names.
Proof.
  unfold name_allowed. generalize (to_lower s) as x; intros x. cbv zeta. rewrite negb_true_iff, orb_false_iff.
  split.
  - intros [H1 H2]. apply Nat.leb_gt in H1. apply negb_false_iff, seq_true in H2.
    rewrite <- H2. apply nth_In. exact H1.
  - intros H. cbn [allowed_names In] in H.
    repeat (destruct H as [<-|H]; [split; vm_compute; reflexivity|]). destruct H.
Qed.
Lemma name_allowed_spec s : name_allowed s = true <-> Reserved s.
Proof.
  rewrite name_allowed_in. unfold Reserved. split.
  - intros H. exists (to_lower s). split.
    + cbn [allowed_names In] in H. cbn [reserved_names In]. tauto.
    + apply to_lower_spec. split; [reflexivity|]. cbn [allowed_names In] in H.
      repeat (destruct H as [<-|H]; [vm_compute; reflexivity|]). destruct H.
  - intros (n & Hn & H). apply to_lower_spec in H as [-> _]. cbn [reserved_names In] in Hn. cbn [allowed_names In]. tauto.
Qed.
Lemma declared_spec m ns : existsb (fun ext => seq (ex_ns ext) ns) (mo_exts m) = true <-> Declared m ns.
Proof.
  rewrite existsb_exists. unfold Declared. split; intros (e & He & H); exists e; (split; [exact He|]);
    apply seq_true; exact H.
Qed.

Lemma in_metadata m md x : In x (L (metadata_validate m md)) <-> exists k, x = ([], "", k) /\
  ((nlocal (md_name md) = "" /\ k = EMissing "name") \/
   (nlocal (md_name md) <> "" /\ nspace (md_name md) = "" /\ ~ Reserved (nlocal (md_name md)) /\ k = ESent "ErrMetadataName") \/
   (nlocal (md_name md) <> "" /\ nspace (md_name md) <> "" /\ ~ Declared m (nspace (md_name md)) /\ k = ESent "ErrMetadataNamespace")).
Proof.
  unfold metadata_validate.
  destruct (seq_spec (nlocal (md_name md)) "") as [E|E].
  { rewrite in_missing. split; [intros ->; eauto 7|].
    intros (k & -> & [[_ ->]|[(H & _)|(H & _)]]); [reflexivity|contradiction..]. }
  destruct (seq_spec (nspace (md_name md)) "") as [E2|E2].
  - rewrite in_add_if, in_sent, in_none, negb_true_iff, <- not_true_iff_false, name_allowed_spec. split.
    + intros [[]|[H ->]]. eexists; split; [reflexivity|]. right; left. auto.
    + intros (k & -> & [[H _]|[(_ & _ & H & ->)|(_ & H & _)]]); [contradiction|auto|contradiction].
  - rewrite in_add_if, in_sent, in_none, negb_true_iff, <- not_true_iff_false, declared_spec. split.
    + intros [[]|[H ->]]. eexists; split; [reflexivity|]. right; right. auto.
    + intros (k & -> & [[H _]|[(_ & H & _)|(_ & _ & H & ->)]]); [contradiction|contradiction|auto].
Qed.
Lemma nn_metadata m md : nn (metadata_validate m md).
Proof.
  unfold metadata_validate. destruct (seq _ _); [nn|]. destruct (seq _ _); nn.
Qed.
#[export] Hint Resolve nn_metadata : nn.
Lemma name_in names n : existsb (name_eqb n) names = true <-> In n names.
Proof.
  rewrite existsb_exists. split.
  - intros (y & Hy & H). destruct (name_eqb_spec n y); [subst; exact Hy|discriminate].
  - intros H. exists n. split; [exact H|apply name_eqb_refl].
Qed.
Lemma in_check_from m l : forall i names e x, In x (L (check_metadata_from m i l names e)) <-> In x (L e) \/
  exists j md, nth_error l j = Some md /\
    ((exists k, x = ([lvi "metadata" (i + j)], "", k) /\ In ([], "", k) (L (metadata_validate m md))) \/
     (x = ([lvi "metadata" (i + j)], "", ESent "ErrMetadataDuplicated") /\
        (In (md_name md) names \/ exists j' md', j' < j /\ nth_error l j' = Some md' /\ md_name md = md_name md'))).
Proof.
  induction l as [|md l IH]; intros i names e x; cbn [check_metadata_from].
  - split; [auto|]. intros [H|(j & md & H & _)]; [exact H|destruct j; discriminate].
  - cbv zeta. rewrite IH, in_add_if, in_add, in_at_sent, in_at_index, name_in. split.
    + intros [[[H|H]|[H ->]]|(j & md' & Hj & [(k & -> & H)|(-> & H)])].
      * auto.
      * destruct H as (loc & p & k & -> & H). pose proof H as H'. apply in_metadata in H' as (k' & E & _).
        injection E as -> -> ->. right. exists 0, md. rewrite Nat.add_0_r. split; [reflexivity|]. left. eauto.
      * right. exists 0, md. rewrite Nat.add_0_r. split; [reflexivity|]. right. auto.
      * right. exists (S j), md'. rewrite Nat.add_succ_r. split; [exact Hj|]. left. eauto.
      * right. exists (S j), md'. rewrite Nat.add_succ_r. split; [exact Hj|]. right. split; [reflexivity|].
        destruct H as [[H|H]|(j' & md'' & Hl & Hn & H)].
        -- right. exists 0, md. split; [lia|]. auto.
        -- auto.
        -- right. exists (S j'), md''. split; [lia|]. auto.
    + intros [H|(j & md' & Hj & H)]; [auto|]. destruct j as [|j]; cbn in Hj.
      * injection Hj as <-. rewrite Nat.add_0_r in H. destruct H as [(k & -> & H)|(-> & [H|(j' & _ & H & _)])]; [|auto|lia].
        left; left; right. eauto.
      * right. exists j, md'. rewrite Nat.add_succ_r in H. split; [exact Hj|]. destruct H as [H|(-> & H)]; [auto|].
        right. split; [reflexivity|]. destruct H as [H|(j' & md'' & Hl & Hn & H)]; [left; right; exact H|].
        destruct j' as [|j']; cbn in Hn.
        -- injection Hn as <-. left; left; congruence.
        -- right. exists j', md''. split; [lia|]. auto.
Qed.
Lemma in_check_metadata m l x : In x (L (check_metadata m l)) <->
  exists i k, x = ([lvi "metadata" i], "", k) /\ MetaViolation m l i k.
Proof.
  unfold check_metadata. rewrite in_check_from, in_none. split.
  - intros [[]|(j & md & Hj & [(k & -> & H)|(-> & [[]|(j' & md' & Hl & Hn & H)])])].
    + exists j, k. split; [reflexivity|]. apply in_metadata in H as (k' & E & H). injection E as <-.
      destruct H as [[H ->]|[(H1 & H2 & H3 & ->)|(H1 & H2 & H3 & ->)]].
      * eapply MvNoName; eassumption.
      * eapply MvReserved; eassumption.
      * eapply MvNamespace; eassumption.
    + exists j. eexists. split; [reflexivity|]. eapply MvDuplicated; eassumption.
  - intros (i & k & -> & H). right. destruct H as [md Hm H|md Hm H1 H2 H3|md Hm H1 H2 H3|md j md' Hm Hl Hn H].
    1-3: exists i, md; (split; [exact Hm|]); left; eexists; (split; [reflexivity|]); apply in_metadata;
      eexists; (split; [reflexivity|]); tauto.
    exists i, md. split; [exact Hm|]. right. split; [reflexivity|]. right. exists j, md'. auto.
Qed.
Lemma nn_check_metadata m l : nn (check_metadata m l).
Proof.
  unfold check_metadata. assert (H : forall l i names e, nn e -> nn (check_metadata_from m i l names e)).
  { clear. induction l as [|md l IH]; intros i names e He; cbn [check_metadata_from]; [exact He|]. apply IH. nn. }
  apply H. nn.
Qed.
#[export] Hint Resolve nn_check_metadata : nn.

(** ** Relationships *)
Lemma bad_part_name_spec p : bad_part_name p = true <-> ~ PartName p.
Proof.
  unfold PartName. destruct p as [|c p]; cbn [bad_part_name].
  - split; [|reflexivity]. intros _ [(r & H) _]. discriminate.
  - rewrite orb_true_iff, negb_true_iff, ceq_false, contains_spec. split.
    + intros [H|H] [(r & E) Hn]; [injection E as -> _; congruence|contradiction].
    + intros H. destruct (ceq_spec c "/"%char) as [->|Hc]; [|auto]. right.
      destruct (contains (String "/" p) "/.") eqn:E; [apply contains_spec; exact E|].
      exfalso. apply H. split; [exists p; reflexivity|]. intros He. apply contains_spec in He. congruence.
Qed.
Lemma find_attachment_spec l p a : find_attachment l p = Some a <-> Designates l p a.
Proof.
  unfold Designates. induction l as [|b l IH]; cbn [find_attachment].
  - split; [discriminate|]. intros (be & af & H & _). destruct be; discriminate.
  - destruct (eq_fold (at_path b) p) eqn:E.
    + split.
      * intros H; injection H as <-. exists [], l. auto.
      * intros (be & af & H & Ha & Hf). destruct be as [|c be]; [injection H as -> _; reflexivity|].
        injection H as -> _. inversion Hf; subst. congruence.
    + rewrite IH. split.
      * intros (be & af & -> & Ha & Hf). exists (b :: be), af. auto.
      * intros (be & af & H & Ha & Hf). destruct be as [|c be]; [injection H as -> _; congruence|].
        injection H as -> ->. inversion Hf; subst. eauto.
Qed.
Lemma designates_attached l p : (exists a, Designates l p a) <-> Attached l p.
Proof.
  unfold Attached. split.
  - intros (a & be & af & -> & Ha & _). exists a. split; [apply in_elt|exact Ha].
  - intros (a & Ha & He). destruct (find_attachment l p) as [b|] eqn:E.
    + exists b. apply find_attachment_spec. exact E.
    + exfalso. induction l as [|c l IH]; cbn in *; [contradiction|].
      destruct (eq_fold (at_path c) p) eqn:Ec; [discriminate|]. destruct Ha as [->|Ha]; [congruence|auto].
Qed.
Lemma find_attachment_none l p : find_attachment l p = None <-> ~ Attached l p.
Proof.
  rewrite <- designates_attached. split.
  - intros H (a & Ha). apply find_attachment_spec in Ha. congruence.
  - intros H. destruct (find_attachment l p) as [a|] eqn:E; [|reflexivity].
    exfalso; apply H. exists a. apply find_attachment_spec. exact E.
Qed.
Lemma rel_in l x : existsb (rel_eqb x) l = true <-> In x l.
Proof.
  rewrite existsb_exists. unfold rel_eqb. split.
  - intros (y & Hy & H). apply andb_true_iff in H as [H1 H2]. apply seq_true in H1, H2.
    destruct x, y; cbn in *; subst; exact Hy.
  - intros H. exists x. split; [exact H|]. rewrite !seq_refl. reflexivity.
Qed.

Section Rels.
  Variable m : Model.
  Let atts := mo_atts m.
  Inductive RelHere (r : Relationship) (dup tick : Prop) : gerr -> Prop :=
  | RhName : ~ PartName (rel_path r) -> RelHere r dup tick (ESent "ErrOPCPartName")
  | RhTarget : PartName (rel_path r) -> ~ Attached atts (rel_path r) -> RelHere r dup tick (ESent "ErrOPCRelTarget")
  | RhDup : PartName (rel_path r) -> dup -> RelHere r dup tick (ESent "ErrOPCDuplicatedRel")
  | RhContent a : rel_type r = print_ticket_type -> Designates atts (rel_path r) a ->
      at_ctype a <> print_ticket_content -> RelHere r dup tick (ESent "ErrOPCContentType")
  | RhTicket : rel_type r = print_ticket_type -> Attached atts (rel_path r) -> tick ->
      RelHere r dup tick (ESent "ErrOPCDuplicatedTicket").
  Lemma rel_here_mono r (d d' t t' : Prop) k : (d -> d') -> (t -> t') -> RelHere r d t k -> RelHere r d' t' k.
  Proof.
    intros H1 H2 H; destruct H.
    - apply RhName; assumption.
    - apply RhTarget; assumption.
    - apply RhDup; auto.
    - eapply RhContent; eassumption.
    - apply RhTicket; auto.
  Qed.

  Definition step1 (i : nat) (r : Relationship) (visited : list (string * string)) (errs : error) :=
    let found := find_attachment (mo_atts m) (rel_path r) in
    if bad_part_name (rel_path r) then
      (add errs (at_index (sent "ErrOPCPartName") "relationship" i), visited)
    else
      let errs := add_if (match found with Some _ => false | None => true end) errs
                         (at_index (sent "ErrOPCRelTarget") "relationship" i) in
      let errs := add_if (existsb (rel_eqb (rel_path r, rel_type r)) visited) errs
                         (at_index (sent "ErrOPCDuplicatedRel") "relationship" i) in
      (errs, (rel_path r, rel_type r) :: visited).
  Definition step2 (i : nat) (r : Relationship) (ticket : bool) (errs : error) :=
    let found := find_attachment (mo_atts m) (rel_path r) in
    if seq (rel_type r) rel_print_ticket then
      match found with
      | Some a =>
          let errs := add_if (negb (seq (at_ctype a) ct_print_ticket)) errs
                             (at_index (sent "ErrOPCContentType") "relationship" i) in
          let errs := add_if ticket errs (at_index (sent "ErrOPCDuplicatedTicket") "relationship" i) in
          (errs, true)
      | None => (errs, ticket)
      end
    else (errs, ticket).
  Lemma rels_from_cons i r l visited ticket errs :
    validate_rels_from m i (r :: l) visited ticket errs =
    validate_rels_from m (S i) l (snd (step1 i r visited errs))
      (snd (step2 i r ticket (fst (step1 i r visited errs))))
      (fst (step2 i r ticket (fst (step1 i r visited errs)))).
  Proof.
    cbn [validate_rels_from]. cbv zeta. fold (step1 i r visited errs).
    destruct (step1 i r visited errs) as [e v]. cbn [fst snd]. fold (step2 i r ticket e).
    destruct (step2 i r ticket e) as [e' t]. reflexivity.
  Qed.
  Lemma step1_spec i r visited errs x :
    (In x (L (fst (step1 i r visited errs))) <-> In x (L errs) \/ exists k, x = ([lvi "relationship" i], "", k) /\
      ((~ PartName (rel_path r) /\ k = ESent "ErrOPCPartName") \/
       (PartName (rel_path r) /\ ~ Attached atts (rel_path r) /\ k = ESent "ErrOPCRelTarget") \/
       (PartName (rel_path r) /\ In (rel_path r, rel_type r) visited /\ k = ESent "ErrOPCDuplicatedRel"))) /\
    (forall y, In y (snd (step1 i r visited errs)) <-> In y visited \/ (PartName (rel_path r) /\ y = (rel_path r, rel_type r))).
  Proof.
    unfold step1. destruct (bad_part_name (rel_path r)) eqn:Eb.
    - apply bad_part_name_spec in Eb. cbn [fst snd]. rewrite in_add, in_at_sent. split.
      + split.
        * intros [H| ->]; [auto|]. right. eexists; split; [reflexivity|]. auto.
        * intros [H|(k & -> & [[_ ->]|[(H & _)|(H & _)]])]; [auto|auto|contradiction..].
      + intros y. split; [auto|]. intros [H|[H _]]; [exact H|contradiction].
    - assert (Hp : PartName (rel_path r)).
      { assert (D : PartName (rel_path r) \/ ~ PartName (rel_path r)).
        { unfold PartName. destruct (rel_path r) as [|c p] eqn:Ep; [cbn in Eb; discriminate|].
          cbn [bad_part_name] in Eb. apply orb_false_iff in Eb as [E1 E2]. apply negb_false_iff, ceq_true in E1 as ->.
          left. split; [exists p; reflexivity|]. intros H. apply contains_spec in H. congruence. }
        destruct D as [D|D]; [exact D|]. apply bad_part_name_spec in D. congruence. }
      cbv zeta. cbn [fst snd]. rewrite !in_add_if, !in_at_sent, rel_in.
      assert (Hf : match find_attachment (mo_atts m) (rel_path r) with Some _ => false | None => true end = true <->
                   ~ Attached atts (rel_path r)).
      { rewrite <- find_attachment_none. fold atts. destruct (find_attachment atts (rel_path r)); split; congruence. }
      rewrite Hf. split.
      + split.
        * intros [[H|[H ->]]|[H ->]]; [auto|right..]; (eexists; split; [reflexivity|]); tauto.
        * intros [H|(k & -> & [[H _]|[(_ & H & ->)|(_ & H & ->)]])]; [auto|contradiction|auto|auto].
      + intros y. cbn. split; [intros [<-|H]; auto|intros [H|[_ ->]]; auto].
  Qed.
  Lemma step2_spec i r ticket errs x :
    (In x (L (fst (step2 i r ticket errs))) <-> In x (L errs) \/ exists k, x = ([lvi "relationship" i], "", k) /\
      ((rel_type r = print_ticket_type /\ k = ESent "ErrOPCContentType" /\
          exists a, Designates atts (rel_path r) a /\ at_ctype a <> print_ticket_content) \/
       (rel_type r = print_ticket_type /\ Attached atts (rel_path r) /\ ticket = true /\ k = ESent "ErrOPCDuplicatedTicket"))) /\
    (snd (step2 i r ticket errs) = true <-> ticket = true \/ (rel_type r = print_ticket_type /\ Attached atts (rel_path r))).
  Proof.
    unfold step2. change rel_print_ticket with print_ticket_type. change ct_print_ticket with print_ticket_content.
    destruct (seq_spec (rel_type r) print_ticket_type) as [Et|Et].
    - fold atts. destruct (find_attachment atts (rel_path r)) as [a|] eqn:Ef.
      + apply find_attachment_spec in Ef. assert (Ha : Attached atts (rel_path r)) by (apply designates_attached; eauto).
        cbv zeta; cbn [fst snd]. rewrite !in_add_if, !in_at_sent, negb_true_iff, seq_false. split.
        * split.
          -- intros [[H|[H ->]]|[H ->]]; [auto|right..]; (eexists; split; [reflexivity|]); [left; eauto|right; auto].
          -- intros [H|(k & -> & [(_ & -> & b & Hb & H)|(_ & _ & H & ->)])]; [auto| |auto].
             apply find_attachment_spec in Ef, Hb. assert (b = a) as -> by congruence. auto.
        * split; [auto|reflexivity].
      + cbn [fst snd]. apply find_attachment_none in Ef. split.
        * split; [auto|]. intros [H|(k & -> & [(_ & -> & b & Hb & H)|(_ & H & _)])]; [auto| |contradiction].
          exfalso. apply Ef, designates_attached. eauto.
        * split; [auto|]. intros [H|[_ H]]; [exact H|contradiction].
    - cbn [fst snd]. split.
      + split; [auto|]. intros [H|(k & -> & [(H & _)|(H & _)])]; [auto|contradiction..].
      + split; [auto|]. intros [H|[H _]]; [exact H|contradiction].
  Qed.
  Lemma in_rels_from l : forall i visited ticket e x,
    In x (L (validate_rels_from m i l visited ticket e)) <-> In x (L e) \/
    exists j r k, nth_error l j = Some r /\ x = ([lvi "relationship" (i + j)], "", k) /\
      RelHere r (In (rel_path r, rel_type r) visited \/
                 exists j' r', j' < j /\ nth_error l j' = Some r' /\ rel_path r' = rel_path r /\ rel_type r' = rel_type r)
                (ticket = true \/ exists j' r', j' < j /\ nth_error l j' = Some r' /\
                    rel_type r' = print_ticket_type /\ Attached atts (rel_path r')) k.
  Proof.
    induction l as [|r l IH]; intros i visited ticket e x.
    - cbn. split; [auto|]. intros [H|(j & r & k & H & _)]; [exact H|destruct j; discriminate].
    - rewrite rels_from_cons, IH.
      destruct (step1_spec i r visited e x) as [S1 V1].
      destruct (step2_spec i r ticket (fst (step1 i r visited e)) x) as [S2 T2].
      rewrite S2, S1.
      split.
      + intros [[[H|(k & -> & H)]|(k & -> & H)]|(j & r' & k & Hj & -> & H)].
        * auto.
        * right. exists 0, r, k. rewrite Nat.add_0_r. split; [reflexivity|]. split; [reflexivity|].
          destruct H as [[H ->]|[(H1 & H2 & ->)|(H1 & H2 & ->)]];
            [apply RhName|apply RhTarget|apply RhDup]; auto.
        * right. exists 0, r, k. rewrite Nat.add_0_r. split; [reflexivity|]. split; [reflexivity|].
          destruct H as [(H & -> & a & Ha & Hc)|(H1 & H2 & H3 & ->)];
            [eapply RhContent; eassumption|apply RhTicket; auto].
        * right. exists (S j), r', k. rewrite Nat.add_succ_r. split; [exact Hj|]. split; [reflexivity|].
          eapply rel_here_mono; [| |exact H].
          -- intros [Hv|(j' & r'' & Hl & Hn & Hs)].
             ++ apply V1 in Hv as [Hv|[_ E]]; [auto|]. injection E as E1 E2. right. exists 0, r. split; [lia|].
                split; [reflexivity|]. auto.
             ++ right. exists (S j'), r''. split; [lia|]. auto.
          -- intros [Ht|(j' & r'' & Hl & Hn & Hs)].
             ++ apply T2 in Ht as [Ht|[Ht Ha]]; [auto|]. right. exists 0, r. split; [lia|]. split; [reflexivity|]. auto.
             ++ right. exists (S j'), r''. split; [lia|]. auto.
      + intros [H|(j & r' & k & Hj & -> & H)]; [auto|]. destruct j as [|j]; cbn in Hj.
        * injection Hj as <-. rewrite Nat.add_0_r. left.
          destruct H as [H|H1 H2|H1 [H2|(j' & _ & H2 & _)]|a H1 H2 H3|H1 H2 [H3|(j' & _ & H3 & _)]]; try lia.
          -- left; right. eexists; split; [reflexivity|]. auto.
          -- left; right. eexists; split; [reflexivity|]. auto.
          -- left; right. eexists; split; [reflexivity|]. auto.
          -- right. eexists; split; [reflexivity|]. left. eauto.
          -- right. eexists; split; [reflexivity|]. right. auto.
        * right. exists j, r', k. rewrite Nat.add_succ_r. split; [exact Hj|]. split; [reflexivity|].
          destruct H as [H|H1 H2|H1 H2|a H1 H2 H3|H1 H2 H3].
          -- apply RhName; assumption.
          -- apply RhTarget; assumption.
          -- apply RhDup; [exact H1|]. destruct H2 as [H2|(j' & r'' & Hl & Hn & Hs)].
             ++ left. apply V1. auto.
             ++ destruct j' as [|j']; cbn in Hn.
                ** injection Hn as <-. left. apply V1. right. destruct Hs as [-> ->]. auto.
                ** right. exists j', r''. split; [lia|]. auto.
          -- eapply RhContent; eassumption.
          -- apply RhTicket; [exact H1|exact H2|]. destruct H3 as [H3|(j' & r'' & Hl & Hn & Hs)].
             ++ left. apply T2. auto.
             ++ destruct j' as [|j']; cbn in Hn.
                ** injection Hn as <-. left. apply T2. right. exact Hs.
                ** right. exists j', r''. split; [lia|]. auto.
  Qed.

  Definition all_err (e : error) : Prop :=
    e = None \/ exists l, e = Some (EList l) /\ l <> [] /\ Forall (fun g => exists t x p, g = EErr t x p) l.
  Lemma all_err_add e s n i : all_err e -> all_err (add e (at_index (sent s) n i)).
  Proof.
    unfold add, at_index, sent. cbn [wrap_index wrap_index1]. intros [->|(l & -> & Hn & Hl)].
    - right. cbn. eexists; split; [reflexivity|]. split; [discriminate|]. constructor; [eauto|constructor].
    - right. cbn. eexists; split; [reflexivity|]. split; [destruct l; discriminate|].
      apply Forall_app. split; [exact Hl|]. constructor; [eauto|constructor].
  Qed.
  Lemma all_err_add_if c e s n i : all_err e -> all_err (add_if c e (at_index (sent s) n i)).
  Proof. destruct c; cbn; [apply all_err_add|auto]. Qed.
  Lemma all_err_rels l : forall i visited ticket e, all_err e -> all_err (validate_rels_from m i l visited ticket e).
  Proof.
    induction l as [|r l IH]; intros i visited ticket e He; [exact He|]. rewrite rels_from_cons. apply IH.
    assert (H1 : all_err (fst (step1 i r visited e))).
    { unfold step1. destruct (bad_part_name _); cbn; [apply all_err_add; exact He|].
      apply all_err_add_if, all_err_add_if; exact He. }
    unfold step2. destruct (seq _ _); [|exact H1]. destruct (find_attachment _ _); [|exact H1].
    cbn. apply all_err_add_if, all_err_add_if; exact H1.
  Qed.
  Lemma all_err_nn e : all_err e -> nn e.
  Proof.
    intros [->|(l & -> & Hn & Hl)]; [nn|]. intros H. destruct l as [|g l]; [contradiction|].
    inversion Hl; subst. destruct H2 as (t & x & p & ->). discriminate.
  Qed.
  Lemma set_path_located path l : Forall (fun g => exists t x p, g = EErr t x p) l ->
    located (EList (map (set_path1 path) l)) = map (in_part path) (located (EList l)).
  Proof.
    intros H. rewrite !located_list, concat_map, !map_map. f_equal. apply map_ext_in.
    intros g Hg. rewrite Forall_forall in H. destruct (H g Hg) as (t & x & p & ->). reflexivity.
  Qed.
  Lemma in_relationship l path x : In x (L (validate_relationship m l path)) <->
    exists i k, x = ([lvi "relationship" i], path, k) /\ RelViolation atts l i k.
  Proof.
    assert (B : forall x, In x (L (validate_rels_from m 0 l [] false None)) <->
      exists i k, x = ([lvi "relationship" i], "", k) /\ RelViolation atts l i k).
    { intros y. rewrite in_rels_from, in_none. split.
      - intros [[]|(j & r & k & Hj & -> & H)]. exists j, k. split; [reflexivity|].
        destruct H as [H|H1 H2|H1 [[]|(j' & r' & Hl & Hn & Hp & Ht)]|a H1 H2 H3|H1 H2 [H3|(j' & r' & Hl & Hn & Ht & Ha)]]; try discriminate.
        + eapply RvName; eassumption.
        + eapply RvTarget; eassumption.
        + eapply RvDuplicated; eassumption.
        + eapply RvContent; eassumption.
        + eapply RvTicket with (r := r) (r' := r'); eassumption.
      - intros (i & k & -> & H). right.
        destruct H as [r Hr H|r Hr H1 H2|r j r' Hr H1 Hl Hn Hp Ht|r a Hr H1 H2 H3|r j r' Hr H1 H2 Hl Hn Ht Ha];
          exists i, r; eexists; (split; [exact Hr|]); (split; [reflexivity|]).
        + apply RhName; assumption.
        + apply RhTarget; assumption.
        + apply RhDup; [assumption|]. right. exists j, r'. auto.
        + eapply RhContent; eassumption.
        + apply RhTicket; [assumption..|]. right. exists j, r'. auto. }
    unfold validate_relationship. cbv zeta. destruct (seq_spec path "") as [->|Hp]; cbn [negb]; [apply B|].
    destruct (all_err_rels l 0 [] false None (or_introl eq_refl)) as [E|(es & E & _ & Hes)]; rewrite E in *.
    - split; [intros []|]. intros (i & k & -> & H). apply (B ([lvi "relationship" i], "", k)). eauto.
    - cbn [located_o] in *. rewrite set_path_located by exact Hes. rewrite in_map_iff. split.
      + intros (y & <- & Hy). apply B in Hy as (i & k & -> & H). exists i, k. auto.
      + intros (i & k & -> & H). exists ([lvi "relationship" i], "", k). split; [reflexivity|]. apply B. eauto.
  Qed.
  Lemma nn_relationship l path : nn (validate_relationship m l path).
  Proof.
    unfold validate_relationship. cbv zeta.
    pose proof (all_err_rels l 0 [] false None (or_introl eq_refl)) as H.
    destruct (negb (seq path "")); [|apply all_err_nn; exact H].
    destruct H as [E|(es & E & Hn & Hes)]; rewrite E; [nn|]. intros H.
    cbn [located_o] in H. rewrite set_path_located in H by exact Hes. apply map_eq_nil in H.
    destruct es as [|g es]; [contradiction|]. inversion Hes; subst. destruct H2 as (t & x & p & ->). discriminate.
  Qed.
End Rels.
#[export] Hint Resolve nn_relationship : nn.
