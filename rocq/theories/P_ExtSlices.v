From Verif Require Import GoBase GoFloat Types M_Core S_Core P_Core M_Errors S_Errors P_Errors
  M_Geom S_Geom P_Geom P_Coherency M_Validate S_Validate P_Validate P_Validate2 P_Validate3 M_ExtValidate S_ExtValidate P_ExtMat P_ExtBeam.

Lemma last_rev {A} (l : list A) x : LastOf l x <-> exists r, rev l = x :: r.
Proof.
  split.
  - intros (r & ->). rewrite rev_app_distr. cbn. eauto.
  - intros (r & H). exists (rev r). rewrite <- (rev_involutive l), H. reflexivity.
Qed.
Lemma last_none {A} (l : list A) : rev l = [] -> l = [].
Proof. intros H. rewrite <- (rev_involutive l), H. reflexivity. Qed.
Lemma is_nil_false {A} (l : list A) : is_nil l = false <-> l <> [].
Proof. destruct l; cbn; split; congruence. Qed.

(** ** The slices of a stack *)
Inductive SliceHere (bottom : f32) (s : Slice) (last : f32) : list Level -> gerr -> Prop :=
| ShNoTop : Unset (sl_top s) -> SliceHere bottom s last [] (EMissing "ztop")
| ShLow : ~ Unset (sl_top s) -> fltb (sl_top s) bottom = true -> SliceHere bottom s last [] (ESent "ErrSliceSmallTopZ")
| ShOrder : Le (sl_top s) last -> SliceHere bottom s last [] (ESent "ErrSliceNoMonotonic")
| ShVertices : ~ (sl_polys s = [] /\ sl_verts s = []) -> List.length (sl_verts s) < 2 ->
    SliceHere bottom s last [] (ESent "ErrSliceInsufficientVertices")
| ShPolygons : sl_verts s <> [] -> sl_polys s = [] -> SliceHere bottom s last [] (ESent "ErrSliceInsufficientPolygons")
| ShSegments k p : nth_error (sl_polys s) k = Some p -> pg_segs p = [] ->
    SliceHere bottom s last [lvi "polygon" k] (ESent "ErrSliceInsufficientSegments").
Definition slice_step (bottom : f32) (j : nat) (s : Slice) (last : f32) (errs : error) : error :=
  slices_loop bottom j [s] last errs.
Lemma slices_cons bottom j s r last errs :
  slices_loop bottom j (s :: r) last errs = slices_loop bottom (S j) r (sl_top s) (slice_step bottom j s last errs).
Proof. reflexivity. Qed.
Lemma in_slice_step bottom j s last errs x : In x (L (slice_step bottom j s last errs)) <->
  In x (L errs) \/ exists loc k, x = (lvi "slice" j :: loc, "", k) /\ SliceHere bottom s last loc k.
Proof.
  unfold slice_step. cbn [slices_loop].
  set (e1 := if feqb (sl_top s) f_zero then _ else _).
  assert (H1 : In x (L e1) <-> In x (L errs) \/ (Unset (sl_top s) /\ x = ([lvi "slice" j], "", EMissing "ztop")) \/
     (~ Unset (sl_top s) /\ fltb (sl_top s) bottom = true /\ x = ([lvi "slice" j], "", ESent "ErrSliceSmallTopZ"))).
  { unfold e1. destruct (feqb (sl_top s) f_zero) eqn:E.
    - apply feqb_unset in E. rewrite in_add, in_at_missing. tauto.
    - assert (N : ~ Unset (sl_top s)) by (rewrite <- feqb_unset, E; discriminate). rewrite in_add_if, in_at_sent. tauto. }
  clearbody e1.
  set (e2 := add_if (fleb (sl_top s) last) e1 _).
  assert (H2 : In x (L e2) <-> In x (L e1) \/ (Le (sl_top s) last /\ x = ([lvi "slice" j], "", ESent "ErrSliceNoMonotonic"))).
  { unfold e2. rewrite in_add_if, in_at_sent. reflexivity. }
  clearbody e2.
  transitivity (In x (L e2) \/
     (~ (sl_polys s = [] /\ sl_verts s = []) /\ List.length (sl_verts s) < 2 /\ x = ([lvi "slice" j], "", ESent "ErrSliceInsufficientVertices")) \/
     (sl_verts s <> [] /\ sl_polys s = [] /\ x = ([lvi "slice" j], "", ESent "ErrSliceInsufficientPolygons")) \/
     (exists k p, nth_error (sl_polys s) k = Some p /\ pg_segs p = [] /\
        x = ([lvi "slice" j; lvi "polygon" k], "", ESent "ErrSliceInsufficientSegments"))).
  - destruct (is_nil (sl_polys s) && is_nil (sl_verts s)) eqn:E.
    + apply andb_true_iff in E as [E1 E2]. apply is_nil_spec in E1, E2. split; [auto|].
      intros [H|[(H & _)|[(H & _)|(k & p & H & _)]]]; [exact H|destruct H; auto|destruct (H E2)|].
      rewrite E1 in H. destruct k; discriminate.
    + assert (N : ~ (sl_polys s = [] /\ sl_verts s = [])).
      { intros [A B]. rewrite A, B in E. discriminate. }
      rewrite (in_some_add x _ _ (fun er => at_index er "slice" j)) by reflexivity.
      rewrite in_add, !in_add_if, !in_at_sent, Nat.ltb_lt, is_nil_spec, in_at_index.
      setoid_rewrite (in_loop _ (fun k p y => pg_segs p = [] /\ y = ([lvi "polygon" k], "", ESent "ErrSliceInsufficientSegments"))).
      2:{ intros. rewrite in_add_if, is_nil_spec, in_at_sent. reflexivity. }
      split.
      * intros [[[H|[H1' ->]]|[H ->]]|(loc & q & k & -> & H)]; [auto| | |].
        -- right. left. auto.
        -- right. right. left. split; [|auto]. intros E'. apply N. auto.
        -- destruct H as [[]|(i & p & Hi & Hs & H)]. injection H as -> -> ->. right. right. right. eauto.
      * intros [H|[(_ & H & ->)|[(_ & H & ->)|(k & p & H & Hs & ->)]]]; [auto|auto|auto|].
        right. do 3 eexists. split; [reflexivity|]. right. eauto.
  - rewrite H2, H1. split.
    + intros [[[H|[[H ->]|[H [H' ->]]]]|[H ->]]|[(H & H' & ->)|[(H & H' & ->)|(k & p & H & H' & ->)]]]; [auto|right..];
        do 2 eexists; (split; [reflexivity|]); econstructor; eassumption.
    + intros [H|(loc & k & -> & H)]; [auto|]. destruct H; eauto 12.
Qed.
Definition TopFrom (last : f32) (l : list Slice) (i : nat) (z : f32) : Prop :=
  match i with 0 => z = last | S i' => exists s, nth_error l i' = Some s /\ z = sl_top s end.
Lemma in_slices_loop bottom l : forall j last e x, In x (L (slices_loop bottom j l last e)) <-> In x (L e) \/
  exists i s z loc k, nth_error l i = Some s /\ TopFrom last l i z /\ x = (lvi "slice" (j + i) :: loc, "", k) /\
    SliceHere bottom s z loc k.
Proof.
  induction l as [|s l IH]; intros j last e x.
  - cbn [slices_loop]. split; [auto|]. intros [H|(i & s & z & loc & k & H & _)]; [exact H|destruct i; discriminate].
  - rewrite slices_cons, IH, in_slice_step. split.
    + intros [[H|(loc & k & -> & H)]|(i & s' & z & loc & k & Hi & Hz & -> & H)]; [auto|right..].
      * exists 0, s, last, loc, k. rewrite Nat.add_0_r. repeat split; auto.
      * exists (S i), s', z, loc, k. rewrite Nat.add_succ_r. repeat split; auto.
        destruct i; cbn in *; [eauto|exact Hz].
    + intros [H|(i & s' & z & loc & k & Hi & Hz & -> & H)]; [auto|]. destruct i as [|i]; cbn in Hi, Hz.
      * injection Hi as ->. subst z. rewrite Nat.add_0_r. left. right. eauto.
      * right. exists i, s', z, loc, k. rewrite Nat.add_succ_r. repeat split; auto.
        destruct Hz as (s0 & Hs0 & ->). destruct i; cbn in *; [congruence|eauto].
Qed.
Lemma top_before l i s z : nth_error l i = Some s -> TopFrom f_lowest l i z <-> TopBefore l i z.
Proof.
  intros Hs. destruct i; cbn [TopFrom].
  - split; [intros ->; constructor|inversion 1; reflexivity].
  - split; [intros (s0 & H & ->); econstructor; exact H|inversion 1; subst; eauto].
Qed.
Lemma slice_violation bottom l j loc k : SliceViolation bottom l j loc k <->
  exists s z, nth_error l j = Some s /\ TopFrom f_lowest l j z /\ SliceHere bottom s z loc k.
Proof.
  assert (T : forall s, nth_error l j = Some s -> exists z, TopFrom f_lowest l j z).
  { intros s Hs. destruct j as [|j]; cbn; [eauto|]. destruct (nth_error l j) eqn:E; [eauto|].
    apply nth_error_None in E. assert (nth_error l (S j) <> None) as H by congruence. apply nth_error_Some in H. lia. }
  split.
  - intros H. destruct H as [s Hs H|s Hs H H'|s z Hs Hz H|s Hs H H'|s Hs H H'|s k p Hs H H']; destruct (T _ Hs) as (z' & Hz').
    + exists s, z'. repeat split; auto. constructor; assumption.
    + exists s, z'. repeat split; auto. constructor; assumption.
    + exists s, z. rewrite top_before by eassumption. repeat split; auto. constructor; assumption.
    + exists s, z'. repeat split; auto. constructor; assumption.
    + exists s, z'. repeat split; auto. constructor; assumption.
    + exists s, z'. repeat split; auto. econstructor; eassumption.
  - intros (s & z & Hs & Hz & H). destruct H as [H|H H'|H|H H'|H H'|k p H H'];
      [eapply SlNoTop|eapply SlLow|eapply SlOrder|eapply SlVertices|eapply SlPolygons|eapply SlSegments]; try eassumption.
    eapply top_before; eassumption.
Qed.
Lemma nn_slices_loop bottom l : forall j last e, nn e -> nn (slices_loop bottom j l last e).
Proof.
  induction l as [|s l IH]; intros j last e He; [exact He|]. rewrite slices_cons. apply IH. unfold slice_step. cbn [slices_loop].
  assert (H : nn (add_if (fleb (sl_top s) last)
     (if feqb (sl_top s) f_zero then add e (at_index (missing "ztop") "slice" j)
      else add_if (fltb (sl_top s) bottom) e (at_index (sent "ErrSliceSmallTopZ") "slice" j)) (at_index (sent "ErrSliceNoMonotonic") "slice" j))).
  { destruct (feqb _ _); nn. }
  destruct (is_nil (sl_polys s) && is_nil (sl_verts s)); [exact H|].
  assert (K : nn (loop (fun k p perrs => add_if (is_nil (pg_segs p)) perrs (at_index (sent "ErrSliceInsufficientSegments") "polygon" k)) 0 (sl_polys s) None)) by nn.
  destruct (loop _ 0 (sl_polys s) None) as [g|]; [|nn]. apply nn_add; [nn|]. apply nn_at. exact K.
Qed.

(** ** The references of a stack *)
Inductive RefHere (m : Model) (path : string) (r : SliceRef) (last : f32) : gerr -> Prop :=
| RhPath : sr_path r = "" -> RefHere m path r last (EMissing "slicepath")
| RhSame : sr_path r <> "" -> sr_path r = path -> RefHere m path r last (ESent "ErrSliceRefSamePart")
| RhID : sr_id r = 0%N -> RefHere m path r last (EMissing "slicestackid")
| RhMissing : RefWellFormed path r -> (forall a, ~ AssetIn m (sr_path r) (sr_id r) a) ->
    RefHere m path r last (ESent "ErrMissingResource")
| RhKind a : RefWellFormed path r -> AssetIn m (sr_path r) (sr_id r) a ->
    (forall st, a <> AExt (XSliceStack st)) -> RefHere m path r last (ESent "ErrNonSliceStack")
| RhRef st : RefWellFormed path r -> StackIn m (sr_path r) (sr_id r) st ->
    ss_refs st <> [] -> RefHere m path r last (ESent "ErrSliceRefRef")
| RhOrder st s : RefWellFormed path r -> StackIn m (sr_path r) (sr_id r) st ->
    FirstOf (ss_slices st) s -> Le (sl_top s) last -> RefHere m path r last (ESent "ErrSliceNoMonotonic").
(** The height after a reference. *)
Definition next_z (m : Model) (path : string) (r : SliceRef) (last : f32) : f32 :=
  if seq (sr_path r) "" || seq (sr_path r) path || (sr_id r =? 0)%N then last
  else match find_asset m (sr_path r) (sr_id r) with
       | Some (AExt (XSliceStack st)) => match rev (ss_slices st) with s :: _ => sl_top s | [] => last end
       | _ => last
       end.
Definition ref_step (m : Model) (path : string) (i : nat) (r : SliceRef) (last : f32) (errs : error) : error :=
  refs_loop m path i [r] last errs.
Lemma refs_cons m path i ref r last errs : refs_loop m path i (ref :: r) last errs =
  refs_loop m path (S i) r (next_z m path ref last) (ref_step m path i ref last errs).
Proof.
  unfold ref_step, next_z. cbn [refs_loop].
  destruct (seq (sr_path ref) "") eqn:E1; cbn [orb]; [destruct (sr_id ref =? 0)%N; reflexivity|].
  destruct (seq (sr_path ref) path) eqn:E2; cbn [orb]; [destruct (sr_id ref =? 0)%N; reflexivity|].
  destruct (sr_id ref =? 0)%N; cbn [negb]; [reflexivity|].
  destruct (find_asset m (sr_path ref) (sr_id ref)) as [[| |[]]|]; reflexivity.
Qed.
Lemma well_formed path r : (seq (sr_path r) "" || seq (sr_path r) path || (sr_id r =? 0)%N = false) <-> RefWellFormed path r.
Proof.
  unfold RefWellFormed. rewrite !orb_false_iff, !seq_false, N.eqb_neq. tauto.
Qed.
Lemma in_ref_step m path i r last errs x : ChildsOk m -> In x (L (ref_step m path i r last errs)) <->
  In x (L errs) \/ exists k, x = ([lvi "sliceref" i], "", k) /\ RefHere m path r last k.
Proof.
  intros Hok. unfold ref_step. cbn [refs_loop].
  assert (W : forall P : Prop, seq (sr_path r) "" || seq (sr_path r) path || (sr_id r =? 0)%N = true -> RefWellFormed path r -> P).
  { intros P H1 H2. apply well_formed in H2. congruence. }
  destruct (seq (sr_path r) "") eqn:E1.
  { apply seq_true in E1. destruct (N.eqb_spec (sr_id r) 0) as [E3|E3]; cbn [negb].
    - rewrite !in_add, !in_at_missing. split.
      + intros [[H| ->]| ->]; [auto| |]; right; eexists; (split; [reflexivity|]); constructor; assumption.
      + intros [H|(k & -> & H)]; [auto|]. destruct H; auto; try contradiction; exfalso; revert H; apply W; reflexivity.
    - rewrite !in_add, !in_at_missing. split.
      + intros [H| ->]; [auto|]; right; eexists; (split; [reflexivity|]); constructor; assumption.
      + intros [H|(k & -> & H)]; [auto|]. destruct H; auto; try contradiction; exfalso; revert H; apply W; reflexivity. }
  destruct (seq (sr_path r) path) eqn:E2.
  { apply seq_true in E2. apply seq_false in E1. destruct (N.eqb_spec (sr_id r) 0) as [E3|E3]; cbn [negb].
    - rewrite !in_add, !in_at_missing, in_at_sent. split.
      + intros [[H| ->]| ->]; [auto| |]; right; eexists; (split; [reflexivity|]); constructor; assumption.
      + intros [H|(k & -> & H)]; [auto|]. destruct H; auto; try contradiction; exfalso; revert H; apply W; reflexivity.
    - rewrite !in_add, in_at_sent. split.
      + intros [H| ->]; [auto|]; right; eexists; (split; [reflexivity|]); constructor; assumption.
      + intros [H|(k & -> & H)]; [auto|]. destruct H; auto; try contradiction; exfalso; revert H; apply W; reflexivity. }
  destruct (N.eqb_spec (sr_id r) 0) as [E3|E3]; cbn [negb].
  { rewrite !in_add, !in_at_missing. split.
    - intros [H| ->]; [auto|]; right; eexists; (split; [reflexivity|]); constructor; assumption.
    - apply seq_false in E1, E2. intros [H|(k & -> & H)]; [auto|]. destruct H; auto; try contradiction; exfalso; revert H; apply W; reflexivity. }
  assert (Wf : RefWellFormed path r) by (apply well_formed; apply N.eqb_neq in E3; rewrite E1, E2, E3; reflexivity).
  apply seq_false in E1, E2. clear W.
  destruct (find_asset m (sr_path r) (sr_id r)) as [a|] eqn:F.
  - apply asset_in' in F; [|exact Hok].
    assert (U : forall b, AssetIn m (sr_path r) (sr_id r) b -> b = a) by (intros b Hb; eapply asset_fun; eassumption).
    destruct (match a with AExt (XSliceStack _) => true | _ => false end) eqn:Ea.
    + destruct a as [| |[]]; try discriminate. rename s into st.
      set (e1 := add_if _ errs _).
      assert (H1 : In x (L e1) <-> In x (L errs) \/ (ss_refs st <> [] /\ x = ([lvi "sliceref" i], "", ESent "ErrSliceRefRef"))).
      { unfold e1. rewrite in_add_if, in_at_sent. destruct (ss_refs st); cbn; intuition congruence. }
      clearbody e1.
      transitivity (In x (L e1) \/ exists s, FirstOf (ss_slices st) s /\ Le (sl_top s) last /\ x = ([lvi "sliceref" i], "", ESent "ErrSliceNoMonotonic")).
      { destruct (ss_slices st) as [|s0 r0].
        - split; [auto|]. intros [H|(s & (r' & H) & _)]; [exact H|discriminate].
        - rewrite in_add_if, in_at_sent. split.
          + intros [H|[H ->]]; [auto|]. right. exists s0. split; [exists r0; reflexivity|auto].
          + intros [H|(s & (r' & H) & Hl & ->)]; [auto|]. injection H as -> ->. right. auto. }
      rewrite H1. split.
      * intros [[H|[H ->]]|(s & Hs & Hl & ->)]; [auto|right..]; eexists; (split; [reflexivity|]); [eapply RhRef|eapply RhOrder]; eassumption.
      * intros [H|(k & -> & H)]; [auto|].
        destruct H as [H|H H'|H|_ H|b _ H H'|st' _ H H'|st' s _ H H' H'']; try contradiction.
        -- destruct (H _ F).
        -- rewrite (U _ H) in H'. destruct (H' st eq_refl).
        -- apply U in H. injection H as ->. auto.
        -- apply U in H. injection H as ->. right. eauto.
    + assert (Ns : forall st, a <> AExt (XSliceStack st)) by (intros st ->; discriminate).
      assert (E : match a with AExt (XSliceStack st) => add errs None | _ => add errs (at_index (sent "ErrNonSliceStack") "sliceref" i) end = add errs (at_index (sent "ErrNonSliceStack") "sliceref" i)).
      { destruct a as [| |[]]; try reflexivity; discriminate. }
      transitivity (In x (L (add errs (at_index (sent "ErrNonSliceStack") "sliceref" i)))).
      { destruct a as [| |[]]; try reflexivity; discriminate. }
      rewrite in_add, in_at_sent. split.
      * intros [H| ->]; [auto|right]; eexists; (split; [reflexivity|]); eapply RhKind; eassumption.
      * intros [H|(k & -> & H)]; [auto|].
        destruct H as [H|H H'|H|_ H|b _ H H'|st' _ H H'|st' s _ H H' H'']; try contradiction.
        -- destruct (H _ F).
        -- auto.
        -- apply U in H. destruct (Ns st'); auto.
        -- apply U in H. destruct (Ns st'); auto.
  - assert (N : forall a, ~ AssetIn m (sr_path r) (sr_id r) a) by (apply asset_none'; assumption).
    rewrite in_add, in_at_sent. split.
    + intros [H| ->]; [auto|right]; eexists; (split; [reflexivity|]); eapply RhMissing; eassumption.
    + intros [H|(k & -> & H)]; [auto|].
      destruct H as [H|H H'|H|_ H|b _ H H'|st' _ H H'|st' s _ H H' H'']; try contradiction; try (destruct (N _ H)). auto.
Qed.
Fixpoint z_after (m : Model) (path : string) (l : list SliceRef) (i : nat) (last : f32) : f32 :=
  match i, l with
  | S i', r :: l' => z_after m path l' i' (next_z m path r last)
  | _, _ => last
  end.
Lemma in_refs_loop m path l : ChildsOk m -> forall j last e x, In x (L (refs_loop m path j l last e)) <-> In x (L e) \/
  exists i r k, nth_error l i = Some r /\ x = ([lvi "sliceref" (j + i)], "", k) /\ RefHere m path r (z_after m path l i last) k.
Proof.
  intros Hok. induction l as [|r l IH]; intros j last e x.
  - cbn [refs_loop]. split; [auto|]. intros [H|(i & r & k & H & _)]; [exact H|destruct i; discriminate].
  - rewrite refs_cons, IH, in_ref_step by exact Hok. split.
    + intros [[H|(k & -> & H)]|(i & r' & k & Hi & -> & H)]; [auto|right..].
      * exists 0, r, k. rewrite Nat.add_0_r. repeat split; auto.
      * exists (S i), r', k. rewrite Nat.add_succ_r. repeat split; auto.
    + intros [H|(i & r' & k & Hi & -> & H)]; [auto|]. destruct i as [|i]; cbn in Hi, H.
      * injection Hi as ->. rewrite Nat.add_0_r. left. right. eauto.
      * right. exists i, r', k. rewrite Nat.add_succ_r. auto.
Qed.
Lemma nn_refs_loop m path l : forall j last e, nn e -> nn (refs_loop m path j l last e).
Proof.
  induction l as [|r l IH]; intros j last e He; [exact He|]. rewrite refs_cons. apply IH. unfold ref_step. cbn [refs_loop].
  destruct (seq (sr_path r) ""), (seq (sr_path r) path), (sr_id r =? 0)%N; cbn [negb]; try solve [nn];
    destruct (find_asset m _ _) as [[| |[]]|]; try solve [nn]; destruct (ss_slices _); nn.
Qed.
Lemma ends_at m path l i z : ChildsOk m -> EndsAt m path l i z <->
  exists r, nth_error l i = Some r /\ next_z m path r S754_nan = z /\ next_z m path r (S754_zero false) = z /\ (forall y, next_z m path r y = z).
Proof.
  intros Hok. split.
  - intros (r & st & s & Hr & Hw & Hst & Hl & <-). exists r. split; [exact Hr|].
    assert (K : forall y, next_z m path r y = sl_top s).
    { intros y. unfold next_z. apply well_formed in Hw. rewrite Hw. apply asset_in' in Hst; [|exact Hok]. rewrite Hst.
      apply last_rev in Hl as (r' & ->). reflexivity. }
    auto.
  - intros (r & Hr & H1 & H2 & _). unfold next_z in *.
    destruct (seq (sr_path r) "" || seq (sr_path r) path || (sr_id r =? 0)%N) eqn:W; [congruence|].
    apply well_formed in W.
    destruct (find_asset m (sr_path r) (sr_id r)) as [[| |[]]|] eqn:F; try congruence.
    apply asset_in' in F; [|exact Hok].
    destruct (rev (ss_slices s)) as [|t q] eqn:R; [congruence|].
    exists r, s, t. split; [exact Hr|]. split; [exact W|]. split; [exact F|]. split; [apply last_rev; eauto|exact H1].
Qed.
Lemma next_z_cases m path r : (exists z, forall y, next_z m path r y = z) \/ (forall y, next_z m path r y = y).
Proof.
  unfold next_z. destruct (_ || _); [auto|]. destruct (find_asset m _ _) as [[| |[]]|]; auto.
  destruct (rev _); eauto.
Qed.
Lemma ends_at_iff m path l i : ChildsOk m -> (exists z, EndsAt m path l i z) <->
  exists r, nth_error l i = Some r /\ ~ (forall y, next_z m path r y = y).
Proof.
  intros Hok. split.
  - intros (z & H). apply ends_at in H as (r & Hr & _ & _ & H); [|exact Hok]. exists r. split; [exact Hr|].
    intros K. pose proof (K S754_nan). pose proof (K (S754_zero false)). rewrite H in *. congruence.
  - intros (r & Hr & H). destruct (next_z_cases m path r) as [(z & K)|K]; [|destruct (H K)].
    exists z. apply ends_at; [exact Hok|]. exists r. auto.
Qed.
Lemma z_after_snoc m path l : forall i last, z_after m path l (S i) last =
  match nth_error l i with Some r => next_z m path r (z_after m path l i last) | None => z_after m path l i last end.
Proof.
  induction l as [|r l IH]; intros i last.
  - destruct i; reflexivity.
  - destruct i as [|i]; [destruct l; reflexivity|]. change (z_after m path (r :: l) (S (S i)) last) with (z_after m path l (S i) (next_z m path r last)).
    rewrite IH. reflexivity.
Qed.
Lemma ends_at_fun m path l i z z' : ChildsOk m -> EndsAt m path l i z -> EndsAt m path l i z' -> z = z'.
Proof.
  intros Hok H H'. apply ends_at in H as (r & Hr & _ & _ & H); [|exact Hok].
  apply ends_at in H' as (r' & Hr' & _ & _ & H'); [|exact Hok]. replace r' with r in H' by congruence.
  rewrite <- (H S754_nan), (H' S754_nan). reflexivity.
Qed.
Lemma height_after m path l i : ChildsOk m -> HeightBefore m path l i (z_after m path l i f_lowest).
Proof.
  intros Hok. induction i as [|i IH].
  - replace (z_after m path l 0 f_lowest) with lowest32 by (destruct l; reflexivity). apply HbNone. intros; lia.
  - rewrite z_after_snoc. destruct (nth_error l i) as [r|] eqn:E.
    + destruct (next_z_cases m path r) as [(z & K)|K].
      * rewrite K. apply (HbSome _ _ _ _ i); [lia| |intros; lia]. apply ends_at; [exact Hok|]. exists r. auto.
      * rewrite K. assert (N : forall z, ~ EndsAt m path l i z).
        { intros z H. assert (X : exists z, EndsAt m path l i z) by eauto. apply ends_at_iff in X as (r' & Hr' & X); [|exact Hok].
          apply X. replace r' with r by congruence. exact K. }
        destruct IH as [H|j z Hj Hz H].
        -- apply HbNone. intros j z Hj. destruct (Nat.eq_dec j i) as [->|]; [apply N|apply H; lia].
        -- apply (HbSome _ _ _ _ j); [lia|exact Hz|]. intros k y Hk. destruct (Nat.eq_dec k i) as [->|]; [apply N|apply H; lia].
    + assert (N : forall z, ~ EndsAt m path l i z).
      { intros z (r & st & s & Hr & _). congruence. }
      destruct IH as [H|j z Hj Hz H].
      * apply HbNone. intros j z Hj. destruct (Nat.eq_dec j i) as [->|]; [apply N|apply H; lia].
      * apply (HbSome _ _ _ _ j); [lia|exact Hz|]. intros k y Hk. destruct (Nat.eq_dec k i) as [->|]; [apply N|apply H; lia].
Qed.
Lemma height_fun m path l i z z' : ChildsOk m -> HeightBefore m path l i z -> HeightBefore m path l i z' -> z = z'.
Proof.
  intros Hok [H|j z0 Hj Hz H] [H'|j' z1 Hj' Hz' H'].
  - reflexivity.
  - destruct (H j' z1 Hj' Hz').
  - destruct (H' j z0 Hj Hz).
  - destruct (Nat.lt_trichotomy j j') as [D|[D|D]].
    + destruct (H j' z1 (conj D Hj') Hz').
    + subst j'. eapply ends_at_fun; eassumption.
    + destruct (H' j z0 (conj D Hj) Hz).
Qed.
Lemma ref_violation m path l i k : ChildsOk m -> RefViolation m path l i k <->
  exists r, nth_error l i = Some r /\ RefHere m path r (z_after m path l i f_lowest) k.
Proof.
  intros Hok. split.
  - intros H. destruct H as [r Hr H|r Hr H H'|r Hr H|r Hr H H'|r a Hr H H' H''|r st Hr H H' H''|r st s z Hr Hw Hst Hf Hz Hl]; exists r; (split; [exact Hr|]).
    + apply RhPath; assumption.
    + apply RhSame; assumption.
    + apply RhID; assumption.
    + apply RhMissing; assumption.
    + eapply RhKind; eassumption.
    + eapply RhRef; eassumption.
    + eapply RhOrder; try eassumption. rewrite <- (height_fun _ _ _ _ _ _ Hok Hz (height_after m path l i Hok)). exact Hl.
  - intros (r & Hr & H). destruct H as [H|H H'|H|Hw H|b Hw H H'|st' Hw H H'|st' s Hw H H' H''].
    + eapply RfPath; eassumption.
    + eapply RfSame; eassumption.
    + eapply RfID; eassumption.
    + eapply RfMissing; eassumption.
    + eapply RfKind; eassumption.
    + eapply RfRef; eassumption.
    + eapply RfOrder; try eassumption. apply height_after; exact Hok.
Qed.
Lemma in_slice_stack m path st x : ChildsOk m -> In x (L (slice_stack_validate m path st)) <->
  exists loc k, x = (loc, "", k) /\ StackViolation m path st loc k.
Proof.
  intros Hok. unfold slice_stack_validate. rewrite !in_add, in_add_if, in_sent, in_none, in_refs_loop, in_slices_loop, !in_none by exact Hok.
  assert (B : (negb (is_nil (ss_slices st)) && negb (is_nil (ss_refs st)) || is_nil (ss_slices st) && is_nil (ss_refs st)) = true <->
              (ss_slices st = [] <-> ss_refs st = [])).
  { destruct (ss_slices st), (ss_refs st); cbn; intuition congruence. }
  rewrite B. split.
  - intros [[[[]|[H ->]]|[[]|(i & r & k & Hi & -> & H)]]|[[]|(i & s & z & loc & k & Hi & Hz & -> & H)]]; do 2 eexists; (split; [reflexivity|]).
    + apply StBoth; exact H.
    + apply StRef. apply ref_violation; [exact Hok|]. eauto.
    + apply StSlice. apply slice_violation. eauto.
  - intros (loc & k & -> & H). destruct H as [H|i k H|j loc k H].
    + left. left. right. auto.
    + left. right. right. apply ref_violation in H as (r & Hr & H); [|exact Hok]. exists i, r, k. auto.
    + right. right. apply slice_violation in H as (s & z & Hs & Hz & H). exists j, s, z, loc, k. auto.
Qed.
Lemma nn_slice_stack m path st : nn (slice_stack_validate m path st).
Proof.
  unfold slice_stack_validate. apply nn_add; [apply nn_add|]; [nn|apply nn_refs_loop; nn|apply nn_slices_loop; nn].
Qed.

(** ** Objects with slices *)
Lemma slice_attr o sid res : get_slice_attr (ob_any o) = Some (sid, res) <-> SliceAttr o sid res.
Proof.
  unfold SliceAttr. generalize (ob_any o) as l. induction l as [|g l IH]; cbn [get_slice_attr].
  - split; [discriminate|]. intros (a & b & H & _). destruct a; discriminate.
  - assert (K : (forall x y, g <> GSlice x y) -> get_slice_attr l = Some (sid, res) <->
       exists a b, g :: l = a ++ GSlice sid res :: b /\ (forall x y, ~ In (GSlice x y) a)).
    { intros Hg. rewrite IH. split.
      - intros (a & b & -> & H). exists (g :: a), b. split; [reflexivity|]. intros x y [E|E]; [destruct (Hg _ _ E)|destruct (H _ _ E)].
      - intros ([|g' a] & b & E & H); [injection E as E _; destruct (Hg _ _ E)|]. injection E as <- ->. exists a, b. split; [reflexivity|].
        intros x y Hx. apply (H x y). right. exact Hx. }
    destruct g; try (apply K; intros; discriminate).
    split.
    + intros H. injection H as -> ->. exists [], l. split; [reflexivity|]. intros x y [].
    + intros ([|g' a] & b & E & H); [injection E as -> -> _; reflexivity|]. injection E as <- _. destruct (H _ _ (or_introl eq_refl)).
Qed.
Lemma closed_stack st : stack_closed st = true <-> ClosedStack st.
Proof.
  unfold stack_closed, ClosedStack. rewrite forallb_forall. split.
  - intros H s p g Hs Hp Hg. specialize (H _ Hs). rewrite forallb_forall in H. specialize (H _ Hp).
    unfold polygon_closed in H. apply last_rev in Hg as (r & E). rewrite E in H. apply N.eqb_eq. exact H.
  - intros H s Hs. rewrite forallb_forall. intros p Hp. unfold polygon_closed. destruct (rev (pg_segs p)) as [|g r] eqn:E; [reflexivity|].
    apply N.eqb_eq. apply (H s p g Hs Hp). apply last_rev. eauto.
Qed.
Lemma all_closed_spec m st : ChildsOk m -> all_closed m st = true <-> AllClosed m st.
Proof.
  intros Hok. unfold all_closed, AllClosed. rewrite andb_true_iff, closed_stack, forallb_forall. split; intros [H1 H2]; (split; [exact H1|]).
  - intros r st' Hr Hst. specialize (H2 _ Hr). apply asset_in' in Hst; [|exact Hok]. rewrite Hst in H2. apply closed_stack. exact H2.
  - intros r Hr. destruct (find_asset m (sr_path r) (sr_id r)) as [[| |[]]|] eqn:F; try reflexivity.
    apply closed_stack. apply (H2 r); [exact Hr|]. apply asset_in'; assumption.
Qed.
Lemma slices_required m : slice_required (mo_exts m) = true <-> SlicesRequired m.
Proof.
  unfold SlicesRequired. generalize (mo_exts m) as l. induction l as [|e l IH]; cbn [slice_required].
  - split; [discriminate|]. intros (a & e & b & H & _). destruct a; discriminate.
  - change ns_slices with slice_ns. destruct (seq (ex_ns e) slice_ns) eqn:E.
    + apply seq_true in E. split.
      * intros H. exists [], e, l. repeat split; auto.
      * intros ([|e0 a] & e' & b & El & Ha & He & Hr); injection El as -> ->; [exact Hr|]. destruct (Ha _ (or_introl eq_refl) E).
    + apply seq_false in E. rewrite IH. split.
      * intros (a & e' & b & -> & Ha & H). exists (e :: a), e', b. split; [reflexivity|]. split; [|exact H]. intros x [<-|Hx]; auto.
      * intros ([|e0 a] & e' & b & El & Ha & He & Hr); injection El as -> ->; [destruct (E He)|].
        exists a, e', b. repeat split; auto. intros x Hx. apply Ha. right. exact Hx.
Qed.
Lemma may_place t : (has_transform t && negb (valid_transform t)) = false <-> MayPlace t.
Proof.
  unfold MayPlace. rewrite andb_false_iff, has_transform_spec, negb_false_iff.
  assert (V : valid_transform t = true <-> PlanarMatrix t).
  { unfold valid_transform, PlanarMatrix. rewrite !andb_true_iff, !feqb_zero, feqb_one. tauto. }
  rewrite V. tauto.
Qed.
Lemma may_not_place t : (has_transform t && negb (valid_transform t)) = true <-> ~ MayPlace t.
Proof. rewrite <- may_place. destruct (_ && _); intuition congruence. Qed.
Lemma self_ref path o c : ((co_oid c =? ob_id o)%N && seq (comp_path c path) path = true) <-> SelfRef path o c.
Proof.
  unfold SelfRef. rewrite andb_true_iff, N.eqb_eq, seq_true, target_file. intuition congruence.
Qed.
Definition BadRef (path : string) (id : N) (c : Component) : Prop := co_oid c = id /\ TargetFile c path path /\ ~ MayPlace (co_tr c).
Lemma bad_ref path id c : (co_oid c =? id)%N && seq (comp_path c path) path && has_transform (co_tr c) && negb (valid_transform (co_tr c)) = true
  <-> BadRef path id c.
Proof.
  unfold BadRef. rewrite <- andb_assoc, !andb_true_iff, <- (andb_true_iff (has_transform _)), may_not_place, N.eqb_eq, seq_true, target_file.
  intuition congruence.
Qed.
(** A bad reference is found below the components [cs] of [o]. *)
Definition BadIn (m : Model) (path : string) (id : N) (o : Object) (cs : list Component) : Prop :=
  exists pre c post, cs = pre ++ c :: post /\ (forall d, In d pre -> ~ SelfRef path o d) /\
    (BadRef path id c \/
     (~ SelfRef path o c /\ exists q o1 o2, TargetFile c path q /\ ObjIn m q (co_oid c) o1 /\ Followed m path o1 o2 /\ BadPlacement path id o2)).
Lemma bad_in_cons m path id o c cs : BadIn m path id o (c :: cs) <->
  BadRef path id c \/ (~ SelfRef path o c /\
    ((exists q o1 o2, TargetFile c path q /\ ObjIn m q (co_oid c) o1 /\ Followed m path o1 o2 /\ BadPlacement path id o2) \/ BadIn m path id o cs)).
Proof.
  split.
  - intros ([|d pre] & c' & post & E & Hp & H); injection E as -> ->.
    + destruct H as [H|(H & H')]; auto.
    + right. split; [apply Hp; left; reflexivity|]. right. exists pre, c', post. split; [reflexivity|]. split; [|exact H].
      intros d' Hd. apply Hp. right. exact Hd.
  - intros [H|(H & [H'|(pre & c' & post & -> & Hp & H')])].
    + exists [], c, cs. split; [reflexivity|]. split; [intros d []|auto].
    + exists [], c, cs. split; [reflexivity|]. split; [intros d []|auto].
    + exists (c :: pre), c', post. split; [reflexivity|]. split; [|exact H']. intros d [<-|Hd]; auto.
Qed.
Lemma bad_below m path id o : BadIn m path id o (Comps o) <-> exists o2, Followed m path o o2 /\ BadPlacement path id o2.
Proof.
  split.
  - intros (pre & c & post & E & Hp & [H|(H & q & o1 & o2 & Hq & Ho & Hf & Hb)]).
    + exists o. split; [constructor|]. destruct H as (H1 & H2 & H3). exists pre, c, post. auto.
    + exists o2. split; [|exact Hb]. eapply FoComp; [exact E| |exact Hq|exact Ho|exact Hf].
      intros d Hd. apply in_app_iff in Hd as [Hd|[<-|[]]]; auto.
  - intros (o2 & Hf & Hb). destruct Hf as [o|o pre c post q o1 o2 E Hp Hq Ho Hf].
    + destruct Hb as (pre & c & post & E & Hp & H1 & H2 & H3). exists pre, c, post. split; [exact E|]. split; [exact Hp|]. left. repeat split; auto.
    + exists pre, c, post. split; [exact E|]. split; [intros d Hd; apply Hp, in_app_iff; auto|]. right. split; [apply Hp, in_app_iff; right; left; reflexivity|].
      exists q, o1, o2. auto.
Qed.
Lemma comps_of_comps o : Comps o = match ob_comps o with Some cs => cs_list cs | None => [] end.
Proof. reflexivity. Qed.
Lemma obj_transforms_spec m path id : ChildsOk m -> forall fuel o b, obj_transforms fuel m path id o = Some b ->
  (b = false <-> exists o2, Followed m path o o2 /\ BadPlacement path id o2).
Proof.
  intros Hok. induction fuel as [|f IH]; intros o b; cbn [obj_transforms]; [discriminate|].
  assert (K : forall cs b, comps_transforms m path id (obj_transforms f m path id) (ob_id o) cs = Some b -> (b = false <-> BadIn m path id o cs)).
  { induction cs as [|c cs IHc]; intros b'; cbn [comps_transforms].
    - intros H. injection H as <-. split; [discriminate|]. intros (pre & c & post & E & _). destruct pre; discriminate.
    - rewrite bad_in_cons.
      destruct (_ && negb (valid_transform (co_tr c))) eqn:E1.
      { intros H. injection H as <-. apply bad_ref in E1. tauto. }
      assert (N1 : ~ BadRef path id c) by (rewrite <- bad_ref, E1; discriminate).
      destruct ((co_oid c =? ob_id o)%N && seq (comp_path c path) path) eqn:E2.
      { intros H. injection H as <-. apply self_ref in E2. split; [discriminate|tauto]. }
      assert (N2 : ~ SelfRef path o c) by (rewrite <- self_ref, E2; discriminate).
      destruct (find_object m (comp_path c path) (co_oid c)) as [o1|] eqn:F.
      + apply obj_in in F; [|exact Hok].
        assert (U : forall q o', TargetFile c path q -> ObjIn m q (co_oid c) o' -> o' = o1).
        { intros q o' Hq Ho. apply target_file in Hq as ->. apply obj_in in Ho; [|exact Hok]. apply obj_in in F; [|exact Hok]. congruence. }
        destruct (obj_transforms f m path id o1) as [b1|] eqn:R; [|discriminate].
        apply IH in R.
        assert (B : (exists q o1 o2, TargetFile c path q /\ ObjIn m q (co_oid c) o1 /\ Followed m path o1 o2 /\ BadPlacement path id o2) <-> b1 = false).
        { rewrite R. split.
          - intros (q & o' & o2 & Hq & Ho & H). rewrite (U _ _ Hq Ho) in H. eauto.
          - intros (o2 & H). exists (comp_path c path), o1, o2. rewrite target_file. tauto. }
        rewrite B. destruct b1.
        * intros H. apply IHc in H. rewrite H. intuition congruence.
        * intros H. injection H as <-. tauto.
      + intros H. apply IHc in H. rewrite H.
        assert (B : ~ (exists q o1 o2, TargetFile c path q /\ ObjIn m q (co_oid c) o1 /\ Followed m path o1 o2 /\ BadPlacement path id o2)).
        { intros (q & o' & o2 & Hq & Ho & _). apply target_file in Hq as ->. apply obj_in in Ho; [|exact Hok]. congruence. }
        tauto. }
  rewrite <- bad_below, comps_of_comps. destruct (ob_comps o) as [cs|].
  - apply K.
  - intros H. injection H as <-. split; [discriminate|]. intros (pre & c & post & E & _). destruct pre; discriminate.
Qed.
Lemma items_transforms_spec fuel m path id : ChildsOk m -> forall b,
  items_transforms fuel m path id (bu_items (mo_build m)) = Some b -> (b = false <-> BadBuild m path id).
Proof.
  intros Hok. 
  assert (K : forall its b, items_transforms fuel m path id its = Some b -> (b = false <->
    (exists it q, In it its /\ CarriedPath (it_any it) q /\ (q = "" \/ q = path) /\ it_oid it = id /\ ~ MayPlace (it_tr it)) \/
    (exists it q o o', In it its /\ CarriedPath (it_any it) q /\ ObjIn m (if seq q "" then path else q) (it_oid it) o /\ Followed m path o o' /\ BadPlacement path id o'))).
  { induction its as [|it its IH]; intros b; cbn [items_transforms].
    - intros H. injection H as <-. split; [discriminate|]. intros [(it & q & [] & _)|(it & q & o & o' & [] & _)].
    - cbv zeta. set (tp := if seq (item_path it) "" then path else item_path it).
      assert (Q : forall q, CarriedPath (it_any it) q <-> q = item_path it).
      { intros q. rewrite any_path_spec. unfold item_path. intuition congruence. }
      destruct (_ && negb (valid_transform (it_tr it))) eqn:E1.
      { intros H. injection H as <-. split; [|reflexivity]. intros _. left. exists it, (item_path it).
        rewrite <- andb_assoc, !andb_true_iff, <- (andb_true_iff (has_transform _)), may_not_place, N.eqb_eq, seq_true in E1.
        destruct E1 as [[E1 E2] E3]. unfold tp in E2. split; [left; reflexivity|]. split; [apply Q; reflexivity|]. split; [|auto].
        destruct (seq (item_path it) "") eqn:E; [left; apply seq_true; exact E|right; exact E2]. }
      assert (N1 : ~ (exists q, CarriedPath (it_any it) q /\ (q = "" \/ q = path) /\ it_oid it = id /\ ~ MayPlace (it_tr it))).
      { intros (q & Hq & Hp & Hi & Hm). apply Q in Hq as ->. revert E1. apply not_false_iff_true.
        rewrite <- andb_assoc, !andb_true_iff, <- (andb_true_iff (has_transform _)), may_not_place, N.eqb_eq, seq_true. repeat split; auto.
        unfold tp. destruct Hp as [->| ->]; [reflexivity|]. destruct (seq path ""); reflexivity. }
      destruct (find_object m tp (it_oid it)) as [o1|] eqn:F.
      + apply obj_in in F; [|exact Hok].
        destruct (obj_transforms fuel m path id o1) as [b1|] eqn:R; [|discriminate].
        apply obj_transforms_spec in R; [|exact Hok].
        assert (B : (exists q o o', CarriedPath (it_any it) q /\ ObjIn m (if seq q "" then path else q) (it_oid it) o /\ Followed m path o o' /\ BadPlacement path id o') <-> b1 = false).
        { rewrite R. split.
          - intros (q & o & o' & Hq & Ho & H). apply Q in Hq as ->. fold tp in Ho. replace o with o1 in H; [eauto|].
            apply obj_in in Ho; [|exact Hok]. apply obj_in in F; [|exact Hok]. congruence.
          - intros (o' & H). exists (item_path it), o1, o'. rewrite Q. tauto. }
        destruct b1.
        * intros H. apply IH in H. rewrite H. split.
          -- intros [(i & q & Hi & H')|(i & q & o & o' & Hi & H')]; [left|right]; [exists i, q|exists i, q, o, o']; (split; [right; exact Hi|exact H']).
          -- intros [(i & q & [<-|Hi] & H')|(i & q & o & o' & [<-|Hi] & H')].
             ++ destruct N1. eauto.
             ++ left. eauto.
             ++ exfalso. assert (true = false) by (apply B; eauto). discriminate.
             ++ right. eauto 8.
        * intros H. injection H as <-. split; [|reflexivity]. intros H. apply B in H as (q & o & o' & H). right. exists it, q, o, o'.
          split; [left; reflexivity|exact H].
      + intros H. apply IH in H. rewrite H. split.
        -- intros [(i & q & Hi & H')|(i & q & o & o' & Hi & H')]; [left|right]; [exists i, q|exists i, q, o, o']; (split; [right; exact Hi|exact H']).
        -- intros [(i & q & [<-|Hi] & H')|(i & q & o & o' & [<-|Hi] & Hq & Ho & H')].
           ++ destruct N1. eauto.
           ++ left. eauto.
           ++ apply Q in Hq as ->. fold tp in Ho. apply obj_in in Ho; [|exact Hok]. congruence.
           ++ right. eauto 9. }
  intros b H. apply K in H. rewrite H. split.
  - intros [(i & q & Hi & H1 & H2 & H3 & H4)|(i & q & o & o' & Hi & H1 & H2 & H3 & H4)]; [eapply BbItem|eapply BbObject]; eassumption.
  - intros [i q Hi H1 H2 H3 H4|i q o o' Hi H1 H2 H3 H4]; [left|right]; eauto 12.
Qed.
Lemma in_slice_object fuel m path o e x : ChildsOk m -> slice_object_validate fuel m path o = Some e ->
  In x (L e) <-> exists k, x = ([], "", k) /\ SliceObjViolation m path o k.
Proof.
  intros Hok. unfold slice_object_validate.
  assert (U : forall a b a' b', SliceAttr o a b -> SliceAttr o a' b' -> a' = a /\ b' = b).
  { intros a b a' b' H H'. apply slice_attr in H, H'. split; congruence. }
  destruct (get_slice_attr (ob_any o)) as [[sid res]|] eqn:G.
  2:{ intros H. injection H as <-. rewrite in_none. split; [intros []|]. intros (k & _ & H).
      assert (X : exists a b, SliceAttr o a b) by (destruct H; eauto). destruct X as (a & b & X). apply slice_attr in X. congruence. }
  apply slice_attr in G.
  assert (U' : forall a b, SliceAttr o a b -> a = sid /\ b = res) by (intros a b; apply U, G).
  set (e1 := if (sid =? 0)%N then _ else _).
  assert (H1 : forall e', e1 = Some e' -> In x (L e') <-> exists k, x = ([], "", k) /\ SliceObjViolation m path o k /\ k <> ESent "ErrSliceExtRequired").
  { intros e'. unfold e1. destruct (N.eqb_spec sid 0) as [->|Hs].
    - intros H. injection H as <-. change (In x (L (add None (missing "slicestackid"))) <-> exists k, x = ([], "", k) /\ SliceObjViolation m path o k /\ k <> ESent "ErrSliceExtRequired").
      rewrite in_add, in_none, in_missing. split.
      + intros [[]| ->]. eexists. split; [reflexivity|]. split; [eapply SoNoID; exact G|discriminate].
      + intros (k & -> & H & Hk). right. destruct H as [r' A|s' r' A Hn|s' r' a A Hn|s' r' st A Hn|s' r' st A Hn|s' A]; try (apply U' in A as [-> _]; destruct (Hn eq_refl)); [reflexivity|congruence].
    - destruct (res_find_asset m path sid) as [a|] eqn:F.
      + apply asset_in in F; [|exact Hok].
        assert (Ua : forall b, AssetIn m path sid b -> b = a) by (intros b Hb; eapply asset_fun; eassumption).
        destruct (match a with AExt (XSliceStack _) => true | _ => false end) eqn:Ea.
        * destruct a as [| |[]]; try discriminate. rename s into st.
          destruct (items_transforms fuel m path (ob_id o) (bu_items (mo_build m))) as [ok|] eqn:T; [|discriminate].
          apply items_transforms_spec in T; [|exact Hok]. intros H. injection H as <-.
          match goal with |- In x (L ?r) <-> _ => change r with (add_if (((ob_type o =? 0)%Z || (ob_type o =? 3)%Z) && negb (all_closed m st)) (add_if (negb ok) None (sent "ErrSliceInvalidTranform")) (sent "ErrSlicePolygonNotClosed")) end.
          rewrite !in_add_if, !in_sent, in_none, andb_true_iff, solid_spec, !negb_true_iff.
          assert (C : all_closed m st = false <-> ~ AllClosed m st).
          { rewrite <- (all_closed_spec _ _ Hok). destruct (all_closed m st); intuition congruence. }
          rewrite T, C. split.
          -- intros [[[]|[H ->]]|[[H H'] ->]]; eexists; (split; [reflexivity|]); (split; [|discriminate]); [eapply SoPlacement|eapply SoOpen]; eassumption.
          -- intros (k & -> & H & Hk). destruct H as [r' A|s' r' A Hn Hx|s' r' a A Hn Hx Hx'|s' r' st' A Hn Hx Hx'|s' r' st' A Hn Hx Hx'|s' A]; apply U' in A as [E ?]; try subst s'.
             ++ destruct (Hs (eq_sym E)).
             ++ destruct (Hx _ F).
             ++ rewrite (Ua _ Hx) in Hx'. destruct (Hx' _ eq_refl).
             ++ left. right. auto.
             ++ right. apply Ua in Hx. injection Hx as ->. auto.
             ++ congruence.
        * assert (Ns : forall st, a <> AExt (XSliceStack st)) by (intros st ->; discriminate).
          intros H. assert (H' : e' = add None (sent "ErrNonSliceStack")) by (destruct a as [| |[]]; try discriminate; injection H as <-; reflexivity).
          subst e'. rewrite in_add, in_none, in_sent. split.
          -- intros [[]| ->]. eexists. split; [reflexivity|]. split; [eapply SoKind; eassumption|discriminate].
          -- intros (k & -> & H1 & Hk). right. destruct H1 as [r' A|s' r' A Hn Hx|s' r' b A Hn Hx Hx'|s' r' st' A Hn Hx Hx'|s' r' st' A Hn Hx Hx'|s' A]; apply U' in A as [E ?]; try subst s'.
             ++ destruct (Hs (eq_sym E)).
             ++ destruct (Hx _ F).
             ++ reflexivity.
             ++ destruct (Ns st'). symmetry. apply Ua. exact Hx.
             ++ destruct (Ns st'). symmetry. apply Ua. exact Hx.
             ++ congruence.
      + assert (N : forall a, ~ AssetIn m path sid a) by (apply asset_none; assumption).
        intros H. injection H as <-. change (In x (L (add None (sent "ErrMissingResource"))) <-> exists k, x = ([], "", k) /\ SliceObjViolation m path o k /\ k <> ESent "ErrSliceExtRequired").
        rewrite in_add, in_none, in_sent. split.
        * intros [[]| ->]. eexists. split; [reflexivity|]. split; [eapply SoMissing; eassumption|discriminate].
        * intros (k & -> & H1 & Hk). right. destruct H1 as [r' A|s' r' A Hn Hx|s' r' b A Hn Hx Hx'|s' r' st' A Hn Hx Hx'|s' r' st' A Hn Hx Hx'|s' A]; apply U' in A as [E ?]; try subst s'.
          -- destruct (Hs (eq_sym E)).
          -- reflexivity.
          -- destruct (N _ Hx).
          -- destruct (N _ Hx).
          -- destruct (N _ Hx).
          -- congruence. }
  destruct e1 as [e'|]; [|discriminate]. specialize (H1 _ eq_refl). intros H. injection H as <-.
  match goal with |- In x (L ?r) <-> _ => change r with (add_if ((res =? 1)%N && negb (slice_required (mo_exts m))) e' (sent "ErrSliceExtRequired")) end.
  rewrite in_add_if, in_sent, H1, andb_true_iff, N.eqb_eq, negb_true_iff.
  assert (C : slice_required (mo_exts m) = false <-> ~ SlicesRequired m).
  { rewrite <- slices_required. destruct (slice_required (mo_exts m)); intuition congruence. }
  rewrite C. split.
  - intros [(k & -> & H & _)|[[-> H] ->]]; [eauto|]. eexists. split; [reflexivity|]. eapply SoRequired; eassumption.
  - intros (k & -> & H). destruct H as [r' A|s' r' A Hn Hx|s' r' b A Hn Hx Hx'|s' r' st' A Hn Hx Hx'|s' r' st' A Hn Hx Hx'|s' A Hn].
    + left. eexists. split; [reflexivity|]. split; [eapply SoNoID; exact A|discriminate].
    + left. eexists. split; [reflexivity|]. split; [eapply SoMissing; eassumption|discriminate].
    + left. eexists. split; [reflexivity|]. split; [eapply SoKind; eassumption|discriminate].
    + left. eexists. split; [reflexivity|]. split; [eapply SoPlacement; eassumption|discriminate].
    + left. eexists. split; [reflexivity|]. split; [eapply SoOpen; eassumption|discriminate].
    + right. apply U' in A as [_ <-]. auto.
Qed.
Lemma nn_slice_object fuel m path o e : slice_object_validate fuel m path o = Some e -> nn e.
Proof.
  unfold slice_object_validate. destruct (get_slice_attr (ob_any o)) as [[sid res]|]; [|intros H; injection H as <-; nn].
  assert (K : forall e1, (if (sid =? 0)%N then Some (add None (missing "slicestackid"))
        else match res_find_asset m path sid with
             | Some (AExt (XSliceStack st)) =>
                 match items_transforms fuel m path (ob_id o) (bu_items (mo_build m)) with
                 | None => None
                 | Some ok =>
                     Some (add_if (((ob_type o =? 0)%Z || (ob_type o =? 3)%Z) && negb (all_closed m st)) (add_if (negb ok) None (sent "ErrSliceInvalidTranform"))
                                  (sent "ErrSlicePolygonNotClosed"))
                 end
             | Some _ => Some (add None (sent "ErrNonSliceStack"))
             | None => Some (add None (sent "ErrMissingResource"))
             end) = Some e1 -> nn e1).
  { intros e1. destruct (sid =? 0)%N; [intros H; injection H as <-; apply nn_add; nn|].
    destruct (res_find_asset m path sid) as [[| |[]]|]; try (intros H; injection H as <-; apply nn_add; nn).
    destruct (items_transforms _ _ _ _ _); [|discriminate]. intros H; injection H as <-. apply nn_add_if; [apply nn_add_if|]; nn. }
  cbv zeta. match goal with |- match ?a with _ => _ end = _ -> _ => destruct a as [e1|] eqn:E; [|discriminate] end.
  intros H; injection H as <-. specialize (K _ eq_refl). apply nn_add_if; [exact K|nn].
Qed.
