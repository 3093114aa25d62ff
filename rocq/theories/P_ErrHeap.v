(** * Errors in memory and errors as values *)
From Coq Require Import Permutation.
From Verif Require Import GoBase Types ErrTypes M_Errors S_ErrHeap M_ErrHeap.

(** [v] reads as [e] and reaches the cells [fp] *)
Inductive Rp (H : EHeap) : EVal -> gerr -> list nat -> Prop :=
| Rp_leaf e : leaf e -> Rp H (EvLeaf e) e []
| Rp_err p t v path e fp : nth_error H p = Some (CellErr t v path) -> Rp H v e fp -> Rp H (EvPtr p) (EErr t e path) (p :: fp)
| Rp_list p vs l fp : nth_error H p = Some (CellList vs) -> RpAll H vs l fp -> Rp H (EvPtr p) (EList l) (p :: fp)
with RpAll (H : EHeap) : list EVal -> list gerr -> list nat -> Prop :=
| Rp_nil : RpAll H [] [] []
| Rp_cons v vs e l f1 f2 : Rp H v e f1 -> RpAll H vs l f2 -> RpAll H (v :: vs) (e :: l) (f1 ++ f2).
Scheme Rp_ind2 := Induction for Rp Sort Prop with RpAll_ind2 := Induction for RpAll Sort Prop.
Combined Scheme Rp_mut from Rp_ind2, RpAll_ind2.
Scheme Reads_ind2 := Induction for Reads Sort Prop with ReadsAll_ind2 := Induction for ReadsAll Sort Prop.
Combined Scheme Reads_mut from Reads_ind2, ReadsAll_ind2.

Lemma Rp_reads H :
  (forall v e fp, Rp H v e fp -> Reads H v e) /\ (forall vs l fp, RpAll H vs l fp -> ReadsAll H vs l).
Proof. apply (Rp_mut H (fun v e fp _ => Reads H v e) (fun vs l fp _ => ReadsAll H vs l)); intros; econstructor; eauto. Qed.
Lemma Rp_frame H H' :
  (forall v e fp, Rp H v e fp -> (forall i, In i fp -> nth_error H' i = nth_error H i) -> Rp H' v e fp) /\
  (forall vs l fp, RpAll H vs l fp -> (forall i, In i fp -> nth_error H' i = nth_error H i) -> RpAll H' vs l fp).
Proof.
  apply (Rp_mut H (fun v e fp _ => (forall i, In i fp -> nth_error H' i = nth_error H i) -> Rp H' v e fp)
    (fun vs l fp _ => (forall i, In i fp -> nth_error H' i = nth_error H i) -> RpAll H' vs l fp)).
  - intros e L _. constructor; exact L.
  - intros p t v path e fp E R IH A. econstructor; [rewrite A by (left; reflexivity); exact E|].
    apply IH. intros i Hi. apply A. right. exact Hi.
  - intros p vs l fp E R IH A. econstructor; [rewrite A by (left; reflexivity); exact E|].
    apply IH. intros i Hi. apply A. right. exact Hi.
  - constructor.
  - intros v vs e l f1 f2 R IH RA IHA A. constructor; [apply IH|apply IHA]; intros i Hi; apply A; apply in_app_iff; auto.
Qed.
Definition Rp_fr H H' := proj1 (Rp_frame H H').
Definition RpAll_fr H H' := proj2 (Rp_frame H H').
Lemma nth_bound {A} (H : list A) p c : nth_error H p = Some c -> p < List.length H.
Proof. intros E. apply nth_error_Some. congruence. Qed.
Lemma Rp_bound H :
  (forall v e fp, Rp H v e fp -> forall i, In i fp -> i < List.length H) /\
  (forall vs l fp, RpAll H vs l fp -> forall i, In i fp -> i < List.length H).
Proof.
  apply (Rp_mut H (fun v e fp _ => forall i, In i fp -> i < List.length H) (fun vs l fp _ => forall i, In i fp -> i < List.length H)).
  - intros e L i [].
  - intros p t v path e fp E R IH i [<-|Hi]; [exact (nth_bound _ _ _ E)|auto].
  - intros p vs l fp E R IH i [<-|Hi]; [exact (nth_bound _ _ _ E)|auto].
  - intros i [].
  - intros v vs e l f1 f2 R IH RA IHA i Hi. apply in_app_iff in Hi. destruct Hi; auto.
Qed.
Lemma Reads_frame H H' : (forall i, i < List.length H -> nth_error H' i = nth_error H i) ->
  (forall v e, Reads H v e -> Reads H' v e) /\ (forall vs l, ReadsAll H vs l -> ReadsAll H' vs l).
Proof.
  intros A. apply (Reads_mut H (fun v e _ => Reads H' v e) (fun vs l _ => ReadsAll H' vs l)).
  - intros e L. constructor; exact L.
  - intros p t v path e E R IH. econstructor; [rewrite A by exact (nth_bound _ _ _ E); exact E|exact IH].
  - intros p vs l E R IH. econstructor; [rewrite A by exact (nth_bound _ _ _ E); exact E|exact IH].
  - constructor.
  - intros. constructor; assumption.
Qed.
Lemma RpAll_app H vs1 l1 f1 vs2 l2 f2 : RpAll H vs1 l1 f1 -> RpAll H vs2 l2 f2 -> RpAll H (vs1 ++ vs2) (l1 ++ l2) (f1 ++ f2).
Proof.
  induction 1 as [|v vs e l g1 g2 R RA IH]; intros R2; [exact R2|].
  cbn [app]. rewrite <- app_assoc. constructor; auto.
Qed.
Lemma RpAll_one H v e f : Rp H v e f -> RpAll H [v] [e] f.
Proof. intros R. rewrite <- (app_nil_r f). constructor; [exact R|constructor]. Qed.
Lemma RpAll_length H vs l f : RpAll H vs l f -> List.length vs = List.length l.
Proof. induction 1; cbn; auto. Qed.

(** ** Cells *)
Lemma set_cell_length p c H : p < List.length H -> List.length (set_cell p c H) = List.length H.
Proof. intros L. unfold set_cell. rewrite app_length. cbn [List.length]. rewrite firstn_length, skipn_length. lia. Qed.
Lemma set_cell_same p c H : p < List.length H -> nth_error (set_cell p c H) p = Some c.
Proof.
  intros L. unfold set_cell. rewrite nth_error_app2 by (rewrite firstn_length; lia).
  rewrite firstn_length, Nat.min_l by lia. rewrite Nat.sub_diag. reflexivity.
Qed.
Lemma nth_error_firstn_lt {A} n (l : list A) i : i < n -> nth_error (firstn n l) i = nth_error l i.
Proof. revert l i. induction n as [|n IH]; intros l i L; [lia|]. destruct l, i; cbn; auto. apply IH. lia. Qed.
Lemma nth_error_skipn_at {A} n (l : list A) i : nth_error (skipn n l) i = nth_error l (n + i).
Proof. revert l. induction n as [|n IH]; intros l; [reflexivity|]. destruct l; cbn; [destruct i; reflexivity|apply IH]. Qed.
Lemma set_cell_other p c H i : p < List.length H -> i <> p -> nth_error (set_cell p c H) i = nth_error H i.
Proof.
  intros L N. unfold set_cell. destruct (Nat.lt_ge_cases i p) as [Lt|Ge].
  - rewrite nth_error_app1 by (rewrite firstn_length; lia). apply nth_error_firstn_lt. exact Lt.
  - rewrite nth_error_app2 by (rewrite firstn_length; lia). rewrite firstn_length, Nat.min_l by lia.
    destruct (i - p) as [|k] eqn:E; [lia|]. cbn [nth_error]. rewrite nth_error_skipn_at. f_equal. lia.
Qed.
Lemma set_member_at d v v' t : set_member (List.length d) v' (d ++ v :: t) = d ++ v' :: t.
Proof.
  unfold set_member. rewrite firstn_app, firstn_all, Nat.sub_diag. cbn [firstn]. rewrite app_nil_r. f_equal. f_equal.
  rewrite skipn_app, skipn_all2 by lia. cbn [app]. replace (S (List.length d) - List.length d) with 1 by lia. reflexivity.
Qed.

(** ** Wrapping *)
Section Wrap.
Context (lv : Level) (path : option string).
Fixpoint wrapv (e : gerr) : gerr :=
  match e with
  | EErr t x p => EErr (t ++ [lv]) x (new_path path p)
  | EList l => EList (map wrapv l)
  | _ => EErr [lv] e (new_path path "")
  end.

(** What the step from H to H' does: it changes nothing but the cells [fp], and the new value reaches those and new ones *)
Definition Within (H H' : EHeap) (fp fp' : list nat) : Prop :=
  List.length H <= List.length H' /\
  (forall i, i < List.length H -> ~ In i fp -> nth_error H' i = nth_error H i) /\
  (forall i, In i fp' -> In i fp \/ List.length H <= i < List.length H').

Definition WrapOk (w : EHeap -> EVal -> option (EHeap * EVal)) (bound : nat) : Prop := forall H v e fp,
  Rp H v e fp -> NoDup fp -> List.length fp < bound ->
  exists H' v' fp', w H v = Some (H', v') /\ Rp H' v' (wrapv e) fp' /\ NoDup fp' /\ Within H H' fp fp'.

Lemma nodup_app {A} (a b : list A) : NoDup (a ++ b) <-> NoDup a /\ NoDup b /\ (forall x, In x a -> ~ In x b).
Proof.
  induction a as [|x a IH]; cbn.
  - split; [intros; repeat split; [constructor|assumption|intros ? []]|tauto].
  - split.
    + intros N. inversion_clear N as [|? ? Nx Na]. apply IH in Na as (Na & Nb & D). rewrite in_app_iff in Nx.
      repeat split; [constructor; tauto|exact Nb|]. intros y [<-|Hy]; [tauto|auto].
    + intros (Na & Nb & D). inversion_clear Na as [|? ? Nx Na']. constructor.
      * rewrite in_app_iff. intros [Hx|Hx]; [tauto|]. exact (D x (or_introl eq_refl) Hx).
      * apply IH. repeat split; auto.
Qed.

Lemma members_ok w bound p : WrapOk w bound -> forall todo ltodo ft H done ldone fd,
  nth_error H p = Some (CellList (done ++ todo)) ->
  RpAll H done ldone fd -> RpAll H todo ltodo ft -> NoDup (p :: fd ++ ft) -> List.length ft < bound ->
  exists H' vs' fp', members w p (List.length todo) (List.length done) H = Some H' /\
    nth_error H' p = Some (CellList vs') /\ RpAll H' vs' (ldone ++ map wrapv ltodo) fp' /\ NoDup (p :: fp') /\
    Within H H' (p :: fd ++ ft) (p :: fp').
Proof.
  intros W. induction todo as [|v todo IH]; intros ltodo ft H done ldone fd Ep Rd Rt ND B.
  - inversion Rt; subst. rewrite app_nil_r in *. exists H, done, fd. cbn [map]. rewrite app_nil_r.
    split; [reflexivity|]. repeat split; auto.
  - inversion Rt as [|? ? e l f1 f2 R1 R2]; subst. rewrite app_length in B.
    pose proof (nth_bound _ _ _ Ep) as Lp.
    inversion_clear ND as [|? ? Np ND']. apply nodup_app in ND' as (Nd & Nt & D). apply nodup_app in Nt as (N1 & N2 & D12).
    rewrite !in_app_iff in Np.
    destruct (W H v e f1 R1 N1 ltac:(lia)) as (H1 & v' & f1' & E1 & R1' & N1' & (L1 & K1 & I1)).
    cbn [List.length members]. rewrite Ep, nth_error_app2, Nat.sub_diag by lia. cbn [nth_error]. rewrite E1.
    rewrite (K1 p Lp) by tauto. rewrite Ep, set_member_at.
    set (H2 := set_cell p (CellList (done ++ v' :: todo)) H1).
    assert (L2 : List.length H2 = List.length H1) by (apply set_cell_length; lia).
    assert (S2 : nth_error H2 p = Some (CellList ((done ++ [v']) ++ todo))).
    { unfold H2. rewrite set_cell_same by lia. rewrite <- app_assoc. reflexivity. }
    assert (O2 : forall i, i <> p -> nth_error H2 i = nth_error H1 i) by (intros i Ni; apply set_cell_other; [lia|exact Ni]).
    assert (Nf1' : ~ In p f1'). { intros Hi. destruct (I1 p Hi); [tauto|lia]. }
    assert (Bd : forall i, In i fd -> i < List.length H) by (intros i Hi; exact (proj2 (Rp_bound H) _ _ _ Rd i Hi)).
    assert (B2 : forall i, In i f2 -> i < List.length H) by (intros i Hi; exact (proj2 (Rp_bound H) _ _ _ R2 i Hi)).
    assert (KD : forall i, In i fd -> nth_error H2 i = nth_error H i).
    { intros i Hi. assert (i <> p) by (intros ->; tauto). rewrite O2 by assumption. apply K1; [auto|].
      intros Hf. apply (D i Hi). apply in_app_iff. tauto. }
    assert (K2 : forall i, In i f2 -> nth_error H2 i = nth_error H i).
    { intros i Hi. assert (i <> p) by (intros ->; tauto). rewrite O2 by assumption. apply K1; [auto|].
      intros Hf. exact (D12 i Hf Hi). }
    assert (Rd2 : RpAll H2 done ldone fd) by exact (RpAll_fr H H2 _ _ _ Rd KD).
    assert (R22 : RpAll H2 todo l f2) by exact (RpAll_fr H H2 _ _ _ R2 K2).
    assert (R12 : Rp H2 v' (wrapv e) f1').
    { apply (Rp_fr H1 H2 _ _ _ R1'). intros i Hi. apply O2. intros ->. tauto. }
    destruct (IH l f2 H2 (done ++ [v']) (ldone ++ [wrapv e]) (fd ++ f1') S2 (RpAll_app _ _ _ _ _ _ _ Rd2 (RpAll_one _ _ _ _ R12)) R22)
      as (H3 & vs' & fp' & E3 & S3 & R3 & N3 & (L3 & K3 & I3)).
    + constructor; [rewrite !in_app_iff; tauto|]. apply nodup_app. split; [apply nodup_app|]; repeat split; auto.
      * intros i Hi Hf. destruct (I1 i Hf) as [Hg|Hg]; [|specialize (Bd i Hi); lia]. apply (D i Hi). apply in_app_iff. tauto.
      * intros i Hi Hf. apply in_app_iff in Hi as [Hi|Hi]; [apply (D i Hi); apply in_app_iff; tauto|].
        destruct (I1 i Hi) as [Hg|Hg]; [exact (D12 i Hg Hf)|specialize (B2 i Hf); lia].
    + lia.
    + exists H3, vs', fp'. rewrite app_length in E3. cbn [List.length] in E3. rewrite Nat.add_1_r in E3. split; [exact E3|].
      split; [exact S3|]. split. { cbn [map]. rewrite <- app_assoc in R3. exact R3. }
      split; [exact N3|]. rewrite L2 in *. split; [lia|]. split.
      * intros i Li Ni. cbn [In] in Ni. rewrite !in_app_iff in Ni. assert (i <> p) by (intros ->; tauto).
        rewrite K3; [rewrite O2 by assumption; apply K1; tauto|lia|].
        cbn [In]. rewrite !in_app_iff. intros [Q|[[Q|Q]|Q]]; try tauto; try congruence. destruct (I1 i Q); [tauto|lia].
      * intros i Hi. destruct (I3 i Hi) as [Q|Q]; [|lia]. cbn [In] in Q |- *. rewrite !in_app_iff in Q |- *.
        destruct Q as [Q|[[Q|Q]|Q]]; try tauto. destruct (I1 i Q); [tauto|lia].
Qed.

Lemma alloc_rp (H : EHeap) c : nth_error (H ++ [c]) (List.length H) = Some c.
Proof. rewrite nth_error_app2, Nat.sub_diag by lia. reflexivity. Qed.

Lemma wrap_h_ok fuel : WrapOk (wrap_h lv path fuel) fuel.
Proof.
  induction fuel as [|fuel IH]; intros H v e fp R N B; [lia|].
  destruct R as [e Le|p t v path0 e fp Ep R|p vs l fp Ep R].
  - exists (H ++ [CellErr [lv] (EvLeaf e) (new_path path "")]), (EvPtr (List.length H)), [List.length H].
    split; [reflexivity|]. split.
    + assert (wrapv e = EErr [lv] e (new_path path "")) as -> by (destruct e; try contradiction; reflexivity).
      econstructor; [apply alloc_rp|]. constructor. exact Le.
    + split; [constructor; [intros []|constructor]|]. split; [rewrite app_length; lia|]. split.
      * intros i Li _. apply nth_error_app1. exact Li.
      * intros i [<-|[]]. right. rewrite app_length. cbn. lia.
  - pose proof (nth_bound _ _ _ Ep) as Lp. inversion_clear N as [|? ? Np N'].
    cbn [wrap_h]. rewrite Ep. eexists _, _, (p :: fp). split; [reflexivity|]. split.
    + cbn [wrapv]. econstructor; [apply set_cell_same; exact Lp|].
      apply (Rp_fr H _ _ _ _ R). intros i Hi. apply set_cell_other; [exact Lp|intros ->; tauto].
    + split; [constructor; assumption|]. split; [rewrite set_cell_length by exact Lp; lia|]. split.
      * intros i Li Ni. apply set_cell_other; [exact Lp|]. intros ->. apply Ni. left. reflexivity.
      * auto.
  - cbn [wrap_h]. rewrite Ep. cbn [List.length] in B.
    destruct (members_ok _ _ p IH vs l fp H [] [] [] Ep (Rp_nil H) R N ltac:(lia)) as (H' & vs' & fp' & E & S & R' & N' & K).
    cbn [List.length] in E. rewrite E. eexists H', _, (p :: fp'). split; [reflexivity|]. split.
    + cbn [wrapv]. econstructor; [exact S|exact R'].
    + split; [exact N'|exact K].
Qed.
End Wrap.

Lemma wrapv_index n i e : wrapv (mkLevel n i) None e = wrap_index1 e n i.
Proof.
  revert e. fix IH 1. intros [s|s|a r|t x p|l]; try reflexivity. cbn [wrapv wrap_index1]. f_equal.
  induction l as [|e l IHl]; [reflexivity|]. cbn [map]. rewrite IH, IHl. reflexivity.
Qed.
Lemma wrapv_path n p e : wrapv (mkLevel n (-1)) (Some p) e = wrap_path1 e n p.
Proof.
  revert e. fix IH 1. intros [s|s|a r|t x q|l]; try reflexivity. cbn [wrapv wrap_path1]. f_equal.
  induction l as [|e l IHl]; [reflexivity|]. cbn [map]. rewrite IH, IHl. reflexivity.
Qed.

(** ** Appending *)
Definition RpErr (H : EHeap) (v : EVal) (e : error) (fp : list nat) : Prop :=
  match e with None => v = EvNil /\ fp = [] | Some e => Rp H v e fp end.
Inductive RpErrs (H : EHeap) : list EVal -> list error -> list nat -> Prop :=
| Rs_nil : RpErrs H [] [] []
| Rs_cons v vs e l f1 f2 : RpErr H v e f1 -> RpErrs H vs l f2 -> RpErrs H (v :: vs) (e :: l) (f1 ++ f2).

Lemma RpErr_fr H H' v e fp : RpErr H v e fp -> (forall i, In i fp -> nth_error H' i = nth_error H i) -> RpErr H' v e fp.
Proof. destruct e; cbn; [apply Rp_fr|auto]. Qed.
Lemma RpErrs_fr H H' vs l fp : RpErrs H vs l fp -> (forall i, In i fp -> nth_error H' i = nth_error H i) -> RpErrs H' vs l fp.
Proof.
  induction 1 as [|v vs e l f1 f2 R RA IH]; intros A; [constructor|].
  constructor; [apply (RpErr_fr H); [exact R|]|apply IH]; intros i Hi; apply A; apply in_app_iff; auto.
Qed.

Lemma RpErrs_bound H vs l fp : RpErrs H vs l fp -> forall i, In i fp -> i < List.length H.
Proof.
  induction 1 as [|v vs e l f1 f2 R RA IH]; [intros i []|]. intros i Hi. apply in_app_iff in Hi as [Hi|Hi]; [|auto].
  destruct e; cbn [RpErr] in R; [exact (proj1 (Rp_bound H) _ _ _ R i Hi)|]. destruct R as [-> ->]. destruct Hi.
Qed.

Lemma append_list_h_ok errs : forall es fs H p vs l fv,
  nth_error H p = Some (CellList vs) -> RpAll H vs l fv -> RpErrs H errs es fs -> NoDup (p :: fv ++ fs) ->
  exists H' vs' fp', append_list_h H p errs = Some H' /\ nth_error H' p = Some (CellList vs') /\
    RpAll H' vs' (append_list l es) fp' /\ NoDup (p :: fp') /\ List.length H' = List.length H /\
    (forall i, i <> p -> nth_error H' i = nth_error H i) /\ incl fp' (fv ++ fs).
Proof.
  induction errs as [|v errs IH]; intros es fs H p vs l fv Ep R Rs ND.
  - inversion Rs; subst. rewrite app_nil_r in *. exists H, vs, fv. cbn [append_list_h append_list].
    repeat split; auto. apply incl_refl.
  - inversion Rs as [|? ? e l0 f1 f2 R1 R2]; subst. pose proof (nth_bound _ _ _ Ep) as Lp.
    inversion_clear ND as [|? ? Np ND']. apply nodup_app in ND' as (Nv & Ns & D). apply nodup_app in Ns as (N1 & N2 & D12).
    rewrite !in_app_iff in Np.
    (* one step: the members [add], of the cells [fa], are added *)
    assert (Step : forall add ladd fa, RpAll H add ladd fa -> NoDup fa -> incl fa f1 ->
      exists H' vs' fp', append_list_h (set_cell p (CellList (vs ++ add)) H) p errs = Some H' /\ nth_error H' p = Some (CellList vs') /\
        RpAll H' vs' (append_list (l ++ ladd) l0) fp' /\ NoDup (p :: fp') /\ List.length H' = List.length H /\
        (forall i, i <> p -> nth_error H' i = nth_error H i) /\ incl fp' (fv ++ f1 ++ f2)).
    { intros add ladd fa Ra Na Ia.
      set (H1 := set_cell p (CellList (vs ++ add)) H).
      assert (O1 : forall i, i <> p -> nth_error H1 i = nth_error H i) by (intros i Ni; apply set_cell_other; assumption).
      assert (Qa : ~ In p fa) by (intros Q; apply Ia in Q; tauto).
      destruct (IH l0 f2 H1 p (vs ++ add) (l ++ ladd) (fv ++ fa)) as (H' & vs' & fp' & E & S & R' & N' & L' & O' & I').
      - apply set_cell_same. exact Lp.
      - apply RpAll_app; [apply (RpAll_fr H); [exact R|]|apply (RpAll_fr H); [exact Ra|]];
          intros i Hi; apply O1; intros ->; tauto.
      - apply (RpErrs_fr H); [exact R2|]. intros i Hi. apply O1. intros ->. tauto.
      - constructor; [rewrite !in_app_iff; tauto|]. apply nodup_app. split; [apply nodup_app|]; repeat split; auto.
        + intros i Hi Hf. apply (D i Hi). apply in_app_iff. left. exact (Ia i Hf).
        + intros i Hi Hf. apply in_app_iff in Hi as [Hi|Hi]; [apply (D i Hi); apply in_app_iff; tauto|].
          exact (D12 i (Ia i Hi) Hf).
      - exists H', vs', fp'. rewrite L'. unfold H1. rewrite set_cell_length by exact Lp. repeat split; auto.
        + intros i Ni. rewrite O' by exact Ni. apply O1. exact Ni.
        + intros i Hi. apply I' in Hi. rewrite !in_app_iff in *. specialize (Ia i). tauto. }
    cbn [append_list_h]. rewrite Ep. destruct e as [e|]; cbn [RpErr] in R1.
    + destruct R1 as [e Le|q t x path0 e fp Eq Rq|q vsq lq fp Eq Rq].
      * assert (append_list l (@cons error (Some e) l0) = append_list (l ++ [e]) l0) as -> by (destruct e; try contradiction; reflexivity).
        apply (Step _ _ []); [apply RpAll_one; constructor; exact Le|constructor|intros i []].
      * rewrite Eq. apply (Step _ [EErr t e path0] (q :: fp)); [apply RpAll_one; econstructor; eassumption|exact N1|apply incl_refl].
      * rewrite Eq. inversion_clear N1 as [|? ? Nq N1']. apply (Step _ _ fp); [exact Rq|exact N1'|apply incl_tl; apply incl_refl].
    + destruct R1 as [-> ->]. cbn [append_list]. cbn [app] in *.
      apply (IH l0 f2 H p vs l fv Ep R R2). constructor; [rewrite in_app_iff; tauto|]. apply nodup_app. repeat split; auto.
Qed.

Lemma filter_errs H vs es fs : RpErrs H vs es fs -> RpErrs H (filter not_nil vs) (non_nil es) fs.
Proof.
  induction 1 as [|v vs e l f1 f2 R RA IH]; [constructor|]. cbn [filter]. destruct e as [e|]; cbn [RpErr] in R.
  - assert (not_nil v = true) as -> by (destruct R; reflexivity). cbn [non_nil]. constructor; assumption.
  - destruct R as [-> ->]. exact IH.
Qed.
Lemma filter_nil H vs es fs : RpErrs H vs es fs -> (filter not_nil vs = [] <-> non_nil es = []).
Proof.
  intros R. apply filter_errs in R. split; intros E; rewrite E in R; inversion R; reflexivity.
Qed.

Lemma append_h_ok H v e f1 vs es f2 :
  RpErr H v e f1 -> RpErrs H vs es f2 -> NoDup (f1 ++ f2) ->
  exists H' v' fp', append_h H v vs = Some (H', v') /\ RpErr H' v' (append e es) fp' /\ NoDup fp' /\ Within H H' (f1 ++ f2) fp'.
Proof.
  intros R Rs ND. destruct vs as [|v2 vs].
  { inversion Rs; subst. rewrite app_nil_r in *. exists H, v, f1. cbn [append append_h]. split; [reflexivity|]. split; [exact R|]. split; [exact ND|]. repeat split; auto. }
  assert (Other : (forall l, e <> Some (EList l)) -> exists H' v' fp',
    match filter not_nil (v :: v2 :: vs) with
    | [] => Some (H, EvNil)
    | news => option_map (fun H0 => (H0, EvPtr (List.length H))) (append_list_h (H ++ [CellList []]) (List.length H) news)
    end = Some (H', v') /\ RpErr H' v' (append e es) fp' /\ NoDup fp' /\ Within H H' (f1 ++ f2) fp').
  { intros Ne.
    assert (RA : RpErrs H (v :: v2 :: vs) (e :: es) (f1 ++ f2)) by (constructor; assumption).
    assert (AE : append e es = match non_nil (e :: es) with [] => None | news => Some (EList (append_list [] news)) end).
    { inversion Rs; subst. destruct e as [[]|]; try reflexivity. 1: (exfalso; exact (Ne _ eq_refl)).
      assert (Z : forall z : list error, match z with [] => None | _ => Some (EList (append_list [] z)) end =
        match z with [] => None | x :: xs => Some (EList (append_list [] (x :: xs))) end) by (intros []; reflexivity).
      exact (Z _). }
    rewrite AE. pose proof (filter_errs _ _ _ _ RA) as RF. 
    destruct (filter not_nil (v :: v2 :: vs)) as [|w ws].
    - destruct (non_nil (e :: es)) as [|x xs]; [|inversion RF]. exists H, EvNil, []. split; [reflexivity|]. split; [split; reflexivity|].
      split; [constructor|]. split; [lia|]. split; [reflexivity|]. intros i [].
    - destruct (non_nil (e :: es)) as [|x xs]; [inversion RF|].
      set (H1 := H ++ [CellList []]).
      assert (O1 : forall i, i < List.length H -> nth_error H1 i = nth_error H i) by (intros i Li; apply nth_error_app1; exact Li).
      assert (BF : forall i, In i (f1 ++ f2) -> i < List.length H).
      { exact (RpErrs_bound _ _ _ _ RA). }
      destruct (append_list_h_ok (w :: ws) (x :: xs) (f1 ++ f2) H1 (List.length H) [] [] []) as (H' & vs' & fp' & E & S & R' & N' & L' & O' & I').
      + apply alloc_rp.
      + constructor.
      + apply (RpErrs_fr H); [exact RF|]. intros i Hi. apply O1. auto.
      + constructor; [|exact ND]. intros Hi. apply BF in Hi. lia.
      + rewrite E. exists H', (EvPtr (List.length H)), (List.length H :: fp'). split; [reflexivity|].
        split; [econstructor; eassumption|]. split; [exact N'|]. unfold H1 in L'. rewrite app_length in L'. cbn [List.length] in L'.
        split; [lia|]. split.
        * intros i Li _. rewrite O' by lia. apply O1. exact Li.
        * intros i [<-|Hi]; [right; lia|]. left. exact (I' i Hi). }
  unfold append_h. cbn [alloc]. unfold alloc. destruct v as [|lf|p].
  - apply Other. intros l ->. cbn in R. inversion R.
  - apply Other. intros l ->. cbn in R. inversion R. subst. contradiction.
  - destruct e as [e|]; cbn [RpErr] in R; [|destruct R; discriminate].
    inversion R as [|p0 t x path0 e0 fp Ep Rq|p0 vl l fp Ep Rq]; subst; rewrite Ep.
    + apply Other. intros l. discriminate.
    + destruct (append_list_h_ok (v2 :: vs) es f2 H p vl l fp Ep Rq Rs ND) as (H' & vs' & fp' & E & S & R' & N' & L' & O' & I').
      rewrite E. exists H', (EvPtr p), (p :: fp'). split; [reflexivity|]. split.
      { inversion Rs; subst. cbn [append RpErr]. econstructor; eassumption. }
      split; [exact N'|]. split; [lia|]. split.
      * intros i Li Ni. apply O'. intros ->. apply Ni. left. reflexivity.
      * intros i [<-|Hi]; left; [left; reflexivity|]. right. exact (I' i Hi).
Qed.

(** ** Expressions *)
Lemma EExp_ind2 (P : EExp -> Prop) :
  P XNil -> (forall e, P (XNew e)) -> (forall x n i, P x -> P (XWrap x n i)) -> (forall x n p, P x -> P (XWrapPath x n p)) ->
  (forall x l, P x -> Forall P l -> P (XAppend x l)) -> forall x, P x.
Proof.
  intros A B C D E. fix IH 1. intros [|e|x n i|x n p|x l]; [exact A|apply B|apply C; apply IH|apply D; apply IH|].
  apply E; [apply IH|]. induction l as [|y l IHl]; constructor; [apply IH|exact IHl].
Qed.

Definition EvalOk (x : EExp) : Prop := leaves x -> forall H,
  exists H' v fp, eval_h x H = Some (H', v) /\ RpErr H' v (eval_v x) fp /\ NoDup fp /\ Within H H' [] fp.

Lemma within_refl H : Within H H [] [].
Proof. split; [lia|]. split; [reflexivity|]. intros i []. Qed.
Lemma within_bound H H' fp : Within H H' [] fp -> forall i, In i fp -> List.length H <= i < List.length H'.
Proof. intros (_ & _ & I) i Hi. destruct (I i Hi) as [[]|Q]. exact Q. Qed.
Lemma within_trans H H1 H2 fp fp' : Within H H1 [] fp -> Within H1 H2 fp fp' -> Within H H2 [] fp'.
Proof.
  intros W (L2 & K2 & I2). pose proof (within_bound _ _ _ W) as B. destruct W as (L1 & K1 & I1). split; [lia|]. split.
  - intros i Li _. rewrite K2; [apply K1; [exact Li|intros []]|lia|]. intros Hi. apply B in Hi. lia.
  - intros i Hi. right. destruct (I2 i Hi) as [Q|Q]; [apply B in Q|]; lia.
Qed.

Lemma nodup_bound (fp : list nat) n : NoDup fp -> (forall i, In i fp -> i < n) -> List.length fp <= n.
Proof.
  intros N B. rewrite <- (seq_length n 0). apply NoDup_incl_length; [exact N|]. intros i Hi. apply in_seq. specialize (B i Hi). lia.
Qed.

Lemma wrap_step lv pa H H1 v (e : error) fp : Within H H1 [] fp -> RpErr H1 v e fp -> NoDup fp ->
  exists H' v' fp', wrap_h lv pa (S (S (List.length H1))) H1 v = Some (H', v') /\
    RpErr H' v' (option_map (wrapv lv pa) e) fp' /\ NoDup fp' /\ Within H H' [] fp'.
Proof.
  intros W R N. destruct e as [e|]; cbn [RpErr] in R.
  - assert (B : List.length fp <= List.length H1) by (apply nodup_bound; [exact N|]; intros i Hi; exact (proj1 (Rp_bound H1) _ _ _ R i Hi)).
    destruct (wrap_h_ok lv pa (S (S (List.length H1))) H1 v e fp R N ltac:(lia)) as (H' & v' & fp' & E & R' & N' & W').
    exists H', v', fp'. split; [exact E|]. split; [exact R'|]. split; [exact N'|]. exact (within_trans _ _ _ _ _ W W').
  - destruct R as [-> ->]. exists H1, EvNil, []. split; [reflexivity|]. split; [split; reflexivity|]. split; [constructor|].
    split; [destruct W; lia|]. split.
    + intros i Li _. destruct W as (_ & K & _). apply K; [exact Li|intros []].
    + intros i [].
Qed.

Lemma eval_all_ok l : Forall EvalOk l -> fold_right and True (map leaves l) -> forall H,
  exists H' vs fp, eval_all eval_h l H = Some (H', vs) /\ RpErrs H' vs (map eval_v l) fp /\ NoDup fp /\ Within H H' [] fp.
Proof.
  induction 1 as [|x l Ox Ol IH]; intros Lv H.
  - exists H, [], []. split; [reflexivity|]. split; [constructor|]. split; [constructor|]. exact (within_refl H).
  - destruct Lv as [Lx Ll]. destruct (Ox Lx H) as (H1 & v & f1 & E1 & R1 & N1 & W1).
    destruct (IH Ll H1) as (H2 & vs & f2 & E2 & R2 & N2 & W2).
    pose proof (within_bound _ _ _ W1) as B1. pose proof (within_bound _ _ _ W2) as B2.
    destruct W1 as (L1 & K1 & _). destruct W2 as (L2 & K2 & _).
    exists H2, (v :: vs), (f1 ++ f2). cbn [eval_all]. rewrite E1. unfold eval_all in E2 |- *. rewrite E2. split; [reflexivity|]. split.
    + cbn [map]. constructor; [|exact R2]. apply (RpErr_fr H1); [exact R1|]. intros i Hi. apply B1 in Hi. apply K2; [lia|intros []].
    + split.
      * apply nodup_app. repeat split; auto. intros i Hi Hj. apply B1 in Hi. apply B2 in Hj. lia.
      * split; [lia|]. split.
        -- intros i Li _. rewrite K2; [apply K1; [exact Li|intros []]|lia|intros []].
        -- intros i Hi. right. apply in_app_iff in Hi as [Hi|Hi]; [apply B1 in Hi|apply B2 in Hi]; lia.
Qed.

Theorem eval_ok x : EvalOk x.
Proof.
  induction x as [|e|x n i IH|x n p IH|x l IH IHl] using EExp_ind2; intros Lv H.
  - exists H, EvNil, []. split; [reflexivity|]. split; [split; reflexivity|]. split; [constructor|]. exact (within_refl H).
  - exists H, (EvLeaf e), []. split; [reflexivity|]. split; [constructor; exact Lv|]. split; [constructor|]. exact (within_refl H).
  - destruct (IH Lv H) as (H1 & v & fp & E & R & N & W). cbn [eval_h]. rewrite E.
    destruct (wrap_step (mkLevel n i) None H H1 v _ fp W R N) as (H' & v' & fp' & E' & R' & N' & W').
    exists H', v', fp'. split; [exact E'|]. split; [|split; assumption].
    cbn [eval_v]. destruct (eval_v x); cbn [option_map wrap_index] in *; [rewrite <- wrapv_index|]; exact R'.
  - destruct (IH Lv H) as (H1 & v & fp & E & R & N & W). cbn [eval_h]. rewrite E.
    destruct (wrap_step (mkLevel n (-1)) (Some p) H H1 v _ fp W R N) as (H' & v' & fp' & E' & R' & N' & W').
    exists H', v', fp'. split; [exact E'|]. split; [|split; assumption].
    cbn [eval_v]. destruct (eval_v x); cbn [option_map wrap_path] in *; [rewrite <- wrapv_path|]; exact R'.
  - destruct Lv as [Lx Ll]. destruct (IH Lx H) as (H1 & v & f1 & E1 & R1 & N1 & W1).
    destruct (eval_all_ok l IHl Ll H1) as (H2 & vs & f2 & E2 & R2 & N2 & W2).
    pose proof (within_bound _ _ _ W1) as B1. pose proof (within_bound _ _ _ W2) as B2.
    cbn [eval_h]. rewrite E1, E2.
    assert (R1' : RpErr H2 v (eval_v x) f1).
    { apply (RpErr_fr H1); [exact R1|]. intros i Hi. apply B1 in Hi. destruct W2 as (_ & K2 & _). apply K2; [lia|intros []]. }
    assert (W12 : Within H H2 [] (f1 ++ f2)).
    { destruct W1 as (L1 & K1 & _). destruct W2 as (L2 & K2 & _). split; [lia|]. split.
      - intros i Li _. rewrite K2; [apply K1; [exact Li|intros []]|lia|intros []].
      - intros i Hi. right. apply in_app_iff in Hi as [Hi|Hi]; [apply B1 in Hi|apply B2 in Hi]; lia. }
    destruct (append_h_ok H2 v (eval_v x) f1 vs (map eval_v l) f2 R1' R2) as (H' & v' & fp' & E & R & N & W).
    { apply nodup_app. repeat split; auto. intros i Hi Hj. apply B1 in Hi. apply B2 in Hj. lia. }
    exists H', v', fp'. split; [exact E|]. split; [exact R|]. split; [exact N|]. exact (within_trans _ _ _ _ _ W12 W).
Qed.

(** ** Places *)
Fixpoint flat (e : gerr) : Prop :=
  match e with
  | EErr _ x _ => leaf x
  | EList l => fold_right and True (map flat l)
  | _ => True
  end.
Definition flat_err (e : error) : Prop := match e with None => True | Some e => flat e end.
Lemma gerr_ind2 (P : gerr -> Prop) :
  (forall e, leaf e -> P e) -> (forall t x p, P (EErr t x p)) -> (forall l, Forall P l -> P (EList l)) -> forall e, P e.
Proof.
  intros A B C. fix IH 1. intros [s|s|a r|t x p|l]; try (apply A; exact I); [apply B|].
  apply C. induction l as [|e l IHl]; constructor; [apply IH|exact IHl].
Qed.
Lemma places_wrapv lv pa e : places (wrapv lv pa e) = map (fun '(t, e, p) => (t ++ [lv], e, new_path pa p)) (places e).
Proof.
  induction e as [e L|t x p|l IH] using gerr_ind2.
  - destruct e; try contradiction; reflexivity.
  - reflexivity.
  - cbn [wrapv places]. induction IH as [|e l He Hl IHl]; [reflexivity|]. cbn [map flat_map]. rewrite map_app, He, IHl. reflexivity.
Qed.
Lemma places_append_list es : forall l, flat_map places (append_list l es) = flat_map places l ++ flat_map places_err es.
Proof.
  induction es as [|e es IH]; intros l; [cbn; rewrite app_nil_r; reflexivity|].
  destruct e as [e|]; [|exact (IH l)]. destruct e; cbn [append_list flat_map places_err]; rewrite IH, flat_map_app;
    cbn [flat_map places]; rewrite <- ?app_assoc, ?app_nil_r; reflexivity.
Qed.
Lemma places_non_nil es : flat_map places_err (non_nil es) = flat_map places_err es.
Proof. induction es as [|[e|] es IH]; [reflexivity| |exact IH]. cbn [non_nil flat_map]. rewrite IH. reflexivity. Qed.
Lemma places_append e es : places_err (append e es) = places_err e ++ flat_map places_err es.
Proof.
  destruct es as [|e2 es]; [cbn; rewrite app_nil_r; reflexivity|].
  assert (O : places_err match non_nil (e :: e2 :: es) with [] => None | news => Some (EList (append_list [] news)) end =
    places_err e ++ flat_map places_err (e2 :: es)).
  { change (places_err e ++ flat_map places_err (e2 :: es)) with (flat_map places_err (e :: e2 :: es)).
    rewrite <- (places_non_nil (e :: e2 :: es)). destruct (non_nil (e :: e2 :: es)) as [|x xs]; [reflexivity|].
    cbn [places_err places]. rewrite places_append_list. reflexivity. }
  destruct e as [[]|]; try exact O.
  - cbn [append places_err places]. rewrite places_append_list. reflexivity.
  - rewrite <- O. unfold append. cbv zeta.
    assert (Z : forall z : list error, match z with [] => None | _ => Some (EList (append_list [] z)) end =
      match z with [] => None | x :: xs => Some (EList (append_list [] (x :: xs))) end) by (intros []; reflexivity).
    exact (f_equal places_err (Z _)).
Qed.
Theorem places_eval x : leaves x -> places_err (eval_v x) = places_exp x.
Proof.
  induction x as [|e|x n i IH|x n p IH|x l IH IHl] using EExp_ind2; intros Lv.
  - reflexivity.
  - cbn in *. destruct e; try contradiction; reflexivity.
  - cbn [eval_v places_exp]. rewrite <- IH by exact Lv. destruct (eval_v x) as [e|]; [|reflexivity].
    cbn [wrap_index places_err]. rewrite <- wrapv_index, places_wrapv. reflexivity.
  - cbn [eval_v places_exp]. rewrite <- IH by exact Lv. destruct (eval_v x) as [e|]; [|reflexivity].
    cbn [wrap_path places_err]. rewrite <- wrapv_path, places_wrapv. reflexivity.
  - destruct Lv as [Lx Ll]. cbn [eval_v places_exp]. rewrite places_append, (IH Lx). f_equal.
    induction IHl as [|y l Hy Hl IHl']; [reflexivity|]. destruct Ll as [Ly Ll]. cbn [map flat_map]. rewrite (Hy Ly), (IHl' Ll). reflexivity.
Qed.
