(** * Proofs about lookups, walks and enumerations *)
From Coq Require Import Permutation.
From Verif Require Import GoBase GoFloat Types M_Core S_Core.

(** ** UnusedID *)
Definition all_ids (rs : Resources) : list N := map asset_id (rs_assets rs) ++ map ob_id (rs_objects rs).

Lemma filter_map_length {A} (f : A -> N) (k : N) l :
  List.length (filter (fun a => (f a =? k)%N) l) = count_occ N.eq_dec (map f l) k.
Proof.
  induction l as [|a l IH]; cbn; [reflexivity|].
  destruct (N.eqb_spec (f a) k), (N.eq_dec (f a) k); cbn; congruence.
Qed.
Lemma count_occ_app' (l1 l2 : list N) k :
  count_occ N.eq_dec (l1 ++ l2) k = count_occ N.eq_dec l1 k + count_occ N.eq_dec l2 k.
Proof. apply count_occ_app. Qed.
Lemma id_count_occ rs k : id_count rs k = count_occ N.eq_dec (all_ids rs) k.
Proof. unfold id_count, all_ids. rewrite count_occ_app', !filter_map_length. reflexivity. Qed.
Lemma id_in_use_in rs k : IdInUse rs k <-> In k (all_ids rs).
Proof.
  unfold IdInUse, all_ids. rewrite in_app_iff, !in_map_iff.
  split; (intros [(x & H1 & H2)|(x & H1 & H2)]; [left|right]; exists x; auto).
Qed.

(** The walk over a sorted list starting at index [i]. *)
Lemma first_gap_chain l i g : (0 < i)%N ->
  sorted N.leb l -> (forall x, In x l -> i <= x)%N ->
  (i <= g)%N -> ~ In g l -> (forall k, (i <= k < g)%N -> count_occ N.eq_dec l k = 1) ->
  (l = [] \/ forall y, In y l -> (y < g)%N) /\ first_gap i l = 0%N /\ List.length l = N.to_nat (g - i) /\
    (forall d, last l d = if (g =? i)%N then d else (g - 1)%N)
  \/ first_gap i l = g.
Proof.
  intros Hi Hs; revert i Hi g; induction Hs as [|x l Hx Hs IH]; intros i Hi g Hle Hg Hn Hc.
  - assert (g = i) as ->.
    { destruct (N.eq_dec g i); auto. assert (i <= i < g)%N by lia. apply Hc in H. discriminate. }
    left. split; [left; reflexivity|]. cbn. rewrite N.eqb_refl, N.sub_diag. auto.
  - cbn. destruct (N.eqb_spec x i) as [->|Hxi]; cbn.
    + assert (i <> g) by (intros ->; apply Hn; left; reflexivity).
      assert (H1 : count_occ N.eq_dec l i = 0).
      { assert (Q : count_occ N.eq_dec (i :: l) i = 1) by (apply Hc; lia). cbn in Q.
        destruct (N.eq_dec i i); [lia|congruence]. }
      destruct (IH (i + 1)%N ltac:(lia) g) as [(Ha & Hb & Hd & Hf)|Hb].
      * intros y Hy. assert (y <> i).
        { intros ->. apply (count_occ_In N.eq_dec) in Hy. lia. }
        specialize (Hle y (or_intror Hy)). lia.
      * lia.
      * intros Q; apply Hn; right; exact Q.
      * intros k Hk. specialize (Hc k ltac:(lia)). cbn in Hc. destruct (N.eq_dec i k); [lia|exact Hc].
      * left. repeat split.
        -- right. intros y [<-|Hy]; [lia|]. destruct Ha as [->|Ha]; [destruct Hy|]; auto.
        -- exact Hb.
        -- cbn. rewrite Hd. lia.
        -- intros d. destruct (N.eqb_spec g i); [congruence|].
           destruct l as [|y l].
           ++ cbn. cbn in Hd. lia.
           ++ change (last (i :: y :: l) d) with (last (y :: l) d). rewrite Hf.
              destruct (N.eqb_spec g (i + 1)); [|reflexivity]. cbn in Hd. lia.
      * right; exact Hb.
    + right. assert (i < x)%N by (specialize (Hle x (or_introl eq_refl)); lia).
      destruct (N.eq_dec g i) as [->|Hgi]; [reflexivity|]. exfalso.
      assert (Q : count_occ N.eq_dec (x :: l) i = 1) by (apply Hc; lia).
      assert (In i (x :: l)) as [E|Hin] by (apply (count_occ_In N.eq_dec); lia); [lia|].
      specialize (Hx i Hin). apply N.leb_le in Hx. lia.
Qed.

Lemma nleb_total a b : (a <=? b)%N = true \/ (b <=? a)%N = true.
Proof. rewrite !N.leb_le; lia. Qed.
Lemma nleb_trans a b c : (a <=? b)%N = true -> (b <=? c)%N = true -> (a <=? c)%N = true.
Proof. rewrite !N.leb_le; lia. Qed.

Lemma isort_zero l : isort N.leb (0%N :: l) = 0%N :: isort N.leb l.
Proof. cbn [isort]. destruct (isort N.leb l) as [|y r]; [reflexivity|]. destruct y; reflexivity. Qed.

Lemma unused_id_lowest rs g :
  LowestUnused rs g -> (g < 2 ^ 32)%N -> id_count rs 0 = 0 ->
  (forall k, (0 < k < g)%N -> id_count rs k = 1) ->
  unused_id rs = g.
Proof.
  intros (Hg0 & Hgu & Hlow) Hg32 H0 Hcnt. unfold unused_id.
  assert (Hids : collect_ids rs = 0%N :: all_ids rs) by reflexivity.
  destruct (rs_assets rs) as [|a la] eqn:Ea; [destruct (rs_objects rs) as [|o lo] eqn:Eo|].
  - destruct (N.eq_dec g 1) as [->|Hg1]; [reflexivity|]. exfalso.
    assert (IdInUse rs 1%N) as [(x & Hx & _)|(x & Hx & _)] by (apply Hlow; lia); rewrite ?Ea, ?Eo in Hx; destruct Hx.
  - set (L := isort N.leb (collect_ids rs)) in *.
    assert (HL : L = 0%N :: isort N.leb (all_ids rs)) by (unfold L; rewrite Hids; apply isort_zero).
    assert (HP : Permutation (all_ids rs) (isort N.leb (all_ids rs))) by apply isort_perm.
    destruct (first_gap_chain (isort N.leb (all_ids rs)) 1 g) as [(Ha & Hb & Hc & Hd)|Hb]; try lia.
    + apply isort_sorted; [apply nleb_total|apply nleb_trans].
    + intros x Hx. apply (Permutation_in _ (Permutation_sym HP)) in Hx.
      assert (x <> 0%N); [|lia]. intros ->. rewrite id_count_occ in H0.
      apply (count_occ_In N.eq_dec) in Hx. lia.
    + intros Hx. apply Hgu. apply id_in_use_in. apply (Permutation_in _ (Permutation_sym HP)) in Hx; exact Hx.
    + intros k Hk. rewrite <- (Hcnt k ltac:(lia)), id_count_occ.
      symmetry. apply Permutation_count_occ; exact HP.
    + rewrite HL. cbn [first_gap]. cbn -[N.pow last]. change (0 + 1)%N with 1%N. rewrite Hb. cbn -[N.pow last].
      rewrite N.mod_small.
      * destruct (isort N.leb (all_ids rs)) eqn:Es.
        -- cbn in Hc. cbn. lia.
        -- change (last (0%N :: n :: l) 0%N) with (last (n :: l) 0%N). rewrite Hd.
           destruct (N.eqb_spec g 1); lia.
      * destruct (isort N.leb (all_ids rs)) eqn:Es.
        -- cbn in *. lia.
        -- change (last (0%N :: n :: l) 0%N) with (last (n :: l) 0%N). rewrite Hd.
           destruct (N.eqb_spec g 1); lia.
    + rewrite HL. cbn -[N.pow last]. change (0 + 1)%N with 1%N. rewrite Hb.
      destruct (N.eqb_spec g 0); [lia|]. apply N.mod_small; exact Hg32.
  - set (L := isort N.leb (collect_ids rs)) in *.
    assert (HL : L = 0%N :: isort N.leb (all_ids rs)) by (unfold L; rewrite Hids; apply isort_zero).
    assert (HP : Permutation (all_ids rs) (isort N.leb (all_ids rs))) by apply isort_perm.
    destruct (first_gap_chain (isort N.leb (all_ids rs)) 1 g) as [(Ha & Hb & Hc & Hd)|Hb]; try lia.
    + apply isort_sorted; [apply nleb_total|apply nleb_trans].
    + intros x Hx. apply (Permutation_in _ (Permutation_sym HP)) in Hx.
      assert (x <> 0%N); [|lia]. intros ->. rewrite id_count_occ in H0.
      apply (count_occ_In N.eq_dec) in Hx. lia.
    + intros Hx. apply Hgu. apply id_in_use_in. apply (Permutation_in _ (Permutation_sym HP)) in Hx; exact Hx.
    + intros k Hk. rewrite <- (Hcnt k ltac:(lia)), id_count_occ.
      symmetry. apply Permutation_count_occ; exact HP.
    + rewrite HL. cbn -[N.pow last]. change (0 + 1)%N with 1%N. rewrite Hb. cbn -[N.pow last].
      rewrite N.mod_small.
      * destruct (isort N.leb (all_ids rs)) eqn:Es.
        -- cbn in Hc. cbn. lia.
        -- change (last (0%N :: n :: l) 0%N) with (last (n :: l) 0%N). rewrite Hd.
           destruct (N.eqb_spec g 1); lia.
      * destruct (isort N.leb (all_ids rs)) eqn:Es.
        -- cbn in *. lia.
        -- change (last (0%N :: n :: l) 0%N) with (last (n :: l) 0%N). rewrite Hd.
           destruct (N.eqb_spec g 1); lia.
    + rewrite HL. cbn -[N.pow last]. change (0 + 1)%N with 1%N. rewrite Hb.
      destruct (N.eqb_spec g 0); [lia|]. apply N.mod_small; exact Hg32.
Qed.

(** A lowest unused identifier exists and is at most the number of resources plus one. *)
Lemma lowest_exists rs : exists g, LowestUnused rs g /\ (g <= N.of_nat (List.length (all_ids rs)) + 1)%N.
Proof.
  set (n := List.length (all_ids rs)).
  assert (H : forall k, (forall j, (0 < j <= N.of_nat k)%N -> In j (all_ids rs)) \/
     exists g, LowestUnused rs g /\ (g <= N.of_nat k)%N).
  { induction k as [|k [IH|(g & Hg & Hle)]].
    - left; intros j Hj; lia.
    - destruct (in_dec N.eq_dec (N.of_nat (S k)) (all_ids rs)) as [Hi|Hi].
      + left; intros j Hj. destruct (N.eq_dec j (N.of_nat (S k))); [subst; exact Hi|]. apply IH; lia.
      + right; exists (N.of_nat (S k)). split; [|lia]. split; [lia|]. split; [rewrite id_in_use_in; exact Hi|].
        intros j Hj; rewrite id_in_use_in; apply IH; lia.
    - right; exists g; split; [exact Hg|lia]. }
  destruct (H (S n)) as [Hall|(g & Hg & Hle)].
  - exfalso. set (l := map N.of_nat (List.seq 1 (S n))).
    assert (Hincl : incl l (all_ids rs)).
    { intros x Hx. unfold l in Hx. apply in_map_iff in Hx as (y & <- & Hy). apply in_seq in Hy. apply Hall; lia. }
    assert (Hnd : NoDup l).
    { unfold l. apply FinFun.Injective_map_NoDup; [|apply seq_NoDup]. intros a b E; lia. }
    apply NoDup_incl_length in Hincl; [|exact Hnd]. unfold l in Hincl. rewrite map_length, seq_length in Hincl. lia.
  - exists g; split; [exact Hg|]. lia.
Qed.

Lemma lowest_not_used rs g : LowestUnused rs g ->
  (forall k, (0 < k < g)%N -> IdInUse rs k) /\ ~ IdInUse rs g.
Proof. intros (_ & H1 & H2); auto. Qed.

Lemma unused_id_distinct rs :
  DistinctIds rs -> (N.of_nat (List.length (rs_assets rs) + List.length (rs_objects rs)) < 2 ^ 32 - 1)%N ->
  LowestUnused rs (unused_id rs).
Proof.
  intros Hd Hlen. destruct (lowest_exists rs) as (g & Hg & Hle).
  rewrite (unused_id_lowest rs g); auto.
  - unfold all_ids in Hle. rewrite app_length, !map_length in Hle. lia.
  - destruct (Nat.eq_dec (id_count rs 0) 0) as [E|E]; auto. apply Hd in E. lia.
  - intros k Hk. destruct Hg as (_ & _ & Hlow). apply Hlow, id_in_use_in in Hk.
    apply Hd. rewrite id_count_occ. apply (count_occ_In N.eq_dec) in Hk. lia.
Qed.

(** ** Lookups *)
Lemma find_obj_spec id l o : find_obj id l = Some o <-> FirstWith ob_id id l o.
Proof.
  unfold FirstWith. induction l as [|x l IH]; cbn.
  - split; [discriminate|]. intros (b & a & H & _). destruct b; discriminate.
  - destruct (N.eqb_spec (ob_id x) id) as [E|E].
    + split.
      * intros H; injection H as <-. exists [], l; auto.
      * intros (b & a & H & Ho & Hb). destruct b as [|y b]; cbn in H; injection H as -> H; [reflexivity|].
        inversion Hb; congruence.
    + rewrite IH; split.
      * intros (b & a & -> & Ho & Hb). exists (x :: b), a; auto.
      * intros (b & a & H & Ho & Hb). destruct b as [|y b]; cbn in H; injection H as -> H; [congruence|].
        inversion Hb; subst. exists b, a; auto.
Qed.
Lemma find_ast_spec id l o : find_ast id l = Some o <-> FirstWith asset_id id l o.
Proof.
  unfold FirstWith. induction l as [|x l IH]; cbn.
  - split; [discriminate|]. intros (b & a & H & _). destruct b; discriminate.
  - destruct (N.eqb_spec (asset_id x) id) as [E|E].
    + split.
      * intros H; injection H as <-. exists [], l; auto.
      * intros (b & a & H & Ho & Hb). destruct b as [|y b]; cbn in H; injection H as -> H; [reflexivity|].
        inversion Hb; congruence.
    + rewrite IH; split.
      * intros (b & a & -> & Ho & Hb). exists (x :: b), a; auto.
      * intros (b & a & H & Ho & Hb). destruct b as [|y b]; cbn in H; injection H as -> H; [congruence|].
        inversion Hb; subst. exists b, a; auto.
Qed.

Lemma aget_in {V} k (m : list (string * V)) v : aget seq k m = Some v -> In (k, v) m.
Proof.
  induction m as [|[k' w] m IH]; cbn; [discriminate|].
  destruct (seq_spec k k') as [->|Hn]; [intros H; injection H as ->; auto|auto].
Qed.
Lemma in_aget {V} k (m : list (string * V)) v : NoDup (map fst m) -> In (k, v) m -> aget seq k m = Some v.
Proof.
  induction m as [|[k' w] m IH]; cbn; [intros _ []|].
  intros Hn [E|Hi].
  - injection E as -> ->. rewrite seq_refl; reflexivity.
  - inversion Hn; subst. destruct (seq_spec k k') as [->|Hne]; [|auto].
    exfalso; apply H1. apply in_map_iff. exists (k', v); auto.
Qed.

Lemma find_resources_spec m path rs : ChildsOk m ->
  find_resources m path = Some rs <-> Addressed m path rs.
Proof.
  intros Hok. unfold find_resources.
  destruct (seq_spec path "") as [->|Hp]; cbn.
  { split.
    - intros H; injection H as <-; apply AddrEmpty; reflexivity.
    - intros H; inversion H; congruence. }
  destruct (seq_spec path (mo_path m)) as [->|Hpm]; cbn.
  { split.
    - intros H; injection H as <-; apply AddrRoot; auto.
    - intros H; inversion H; try congruence. subst. destruct (seq_spec (mo_path m) ""); congruence. }
  destruct (seq_spec (mo_path m) "") as [Hm|Hm]; cbn.
  - destruct (seq_spec path DefaultModelPath) as [->|Hd].
    + split.
      * intros H; injection H as <-; apply AddrDefault; auto.
      * intros H; inversion H; try congruence. subst. rewrite Hm in *. rewrite seq_refl in *. congruence.
    + unfold find_child. destruct (aget seq path (mo_childs m)) as [c|] eqn:E.
      * split.
        -- intros H; injection H as <-. apply AddrChild; auto.
           ++ rewrite Hm, seq_refl; auto.
           ++ apply aget_in; exact E.
        -- intros H; inversion H; try congruence. subst.
           apply (in_aget _ _ _ Hok) in H2. congruence.
      * split; [discriminate|]. intros H; inversion H; try congruence. subst.
        apply (in_aget _ _ _ Hok) in H2. congruence.
  - unfold find_child. destruct (aget seq path (mo_childs m)) as [c|] eqn:E.
    + split.
      * intros H; injection H as <-. apply AddrChild; auto.
        -- destruct (seq_spec (mo_path m) ""); [congruence|exact Hpm].
        -- apply aget_in; exact E.
      * intros H; inversion H; try congruence. subst.
        apply (in_aget _ _ _ Hok) in H2. congruence.
    + split; [discriminate|]. intros H; inversion H; try congruence. subst.
      apply (in_aget _ _ _ Hok) in H2. congruence.
Qed.

Lemma find_object_spec m path id o : ChildsOk m ->
  find_object m path id = Some o <->
  exists rs, Addressed m path rs /\ FirstWith ob_id id (rs_objects rs) o.
Proof.
  intros Hok. unfold find_object, rs_find_object.
  destruct (find_resources m path) as [rs|] eqn:E.
  - rewrite find_obj_spec. apply find_resources_spec in E; auto. split.
    + intros H; exists rs; auto.
    + intros (rs' & Ha & H). apply find_resources_spec in Ha; auto. apply find_resources_spec in E; auto.
      congruence.
  - split; [discriminate|]. intros (rs' & Ha & H). apply find_resources_spec in Ha; auto. congruence.
Qed.
Lemma find_asset_spec m path id o : ChildsOk m ->
  find_asset m path id = Some o <->
  exists rs, Addressed m path rs /\ FirstWith asset_id id (rs_assets rs) o.
Proof.
  intros Hok. unfold find_asset, rs_find_asset.
  destruct (find_resources m path) as [rs|] eqn:E.
  - rewrite find_ast_spec. apply find_resources_spec in E; auto. split.
    + intros H; exists rs; auto.
    + intros (rs' & Ha & H). apply find_resources_spec in Ha; auto. apply find_resources_spec in E; auto.
      congruence.
  - split; [discriminate|]. intros (rs' & Ha & H). apply find_resources_spec in Ha; auto. congruence.
Qed.

(** ** Walks *)
Section Walk.
  Context {St E A : Type} (items : Resources -> list A) (fn : St -> string -> A -> St * option E).

  Lemma call_all_app st l1 l2 r :
    CallAll fn st (l1 ++ l2) r <->
    (exists st' e, CallAll fn st l1 (st', Some e) /\ r = (st', Some e)) \/
    (exists st', CallAll fn st l1 (st', None) /\ CallAll fn st' l2 r).
  Proof.
    revert st; induction l1 as [|[p x] l1 IH]; intros st; cbn.
    - split.
      + intros H; right; exists st; split; [constructor|exact H].
      + intros [(st' & e & H & ->)|(st' & H & H2)]; inversion H; subst; exact H2.
    - split.
      + intros H; inversion H; subst.
        * left; exists st', e; split; [constructor; assumption|reflexivity].
        * match goal with HC : CallAll _ _ (l1 ++ l2) _ |- _ => apply IH in HC; rename HC into H7 end.
          destruct H7 as [(s1 & e & H1 & ->)|(s1 & H1 & H2)].
          -- left; exists s1, e; split; [eapply CallNext; eassumption|reflexivity].
          -- right; exists s1; split; [eapply CallNext; eassumption|exact H2].
      + intros [(st' & e & H & ->)|(st' & H & H2)]; inversion H; subst.
        * constructor; assumption.
        * eapply CallNext; [eassumption|]. apply IH. left; eexists _, _; eauto.
        * eapply CallNext; [eassumption|]. apply IH. right; eexists; eauto.
  Qed.

  Lemma walk_list_spec st p l : CallAll fn st (map (fun x => (p, x)) l) (walk_list fn st p l).
  Proof.
    revert st; induction l as [|x l IH]; intros st; cbn; [constructor|].
    destruct (fn st p x) as [st' [e|]] eqn:Ef; [constructor; exact Ef|].
    eapply CallNext; [exact Ef|apply IH].
  Qed.

  Lemma walk_childs_spec m st cs : ChildsOk m -> incl cs (mo_childs m) ->
    CallAll fn st (concat (map (fun pc => map (fun x => (fst pc, x)) (items (ch_res (snd pc)))) cs))
      (walk_childs items fn m st (map fst cs)).
  Proof.
    intros Hok. revert st; induction cs as [|[p c] cs IH]; intros st Hincl; cbn; [constructor|].
    assert (Hc : find_child m p = Some c) by (apply in_aget; [exact Hok|apply Hincl; left; reflexivity]).
    rewrite Hc. pose proof (walk_list_spec st p (items (ch_res c))) as HW.
    destruct (walk_list fn st p (items (ch_res c))) as [st' [e|]].
    - apply call_all_app. left; eauto.
    - apply call_all_app. right. exists st'; split; [exact HW|]. apply IH.
      intros x Hx; apply Hincl; right; exact Hx.
  Qed.
End Walk.

Lemma sorted_ascending l : sorted sleb l -> NoDup l -> Ascending l.
Proof.
  induction 1 as [|x l Hx Hs IH]; intros Hn; [constructor|].
  inversion Hn; subst. destruct l as [|y l]; [constructor|].
  constructor; [apply Hx; left; reflexivity| |apply IH; assumption].
  intros ->; apply H1; left; reflexivity.
Qed.

(** The children as pairs, sorted by key. *)
Lemma sorted_pairs m : ChildsOk m ->
  exists cs, Permutation cs (mo_childs m) /\ map fst cs = sorted_childs m.
Proof.
  intros Hok. unfold sorted_childs.
  destruct (Permutation_map_inv fst (mo_childs m) (Permutation_sym (isort_perm sleb (map fst (mo_childs m)))))
    as (cs & Heq & HP).
  exists cs; split; [apply Permutation_sym; exact HP|symmetry; exact Heq].
Qed.

Lemma walk_spec {St E A} (items : Resources -> list A) (fn : St -> string -> A -> St * option E) m st :
  ChildsOk m -> exists v, Visits items m v /\ CallAll fn st v (walk items fn m st).
Proof.
  intros Hok. destruct (sorted_pairs m Hok) as (cs & HP & Hk).
  assert (Hasc : Ascending (map fst cs)).
  { rewrite Hk. apply sorted_ascending.
    - apply isort_sorted; [apply sleb_total|apply sleb_trans].
    - eapply Permutation_NoDup; [apply isort_perm|exact Hok]. }
  exists (concat (map (fun pc => map (fun x => (fst pc, x)) (items (ch_res (snd pc)))) cs)
        ++ map (fun x => ("", x)) (items (mo_res m))).
  split; [exists cs; auto|].
  unfold walk. rewrite <- Hk.
  pose proof (walk_childs_spec items fn m st cs Hok) as HW.
  destruct (walk_childs items fn m st (map fst cs)) as [st' [e|]].
  - apply call_all_app. left. exists st', e; split; [|reflexivity]. apply HW.
    intros x Hx; eapply Permutation_in; eassumption.
  - apply call_all_app. right. exists st'; split; [|apply walk_list_spec]. apply HW.
    intros x Hx; eapply Permutation_in; eassumption.
Qed.

Lemma call_all_det {St E A} (fn : St -> string -> A -> St * option E) st v r r' :
  CallAll fn st v r -> CallAll fn st v r' -> r = r'.
Proof.
  induction 1; intros H'; inversion H'; subst; try congruence.
  assert (st' = st'0) as -> by congruence. auto.
Qed.

(** Ascending lists with the same elements are equal. *)
Lemma ascending_sorted l : Ascending l -> sorted sleb l.
Proof.
  induction 1; [constructor|constructor; [intros y []|constructor]|].
  constructor; [|assumption]. intros y [<-|Hy]; [assumption|].
  inversion IHAscending; subst. eapply sleb_trans; [eassumption|auto].
Qed.
Lemma visits_unique {A} (items : Resources -> list A) m v v' :
  ChildsOk m -> Visits items m v -> Visits items m v' -> v = v'.
Proof.
  intros Hok (cs & HP & Ha & ->) (cs' & HP' & Ha' & ->). f_equal. f_equal. f_equal.
  assert (HPP : Permutation cs cs') by (eapply Permutation_trans; [exact HP|apply Permutation_sym; exact HP']).
  assert (Hk : map fst cs = map fst cs').
  { apply (sorted_unique sleb sleb_antisym); try (apply ascending_sorted; assumption).
    apply Permutation_map; exact HPP. }
  assert (Hnd : NoDup (map fst cs)).
  { eapply Permutation_NoDup; [|exact Hok]. apply Permutation_map, Permutation_sym; exact HP. }
  assert (Hget : forall l : list (string * Child), NoDup (map fst l) ->
            l = map (fun k => (k, match aget seq k l with Some c => c | None => child_zero end)) (map fst l)).
  { intros l Hn. rewrite map_map. rewrite <- (map_id l) at 1. apply map_ext_in.
    intros [k c] Hi. cbn. rewrite (in_aget _ _ _ Hn Hi). reflexivity. }
  rewrite (Hget cs), (Hget cs'); [|rewrite <- Hk; exact Hnd|exact Hnd]. rewrite Hk. apply map_ext_in.
  intros k Hi. f_equal.
  assert (Q : aget seq k cs = aget seq k cs'); [|rewrite Q; reflexivity].
  apply in_map_iff in Hi as ([k' c] & <- & Hi). cbn.
  assert (Hnd' : NoDup (map fst cs')) by (rewrite <- Hk; exact Hnd).
  rewrite (in_aget _ _ _ Hnd' Hi). apply in_aget; [exact Hnd|].
  eapply Permutation_in; [apply Permutation_sym; exact HPP|exact Hi].
Qed.

Lemma visits_perm {A} (items : Resources -> list A) m m' v :
  mo_res m = mo_res m' -> Permutation (mo_childs m) (mo_childs m') ->
  Visits items m v -> Visits items m' v.
Proof.
  intros Hr HP (cs & HP' & Ha & ->). exists cs. rewrite Hr. repeat split; auto.
  eapply Permutation_trans; eassumption.
Qed.

Lemma walk_perm {St E A} (items : Resources -> list A) (fn : St -> string -> A -> St * option E) m m' st :
  ChildsOk m -> mo_res m = mo_res m' -> Permutation (mo_childs m) (mo_childs m') ->
  walk items fn m st = walk items fn m' st.
Proof.
  intros Hok Hr HP.
  assert (Hok' : ChildsOk m').
  { unfold ChildsOk. eapply Permutation_NoDup; [|exact Hok]. apply Permutation_map; exact HP. }
  destruct (walk_spec items fn m st Hok) as (v & Hv & Hc).
  destruct (walk_spec items fn m' st Hok') as (v' & Hv' & Hc').
  assert (v = v') as <-.
  { eapply visits_unique; [exact Hok'| |exact Hv']. eapply visits_perm; eassumption. }
  eapply call_all_det; eassumption.
Qed.

(** ** Enumerations *)
Lemma aget_miss {K V} (eqb : K -> K -> bool) (eqb_ok : forall a b, reflect (a = b) (eqb a b))
  k (t : list (K * V)) : ~ In k (map fst t) -> aget eqb k t = None.
Proof.
  induction t as [|[k' v] t IH]; cbn; [reflexivity|]. intros H.
  destruct (eqb_ok k k') as [->|]; [exfalso; auto|auto].
Qed.
Lemma parse_enum_spec {A} (t : list (string * A)) s v : NoDup (map fst t) ->
  parse_enum t s = Some v <-> In (s, v) t.
Proof. intros Hn. split; [apply aget_in|apply in_aget; exact Hn]. Qed.

Ltac split_in :=
  repeat match goal with
  | H : In _ (_ :: _) |- _ => destruct H as [H|H]; [injection H as <- <-|]
  | H : In _ [] |- _ => destruct H
  end.
Ltac solve_nodup := repeat (constructor; [cbn; intuition congruence|]); constructor.
Ltac solve_enum print parse :=
  split; [|split];
  [ intros v s H; unfold print; cbv delta [spec_units spec_object_type spec_tex_type spec_tile spec_filter spec_blend spec_clip spec_cap spec_resolution] in H; split_in; split; reflexivity
  | intros v H; unfold print, print_enum;
    rewrite aget_miss by first [exact N.eqb_spec | exact Z.eqb_spec | exact H]; reflexivity
  | intros s v; unfold parse; rewrite parse_enum_spec by solve_nodup; cbn;
    intuition (first [congruence | match goal with H : (_, _) = (_, _) |- _ => injection H as <- <- end; tauto]) ].

Lemma enum_units : EnumOk spec_units units_string new_units.
Proof. solve_enum units_string new_units. Qed.
Lemma enum_object_type : EnumOk spec_object_type object_type_string new_object_type.
Proof. solve_enum object_type_string new_object_type. Qed.
Lemma enum_tex_type : EnumOk spec_tex_type tex_type_string new_tex_type.
Proof. solve_enum tex_type_string new_tex_type. Qed.
Lemma enum_tile : EnumOk spec_tile tile_string new_tile.
Proof. solve_enum tile_string new_tile. Qed.
Lemma enum_filter : EnumOk spec_filter filter_string new_filter.
Proof. solve_enum filter_string new_filter. Qed.
Lemma enum_blend : EnumOk spec_blend blend_string new_blend.
Proof. solve_enum blend_string new_blend. Qed.
Lemma enum_clip : EnumOk spec_clip clip_string new_clip.
Proof. solve_enum clip_string new_clip. Qed.
Lemma enum_cap : EnumOk spec_cap cap_string new_cap.
Proof. solve_enum cap_string new_cap. Qed.
Lemma enum_resolution : EnumOk spec_resolution resolution_string new_resolution.
Proof. solve_enum resolution_string new_resolution. Qed.

(** ** HasTransform *)
Lemma feqb_zero x : feqb x f_zero = true <-> is_zero x.
Proof.
  unfold feqb, is_zero, f_zero, SFeqb. destruct x as [s|s| |s m e]; cbn.
  - split; [intros _; exists s; reflexivity|reflexivity].
  - split; [destruct s; discriminate|intros [b H]; discriminate].
  - split; [discriminate|intros [b H]; discriminate].
  - split; [destruct s; discriminate|intros [b H]; discriminate].
Qed.
Lemma sf_compare_pos (m : positive) (e : Z) (n : positive) (f : Z) :
  SFcompare (S754_finite false m e) (S754_finite false n f) =
  Some match Z.compare e f with Lt => Lt | Gt => Gt | Eq => Pcompare m n Eq end.
Proof. reflexivity. Qed.
Lemma feqb_one x : feqb x f_one = true <-> x = one32.
Proof.
  unfold feqb, f_one, one32, SFeqb. generalize 8388608%positive. intros k.
  destruct x as [s|s| |s m e].
  - cbn. split; discriminate.
  - cbn. destruct s; split; discriminate.
  - cbn. split; discriminate.
  - destruct s; [cbn; split; discriminate|]. rewrite sf_compare_pos.
    destruct (Z.compare_spec e (-23)) as [->|Hl|Hg].
    + change (Pcompare m k Eq) with (Pos.compare m k).
      destruct (Pos.compare_spec m k) as [->|Hl|Hg]; split; try discriminate; try reflexivity.
      * intros H; injection H as ->. lia.
      * intros H; injection H as ->. lia.
    + split; [discriminate|]. intros H; injection H as -> ->. lia.
    + split; [discriminate|]. intros H; injection H as -> ->. lia.
Qed.
Lemma or_iff_compat_l' (A B C D : Prop) : (A <-> C) -> (B <-> D) -> (A \/ B <-> C \/ D).
Proof. tauto. Qed.
Lemma has_transform_spec t : has_transform t = false <-> ZeroMatrix t \/ IdentityMatrix t.
Proof.
  unfold has_transform. rewrite andb_false_iff, !negb_false_iff.
  apply or_iff_compat_l'; unfold matrix_eqb, ZeroMatrix, IdentityMatrix, matrix_zero, identity;
    cbn [m0 m1 m2 m3 m4 m5 m6 m7 m8 m9 m10 m11 m12 m13 m14 m15];
    rewrite !andb_true_iff, ?feqb_zero, ?feqb_one; rewrite <- !and_assoc; reflexivity.
Qed.
