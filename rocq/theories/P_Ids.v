(** * Proofs about UnusedID with repeated identifiers *)
From Coq Require Import Permutation Lia.
From Verif Require Import GoBase GoFloat Types M_Core S_Core S_Ids P_Core.

(** With a repetition below the lowest unused identifier *)
Lemma first_gap_dup l d : forall i, sorted N.leb l -> (0 < i)%N -> (i <= d + 1)%N -> (forall x, In x l -> i <= x + 1)%N ->
  (forall k, (i <= k < d)%N -> count_occ N.eq_dec l k = 1) ->
  (d + 1 = i)%N /\ In d l \/ (i <= d)%N /\ 2 <= count_occ N.eq_dec l d /\ count_occ N.eq_dec l (i - 1)%N = 0 ->
  first_gap i l = (d + 1)%N.
Proof.
  intros i Hs. revert i. induction Hs as [|x l Hx Hs IH]; intros i Hi Hd Hl Hc H.
  - destruct H as [[_ []]|(_ & H & _)]. cbn in H. lia.
  - cbn [first_gap]. destruct H as [[<- H]|(H & H2 & H1)].
    + assert (x = d) as ->.
      { specialize (Hl x (or_introl eq_refl)). destruct H as [->|H]; [reflexivity|]. specialize (Hx d H). apply N.leb_le in Hx. lia. }
      destruct (N.eqb_spec d (d + 1)); [lia|reflexivity].
    + assert (Hxi : (i <= x)%N).
      { specialize (Hl x (or_introl eq_refl)). destruct (N.eq_dec x (i - 1)) as [->|]; [|lia]. cbn in H1. destruct (N.eq_dec (i - 1) (i - 1)); [discriminate|congruence]. }
      assert (Ii : In i (x :: l)).
      { apply (count_occ_In N.eq_dec). destruct (N.eq_dec i d) as [->|]; [lia|]. rewrite Hc; [lia|lia]. }
      assert (x = i) as ->.
      { destruct Ii as [E|Ii]; [exact E|]. specialize (Hx i Ii). apply N.leb_le in Hx. lia. }
      rewrite N.eqb_refl. cbn [negb]. apply IH; [lia|lia| | |].
      * intros y Hy. specialize (Hx y Hy). apply N.leb_le in Hx. lia.
      * intros k Hk. rewrite <- (Hc k) by lia. cbn. destruct (N.eq_dec i k); [lia|reflexivity].
      * cbn in H2. destruct (N.eq_dec i d) as [->|Hid]; [left; split; [reflexivity|]; apply (count_occ_In N.eq_dec); lia|].
        right. split; [lia|]. split; [exact H2|]. replace (i + 1 - 1)%N with i by lia.
        assert (C := Hc i ltac:(lia)). cbn in C. destruct (N.eq_dec i i); [lia|congruence].
Qed.
Lemma unused_id_dup rs d : (d + 1 < 2 ^ 32)%N -> Repeated rs d -> (forall k, (k < d)%N -> ~ Repeated rs k) -> (forall k, (0 < k < d)%N -> IdInUse rs k) ->
  unused_id rs = (d + 1)%N.
Proof.
  intros H32 Hd Hlow Huse. set (l := isort N.leb (all_ids rs)).
  assert (HP : Permutation (all_ids rs) l) by apply isort_perm.
  assert (Hcount : forall k, id_count rs k = count_occ N.eq_dec l k) by (intros k; rewrite id_count_occ; apply Permutation_count_occ; exact HP).
  assert (G : first_gap 0 (isort N.leb (collect_ids rs)) = (d + 1)%N).
  { change (collect_ids rs) with (0%N :: all_ids rs). rewrite isort_zero. fold l. cbn [first_gap N.eqb negb]. change (0 + 1)%N with 1%N. apply first_gap_dup.
    - apply isort_sorted; [apply nleb_total|apply nleb_trans].
    - lia.
    - lia.
    - lia.
    - intros k Hk. rewrite <- Hcount. assert (N := Hlow k ltac:(lia)). unfold Repeated in N. assert (U := Huse k ltac:(lia)).
      apply id_in_use_in, (count_occ_In N.eq_dec) in U. rewrite <- id_count_occ in U. destruct (N.eqb_spec k 0); lia.
    - unfold Repeated in Hd. destruct (N.eqb_spec d 0) as [->|D].
      + left. split; [reflexivity|]. apply (count_occ_In N.eq_dec). rewrite <- Hcount. lia.
      + right. split; [lia|]. rewrite <- !Hcount. split; [exact Hd|]. change (1 - 1)%N with 0%N. assert (Z := Hlow 0%N ltac:(lia)). unfold Repeated in Z. cbn in Z. lia. }
  unfold unused_id. destruct (rs_assets rs) eqn:Ea; [destruct (rs_objects rs) eqn:Eo|].
  - exfalso. unfold Repeated, id_count in Hd. rewrite Ea, Eo in Hd. cbn in Hd. destruct (N.eqb d 0); lia.
  - rewrite G. destruct (N.eqb_spec (d + 1) 0); [lia|]. apply N.mod_small. exact H32.
  - rewrite G. destruct (N.eqb_spec (d + 1) 0); [lia|]. apply N.mod_small. exact H32.
Qed.
Lemma repeated_dec rs k : Repeated rs k \/ ~ Repeated rs k.
Proof. unfold Repeated. destruct (N.eqb k 0); lia. Qed.
Lemma unused_id_exact rs g : LowestUnused rs g -> (g < 2 ^ 32)%N ->
  (IdInUse rs (unused_id rs) <-> exists k, (k + 1 < g)%N /\ Repeated rs k).
Proof.
  intros L H32.
  assert (M : forall n, (forall k, (k < n)%N -> ~ Repeated rs k) \/ exists d, (d < n)%N /\ Repeated rs d /\ forall k, (k < d)%N -> ~ Repeated rs k).
  { induction n as [|n IH] using N.peano_ind; [left; lia|]. destruct IH as [IH|(d & H1 & H2)]; [|right; exists d; split; [lia|exact H2]].
    destruct (repeated_dec rs n) as [R|R]; [right; exists n; split; [lia|]; split; assumption|]. left. intros k Hk. destruct (N.eq_dec k n) as [->|]; [exact R|]. apply IH. lia. }
  destruct (M g) as [N|(d & Hd & R & N)].
  - assert (E : unused_id rs = g).
    { apply unused_id_lowest; [exact L|exact H32| |].
      - assert (Z := N 0%N (proj1 L)). unfold Repeated in Z. cbn in Z. lia.
      - intros k Hk. assert (Z := N k ltac:(lia)). unfold Repeated in Z. destruct (N.eqb_spec k 0); [lia|].
        assert (U := proj2 (proj2 L) k Hk). apply id_in_use_in, (count_occ_In N.eq_dec) in U. rewrite <- id_count_occ in U. lia. }
    rewrite E. split; [intros U; destruct (proj1 (proj2 L) U)|]. intros (k & Hk & R). destruct (N k ltac:(lia) R).
  - assert (E : unused_id rs = (d + 1)%N) by (apply unused_id_dup; [lia|exact R|exact N|intros k Hk; apply (proj2 (proj2 L)); lia]).
    rewrite E. split.
    + intros U. exists d. split; [|exact R]. destruct (N.eq_dec (d + 1) g) as [X|]; [|lia]. rewrite X in U. destruct (proj1 (proj2 L) U).
    + intros (k & Hk & Rk). apply (proj2 (proj2 L)). assert (~ (k < d)%N) by (intros Q; exact (N k Q Rk)). lia.
Qed.
