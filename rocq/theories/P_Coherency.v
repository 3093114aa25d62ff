From Coq Require Import Permutation.
From Verif Require Import GoBase GoFloat Types M_Errors S_Errors P_Errors M_Coherency S_Coherency Conc.

Lemma pair_eqb_spec x y : reflect (x = y) (pair_eqb x y).
Proof.
  destruct x as [a b], y as [c d]; unfold pair_eqb; cbn.
  destruct (N.eqb_spec a c), (N.eqb_spec b d); cbn; constructor; congruence.
Qed.
Definition key (e : N * N) : N * N := pair_entry (fst e) (snd e).
Lemma key_le a b : (a <= b)%N -> key (a, b) = (a, b).
Proof. intros H; unfold key, pair_entry; cbn. destruct (N.ltb_spec a b); [reflexivity|]. f_equal; lia. Qed.
Lemma key_gt a b : (b < a)%N -> key (a, b) = (b, a).
Proof. intros H; unfold key, pair_entry; cbn. destruct (N.ltb_spec a b); [lia|]. reflexivity. Qed.
Lemma key_ordered e : (fst (key e) <= snd (key e))%N.
Proof. destruct e as [a b]; unfold key, pair_entry; cbn. destruct (N.ltb_spec a b); cbn; lia. Qed.

Lemma u32_small n : (n < 2 ^ 32)%N -> u32 n = n.
Proof. apply N.mod_small. Qed.
Lemma u32_add a b : u32 (u32 a + b) = u32 (a + b).
Proof. unfold u32. apply N.add_mod_idemp_l. discriminate. Qed.

Definition get (t : pair_match) (k : N * N) : option N := aget pair_eqb k t.
Definition Numbered (done : list (N * N)) (t : pair_match) (n : N) : Prop :=
  (forall k i, get t k = Some i -> (i < n)%N) /\
  (forall k k' i, get t k = Some i -> get t k' = Some i -> k = k') /\
  (forall i, (i < n)%N -> exists k, get t k = Some i) /\
  (forall k, (exists e, In e done /\ key e = k) <-> exists i, get t k = Some i) /\
  (n <= N.of_nat (List.length done))%N.

Lemma get_set_same t a b i : get (add_match t a b i) (key (a, b)) = Some i.
Proof. apply aget_aset_same. apply pair_eqb_spec. Qed.
Lemma get_set_other t a b i k : k <> key (a, b) -> get (add_match t a b i) k = get t k.
Proof. intros H. apply aget_aset_other; [apply pair_eqb_spec|exact H]. Qed.

Lemma number_edges_inv es : forall t n done t' n',
  (N.of_nat (List.length (done ++ es)) < 2 ^ 32)%N ->
  Numbered done t n -> number_edges es t n = (t', n') -> Numbered (done ++ es) t' n'.
Proof.
  induction es as [|[a b] es IH]; intros t n done t' n' Hb Hi He; cbn [number_edges] in He.
  - injection He as <- <-. rewrite app_nil_r. exact Hi.
  - replace (done ++ (a, b) :: es) with ((done ++ [(a, b)]) ++ es) in * by (rewrite <- app_assoc; reflexivity).
    destruct Hi as (H1 & H2 & H3 & H4 & H5).
    assert (Hb1 : (N.of_nat (List.length (done ++ [(a, b)])) < 2 ^ 32)%N)
      by (rewrite app_length in Hb; lia).
    assert (Hl : N.of_nat (List.length (done ++ [(a, b)])) = (N.of_nat (List.length done) + 1)%N)
      by (rewrite app_length; cbn; lia).
    change (check_match t a b) with (get t (key (a, b))) in He.
    destruct (get t (key (a, b))) as [i|] eqn:E.
    + eapply IH; [exact Hb| |exact He]. refine (conj H1 (conj H2 (conj H3 (conj _ _)))); [|lia].
      intros k; rewrite <- H4. split.
      * intros (e & Hin & <-). apply in_app_iff in Hin as [Hin|[<-|[]]]; [eauto|].
        apply H4. eauto.
      * intros (e & Hin & <-). exists e. split; [apply in_app_iff; auto|reflexivity].
    + rewrite u32_small in He by lia.
      eapply IH; [exact Hb| |exact He].
      assert (D : forall k, {k = key (a, b)} + {k <> key (a, b)}) by (intros k; apply edge_dec).
      refine (conj _ (conj _ (conj _ (conj _ _)))).
      * intros k i Hg. destruct (D k) as [->|Hn].
        -- rewrite get_set_same in Hg. injection Hg as <-. lia.
        -- rewrite get_set_other in Hg by exact Hn. apply H1 in Hg. lia.
      * intros k k' i Hg Hg'. destruct (D k) as [->|Hn], (D k') as [->|Hn']; [reflexivity|..].
        -- rewrite get_set_same in Hg. rewrite get_set_other in Hg' by exact Hn'.
           injection Hg as <-. apply H1 in Hg'. lia.
        -- rewrite get_set_same in Hg'. rewrite get_set_other in Hg by exact Hn.
           injection Hg' as <-. apply H1 in Hg. lia.
        -- rewrite get_set_other in Hg, Hg' by assumption. eauto.
      * intros i Hlt. destruct (N.eq_dec i n) as [->|Hn].
        -- exists (key (a, b)). apply get_set_same.
        -- destruct (H3 i) as (k & Hk); [lia|]. exists k. rewrite get_set_other; [exact Hk|].
           intros ->. congruence.
      * intros k. destruct (D k) as [->|Hn].
        -- split; [intros _; rewrite get_set_same; eauto|]. intros _. exists (a, b).
           split; [apply in_app_iff; cbn; auto|reflexivity].
        -- rewrite get_set_other by exact Hn. rewrite <- H4. split.
           ++ intros (e & Hin & <-). apply in_app_iff in Hin as [Hin|[<-|[]]]; [eauto|congruence].
           ++ intros (e & Hin & <-). exists e. split; [apply in_app_iff; auto|reflexivity].
      * lia.
Qed.
Lemma number_edges_ok es t n :
  (N.of_nat (List.length es) < 2 ^ 32)%N -> number_edges es [] 0 = (t, n) -> Numbered es t n.
Proof.
  intros Hb He. apply (number_edges_inv es [] 0%N [] t n Hb); [|exact He].
  refine (conj _ (conj _ (conj _ (conj _ _)))).
  - intros k i H; discriminate.
  - intros k k' i H; discriminate.
  - intros i H; lia.
  - intros k; split; [intros (e & [] & _)|intros (i & H); discriminate].
  - cbn; lia.
Qed.

Lemma incr_length i l : List.length (incr_at i l) = List.length l.
Proof. revert i; induction l; intros [|i]; cbn; auto. Qed.
Lemma incr_nth i l j : (j < List.length l)%nat ->
  nth j (incr_at i l) 0%N = if Nat.eqb i j then u32 (nth j l 0%N + 1) else nth j l 0%N.
Proof.
  revert i j; induction l as [|x l IH]; intros i j Hj; cbn in Hj; [lia|].
  destruct i, j; cbn; try reflexivity. apply IH; lia.
Qed.

Definition index (t : pair_match) (e : N * N) : nat :=
  match get t (key e) with Some i => N.to_nat i | None => O end.
Definition up (e : N * N) : bool := (fst e <=? snd e)%N.
Definition tally (p : N * N -> bool) (t : pair_match) (j : nat) (es : list (N * N)) : N :=
  N.of_nat (List.length (filter (fun e => p e && Nat.eqb (index t e) j) es)).
Lemma count_edges_len es t : forall pos neg,
  List.length (fst (count_edges es t pos neg)) = List.length pos /\
  List.length (snd (count_edges es t pos neg)) = List.length neg.
Proof.
  induction es as [|[a b] es IH]; intros pos neg; cbn [count_edges]; [auto|].
  destruct (a <=? b)%N; destruct (IH (incr_at (index t (a, b)) pos) neg);
    destruct (IH pos (incr_at (index t (a, b)) neg)); rewrite incr_length in *; auto.
Qed.
Lemma count_edges_nth es t j : forall pos neg,
  (j < List.length pos)%nat -> (j < List.length neg)%nat ->
  u32 (nth j pos 0%N) = nth j pos 0%N -> u32 (nth j neg 0%N) = nth j neg 0%N ->
  nth j (fst (count_edges es t pos neg)) 0%N = u32 (nth j pos 0%N + tally up t j es) /\
  nth j (snd (count_edges es t pos neg)) 0%N = u32 (nth j neg 0%N + tally (fun e => negb (up e)) t j es).
Proof.
  induction es as [|[a b] es IH]; intros pos neg Hp Hn Up Un; cbn [count_edges].
  - unfold tally; cbn. rewrite !N.add_0_r. auto.
  - change (match check_match t a b with Some i => N.to_nat i | None => 0 end) with (index t (a, b)).
    unfold tally. cbn [filter]. change (up (a, b)) with (a <=? b)%N.
    destruct (a <=? b)%N; cbn [andb negb].
    + destruct (IH (incr_at (index t (a, b)) pos) neg) as [H1 H2]; try rewrite incr_length; auto.
      { rewrite incr_nth by exact Hp. destruct (Nat.eqb (index t (a, b)) j); [|exact Up].
        unfold u32. rewrite N.mod_mod; [reflexivity|discriminate]. }
      cbv zeta. unfold tally in H1, H2. rewrite H1, H2. split; [|reflexivity].
      rewrite incr_nth by exact Hp.
      destruct (Nat.eqb (index t (a, b)) j); [|reflexivity].
      rewrite u32_add. f_equal. cbn [List.length]. lia.
    + destruct (IH pos (incr_at (index t (a, b)) neg)) as [H1 H2]; try rewrite incr_length; auto.
      { rewrite incr_nth by exact Hn. destruct (Nat.eqb (index t (a, b)) j); [|exact Un].
        unfold u32. rewrite N.mod_mod; [reflexivity|discriminate]. }
      cbv zeta. unfold tally in H1, H2. rewrite H1, H2. split; [reflexivity|].
      rewrite incr_nth by exact Hn.
      destruct (Nat.eqb (index t (a, b)) j); [|reflexivity].
      rewrite u32_add. f_equal. cbn [List.length]. lia.
Qed.

Lemma filter_le {A} (p : A -> bool) l : (List.length (filter p l) <= List.length l)%nat.
Proof. induction l; cbn; [lia|]. destruct (p a); cbn; lia. Qed.
Lemma filter_count p es e : (forall x, In x es -> (p x = true <-> x = e)) ->
  List.length (filter p es) = count_occ edge_dec es e.
Proof.
  induction es as [|x es IH]; intros H; cbn; [reflexivity|].
  rewrite <- IH by (intros y Hy; apply H; right; exact Hy).
  destruct (edge_dec x e) as [->|Hn].
  - destruct (p e) eqn:E; [reflexivity|]. exfalso. assert (p e = true) by (apply H; [left|]; reflexivity). congruence.
  - destruct (p x) eqn:E; [|reflexivity]. apply H in E; [congruence|left; reflexivity].
Qed.
Lemma filter_none {A} (p : A -> bool) l : (forall x, In x l -> p x = false) -> filter p l = [].
Proof.
  induction l as [|x l IH]; intros H; cbn; [reflexivity|]. rewrite H by (left; reflexivity).
  apply IH. intros y Hy; apply H; right; exact Hy.
Qed.
Lemma forallb_nth (l1 l2 : list N) : List.length l1 = List.length l2 ->
  forallb (fun pn => (fst pn =? 1)%N && (snd pn =? 1)%N) (combine l1 l2) = true <->
  (forall j, (j < List.length l1)%nat -> nth j l1 0%N = 1%N /\ nth j l2 0%N = 1%N).
Proof.
  revert l2; induction l1 as [|x l1 IH]; intros [|y l2] Hl; try discriminate.
  - cbn. split; [intros _ j; lia|auto].
  - cbn [combine forallb fst snd]. injection Hl as Hl. rewrite !andb_true_iff, !N.eqb_eq, (IH l2 Hl). split.
    + intros [[-> ->] H] [|j] Hj; cbn in *; [auto|]. apply H; lia.
    + intros H. destruct (H 0%nat) as [Hx Hy]; [cbn; lia|]. cbn in Hx, Hy. split; [auto|].
      intros j Hj. apply (H (S j)). cbn; lia.
Qed.

Lemma edges_pairs me : flat_map face_pairs (me_tris me) = edges_of me.
Proof. unfold edges_of. apply flat_map_concat_map. Qed.
Lemma edges_length me : List.length (edges_of me) = 3 * List.length (me_tris me).
Proof. unfold edges_of. induction (me_tris me) as [|t l IH]; cbn [map concat]; [reflexivity|]. cbn in *; lia. Qed.

Section Counts.
  Variables (es : list (N * N)) (t : pair_match) (n : N).
  Hypothesis Hn : Numbered es t n.
  Lemma edge_get e : In e es -> exists i, get t (key e) = Some i /\ (i < n)%N.
  Proof.
    destruct Hn as (H1 & _ & _ & H4 & _). intros Hin. destruct (proj1 (H4 (key e))) as (i & Hi); [eauto|].
    exists i. split; [exact Hi|eauto].
  Qed.
  Lemma index_key e k i : In e es -> get t k = Some i ->
    (Nat.eqb (index t e) (N.to_nat i) = true <-> key e = k).
  Proof.
    destruct Hn as (_ & H2 & _ & H4 & _).
    intros Hin Hk. unfold index. rewrite Nat.eqb_eq.
    destruct (edge_get e Hin) as (i' & Hi' & _). rewrite Hi'. split.
    - intros He. apply N2Nat.inj in He as ->. eapply H2; eassumption.
    - intros <-. congruence.
  Qed.
  Lemma tally_up k i : get t k = Some i -> tally up t (N.to_nat i) es = N.of_nat (count_occ edge_dec es k).
  Proof.
    intros Hk. unfold tally. f_equal. apply filter_count. intros [a b] Hin.
    rewrite andb_true_iff, (index_key _ _ _ Hin Hk). unfold up; cbn. rewrite N.leb_le.
    assert (Ho : (fst k <= snd k)%N).
    { destruct Hn as (_ & _ & _ & H4 & _). destruct (proj2 (H4 k)) as (e & _ & <-); [eauto|]. apply key_ordered. }
    split.
    - intros [Hle <-]. symmetry; apply key_le; exact Hle.
    - intros <-. cbn in Ho. split; [exact Ho|]. apply key_le; exact Ho.
  Qed.
  Lemma tally_down k i : get t k = Some i -> tally (fun e => negb (up e)) t (N.to_nat i) es =
    if (fst k <? snd k)%N then N.of_nat (count_occ edge_dec es (snd k, fst k)) else 0%N.
  Proof.
    intros Hk. unfold tally. destruct (N.ltb_spec (fst k) (snd k)) as [Hlt|Hge].
    - f_equal. apply filter_count. intros [a b] Hin.
      rewrite andb_true_iff, (index_key _ _ _ Hin Hk). unfold up; cbn. rewrite negb_true_iff, N.leb_gt. split.
      + intros [Hg <-]. rewrite key_gt by exact Hg. reflexivity.
      + intros He. injection He as -> ->. split; [exact Hlt|]. rewrite key_gt by exact Hlt. destruct k; reflexivity.
    - rewrite filter_none; [reflexivity|]. intros [a b] Hin.
      destruct (negb (up (a, b)) && (index t (a, b) =? N.to_nat i)%nat) eqn:E; [|reflexivity].
      apply andb_true_iff in E as [Hu Hi]. apply (index_key _ _ _ Hin Hk) in Hi.
      unfold up in Hu; cbn in Hu. apply negb_true_iff, N.leb_gt in Hu.
      rewrite key_gt in Hi by exact Hu. rewrite <- Hi in Hge; cbn in Hge. lia.
  Qed.
End Counts.

Lemma coherency_oriented me : SmallMesh me ->
  (let es := flat_map face_pairs (me_tris me) in
   let '(t, n) := number_edges es [] 0 in
   let '(pos, neg) := count_edges es t (repeat 0%N (N.to_nat n)) (repeat 0%N (N.to_nat n)) in
   forallb (fun pn => (fst pn =? 1)%N && (snd pn =? 1)%N) (combine pos neg) = true) <-> Oriented me.
Proof.
  intros Hs. cbv zeta. rewrite edges_pairs.
  destruct (number_edges (edges_of me) [] 0) as [t n] eqn:En.
  assert (Hlen : (N.of_nat (List.length (edges_of me)) < 2 ^ 32)%N).
  { rewrite edges_length. exact Hs. }
  pose proof (number_edges_ok _ _ _ Hlen En) as Hn.
  pose proof (count_edges_len (edges_of me) t (repeat 0%N (N.to_nat n)) (repeat 0%N (N.to_nat n))) as Hl.
  pose proof (fun j => count_edges_nth (edges_of me) t j (repeat 0%N (N.to_nat n)) (repeat 0%N (N.to_nat n))) as Hc.
  destruct (count_edges (edges_of me) t (repeat 0%N (N.to_nat n)) (repeat 0%N (N.to_nat n))) as [pos neg].
  cbn [fst snd] in *. rewrite !repeat_length in *. destruct Hl as [Hl1 Hl2].
  rewrite forallb_nth by congruence. rewrite Hl1.
  assert (Hv : forall j, (j < N.to_nat n)%nat ->
    nth j pos 0%N = tally up t j (edges_of me) /\
    nth j neg 0%N = tally (fun e => negb (up e)) t j (edges_of me)).
  { intros j Hj.
    assert (Hz : nth j (repeat 0%N (N.to_nat n)) 0%N = 0%N).
    { clear. revert j; induction (N.to_nat n); intros [|j]; cbn; auto. }
    destruct (Hc j Hj Hj) as [H1 H2]; try (rewrite Hz; reflexivity).
    rewrite Hz, N.add_0_l in H1, H2.
    assert (Hb : forall p, (tally p t j (edges_of me) < 2 ^ 32)%N).
    { intros p. unfold tally. pose proof (filter_le (fun e => p e && Nat.eqb (index t e) j) (edges_of me)).
      eapply N.le_lt_trans; [|exact Hlen]. lia. }
    rewrite u32_small in H1 by apply Hb. rewrite u32_small in H2 by apply Hb. auto. }
  assert (Hall : (forall j, (j < N.to_nat n)%nat -> nth j pos 0%N = 1%N /\ nth j neg 0%N = 1%N) <->
    forall e, In e (edges_of me) -> count_occ edge_dec (edges_of me) (key e) = 1 /\
      (fst (key e) < snd (key e))%N /\ count_occ edge_dec (edges_of me) (snd (key e), fst (key e)) = 1).
  { split.
    - intros H e He. destruct (edge_get _ _ _ Hn e He) as (i & Hi & Hlt).
      destruct (H (N.to_nat i)) as [Hp Hq]; [lia|]. destruct (Hv (N.to_nat i)) as [Vp Vq]; [lia|].
      rewrite Vp, (tally_up _ _ _ Hn _ _ Hi) in Hp. rewrite Vq, (tally_down _ _ _ Hn _ _ Hi) in Hq.
      destruct (N.ltb_spec (fst (key e)) (snd (key e))); [|discriminate].
      split; [lia|]. split; [assumption|lia].
    - intros H j Hj. destruct Hn as (H1 & H2 & H3 & H4 & H5) eqn:Hnn. clear Hnn.
      destruct (H3 (N.of_nat j)) as (k & Hk); [lia|].
      destruct (proj2 (H4 k)) as (e & He & <-); [eauto|].
      destruct (H e He) as (C1 & C2 & C3). destruct (Hv j Hj) as [-> ->].
      replace j with (N.to_nat (N.of_nat j)) by lia.
      rewrite (tally_up _ _ _ Hn _ _ Hk), (tally_down _ _ _ Hn _ _ Hk), C1.
      destruct (N.ltb_spec (fst (key e)) (snd (key e))); [|lia]. rewrite C3. auto. }
  rewrite Hall. unfold Oriented, occurrences. split.
  - intros H a b Hin. destruct (H (a, b) Hin) as (C1 & C2 & C3).
    destruct (N.lt_trichotomy a b) as [Hlt|[->|Hgt]].
    + rewrite key_le in C1, C2, C3 by lia. cbn in *. split; [lia|auto].
    + rewrite key_le in C2 by lia. cbn in C2; lia.
    + rewrite key_gt in C1, C2, C3 by lia. cbn in *. split; [lia|auto].
  - intros H [a b] Hin. destruct (H a b Hin) as (Hne & C1 & C2).
    destruct (N.lt_trichotomy a b) as [Hlt|[->|Hgt]]; [|congruence|].
    + rewrite key_le by lia. auto.
    + rewrite key_gt by lia. auto.
Qed.

Lemma mesh_coherency_spec me : SmallMesh me ->
  (mesh_coherency me = None <-> Coherent me) /\
  (forall e, mesh_coherency me = Some e <-> Incoherent me e).
Proof.
  intros Hs. pose proof (coherency_oriented me Hs) as Ho. unfold mesh_coherency, Coherent. cbv zeta in Ho |- *.
  destruct (Nat.ltb_spec (List.length (me_verts me)) 3).
  - split; [split; [discriminate|lia]|]. intros e. split.
    + intros H'; injection H' as <-. constructor; assumption.
    + intros H'; inversion H'; [reflexivity|lia..].
  - destruct (Nat.leb_spec (List.length (me_tris me)) 3).
    + split; [split; [discriminate|lia]|]. intros e. split.
      * intros H'; injection H' as <-. constructor 2; lia.
      * intros H'; inversion H'; [lia|reflexivity|lia].
    + destruct (number_edges (flat_map face_pairs (me_tris me)) [] 0) as [t n].
      destruct (count_edges (flat_map face_pairs (me_tris me)) t _ _) as [pos neg].
      destruct (forallb _ _).
      * split; [split; [|reflexivity]|].
        { intros _. split; [lia|]. split; [lia|]. apply Ho; reflexivity. }
        intros e; split; [discriminate|]. intros H'; inversion H'; [lia..|].
        exfalso. apply H3, Ho. reflexivity.
      * split; [split; [discriminate|]|].
        { intros (_ & _ & Hor). apply Ho in Hor; discriminate. }
        intros e; split.
        { intros H'; injection H' as <-. constructor 3; [lia|lia|]. intros Hor; apply Ho in Hor; discriminate. }
        { intros H'; inversion H'; [lia..|reflexivity]. }
Qed.

(** ** The whole model *)
(** [nn e]: a non-nil error has at least one located member. *)
Definition nn (e : error) : Prop := located_o e = [] -> e = None.
Lemma located_members e : concat (map located (members e)) = located_o e.
Proof.
  destruct e as [[ | | | |l]|]; cbn [members map concat located_o]; rewrite ?app_nil_r; try reflexivity.
  symmetry; apply located_list.
Qed.
Lemma append_located e xs : located_o (append e xs) = located_o e ++ concat (map located_o xs).
Proof.
  rewrite <- located_members, append_members, map_app, concat_app, located_members. f_equal.
  induction xs as [|x xs IH]; cbn [map concat]; [reflexivity|].
  rewrite map_app, concat_app, located_members, IH. reflexivity.
Qed.
Lemma append1_located e x : located_o (append e [x]) = located_o e ++ located_o x.
Proof. rewrite append_located; cbn [map concat]. rewrite app_nil_r. reflexivity. Qed.
Lemma wrap_index_located_o e n i : located_o (wrap_index e n i) = map (outer (mkLevel n i)) (located_o e).
Proof. destruct e; [apply wrap_index_located|reflexivity]. Qed.
Lemma wrap_located_o e n : located_o (wrap e n) = map (outer (mkLevel n (-1))) (located_o e).
Proof. apply wrap_index_located_o. Qed.
Lemma wrap_path_located_o e n p :
  located_o (wrap_path e n p) = map (fun x => in_part p (outer (mkLevel n (-1)) x)) (located_o e).
Proof. destruct e; [apply wrap_path_located|reflexivity]. Qed.
Lemma nn_none : nn None. Proof. intros _; reflexivity. Qed.
Lemma nn_sent s : nn (Some (ESent s)). Proof. intros H; discriminate. Qed.
Lemma nn_missing s : nn (Some (EMissing s)). Proof. intros H; discriminate. Qed.
Lemma nn_wrap_index e n i : nn e -> nn (wrap_index e n i).
Proof.
  intros H Hl. rewrite wrap_index_located_o in Hl. apply map_eq_nil in Hl. rewrite (H Hl). reflexivity.
Qed.
Lemma nn_wrap e n : nn e -> nn (wrap e n).
Proof. apply nn_wrap_index. Qed.
Lemma nn_wrap_path e n p : nn e -> nn (wrap_path e n p).
Proof.
  intros H Hl. rewrite wrap_path_located_o in Hl. apply map_eq_nil in Hl. rewrite (H Hl). reflexivity.
Qed.
Lemma nn_append e x : nn e -> nn x -> nn (append e [x]).
Proof.
  intros He Hx Hl. rewrite append1_located in Hl. apply app_eq_nil in Hl as [Hl1 Hl2].
  rewrite (He Hl1), (Hx Hl2). reflexivity.
Qed.

Lemma apply_appends (xs : list error) : forall e,
  Forall nn xs -> nn e ->
  located_o (apply_all (map (fun x errs => append errs [x]) xs) e) = located_o e ++ concat (map located_o xs) /\
  nn (apply_all (map (fun x errs => append errs [x]) xs) e).
Proof.
  unfold apply_all. induction xs as [|x xs IH]; intros e Hx He; cbn [map fold_left concat].
  - rewrite app_nil_r. auto.
  - inversion Hx; subst. destruct (IH (append e [x])) as [H3 H4]; [assumption|apply nn_append; assumption|].
    split; [|exact H4]. rewrite H3, append1_located, app_assoc. reflexivity.
Qed.

(** The wrapped error of each incoherent solid object. *)
Definition report (wrapr : error -> error) (i : nat) (o : Object) : list error :=
  if is_solid o then
    match ob_mesh o with
    | Some me => match mesh_coherency me with
                 | Some e => [wrapr (wrap_index (wrap (Some e) "mesh") "object" (Z.of_nat i))]
                 | None => [] end
    | None => []
    end
  else [].
Definition reports (m : Model) (cs : list (string * Child)) : list error :=
  concat (mapi (report (fun e => wrap e "resources")) (rs_objects (mo_res m))) ++
  flat_map (fun pc => concat (mapi (report (fun e => wrap_path e "resources" (fst pc)))
                           (rs_objects (ch_res (snd pc))))) cs.
Definition adder (x errs : error) : error := append errs [x].
Lemma task_report w i o : opt_list (coherency_task w i o) = map adder (report w i o).
Proof.
  unfold coherency_task, report. destruct (is_solid o); [|reflexivity].
  destruct (ob_mesh o) as [me|]; [|reflexivity]. destruct (mesh_coherency me); reflexivity.
Qed.
Lemma tasks_mapi w os : forall i,
  updates (mapi_from (coherency_task w) i os) = map adder (concat (mapi_from (report w) i os)).
Proof.
  unfold updates. induction os as [|o os IH]; intros i; cbn [mapi_from map concat]; [reflexivity|].
  rewrite map_app, <- task_report. f_equal. apply IH.
Qed.
Lemma updates_reports m cs : updates (coherency_tasks m cs) = map adder (reports m cs).
Proof.
  unfold coherency_tasks, reports. unfold updates. rewrite !map_app, concat_app. f_equal.
  - apply tasks_mapi.
  - induction cs as [|c cs IH]; cbn [flat_map map concat]; [reflexivity|].
    rewrite !map_app, concat_app, IH. f_equal. apply tasks_mapi.
Qed.

Lemma mesh_coherency_kind me e : mesh_coherency me = Some e -> exists s, e = ESent s.
Proof.
  unfold mesh_coherency.
  destruct (List.length (me_verts me) <? 3)%nat; [intros H; injection H; eauto|].
  destruct (List.length (me_tris me) <=? 3)%nat; [intros H; injection H; eauto|].
  cbv zeta. destruct (number_edges _ _ _) as [t n]. destruct (count_edges _ _ _ _) as [pos neg].
  destruct (forallb _ _); [discriminate|]. intros H; injection H; eauto.
Qed.
Lemma in_report w i o x : In x (report w i o) <->
  exists me s, (ob_type o = 0%Z \/ ob_type o = 3%Z) /\ ob_mesh o = Some me /\
    mesh_coherency me = Some (ESent s) /\
    x = w (Some (EErr [mkLevel "mesh" (-1); mkLevel "object" (Z.of_nat i)] (ESent s) "")).
Proof.
  unfold report, is_solid. destruct (ob_mesh o) as [me|] eqn:Em.
  2:{ split; [intros []|]. intros (me & s & _ & H & _); discriminate. }
  destruct (Z.eqb_spec (ob_type o) 0), (Z.eqb_spec (ob_type o) 3); cbn [orb].
  4:{ split; [intros []|]. intros (me' & s & [H|H] & _); contradiction. }
  all: destruct (mesh_coherency me) as [er|] eqn:Ec;
    [|split; [intros []|intros (me' & s & _ & H & H' & _); injection H as <-; congruence]].
  all: destruct (mesh_coherency_kind _ _ Ec) as (s & ->); split.
  all: try (intros [<-|[]]; exists me, s; cbn; auto).
  all: intros (me' & s' & _ & H & H' & ->); injection H as <-; rewrite Ec in H'; injection H' as <-; left; reflexivity.
Qed.

Lemma in_concat_mapi {A B} (f : nat -> A -> list B) l y :
  In y (concat (mapi f l)) <-> exists n x, nth_error l n = Some x /\ In y (f n x).
Proof.
  rewrite in_concat. split.
  - intros (z & Hz & Hy). apply in_mapi in Hz as (n & x & Hn & ->). eauto.
  - intros (n & x & Hn & Hy). exists (f n x). split; [apply in_mapi; eauto|exact Hy].
Qed.
Lemma in_reports m cs x : In x (reports m cs) <->
  (exists i o, nth_error (rs_objects (mo_res m)) i = Some o /\ In x (report (fun e => wrap e "resources") i o)) \/
  (exists p c i o, In (p, c) cs /\ nth_error (rs_objects (ch_res c)) i = Some o /\
     In x (report (fun e => wrap_path e "resources" p) i o)).
Proof.
  unfold reports. rewrite in_app_iff, in_concat_mapi, in_flat_map. split; (intros [H|H]; [left; exact H|right]).
  - destruct H as ([p c] & Hc & H). apply in_concat_mapi in H as (i & o & Hi & H). cbn in *. exists p, c, i, o. auto.
  - destruct H as (p & c & i & o & Hc & Hi & H). exists (p, c). split; [exact Hc|]. apply in_concat_mapi. cbn. eauto.
Qed.

(** What each report is. *)
Definition loc_in (i : nat) : list Level :=
  [mkLevel "resources" (-1); mkLevel "object" (Z.of_nat i); mkLevel "mesh" (-1)].
Lemma report_located w p i o x : (w = (fun e => wrap e "resources") /\ p = "" \/ w = (fun e => wrap_path e "resources" p)) ->
  In x (report w i o) -> exists s, located_o x = [(loc_in i, p, ESent s)] /\ nn x.
Proof.
  intros Hw Hx. apply in_report in Hx as (me & s & _ & _ & _ & ->). exists s.
  destruct Hw as [[-> ->]| ->]; cbn; (split; [reflexivity|intros H; discriminate]).
Qed.

Lemma nodup_map_disjoint {A B} (f : A -> B) l1 l2 :
  NoDup (map f l1) -> NoDup (map f l2) -> (forall x y, In x l1 -> In y l2 -> f x <> f y) ->
  NoDup (map f (l1 ++ l2)).
Proof.
  induction l1 as [|a l1 IH]; cbn; [auto|]. intros H1 H2 Hd. inversion H1; subst. constructor.
  - rewrite map_app, in_app_iff. intros [H|H]; [contradiction|].
    apply in_map_iff in H as (y & Hy & Hin). apply (Hd a y); auto.
  - apply IH; auto.
Qed.
Lemma report_nodup {B} (f : error -> B) w i o : NoDup (map f (report w i o)).
Proof.
  unfold report. destruct (is_solid o); [|constructor]. destruct (ob_mesh o) as [me|]; [|constructor].
  destruct (mesh_coherency me); [|constructor]. cbn. constructor; [intros []|constructor].
Qed.
Lemma reports_part_nodup w p os : (w = (fun e => wrap e "resources") /\ p = "" \/ w = (fun e => wrap_path e "resources" p)) ->
  forall i, NoDup (map located_o (concat (mapi_from (report w) i os))) /\
  forall x, In x (concat (mapi_from (report w) i os)) -> exists j s, i <= j /\ located_o x = [(loc_in j, p, ESent s)].
Proof.
  intros Hw. induction os as [|o os IH]; intros i; cbn [mapi_from concat]; [split; [constructor|intros x []]|].
  destruct (IH (S i)) as [H1 H2]. split.
  - apply nodup_map_disjoint; [apply report_nodup|exact H1|].
    intros x y Hx Hy. destruct (report_located _ _ _ _ _ Hw Hx) as (s & -> & _).
    destruct (H2 y Hy) as (j & s' & Hj & ->). unfold loc_in. intros E; injection E; intros; lia.
  - intros x Hx. apply in_app_iff in Hx as [Hx|Hx].
    + destruct (report_located _ _ _ _ _ Hw Hx) as (s & -> & _). eauto.
    + destruct (H2 x Hx) as (j & s & Hj & ->). exists j, s. split; [lia|reflexivity].
Qed.
Lemma reports_nodup m cs : NoDup (map fst cs) -> ~ In "" (map fst cs) ->
  NoDup (map located_o (reports m cs)) /\
  (forall x, In x (reports m cs) -> exists j s p, located_o x = [(loc_in j, p, ESent s)]).
Proof.
  intros Hnd Hne. unfold reports.
  destruct (reports_part_nodup (fun e => wrap e "resources") "" (rs_objects (mo_res m)) (or_introl (conj eq_refl eq_refl)) 0) as [R1 R2].
  assert (C : NoDup (map located_o (flat_map (fun pc => concat (mapi (report (fun e => wrap_path e "resources" (fst pc)))
                           (rs_objects (ch_res (snd pc))))) cs)) /\
    forall x, In x (flat_map (fun pc => concat (mapi (report (fun e => wrap_path e "resources" (fst pc)))
                           (rs_objects (ch_res (snd pc))))) cs) ->
      exists p j s, In p (map fst cs) /\ located_o x = [(loc_in j, p, ESent s)]).
  { clear R1 R2 Hne. induction cs as [|[p c] cs IH]; cbn [flat_map map fst snd]; [split; [constructor|intros x []]|].
    inversion Hnd; subst. destruct (IH H2) as [I1 I2].
    destruct (reports_part_nodup (fun e => wrap_path e "resources" p) p (rs_objects (ch_res c)) (or_intror eq_refl) 0) as [P1 P2].
    split.
    - apply nodup_map_disjoint; [exact P1|exact I1|].
      intros x y Hx Hy. destruct (P2 x Hx) as (j & s & _ & ->). destruct (I2 y Hy) as (p' & j' & s' & Hp & ->).
      intros E; injection E; intros; subst; contradiction.
    - intros x Hx. apply in_app_iff in Hx as [Hx|Hx].
      + destruct (P2 x Hx) as (j & s & _ & ->). exists p, j, s. cbn; auto.
      + destruct (I2 x Hx) as (p' & j' & s' & Hp & ->). exists p', j', s'. cbn; auto. }
  destruct C as [C1 C2]. split.
  - apply nodup_map_disjoint; [exact R1|exact C1|].
    intros x y Hx Hy. destruct (R2 x Hx) as (j & s & _ & ->). destruct (C2 y Hy) as (p' & j' & s' & Hp & ->).
    intros E; injection E; intros; subst; contradiction.
  - intros x Hx. apply in_app_iff in Hx as [Hx|Hx].
    + destruct (R2 x Hx) as (j & s & _ & ->). eauto.
    + destruct (C2 x Hx) as (p' & j' & s' & _ & ->). eauto.
Qed.

Lemma concat_singles {A B} (f : A -> list B) l : (forall x, In x l -> exists y, f x = [y]) ->
  map (fun y => [y]) (concat (map f l)) = map f l.
Proof.
  induction l as [|a l IH]; intros H; cbn; [reflexivity|].
  destruct (H a) as (y & Hy); [left; reflexivity|]. rewrite Hy; cbn. f_equal. apply IH. intros; apply H; right; assumption.
Qed.

Lemma model_coherency_spec m r :
  NoDup (map fst (mo_childs m)) -> ~ In "" (map fst (mo_childs m)) -> SmallModel m ->
  model_coherency m r ->
  NoDup (located_o r) /\ (forall x, In x (located_o r) <-> CoherencyError m x) /\ nn r.
Proof.
  intros Hnd Hne Hsm (cs & errs & HP & Ho & ->).
  apply outcome_serial in Ho as (order & HPo & ->).
  rewrite updates_reports in HPo. apply Permutation_map_inv in HPo as (xs & -> & HPx).
  assert (Hnd' : NoDup (map fst cs)).
  { eapply Permutation_NoDup; [|exact Hnd]. apply Permutation_map, Permutation_sym, HP. }
  assert (Hne' : ~ In "" (map fst cs)).
  { intros H; apply Hne. eapply Permutation_in; [|exact H]. apply Permutation_map, HP. }
  destruct (reports_nodup m cs Hnd' Hne') as [N1 N2].
  assert (Hall : Forall nn xs).
  { apply Forall_forall. intros x Hx. destruct (N2 x) as (j & s & p & E); [eapply Permutation_in; [apply Permutation_sym, HPx|exact Hx]|].
    intros H; rewrite E in H; discriminate. }
  destruct (apply_appends xs None Hall nn_none) as [L1 L2]. change (fun x errs => append errs [x]) with adder in L1, L2.
  cbn [located_o app] in L1.
  match goal with |- context [wrap ?e "model"] => set (errs := e) end.
  change (located_o errs = concat (map located_o xs)) in L1. change (nn errs) in L2. clearbody errs.
  rewrite wrap_located_o. split; [|split].
  - apply FinFun.Injective_map_NoDup.
    { intros [[l p] e] [[l' p'] e'] E. injection E as -> -> ->. reflexivity. }
    rewrite L1. apply (NoDup_map_inv (fun y => [y])).
    rewrite concat_singles.
    2:{ intros x Hx. destruct (N2 x) as (j & s & p & ->); [eapply Permutation_in; [apply Permutation_sym, HPx|exact Hx]|]. eauto. }
    eapply Permutation_NoDup; [|exact N1]. apply Permutation_map, HPx.
  - intros y. rewrite L1, in_map_iff.
    assert (Hin : forall z, In z (concat (map located_o xs)) <-> exists x, In x (reports m cs) /\ In z (located_o x)).
    { intros z. rewrite in_concat. split.
      - intros (l & Hl & Hz). apply in_map_iff in Hl as (x & <- & Hx). exists x. split; [|exact Hz].
        eapply Permutation_in; [apply Permutation_sym, HPx|exact Hx].
      - intros (x & Hx & Hz). exists (located_o x). split; [|exact Hz]. apply in_map.
        eapply Permutation_in; [exact HPx|exact Hx]. }
    unfold CoherencyError. split.
    + intros (z & <- & Hz). apply Hin in Hz as (x & Hx & Hz). apply in_reports in Hx.
      assert (G : forall p i o w, ObjectAt m p i o ->
         (w = (fun e => wrap e "resources") /\ p = "" \/ w = (fun e => wrap_path e "resources" p)) ->
         In x (report w i o) -> exists me e, Solid o /\ ob_mesh o = Some me /\ Incoherent me e /\
           located_o x = [(loc_in i, p, e)]).
      { intros p i o w Hat Hw Hr. apply in_report in Hr as (me & s & Hso & Hme & Hmc & ->).
        exists me, (ESent s). split; [exact Hso|]. split; [exact Hme|]. split.
        - apply mesh_coherency_spec; [eapply Hsm; eassumption|exact Hmc].
        - destruct Hw as [[-> ->]| ->]; reflexivity. }
      destruct Hx as [(i & o & Hi & Hr)|(p & c & i & o & Hc & Hi & Hr)].
      * destruct (G "" i o _ (AtRoot _ _ _ Hi) (or_introl (conj eq_refl eq_refl)) Hr) as (me & e & S1 & S2 & S3 & E).
        rewrite E in Hz. destruct Hz as [<-|[]]. exists "", i, o, me, e.
        repeat split; try assumption. apply AtRoot; exact Hi.
      * assert (Hat : ObjectAt m p i o).
        { apply AtChild with c; [|exact Hi]. eapply Permutation_in; [exact HP|exact Hc]. }
        destruct (G p i o _ Hat (or_intror eq_refl) Hr) as (me & e & S1 & S2 & S3 & E).
        rewrite E in Hz. destruct Hz as [<-|[]]. exists p, i, o, me, e. repeat split; assumption.
    + intros (p & i & o & me & e & Hat & Hso & Hme & Hinc & ->).
      exists (loc_in i, p, e). split; [reflexivity|]. apply Hin.
      assert (Hmc : mesh_coherency me = Some e) by (apply mesh_coherency_spec; [eapply Hsm; eassumption|exact Hinc]).
      assert (exists s, e = ESent s) as (s & ->) by (inversion Hinc; eauto).
      destruct Hat as [i o Hi|p c i o Hc Hi].
      * eexists. split; [apply in_reports; left; exists i, o; split; [exact Hi|]; apply in_report; exists me, s; repeat split; eassumption|].
        cbn; auto.
      * eexists. split.
        { apply in_reports; right; exists p, c, i, o. split; [eapply Permutation_in; [apply Permutation_sym, HP|exact Hc]|].
          split; [exact Hi|]. apply in_report; exists me, s; repeat split; eassumption. }
        cbn; auto.
  - apply nn_wrap. exact L2.
Qed.
