(** * Proofs about the buffers of attribute values *)
From Verif Require Import GoBase Types PoolTypes M_Pool.

Lemma set_nth_length {X} i (x : X) l : i < length l -> length (set_nth i x l) = length l.
Proof. intros H. unfold set_nth. rewrite app_length. cbn [length]. rewrite firstn_length, skipn_length. lia. Qed.
Lemma set_nth_same {X} i (x : X) l : i < length l -> nth_error (set_nth i x l) i = Some x.
Proof.
  intros H. unfold set_nth. rewrite nth_error_app2 by (rewrite firstn_length; lia).
  rewrite firstn_length_le by lia. now rewrite Nat.sub_diag.
Qed.
Lemma set_nth_other {X} i j (x : X) l : i < length l -> i <> j -> nth_error (set_nth i x l) j = nth_error l j.
Proof.
  intros H Hn. unfold set_nth. destruct (lt_dec j i) as [L|L].
  - rewrite nth_error_app1 by (rewrite firstn_length; lia).
    rewrite <- (firstn_skipn i l) at 2. now rewrite nth_error_app1 by (rewrite firstn_length; lia).
  - rewrite nth_error_app2 by (rewrite firstn_length; lia). rewrite firstn_length_le by lia.
    destruct (j - i) as [|k] eqn:E; [lia|]. cbn [nth_error].
    rewrite <- (firstn_skipn (S i) l) at 2. rewrite nth_error_app2 by (rewrite firstn_length; lia).
    rewrite firstn_length_le by lia. f_equal. lia.
Qed.
Lemma set_arr_nth a s A b : a < length A -> nth b (set_arr a s A) "" = if Nat.eqb a b then s else nth b A "".
Proof.
  intros H. change (set_arr a s A) with (set_nth a s A).
  assert (X : forall l : list string, nth b l "" = match nth_error l b with Some x => x | None => "" end).
  { intros l. destruct (nth_error l b) eqn:E; [now apply nth_error_nth|]. apply nth_overflow. now apply nth_error_None. }
  rewrite !X. destruct (Nat.eqb_spec a b) as [<-|N]; [now rewrite set_nth_same|]. now rewrite set_nth_other.
Qed.
Lemma stake_app_ge n a b : n <= String.length a -> stake n (a +++ b) = stake n a.
Proof. revert a. induction n as [|n IH]; intros a H; [now rewrite !stake_0|]. destruct a as [|c a]; cbn [String.length] in H; [lia|]. cbn. now rewrite IH by lia. Qed.

Section Pool.
Context (grow : nat -> nat -> nat).

(** Writing to an empty buffer that has been reset *)
Lemma write_spec A b data : (forall a, bf_arr b = Some a -> a < length A) ->
  let '(A', b') := buf_write grow A (buf_reset b) data in
  read_bytes A' (buf_bytes b') = data /\ length A <= length A' /\
  (forall a, bf_arr b' = Some a -> a < length A' /\ (bf_arr b = Some a \/ length A <= a)) /\
  (forall c, c < length A -> bf_arr b <> Some c -> nth c A' "" = nth c A "").
Proof.
  intros Hb. unfold buf_write, buf_reset. cbn [bf_arr bf_len].
  assert (Fresh : forall old, let A' := A ++ [stake 0 old +++ data +++ zeros (grow 0 (String.length data))] in
            let b' := mkBuffer (Some (length A)) (0 + String.length data) in
            read_bytes A' (buf_bytes b') = data /\ length A <= length A' /\
            (forall a, bf_arr b' = Some a -> a < length A' /\ (bf_arr b = Some a \/ length A <= a)) /\
            (forall c, c < length A -> bf_arr b <> Some c -> nth c A' "" = nth c A "")).
  { intros old. cbv zeta. split; [|split; [|split]].
    - unfold read_bytes, buf_bytes. cbn [by_arr by_len bf_arr bf_len Nat.add]. rewrite app_nth2 by lia. rewrite Nat.sub_diag. cbn [nth].
      rewrite stake_0. exact (stake_app_l data _).
    - rewrite app_length. lia.
    - cbn [bf_arr]. intros a [= <-]. rewrite app_length. cbn [length]. lia.
    - intros c Hc _. now apply app_nth1. }
  destruct (bf_arr b) as [a|] eqn:Ea.
  - cbn [Nat.add]. destruct (Nat.leb_spec (String.length data) (String.length (nth a A ""))) as [L|L]; [|apply (Fresh (nth a A ""))].
    specialize (Hb a eq_refl). split; [|split; [|split]].
    + unfold read_bytes, buf_bytes. cbn [by_arr by_len bf_arr bf_len]. rewrite set_arr_nth by exact Hb. rewrite Nat.eqb_refl.
      unfold overwrite. rewrite stake_0. exact (stake_app_l data _).
    + change (set_arr a) with (@set_nth string a). rewrite set_nth_length by exact Hb. lia.
    + cbn [bf_arr]. intros c [= <-]. change (set_arr a) with (@set_nth string a). rewrite set_nth_length by exact Hb. auto.
    + intros c Hc N. rewrite set_arr_nth by exact Hb. destruct (Nat.eqb_spec a c) as [->|]; [congruence|reflexivity].
  - destruct (Nat.eqb_spec (String.length data) 0) as [Z|Z].
    + split; [|split; [|split]].
      * unfold read_bytes, buf_bytes. cbn [by_arr bf_arr]. destruct data; [reflexivity|discriminate Z].
      * lia.
      * cbn [bf_arr]. discriminate.
      * reflexivity.
    + apply (Fresh "").
Qed.

(** The buffers own different arrays; the attributes before [i] hold the values [l] *)
Definition PInv (P : Pool) (i : nat) (l : list Attr) : Prop :=
  length (po_attrs P) = length (po_bufs P) /\ 0 < length (po_bufs P) /\ i <= length (po_bufs P) /\ length l = i /\
  (forall j b a, nth_error (po_bufs P) j = Some b -> bf_arr b = Some a -> a < length (po_arrays P)) /\
  (forall j k b c a, nth_error (po_bufs P) j = Some b -> nth_error (po_bufs P) k = Some c -> bf_arr b = Some a -> bf_arr c = Some a -> j = k) /\
  (forall j x, nth_error l j = Some x -> exists b, nth_error (po_bufs P) j = Some b /\
     nth_error (po_attrs P) j = Some (mkPAttr (aname x) (buf_bytes b)) /\ read_bytes (po_arrays P) (buf_bytes b) = avalue x).

Lemma pinv_new A : PInv (pool_new A) 0 [].
Proof.
  assert (Z : forall j b, nth_error (repeat buffer_zero 10) j = Some b -> bf_arr b = None).
  { intros j b H. apply nth_error_In, repeat_spec in H. now subst. }
  unfold pool_new. split; [reflexivity|]. split; [cbn; lia|]. split; [lia|]. split; [reflexivity|]. split; [|split]; cbn [po_bufs po_arrays].
  - intros j b a H E. rewrite (Z j b H) in E. discriminate.
  - intros j k b c a H _ E. rewrite (Z j b H) in E. discriminate.
  - intros [|j] x H; discriminate H.
Qed.

Lemma nth_app_zero (l : list Buffer) n j b : nth_error (l ++ repeat buffer_zero n) j = Some b -> nth_error l j = Some b \/ b = buffer_zero.
Proof.
  intros H. destruct (lt_dec j (length l)) as [D|D].
  - rewrite nth_error_app1 in H by exact D. now left.
  - rewrite nth_error_app2 in H by lia. right. now apply nth_error_In, repeat_spec in H.
Qed.
Lemma pool_attr_spec P i l n data : PInv P i l -> exists P', pool_attr grow P i n data = Some P' /\ PInv P' (S i) (l ++ [mkAttr n data]).
Proof.
  intros I. unfold pool_attr.
  set (P1 := if Nat.ltb (length (po_attrs P)) (S i) then _ else P).
  assert (I1 : PInv P1 i l /\ i < length (po_bufs P1)).
  { unfold P1. destruct I as (I1 & I2 & I3 & I4 & I5 & I6 & I7). rewrite I1. destruct (Nat.ltb_spec (length (po_bufs P)) (S i)) as [L|L].
    - split; [|cbn [po_bufs]; rewrite app_length, repeat_length; lia].
      split; [cbn [po_attrs po_bufs]; rewrite !app_length, !repeat_length; lia|]. cbn [po_attrs po_bufs po_arrays].
      split; [rewrite app_length, repeat_length; lia|]. split; [rewrite app_length, repeat_length; lia|]. split; [exact I4|]. split; [|split].
      + intros j b a H E. apply nth_app_zero in H as [H| ->]; [eapply I5; eauto | discriminate E].
      + intros j k b c a H K E F. apply nth_app_zero in H as [H| ->]; [|discriminate E]. apply nth_app_zero in K as [K| ->]; [|discriminate F]. eapply I6; eauto.
      + intros j x H. destruct (I7 j x H) as (b & B1 & B2 & B3). exists b. split; [|split; [|exact B3]].
        * rewrite nth_error_app1; [exact B1 | apply nth_error_Some; congruence].
        * rewrite nth_error_app1; [exact B2 | apply nth_error_Some; congruence].
    - split; [|lia]. repeat (split; [assumption|]). assumption. }
  clearbody P1. clear I P. destruct I1 as ((I1 & I2 & I3 & I4 & I5 & I6 & I7) & Li).
  destruct (nth_error (po_bufs P1) i) as [b|] eqn:Eb; [|apply nth_error_None in Eb; lia].
  destruct (nth_error (po_attrs P1) i) as [pa|] eqn:Ea; [|apply nth_error_None in Ea; lia]. clear Ea pa.
  assert (Hb : forall a, bf_arr b = Some a -> a < length (po_arrays P1)) by (intros a; eapply I5; eauto).
  pose proof (write_spec (po_arrays P1) b data Hb) as W. destruct (buf_write grow (po_arrays P1) (buf_reset b) data) as [A' b'].
  destruct W as (W1 & W2 & W3 & W4). eexists. split; [reflexivity|].
  assert (Keep : forall j c, nth_error (po_bufs P1) j = Some c -> j <> i -> read_bytes A' (buf_bytes c) = read_bytes (po_arrays P1) (buf_bytes c)).
  { intros j c Hc N. unfold read_bytes, buf_bytes. cbn [by_arr by_len]. destruct (bf_arr c) as [a|] eqn:Ec; [|reflexivity].
    rewrite W4; [reflexivity | eapply I5; eauto |]. intros E. apply N. eapply I6; eauto. }
  split; [cbn [po_attrs po_bufs]; rewrite !set_nth_length by lia; exact I1|]. cbn [po_attrs po_bufs po_arrays].
  split; [rewrite set_nth_length by lia; lia|]. split; [rewrite set_nth_length by lia; lia|]. split; [rewrite app_length; cbn [length]; lia|].
  split; [|split].
  - intros j c a H E. destruct (Nat.eq_dec i j) as [<-|N].
    + rewrite set_nth_same in H by exact Li. injection H as <-. now apply W3.
    + rewrite set_nth_other in H by (exact Li || exact N). specialize (I5 j c a H E). lia.
  - intros j k c d a H K E F. destruct (Nat.eq_dec i j) as [<-|N]; destruct (Nat.eq_dec i k) as [<-|N'].
    + reflexivity.
    + exfalso. rewrite set_nth_same in H by exact Li. injection H as <-. rewrite set_nth_other in K by (exact Li || exact N').
      destruct (W3 a E) as (_ & [X|X]); [apply N'; eapply I6; eauto | specialize (I5 k d a K F); lia].
    + exfalso. rewrite set_nth_same in K by exact Li. injection K as <-. rewrite set_nth_other in H by (exact Li || exact N).
      destruct (W3 a F) as (_ & [X|X]); [apply N; symmetry; eapply I6; eauto | specialize (I5 j c a H E); lia].
    + rewrite set_nth_other in H by (exact Li || exact N). rewrite set_nth_other in K by (exact Li || exact N'). eapply I6; eauto.
  - intros j x H. destruct (lt_dec j (length l)) as [D|D].
    + rewrite nth_error_app1 in H by exact D. destruct (I7 j x H) as (c & B1 & B2 & B3). exists c.
      rewrite !set_nth_other by lia. split; [exact B1|]. split; [exact B2|]. rewrite (Keep j c B1) by lia. exact B3.
    + rewrite nth_error_app2 in H by lia. destruct (j - length l) as [|q] eqn:Ej; [|destruct q; discriminate H]. cbn [nth_error] in H. injection H as <-.
      assert (j = i) as -> by lia. exists b'. rewrite !set_nth_same by lia. split; [reflexivity|]. split; [reflexivity | exact W1].
Qed.
Lemma pool_attrs_spec : forall l P i done, PInv P i done -> exists P', pool_attrs grow P i l = Some P' /\ PInv P' (i + length l) (done ++ l).
Proof.
  induction l as [|[n v] l IH]; intros P i done I; cbn [pool_attrs length].
  - rewrite Nat.add_0_r, app_nil_r. eauto.
  - destruct (pool_attr_spec P i done n v I) as (P1 & E & I1). cbn [aname avalue]. rewrite E.
    destruct (IH P1 (S i) _ I1) as (P2 & E2 & I2). exists P2. split; [exact E2|]. rewrite <- app_assoc in I2. cbn [app] in I2.
    now replace (i + S (length l)) with (S i + length l) by lia.
Qed.
Lemma pinv_weaken P i l : PInv P i l -> PInv P 0 [].
Proof.
  intros (I1 & I2 & I3 & I4 & I5 & I6 & I7). split; [exact I1|]. split; [exact I2|]. split; [lia|]. split; [reflexivity|]. split; [exact I5|]. split; [exact I6|].
  intros [|j] x H; discriminate H.
Qed.
Lemma given_reads P l : PInv P (length l) l -> map (read_attr (po_arrays P)) (firstn (length l) (po_attrs P)) = l.
Proof.
  intros (I1 & I2 & I3 & I4 & I5 & I6 & I7). apply nth_ext with (d := mkAttr (mkName "" "") "") (d' := mkAttr (mkName "" "") "").
  - rewrite map_length, firstn_length. lia.
  - intros j Hj. rewrite map_length, firstn_length in Hj.
    destruct (nth_error l j) as [x|] eqn:E; [|apply nth_error_None in E; lia].
    destruct (I7 j x E) as (b & B1 & B2 & B3).
    rewrite (nth_error_nth l j _ E). apply nth_error_nth. rewrite nth_error_map.
    assert (F : nth_error (firstn (length l) (po_attrs P)) j = nth_error (po_attrs P) j).
    { rewrite <- (firstn_skipn (length l) (po_attrs P)) at 2. rewrite nth_error_app1; [reflexivity | rewrite firstn_length; lia]. }
    rewrite F, B2. cbn [option_map]. unfold read_attr. cbn [pa_name pa_value]. rewrite B3. now destruct x.
Qed.
Lemma pool_tags_spec : forall tags P, PInv P 0 [] -> exists P' given, pool_tags grow P tags = Some (P', given) /\
  Forall2 (fun g l => map (read_attr (fst g)) (snd g) = l) given tags.
Proof.
  induction tags as [|l tags IH]; intros P I; cbn [pool_tags].
  - exists P, []. split; [reflexivity | constructor].
  - unfold pool_tag. destruct (pool_attrs_spec l P 0 [] I) as (P1 & E & I1). rewrite E. cbn [Nat.add app] in I1.
    destruct (IH P1 (pinv_weaken _ _ _ I1)) as (P2 & given & E2 & F). rewrite E2. do 2 eexists. split; [reflexivity|].
    constructor; [|exact F]. cbn [fst snd]. now apply given_reads.
Qed.
End Pool.
