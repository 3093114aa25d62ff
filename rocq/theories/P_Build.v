(** * Proofs about a MeshBuilder in use *)
From Coq Require Import Permutation.
From Verif Require Import GoBase GoFloat Types BuildTypes M_Geom M_Build S_Geom S_Build P_Geom.

Lemma different_cons_in x l : In x l -> different (x :: l) = different l.
Proof. intros H. unfold different. cbn [nodup]. destruct (in_dec N.eq_dec x l); [reflexivity|contradiction]. Qed.
Lemma different_cons_new x l : ~ In x l -> different (x :: l) = S (different l).
Proof. intros H. unfold different. cbn [nodup]. destruct (in_dec N.eq_dec x l); [contradiction|reflexivity]. Qed.
Lemma different_incl l l' : (forall x, In x l -> In x l') -> different l <= different l'.
Proof.
  intros H. apply NoDup_incl_length; [apply NoDup_nodup|]. intros x Hx. apply nodup_In in Hx. apply nodup_In. auto.
Qed.

Section Proof.
  Variable oor : f32 -> Z.
  Variable vs0 : list Point3D.
  Notation cellp := (cell_of oor).
  Notation event := ((Point3D * bool) * N)%type.

  (** What holds between two steps; [evs] are the calls so far with their results, [d] the number of
      vertices appended by the program. *)
  Definition UInv (mb : MB) (evs : list event) (d : nat) : Prop :=
    (exists new, mb_verts mb = vs0 ++ new) /\
    (forall k j, aget cell_eqb k (mb_tree mb) = Some j -> exists p, In (p, true, j) evs /\ cellp p = k) /\
    (forall p f j, In (p, f, j) evs -> List.length vs0 <= N.to_nat j /\
       exists v, nth_error (mb_verts mb) (N.to_nat j) = Some v /\ cellp v = cellp p /\ (f = false -> v = p)) /\
    (forall p j, In (p, true, j) evs -> aget cell_eqb (cellp p) (mb_tree mb) = Some j) /\
    List.length (mb_verts mb) = List.length vs0 + d + different (map snd evs).

  Lemma uinv_new : UInv (new_builder vs0) [] 0.
  Proof.
    split; [exists []; symmetry; apply app_nil_r|]. split; [discriminate|]. split; [intros ? ? ? []|].
    split; [intros ? ? []|]. cbn. lia.
  Qed.
  Lemma last_index (vs : list Point3D) p : (N.of_nat (List.length vs) < 2 ^ 32)%N ->
    ((N.of_nat (List.length (vs ++ [p])) + 2 ^ 32 - 1) mod 2 ^ 32)%N = N.of_nat (List.length vs).
  Proof.
    intros Hb. rewrite app_length; cbn [List.length]. change (2 ^ 32)%N with 4294967296%N in *.
    replace (N.of_nat (List.length vs + 1) + 4294967296 - 1)%N with (N.of_nat (List.length vs) + 1 * 4294967296)%N by lia.
    rewrite N.mod_add by lia. apply N.mod_small. exact Hb.
  Qed.
  Lemma keep (vs : list Point3D) q j v : nth_error vs j = Some v -> nth_error (vs ++ [q]) j = Some v.
  Proof. intros H. rewrite nth_error_app1; [exact H|]. apply nth_error_Some. congruence. Qed.

  Lemma uinv_add mb p mb' i evs d : UInv mb evs d -> (N.of_nat (List.length (mb_verts mb)) < 2 ^ 32)%N ->
    add_vertex oor mb p = (mb', i) ->
    UInv mb' ((p, mb_conn mb, i) :: evs) d /\ mb_conn mb' = mb_conn mb /\
    List.length (mb_verts mb') <= S (List.length (mb_verts mb)).
  Proof.
    intros (I1 & I2 & I3 & I4 & I5) Hb. unfold add_vertex.
    set (found := if mb_conn mb then _ else _). destruct found as [j|] eqn:E; subst found; cbv zeta.
    - destruct (mb_conn mb) eqn:C; [|discriminate]. intros H; injection H as <- <-.
      destruct (I2 _ _ E) as (q & Hq & Ec). destruct (I3 _ _ _ Hq) as (Lj & v & Hv & Ev & _).
      split; [|split; [exact C|lia]]. split; [exact I1|]. split.
      { intros k j' Hk. destruct (I2 _ _ Hk) as (r & Hr & Er). exists r. split; [right; exact Hr|exact Er]. }
      split; [intros r f j' [H|H]; [injection H as <- <- <-|exact (I3 _ _ _ H)]|].
      { split; [exact Lj|]. exists v. split; [exact Hv|]. split; [congruence|discriminate]. }
      split; [intros r j' [H|H]; [injection H as <- <-; exact E|exact (I4 _ _ H)]|].
      cbn [map snd]. rewrite different_cons_in; [exact I5|]. change j with (snd (q, true, j)). apply in_map. exact Hq.
    - rewrite (last_index _ p Hb). intros H; injection H as <- <-. cbn [mb_verts mb_tree mb_conn].
      assert (Fresh : ~ In (N.of_nat (List.length (mb_verts mb))) (map snd evs)).
      { intros H. apply in_map_iff in H as (((q & f) & j) & Ej & H). cbn [snd] in Ej. subst j.
        destruct (I3 _ _ _ H) as (_ & v & Hv & _). rewrite Nat2N.id in Hv.
        assert (List.length (mb_verts mb) < List.length (mb_verts mb)) by (apply nth_error_Some; congruence). lia. }
      split; [|split; [reflexivity|rewrite app_length; cbn [List.length]; lia]]. split; [|split; [|split; [|split]]]; cbn [mb_verts mb_tree].
      + destruct I1 as (new & ->). exists (new ++ [p]). rewrite app_assoc. reflexivity.
      + intros k j Hk. destruct (mb_conn mb).
        * destruct (cell_eqb_spec k (cellp p)) as [->|Hne].
          { rewrite (aget_aset_same _ cell_eqb_spec) in Hk. injection Hk as <-. exists p. split; [left; reflexivity|reflexivity]. }
          rewrite (aget_aset_other _ cell_eqb_spec) in Hk by exact Hne.
          destruct (I2 _ _ Hk) as (r & Hr & Er). exists r. split; [right; exact Hr|exact Er].
        * destruct (I2 _ _ Hk) as (r & Hr & Er). exists r. split; [right; exact Hr|exact Er].
      + intros r f j [H|H].
        * injection H as <- <- <-. rewrite Nat2N.id. split.
          { destruct I1 as (new & ->). rewrite app_length. lia. }
          exists p. split; [apply nth_error_last|]. auto.
        * destruct (I3 _ _ _ H) as (L & v & Hv & Ev). split; [exact L|]. exists v. split; [apply keep; exact Hv|exact Ev].
      + intros r j [H|H].
        * injection H as <- -> <-. apply (aget_aset_same _ cell_eqb_spec).
        * pose proof (I4 _ _ H) as Hr. destruct (mb_conn mb); [|exact Hr].
          destruct (cell_eqb_spec (cellp r) (cellp p)) as [Ec|Hne]; [congruence|].
          rewrite (aget_aset_other _ cell_eqb_spec) by exact Hne. exact Hr.
      + cbn [map snd]. rewrite (different_cons_new _ _ Fresh), app_length. cbn [List.length]. lia.
  Qed.
  Lemma uinv_flag mb evs d b : UInv mb evs d -> UInv (mkMB b (mb_verts mb) (mb_tree mb)) evs d.
  Proof. intros H. exact H. Qed.
  Lemma uinv_direct mb evs d p : UInv mb evs d -> UInv (mkMB (mb_conn mb) (mb_verts mb ++ [p]) (mb_tree mb)) evs (S d).
  Proof.
    intros (I1 & I2 & I3 & I4 & I5). split; [|split; [exact I2|split; [|split; [exact I4|]]]]; cbn [mb_verts mb_tree].
    - destruct I1 as (new & ->). exists (new ++ [p]). rewrite app_assoc. reflexivity.
    - intros r f j H. destruct (I3 _ _ _ H) as (L & v & Hv & Ev). split; [exact L|]. exists v. split; [apply keep; exact Hv|exact Ev].
    - rewrite app_length. cbn [List.length]. lia.
  Qed.

  Lemma build_inv us : forall mb evs d mb' is, UInv mb evs d ->
    (N.of_nat (List.length (mb_verts mb) + List.length us) <= 2 ^ 32)%N ->
    build oor mb us = (mb', is) ->
    List.length is = List.length (calls (mb_conn mb) us) /\
    UInv mb' (rev (combine (calls (mb_conn mb) us) is) ++ evs) (d + directs us).
  Proof.
    induction us as [|[p|b|p] us IH]; intros mb evs d mb' is HI Hb; cbn [build calls directs List.length] in *.
    - intros H; injection H as <- <-. cbn. rewrite Nat.add_0_r. auto.
    - destruct (add_vertex oor mb p) as [mb1 i] eqn:E1. destruct (build oor mb1 us) as [mb2 is'] eqn:E2.
      intros H; injection H as <- <-.
      destruct (uinv_add mb p mb1 i evs d HI ltac:(lia) E1) as (I1 & C1 & L1).
      destruct (IH _ _ _ _ _ I1 ltac:(lia) E2) as (L & I). rewrite C1 in L, I.
      split; [cbn [List.length]; rewrite L; reflexivity|]. cbn [combine rev]. rewrite <- app_assoc. exact I.
    - intros E. apply (IH _ evs d _ _ (uinv_flag _ _ _ b HI)) in E; [exact E|cbn [mb_verts]; lia].
    - intros E. apply (IH _ evs (S d) _ _ (uinv_direct _ _ _ p HI)) in E; [|cbn [mb_verts]; rewrite app_length; cbn [List.length]; lia].
      cbn [mb_conn] in E. replace (d + S (directs us)) with (S d + directs us) by lia. exact E.
  Qed.
  Lemma map_snd_combine {A B} (l : list A) (l' : list B) : List.length l' = List.length l -> map snd (combine l l') = l'.
  Proof. revert l'; induction l as [|x l IH]; intros [|y l'] H; cbn in *; try discriminate; [reflexivity|]. rewrite IH by lia. reflexivity. Qed.
  Lemma nth_combine {A B} (l : list A) (l' : list B) k x y : nth_error l k = Some x -> nth_error l' k = Some y -> In (x, y) (combine l l').
  Proof.
    revert l' k; induction l as [|a l IH]; intros [|b l'] [|k] H H'; cbn in *; try discriminate.
    - injection H as <-; injection H' as <-. auto.
    - right. eapply IH; eassumption.
  Qed.
End Proof.
