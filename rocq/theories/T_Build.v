(** * Property theorem C101 *)
From Verif Require Import GoBase GoFloat Types BuildTypes M_Geom M_Build S_Geom S_Build P_Geom P_Build T_Geom.
From Verif Require Import Types.
Local Open Scope list_scope.

(** Whatever the mesh has before and whatever the program does to the flag and to the mesh in
    between: the vertices there stay, every index stays good, and the calls made with the flag set
    share their vertices.  Missing from the full statement: that a call finds a vertex it has not
    added itself with the flag set (see the refutations). *)
Theorem C101_build_partial : forall oor vs0 us mb is,
  (N.of_nat (List.length vs0 + List.length us) <= 2 ^ 32)%N ->
  build oor (new_builder vs0) us = (mb, is) ->
  List.length is = List.length (calls true us) /\
  (exists new, mb_verts mb = vs0 ++ new /\ List.length new = directs us + different is) /\
  (forall k p f i, nth_error (calls true us) k = Some (p, f) -> nth_error is k = Some i ->
     List.length vs0 <= N.to_nat i /\
     exists v, nth_error (mb_verts mb) (N.to_nat i) = Some v /\ SameCell oor v p /\ (f = false -> v = p)) /\
  (forall k k' p p' i i', nth_error (calls true us) k = Some (p, true) -> nth_error is k = Some i ->
     nth_error (calls true us) k' = Some (p', true) -> nth_error is k' = Some i' -> (i = i' <-> SameCell oor p p')).
Proof.
  intros oor vs0 us mb is Hb E.
  destruct (build_inv oor vs0 us (new_builder vs0) [] 0 mb is (uinv_new oor vs0) Hb E) as (L & I).
  cbn [mb_conn new_builder] in L, I. rewrite app_nil_r in I. destruct I as (I1 & I2 & I3 & I4 & I5).
  assert (At : forall k x i, nth_error (calls true us) k = Some x -> nth_error is k = Some i ->
    In (x, i) (rev (combine (calls true us) is))).
  { intros k x i H1 H2. apply in_rev. rewrite rev_involutive. eapply nth_combine; eassumption. }
  split; [exact L|]. split; [|split].
  - destruct I1 as (new & E1). exists new. split; [exact E1|]. rewrite E1, app_length in I5. cbn [plus] in I5.
    assert (D : different (map snd (rev (combine (calls true us) is))) = different is).
    { rewrite map_rev, (map_snd_combine _ _ L). apply Nat.le_antisymm; apply different_incl; intros x Hx; [apply in_rev; exact Hx|apply in_rev; rewrite rev_involutive; exact Hx]. }
    lia.
  - intros k p f i H1 H2. destruct (I3 _ _ _ (At _ _ _ H1 H2)) as (Li & v & Hv & Ec & Ef). split; [exact Li|].
    exists v. split; [exact Hv|]. split; [apply same_cell_spec; exact Ec|exact Ef].
  - intros k k' p p' i i' H1 H2 H3 H4. pose proof (I4 _ _ (At _ _ _ H1 H2)) as A. pose proof (I4 _ _ (At _ _ _ H3 H4)) as B.
    rewrite same_cell_spec. split.
    + intros <-. destruct (I2 _ _ A) as (q & _). destruct (I3 _ _ _ (At _ _ _ H1 H2)) as (_ & v & Hv & Ec & _).
      destruct (I3 _ _ _ (At _ _ _ H3 H4)) as (_ & v' & Hv' & Ec' & _). congruence.
    + intros Ec. rewrite Ec in A. congruence.
Qed.
Print Assumptions C101_build_partial.

(** A new builder never finds a vertex of its mesh: the first call always appends. *)
Theorem C101_first : forall oor vs0 p, (N.of_nat (List.length vs0) < 2 ^ 32)%N ->
  exists mb, build oor (new_builder vs0) [Add p] = (mb, [N.of_nat (List.length vs0)]) /\ mb_verts mb = vs0 ++ [p].
Proof.
  intros oor vs0 p Hb. cbn [build]. unfold add_vertex. cbn [new_builder mb_conn mb_tree mb_verts aget]. cbv zeta.
  rewrite (last_index _ p Hb). eexists. split; [reflexivity|reflexivity].
Qed.
Print Assumptions C101_first.

(** Refuted: the vertex of the mesh with the same coordinates is not found, on any platform ... *)
Theorem C101_existing_refuted : exists vs p, In p vs /\
  forall oor mb i, build oor (new_builder vs) [Add p] = (mb, [i]) -> ~ FindsExisting vs p (mb_verts mb) i.
Proof.
  exists [ex_pt f_one f_zero f_two], (ex_pt f_one f_zero f_two). split; [left; reflexivity|].
  intros oor mb i E F. destruct (C101_first oor [ex_pt f_one f_zero f_two] (ex_pt f_one f_zero f_two) eq_refl) as (mb' & E' & V).
  rewrite E in E'. injection E' as <- _. destruct (F (or_introl eq_refl)) as (W & _). rewrite V in W. discriminate W.
Qed.
Print Assumptions C101_existing_refuted.
(** ... nor one that the builder itself has added while the flag was not set. *)
Theorem C101_flag_refuted : exists p, forall oor,
  snd (build oor (new_builder []) [Flag false; Add p; Flag true; Add p]) = [0%N; 1%N].
Proof. exists (ex_pt f_zero f_zero f_zero). intros oor. vm_compute. reflexivity. Qed.
Print Assumptions C101_flag_refuted.

Example C101_nonvacuous :
  let p := ex_pt f_one f_zero f_two in let q := ex_pt f_zero f_one f_one in
  let us := [Add q; Add p; Direct p; Add q; Flag false; Add q; Flag true; Add q] in
  let r := build (fun _ => 0%Z) (new_builder [p]) us in
  snd r = [1; 2; 1; 4; 1]%N /\ mb_verts (fst r) = [p; q; p; p; q] /\ directs us = 1 /\ different (snd r) = 3 /\
  (N.of_nat (List.length [p] + List.length us) <= 2 ^ 32)%N.
Proof. vm_compute. repeat split; discriminate. Qed.
