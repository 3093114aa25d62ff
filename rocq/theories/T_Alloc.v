(** * Theorem: identifiers for many new resources: C96 *)
From Coq Require Import Lia Sorted.
From Verif Require Import GoBase GoFloat Types M_Core S_Core S_Alloc P_Core T_Core.
From Verif Require Import Types.
Local Open Scope list_scope.

Lemma added_use rs id rs' : AddedOne rs id rs' -> forall k, IdInUse rs' k <-> IdInUse rs k \/ k = id.
Proof.
  intros H k. destruct H as [u v os any a|ass u v any o]; unfold IdInUse; cbn [rs_assets rs_objects]; split.
  - intros [(b & I & E)|H]; [|left; right; exact H]. apply in_app_or in I as [I|[<-|I]]; [| right; symmetry; exact E|];
      (left; left; exists b; split; [apply in_or_app; auto|exact E]).
  - intros [[(b & I & E)|H]| ->]; [|right; exact H|].
    + left. exists b. split; [|exact E]. apply in_app_or in I as [I|I]; apply in_or_app; [left; exact I|right; right; exact I].
    + left. exists a. split; [apply in_or_app; right; left; reflexivity|reflexivity].
  - intros [H|(b & I & E)]; [left; left; exact H|]. apply in_app_or in I as [I|[<-|I]]; [| right; symmetry; exact E|];
      (left; right; exists b; split; [apply in_or_app; auto|exact E]).
  - intros [[H|(b & I & E)]| ->]; [left; exact H| |].
    + right. exists b. split; [|exact E]. apply in_app_or in I as [I|I]; apply in_or_app; [left; exact I|right; right; exact I].
    + right. exists o. split; [apply in_or_app; right; left; reflexivity|reflexivity].
Qed.
Lemma added_count rs id rs' : AddedOne rs id rs' -> forall k, id_count rs' k = id_count rs k + (if (id =? k)%N then 1 else 0).
Proof.
  intros H k. destruct H as [u v os any a|ass u v any o]; unfold id_count; cbn [rs_assets rs_objects]; rewrite !filter_app, !app_length; cbn [filter].
  - destruct (asset_id a =? k)%N; cbn [List.length]; lia.
  - destruct (ob_id o =? k)%N; cbn [List.length]; lia.
Qed.
Lemma added_size rs id rs' : AddedOne rs id rs' ->
  List.length (rs_assets rs') + List.length (rs_objects rs') = S (List.length (rs_assets rs) + List.length (rs_objects rs)).
Proof. intros H. destruct H; cbn [rs_assets rs_objects]; rewrite !app_length; cbn [List.length]; lia. Qed.
Lemma count_use rs k : id_count rs k <> 0 -> IdInUse rs k.
Proof.
  unfold id_count, IdInUse. intros H. destruct (filter (fun a => (asset_id a =? k)%N) (rs_assets rs)) as [|a l] eqn:E.
  - destruct (filter (fun o => (ob_id o =? k)%N) (rs_objects rs)) as [|o l'] eqn:E'; [cbn in H; lia|].
    right. exists o. assert (I : In o (filter (fun o => (ob_id o =? k)%N) (rs_objects rs))) by (rewrite E'; left; reflexivity).
    apply filter_In in I as [I J]. split; [exact I|apply N.eqb_eq, J].
  - left. exists a. assert (I : In a (filter (fun a => (asset_id a =? k)%N) (rs_assets rs))) by (rewrite E; left; reflexivity).
    apply filter_In in I as [I J]. split; [exact I|apply N.eqb_eq, J].
Qed.
Lemma unused_small rs : (unused_id rs < 2 ^ 32)%N.
Proof.
  unfold unused_id. destruct (rs_assets rs), (rs_objects rs); try (apply N.mod_lt; discriminate). reflexivity.
Qed.
(** C96: a caller that adds resources with the identifiers UnusedID gives receives the first numbers that are not in
    use, in ascending order; all identifiers stay distinct; nothing else becomes an identifier. *)
Theorem C96_run : forall rs ids rs', Run unused_id rs ids rs' -> DistinctIds rs ->
  (N.of_nat (List.length (rs_assets rs) + List.length (rs_objects rs) + List.length ids) < 2 ^ 32)%N ->
  FirstUnused rs ids /\ DistinctIds rs' /\ (forall k, IdInUse rs' k <-> IdInUse rs k \/ In k ids).
Proof.
  intros rs ids rs' R. induction R as [rs|rs rs1 ids rs2 A R IH]; intros D L.
  - split; [split; [constructor|intros id []]|]. split; [exact D|]. intros k. cbn. tauto.
  - cbn [List.length] in L. destruct (C01_unused_id_fresh_and_lowest rs D ltac:(lia)) as (Z & U & Lo). set (id := unused_id rs) in *.
    pose proof (added_use _ _ _ A) as Us. pose proof (added_count _ _ _ A) as Ct. pose proof (added_size _ _ _ A) as Sz.
    assert (D1 : DistinctIds rs1).
    { intros k. rewrite Ct. destruct (N.eqb_spec id k) as [E|N].
      - intros _. destruct (id_count rs k) as [|c] eqn:C.
        + split; [lia|]. pose proof (unused_small rs) as Sm. fold id in Sm. lia.
        + destruct U. rewrite E. apply count_use. lia.
      - rewrite Nat.add_0_r. apply D. }
    destruct (IH D1 ltac:(lia)) as ((So & Fi) & D2 & Us2). split; [|split; [exact D2|]].
    + split.
      * constructor; [exact So|]. apply Forall_forall. intros j Hj. destruct (Fi j Hj) as (P & Nu & _). destruct (N.lt_trichotomy id j) as [H|[H|H]]; [exact H| |].
        -- subst j. destruct Nu. apply Us. right. reflexivity.
        -- destruct Nu. apply Us. left. apply Lo. lia.
      * intros j [<-|Hj]; [split; [lia|split; [exact U|intros k Hk; left; apply Lo, Hk]]|]. destruct (Fi j Hj) as (P & Nu & Be).
        split; [exact P|]. split; [intros C; apply Nu, Us; left; exact C|]. intros k Hk. destruct (Be k Hk) as [C|C]; [|right; right; exact C].
        apply Us in C as [C| ->]; [left; exact C|right; left; reflexivity].
    + intros k. rewrite Us2, Us. cbn [In]. split; [intros [[C|C]|C]|intros [C|[C|C]]]; auto.
Qed.
Print Assumptions C96_run.
(** The numbers are determined: two runs of the same length receive the same. *)
Theorem C96_same : forall rs ids1 ids2, FirstUnused rs ids1 -> FirstUnused rs ids2 -> List.length ids1 = List.length ids2 -> ids1 = ids2.
Proof.
  assert (G : forall a b, StronglySorted N.lt a -> StronglySorted N.lt b -> List.length a = List.length b ->
    (forall x y, In x a -> In y b -> (y < x)%N -> In y a) -> (forall x y, In x a -> In y b -> (x < y)%N -> In x b) -> a = b).
  { induction a as [|x a IH]; intros [|y b] Sa Sb L H1 H2; try discriminate; [reflexivity|]. inversion Sa as [|? ? Sa' Fa]; inversion Sb as [|? ? Sb' Fb]; subst.
    rewrite Forall_forall in Fa, Fb. assert (E : x = y).
    { destruct (N.lt_trichotomy x y) as [H|[H|H]]; [|exact H|]; exfalso.
      - destruct (H2 x y (or_introl eq_refl) (or_introl eq_refl) H) as [E|E]; [lia|]. specialize (Fb x E). lia.
      - destruct (H1 x y (or_introl eq_refl) (or_introl eq_refl) H) as [E|E]; [lia|]. specialize (Fa y E). lia. }
    subst y. f_equal. apply IH; [exact Sa'|exact Sb'|cbn in L; lia| |].
    - intros u v Hu Hv Hl. destruct (H1 u v (or_intror Hu) (or_intror Hv) Hl) as [E|E]; [|exact E]. specialize (Fb v Hv). lia.
    - intros u v Hu Hv Hl. destruct (H2 u v (or_intror Hu) (or_intror Hv) Hl) as [E|E]; [|exact E]. specialize (Fa u Hu). lia. }
  intros rs ids1 ids2 (S1 & F1) (S2 & F2) L. apply G; [exact S1|exact S2|exact L| |].
  - intros x y Hx Hy Hl. destruct (F2 y Hy) as (P & Nu & _). destruct (F1 x Hx) as (_ & _ & B). destruct (B y (conj P Hl)); [contradiction|assumption].
  - intros x y Hx Hy Hl. destruct (F1 x Hx) as (P & Nu & _). destruct (F2 y Hy) as (_ & _ & B). destruct (B x (conj P Hl)); [contradiction|assumption].
Qed.
Print Assumptions C96_same.
Lemma run_step rs id rs1 ids rs2 : id = unused_id rs -> AddedOne rs id rs1 -> Run unused_id rs1 ids rs2 -> Run unused_id rs (id :: ids) rs2.
Proof. intros ->. apply RunStep. Qed.
(** Without distinct identifiers the same identifier is given again and again. *)
Example C96_repeats : exists rs rs', Run unused_id rs [2%N; 2%N; 2%N] rs'.
Proof.
  exists (mkRes [ex_asset 1] [ex_obj 1; ex_obj 2] []), (mkRes [ex_asset 1] [ex_obj 1; ex_obj 2; ex_obj 2; ex_obj 2; ex_obj 2] []).
  apply (run_step _ _ (mkRes [ex_asset 1] ([ex_obj 1; ex_obj 2] ++ ex_obj 2 :: []) [])); [reflexivity| |].
  { exact (AoObject [ex_asset 1] [ex_obj 1; ex_obj 2] [] [] (ex_obj 2)). }
  apply (run_step _ _ (mkRes [ex_asset 1] ([ex_obj 1; ex_obj 2; ex_obj 2] ++ ex_obj 2 :: []) [])); [reflexivity| |].
  { exact (AoObject [ex_asset 1] [ex_obj 1; ex_obj 2; ex_obj 2] [] [] (ex_obj 2)). }
  apply (run_step _ _ (mkRes [ex_asset 1] ([ex_obj 1; ex_obj 2; ex_obj 2; ex_obj 2] ++ ex_obj 2 :: []) [])); [reflexivity| |].
  { exact (AoObject [ex_asset 1] [ex_obj 1; ex_obj 2; ex_obj 2; ex_obj 2] [] [] (ex_obj 2)). }
  constructor.
Qed.

Example C96_nonvacuous : DistinctIds ex_rs /\ exists rs', Run unused_id ex_rs [3; 4; 6]%N rs'.
Proof.
  split.
  - intros k. unfold id_count, ex_rs. cbn [rs_assets rs_objects filter ex_asset asset_id bs_id ex_obj ob_id].
    destruct (N.eqb_spec 5 k), (N.eqb_spec 1 k), (N.eqb_spec 2 k); cbn [List.length]; lia.
  - exists (mkRes [ex_asset 5; ex_asset 1; ex_asset 4] [ex_obj 3; ex_obj 2; ex_obj 6] []).
    apply (run_step ex_rs _ (mkRes [ex_asset 5; ex_asset 1] ([] ++ ex_obj 3 :: [ex_obj 2]) [])); [reflexivity|exact (AoObject [ex_asset 5; ex_asset 1] [] [ex_obj 2] [] (ex_obj 3))|].
    apply (run_step _ _ (mkRes ([ex_asset 5; ex_asset 1] ++ ex_asset 4 :: []) [ex_obj 3; ex_obj 2] [])); [reflexivity|exact (AoAsset [ex_asset 5; ex_asset 1] [] [ex_obj 3; ex_obj 2] [] (ex_asset 4))|].
    apply (run_step _ _ (mkRes [ex_asset 5; ex_asset 1; ex_asset 4] ([ex_obj 3; ex_obj 2] ++ ex_obj 6 :: []) [])); [reflexivity|exact (AoObject [ex_asset 5; ex_asset 1; ex_asset 4] [ex_obj 3; ex_obj 2] [] [] (ex_obj 6))|].
    constructor.
Qed.
