(** * Proofs about closed surfaces *)
From Coq Require Import ZArith Lia Permutation.
From Verif Require Import GoBase GoFloat Types S_Coherency S_Closed.
From Verif Require Import Types.
Local Open Scope list_scope.

Lemma sum_app l l' : sum (l ++ l') = (sum l + sum l')%Z.
Proof. induction l as [|x l IH]; cbn [app sum fold_right]; [reflexivity|]. fold (sum (l ++ l')). rewrite IH. unfold sum. lia. Qed.
Lemma sum_perm l l' : Permutation l l' -> sum l = sum l'.
Proof. induction 1; cbn [sum fold_right] in *; unfold sum in *; lia. Qed.
Lemma sum_ext {A} (f g : A -> Z) l : (forall x, In x l -> f x = g x) -> sum (map f l) = sum (map g l).
Proof. intros H. rewrite (map_ext_in _ _ _ H). reflexivity. Qed.
Lemma sum_sub {A} (f g : A -> Z) l : sum (map (fun x => f x - g x)%Z l) = (sum (map f l) - sum (map g l))%Z.
Proof. induction l as [|x l IH]; [reflexivity|]. cbn [map sum fold_right] in *. unfold sum in *. lia. Qed.
Lemma sum_neg {A} (f : A -> Z) l : sum (map (fun x => - f x)%Z l) = (- sum (map f l))%Z.
Proof. induction l as [|x l IH]; [reflexivity|]. cbn [map sum fold_right] in *. unfold sum in *. lia. Qed.

Definition swap (e : N * N) : N * N := (snd e, fst e).
Lemma swap_swap e : swap (swap e) = e.
Proof. destruct e; reflexivity. Qed.
Lemma filter_perm {A} (f : A -> bool) l l' : Permutation l l' -> Permutation (filter f l) (filter f l').
Proof.
  induction 1 as [|x l l' P IH|x y l|l l' l'' P IH P' IH']; cbn [filter].
  - constructor.
  - destruct (f x); [constructor; exact IH|exact IH].
  - destruct (f x), (f y); try apply Permutation_refl. constructor.
  - eapply Permutation_trans; eassumption.
Qed.
Definition up (e : N * N) : bool := (fst e <? snd e)%N.
Definition down (e : N * N) : bool := (snd e <? fst e)%N.
Section Oriented.
  Variable me : Mesh.
  Hypothesis O : Oriented me.
  Lemma edges_nodup : NoDup (edges_of me).
  Proof.
    apply (NoDup_count_occ edge_dec). intros [a b]. destruct (in_dec edge_dec (a, b) (edges_of me)) as [I|I].
    - destruct (O a b I) as (_ & E & _). unfold occurrences in E. lia.
    - apply (count_occ_not_In edge_dec) in I. lia.
  Qed.
  Lemma edges_swap e : In e (edges_of me) -> In (swap e) (edges_of me).
  Proof.
    destruct e as [a b]. intros I. destruct (O a b I) as (_ & _ & E). apply (count_occ_In edge_dec). unfold occurrences in E. unfold swap. cbn [fst snd]. rewrite E. lia.
  Qed.
  Lemma edges_perm : Permutation (map swap (edges_of me)) (edges_of me).
  Proof.
    apply NoDup_Permutation_bis.
    - apply FinFun.Injective_map_NoDup; [|exact edges_nodup]. intros x y E. rewrite <- (swap_swap x), E, swap_swap. reflexivity.
    - rewrite map_length. reflexivity.
    - intros e I. apply in_map_iff in I as (e' & <- & I). apply edges_swap, I.
  Qed.
  Lemma edges_sum f : Antisymmetric f -> sum (map (fun e => f (fst e) (snd e)) (edges_of me)) = 0%Z.
  Proof.
    intros A. pose proof (sum_perm _ _ (Permutation_map (fun e => f (fst e) (snd e)) edges_perm)) as E. rewrite map_map in E.
    rewrite (sum_ext _ (fun e => - f (fst e) (snd e))%Z) in E; [|intros [a b] _; apply A]. rewrite sum_neg in E. lia.
  Qed.
  Lemma tris_sum f : sum (map (fun e => f (fst e) (snd e)) (edges_of me)) =
    sum (map (fun t => f (t_v1 t) (t_v2 t) + f (t_v2 t) (t_v3 t) + f (t_v3 t) (t_v1 t))%Z (me_tris me)).
  Proof.
    unfold edges_of. induction (me_tris me) as [|t l IH]; [reflexivity|]. cbn [map concat]. rewrite map_app, sum_app, IH.
    cbn [map sum fold_right fst snd]. unfold sum. lia.
  Qed.
  Lemma no_boundary : NoBoundary (me_tris me).
  Proof. intros f A. rewrite <- tris_sum. apply edges_sum, A. Qed.
  Lemma edges_length : List.length (edges_of me) = 3 * List.length (me_tris me).
  Proof. unfold edges_of. induction (me_tris me) as [|t l IH]; [reflexivity|]. cbn [map concat List.length]. rewrite app_length, IH. cbn [List.length]. lia. Qed.
  Lemma even_triangles : Nat.Even (List.length (me_tris me)).
  Proof.
    assert (S : forall l, (forall a b, In (a, b) l -> a <> b) -> List.length l = List.length (filter up l) + List.length (filter down l)).
    { induction l as [|[a b] l IH]; intros H; [reflexivity|]. cbn [filter List.length].
      change (up (a, b)) with (a <? b)%N. change (down (a, b)) with (b <? a)%N.
      rewrite IH by (intros x y I; apply H; right; exact I). pose proof (H a b (or_introl eq_refl)).
      destruct (N.ltb_spec a b), (N.ltb_spec b a); cbn [List.length]; lia. }
    assert (E : List.length (filter up (edges_of me)) = List.length (filter down (edges_of me))).
    { assert (M : forall l, List.length (filter up (map swap l)) = List.length (filter down l)).
      { induction l as [|[a b] l IH]; [reflexivity|]. cbn [map filter]. change (up (swap (a, b))) with (b <? a)%N. change (down (a, b)) with (b <? a)%N. destruct (b <? a)%N; cbn [List.length]; lia. }
      rewrite <- M. apply Permutation_length.
      apply filter_perm, Permutation_sym, edges_perm. }
    pose proof (S (edges_of me) (fun a b I => proj1 (O a b I))) as L. rewrite edges_length, E in L.
    destruct (Nat.Even_or_Odd (List.length (me_tris me))) as [H|(k & H)]; [exact H|]. exfalso. lia.
  Qed.
End Oriented.

Lemma volume_origin at_ q ts : NoBoundary ts -> volume at_ q ts = volume at_ (0, 0, 0)%Z ts.
Proof.
  intros H. unfold volume. set (g := fun a b => dot q (cross (at_ a) (at_ b))).
  assert (A : Antisymmetric g).
  { intros a b. unfold g. destruct q as [[q1 q2] q3], (at_ a) as [[a1 a2] a3], (at_ b) as [[b1 b2] b3]. cbn [dot cross]. ring. }
  specialize (H g A).
  rewrite (sum_ext _ (fun t => dot (minus (at_ (t_v1 t)) (0, 0, 0)%Z) (cross (minus (at_ (t_v2 t)) (0, 0, 0)%Z) (minus (at_ (t_v3 t)) (0, 0, 0)%Z))
    - (g (t_v1 t) (t_v2 t) + g (t_v2 t) (t_v3 t) + g (t_v3 t) (t_v1 t)))%Z).
  - rewrite sum_sub, H. lia.
  - intros t _. unfold g. destruct q as [[q1 q2] q3], (at_ (t_v1 t)) as [[a1 a2] a3], (at_ (t_v2 t)) as [[b1 b2] b3], (at_ (t_v3 t)) as [[c1 c2] c3].
    cbn [dot cross minus]. ring.
Qed.
Lemma facing_sum at_ d ts : NoBoundary ts -> sum (map (facing at_ d) ts) = 0%Z.
Proof.
  intros H. set (g := fun a b => dot d (cross (at_ a) (at_ b))).
  assert (A : Antisymmetric g).
  { intros a b. unfold g. destruct d as [[q1 q2] q3], (at_ a) as [[a1 a2] a3], (at_ b) as [[b1 b2] b3]. cbn [dot cross]. ring. }
  rewrite <- (H g A). apply sum_ext. intros t _. unfold facing, g.
  destruct d as [[q1 q2] q3], (at_ (t_v1 t)) as [[a1 a2] a3], (at_ (t_v2 t)) as [[b1 b2] b3], (at_ (t_v3 t)) as [[c1 c2] c3].
  cbn [dot cross minus]. ring.
Qed.
Lemma oriented_closed me : Oriented me -> Closed (me_tris me).
Proof.
  intros O. pose proof (no_boundary me O) as N. split; [exact N|]. split; [intros at_ q q'; rewrite (volume_origin at_ q), (volume_origin at_ q') by exact N; reflexivity|].
  split; [intros at_ d; apply facing_sum, N|apply even_triangles, O].
Qed.
