(** * Proofs about surfaces *)
From Coq Require Import Permutation Lia.
From Verif Require Import GoBase GoFloat Types S_Coherency S_Surface.
From Verif Require Import Types.
Local Open Scope list_scope.

Definition edges3 (x : N * N * N) : list (N * N) := let '(a, b, c) := x in [(a, b); (b, c); (c, a)].
Lemma edges_corners me : edges_of me = flat_map edges3 (map corners (me_tris me)).
Proof. unfold edges_of. induction (me_tris me) as [|t r IH]; [reflexivity|]. cbn [map concat flat_map]. rewrite IH. reflexivity. Qed.
Lemma turned_edges x y : Turned x y -> Permutation (edges3 x) (edges3 y).
Proof.
  intros [a b c|a b c|a b c]; cbn; [reflexivity| |].
  - apply (Permutation_cons_app [(b, c); (c, a)] []). reflexivity.
  - apply Permutation_sym. apply (Permutation_cons_app [(a, b); (b, c)] []). reflexivity.
Qed.
Definition sent_to (f : N -> N) (flip : bool) (e : N * N) : N * N := if flip then (f (snd e), f (fst e)) else (f (fst e), f (snd e)).
Lemma relabel_edges f flip t : Permutation (map (sent_to f flip) (edges3 (corners t))) (edges3 (relabel f flip t)).
Proof.
  unfold relabel, corners, edges3, sent_to. destruct flip; cbn [map fst snd]; [|reflexivity].
  set (a := f (t_v1 t)). set (b := f (t_v2 t)). set (c := f (t_v3 t)).
  apply (Permutation_cons_app [(a, c); (c, b)] []). apply perm_swap.
Qed.
Lemma relisted_edges f flip me me' : Relisted f flip me me' -> Permutation (map (sent_to f flip) (edges_of me)) (edges_of me').
Proof.
  intros (_ & ts & P & F). rewrite !edges_corners. transitivity (flat_map edges3 ts); [|apply Permutation_flat_map, P].
  clear P. induction F as [|t x l ts H _ IH]; [constructor|]. cbn [map flat_map]. rewrite map_app. apply Permutation_app; [|exact IH].
  etransitivity; [apply relabel_edges|apply turned_edges, H].
Qed.
Lemma sent_inj f flip : Injective f -> forall x y, sent_to f flip x = sent_to f flip y -> x = y.
Proof. intros I [a b] [c d]. unfold sent_to. destruct flip; cbn; intros E; injection E as E1 E2; apply I in E1, E2; congruence. Qed.
Lemma count_map {g : N * N -> N * N} (I : forall x y, g x = g y -> x = y) l e : count_occ edge_dec (map g l) (g e) = count_occ edge_dec l e.
Proof.
  induction l as [|x l IH]; [reflexivity|]. cbn. destruct (edge_dec (g x) (g e)) as [E|E], (edge_dec x e) as [E'|E']; rewrite IH; try reflexivity.
  - apply I in E. contradiction.
  - congruence.
Qed.
Lemma relisted_oriented f flip me me' : Injective f -> Relisted f flip me me' -> (Oriented me <-> Oriented me').
Proof.
  intros I R. apply relisted_edges in R. pose proof (sent_inj f flip I) as SI.
  assert (Oc : forall e, count_occ edge_dec (edges_of me') (sent_to f flip e) = count_occ edge_dec (edges_of me) e).
  { intros e. rewrite <- (count_map SI (edges_of me) e). symmetry. apply (proj1 (Permutation_count_occ edge_dec _ _) R). }
  assert (K : forall a b, exists x y, sent_to f flip (a, b) = (x, y) /\ sent_to f flip (b, a) = (y, x) /\ (a <> b <-> x <> y)).
  { intros a b. unfold sent_to. destruct flip; cbn; eexists _, _; (split; [reflexivity|split; [reflexivity|]]); split; intros N E; apply N; try congruence; symmetry; auto. }
  unfold Oriented, occurrences. split; intros H.
  - intros x y Hi. apply (Permutation_in _ (Permutation_sym R)) in Hi. apply in_map_iff in Hi as ([a b] & E & Hi).
    destruct (K a b) as (x' & y' & E1 & E2 & N). rewrite E1 in E. injection E as -> ->. destruct (H a b Hi) as (A & B & C).
    rewrite <- E1, <- E2, !Oc. tauto.
  - intros a b Hi. destruct (K a b) as (x & y & E1 & E2 & N). assert (Hi' : In (x, y) (edges_of me')) by (rewrite <- E1; apply (Permutation_in _ R), in_map, Hi).
    destruct (H x y Hi') as (A & B & C). rewrite <- E1, Oc in B. rewrite <- E2, Oc in C. tauto.
Qed.
Lemma relisted_length f flip me me' : Relisted f flip me me' -> List.length (me_verts me') = List.length (me_verts me) /\ List.length (me_tris me') = List.length (me_tris me).
Proof.
  intros (L & ts & P & F). split; [exact L|]. apply Permutation_length in P. rewrite map_length in P. assert (List.length (me_tris me) = List.length ts) by (clear P; induction F; cbn; congruence). lia.
Qed.
Lemma relisted_incoherent f flip me me' e : Injective f -> Relisted f flip me me' -> (Incoherent me e <-> Incoherent me' e).
Proof.
  intros I R. destruct (relisted_length _ _ _ _ R) as [L1 L2]. pose proof (relisted_oriented _ _ _ _ I R) as O.
  split; intros [H|H1 H2|H1 H2 H3]; [apply IncVertices|apply IncTriangles|apply IncOriented|apply IncVertices|apply IncTriangles|apply IncOriented]; try lia; tauto.
Qed.
Lemma relisted_coherent f flip me me' : Injective f -> Relisted f flip me me' -> (Coherent me <-> Coherent me').
Proof.
  intros I R. destruct (relisted_length _ _ _ _ R) as [L1 L2]. pose proof (relisted_oriented _ _ _ _ I R) as O. unfold Coherent. rewrite L1, L2. tauto.
Qed.

(** ** Counting *)
(** A list in which every edge has its reverse, different from it, both once, has an even length. *)
Definition rev_edge (e : N * N) : N * N := (snd e, fst e).
Lemma paired_even : forall n l, List.length l <= n -> NoDup l -> (forall e, In e l -> fst e <> snd e /\ In (rev_edge e) l) -> Nat.Even (List.length l).
Proof.
  induction n as [|n IH]; intros l L D P.
  - destruct l; [exists 0; reflexivity|cbn in L; lia].
  - destruct l as [|e l]; [exists 0; reflexivity|]. destruct (P e (or_introl eq_refl)) as (N & R).
    assert (NE : rev_edge e <> e) by (destruct e as [a b]; unfold rev_edge; cbn in N |- *; congruence). destruct R as [R|R]; [symmetry in R; contradiction|].
    apply in_split in R as (u & v & ->). assert (E : List.length (e :: u ++ rev_edge e :: v) = S (S (List.length (u ++ v)))) by (cbn; rewrite !app_length; cbn; lia).
    rewrite E. apply Nat.Even_succ_succ. inversion_clear D as [|? ? D1 D2]. apply NoDup_remove in D2 as (D2 & D3). apply IH.
    + cbn in L. rewrite app_length in *. cbn in L. lia.
    + exact D2.
    + intros x Hx. assert (Hx' : In x (e :: u ++ rev_edge e :: v)) by (right; apply in_app_iff in Hx as [Hx|Hx]; apply in_app_iff; [left|right; right]; exact Hx).
      destruct (P x Hx') as (N' & R'). split; [exact N'|]. destruct R' as [R'|R'].
      * exfalso. apply D3. assert (x = rev_edge e) as <-; [|exact Hx]. rewrite R'. destruct x; reflexivity.
      * apply in_app_iff in R' as [R'|[R'|R']]; apply in_app_iff; auto. exfalso. apply D1.
        assert (x = e) as <- by (destruct x, e; unfold rev_edge in R'; cbn in R'; congruence). apply in_app_iff. apply in_app_iff in Hx as [Hx|Hx]; auto. right. right. exact Hx.
Qed.
Lemma edges_length me : List.length (edges_of me) = 3 * List.length (me_tris me).
Proof. rewrite edges_corners. induction (me_tris me) as [|t r IH]; [reflexivity|]. cbn [map flat_map]. rewrite app_length, IH. cbn. lia. Qed.
Lemma oriented_even me : Oriented me -> Nat.Even (List.length (me_tris me)).
Proof.
  intros O. assert (E : Nat.Even (List.length (edges_of me))).
  { apply (paired_even _ _ (le_n _)).
    - apply (NoDup_count_occ edge_dec). intros [a b]. destruct (in_dec edge_dec (a, b) (edges_of me)) as [I|I].
      + destruct (O a b I) as (_ & B & _). unfold occurrences in B. lia.
      + apply (count_occ_not_In edge_dec) in I. lia.
    - intros [a b] I. destruct (O a b I) as (N & _ & C). split; [exact N|]. apply (count_occ_In edge_dec). unfold occurrences in C. unfold rev_edge. cbn [fst snd]. lia. }
  rewrite edges_length in E. destruct E as (k & E). exists (k - List.length (me_tris me)). lia.
Qed.
Lemma uses_edge me a b : In (a, b) (edges_of me) -> Uses me a /\ Uses me b.
Proof.
  rewrite edges_corners. intros H. apply in_flat_map in H as (x & Hx & H). apply in_map_iff in Hx as (t & <- & Ht). unfold Uses.
  destruct H as [H|[H|[H|[]]]]; injection H as <- <-; split; exists t; auto.
Qed.
Lemma edges_union a b me : me_tris me = me_tris a ++ me_tris b -> edges_of me = edges_of a ++ edges_of b.
Proof. intros E. rewrite !edges_corners, E, map_app, flat_map_app. reflexivity. Qed.
Lemma disjoint_oriented a b me : Disjoint a b me -> (Oriented me <-> Oriented a /\ Oriented b).
Proof.
  intros (E & D). apply edges_union in E. unfold Oriented, occurrences. rewrite E.
  assert (Oc : forall x y, count_occ edge_dec (edges_of a ++ edges_of b) (x, y) = count_occ edge_dec (edges_of a) (x, y) + count_occ edge_dec (edges_of b) (x, y)) by (intros; apply count_occ_app).
  assert (Za : forall x y, In (x, y) (edges_of a) -> count_occ edge_dec (edges_of b) (x, y) = 0 /\ count_occ edge_dec (edges_of b) (y, x) = 0).
  { intros x y H. apply uses_edge in H as [U V]. split; apply (count_occ_not_In edge_dec); intros K; apply uses_edge in K as [U' V']; [exact (D x U U')|exact (D x U V')]. }
  assert (Zb : forall x y, In (x, y) (edges_of b) -> count_occ edge_dec (edges_of a) (x, y) = 0 /\ count_occ edge_dec (edges_of a) (y, x) = 0).
  { intros x y H. apply uses_edge in H as [U V]. split; apply (count_occ_not_In edge_dec); intros K; apply uses_edge in K as [U' V']; [exact (D x U' U)|exact (D x V' U)]. }
  split.
  - intros H. split; intros x y Hi.
    + destruct (H x y) as (A & B & C); [apply in_or_app; auto|]. destruct (Za x y Hi) as [Z1 Z2]. rewrite Oc in B, C. split; [exact A|lia].
    + destruct (H x y) as (A & B & C); [apply in_or_app; auto|]. destruct (Zb x y Hi) as [Z1 Z2]. rewrite Oc in B, C. split; [exact A|lia].
  - intros (Ha & Hb) x y Hi. rewrite !Oc. apply in_app_or in Hi as [Hi|Hi].
    + destruct (Ha x y Hi) as (A & B & C). destruct (Za x y Hi) as [Z1 Z2]. split; [exact A|lia].
    + destruct (Hb x y Hi) as (A & B & C). destruct (Zb x y Hi) as [Z1 Z2]. split; [exact A|lia].
Qed.
