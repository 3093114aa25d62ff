(** * Go base library fragments used by go3mf, over byte strings.

    A Go [string] or [[]byte] is a Coq [string], one [ascii] per byte.
    This file models only the parts of Go's standard library that go3mf
    calls; it cites no line of /repo because it models library code.  Each
    definition says which Go function it stands for. *)
From Coq Require Export String Ascii List Arith NArith ZArith Lia Bool.
From Coq Require Import Permutation.
Export ListNotations.
Open Scope string_scope.
Open Scope list_scope.

Arguments N.add : simpl never.
Arguments N.mul : simpl never.
Arguments N.sub : simpl never.
Arguments Z.add : simpl never.
Arguments Z.mul : simpl never.
Arguments Z.sub : simpl never.

Arguments N.eqb !n !m : simpl nomatch.
Arguments N.leb !x !y : simpl nomatch.
Arguments N.ltb !x !y : simpl nomatch.
Arguments Z.eqb !x !y : simpl nomatch.
Arguments Z.leb !x !y : simpl nomatch.
Arguments Z.ltb !x !y : simpl nomatch.

Notation "a +++ b" := (String.append a b) (at level 60, right associativity).

(** Decidable equality of bytes and strings, in boolean form. *)
Definition seq (a b : string) : bool := String.eqb a b.
Definition ceq (a b : ascii) : bool := Ascii.eqb a b.

Arguments seq : simpl never.
Arguments ceq : simpl never.

Lemma seq_spec a b : reflect (a = b) (seq a b).
Proof. apply String.eqb_spec. Qed.
Lemma ceq_spec a b : reflect (a = b) (ceq a b).
Proof. apply Ascii.eqb_spec. Qed.
Lemma seq_refl a : seq a a = true.
Proof. apply String.eqb_refl. Qed.
Lemma ceq_refl a : ceq a a = true.
Proof. apply Ascii.eqb_refl. Qed.
Lemma seq_true a b : seq a b = true <-> a = b.
Proof. apply String.eqb_eq. Qed.
Lemma seq_false a b : seq a b = false <-> a <> b.
Proof. apply String.eqb_neq. Qed.
Lemma ceq_true a b : ceq a b = true <-> a = b.
Proof. apply Ascii.eqb_eq. Qed.
Lemma ceq_false a b : ceq a b = false <-> a <> b.
Proof. apply Ascii.eqb_neq. Qed.

(** The value of a byte. *)
Definition bN (c : ascii) : N := N_of_ascii c.
Arguments bN : simpl never.
Lemma bN_lt c : (bN c < 256)%N.
Proof. apply N_ascii_bounded. Qed.
Lemma bN_inj a b : bN a = bN b -> a = b.
Proof.
  unfold bN; intros H.
  rewrite <- (ascii_N_embedding a), <- (ascii_N_embedding b), H; reflexivity.
Qed.

Lemma sapp_nil_r s : s +++ "" = s.
Proof. induction s as [|c s IH]; cbn; [reflexivity|rewrite IH; reflexivity]. Qed.
Lemma sapp_assoc a b c : (a +++ b) +++ c = a +++ (b +++ c).
Proof. induction a as [|x a IH]; cbn; [reflexivity|rewrite IH; reflexivity]. Qed.
Lemma slength_app a b : String.length (a +++ b) = String.length a + String.length b.
Proof. induction a as [|x a IH]; cbn; [reflexivity|rewrite IH; reflexivity]. Qed.
Lemma sapp_inj_l a b c : a +++ b = a +++ c -> b = c.
Proof. induction a as [|x a IH]; cbn; intros H; [exact H|]. injection H; auto. Qed.
Lemma sapp_inj_len a a' b b' :
  String.length a = String.length a' -> a +++ b = a' +++ b' -> a = a' /\ b = b'.
Proof.
  revert a'; induction a as [|x a IH]; intros [|y a']; cbn; intros HL H; try discriminate.
  - split; auto.
  - injection H as -> H. destruct (IH a') as [-> ->]; auto.
Qed.

(** Bytes as a list. *)
Fixpoint chars (s : string) : list ascii :=
  match s with EmptyString => [] | String c r => c :: chars r end.
Fixpoint of_chars (l : list ascii) : string :=
  match l with [] => EmptyString | c :: r => String c (of_chars r) end.
Lemma of_chars_chars s : of_chars (chars s) = s.
Proof. induction s as [|c s IH]; cbn; congruence. Qed.
Lemma chars_of_chars l : chars (of_chars l) = l.
Proof. induction l as [|c s IH]; cbn; congruence. Qed.
Lemma chars_app a b : chars (a +++ b) = chars a ++ chars b.
Proof. induction a as [|x a IH]; cbn; congruence. Qed.
Lemma chars_length s : List.length (chars s) = String.length s.
Proof. induction s as [|c s IH]; cbn; congruence. Qed.
Lemma chars_inj a b : chars a = chars b -> a = b.
Proof. intros H; rewrite <- (of_chars_chars a), <- (of_chars_chars b), H; reflexivity. Qed.

Fixpoint sall (p : ascii -> bool) (s : string) : bool :=
  match s with EmptyString => true | String c r => p c && sall p r end.
Lemma sall_app p a b : sall p (a +++ b) = sall p a && sall p b.
Proof. induction a as [|c a IH]; cbn; [reflexivity|]. rewrite IH, andb_assoc; reflexivity. Qed.
Lemma sall_forall p s : sall p s = true <-> (forall c, In c (chars s) -> p c = true).
Proof.
  induction s as [|c s IH]; cbn.
  - split; [intros _ c []|reflexivity].
  - rewrite andb_true_iff, IH; split.
    + intros [H1 H2] x [<-|Hx]; auto.
    + intros H; split; auto.
Qed.

(** [s[:n]] and [s[n:]]. *)
Fixpoint stake (n : nat) (s : string) : string :=
  match n, s with
  | S n', String c r => String c (stake n' r)
  | _, _ => EmptyString
  end.
Fixpoint sdrop (n : nat) (s : string) : string :=
  match n, s with
  | S n', String _ r => sdrop n' r
  | S _, EmptyString => EmptyString
  | O, _ => s
  end.
Lemma stake_drop n s : stake n s +++ sdrop n s = s.
Proof. revert s; induction n as [|n IH]; intros [|c s]; cbn; auto. rewrite IH; reflexivity. Qed.
Lemma stake_length n s : n <= String.length s -> String.length (stake n s) = n.
Proof. revert s; induction n as [|n IH]; intros [|c s]; cbn; intros H; try lia. rewrite IH; lia. Qed.
Lemma stake_app_l a b : stake (String.length a) (a +++ b) = a.
Proof. induction a as [|c a IH]; cbn; [destruct b; reflexivity|]. rewrite IH; reflexivity. Qed.
Lemma sdrop_app_l a b : sdrop (String.length a) (a +++ b) = b.
Proof. induction a as [|c a IH]; cbn; [destruct b; reflexivity|]. exact IH. Qed.
Lemma stake_all s : stake (String.length s) s = s.
Proof. induction s as [|c s IH]; cbn; [reflexivity|]. rewrite IH; reflexivity. Qed.
Lemma sdrop_0 s : sdrop 0 s = s.
Proof. destruct s; reflexivity. Qed.
Lemma stake_0 s : stake 0 s = "".
Proof. destruct s; reflexivity. Qed.
Lemma sdrop_length n s : String.length (sdrop n s) = String.length s - n.
Proof. revert s; induction n as [|n IH]; intros [|c s]; cbn; auto; lia. Qed.
Lemma stake_length_min n s : String.length (stake n s) = Nat.min n (String.length s).
Proof. revert s; induction n as [|n IH]; intros [|c s]; cbn; auto. Qed.

(** [s[i]], defined when [i < len(s)]. *)
Fixpoint sget (n : nat) (s : string) : option ascii :=
  match s, n with
  | EmptyString, _ => None
  | String c _, O => Some c
  | String _ r, S n' => sget n' r
  end.

(** strings.IndexByte, as the split at the first occurrence. *)
Fixpoint split_at (b : ascii) (s : string) : option (string * string) :=
  match s with
  | EmptyString => None
  | String c r =>
      if ceq c b then Some (EmptyString, r)
      else match split_at b r with
           | Some (l, t) => Some (String c l, t)
           | None => None
           end
  end.
Definition sin (b : ascii) (s : string) : bool := negb (sall (fun c => negb (ceq c b)) s).
Lemma split_at_none b s : split_at b s = None <-> ~ In b (chars s).
Proof.
  induction s as [|c s IH]; cbn.
  - split; auto.
  - destruct (ceq_spec c b) as [->|Hn].
    + split; [discriminate|]. intros H; exfalso; apply H; auto.
    + destruct (split_at b s) as [[l t]|].
      * split; [discriminate|]. intros H. exfalso. apply H. right.
        assert (X : ~ ~ In b (chars s)) by (intros Q; apply IH in Q; discriminate).
        destruct (in_dec ascii_dec b (chars s)); tauto.
      * split; auto. intros _ [E|E]; [congruence|]. apply IH in E; auto.
Qed.
Lemma split_at_some b s l t :
  split_at b s = Some (l, t) <-> s = l +++ String b t /\ ~ In b (chars l).
Proof.
  revert l t; induction s as [|c s IH]; intros l t; cbn.
  - split; [discriminate|]. intros [H _]; destruct l; discriminate.
  - destruct (ceq_spec c b) as [->|Hn].
    + split.
      * intros H; injection H as <- <-; cbn; auto.
      * intros [H H']. destruct l as [|x l]; cbn in *; [injection H as ->; reflexivity|].
        injection H as <- ->. exfalso; apply H'; auto.
    + destruct (split_at b s) as [[l' t']|] eqn:E.
      * destruct (IH l' t') as [IH1 _]. destruct (IH1 eq_refl) as [-> Hl].
        split.
        -- intros H; injection H as <- <-; cbn. split; [reflexivity|]. intros [Hc|Hc]; auto.
        -- intros [H H']. destruct l as [|x l]; cbn in *; [congruence|]. injection H as <- H.
           destruct (IH l t) as [_ IH2].
           assert (Q : Some (l', t') = Some (l, t)) by (apply IH2; split; [exact H|]; intros Hx; apply H'; auto).
           injection Q as -> ->. reflexivity.
      * split; [discriminate|]. intros [H H']. destruct l as [|x l]; cbn in *; [congruence|].
        injection H as <- H. destruct (IH l t) as [_ IH2].
        assert (Q : None = Some (l, t)) by (apply IH2; split; [exact H|]; intros Hx; apply H'; auto).
        discriminate.
Qed.

(** strings.HasPrefix / strings.Contains. *)
Definition has_prefix (s p : string) : bool := String.prefix p s.
Fixpoint contains (s p : string) : bool :=
  String.prefix p s || match s with EmptyString => false | String _ r => contains r p end.
Lemma prefix_spec p s : String.prefix p s = true <-> exists t, s = p +++ t.
Proof.
  revert s; induction p as [|c p IH]; intros s; cbn.
  - split; [intros _; exists s; reflexivity|intros _; destruct s; reflexivity].
  - destruct s as [|d s]; cbn.
    + split; [discriminate|intros [t H]; discriminate].
    + destruct (ascii_dec c d) as [->|Hn].
      * rewrite IH; split; intros [t H]; exists t; [rewrite H; reflexivity|injection H; auto].
      * split; [discriminate|intros [t H]; injection H; congruence].
Qed.
Lemma contains_eq s p : contains s p =
  String.prefix p s || match s with EmptyString => false | String _ r => contains r p end.
Proof. destruct s; reflexivity. Qed.
Lemma contains_spec s p : contains s p = true <-> exists a b, s = a +++ p +++ b.
Proof.
  induction s as [|c s IH]; rewrite contains_eq, orb_true_iff, prefix_spec.
  - split.
    + intros [[t H]|H]; [|discriminate]. exists "", t; exact H.
    + intros (a & b & H). destruct a; [left; exists b; exact H|discriminate].
  - rewrite IH; split.
    + intros [[t H]|(a & b & ->)]; [exists "", t; exact H|exists (String c a), b; reflexivity].
    + intros (a & b & H). destruct a as [|x a]; [left; exists b; exact H|].
      right; injection H as -> ->; exists a, b; reflexivity.
Qed.

(** ASCII lower-casing: strings.ToLower and strings.EqualFold on the ASCII range.
    The Unicode folding of non-ASCII runes is not modelled: a byte of 0x80 or
    more is compared as itself. *)
Definition is_upper (c : ascii) : bool := ((65 <=? bN c) && (bN c <=? 90))%N.
Definition lower (c : ascii) : ascii :=
  if is_upper c then ascii_of_N (bN c + 32) else c.
Fixpoint slower (s : string) : string :=
  match s with EmptyString => EmptyString | String c r => String (lower c) (slower r) end.
Definition eq_fold (a b : string) : bool := seq (slower a) (slower b).
Lemma eq_fold_refl a : eq_fold a a = true.
Proof. apply seq_refl. Qed.
Lemma eq_fold_sym a b : eq_fold a b = eq_fold b a.
Proof. unfold eq_fold, seq. apply String.eqb_sym. Qed.
Lemma eq_fold_trans a b c : eq_fold a b = true -> eq_fold b c = true -> eq_fold a c = true.
Proof. unfold eq_fold; rewrite !seq_true; congruence. Qed.

(** Digits. *)
Definition is_digit (c : ascii) : bool := ((48 <=? bN c) && (bN c <=? 57))%N.
Definition digit_char (d : N) : ascii := ascii_of_N (48 + d).

Lemma bN_ascii_of_N n : (n < 256)%N -> bN (ascii_of_N n) = n.
Proof. intros; unfold bN; apply N_ascii_embedding; assumption. Qed.

Lemma digit_char_spec d : (d < 10)%N -> is_digit (digit_char d) = true /\ bN (digit_char d) = (48 + d)%N.
Proof.
  intros H. unfold is_digit, digit_char. rewrite bN_ascii_of_N by lia. split; [|reflexivity].
  rewrite andb_true_iff, !N.leb_le; lia.
Qed.

(** All bytes, for case analyses over a single byte. *)
Definition all_bytes : list ascii := map ascii_of_nat (List.seq 0 256).
Lemma all_bytes_in c : In c all_bytes.
Proof.
  unfold all_bytes. rewrite in_map_iff. exists (nat_of_ascii c). split.
  - apply ascii_nat_embedding.
  - apply in_seq. pose proof (nat_ascii_bounded c); lia.
Qed.
Lemma byte_sweep (P : ascii -> bool) : forallb P all_bytes = true -> forall c, P c = true.
Proof. intros H c. rewrite forallb_forall in H. apply H, all_bytes_in. Qed.

(** Maps: association lists, newest binding first.  Go maps have distinct keys. *)
Section AList.
  Context {K V : Type} (eqb : K -> K -> bool).
  Fixpoint aget (k : K) (m : list (K * V)) : option V :=
    match m with
    | [] => None
    | (k', v) :: r => if eqb k k' then Some v else aget k r
    end.
  Fixpoint adel (k : K) (m : list (K * V)) : list (K * V) :=
    match m with
    | [] => []
    | (k', v) :: r => if eqb k k' then adel k r else (k', v) :: adel k r
    end.
  Definition aset (k : K) (v : V) (m : list (K * V)) : list (K * V) := (k, v) :: adel k m.
  Hypothesis eqb_ok : forall a b, reflect (a = b) (eqb a b).
  Lemma aget_adel_same k m : aget k (adel k m) = None.
  Proof.
    induction m as [|[k' v] m IH]; cbn; [reflexivity|].
    destruct (eqb_ok k k') as [->|Hn]; [exact IH|]. cbn.
    destruct (eqb_ok k k'); [congruence|exact IH].
  Qed.
  Lemma aget_adel_other k j m : k <> j -> aget k (adel j m) = aget k m.
  Proof.
    intros Hn. induction m as [|[k' v] m IH]; cbn; [reflexivity|].
    destruct (eqb_ok j k') as [->|Hj].
    - rewrite IH. destruct (eqb_ok k k'); [congruence|reflexivity].
    - cbn. rewrite IH. reflexivity.
  Qed.
  Lemma aget_aset_same k v m : aget k (aset k v m) = Some v.
  Proof. unfold aset; cbn. destruct (eqb_ok k k); [reflexivity|congruence]. Qed.
  Lemma aget_aset_other k j v m : k <> j -> aget k (aset j v m) = aget k m.
  Proof.
    intros Hn. unfold aset; cbn. destruct (eqb_ok k j); [congruence|]. apply aget_adel_other; assumption.
  Qed.
End AList.

(** Sorting with a boolean total order: sort.Ints and sort.Strings.  Both return
    the sorted permutation, which is unique for these orders, so the choice of
    insertion sort is immaterial. *)
Section Sort.
  Context {A : Type} (leb : A -> A -> bool).
  Fixpoint insert (x : A) (l : list A) : list A :=
    match l with
    | [] => [x]
    | y :: r => if leb x y then x :: l else y :: insert x r
    end.
  Fixpoint isort (l : list A) : list A :=
    match l with [] => [] | x :: r => insert x (isort r) end.
  Inductive sorted : list A -> Prop :=
  | sorted_nil : sorted []
  | sorted_cons x l : (forall y, In y l -> leb x y = true) -> sorted l -> sorted (x :: l).
  Hypothesis leb_total : forall a b, leb a b = true \/ leb b a = true.
  Hypothesis leb_trans : forall a b c, leb a b = true -> leb b c = true -> leb a c = true.
  Lemma insert_perm x l : Permutation (x :: l) (insert x l).
  Proof.
    induction l as [|y l IH]; cbn; [apply Permutation_refl|].
    destruct (leb x y); [apply Permutation_refl|].
    eapply Permutation_trans; [apply perm_swap|]. constructor; exact IH.
  Qed.
  Lemma isort_perm l : Permutation l (isort l).
  Proof.
    induction l as [|x l IH]; cbn; [constructor|].
    eapply Permutation_trans; [constructor; exact IH|apply insert_perm].
  Qed.
  Lemma insert_sorted x l : sorted l -> sorted (insert x l).
  Proof.
    induction 1 as [|y l Hy Hs IH]; cbn.
    - constructor; [intros y []|constructor].
    - destruct (leb x y) eqn:E.
      + constructor; [|constructor; assumption].
        intros z [<-|Hz]; [exact E|]. eapply leb_trans; [exact E|auto].
      + constructor; [|exact IH].
        intros z Hz. apply (Permutation_in _ (Permutation_sym (insert_perm x l))) in Hz.
        destruct Hz as [<-|Hz]; [|auto]. destruct (leb_total x y); congruence.
  Qed.
  Lemma isort_sorted l : sorted (isort l).
  Proof. induction l as [|x l IH]; cbn; [constructor|apply insert_sorted; exact IH]. Qed.
  Hypothesis leb_antisym : forall a b, leb a b = true -> leb b a = true -> a = b.
  Lemma sorted_unique l l' : sorted l -> sorted l' -> Permutation l l' -> l = l'.
  Proof.
    intros H; revert l'; induction H as [|x l Hx Hs IH]; intros l' Hs' HP.
    - apply Permutation_nil in HP; auto.
    - destruct Hs' as [|y l' Hy Hs'].
      + apply Permutation_sym, Permutation_nil in HP; discriminate.
      + assert (x = y) as ->.
        { assert (In x (y :: l')) as [->|Hi] by (eapply Permutation_in; [exact HP|left; reflexivity]); auto.
          assert (In y (x :: l)) as [->|Hj] by
            (eapply Permutation_in; [apply Permutation_sym; exact HP|left; reflexivity]); auto. }
        apply Permutation_cons_inv in HP. f_equal; auto.
  Qed.
  Lemma isort_perm_eq l l' : Permutation l l' -> isort l = isort l'.
  Proof.
    intros HP. apply sorted_unique; try apply isort_sorted.
    eapply Permutation_trans; [apply Permutation_sym, isort_perm|].
    eapply Permutation_trans; [exact HP|apply isort_perm].
  Qed.
End Sort.
Arguments sorted {A}.

(** String order used by sort.Strings: byte-wise lexicographic. *)
Fixpoint sleb (a b : string) : bool :=
  match a, b with
  | EmptyString, _ => true
  | String _ _, EmptyString => false
  | String x a', String y b' =>
      if (bN x <? bN y)%N then true else if (bN y <? bN x)%N then false else sleb a' b'
  end.
Lemma sleb_refl a : sleb a a = true.
Proof. induction a as [|x a IH]; cbn; [reflexivity|]. rewrite N.ltb_irrefl; exact IH. Qed.
Lemma sleb_total a b : sleb a b = true \/ sleb b a = true.
Proof.
  revert b; induction a as [|x a IH]; intros [|y b]; cbn; auto.
  destruct (bN x <? bN y)%N eqn:E1; auto. destruct (bN y <? bN x)%N eqn:E2; auto.
Qed.
Lemma sleb_antisym a b : sleb a b = true -> sleb b a = true -> a = b.
Proof.
  revert b; induction a as [|x a IH]; intros [|y b]; cbn; try discriminate; auto.
  destruct (N.ltb_spec (bN x) (bN y)).
  - destruct (N.ltb_spec (bN y) (bN x)); [lia|discriminate].
  - destruct (N.ltb_spec (bN y) (bN x)); [discriminate|]. intros H1 H2.
    f_equal; [apply bN_inj; lia|auto].
Qed.
Lemma sleb_trans a b c : sleb a b = true -> sleb b c = true -> sleb a c = true.
Proof.
  revert b c; induction a as [|x a IH]; intros [|y b] [|z c]; cbn; try discriminate; auto.
  destruct (N.ltb_spec (bN x) (bN y)), (N.ltb_spec (bN y) (bN x)), (N.ltb_spec (bN y) (bN z)),
    (N.ltb_spec (bN z) (bN y)), (N.ltb_spec (bN x) (bN z)), (N.ltb_spec (bN z) (bN x));
    try discriminate; auto; try lia. apply IH.
Qed.

(** Last element update of a slice ([&s[len(s)-1]]). *)
Fixpoint upd_last {A} (f : A -> A) (l : list A) : list A :=
  match l with
  | [] => []
  | [x] => [f x]
  | x :: r => x :: upd_last f r
  end.
Lemma upd_last_app {A} (f : A -> A) l x : upd_last f (l ++ [x]) = l ++ [f x].
Proof.
  induction l as [|y l IH]; cbn; [reflexivity|]. rewrite IH.
  destruct (l ++ [x]) eqn:E; [destruct l; discriminate|reflexivity].
Qed.

(** Indexed traversal: [for i, x := range l]. *)
Fixpoint mapi_from {A B} (f : nat -> A -> B) (i : nat) (l : list A) : list B :=
  match l with [] => [] | x :: r => f i x :: mapi_from f (S i) r end.
Definition mapi {A B} (f : nat -> A -> B) (l : list A) : list B := mapi_from f 0 l.
Lemma in_mapi_from {A B} (f : nat -> A -> B) i l y :
  In y (mapi_from f i l) <-> exists n x, nth_error l n = Some x /\ y = f (i + n) x.
Proof.
  revert i; induction l as [|x l IH]; intros i; cbn.
  - split; [intros []|]. intros (n & x & H & _); destruct n; discriminate.
  - rewrite IH; split.
    + intros [<-|(n & z & H & ->)].
      * exists 0, x; split; [reflexivity|f_equal; lia].
      * exists (S n), z; split; [exact H|f_equal; lia].
    + intros (n & z & H & ->). destruct n as [|n]; cbn in H.
      * left; injection H as ->; f_equal; lia.
      * right; exists n, z; split; [exact H|f_equal; lia].
Qed.
Lemma in_mapi {A B} (f : nat -> A -> B) l y :
  In y (mapi f l) <-> exists n x, nth_error l n = Some x /\ y = f n x.
Proof. unfold mapi; rewrite in_mapi_from; reflexivity. Qed.

(** strings.Join. *)
Fixpoint sjoin (sep : string) (l : list string) : string :=
  match l with
  | [] => ""
  | [x] => x
  | x :: r => x +++ sep +++ sjoin sep r
  end.

(** strings.Fields on the ASCII white space characters (Unicode white space is
    not modelled). *)
Definition is_space (c : ascii) : bool :=
  let n := bN c in ((n =? 32) || ((9 <=? n) && (n <=? 13)))%N.
Fixpoint fields_aux (cur : string) (s : string) : list string :=
  match s with
  | EmptyString => match cur with EmptyString => [] | _ => [cur] end
  | String c r =>
      if is_space c then
        match cur with EmptyString => fields_aux "" r | _ => cur :: fields_aux "" r end
      else fields_aux (cur +++ String c "") r
  end.
Definition fields (s : string) : list string := fields_aux "" s.
