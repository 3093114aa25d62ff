(** * Proofs about the operations of the encoder *)
From Coq Require Import ZArith.
From Verif Require Import GoBase GoNum GoUtf8 GoFloat GoStrconv Types XmlTypes M_Core M_Text M_Printer M_Encode S_Xml S_Encode.

Lemma bal_app a o x a1 o1 y a2 o2 : Balances a o x a1 o1 -> Balances a1 o1 y a2 o2 -> Balances a o (x ++ y) a2 o2.
Proof. induction 1; intros Hy; cbn [app]; try exact Hy; constructor; auto. Qed.
Definition Bal (b : bool) (l : list op) : Prop := forall o, Balances b o l b o.
Lemma bal_nil b : Bal b [].
Proof. intros o. constructor. Qed.
Lemma bal_cat b x y : Bal b x -> Bal b y -> Bal b (x ++ y).
Proof. intros Hx Hy o. eapply bal_app; [apply Hx|apply Hy]. Qed.
Lemma bal_flat {A} b (f : A -> list op) l : (forall x, In x l -> Bal b (f x)) -> Bal b (flat_map f l).
Proof. induction l as [|x l IH]; intros H; cbn [flat_map]; [apply bal_nil|]. apply bal_cat; [apply H; left; reflexivity|apply IH; intros y I; apply H; right; exact I]. Qed.
Lemma bal_element n a x : Bal false x -> Bal false (element n a x).
Proof. intros H o. unfold element, start_op, end_op. constructor. eapply bal_app; [apply H|]. repeat constructor. Qed.
Lemma bal_starts {A} (f : A -> Name * list Attr) l : Bal true (map (fun x => start_op (fst (f x)) (snd (f x))) l).
Proof. intros o. induction l as [|x l IH]; cbn [map]; constructor. exact IH. Qed.
Lemma bal_auto x : Bal true x -> Bal false (auto x).
Proof. intros H o. unfold auto. constructor. eapply bal_app; [apply H|]. repeat constructor. Qed.
Lemma bal_auto_skip x : Bal true x -> Bal false (auto_skip x).
Proof. intros H o. unfold auto_skip. do 2 constructor. eapply bal_app; [apply H|]. repeat constructor. Qed.
Lemma bal_start1 n a : Bal true [start_op n a].
Proof. intros o. repeat constructor. Qed.
Lemma bal_map {A} (n : Name) (f : A -> list Attr) l : Bal true (map (fun x => start_op n (f x)) l).
Proof. exact (bal_starts (fun x => (n, f x)) l). Qed.
Lemma bal_tokens l : Nests [] l [] -> Bal false (write_tokens l).
Proof.
  intros H o. enough (G : forall a b, Nests a l b -> Balances false (a ++ o) (write_tokens l) false (b ++ o)) by exact (G [] [] H).
  clear H. intros a b H. induction H; cbn [write_tokens map app]; constructor; auto.
Qed.
Lemma bal_skip b x : Bal b x -> Bal b (OpSkip true :: x ++ [OpSkip false]).
Proof. intros H o. constructor. eapply bal_app; [apply H|]. repeat constructor. Qed.
Section Enc.
  Context (prec : nat).
  Lemma bal_ext e : Bal false (write_ext prec e).
  Proof.
    destruct e as [r|r|r|r|r|r|r]; cbn [write_ext].
    - unfold write_texture. intros o. constructor. apply bal_auto, bal_start1.
    - apply bal_element, bal_auto_skip, bal_map.
    - apply bal_element, bal_auto_skip, bal_map.
    - apply bal_element, bal_auto_skip, bal_map.
    - apply bal_element, bal_auto_skip, bal_map.
    - apply bal_element, bal_cat; [|apply bal_auto, bal_map]. apply bal_flat. intros s _. apply bal_element, bal_cat.
      + apply bal_element, bal_auto_skip, bal_map.
      + apply bal_skip, bal_flat. intros p _. apply bal_element, bal_auto, bal_map.
    - apply bal_element, bal_cat; [apply bal_element, bal_auto_skip, bal_map|]. apply bal_element, bal_flat. intros s _. apply bal_element, bal_auto, bal_map.
  Qed.
  Lemma bal_any l : (forall ts, In (AnyTokens ts) l -> Nests [] ts []) -> Bal false (write_any prec l).
  Proof.
    intros H. destruct l as [|[ts|x] l]; cbn [write_any write_any1]; [apply bal_nil| |apply bal_ext]. apply bal_tokens, H. left. reflexivity.
  Qed.
  Lemma bal_metadata l : Bal false (write_metadata l).
  Proof. apply bal_flat. intros md _. apply bal_element. intros o. repeat constructor. Qed.
  Lemma bal_group g : Bal false (write_metadata_group g).
  Proof. apply bal_element, bal_metadata. Qed.
  Lemma bal_item i : Bal true (write_item i).
  Proof.
    unfold write_item. destruct (mg_list (it_md i)); [apply bal_start1|]. intros o. constructor. eapply bal_app; [apply bal_element, bal_group|]. repeat constructor.
  Qed.
  Lemma bal_build m : Bal false (write_build m).
  Proof. apply bal_element, bal_auto, bal_flat. intros i _. apply bal_item. Qed.
  Lemma bal_tris pid pindex l : forall arr, Bal true (write_tris pid pindex arr l).
  Proof.
    induction l as [|t l IH]; intros arr; cbn [write_tris]; [apply bal_nil|]. destruct (tri_step pid pindex arr t) as [a arr'].
    intros o. constructor. apply IH.
  Qed.
  Lemma bal_mesh o me : (forall ts, In (AnyTokens ts) (me_ext me) -> Nests [] ts []) -> Bal false (write_mesh prec o me).
  Proof.
    intros H. apply bal_element. repeat apply bal_cat.
    - apply bal_element, bal_auto_skip, bal_map.
    - apply bal_element, bal_auto_skip, bal_tris.
    - apply bal_any, H.
  Qed.
  Lemma bal_object o : (forall me ts, ob_mesh o = Some me -> In (AnyTokens ts) (me_ext me) -> Nests [] ts []) -> Bal false (write_object prec o).
  Proof.
    intros H. apply bal_cat; [destruct (nonempty _); [intros q; repeat constructor|apply bal_nil]|]. apply bal_element, bal_cat.
    - destruct (mg_list (ob_md o)); [apply bal_nil|apply bal_group].
    - destruct (ob_mesh o) as [me|]; [apply bal_mesh; intros ts; apply H; reflexivity|]. destruct (ob_comps o) as [cs|]; [|apply bal_nil].
      apply bal_element, bal_auto, bal_map.
  Qed.
  Lemma bal_resources r : (forall ts, ResTokens r ts -> Nests [] ts []) -> Bal false (write_resources prec r).
  Proof.
    intros H. apply bal_element, bal_cat; apply bal_flat.
    - intros [b|id l|e] I; cbn [write_asset]; [apply bal_element, bal_auto, bal_map|apply bal_tokens, H; left; eauto|apply bal_ext].
    - intros o I. apply bal_object. intros me ts E1 E2. apply H. right. eauto.
  Qed.
  Lemma bal_model m : (forall ts, ModelTokens m ts -> Nests [] ts []) -> Bal false (write_model prec m).
  Proof.
    intros H. apply bal_element, bal_cat; [apply bal_metadata|]. apply bal_cat; [apply bal_resources; intros ts I; apply H; left; exact I|].
    apply bal_cat; [apply bal_build|]. apply bal_any. intros ts I. apply H. right. exact I.
  Qed.
  Lemma bal_child m c : (forall ts, ChildTokens c ts -> Nests [] ts []) -> Bal false (write_child prec m c).
  Proof.
    intros H. apply bal_element, bal_cat; [apply bal_resources; intros ts I; apply H; left; exact I|].
    apply bal_cat; [apply bal_element, bal_nil|]. apply bal_any. intros ts I. apply H. right. exact I.
  Qed.
End Enc.
