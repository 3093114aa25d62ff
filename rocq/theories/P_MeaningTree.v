(** * Checks used in examples: the tree of a list of events, and whether it is plain *)
From Coq Require Import ZArith.
From Verif Require Import GoBase GoNum GoUtf8 GoFloat GoStrconv Types XmlTypes S_Core S_Text S_Errors S_Attr S_Meaning P_Core P_Attr P_MeaningRun P_MeaningExt.
Local Notation names := S_Meaning.names.

Fixpoint grow (fuel : nat) (evs : list event) : list XTree * list event :=
  match fuel with
  | O => ([], evs)
  | S f =>
      match evs with
      | EvStart n a :: r =>
          match grow f r with
          | (kids, EvEnd m :: r) => let (ts, r) := grow f r in (XElem n a kids :: ts, r)
          | _ => ([], evs)
          end
      | EvChar now p :: r => let (ts, r) := grow f r in (XText now p :: ts, r)
      | _ => ([], evs)
      end
  end.
Section Check.
  Context (known : string -> bool) (isroot : bool).
  Fixpoint nodupb (l : list Name) : bool := match l with [] => true | n :: r => negb (existsb (name_eqb n) r) && nodupb r end.
  Lemma nodupb_sound l : nodupb l = true -> NoDup l.
  Proof.
    induction l as [|n l IH]; [constructor|]. cbn [nodupb]. intros H. apply andb_prop in H as [H1 H2]. constructor; [|apply IH, H2]. intros I.
    assert (X : existsb (name_eqb n) l = true) by (apply existsb_exists; exists n; split; [exact I|apply name_eqb_refl]). rewrite X in H1. discriminate.
  Qed.
  Definition givenb (l : string) (a : list Attr) : bool := match attr_of (mkName "" l) a with Some _ => true | None => false end.
  Lemma givenb_spec l a : given l a <-> givenb l a = true.
  Proof. unfold given, givenb. destruct (attr_of _ a); split; congruence. Qed.
  Definition attrsb (n : Name) (a : list Attr) : bool :=
    nodupb (map aname a) &&
    (negb (seq (nspace n) ns_slices) || forallb (fun x => seq (nspace (aname x)) "") a) &&
    (negb (name_eqb n (mn "color")) || givenb "color" a) &&
    (negb (name_eqb n (bn "beamlattice")) || negb (givenb "minlength" a && givenb "precision" a) && negb (givenb "clippingmode" a && givenb "clipping" a)).
  Lemma attrsb_sound n a : attrsb n a = true -> PlainAttrs n a.
  Proof.
    unfold attrsb. intros H. apply andb_prop in H as [H H4]. apply andb_prop in H as [H H3]. apply andb_prop in H as [H1 H2]. split; [apply nodupb_sound, H1|]. split; [|split].
    - intros E. rewrite E, seq_refl in H2. cbn [negb orb] in H2. apply Forall_forall. intros x I. rewrite forallb_forall in H2. specialize (H2 x I). destruct (seq_spec (nspace (aname x)) ""); [assumption|discriminate].
    - intros ->. rewrite name_eqb_refl in H3. apply givenb_spec, H3.
    - intros ->. rewrite name_eqb_refl in H4. cbn [negb orb] in H4. apply andb_prop in H4 as [A B]. split; intros [X Y]; apply givenb_spec in X; apply givenb_spec in Y; rewrite X, Y in *; discriminate.
  Qed.
  Definition singlesb (kids : list XTree) : bool := forallb (fun n => Nat.leb (List.length (elems n kids)) 1) singles.
  Lemma singlesb_sound kids : singlesb kids = true -> Singles kids.
  Proof. unfold singlesb. rewrite forallb_forall. intros H n I. apply Nat.leb_le, H, I. Qed.
  Fixpoint plainb (p : Name) (t : XTree) : bool :=
    match t with
    | XText _ _ => true
    | XElem n a kids =>
        if takes known isroot p n then
          attrsb n a && singlesb kids &&
          if seq (nspace n) ns_core || known (nspace n) then
            if name_eqb n (cn "metadata") then match kids with [] | [XText _ _] => true | _ => false end
            else (fix all l := match l with [] => true | t :: r => plainb n t && all r end) kids
          else negb (existsb (name_eqb n) (flat_map names kids))
        else forallb (fun d => negb (takes known isroot p d) && negb (name_eqb d p) && negb (misplaced known p d)) (names t)
    end.
  Lemma plainb_sound t : forall p, plainb p t = true -> Plain known isroot p t.
  Proof.
    induction t as [n a kids IH|s r] using XTree_all; intros p; [|intros _; exact I]. cbn [plainb Plain]. destruct (takes known isroot p n); intros H.
    - apply andb_prop in H as [H H3]. apply andb_prop in H as [H1 H2]. split; [apply attrsb_sound, H1|]. split; [apply singlesb_sound, H2|].
      destruct (_ || _).
      + destruct (name_eqb n (cn "metadata")).
        * destruct kids as [|[|s r] [|]]; try discriminate; [left; reflexivity|right; eauto].
        * clear H1 H2. induction kids as [|t kids IHk]; [exact I|]. apply andb_prop in H3 as [A B]. inversion IH as [|? ? I1 I2]; subst. split; [apply I1, A|apply IHk; assumption].
      + intros X. assert (Y : existsb (name_eqb n) (flat_map names kids) = true) by (apply existsb_exists; exists n; split; [exact X|apply name_eqb_refl]). rewrite Y in H3. discriminate.
    - intros d Hd. rewrite forallb_forall in H. specialize (H d Hd). apply andb_prop in H as [H H3]. apply andb_prop in H as [H1 H2].
      split; [apply negb_true_iff, H1|]. split; [|apply negb_true_iff, H3]. intros ->. rewrite name_eqb_refl in H2. discriminate.
  Qed.
  Definition fileb (a : list Attr) (kids : list XTree) : bool := attrsb (cn "model") a && singlesb kids && forallb (plainb (cn "model")) kids.
  Lemma fileb_sound a kids : fileb a kids = true -> PlainFile known isroot a kids.
  Proof.
    unfold fileb. intros H. apply andb_prop in H as [H H3]. apply andb_prop in H as [H1 H2]. split; [apply attrsb_sound, H1|]. split; [apply singlesb_sound, H2|].
    apply Forall_forall. intros t I. rewrite forallb_forall in H3. apply plainb_sound, H3, I.
  Qed.
End Check.
