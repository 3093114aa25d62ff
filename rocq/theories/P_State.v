(** * Proofs: reading and writing the state of the decoder; unknown elements *)
From Coq Require Import ZArith.
From Verif Require Import GoBase GoNum GoUtf8 GoFloat GoStrconv Types XmlTypes M_Core M_Errors M_Text M_Xml M_Decode S_Xml S_Decode P_Xml P_Decode P_Panic.

Lemma upd_last_snoc {A} (f : A -> A) l x : upd_last f (l ++ [x]) = l ++ [f x].
Proof. apply upd_last_app. Qed.
Lemma last_snoc {A} (l : list A) x d : last (l ++ [x]) d = x.
Proof. apply last_last. Qed.
Lemma upd_last_upd {A} (f g : A -> A) l : upd_last f (upd_last g l) = upd_last (fun x => f (g x)) l.
Proof. destruct l as [|x l] using rev_ind; [reflexivity|]. rewrite !upd_last_snoc. reflexivity. Qed.
Lemma upd_last_ext {A} (f g : A -> A) l : (forall x, f x = g x) -> upd_last f l = upd_last g l.
Proof. intros H. destruct l as [|x l] using rev_ind; [reflexivity|]. rewrite !upd_last_snoc, H. reflexivity. Qed.
Section State.
  Context (reg : Reg) (isroot : bool) (path : string) (later : Ref -> string).
  Definition inroot (s : DSt) : bool :=
    seq path "" || seq path (mo_path (s_model s)) || (seq (mo_path (s_model s)) "" && seq path DefaultModelPath).
  (** A pointer to the resources reads what was stored. *)
  Lemma res_get_set r s : res_get path s <> None -> res_get path (res_set path r s) = Some r.
  Proof.
    unfold res_get, res_set, find_resources. destruct (inroot s) eqn:E; unfold inroot in E; rewrite ?E.
    - intros _. cbn. rewrite E. reflexivity.
    - destruct (find_child (s_model s) path) as [c|] eqn:F; [|congruence]. intros _. cbn. rewrite E.
      unfold find_child in *. cbn. induction (mo_childs (s_model s)) as [|[q x] l IH]; cbn [aget map fst snd] in *; [discriminate|].
      destruct (seq_spec path q) as [->|N].
      + rewrite seq_refl. cbn [aget fst]. rewrite seq_refl. reflexivity.
      + destruct (seq_spec q path) as [->|_]; [congruence|]. cbn [aget]. destruct (seq_spec path q); [congruence|]. apply IH, F.
  Qed.
  Lemma res_set_set r r' s : res_set path r (res_set path r' s) = res_set path r s.
  Proof.
    unfold res_set. destruct (inroot s) eqn:E; unfold inroot in E; rewrite ?E.
    - cbn. rewrite E. reflexivity.
    - destruct (find_child (s_model s) path) as [c|] eqn:F; [|rewrite E, F; reflexivity]. cbn. rewrite E.
      match goal with |- match ?x with _ => _ end = _ => assert (X : exists y, x = Some y) end.
      { clear E. unfold find_child in *. cbn. induction (mo_childs (s_model s)) as [|[q x] l IH]; cbn [aget map fst snd] in *; [discriminate|].
        destruct (seq_spec q path) as [->|N]; cbn [aget fst]; [rewrite seq_refl; eauto|]. destruct (seq_spec path q); [congruence|]. apply IH, F. }
      destruct X as (y & ->). unfold with_model, mo_set_childs. cbn. f_equal. f_equal. rewrite map_map. apply map_ext. intros [q x]. cbn.
      destruct (seq_spec q path) as [->|N]; cbn [fst snd ch_rels ch_any]; [rewrite seq_refl; reflexivity|]. destruct (seq_spec q path); [congruence|reflexivity].
  Qed.
  (** The object being read *)
  Lemma obj_done_res_set r s : s_obj_done (res_set path r s) = s_obj_done s.
  Proof. unfold res_set. destruct (_ || _); [reflexivity|]. destruct (find_child _ _); reflexivity. Qed.
  Lemma upd_obj_obj f g s : res_get path s <> None -> upd_obj path f (upd_obj path g s) = upd_obj path (fun o => f (g o)) s.
  Proof.
    intros H. unfold upd_obj. destruct (s_obj_done s) eqn:D; [|reflexivity].
    destruct (res_get path s) as [r|] eqn:E; [|congruence]. rewrite obj_done_res_set, D. rewrite res_get_set by congruence. rewrite res_set_set. f_equal.
    cbn. f_equal. apply upd_last_upd.
  Qed.
  Lemma get_upd_obj f s : res_get path s <> None -> (s_obj_done s = true -> forall r, res_get path s = Some r -> rs_objects r <> []) ->
    get_obj path (upd_obj path f s) = f (get_obj path s).
  Proof.
    intros H N. unfold get_obj, upd_obj. destruct (s_obj_done s) eqn:D; [|reflexivity]. specialize (N eq_refl).
    destruct (res_get path s) as [r|] eqn:E; [|congruence]. rewrite obj_done_res_set, D, res_get_set by congruence. cbn.
    specialize (N r eq_refl). destruct (@exists_last _ _ N) as (l & x & ->). rewrite upd_last_snoc, !last_snoc. reflexivity.
  Qed.

  (** ** Unknown elements *)
  Definition keeps (k : DK) : bool := match k with KUnkAsset | KUnk _ => true | _ => false end.
  Lemma unk_events k n stk errs : keeps k = true -> forall evs s,
    (forall e, In e evs -> ev_token e <> TEnd n) -> (forall e t, In e evs -> ev_token e <> TChar t) ->
    on_events reg isroot path later evs (mkM s k n stk errs) =
      Some (mkM (fold_left (fun s t => append_token path k t s) (map ev_token evs) s) k n stk errs).
  Proof.
    intros K. induction evs as [|e evs IH]; intros s H1 H2; cbn [on_events map fold_left]; [reflexivity|].
    assert (E : on_event reg isroot path later e (mkM s k n stk errs) = Some (mkM (append_token path k (ev_token e) s) k n stk errs)).
    { destruct e as [m a|m|now r]; cbn [on_event ev_token].
      - unfold on_start. cbn [m_cur]. destruct k; try discriminate K; reflexivity.
      - unfold on_end. cbn [m_cur m_name]. destruct (name_eqb_spec' n m) as [->|N]; [|reflexivity].
        exfalso. apply (H1 (EvEnd m) (or_introl eq_refl)). reflexivity.
      - exfalso. apply (H2 (EvChar now r) now (or_introl eq_refl)). reflexivity. }
    rewrite E. apply IH; intros; [apply H1|apply H2]; right; assumption.
  Qed.
  Lemma append_model any m t ts s : append_token path (KUnk LModel) t (with_model (mo_set_any (any ++ [AnyTokens ts]) m) s) =
    with_model (mo_set_any (any ++ [AnyTokens (ts ++ [t])]) m) s.
  Proof. cbn [append_token upd_any]. cbn. rewrite upd_last_snoc. reflexivity. Qed.
  Lemma appends_model any m l : forall ts s, fold_left (fun s t => append_token path (KUnk LModel) t s) l (with_model (mo_set_any (any ++ [AnyTokens ts]) m) s) =
    with_model (mo_set_any (any ++ [AnyTokens (ts ++ l)]) m) s.
  Proof. induction l as [|t l IH]; intros ts s; cbn [fold_left]; [rewrite app_nil_r; reflexivity|]. rewrite append_model, IH, <- app_assoc. reflexivity. Qed.
  Lemma appends_asset l : forall ts id s, fold_left (fun s t => append_token path KUnkAsset t s) l (with_unk ts id s) = with_unk (ts ++ l) id s.
  Proof. induction l as [|t l IH]; intros ts id s; cbn [fold_left]; [rewrite app_nil_r; reflexivity|]. transitivity (with_unk ((ts ++ [t]) ++ l) id s); [apply (IH (ts ++ [t]) id s)|rewrite <- app_assoc; reflexivity]. Qed.
  Lemma append_mesh ts t s : res_get path s <> None ->
    append_token path (KUnk LMesh) t (upd_mesh path (me_add_any (AnyTokens ts)) s) = upd_mesh path (me_add_any (AnyTokens (ts ++ [t]))) s.
  Proof.
    intros H. cbn [append_token upd_any]. unfold upd_mesh. rewrite upd_obj_obj by exact H. unfold upd_obj.
    assert (X : forall o, ob_set_mesh match ob_mesh (ob_set_mesh match ob_mesh o with Some me => Some (me_add_any (AnyTokens ts) me) | None => None end o) with
       | Some me => Some {| me_verts := me_verts me; me_vany := me_vany me; me_tris := me_tris me; me_tany := me_tany me; me_any := me_any me;
                            me_ext := upd_last (fun e => match e with AnyTokens ts0 => AnyTokens (ts0 ++ [t]) | AnyExt _ => e end) (me_ext me) |}
       | None => None end (ob_set_mesh match ob_mesh o with Some me => Some (me_add_any (AnyTokens ts) me) | None => None end o) =
       ob_set_mesh match ob_mesh o with Some me => Some (me_add_any (AnyTokens (ts ++ [t])) me) | None => None end o).
    { intros o. destruct (ob_mesh o) as [me|]; cbn; [|reflexivity]. rewrite upd_last_snoc. reflexivity. }
    destruct (s_obj_done s); [destruct (res_get path s) as [r|]; [|congruence]|]; f_equal; [|apply X]. f_equal. apply upd_last_ext, X.
  Qed.
  Lemma appends_mesh l : forall ts s, res_get path s <> None ->
    fold_left (fun s t => append_token path (KUnk LMesh) t s) l (upd_mesh path (me_add_any (AnyTokens ts)) s) = upd_mesh path (me_add_any (AnyTokens (ts ++ l))) s.
  Proof. induction l as [|t l IH]; intros ts s H; cbn [fold_left]; [rewrite app_nil_r; reflexivity|]. rewrite append_mesh, IH, <- app_assoc by exact H. reflexivity. Qed.
End State.
