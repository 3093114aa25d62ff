(** * Proofs: what a decoder adds does not depend on what the model held *)
From Coq Require Import ZArith Lia.
From Verif Require Import GoBase GoNum GoUtf8 GoFloat GoStrconv Types XmlTypes M_Core M_Errors M_Text M_Xml M_Decode S_Xml S_Decode S_Used P_Xml P_Decode P_Panic P_State P_Frame P_ErrText.

(** ** Where a decoder works on the last element of a list, the list is not empty *)
Definition nobj (p : string) (s : DSt) : nat := match res_get p s with Some r => List.length (rs_objects r) | None => 1 end.
Definition nass (p : string) (s : DSt) : nat := match res_get p s with Some r => List.length (rs_assets r) | None => 1 end.
Definition nitem (s : DSt) : nat := List.length (bu_items (mo_build (s_model s))).
Definition nany (s : DSt) : nat := List.length (mo_any (s_model s)).
Definition grow (s s' : DSt) : Prop := (forall p, nobj p s <= nobj p s') /\ (forall p, nass p s <= nass p s') /\ nitem s <= nitem s' /\ nany s <= nany s'.
Section Counts.
  Context (reg : Reg) (isroot : bool) (path : string) (later : Ref -> string).
  Definition inv (s : DSt) : Prop := (s_obj_done s = true -> 0 < nobj path s) /\ (s_bm_done s = true -> 0 < nass path s) /\ (s_item_done s = true -> 0 < nitem s).
  Definition sound (s s' : DSt) : Prop := inv s -> inv s' /\ grow s s'.
  Lemma grow_refl s s' : s_model s' = s_model s -> grow s s'.
  Proof. intros E. unfold grow, nobj, nass, nitem, nany, res_get. rewrite E. repeat split; intros; apply le_n. Qed.
  Lemma grow_trans s1 s2 s3 : grow s1 s2 -> grow s2 s3 -> grow s1 s3.
  Proof. intros (A & B & C & D) (A2 & B2 & C2 & D2). split; [|split]; [intros p; specialize (A p); specialize (A2 p); lia|intros p; specialize (B p); specialize (B2 p); lia|lia]. Qed.
  Lemma sound_trans s1 s2 s3 : sound s1 s2 -> sound s2 s3 -> sound s1 s3.
  Proof. intros A B I. destruct (A I) as [I2 G]. destruct (B I2) as [I3 G3]. split; [exact I3|]. eapply grow_trans; eassumption. Qed.
  Definition flags (s : DSt) : bool * bool * bool := (s_obj_done s, s_bm_done s, s_item_done s).
  Lemma sound_grow s s' : flags s' = flags s -> grow s s' -> sound s s'.
  Proof.
    intros F G I. split; [|exact G]. destruct I as (A & B & C), G as (D & E & H & _). injection F as F1 F2 F3. unfold inv. rewrite F1, F2, F3.
    specialize (D path). specialize (E path). repeat split; intros X; [specialize (A X)|specialize (B X)|specialize (C X)]; lia.
  Qed.
  Lemma sound_same s s' : s_model s' = s_model s -> flags s' = flags s -> sound s s'.
  Proof. intros E F. apply sound_grow; [exact F|apply grow_refl, E]. Qed.
  Lemma sound_reset s s' : s_model s' = s_model s -> (s_obj_done s' = true -> s_obj_done s = true) -> (s_bm_done s' = true -> s_bm_done s = true) ->
    (s_item_done s' = true -> s_item_done s = true) -> sound s s'.
  Proof.
    intros E A B C I. split; [|apply grow_refl, E]. destruct (grow_refl s s' E) as (D & F & H & _). destruct I as (X & Y & Z). unfold inv.
    specialize (D path). specialize (F path). repeat split; intros Q; [specialize (X (A Q))|specialize (Y (B Q))|specialize (Z (C Q))]; lia.
  Qed.
  Lemma res_set_none r s : res_get path s = None -> res_set path r s = s.
  Proof. unfold res_get, res_set, find_resources. destruct (_ || _); [discriminate|]. destruct (find_child _ _); [discriminate|reflexivity]. Qed.
  Lemma flags_res_set r s : flags (res_set path r s) = flags s.
  Proof. unfold res_set. destruct (_ || _); [reflexivity|]. destruct (find_child _ _); reflexivity. Qed.
  Lemma build_res_set r s : mo_build (s_model (res_set path r s)) = mo_build (s_model s) /\ mo_any (s_model (res_set path r s)) = mo_any (s_model s).
  Proof. unfold res_set. destruct (_ || _); [split; reflexivity|]. destruct (find_child _ _); split; reflexivity. Qed.
  Lemma res_get_other p r s : res_get p (res_set path r s) = res_get p s \/ (res_get p s = res_get path s /\ res_get p (res_set path r s) = Some r).
  Proof.
    destruct (res_get path s) as [r0|] eqn:E0; [|rewrite res_set_none by exact E0; left; reflexivity].
    unfold res_get, res_set, find_resources in *. destruct (inroot path s) eqn:E; unfold inroot in E; rewrite E in E0; rewrite E.
    - cbn. destruct (seq p "" || _ || _); [right; split; [exact E0|reflexivity]|left; reflexivity].
    - destruct (find_child (s_model s) path) as [c|] eqn:F; [|discriminate]. cbn. destruct (seq p "" || _ || _); [left; reflexivity|].
      unfold find_child in *. cbn. destruct (seq_spec p path) as [->|N].
      + right. split; [rewrite F; exact E0|]. clear - F. induction (mo_childs (s_model s)) as [|[q x] l IH]; cbn [aget map fst snd] in *; [discriminate|].
        destruct (seq_spec path q) as [->|N].
        * rewrite seq_refl. cbn [aget fst]. rewrite seq_refl. reflexivity.
        * destruct (seq_spec q path) as [->|_]; [congruence|]. cbn [aget]. destruct (seq_spec path q); [congruence|]. apply IH, F.
      + left. clear - N. replace (aget seq p (map _ (mo_childs (s_model s)))) with (aget seq p (mo_childs (s_model s))); [reflexivity|].
        induction (mo_childs (s_model s)) as [|[q x] l IH]; cbn [aget map fst snd]; [reflexivity|].
        destruct (seq_spec q path) as [->|N2]; cbn [aget fst]; [destruct (seq_spec p path)|destruct (seq_spec p q)]; congruence || apply IH.
  Qed.
  Lemma grow_res_set r s : (forall r0, res_get path s = Some r0 -> List.length (rs_objects r0) <= List.length (rs_objects r) /\ List.length (rs_assets r0) <= List.length (rs_assets r)) ->
    grow s (res_set path r s).
  Proof.
    intros H. destruct (res_get path s) as [r0|] eqn:E; [|rewrite res_set_none by exact E; apply grow_refl; reflexivity].
    destruct (build_res_set r s) as [B A]. specialize (H r0 eq_refl). unfold grow, nobj, nass, nitem, nany. rewrite A, B.
    split; [|split; [|split; apply le_n]]; intros p; (destruct (res_get_other p r s) as [X|[X Y]]; [rewrite X; apply le_n|]); rewrite X, Y, E; apply H.
  Qed.
  Lemma sound_res_set r s : (forall r0, res_get path s = Some r0 -> List.length (rs_objects r0) <= List.length (rs_objects r) /\ List.length (rs_assets r0) <= List.length (rs_assets r)) ->
    sound s (res_set path r s).
  Proof. intros H. apply sound_grow; [apply flags_res_set|apply grow_res_set, H]. Qed.
  Lemma sound_upd_obj f s : sound s (upd_obj path f s).
  Proof.
    unfold upd_obj. destruct (s_obj_done s) eqn:D; [|apply sound_reset; cbn; (reflexivity || congruence)].
    destruct (res_get path s) as [r|] eqn:E; [|apply sound_same; reflexivity]. apply sound_res_set. intros r0 E0. rewrite E in E0. injection E0 as <-.
    cbn. rewrite upd_last_len. split; apply le_n.
  Qed.
  Lemma sound_upd_mesh f s : sound s (upd_mesh path f s). Proof. apply sound_upd_obj. Qed.
  Lemma sound_upd_item f s : sound s (upd_item f s).
  Proof.
    unfold upd_item. destruct (s_item_done s) eqn:D; [|apply sound_reset; cbn; (reflexivity || congruence)].
    apply sound_grow; [reflexivity|]. unfold grow, nobj, nass, nitem, nany. cbn. rewrite upd_last_len. repeat split; intros; apply le_n.
  Qed.
  Lemma sound_upd_bm f s : sound s (upd_bm path f s).
  Proof.
    unfold upd_bm. destruct (s_bm_done s) eqn:D; [|apply sound_reset; cbn; (reflexivity || congruence)].
    destruct (res_get path s) as [r|] eqn:E; [|apply sound_same; reflexivity]. apply sound_res_set. intros r0 E0. rewrite E in E0. injection E0 as <-.
    cbn. rewrite upd_last_len. split; apply le_n.
  Qed.
  Lemma sound_upd_any l f s : sound s (upd_any path l f s).
  Proof.
    destruct l; cbn [upd_any]; [apply sound_same; reflexivity| |apply sound_upd_mesh].
    apply sound_grow; [reflexivity|]. unfold grow, nobj, nass, nitem, nany. cbn. rewrite upd_last_len. repeat split; intros; apply le_n.
  Qed.
  Lemma sound_upd_ext l f s : sound s (upd_ext path l f s).
  Proof.
    destruct l; cbn [upd_ext]; try apply sound_upd_any. destruct (res_get path s) as [r|] eqn:E; [|apply sound_same; reflexivity].
    apply sound_res_set. intros r0 E0. rewrite E in E0. injection E0 as <-. cbn. rewrite upd_last_len. split; apply le_n.
  Qed.
  Lemma sound_md x s : sound s (with_model (mo_set_md x (s_model s)) s).
  Proof. apply sound_grow; [reflexivity|]. unfold grow, nobj, nass, nitem, nany. cbn. repeat split; intros; apply le_n. Qed.
  Lemma sound_add_md l x s : sound s (add_md path l x s).
  Proof. destruct l; cbn [add_md]; [apply sound_md|apply sound_upd_item|apply sound_upd_obj]. Qed.
  Lemma sound_set_mg l x s : sound s (set_mg path l x s).
  Proof. destruct l; cbn [set_mg]; [apply sound_same; reflexivity|apply sound_upd_item|apply sound_upd_obj]. Qed.
  Lemma sound_append_token k t s : sound s (append_token path k t s).
  Proof. destruct k; cbn [append_token]; try (apply sound_same; reflexivity). apply sound_upd_any. Qed.
  (** What the decoder [k] works on is there. *)
  Definition has (k : DK) (s : DSt) : Prop :=
    match k with KUnk LModel | KExt LModel _ => 0 < nany s | KExt LRes _ => 0 < nass path s | _ => True end.
  Lemma has_grow k s s' : grow s s' -> has k s -> has k s'.
  Proof. intros (A & B & C & D). specialize (B path). destruct k; cbn; auto; destruct l; auto; lia. Qed.
  Lemma sound_end k n s s' : end_ path k n s = Some s' -> sound s s'.
  Proof.
    destruct k; cbn [end_]; try (intros [= <-]; first [apply sound_same; reflexivity|apply sound_add_md]); unfold res_upd.
    - intros [= <-] (A & B & C). split.
      + split; [|split]; [exact A|exact B|]. intros _. unfold nitem. cbn. rewrite app_length. cbn. lia.
      + unfold grow, nobj, nass, nitem, nany. cbn. rewrite app_length. repeat split; intros; try apply le_n. lia.
    - change (res_get path (with_bm (get_bm path s) true s)) with (res_get path s). destruct (res_get path s) as [r|] eqn:E; [|discriminate]. intros [= <-] I.
      assert (G : grow s (res_set path (rs_add_asset (ABase (get_bm path s)) r) (with_bm (get_bm path s) true s))).
      { eapply (grow_trans _ (with_bm (get_bm path s) true s)); [apply grow_refl; reflexivity|]. apply grow_res_set. intros r0 E0. change (res_get path s = Some r0) in E0. rewrite E in E0. injection E0 as <-. cbn. rewrite app_length. cbn. lia. }
      split; [|exact G]. destruct I as (A & B & C). destruct G as (G1 & G2 & G3 & _). specialize (G1 path). specialize (G2 path). pose proof (flags_res_set (rs_add_asset (ABase (get_bm path s)) r) (with_bm (get_bm path s) true s)) as F.
      injection F as F1 F2 F3. unfold inv. rewrite F1, F2, F3. split; [|split]; cbn.
      * intros X. specialize (A X). lia.
      * intros _. unfold nass. rewrite (res_get_set path) by (change (res_get path s <> None); congruence). cbn. rewrite app_length. cbn. lia.
      * intros X. specialize (C X). lia.
    - change (res_get path (with_obj (get_obj path s) true s)) with (res_get path s). destruct (res_get path s) as [r|] eqn:E; [|discriminate]. intros [= <-] I.
      assert (G : grow s (res_set path (rs_add_object (get_obj path s) r) (with_obj (get_obj path s) true s))).
      { eapply (grow_trans _ (with_obj (get_obj path s) true s)); [apply grow_refl; reflexivity|]. apply grow_res_set. intros r0 E0. change (res_get path s = Some r0) in E0. rewrite E in E0. injection E0 as <-. cbn. rewrite app_length. cbn. lia. }
      split; [|exact G]. destruct I as (A & B & C). destruct G as (G1 & G2 & G3 & _). specialize (G1 path). specialize (G2 path). pose proof (flags_res_set (rs_add_object (get_obj path s) r) (with_obj (get_obj path s) true s)) as F.
      injection F as F1 F2 F3. unfold inv. rewrite F1, F2, F3. split; [|split]; cbn.
      * intros _. unfold nobj. rewrite (res_get_set path) by (change (res_get path s <> None); congruence). cbn. rewrite app_length. cbn. lia.
      * intros X. specialize (B X). lia.
      * intros X. specialize (C X). lia.
    - change (res_get path (with_unk (s_unk s ++ [TEnd n]) (s_unk_id s) s)) with (res_get path s). destruct (res_get path s) as [r|] eqn:E; [|discriminate]. intros [= <-].
      eapply (sound_trans _ (with_unk (s_unk s ++ [TEnd n]) (s_unk_id s) s)); [apply sound_same; reflexivity|]. apply sound_res_set. intros r0 E0. change (res_get path s = Some r0) in E0. rewrite E in E0. injection E0 as <-.
      cbn. rewrite app_length. cbn. lia.
    - intros [= <-]. apply sound_upd_any.
    - destruct x; intros [= <-]; first [apply sound_upd_ext|apply sound_same; reflexivity].
  Qed.
  Lemma sound_child k n s i k' s' : child reg isroot path k n s = COk i k' s' -> has k s -> sound s s' /\ has k' s'.
  Proof.
    destruct k; cbn [child]; try discriminate.
    1,3,4,5,7,8,10,11,12: repeat match goal with |- (if ?b then _ else _) = _ -> _ => destruct b end; try discriminate; intros [= <- <- <-] H; (split; [|exact I]);
        first [apply sound_same; reflexivity|apply sound_reset; cbn; (reflexivity || congruence)].
    - unfold model_child. repeat match goal with |- (if ?b then _ else _) = _ -> _ => destruct b end; try discriminate; try (intros [= <- <- <-] H; (split; [apply sound_same; reflexivity|exact I])).
      destruct (new_element_decoder _ _ _) as [[k e]|] eqn:N; [|discriminate]. intros [= <- <- <-] _. split.
      + apply sound_grow; [reflexivity|]. unfold grow, nobj, nass, nitem, nany. cbn. rewrite app_length. repeat split; intros; try apply le_n. lia.
      + assert (0 < nany (with_model (mo_set_any (mo_any (s_model s) ++ [e]) (s_model s)) s)) by (unfold nany; cbn; rewrite app_length; cbn; lia).
        unfold new_element_decoder in N. destruct (load _ _) as [sp|]; [destruct (ext_decoder _ _) as [[x e']|]; [|discriminate]|]; injection N as <- <-; exact H.
    - assert (Z : forall s1, s_model s1 = s_model s -> sound s s1 -> forall r0, res_get path s = Some r0 -> forall r, List.length (rs_objects r0) <= List.length (rs_objects r) -> List.length (rs_assets r0) <= List.length (rs_assets r) -> sound s (res_set path r s1)).
      { intros s1 E S1 r0 E0 r L1 L2. eapply sound_trans; [exact S1|]. apply sound_res_set. unfold res_get. rewrite E. intros r1 E1. unfold res_get in E0. rewrite E0 in E1. injection E1 as <-. split; assumption. }
      unfold res_child. cbv zeta. change (res_get path (with_bm bm_zero false s)) with (res_get path s). change (res_get path (with_unk [] 0 s)) with (res_get path s).
      destruct (res_get path s) as [r|] eqn:E.
      + repeat match goal with |- (if ?b then _ else _) = _ -> _ => destruct b end; try discriminate.
        * intros [= <- <- <-] _. split; [apply sound_reset; cbn; (reflexivity || congruence)|exact I].
        * intros [= <- <- <-] _. split; [|exact I]. apply (Z (with_bm bm_zero false s)) with (r0 := r); try reflexivity; try apply le_n. apply sound_reset; cbn; (reflexivity || congruence).
        * destruct (load _ _) as [sp|].
          -- destruct (ext_decoder _ _) as [[x e]|]; [|discriminate]. assert (Y : forall e, sound s (res_set path (rs_add_asset (AExt e) r) s) /\ 0 < nass path (res_set path (rs_add_asset (AExt e) r) s)).
             { intros e0. split; [apply (Z s) with (r0 := r); try reflexivity; [apply sound_same; reflexivity|cbn; rewrite app_length; lia]|].
               unfold nass. rewrite (res_get_set path) by congruence. cbn. rewrite app_length. cbn. lia. }
             destruct e; try discriminate; intros [= <- <- <-] _; apply Y.
          -- intros [= <- <- <-] _. split; [|exact I]. apply (Z (with_unk [] 0 s)) with (r0 := r); try reflexivity; try apply le_n. apply sound_same; reflexivity.
      + repeat match goal with |- (if ?b then _ else _) = _ -> _ => destruct b end; try discriminate.
        destruct (load _ _) as [sp|]; [|discriminate]. destruct (ext_decoder _ _) as [[x []]|]; discriminate.
    - unfold mesh_child. repeat match goal with |- (if ?b then _ else _) = _ -> _ => destruct b end; try discriminate; try (intros [= <- <- <-] H; (split; [apply sound_same; reflexivity|exact I])).
      unfold new_element_decoder. destruct (load _ _) as [sp|]; [destruct (ext_decoder _ _) as [[x e']|]; [|discriminate]|]; intros [= <- <- <-] _; (split; [apply sound_upd_mesh|exact I]).
    - destruct x; cbn [ext_child]; repeat match goal with |- (if ?b then _ else _) = _ -> _ => destruct b end; try discriminate; intros [= <- <- <-] H;
        (split; [apply sound_same; reflexivity|exact H]).
  Qed.
  Lemma build_model_attrs l : forall x e x' e', attrs_loop (model_attr reg) x e l = Some (x', e') ->
    mo_build (fst x') = mo_build (fst x) /\ mo_any (fst x') = mo_any (fst x) /\ mo_res (fst x') = mo_res (fst x) /\ mo_childs (fst x') = mo_childs (fst x) /\ mo_path (fst x') = mo_path (fst x).
  Proof.
    assert (R : forall x y a e, model_attr reg x a = Some (y, e) ->
      mo_build (fst y) = mo_build (fst x) /\ mo_any (fst y) = mo_any (fst x) /\ mo_res (fst y) = mo_res (fst x) /\ mo_childs (fst y) = mo_childs (fst x) /\ mo_path (fst y) = mo_path (fst x)).
    { intros [m q] y a e. unfold model_attr, model_nocore. repeat match goal with |- context [if ?b then _ else _] => destruct b end;
        try (intros [= <- <-]; repeat split; reflexivity);
        [destruct (new_units _); intros [= <- <-]; repeat split; reflexivity|].
      destruct (any_attr _ _ _ _) as [[? ?]|]; [|discriminate]. intros [= <- <-]; repeat split; reflexivity. }
    induction l as [|a l IH]; intros x e x' e'; cbn [attrs_loop]; [intros [= <- <-]; repeat split; reflexivity|].
    destruct (model_attr reg x a) as [[y e1]|] eqn:E; [|discriminate]. intros H. apply R in E. apply IH in H. intuition congruence.
  Qed.
  Lemma sound_start k n a s s' e : start reg isroot path k n a s = Some (s', e) -> sound s s'.
  Proof.
    assert (F : forall A (r : option (A * error)) (f : A -> DSt) x, (forall v, sound s (f v)) ->
      match r with Some (v, e) => Some (f v, e) | None => None end = Some x -> sound s (fst x)).
    { intros A [[v e0]|] f x H [= <-]. apply H. }
    destruct k; cbn [start]; try (intros [= <- <-]; first [apply sound_same; reflexivity|apply sound_upd_any]);
      try (intros H; eapply F in H; [exact H|]; intros v; first [apply sound_set_mg|apply sound_upd_item|apply sound_upd_bm|apply sound_upd_obj|apply sound_upd_mesh]).
    - unfold model_start. destruct (negb isroot); [intros [= <- <-]; apply sound_same; reflexivity|].
      destruct (attrs_loop (model_attr reg) (s_model s, []) None a) as [[[m q] e1]|] eqn:E; [|discriminate]. intros [= <- <-]. apply build_model_attrs in E as (A & B & C & D & P). cbn [fst] in *.
      apply sound_grow; [reflexivity|]. unfold grow, nobj, nass, nitem, nany, res_get, find_resources, find_child. cbn. rewrite A, B, C, D, P. repeat split; intros; apply le_n.
    - intros H; eapply F in H; [exact H|]. intros v. apply sound_grow; [reflexivity|]. unfold grow, nobj, nass, nitem, nany. cbn. repeat split; intros; apply le_n.
    - destruct a as [|a0 a]; [intros [= <- <-]; apply sound_same; reflexivity|]. destruct (res_get path s) as [r|] eqn:E; [|discriminate].
      intros H; eapply F in H; [exact H|]; intros v. apply sound_res_set. intros r0 E0. rewrite E in E0. injection E0 as <-. split; apply le_n.
    - destruct (first_attr _ _) as [a0|]; [destruct (get_u32 a0 true)|]; intros [= <- <-]; apply sound_same; reflexivity.
    - destruct x; cbn [ext_start]; try (intros [= <- <-]; apply sound_same; reflexivity);
        try (intros H; eapply F in H; [exact H|]; intros v; first [apply sound_upd_ext|apply sound_same; reflexivity]);
        try (destruct (first_attr _ _) as [a0|]; [match goal with |- context [let (_, _) := ?p in _] => destruct p end|];
             intros [= <- <-]; first [apply sound_upd_ext|apply sound_same; reflexivity]).
  Qed.
End Counts.

(** ** The simulation *)
Lemma last_app_ne {A} (a l : list A) d : 0 < List.length l -> last (a ++ l) d = last l d.
Proof. destruct l as [|x l] using rev_ind; [cbn; lia|]. rewrite app_assoc, !last_last. reflexivity. Qed.
Lemma upd_last_app_ne {A} (f : A -> A) a l : 0 < List.length l -> upd_last f (a ++ l) = a ++ upd_last f l.
Proof. destruct l as [|x l] using rev_ind; [cbn; lia|]. rewrite app_assoc, !upd_last_snoc, app_assoc. reflexivity. Qed.
Section Onto.
  Context (reg : Reg) (isroot : bool) (path : string) (later : Ref -> string) (M : Model).
  Definition ontoR (r : Resources) : Resources := mkRes (rs_assets (mo_res M) ++ rs_assets r) (rs_objects (mo_res M) ++ rs_objects r) (rs_any r).
  Definition pre (s : DSt) : DSt := with_model (onto M (s_model s)) s.
  Definition preR (s : DSt) (r : Resources) : Resources := if inroot path s then ontoR r else r.
  Lemma pre_get s : res_get path (pre s) = option_map (preR s) (res_get path s).
  Proof.
    unfold res_get, find_resources, preR. change (mo_path (s_model (pre s))) with (mo_path (s_model s)).
    destruct (inroot path s) eqn:E; unfold inroot in E; rewrite E; [reflexivity|].
    change (find_child (s_model (pre s)) path) with (find_child (s_model s) path). destruct (find_child _ _); reflexivity.
  Qed.
  Lemma pre_set r s : res_set path (preR s r) (pre s) = pre (res_set path r s).
  Proof.
    unfold res_set, preR. change (mo_path (s_model (pre s))) with (mo_path (s_model s)).
    destruct (inroot path s) eqn:E; unfold inroot in E; rewrite E; [reflexivity|].
    change (find_child (s_model (pre s)) path) with (find_child (s_model s) path). destruct (find_child _ _); reflexivity.
  Qed.
  Lemma preR_parts s r : exists a o, preR s r = mkRes (a ++ rs_assets r) (o ++ rs_objects r) (rs_any r) /\ forall x y z, preR s (mkRes x y z) = mkRes (a ++ x) (o ++ y) z.
  Proof. unfold preR. destruct (inroot path s); [exists (rs_assets (mo_res M)), (rs_objects (mo_res M))|exists [], []]; (split; [|reflexivity]); [reflexivity|destruct r; reflexivity]. Qed.
  Lemma pre_get_obj s : inv path s -> get_obj path (pre s) = get_obj path s.
  Proof.
    intros (A & _). unfold get_obj. rewrite pre_get. change (s_obj_done (pre s)) with (s_obj_done s). destruct (s_obj_done s); [|reflexivity].
    specialize (A eq_refl). unfold nobj in A. destruct (res_get path s) as [r|]; [|reflexivity]. cbn [option_map].
    destruct (preR_parts s r) as (a & o & -> & _). cbn. apply last_app_ne, A.
  Qed.
  Lemma pre_upd_obj f s : inv path s -> upd_obj path f (pre s) = pre (upd_obj path f s).
  Proof.
    intros (A & _). unfold upd_obj. rewrite pre_get. change (s_obj_done (pre s)) with (s_obj_done s). destruct (s_obj_done s); [|reflexivity].
    specialize (A eq_refl). unfold nobj in A. destruct (res_get path s) as [r|]; [|reflexivity]. cbn [option_map].
    rewrite <- pre_set. destruct (preR_parts s r) as (a & o & -> & X). rewrite X. cbn. rewrite upd_last_app_ne by exact A. reflexivity.
  Qed.
  Lemma pre_get_mesh s : inv path s -> get_mesh path (pre s) = get_mesh path s.
  Proof. intros I. unfold get_mesh. rewrite pre_get_obj by exact I. reflexivity. Qed.
  Lemma pre_upd_mesh f s : inv path s -> upd_mesh path f (pre s) = pre (upd_mesh path f s).
  Proof. apply pre_upd_obj. Qed.
  Lemma pre_get_bm s : inv path s -> get_bm path (pre s) = get_bm path s.
  Proof.
    intros (_ & A & _). unfold get_bm. rewrite pre_get. change (s_bm_done (pre s)) with (s_bm_done s). destruct (s_bm_done s); [|reflexivity].
    specialize (A eq_refl). unfold nass in A. destruct (res_get path s) as [r|]; [|reflexivity]. cbn [option_map].
    destruct (preR_parts s r) as (a & o & -> & _). cbn. rewrite last_app_ne by exact A. reflexivity.
  Qed.
  Lemma pre_upd_bm f s : inv path s -> upd_bm path f (pre s) = pre (upd_bm path f s).
  Proof.
    intros (_ & A & _). unfold upd_bm. rewrite pre_get. change (s_bm_done (pre s)) with (s_bm_done s). destruct (s_bm_done s); [|reflexivity].
    specialize (A eq_refl). unfold nass in A. destruct (res_get path s) as [r|]; [|reflexivity]. cbn [option_map].
    rewrite <- pre_set. destruct (preR_parts s r) as (a & o & -> & X). rewrite X. cbn. rewrite upd_last_app_ne by exact A. reflexivity.
  Qed.
  Lemma pre_get_item s : inv path s -> get_item (pre s) = get_item s.
  Proof.
    intros (_ & _ & A). unfold get_item. change (s_item_done (pre s)) with (s_item_done s). destruct (s_item_done s); [|reflexivity].
    apply last_app_ne. exact (A eq_refl).
  Qed.
  Lemma pre_upd_item f s : inv path s -> upd_item f (pre s) = pre (upd_item f s).
  Proof.
    intros (_ & _ & A). unfold upd_item. change (s_item_done (pre s)) with (s_item_done s). destruct (s_item_done s); [|reflexivity].
    specialize (A eq_refl). unfold nitem in A. unfold pre, with_model, onto, mo_set_build. cbn. rewrite upd_last_app_ne by exact A. reflexivity.
  Qed.
  Lemma pre_get_ext l s : inv path s -> has path (KExt l XkColor) s -> get_ext path l (pre s) = get_ext path l s.
  Proof.
    intros I H. destruct l; cbn [get_ext has] in *.
    - rewrite pre_get. unfold nass in H. destruct (res_get path s) as [r|]; [|reflexivity]. cbn [option_map].
      destruct (preR_parts s r) as (a & o & -> & _). cbn. rewrite last_app_ne by exact H. reflexivity.
    - cbn. rewrite last_app_ne by exact H. reflexivity.
    - rewrite pre_get_mesh by exact I. reflexivity.
  Qed.
  Lemma pre_upd_any l f s : inv path s -> has path (KUnk l) s -> upd_any path l f (pre s) = pre (upd_any path l f s).
  Proof.
    intros I H. destruct l; cbn [upd_any has] in *; [reflexivity| |apply pre_upd_mesh, I].
    unfold nany in H. unfold pre, with_model, onto, mo_set_any. cbn. rewrite upd_last_app_ne by exact H. reflexivity.
  Qed.
  Lemma pre_upd_ext l f s : inv path s -> has path (KExt l XkColor) s -> upd_ext path l f (pre s) = pre (upd_ext path l f s).
  Proof.
    intros I H. destruct l; cbn [upd_ext]; [|apply pre_upd_any; [exact I|exact H]..].
    rewrite pre_get. cbn [has] in H. unfold nass in H. destruct (res_get path s) as [r|]; [|reflexivity]. cbn [option_map].
    rewrite <- pre_set. destruct (preR_parts s r) as (a & o & -> & X). rewrite X. cbn. rewrite upd_last_app_ne by exact H. reflexivity.
  Qed.
  Lemma pre_get_mg l s : inv path s -> get_mg path l (pre s) = get_mg path l s.
  Proof. intros I. destruct l; cbn [get_mg]; [reflexivity|rewrite pre_get_item by exact I; reflexivity|rewrite pre_get_obj by exact I; reflexivity]. Qed.
  Lemma pre_set_mg l g s : inv path s -> set_mg path l g (pre s) = pre (set_mg path l g s).
  Proof. intros I. destruct l; cbn [set_mg]; [reflexivity|apply pre_upd_item, I|apply pre_upd_obj, I]. Qed.
  Lemma pre_add_md l x s : inv path s -> add_md path l x (pre s) = pre (add_md path l x s).
  Proof.
    intros I. destruct l; cbn [add_md]; [|apply pre_upd_item, I|apply pre_upd_obj, I].
    unfold pre, with_model, onto, mo_set_md. cbn. rewrite app_assoc. reflexivity.
  Qed.
  Lemma pre_append k t s : inv path s -> has path k s -> append_token path k t (pre s) = pre (append_token path k t s).
  Proof. intros I H. destruct k; cbn [append_token]; try reflexivity. apply pre_upd_any; [exact I|exact H]. Qed.
  Lemma pre_res_upd f s : (forall r, f (preR s r) = preR s (f r)) -> res_upd path f (pre s) = option_map pre (res_upd path f s).
  Proof. intros F. unfold res_upd. rewrite pre_get. destruct (res_get path s) as [r|]; [|reflexivity]. cbn [option_map]. rewrite F, pre_set. reflexivity. Qed.
  Lemma add_asset_preR a s r : rs_add_asset a (preR s r) = preR s (rs_add_asset a r).
  Proof. unfold preR. destruct (inroot path s); [|reflexivity]. unfold rs_add_asset, ontoR. cbn. rewrite app_assoc. reflexivity. Qed.
  Lemma add_object_preR a s r : rs_add_object a (preR s r) = preR s (rs_add_object a r).
  Proof. unfold preR. destruct (inroot path s); [|reflexivity]. unfold rs_add_object, ontoR. cbn. rewrite app_assoc. reflexivity. Qed.
  Lemma pre_end k n s : inv path s -> has path k s -> end_ path k n (pre s) = option_map pre (end_ path k n s).
  Proof.
    intros I H. destruct k; cbn [end_]; try reflexivity.
    - cbn [option_map]. rewrite pre_add_md by exact I. reflexivity.
    - rewrite pre_get_item by exact I. cbn [option_map]. f_equal. unfold pre, with_model, with_item, onto, mo_set_build. cbn. rewrite app_assoc. reflexivity.
    - rewrite pre_get_bm by exact I. apply (pre_res_upd _ (with_bm (get_bm path s) true s)). intros r. apply add_asset_preR.
    - rewrite pre_get_obj by exact I. apply (pre_res_upd _ (with_obj (get_obj path s) true s)). intros r. apply add_object_preR.
    - apply (pre_res_upd _ (with_unk (s_unk s ++ [TEnd n]) (s_unk_id s) s)). intros r. apply add_asset_preR.
    - cbn [option_map]. rewrite <- (pre_append (KUnk l)) by assumption. reflexivity.
    - destruct x; cbn [option_map]; try reflexivity; rewrite <- pre_upd_ext by assumption; reflexivity.
  Qed.
  (** The index in the list, which is part of the places of errors, differs. *)
  Definition crel (c c' : cres) : Prop :=
    match c, c' with CNil, CNil | CPanic, CPanic => True | COk _ k s, COk _ k' s' => k' = k /\ s' = pre s | _, _ => False end.
  Ltac ifs := repeat match goal with |- context [if ?b then _ else _] => destruct b end.
  Lemma pre_ext_child l x n s : inv path s -> has path (KExt l x) s -> crel (ext_child path l x n s) (ext_child path l x n (pre s)).
  Proof. intros I H. destruct x; cbn [ext_child]; rewrite ?(pre_get_ext l s I H); ifs; cbn [crel]; auto. Qed.
  Lemma pre_child k n s : inv path s -> has path k s -> crel (child reg isroot path k n s) (child reg isroot path k n (pre s)).
  Proof.
    intros I H. destruct k; cbn [child]; rewrite ?(pre_get_obj s I), ?(pre_get_mesh s I), ?(pre_get_bm s I); try (ifs; cbn [crel]; auto; fail).
    - unfold model_child. ifs; cbn [crel]; auto. destruct (new_element_decoder reg LModel n) as [[k e]|]; cbn [crel]; auto. split; [reflexivity|].
      unfold pre, with_model, onto, mo_set_any. cbn. rewrite app_assoc. reflexivity.
    - unfold res_child. cbv zeta. change (res_get path (with_bm bm_zero false (pre s))) with (res_get path (pre s)). change (res_get path (with_unk [] 0 (pre s))) with (res_get path (pre s)).
      change (res_get path (with_bm bm_zero false s)) with (res_get path s). change (res_get path (with_unk [] 0 s)) with (res_get path s). rewrite pre_get.
      destruct (res_get path s) as [r|] eqn:E; cbn [option_map].
      + ifs; cbn [crel]; auto.
        * split; [reflexivity|]. apply (pre_set r (with_bm bm_zero false s)).
        * destruct (load reg (nspace n)) as [sp|].
          -- destruct (ext_decoder sp (nlocal n)) as [[x []]|]; cbn [crel]; auto; (split; [reflexivity|]; rewrite add_asset_preR; apply pre_set).
          -- cbn [crel]. split; [reflexivity|]. apply (pre_set r (with_unk [] 0 s)).
      + ifs; cbn [crel]; auto. destruct (load reg (nspace n)) as [sp|]; [destruct (ext_decoder sp (nlocal n)) as [[x []]|]|]; cbn [crel]; auto.
    - unfold mesh_child. ifs; cbn [crel]; auto. unfold new_element_decoder. destruct (load reg (nspace n)) as [sp|].
      + destruct (ext_decoder sp (nlocal n)) as [[x e]|]; cbn [crel]; auto. split; [reflexivity|]. apply pre_upd_mesh, I.
      + cbn [crel]. split; [reflexivity|]. apply pre_upd_mesh, I.
    - apply pre_ext_child; assumption.
  Qed.
  Definition smapp (o : option (DSt * error)) : option (DSt * error) := match o with Some (s, e) => Some (pre s, e) | None => None end.
  Lemma smapp_fin {A} (r : option (A * error)) (f g : A -> DSt) : (forall v, g v = pre (f v)) ->
    match r with Some (v, e) => Some (g v, e) | None => None end = smapp (match r with Some (v, e) => Some (f v, e) | None => None end).
  Proof. intros H. destruct r as [[v e]|]; [|reflexivity]. cbn [smapp]. rewrite H. reflexivity. Qed.
  Lemma onto_model_attrs l : forall m q e, attrs_loop (model_attr reg) (onto M m, q) e l =
    match attrs_loop (model_attr reg) (m, q) e l with Some ((m, q), e) => Some ((onto M m, q), e) | None => None end.
  Proof.
    assert (R : forall m q a, model_attr reg (onto M m, q) a = match model_attr reg (m, q) a with Some ((m, q), e) => Some ((onto M m, q), e) | None => None end).
    { intros m q a. unfold model_attr, model_nocore. cbn [onto mo_anyattr mo_exts]. repeat match goal with |- context [if ?b then _ else _] => destruct b end; try reflexivity.
      - destruct (new_units _); reflexivity.
      - destruct (any_attr _ _ _ _) as [[? ?]|]; reflexivity. }
    induction l as [|a l IH]; intros m q e; cbn [attrs_loop]; [reflexivity|]. rewrite R. destruct (model_attr reg (m, q) a) as [[[m1 q1] e1]|]; [apply IH|reflexivity].
  Qed.
  Lemma pre_ext_start l x a s : inv path s -> has path (KExt l x) s -> ext_start path l x a (pre s) = smapp (ext_start path l x a s).
  Proof.
    intros I H. destruct x; cbn [ext_start]; rewrite ?(pre_get_ext l s I H);
      try (apply smapp_fin; intros v; try reflexivity; apply pre_upd_ext; assumption);
      try reflexivity;
      try (destruct (first_attr _ _) as [a0|]; [match goal with |- context [let (_, _) := ?p in _] => destruct p end|]; cbn [smapp];
           try reflexivity; rewrite pre_upd_ext by assumption; reflexivity).
  Qed.
  Lemma pre_start k n a s : inv path s -> has path k s -> start reg isroot path k n a (pre s) = smapp (start reg isroot path k n a s).
  Proof.
    intros I H. destruct k; cbn [start]; try reflexivity;
      rewrite ?(pre_get_obj s I), ?(pre_get_mesh s I), ?(pre_get_bm s I), ?(pre_get_item s I), ?(pre_get_mg _ s I);
      try (apply smapp_fin; intros v; first [apply pre_upd_obj, I|apply pre_upd_mesh, I|apply pre_upd_bm, I|apply pre_upd_item, I|apply pre_set_mg, I|reflexivity]).
    - unfold model_start. destruct (negb isroot); [reflexivity|]. change (s_model (pre s)) with (onto M (s_model s)). rewrite onto_model_attrs.
      destruct (attrs_loop (model_attr reg) (s_model s, []) None a) as [[[m q] e]|]; reflexivity.
    - destruct a as [|a0 a]; [reflexivity|]. rewrite pre_get. destruct (res_get path s) as [r|]; [|reflexivity]. cbn [option_map].
      destruct (preR_parts s r) as (x & y & -> & X). cbn [rs_any rs_assets rs_objects]. apply smapp_fin. intros v. rewrite <- X. apply pre_set.
    - destruct (first_attr _ _) as [a0|]; [destruct (get_u32 a0 true)|]; reflexivity.
    - cbn [smapp]. rewrite pre_upd_any by assumption. reflexivity.
    - apply pre_ext_start; assumption.
  Qed.
End Onto.

(** ** Errors *)
Lemma un_wrap n i e : unindexed (wrap_index1 e n i) = wrap_index1 (unindexed e) n (-1).
Proof.
  induction e as [| | |t x p IH|l IH] using gerr_ind'; cbn; try reflexivity.
  - rewrite map_app. reflexivity.
  - f_equal. rewrite !map_map. apply map_ext_in. intros x X. exact (proj1 (Forall_forall _ _) IH x X).
Qed.
Definition srel (a b : list (DK * Name * Z)) : Prop := map fst b = map fst a.
Lemma un_wrap_stack a : forall b e e', srel a b -> unindexed e = unindexed e' -> unindexed (wrap_stack e a) = unindexed (wrap_stack e' b).
Proof.
  induction a as [|x a IH]; intros [|y b] e e' S E; try discriminate S; cbn; [exact E|]. injection S as S1 S2. apply IH; [exact S2|]. rewrite !un_wrap, E, S1. reflexivity.
Qed.
Definition erel (a b : list gerr) : Prop := map unindexed b = map unindexed a.
Lemma erel_append a b e e' : erel a b -> unindexed e = unindexed e' -> erel (append_list a [Some e]) (append_list b [Some e']).
Proof.
  unfold erel. intros A E. destruct e, e'; try discriminate E; cbn [append_list]; rewrite !map_app, A; f_equal.
  1-4: cbn [map]; rewrite E; reflexivity.
  injection E as E. symmetry. exact E.
Qed.

(** ** The callbacks *)
Section Machine.
  Context (reg : Reg) (isroot : bool) (path : string) (later : Ref -> string) (M : Model).
  Definition mrel (m m' : Mach) : Prop :=
    m_st m' = pre M (m_st m) /\ m_cur m' = m_cur m /\ m_name m' = m_name m /\ srel (m_stack m) (m_stack m') /\ erel (m_errs m) (m_errs m').
  Definition minv (m : Mach) : Prop := inv path (m_st m) /\ has path (m_cur m) (m_st m) /\ Forall (fun e => has path (fst (fst e)) (m_st m)) (m_stack m).
  Lemma minv_step m s' k n st e : minv m -> sound path (m_st m) s' -> has path k s' -> Forall (fun x => has path (fst (fst x)) s') st ->
    minv (mkM s' k n st e) /\ grow (m_st m) s'.
  Proof. intros (I & _) S H F. destruct (S I) as [I' G]. split; [|exact G]. split; [exact I'|]. split; [exact H|exact F]. Qed.
  Lemma has_all s s' (st : list (DK * Name * Z)) : grow s s' -> Forall (fun e => has path (fst (fst e)) s) st -> Forall (fun e => has path (fst (fst e)) s') st.
  Proof. intros G. apply Forall_impl. intros x. apply has_grow, G. Qed.
  Lemma event_inv e m m1 : minv m -> on_event reg isroot path later e m = Some m1 -> minv m1 /\ grow (m_st m) (m_st m1).
  Proof.
    intros (I & H & F). destruct e as [n a|n|now r]; cbn [on_event].
    - unfold on_start. destruct (has_child (m_cur m)).
      + destruct (child reg isroot path (m_cur m) n (m_st m)) as [| |i k s1] eqn:C; [intros [= <-]; split; [split; [exact I|split; assumption]|apply grow_refl; reflexivity]|discriminate|].
        destruct (sound_child _ _ _ _ _ _ _ _ _ C H) as [S1 H1].
        destruct (start reg isroot path k n a s1) as [[s2 e]|] eqn:ST; [|discriminate]. apply sound_start in ST.
        assert (S2 : sound path (m_st m) s2) by (eapply sound_trans; eassumption). destruct (S2 I) as [I2 G2]. destruct (S1 I) as [I1 _]. destruct (ST I1) as [_ G3].
        assert (H2 : has path k s2) by (eapply has_grow; eassumption).
        destruct e; intros [= <-]; (split; [|exact G2]; split; [exact I2|split; [exact H2|constructor; [exact H2|exact (has_all _ _ _ G2 F)]]]).
      + intros [= <-]. pose proof (sound_append_token path (m_cur m) (TStart n a) (m_st m)) as S. destruct (S I) as [I2 G2].
        split; [|exact G2]. split; [exact I2|split; [exact (has_grow _ _ _ _ G2 H)|exact (has_all _ _ _ G2 F)]].
    - unfold on_end. destruct (name_eqb _ _).
      + destruct (end_ path (m_cur m) n (m_st m)) as [s|] eqn:E; [|discriminate]. apply sound_end in E. destruct (E I) as [I2 G2].
        destruct (m_stack m) as [|x [|[[k n'] i] r]] eqn:ES; [discriminate| |]; intros [= <-]; (split; [|exact G2]).
        * split; [exact I2|split; [exact (has_grow _ _ _ _ G2 H)|constructor]].
        * pose proof (has_all _ _ _ G2 (Forall_inv_tail F)) as F2. split; [exact I2|split; [exact (Forall_inv F2)|exact F2]].
      + intros [= <-]. pose proof (sound_append_token path (m_cur m) (TEnd n) (m_st m)) as S. destruct (S I) as [I2 G2].
        split; [|exact G2]. split; [exact I2|split; [exact (has_grow _ _ _ _ G2 H)|exact (has_all _ _ _ G2 F)]].
    - intros [= <-]. unfold on_char.
      assert (S : sound path (m_st m) (m_st (on_char path later now r m))).
      { unfold on_char. destruct (m_cur m); cbn [m_st]; first [apply sound_append_token|apply sound_same; reflexivity]. }
      destruct (S I) as [I2 G2]. split; [|exact G2]. split; [exact I2|split; [exact (has_grow _ _ _ _ G2 H)|exact (has_all _ _ _ G2 F)]].
  Qed.
  Definition orel (a b : option Mach) : Prop := match a, b with Some m, Some m' => mrel m m' | None, None => True | _, _ => False end.
  Lemma event_rel e m m' : minv m -> mrel m m' -> orel (on_event reg isroot path later e m) (on_event reg isroot path later e m').
  Proof.
    intros (I & H & F) (ES & EC & EN & EK & EE). destruct e as [n a|n|now r]; cbn [on_event].
    - unfold on_start. rewrite EC, ES. destruct (has_child (m_cur m)).
      + pose proof (pre_child reg isroot path M (m_cur m) n (m_st m) I H) as C.
        destruct (child reg isroot path (m_cur m) n (m_st m)) as [| |i k s1] eqn:C1, (child reg isroot path (m_cur m) n (pre M (m_st m))) as [| |i' k' s1']; cbn [crel] in C; try contradiction;
          [repeat split; assumption|exact Logic.I|]. destruct C as [-> ->].
        destruct (sound_child _ _ _ _ _ _ _ _ _ C1 H) as [S1 H1]. destruct (S1 I) as [I1 _].
        rewrite pre_start by assumption. destruct (start reg isroot path k n a s1) as [[s2 [e|]]|]; cbn [smapp orel]; [| |exact Logic.I];
          assert (SK : srel ((k, n, i) :: m_stack m) ((k, n, i') :: m_stack m')) by (unfold srel; cbn; rewrite EK; reflexivity).
        * repeat split; cbn; try assumption. apply erel_append; [exact EE|]. exact (un_wrap_stack _ _ e e SK eq_refl).
        * repeat split; cbn; assumption.
      + cbn [orel]. rewrite pre_append by assumption. repeat split; cbn; assumption.
    - unfold on_end. rewrite EC, ES, EN. destruct (name_eqb _ _).
      + rewrite pre_end by assumption. destruct (end_ path (m_cur m) n (m_st m)) as [s|]; cbn [option_map]; [|exact Logic.I].
        destruct (m_stack m) as [|x [|[[k n'] i] r]], (m_stack m') as [|x' [|[[k2 n2] i'] r']]; try discriminate EK; cbn [orel]; try exact Logic.I;
          [repeat split; cbn; assumption|]. injection EK as EK1 EK2 EK3 EK4. subst. repeat split; cbn; try assumption. unfold srel. cbn. rewrite EK4. reflexivity.
      + cbn [orel]. rewrite pre_append by assumption. repeat split; cbn; assumption.
    - cbn [orel]. unfold on_char. rewrite EC, ES, EN. repeat split; cbn [m_cur m_st m_name m_stack m_errs]; try assumption.
      destruct (m_cur m); try (rewrite pre_append by assumption; reflexivity). reflexivity.
  Qed.
  Lemma events_rel l : forall m m', minv m -> mrel m m' -> orel (on_events reg isroot path later l m) (on_events reg isroot path later l m').
  Proof.
    induction l as [|e l IH]; intros m m' I R; cbn [on_events]; [exact R|].
    pose proof (event_rel e m m' I R) as E. destruct (on_event reg isroot path later e m) as [m1|] eqn:E1, (on_event reg isroot path later e m'); cbn [orel] in E; try contradiction; [|exact Logic.I].
    apply IH; [exact (proj1 (event_inv _ _ _ I E1))|exact E].
  Qed.
  Lemma events_inv l : forall m m1, minv m -> on_events reg isroot path later l m = Some m1 -> minv m1 /\ grow (m_st m) (m_st m1).
  Proof.
    induction l as [|e l IH]; intros m m1 I; cbn [on_events]; [intros [= <-]; split; [exact I|apply grow_refl; reflexivity]|].
    destruct (on_event reg isroot path later e m) as [m2|] eqn:E; [|discriminate]. intros H. destruct (event_inv _ _ _ I E) as [I2 G2].
    destruct (IH _ _ I2 H) as [I3 G3]. split; [exact I3|]. eapply grow_trans; eassumption.
  Qed.
  (** ** The loop *)
  Context (strict : bool) (every : nat) (ctx : nat -> bool) (fin : xerr).
  Definition derel (a b : derr) : Prop :=
    match a, b with
    | DNone, DNone | DCtx, DCtx => True
    | DScan e, DScan e' => e' = e
    | DErrs e, DErrs e' => unindexed e' = unindexed e
    | _, _ => False
    end.
  Definition drel (a b : dres) : Prop :=
    match a, b with
    | DRet m e n d, DRet m' e' n' d' => m' = onto M m /\ derel e e' /\ n' = n /\ d' = d
    | DPanic, DPanic | DOut, DOut => True
    | _, _ => False
    end.
  Lemma finish_rel a b e : erel a b -> derel (finish strict a e) (finish strict b e).
  Proof.
    intros E. assert (L : List.length b = List.length a) by (rewrite <- (map_length unindexed b), E, map_length; reflexivity).
    destruct e; destruct a as [|x a], b as [|y b]; try discriminate L; cbn [finish derel]; try reflexivity; try exact I.
    rewrite L. injection E as E1 E2. destruct (strict || _); cbn [derel]; [exact E1|]. cbn. rewrite E1, E2. reflexivity.
  Qed.
  Lemma loop_rel f : forall i d m m', minv m -> mrel m m' ->
    drel (decode_loop reg isroot strict path every ctx fin later f i d m) (decode_loop reg isroot strict path every ctx fin later f i d m').
  Proof.
    induction f as [|f IH]; intros i d m m' V R; cbn [decode_loop]; [exact I|]. cbv zeta.
    assert (RET : forall e n d m m', mrel m m' -> drel (DRet (s_model (m_st m)) (finish strict (m_errs m) e) n d) (DRet (s_model (m_st m')) (finish strict (m_errs m') e) n d)).
    { intros e n d1 a b (A & _ & _ & _ & E). cbn [drel]. rewrite A. repeat split. apply finish_rel, E. }
    destruct (raw_token fin true d) as [evs d1|e d1|]; [|apply RET, R|exact I].
    pose proof (events_rel evs m m' V R) as E. destruct (on_events reg isroot path later evs m) as [m1|] eqn:E1, (on_events reg isroot path later evs m') as [m1'|]; cbn [orel] in E; try contradiction; [|exact I].
    assert (L : List.length (m_errs m1') = List.length (m_errs m1)) by (destruct E as (_ & _ & _ & _ & E); rewrite <- (map_length unindexed (m_errs m1')), E, map_length; reflexivity).
    rewrite L. destruct (strict && _); [apply RET, E|]. destruct (_ && _); [apply RET, E|]. apply IH; [exact (proj1 (events_inv _ _ _ V E1))|exact E].
  Qed.
  Lemma onto_emptied : onto M (emptied M) = M.
  Proof. unfold onto, emptied. cbn. rewrite !app_nil_r. destruct M as [? ? ? ? [] [] ? ? ? ? ? ? ? ?]. reflexivity. Qed.
  Lemma init_minv m : minv (m_init m).
  Proof. repeat split; cbn; try discriminate. constructor. Qed.
  Lemma init_mrel m : mrel (m_init m) (m_init (onto M m)).
  Proof. repeat split. Qed.
  Lemma with_onto input m : drel (decode_with reg isroot strict path every ctx fin later input m) (decode_with reg isroot strict path every ctx fin later input (onto M m)).
  Proof. unfold decode_with. apply loop_rel; [apply init_minv|apply init_mrel]. Qed.
End Machine.
Lemma file_onto reg isroot strict path every ctx fin input M m :
  drel M (decode_file reg isroot strict path every ctx fin input m) (decode_file reg isroot strict path every ctx fin input (onto M m)).
Proof.
  unfold decode_file. pose proof (with_onto reg isroot path (fun _ => "") M strict every ctx fin input m) as R.
  destruct (decode_with reg isroot strict path every ctx fin (fun _ => "") input m), (decode_with reg isroot strict path every ctx fin (fun _ => "") input (onto M m)); cbn [drel] in R; try contradiction; try exact I.
  destruct R as (_ & _ & _ & ->). apply with_onto.
Qed.
