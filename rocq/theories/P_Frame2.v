(** * Proofs: the decoder of a child file reads and writes nothing but the resources of its child and the Any of the model

    [emb2 F s] is the state [s] with another model [F], except that the resources at [path] and the Any are those of [s]. *)
From Coq Require Import ZArith.
From Verif Require Import GoBase GoNum GoUtf8 GoFloat GoStrconv Types XmlTypes M_Core M_Errors M_Text M_Xml M_Decode S_Xml S_Decode P_Xml P_Decode P_Panic P_State P_Frame.
From Verif Require Import Types.

Section Frame2.
  Context (reg : Reg) (path : string) (later : Ref -> string).
  Definition fr (F : Model) (s : DSt) : Model := mo_set_any (mo_any (s_model s)) F.
  Definition emb2 (F : Model) (s : DSt) : DSt := emb path (fr F s) s.
  Definition with_any (l : list AnyElem) (s : DSt) : DSt := with_model (mo_set_any l (s_model s)) s.
  Ltac rs := unfold res_set; cbn [s_model with_model]; repeat match goal with |- context [if ?b then _ else _] => destruct b | |- context [match find_child ?a ?b with _ => _ end] => destruct (find_child a b) end; try reflexivity.
  Lemma any_emb2 F s : mo_any (s_model (emb2 F s)) = mo_any (s_model s).
  Proof. unfold emb2, emb. rs. Qed.
  Lemma emb2_any F l s : emb2 F (with_any l s) = with_any l (emb2 F s).
  Proof.
    unfold emb2, emb. change (getr path (with_any l s)) with (getr path s). generalize (getr path s). intros r. unfold res_set.
    change (s_model (with_model (fr F (with_any l s)) (with_any l s))) with (mo_set_any l F). change (s_model (with_model (fr F s) s)) with (mo_set_any (mo_any (s_model s)) F).
    change (mo_path (mo_set_any l F)) with (mo_path F). change (mo_path (mo_set_any (mo_any (s_model s)) F)) with (mo_path F).
    destruct (_ || _); [reflexivity|]. change (find_child (mo_set_any l F) path) with (find_child F path). change (find_child (mo_set_any (mo_any (s_model s)) F) path) with (find_child F path).
    destruct (find_child F path); reflexivity.
  Qed.
  Lemma emb2_slice F o s : emb2 F (with_slice o s) = with_slice o (emb2 F s). Proof. apply (emb_slice path (fr F s)). Qed.
  Lemma emb2_bset F o s : emb2 F (with_set o s) = with_set o (emb2 F s). Proof. apply (emb_bset path (fr F s)). Qed.
  Lemma emb2_s_slice F s : s_slice (emb2 F s) = s_slice s. Proof. apply emb_s_slice. Qed.
  Lemma emb2_s_set F s : s_set (emb2 F s) = s_set s. Proof. apply emb_s_set. Qed.
  Lemma emb2_get_ext F s : get_ext path LModel (emb2 F s) = get_ext path LModel s.
  Proof. cbn [get_ext]. rewrite any_emb2. reflexivity. Qed.
  Lemma emb2_upd_any F f s : upd_any path LModel f (emb2 F s) = emb2 F (upd_any path LModel f s).
  Proof. cbn [upd_any]. rewrite any_emb2. symmetry. apply (emb2_any F (upd_last f (mo_any (s_model s))) s). Qed.
  Lemma emb2_upd_ext F f s : upd_ext path LModel f (emb2 F s) = emb2 F (upd_ext path LModel f s).
  Proof. apply emb2_upd_any. Qed.
  Definition cmap2 (F : Model) (c : cres) : cres := match c with COk i k s => COk i k (emb2 F s) | c => c end.
  Definition smap2 (F : Model) (o : option (DSt * error)) : option (DSt * error) := match o with Some (s, e) => Some (emb2 F s, e) | None => None end.
  Ltac ifs := repeat match goal with |- context [if ?b then _ else _] => destruct b end.
  Lemma emb2_ext_child F x n s : ext_child path LModel x n (emb2 F s) = cmap2 F (ext_child path LModel x n s).
  Proof. destruct x; cbn [ext_child]; rewrite ?emb2_get_ext, ?emb2_s_slice, ?emb2_s_set; ifs; cbn [cmap2]; rewrite ?emb2_slice, ?emb2_bset; reflexivity. Qed.
  Lemma smap2_fin {A} F (r : option (A * error)) (f g : A -> DSt) : (forall v, g v = emb2 F (f v)) ->
    match r with Some (v, e) => Some (g v, e) | None => None end = smap2 F (match r with Some (v, e) => Some (f v, e) | None => None end).
  Proof. intros H. destruct r as [[v e]|]; [|reflexivity]. cbn [smap2]. rewrite H. reflexivity. Qed.
  Lemma emb2_ext_start F x a s : ext_start path LModel x a (emb2 F s) = smap2 F (ext_start path LModel x a s).
  Proof.
    destruct x; cbn [ext_start]; rewrite ?emb2_get_ext, ?emb2_s_slice, ?emb2_s_set;
      try (apply smap2_fin; intros v; rewrite ?emb2_slice, ?emb2_bset; try reflexivity; apply emb2_upd_ext);
      try reflexivity;
      try (destruct (first_attr _ _) as [a0|]; [match goal with |- context [let (_, _) := ?p in _] => destruct p end|]; cbn [smap2];
           rewrite ?emb2_slice, ?emb2_bset; try reflexivity; rewrite emb2_upd_ext; reflexivity).
    cbn [smap2]. rewrite emb2_bset. reflexivity.
  Qed.
  Lemma emb2_ext_end F x n s : end_ path (KExt LModel x) n (emb2 F s) = option_map (emb2 F) (end_ path (KExt LModel x) n s).
  Proof. destruct x; cbn [end_ option_map]; try reflexivity; rewrite ?emb2_s_slice, ?emb2_s_set, emb2_upd_ext; reflexivity. Qed.

  (** The decoders a child file can have *)
  Definition okk2 (k : DK) : bool :=
    match k with KBuild | KItem | KMetaGroup MModel | KMetaGroup MItem | KMeta MModel | KMeta MItem => false | _ => true end.
  Definition okm2 (m : Mach) : Prop := okk2 (m_cur m) = true /\ Forall (fun e => okk2 (fst (fst e)) = true) (m_stack m).
  Lemma okk_okk2 k : okk k = true -> okk2 k = true.
  Proof. destruct k; try discriminate; try reflexivity; destruct l; try discriminate; reflexivity. Qed.
  Lemma okk2_cases k : okk2 k = true -> okk k = true \/ k = KUnk LModel \/ exists x, k = KExt LModel x.
  Proof. destruct k; try discriminate; auto; destruct l; try discriminate; eauto. Qed.
  Lemma child_okk2 k n s i k' s' : okk2 k = true -> child reg false path k n s = COk i k' s' -> okk2 k' = true.
  Proof.
    intros K C. apply okk2_cases in K as [K|[->|(x & ->)]].
    - destruct (foreign reg k n) eqn:Fo; [|apply okk_okk2; eapply child_okk; eassumption]. destruct k; try discriminate Fo. cbn [foreign child] in *. unfold model_child in C.
      destruct (seq (nspace n) ns_core); [discriminate Fo|]. unfold new_element_decoder in C. destruct (load reg (nspace n)) as [sp|]; [destruct (ext_decoder sp (nlocal n)) as [[x e]|]; [|discriminate]|]; injection C as <- <- <-; reflexivity.
    - discriminate C.
    - revert C. destruct x; cbn [child ext_child]; ifs; intros [= <- <- <-]; reflexivity.
  Qed.
  Definition memb2 (F : Model) (m : Mach) : Mach := mkM (emb2 F (m_st m)) (m_cur m) (m_name m) (m_stack m) (m_errs m).
  (** Storing the resources that are there changes nothing. *)
  Definition Self (s : DSt) : Prop := res_set path (getr path s) s = s.
  Lemma self_emb F s : emb path F s = s -> Self s.
  Proof. unfold Self. intros E. rewrite <- E at 2. unfold emb at 1. rewrite res_set_set. exact E. Qed.
  Lemma self_any l s : Self s -> Self (with_any l s).
  Proof.
    unfold Self. intros E. change (getr path (with_any l s)) with (getr path s). rewrite <- E at 3. generalize (getr path s). intros r. unfold res_set.
    change (s_model (with_any l s)) with (mo_set_any l (s_model s)). change (mo_path (mo_set_any l (s_model s))) with (mo_path (s_model s)).
    destruct (_ || _); [reflexivity|]. change (find_child (mo_set_any l (s_model s)) path) with (find_child (s_model s) path). destruct (find_child (s_model s) path); reflexivity.
  Qed.
  Lemma self_regs s s' : s_model s' = s_model s -> with_model (s_model s) s' = s' -> Self s -> Self s'.
  Proof.
    unfold Self. intros E1 E2 E. assert (G : getr path s' = getr path s) by (unfold getr, res_get; rewrite E1; reflexivity). rewrite G. revert E. unfold res_set. rewrite E1.
    destruct (_ || _); [|destruct (find_child _ _); [|reflexivity]]; intros E; apply (f_equal s_model) in E; cbn [with_model s_model] in E; rewrite E; exact E2.
  Qed.
  Lemma emb_self s : Self s -> emb path (s_model s) s = s.
  Proof. intros E. unfold emb. assert (X : with_model (s_model s) s = s) by (destruct s; reflexivity). rewrite X. exact E. Qed.
  (** An event that does not concern the Any of the model *)
  Lemma strict_event F e m : find_resources F path <> None -> okk (m_cur m) = true -> Good path (m_st m) -> mo_exts (s_model (m_st m)) = mo_exts F -> foreign_event reg e m = false ->
    on_event reg false path later e (memb path F m) = option_map (memb path F) (on_event reg false path later e m).
  Proof.
    intros HF K G X Fo. destruct e as [n a|n|now r]; cbn [on_event foreign_event] in *.
    - unfold on_start. cbn [memb m_cur m_st m_name m_stack m_errs]. destruct (has_child (m_cur m)).
      + rewrite (emb_child reg path F HF) by assumption. destruct (child reg false path (m_cur m) n (m_st m)) as [| |i k s1] eqn:C; cbn [cmap]; [reflexivity..|].
        pose proof (child_okk _ _ _ _ _ _ _ _ K Fo C) as K1. pose proof (place_child _ _ _ _ _ _ _ _ _ C) as P1. apply keep_child in C as [[X1 _] _].
        rewrite (emb_start reg path F HF); [|eapply good_place; eassumption|congruence|exact K1].
        destruct (start reg false path k n a s1) as [[s2 [e|]]|]; reflexivity.
      + cbn [option_map]. rewrite (emb_append path F HF) by assumption. reflexivity.
    - unfold on_end. cbn [memb m_cur m_st m_name m_stack m_errs]. destruct (name_eqb _ _).
      + rewrite (emb_end path F HF) by assumption. destruct (end_ path (m_cur m) n (m_st m)); cbn [option_map]; [|reflexivity].
        destruct (m_stack m) as [|x [|[[k n'] i] r]]; reflexivity.
      + cbn [option_map]. rewrite (emb_append path F HF) by assumption. reflexivity.
    - cbn [option_map]. unfold on_char, memb. cbn [m_cur m_st m_name m_stack m_errs].
      destruct (m_cur m); try (rewrite (emb_append path F HF) by assumption; reflexivity). rewrite emb_meta, emb_s_meta. reflexivity.
  Qed.
  Lemma strict_any e m m1 : okk (m_cur m) = true -> Good path (m_st m) -> Self (m_st m) -> foreign_event reg e m = false ->
    on_event reg false path later e m = Some m1 -> mo_any (s_model (m_st m1)) = mo_any (s_model (m_st m)) /\ Self (m_st m1).
  Proof.
    intros K G SF Fo E. pose proof (strict_event (s_model (m_st m)) e m G K G eq_refl Fo) as H.
    assert (X : memb path (s_model (m_st m)) m = m) by (unfold memb; rewrite emb_self by exact SF; destruct m; reflexivity). rewrite X, E in H. cbn [option_map] in H. injection H as H.
    apply (f_equal m_st) in H. cbn [memb m_st] in H. split; [|apply (self_emb (s_model (m_st m))); auto]. rewrite H. unfold emb. rs.
  Qed.
  Lemma fr_res F s : find_resources F path <> None -> find_resources (fr F s) path <> None.
  Proof. exact (fun H => H). Qed.
  Lemma emb2_event F e m : find_resources F path <> None -> okk2 (m_cur m) = true -> Good path (m_st m) -> Self (m_st m) -> mo_exts (s_model (m_st m)) = mo_exts F ->
    on_event reg false path later e (memb2 F m) = option_map (memb2 F) (on_event reg false path later e m).
  Proof.
    intros HF K G SF X. apply okk2_cases in K as K'. destruct K' as [K'|K'].
    - destruct (foreign_event reg e m) eqn:Fo.
      + destruct e as [n a|n|now r]; try discriminate Fo. cbn [on_event foreign_event] in *. destruct (m_cur m) eqn:EC; try discriminate Fo. cbn [foreign] in Fo.
        unfold on_start. cbn [memb2 m_cur m_st m_name m_stack m_errs]. rewrite EC. cbn [has_child child]. unfold model_child. destruct (seq (nspace n) ns_core); [discriminate Fo|].
        destruct (new_element_decoder reg LModel n) as [[k e]|] eqn:ND; [|discriminate Fo]. rewrite any_emb2.
        assert (E1 : with_model (mo_set_any (mo_any (s_model (m_st m)) ++ [e]) (s_model (emb2 F (m_st m)))) (emb2 F (m_st m)) = emb2 F (with_any (mo_any (s_model (m_st m)) ++ [e]) (m_st m))) by (symmetry; apply emb2_any).
        rewrite E1. fold (with_any (mo_any (s_model (m_st m)) ++ [e]) (m_st m)). generalize (with_any (mo_any (s_model (m_st m)) ++ [e]) (m_st m)). intros s1.
        assert (ST : start reg false path k n a (emb2 F s1) = smap2 F (start reg false path k n a s1)).
        { unfold new_element_decoder in ND. destruct (load reg (nspace n)) as [sp|]; [destruct (ext_decoder sp (nlocal n)) as [[x e']|]; [|discriminate]|]; injection ND as <- <-; cbn [start]; [apply emb2_ext_start|].
          cbn [smap2]. rewrite emb2_upd_any. reflexivity. }
        rewrite ST. destruct (start reg false path k n a s1) as [[s2 [e1|]]|]; reflexivity.
      + change (memb2 F m) with (memb path (fr F (m_st m)) m). rewrite strict_event by (auto; exact X).
        destruct (on_event reg false path later e m) as [m1|] eqn:E; [|reflexivity]. cbn [option_map]. destruct (strict_any e m m1 K' G SF Fo E) as [A _]. unfold memb, memb2, emb2, fr. rewrite A. reflexivity.
    - assert (AP : forall t, append_token path (m_cur m) t (emb2 F (m_st m)) = emb2 F (append_token path (m_cur m) t (m_st m))).
      { intros t. destruct K' as [->|(x & ->)]; cbn [append_token]; [apply emb2_upd_any|reflexivity]. }
      destruct e as [n a|n|now r]; cbn [on_event].
      + unfold on_start. cbn [memb2 m_cur m_st m_name m_stack m_errs]. destruct (has_child (m_cur m)) eqn:HC.
        * destruct K' as [K'|(x & K')]; rewrite K' in *; [discriminate HC|]. cbn [child]. rewrite emb2_ext_child. destruct (ext_child path LModel x n (m_st m)) as [| |i k s1] eqn:C; cbn [cmap2]; [reflexivity..|].
          assert (KX : exists y, k = KExt LModel y) by (revert C; destruct x; cbn [ext_child]; ifs; intros [= <- <- <-]; eauto). destruct KX as (y & ->). cbn [start]. rewrite emb2_ext_start.
          destruct (ext_start path LModel y a s1) as [[s2 [e1|]]|]; reflexivity.
        * cbn [option_map]. rewrite AP. reflexivity.
      + unfold on_end. cbn [memb2 m_cur m_st m_name m_stack m_errs]. destruct (name_eqb _ _).
        * assert (EN : end_ path (m_cur m) n (emb2 F (m_st m)) = option_map (emb2 F) (end_ path (m_cur m) n (m_st m))).
          { destruct K' as [->|(x & ->)]; [|apply emb2_ext_end]. cbn [end_ option_map append_token]. rewrite emb2_upd_any. reflexivity. }
          rewrite EN. destruct (end_ path (m_cur m) n (m_st m)); cbn [option_map]; [|reflexivity]. destruct (m_stack m) as [|x [|[[k n'] i] r]]; reflexivity.
        * cbn [option_map]. rewrite AP. reflexivity.
      + cbn [option_map]. unfold on_char, memb2. cbn [m_cur m_st m_name m_stack m_errs]. destruct K' as [K'|(x & K')]; rewrite K' in *; rewrite AP; reflexivity.
  Qed.
  Lemma self_upd_any f s : Self s -> Self (upd_any path LModel f s).
  Proof. apply (self_any (upd_last f (mo_any (s_model s)))). Qed.
  Ltac sr := first [apply self_upd_any|eapply self_regs; [| |eassumption]; [reflexivity|match goal with |- context [s_model ?s] => destruct s; reflexivity end]|idtac].
  Lemma self_ext_child x n s i k s' : Self s -> ext_child path LModel x n s = COk i k s' -> Self s'.
  Proof. intros SF. destruct x; cbn [ext_child]; ifs; intros [= <- <- <-]; auto; sr. Qed.
  Lemma self_ext_start x a s s' e : Self s -> ext_start path LModel x a s = Some (s', e) -> Self s'.
  Proof.
    intros SF. assert (Fn : forall A (r : option (A * error)) (f : A -> DSt) y, (forall v, Self (f v)) ->
      match r with Some (v, e) => Some (f v, e) | None => None end = Some y -> Self (fst y)).
    { intros A [[v e0]|] f y H [= <-]. apply H. }
    destruct x; cbn [ext_start]; try (intros [= <- <-]; auto; sr; auto; fail); try (intros H; eapply Fn in H; [exact H|]; intros v; sr; auto; fail);
      try (destruct (first_attr _ _) as [a0|]; [match goal with |- context [let (_, _) := ?p in _] => destruct p end|]; intros [= <- <-]; auto; sr; auto; fail).
  Qed.
  Lemma self_event e m m1 : okk2 (m_cur m) = true -> Good path (m_st m) -> Self (m_st m) -> on_event reg false path later e m = Some m1 -> Self (m_st m1).
  Proof.
    intros K G SF. apply okk2_cases in K as K'. destruct K' as [K'|K'].
    - destruct (foreign_event reg e m) eqn:Fo; [|intros E; eapply strict_any; eassumption].
      destruct e as [n a|n|now r]; try discriminate Fo. cbn [on_event foreign_event] in *. destruct (m_cur m) eqn:EC; try discriminate Fo. cbn [foreign] in Fo.
      unfold on_start. rewrite EC. cbn [has_child child]. unfold model_child. destruct (seq (nspace n) ns_core); [discriminate Fo|].
      destruct (new_element_decoder reg LModel n) as [[k e]|] eqn:ND; [|discriminate Fo]. pose proof (self_any (mo_any (s_model (m_st m)) ++ [e]) _ SF) as S1. unfold with_any in S1. revert S1.
      generalize (with_model (mo_set_any (mo_any (s_model (m_st m)) ++ [e]) (s_model (m_st m))) (m_st m)). intros s1 S1.
      destruct (start reg false path k n a s1) as [[s2 e1]|] eqn:ST; [|discriminate]. assert (S2 : Self s2).
      { unfold new_element_decoder in ND. destruct (load reg (nspace n)) as [sp|]; [destruct (ext_decoder sp (nlocal n)) as [[x e']|]; [|discriminate]|]; injection ND as <- <-; cbn [start] in ST; [eapply self_ext_start; eassumption|].
        injection ST as <- _. apply self_upd_any, S1. }
      destruct e1; intros [= <-]; exact S2.
    - assert (AP : forall t, Self (append_token path (m_cur m) t (m_st m))) by (intros t; destruct K' as [->|(x & ->)]; cbn [append_token]; [apply self_upd_any, SF|exact SF]).
      destruct e as [n a|n|now r]; cbn [on_event].
      + unfold on_start. destruct (has_child (m_cur m)) eqn:HC; [|intros [= <-]; apply AP].
        destruct K' as [K'|(x & K')]; rewrite K' in *; [discriminate HC|]. cbn [child]. destruct (ext_child path LModel x n (m_st m)) as [| |i k s1] eqn:C; [intros [= <-]; exact SF|discriminate|].
        assert (KX : exists y, k = KExt LModel y) by (revert C; destruct x; cbn [ext_child]; ifs; intros [= <- <- <-]; eauto). destruct KX as (y & ->). cbn [start]. apply self_ext_child in C; [|exact SF].
        destruct (ext_start path LModel y a s1) as [[s2 e1]|] eqn:ST; [|discriminate]. apply self_ext_start in ST; [|exact C]. destruct e1; intros [= <-]; exact ST.
      + unfold on_end. destruct (name_eqb _ _); [|intros [= <-]; apply AP].
        destruct (end_ path (m_cur m) n (m_st m)) as [s1|] eqn:EN; [|discriminate]. assert (S1 : Self s1).
        { destruct K' as [K'|(x & K')]; rewrite K' in *; [injection EN as <-; apply AP|]. destruct x; cbn [end_] in EN; injection EN as <-; auto; apply self_upd_any, SF. }
        destruct (m_stack m) as [|x [|[[k n'] i] r]]; [discriminate| |]; intros [= <-]; exact S1.
      + intros [= <-]. unfold on_char. destruct K' as [K'|(x & K')]; rewrite K' in *; apply AP.
  Qed.
  Lemma ok_event e m m1 : okm2 m -> Good path (m_st m) -> on_event reg false path later e m = Some m1 -> okm2 m1 /\ Good path (m_st m1).
  Proof.
    intros [K KS] G. destruct e as [n a|n|now r]; cbn [on_event] in *.
    - unfold on_start. destruct (has_child (m_cur m)).
      + destruct (child reg false path (m_cur m) n (m_st m)) as [| |i k s1] eqn:C; [intros [= <-]; repeat split; assumption|discriminate|].
        pose proof (child_okk2 _ _ _ _ _ _ K C) as K1. pose proof (place_child _ _ _ _ _ _ _ _ _ C) as P1.
        destruct (start reg false path k n a s1) as [[s2 e]|] eqn:ST; [|discriminate]. pose proof (place_start _ _ _ _ _ _ _ _ _ ST) as P2.
        assert (G2 : Good path s2) by (eapply good_place; [|exact G]; congruence).
        destruct e; intros [= <-]; (split; [split; [exact K1|constructor; assumption]|exact G2]).
      + intros [= <-]. split; [split; assumption|]. eapply good_place; [|exact G]. apply place_append_token.
    - unfold on_end. destruct (name_eqb _ _).
      + destruct (end_ path (m_cur m) n (m_st m)) as [s|] eqn:E; [|discriminate]. apply place_end in E. assert (G2 : Good path s) by (eapply good_place; eassumption).
        destruct (m_stack m) as [|x [|[[k n'] i] r]] eqn:ES; [discriminate| |]; intros [= <-].
        * split; [split; [exact K|constructor]|exact G2].
        * inversion KS as [|? ? _ KS1]; subst. split; [split; [|exact KS1]|exact G2]. inversion KS1; assumption.
      + intros [= <-]. split; [split; assumption|]. eapply good_place; [|exact G]. apply place_append_token.
    - intros [= <-]. split; [unfold on_char, okm2; cbn [m_cur m_stack]; split; assumption|]. eapply good_place; [|exact G]. unfold on_char. destruct (m_cur m); cbn [m_st]; try apply place_append_token; reflexivity.
  Qed.
  Lemma emb2_events F l : find_resources F path <> None -> forall m m', okm2 m -> Good path (m_st m) -> Self (m_st m) -> mo_exts (s_model (m_st m)) = mo_exts F ->
    on_events reg false path later l m = Some m' ->
    on_events reg false path later l (memb2 F m) = Some (memb2 F m') /\ okm2 m' /\ Good path (m_st m') /\ Self (m_st m').
  Proof.
    intros HF. induction l as [|e l IH]; cbn [on_events]; intros m m' K G SF X; [intros [= <-]; auto|].
    destruct (on_event reg false path later e m) as [m1|] eqn:E; [|discriminate]. intros H.
    destruct (keep_event _ _ _ _ _ _ E) as [[X1 _] _]. rewrite (emb2_event F) by (first [assumption|apply K]). rewrite E. cbn [option_map].
    destruct (ok_event _ _ _ K G E) as [K1 G1]. apply IH; try assumption; [eapply self_event; [apply K|..]; eassumption|congruence].
  Qed.
End Frame2.
