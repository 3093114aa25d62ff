(** * Proofs: the decoder of a child file reads and writes nothing but the resources of its child

    [emb F s] is the state [s] with another model [F], except that the resources at [path] are those of [s]. *)
From Coq Require Import ZArith.
From Verif Require Import GoBase GoNum GoUtf8 GoFloat GoStrconv Types XmlTypes M_Core M_Errors M_Text M_Xml M_Decode S_Xml S_Decode P_Xml P_Decode P_Panic P_State.

Section Frame.
  Context (reg : Reg) (path : string) (later : Ref -> string).
  Context (F : Model) (HF : find_resources F path <> None).
  Definition getr (s : DSt) : Resources := match res_get path s with Some r => r | None => res_zero end.
  Definition emb (s : DSt) : DSt := res_set path (getr s) (with_model F s).
  Definition Good (s : DSt) : Prop := res_get path s <> None.
  Ltac rs := unfold res_set; cbn [s_model with_model with_obj with_item with_bm with_meta with_slice with_set with_unk]; repeat match goal with |- context [if ?b then _ else _] => destruct b | |- context [match find_child ?a ?b with _ => _ end] => destruct (find_child a b) end; reflexivity.
  Lemma res_set_obj r o b s : res_set path r (with_obj o b s) = with_obj o b (res_set path r s). Proof. rs. Qed.
  Lemma res_set_item r o b s : res_set path r (with_item o b s) = with_item o b (res_set path r s). Proof. rs. Qed.
  Lemma res_set_bm r o b s : res_set path r (with_bm o b s) = with_bm o b (res_set path r s). Proof. rs. Qed.
  Lemma res_set_meta r o s : res_set path r (with_meta o s) = with_meta o (res_set path r s). Proof. rs. Qed.
  Lemma res_set_slice r o s : res_set path r (with_slice o s) = with_slice o (res_set path r s). Proof. rs. Qed.
  Lemma res_set_bset r o s : res_set path r (with_set o s) = with_set o (res_set path r s). Proof. rs. Qed.
  Lemma res_set_unk r o b s : res_set path r (with_unk o b s) = with_unk o b (res_set path r s). Proof. rs. Qed.
  Lemma emb_obj o b s : emb (with_obj o b s) = with_obj o b (emb s). Proof. apply (res_set_obj (getr s) o b (with_model F s)). Qed.
  Lemma emb_bm o b s : emb (with_bm o b s) = with_bm o b (emb s). Proof. apply (res_set_bm (getr s) o b (with_model F s)). Qed.
  Lemma emb_meta o s : emb (with_meta o s) = with_meta o (emb s). Proof. apply (res_set_meta (getr s) o (with_model F s)). Qed.
  Lemma emb_slice o s : emb (with_slice o s) = with_slice o (emb s). Proof. apply (res_set_slice (getr s) o (with_model F s)). Qed.
  Lemma emb_bset o s : emb (with_set o s) = with_set o (emb s). Proof. apply (res_set_bset (getr s) o (with_model F s)). Qed.
  Lemma emb_unk o b s : emb (with_unk o b s) = with_unk o b (emb s). Proof. apply (res_set_unk (getr s) o b (with_model F s)). Qed.
  Lemma with_model_res_set r s : with_model F (res_set path r s) = with_model F s. Proof. rs. Qed.
  Lemma emb_get s : Good s -> res_get path (emb s) = res_get path s.
  Proof. intros G. unfold emb. rewrite res_get_set by exact HF. unfold getr. unfold Good in G. destruct (res_get path s); [reflexivity|congruence]. Qed.
  Lemma emb_set r s : Good s -> emb (res_set path r s) = res_set path r (emb s).
  Proof. intros G. unfold emb, getr at 1. rewrite res_get_set by exact G. rewrite with_model_res_set, res_set_set. reflexivity. Qed.
  Lemma regs_res_set r s : with_model F (res_set path r s) = with_model F s. Proof. rs. Qed.
  Lemma emb_reg {A} (f : DSt -> A) s : (forall m x, f (with_model m x) = f x) -> f (emb s) = f s.
  Proof. intros H. rewrite <- (H F (emb s)). unfold emb. rewrite with_model_res_set. rewrite !H. reflexivity. Qed.
  Lemma emb_s_obj s : s_obj (emb s) = s_obj s. Proof. apply emb_reg. reflexivity. Qed.
  Lemma emb_s_obj_done s : s_obj_done (emb s) = s_obj_done s. Proof. apply emb_reg. reflexivity. Qed.
  Lemma emb_s_bm s : s_bm (emb s) = s_bm s. Proof. apply emb_reg. reflexivity. Qed.
  Lemma emb_s_bm_done s : s_bm_done (emb s) = s_bm_done s. Proof. apply emb_reg. reflexivity. Qed.
  Lemma emb_s_meta s : s_meta (emb s) = s_meta s. Proof. apply emb_reg. reflexivity. Qed.
  Lemma emb_s_slice s : s_slice (emb s) = s_slice s. Proof. apply emb_reg. reflexivity. Qed.
  Lemma emb_s_set s : s_set (emb s) = s_set s. Proof. apply emb_reg. reflexivity. Qed.
  Lemma emb_s_unk s : s_unk (emb s) = s_unk s. Proof. apply emb_reg. reflexivity. Qed.
  Lemma emb_s_unk_id s : s_unk_id (emb s) = s_unk_id s. Proof. apply emb_reg. reflexivity. Qed.
  Lemma emb_exts s : mo_exts (s_model (emb s)) = mo_exts F.
  Proof. unfold emb. rs. Qed.
  Lemma emb_get_obj s : Good s -> get_obj path (emb s) = get_obj path s.
  Proof. intros G. unfold get_obj. rewrite emb_s_obj_done, emb_s_obj, emb_get by exact G. reflexivity. Qed.
  Lemma emb_upd_obj f s : Good s -> upd_obj path f (emb s) = emb (upd_obj path f s).
  Proof.
    intros G. unfold upd_obj. rewrite emb_s_obj_done, emb_s_obj, emb_get by exact G. destruct (s_obj_done s); [|symmetry; apply emb_obj].
    unfold Good in G. destruct (res_get path s) eqn:E; [|congruence]. symmetry. apply emb_set. unfold Good. congruence.
  Qed.
  Lemma emb_get_bm s : Good s -> get_bm path (emb s) = get_bm path s.
  Proof. intros G. unfold get_bm. rewrite emb_s_bm_done, emb_s_bm, emb_get by exact G. reflexivity. Qed.
  Lemma emb_upd_bm f s : Good s -> upd_bm path f (emb s) = emb (upd_bm path f s).
  Proof.
    intros G. unfold upd_bm. rewrite emb_s_bm_done, emb_s_bm, emb_get by exact G. destruct (s_bm_done s); [|symmetry; apply emb_bm].
    unfold Good in G. destruct (res_get path s) eqn:E; [|congruence]. symmetry. apply emb_set. unfold Good. congruence.
  Qed.
  Lemma emb_get_mesh s : Good s -> get_mesh path (emb s) = get_mesh path s.
  Proof. intros G. unfold get_mesh. rewrite emb_get_obj by exact G. reflexivity. Qed.
  Lemma emb_upd_mesh f s : Good s -> upd_mesh path f (emb s) = emb (upd_mesh path f s).
  Proof. apply emb_upd_obj. Qed.
  Lemma emb_get_ext l s : Good s -> l <> LModel -> get_ext path l (emb s) = get_ext path l s.
  Proof. intros G N. destruct l; cbn [get_ext]; [rewrite emb_get by exact G; reflexivity|congruence|rewrite emb_get_mesh by exact G; reflexivity]. Qed.
  Lemma emb_upd_any l f s : Good s -> l <> LModel -> upd_any path l f (emb s) = emb (upd_any path l f s).
  Proof. intros G N. destruct l; cbn [upd_any]; [reflexivity|congruence|apply emb_upd_mesh, G]. Qed.
  Lemma emb_upd_ext l f s : Good s -> l <> LModel -> upd_ext path l f (emb s) = emb (upd_ext path l f s).
  Proof.
    intros G N. destruct l; cbn [upd_ext]; [|congruence|apply emb_upd_any; assumption]. rewrite emb_get by exact G.
    unfold Good in G. destruct (res_get path s) eqn:E; [|congruence]. symmetry. apply emb_set. unfold Good. congruence.
  Qed.

  (** The decoders a child file can have, unless an element of another namespace is in its model element *)
  Definition okk (k : DK) : bool :=
    match k with
    | KBuild | KItem | KMetaGroup MModel | KMetaGroup MItem | KMeta MModel | KMeta MItem | KUnk LModel | KExt LModel _ => false
    | _ => true
    end.
  Definition cmap (c : cres) : cres := match c with COk i k s => COk i k (emb s) | c => c end.
  Definition smap (o : option (DSt * error)) : option (DSt * error) := match o with Some (s, e) => Some (emb s, e) | None => None end.
  Ltac ifs := repeat match goal with |- context [if ?b then _ else _] => destruct b end.
  Definition foreign (k : DK) (n : Name) : bool :=
    match k with KModel => negb (seq (nspace n) ns_core) && match new_element_decoder reg LModel n with Some _ => true | None => false end | _ => false end.
  Lemma emb_ext_child l x n s : Good s -> l <> LModel -> ext_child path l x n (emb s) = cmap (ext_child path l x n s).
  Proof.
    intros G N. destruct x; cbn [ext_child]; rewrite ?(emb_get_ext l s G N), ?emb_s_slice, ?emb_s_set; ifs; cbn [cmap]; rewrite ?emb_slice, ?emb_bset; reflexivity.
  Qed.
  Lemma emb_child k n s : Good s -> okk k = true -> foreign k n = false -> child reg false path k n (emb s) = cmap (child reg false path k n s).
  Proof.
    intros G K Fo. destruct k; try discriminate K; cbn [child]; try reflexivity;
      rewrite ?(emb_get_obj s G), ?(emb_get_mesh s G), ?(emb_get_bm s G); try (ifs; reflexivity).
    - unfold model_child. cbn [foreign] in Fo. destruct (seq (nspace n) ns_core); cbn [negb andb] in Fo; [ifs; reflexivity|].
      destruct (new_element_decoder reg LModel n) as [[? ?]|]; [discriminate|reflexivity].
    - destruct l; try discriminate K. cbn [get_md]. rewrite (emb_get_obj s G). ifs; cbn [cmap]; rewrite ?emb_meta; reflexivity.
    - unfold res_child. rewrite <- emb_bm, <- emb_unk. rewrite !emb_get by exact G. unfold Good in G.
      change (res_get path (with_bm bm_zero false s)) with (res_get path s). change (res_get path (with_unk [] 0 s)) with (res_get path s).
      destruct (res_get path s) as [r|] eqn:E; [|congruence].
      assert (G1 : Good s) by (unfold Good; congruence).
      ifs; cbn [cmap]; rewrite ?emb_obj, ?emb_bm; try reflexivity.
      + f_equal. rewrite <- emb_bm. symmetry. apply emb_set. exact G1.
      + destruct (load reg (nspace n)) as [sp|].
        * destruct (ext_decoder sp (nlocal n)) as [[x []]|]; cbn [cmap]; try reflexivity; f_equal; symmetry; apply emb_set; exact G1.
        * cbn [cmap]. f_equal. symmetry. apply emb_set. exact G1.
    - unfold mesh_child. ifs; try reflexivity. unfold new_element_decoder. destruct (load reg (nspace n)) as [sp|].
      + destruct (ext_decoder sp (nlocal n)) as [[x e]|]; [|reflexivity]. cbn [cmap]. f_equal. apply emb_upd_mesh, G.
      + cbn [cmap]. f_equal. apply emb_upd_mesh, G.
    - apply emb_ext_child; [exact G|]. intros ->. discriminate K.
  Qed.
  Lemma smap_fin {A} (r : option (A * error)) (f g : A -> DSt) : (forall v, g v = emb (f v)) ->
    match r with Some (v, e) => Some (g v, e) | None => None end = smap (match r with Some (v, e) => Some (f v, e) | None => None end).
  Proof. intros H. destruct r as [[v e]|]; [|reflexivity]. cbn [smap]. rewrite H. reflexivity. Qed.
  Lemma emb_ext_start l x a s : Good s -> l <> LModel -> ext_start path l x a (emb s) = smap (ext_start path l x a s).
  Proof.
    intros G N. destruct x; cbn [ext_start]; rewrite ?(emb_get_ext l s G N), ?emb_s_slice, ?emb_s_set;
      try (apply smap_fin; intros v; rewrite ?emb_slice, ?emb_bset; try reflexivity; apply emb_upd_ext; assumption);
      try reflexivity;
      try (destruct (first_attr _ _) as [a0|]; [match goal with |- context [let (_, _) := ?p in _] => destruct p end|]; cbn [smap];
           rewrite ?emb_slice, ?emb_bset; try reflexivity; rewrite emb_upd_ext by assumption; reflexivity).
    cbn [smap]. rewrite emb_bset. reflexivity.
  Qed.
  Lemma emb_start k n a s : Good s -> mo_exts (s_model s) = mo_exts F -> okk k = true ->
    start reg false path k n a (emb s) = smap (start reg false path k n a s).
  Proof.
    intros G X K. destruct k; try discriminate K; cbn [start]; try reflexivity;
      rewrite ?(emb_get_obj s G), ?(emb_get_mesh s G), ?(emb_get_bm s G);
      try (apply smap_fin; intros v; first [apply emb_upd_obj, G|apply emb_upd_mesh, G|apply emb_upd_bm, G]).
    - destruct l; try discriminate K. cbn [get_mg set_mg]. rewrite (emb_get_obj s G). apply smap_fin. intros v. apply emb_upd_obj, G.
    - cbn [smap]. rewrite emb_meta, emb_exts, emb_s_meta, X. reflexivity.
    - destruct a as [|a0 a]; [reflexivity|]. rewrite (emb_get s G). destruct (res_get path s) eqn:E; [|reflexivity]. apply smap_fin. intros v. symmetry. apply emb_set, G.
    - destruct (first_attr _ _) as [a0|]; [destruct (get_u32 a0 true)|]; cbn [smap]; rewrite emb_unk, emb_s_unk, ?emb_s_unk_id; reflexivity.
    - cbn [smap]. rewrite emb_upd_any; [reflexivity|exact G|]. intros ->. discriminate K.
    - apply emb_ext_start; [exact G|]. intros ->. discriminate K.
  Qed.
  Lemma emb_append k t s : Good s -> okk k = true -> append_token path k t (emb s) = emb (append_token path k t s).
  Proof.
    intros G K. destruct k; try discriminate K; cbn [append_token]; try reflexivity.
    - rewrite emb_unk, emb_s_unk, emb_s_unk_id. reflexivity.
    - apply emb_upd_any; [exact G|]. intros ->. discriminate K.
  Qed.
  Lemma emb_res_upd f s : Good s -> res_upd path f (emb s) = option_map emb (res_upd path f s).
  Proof. intros G. unfold res_upd. rewrite emb_get by exact G. unfold Good in G. destruct (res_get path s) eqn:E; [|congruence]. cbn. rewrite emb_set; [reflexivity|]. unfold Good. congruence. Qed.
  Lemma emb_end k n s : Good s -> okk k = true -> end_ path k n (emb s) = option_map emb (end_ path k n s).
  Proof.
    intros G K. destruct k; try discriminate K; cbn [end_]; try reflexivity.
    - destruct l; try discriminate K. cbn [add_md option_map]. rewrite emb_s_meta, emb_upd_obj by exact G. reflexivity.
    - rewrite emb_get_bm by exact G. rewrite <- emb_bm. apply emb_res_upd, G.
    - rewrite emb_get_obj by exact G. rewrite <- emb_obj. apply emb_res_upd, G.
    - rewrite emb_s_unk, emb_s_unk_id, <- emb_unk. apply emb_res_upd, G.
    - cbn [option_map]. f_equal. apply (emb_append (KUnk l)); assumption.
    - assert (N : l <> LModel) by (intros ->; discriminate K).
      destruct x; cbn [option_map]; try reflexivity; rewrite ?emb_s_slice, ?emb_s_set, emb_upd_ext by assumption; reflexivity.
  Qed.

  (** ** The machine *)
  Definition memb (m : Mach) : Mach := mkM (emb (m_st m)) (m_cur m) (m_name m) (m_stack m) (m_errs m).
  Definition okm (m : Mach) : Prop := okk (m_cur m) = true /\ Forall (fun e => okk (fst (fst e)) = true) (m_stack m).
  Definition foreign_event (e : event) (m : Mach) : bool := match e with EvStart n _ => foreign (m_cur m) n | _ => false end.
  Lemma child_okk k n s i k' s' : okk k = true -> foreign k n = false -> child reg false path k n s = COk i k' s' -> okk k' = true.
  Proof.
    intros K Fo. destruct k; try discriminate K; cbn [child]; try discriminate; try (ifs; intros [= <- <- <-]; reflexivity).
    - unfold model_child. cbn [foreign] in Fo. destruct (seq (nspace n) ns_core); cbn [negb andb] in Fo.
      + ifs; try discriminate; intros [= <- <- <-]; reflexivity.
      + destruct (new_element_decoder reg LModel n) as [[? ?]|]; discriminate.
    - destruct l; try discriminate K. ifs; intros [= <- <- <-]; reflexivity.
    - unfold res_child. repeat match goal with |- context [if ?b then _ else _] => destruct b | |- context [match ?x with _ => _ end] => destruct x end; try discriminate; intros [= <- <- <-]; reflexivity.
    - unfold mesh_child. ifs; try discriminate; try (intros [= <- <- <-]; reflexivity).
      unfold new_element_decoder. destruct (load _ _) as [sp|]; [destruct (ext_decoder _ _) as [[x e]|]; [|discriminate]|]; intros [= <- <- <-]; reflexivity.
    - assert (L : okk (KExt l XkColor) = true) by (destruct l; try discriminate K; reflexivity).
      destruct x; cbn [ext_child]; ifs; intros [= <- <- <-]; destruct l; try discriminate K; reflexivity.
  Qed.

  Lemma memb_upd k e m s : memb (mkM s k (m_name m) (m_stack m) e) = mkM (emb s) k (m_name m) (m_stack m) e. Proof. reflexivity. Qed.
  Lemma good_place s s' : place s' = place s -> Good s -> Good s'.
  Proof. intros E. apply res_get_place. congruence. Qed.
End Frame.

(** ** A child file changes no extension, and adds an element to the model's Any for each foreign element *)
Section Keep.
  Context (reg : Reg) (path : string) (later : Ref -> string).
  Definition keep (s s' : DSt) : Prop :=
    mo_exts (s_model s') = mo_exts (s_model s) /\ List.length (mo_any (s_model s)) <= List.length (mo_any (s_model s')).
  Lemma keep_refl s s' : s_model s' = s_model s -> keep s s'. Proof. intros E. unfold keep. rewrite E. auto. Qed.
  Lemma keep_trans s1 s2 s3 : keep s1 s2 -> keep s2 s3 -> keep s1 s3. Proof. intros [A B] [C D]. split; [congruence|lia]. Qed.
  Lemma keep_res_set r s : keep s (res_set path r s).
  Proof. unfold res_set. destruct (_ || _); [split; reflexivity|]. destruct (find_child _ _); split; reflexivity. Qed.
  Lemma keep_res_set' r s s' : s_model s' = s_model s -> keep s (res_set path r s').
  Proof. intros E. apply (keep_trans _ s'); [apply keep_refl, E|apply keep_res_set]. Qed.
  Lemma keep_upd_obj f s : keep s (upd_obj path f s).
  Proof. unfold upd_obj. destruct (s_obj_done s); [|apply keep_refl; reflexivity]. destruct (res_get path s); [apply keep_res_set|apply keep_refl; reflexivity]. Qed.
  Lemma keep_upd_item f s : keep s (upd_item f s).
  Proof. unfold upd_item. destruct (s_item_done s); split; reflexivity. Qed.
  Lemma keep_upd_bm f s : keep s (upd_bm path f s).
  Proof. unfold upd_bm. destruct (s_bm_done s); [|apply keep_refl; reflexivity]. destruct (res_get path s); [apply keep_res_set|apply keep_refl; reflexivity]. Qed.
  Lemma keep_upd_mesh f s : keep s (upd_mesh path f s). Proof. apply keep_upd_obj. Qed.
  Lemma upd_last_len {A} (f : A -> A) l : List.length (upd_last f l) = List.length l.
  Proof. destruct l as [|x l] using rev_ind; [reflexivity|]. rewrite upd_last_snoc, !app_length. reflexivity. Qed.
  Lemma keep_upd_any l f s : keep s (upd_any path l f s).
  Proof. destruct l; cbn [upd_any]; [apply keep_refl; reflexivity| |apply keep_upd_mesh]. split; [reflexivity|]. cbn. rewrite upd_last_len. auto. Qed.
  Lemma keep_upd_ext l f s : keep s (upd_ext path l f s).
  Proof. destruct l; cbn [upd_ext]; try apply keep_upd_any. destruct (res_get path s); [apply keep_res_set|apply keep_refl; reflexivity]. Qed.
  Lemma keep_add_md l x s : keep s (add_md path l x s).
  Proof. destruct l; cbn [add_md]; [split; reflexivity|apply keep_upd_item|apply keep_upd_obj]. Qed.
  Lemma keep_set_mg l x s : keep s (set_mg path l x s).
  Proof. destruct l; cbn [set_mg]; [split; reflexivity|apply keep_upd_item|apply keep_upd_obj]. Qed.
  Lemma keep_append_token k t s : keep s (append_token path k t s).
  Proof. destruct k; cbn [append_token]; try (apply keep_refl; reflexivity). apply keep_upd_any. Qed.
  Ltac kr := first [apply keep_refl; reflexivity|split; reflexivity|apply keep_res_set'; reflexivity|apply keep_upd_obj|apply keep_upd_mesh|apply keep_upd_bm|apply keep_upd_item|apply keep_upd_any|apply keep_upd_ext|apply keep_add_md|apply keep_set_mg].
  Lemma keep_end k n s s' : end_ path k n s = Some s' -> keep s s'.
  Proof.
    destruct k; cbn [end_]; try (intros [= <-]; kr); unfold res_upd; try (destruct (res_get _ _); [|discriminate]; intros [= <-]; kr).
    destruct x; intros [= <-]; kr.
  Qed.
  Lemma keep_child k n s i k' s' : child reg false path k n s = COk i k' s' ->
    keep s s' /\ (foreign reg k n = true -> List.length (mo_any (s_model s)) < List.length (mo_any (s_model s'))).
  Proof.
    intros C. assert (K : keep s s').
    { revert C. destruct k; cbn [child]; try discriminate;
        try (repeat match goal with |- (if ?b then _ else _) = _ -> _ => destruct b end; intros [= <- <- <-]; kr);
        try (repeat match goal with |- (if ?b then _ else _) = _ -> _ => destruct b end; discriminate).
      - unfold model_child. repeat match goal with |- (if ?b then _ else _) = _ -> _ => destruct b end; try (intros [= <- <- <-]; kr); try discriminate.
        destruct (new_element_decoder _ _ _) as [[k e]|]; [|discriminate]. intros [= <- <- <-]. split; [reflexivity|]. cbn. rewrite app_length. lia.
      - unfold res_child. repeat match goal with |- context [if ?b then _ else _] => destruct b | |- context [match ?x with _ => _ end] => destruct x end; try discriminate; intros [= <- <- <-]; kr.
      - unfold mesh_child. repeat match goal with |- (if ?b then _ else _) = _ -> _ => destruct b end; try (intros [= <- <- <-]; kr); try discriminate.
        destruct (new_element_decoder _ _ _) as [[k e]|]; [|discriminate]. intros [= <- <- <-]. kr.
      - destruct x; cbn [ext_child]; repeat match goal with |- (if ?b then _ else _) = _ -> _ => destruct b end; intros [= <- <- <-]; kr. }
    split; [exact K|]. intros Fo. destruct k; try discriminate Fo. cbn [foreign child] in *. unfold model_child in C.
    destruct (seq (nspace n) ns_core); [discriminate Fo|]. destruct (new_element_decoder _ _ _) as [[k e]|]; [|discriminate]. injection C as <- <- <-.
    cbn. rewrite app_length. cbn. lia.
  Qed.
  Lemma keep_start k n a s s' e : start reg false path k n a s = Some (s', e) -> keep s s'.
  Proof.
    assert (F : forall A (r : option (A * error)) (f : A -> DSt) x, (forall v, keep s (f v)) ->
      match r with Some (v, e) => Some (f v, e) | None => None end = Some x -> keep s (fst x)).
    { intros A [[v e0]|] f x H [= <-]. apply H. }
    destruct k; cbn [start]; try (intros [= <- <-]; kr); try (intros H; eapply F in H; [exact H|]; intros v; kr).
    - destruct a as [|a0 a]; [intros [= <- <-]; kr|]. destruct (res_get path s) as [r|]; [|discriminate].
      intros H; eapply F in H; [exact H|]; intros v. kr.
    - destruct (first_attr _ _) as [a0|]; [destruct (get_u32 a0 true)|]; intros [= <- <-]; kr.
    - destruct x; cbn [ext_start]; try (intros [= <- <-]; kr);
        try (intros H; eapply F in H; [exact H|]; intros v; kr);
        try (destruct (first_attr _ _) as [a0|]; [match goal with |- context [let (_, _) := ?p in _] => destruct p end|];
             intros [= <- <-]; kr).
  Qed.
  Lemma keep_event e m m' : on_event reg false path later e m = Some m' ->
    keep (m_st m) (m_st m') /\ (has_child (m_cur m) = true -> foreign_event reg e m = true -> List.length (mo_any (s_model (m_st m))) < List.length (mo_any (s_model (m_st m')))).
  Proof.
    destruct e as [n a|n|now r]; cbn [on_event foreign_event].
    - unfold on_start. destruct (has_child (m_cur m)) eqn:HC.
      + destruct (child reg false path (m_cur m) n (m_st m)) as [| |i k s1] eqn:C; [|discriminate|].
        * intros [= <-]. split; [apply keep_refl; reflexivity|]. intros _ Fo. exfalso. destruct (m_cur m); try discriminate Fo. cbn [child foreign] in *. unfold model_child in C.
          destruct (seq (nspace n) ns_core); [discriminate|]. destruct (new_element_decoder _ _ _) as [[? ?]|]; discriminate.
        * apply keep_child in C as [K1 K2]. destruct (start reg false path k n a s1) as [[s2 e]|] eqn:ST; [|discriminate]. apply keep_start in ST.
          assert (K : keep (m_st m) s2) by (eapply keep_trans; eassumption).
          destruct e; intros [= <-]; (split; [exact K|]; intros _ Fo; specialize (K2 Fo); destruct ST as [_ ST]; cbn; lia).
      + intros [= <-]. split; [apply keep_append_token|discriminate].
    - unfold on_end. destruct (name_eqb _ _).
      + destruct (end_ path (m_cur m) n (m_st m)) as [s|] eqn:E; [|discriminate]. apply keep_end in E.
        destruct (m_stack m) as [|x [|[[k n'] i] r]]; [discriminate| |]; intros [= <-]; (split; [exact E|discriminate]).
      + intros [= <-]. split; [apply keep_append_token|discriminate].
    - intros [= <-]. split; [|discriminate]. unfold on_char. destruct (m_cur m); cbn [m_st]; try apply keep_append_token; kr.
  Qed.
End Keep.

Section FrameMachine.
  Context (reg : Reg) (path : string) (later : Ref -> string).
  Lemma foreign_has_child k n : foreign reg k n = true -> has_child k = true.
  Proof. destruct k; try discriminate; reflexivity. Qed.
  Lemma emb_event F e m : find_resources F path <> None -> okm m -> Good path (m_st m) -> mo_exts (s_model (m_st m)) = mo_exts F -> foreign_event reg e m = false ->
    on_event reg false path later e (memb path F m) = option_map (memb path F) (on_event reg false path later e m).
  Proof.
    intros HF [K KS] G X Fo. destruct e as [n a|n|now r]; cbn [on_event foreign_event] in *.
    - unfold on_start. cbn [memb m_cur m_st m_name m_stack m_errs]. destruct (has_child (m_cur m)).
      + rewrite (emb_child reg path F HF) by assumption. destruct (child reg false path (m_cur m) n (m_st m)) as [| |i k s1] eqn:C; cbn [cmap]; [reflexivity..|].
        pose proof (child_okk _ _ _ _ _ _ _ _ K Fo C) as K1. pose proof (place_child _ _ _ _ _ _ _ _ _ C) as P1. apply keep_child in C as [[X1 _] _].
        rewrite (emb_start reg path F HF); [|eapply good_place; eassumption|congruence|exact K1].
        destruct (start reg false path k n a s1) as [[s2 [e|]]|]; reflexivity.
      + cbn [option_map]. rewrite (emb_append path F HF) by assumption. reflexivity.
    - unfold on_end. cbn [memb m_cur m_st m_name m_stack m_errs]. destruct (name_eqb _ _).
      + rewrite (emb_end path F HF) by assumption. destruct (end_ path (m_cur m) n (m_st m)); cbn [option_map]; [|reflexivity].
        destruct (m_stack m) as [|x [|[[k n'] i] r]]; reflexivity.
      + cbn [option_map]. rewrite (emb_append path F HF) by assumption. reflexivity.
    - cbn [option_map]. unfold on_char, memb. cbn [m_cur m_st m_name m_stack m_errs].
      destruct (m_cur m); try (rewrite (emb_append path F HF) by assumption; reflexivity). rewrite emb_meta, emb_s_meta. reflexivity.
  Qed.
  Lemma emb_event_inv e m m' : okm m -> Good path (m_st m) -> foreign_event reg e m = false ->
    on_event reg false path later e m = Some m' -> okm m' /\ Good path (m_st m').
  Proof.
    intros [K KS] G Fo. destruct e as [n a|n|now r]; cbn [on_event foreign_event] in *.
    - unfold on_start. destruct (has_child (m_cur m)).
      + destruct (child reg false path (m_cur m) n (m_st m)) as [| |i k s1] eqn:C; [intros [= <-]; repeat split; assumption|discriminate|].
        pose proof (child_okk _ _ _ _ _ _ _ _ K Fo C) as K1. pose proof (place_child _ _ _ _ _ _ _ _ _ C) as P1.
        destruct (start reg false path k n a s1) as [[s2 e]|] eqn:ST; [|discriminate]. pose proof (place_start _ _ _ _ _ _ _ _ _ ST) as P2.
        assert (G2 : Good path s2) by (eapply good_place; [|exact G]; congruence).
        destruct e; intros [= <-]; (split; [split; [exact K1|constructor; assumption]|exact G2]).
      + intros [= <-]. split; [split; assumption|]. eapply good_place; [|exact G]. apply place_append_token.
    - unfold on_end. destruct (name_eqb _ _).
      + destruct (end_ path (m_cur m) n (m_st m)) as [s|] eqn:E; [|discriminate]. apply place_end in E. assert (G2 : Good path s) by (eapply good_place; eassumption).
        destruct (m_stack m) as [|x [|[[k n'] i] r]] eqn:ES; [discriminate| |]; intros [= <-].
        * split; [split; [exact K|constructor]|exact G2].
        * inversion KS as [|? ? _ KS1]; subst. split; [split; [|exact KS1]|exact G2]. inversion KS1; assumption.
      + intros [= <-]. split; [split; assumption|]. eapply good_place; [|exact G]. apply place_append_token.
    - intros [= <-]. split; [unfold on_char, okm; cbn [m_cur m_stack]; split; assumption|]. eapply good_place; [|exact G]. unfold on_char. destruct (m_cur m); cbn [m_st]; try apply place_append_token; reflexivity.
  Qed.
  (** The events of a token *)
  Lemma keep_events l : forall m m', on_events reg false path later l m = Some m' -> keep (m_st m) (m_st m').
  Proof.
    induction l as [|e l IH]; cbn [on_events]; intros m m'; [intros [= <-]; apply keep_refl; reflexivity|].
    destruct (on_event reg false path later e m) as [m1|] eqn:E; [|discriminate]. intros H. apply keep_event in E as [K _]. eapply keep_trans; [exact K|]. apply IH, H.
  Qed.
  Lemma emb_events F l : find_resources F path <> None -> forall m m', okm m -> Good path (m_st m) -> mo_exts (s_model (m_st m)) = mo_exts F ->
    on_events reg false path later l m = Some m' -> List.length (mo_any (s_model (m_st m'))) = List.length (mo_any (s_model (m_st m))) ->
    on_events reg false path later l (memb path F m) = Some (memb path F m') /\ okm m' /\ Good path (m_st m') /\ mo_exts (s_model (m_st m')) = mo_exts F.
  Proof.
    intros HF. induction l as [|e l IH]; cbn [on_events]; intros m m' K G X; [intros [= <-] _; auto|].
    destruct (on_event reg false path later e m) as [m1|] eqn:E; [|discriminate]. intros H L.
    pose proof (keep_events _ _ _ H) as [_ L1]. destruct (keep_event _ _ _ _ _ _ E) as [[X1 L2] L3].
    assert (Fo : foreign_event reg e m = false).
    { destruct (foreign_event reg e m) eqn:Fo; [|reflexivity]. assert (HC : has_child (m_cur m) = true).
      { destruct e; try discriminate Fo. eapply foreign_has_child, Fo. }
      specialize (L3 HC eq_refl). lia. }
    rewrite (emb_event F) by assumption. rewrite E. cbn [option_map].
    destruct (emb_event_inv _ _ _ K G Fo E) as [K1 G1]. apply IH; try assumption; [congruence|lia].
  Qed.
End FrameMachine.
