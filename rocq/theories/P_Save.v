(** * Proofs about saving and memory *)
From Coq Require Import Lia.
From Verif Require Import GoBase GoNum GoFloat Types PkgTypes MemTypes XmlTypes M_Core M_Xml M_Printer M_Decode M_Encode M_Package M_Save S_Package S_Save P_Package.

Lemma set_nth_length {A} n (x : A) l : List.length (set_nth n x l) = List.length l.
Proof. revert n. induction l as [|y l IH]; intros [|n]; cbn; auto. Qed.
Lemma set_nth_same {A} n (x d : A) l : n < List.length l -> nth n (set_nth n x l) d = x.
Proof. revert n. induction l as [|y l IH]; intros [|n]; cbn; intros H; try lia; [reflexivity|]. apply IH. lia. Qed.
Lemma set_nth_other {A} n i (x d : A) l : n <> i -> nth i (set_nth n x l) d = nth i l d.
Proof. revert n i. induction l as [|y l IH]; intros [|n] [|i]; cbn; intros H; try reflexivity; try lia. apply IH. lia. Qed.
Lemma firstn_set_nth {A} n i (x : A) l : n <= i -> firstn n (set_nth i x l) = firstn n l.
Proof.
  revert n i. induction l as [|y l IH]; intros [|n] [|i] H; cbn; try reflexivity; try lia. rewrite IH by lia. reflexivity.
Qed.
Lemma skipn_set_nth {A} o i (x : A) l : skipn o (set_nth i x l) = if Nat.ltb i o then skipn o l else set_nth (i - o) x (skipn o l).
Proof.
  revert o i. induction l as [|y l IH]; intros [|o] [|i]; cbn; try reflexivity.
  - destruct o as [|m]; cbn; [destruct i; reflexivity|]. destruct (Nat.leb i m); [reflexivity|]. destruct (i - S m); reflexivity.
  - rewrite IH. change (Nat.ltb (S i) (S o)) with (Nat.ltb i o). reflexivity.
Qed.
Lemma window_set {A} o n i (x : A) l : i < o \/ o + n <= i -> firstn n (skipn o (set_nth i x l)) = firstn n (skipn o l).
Proof.
  intros H. rewrite skipn_set_nth. destruct (Nat.ltb_spec i o); [reflexivity|]. apply firstn_set_nth. lia.
Qed.
Lemma firstn_set_end {A} n (x : A) l : n < List.length l -> firstn (S n) (set_nth n x l) = firstn n l ++ [x].
Proof. revert n. induction l as [|y l IH]; intros [|n] H; cbn in *; try lia; [reflexivity|]. rewrite <- IH by lia. reflexivity. Qed.

Definition WF (M : Mem) (s : RSlice) : Prop :=
  sl_len s <= sl_cap s /\ sl_arr s < List.length (mm_arrays M) /\ sl_off s + sl_cap s <= List.length (nth (sl_arr s) (mm_arrays M) []).
Definition Prot (s t : RSlice) : Prop := sl_arr s = sl_arr t -> sl_off s + sl_cap s <= sl_off t \/ sl_off t + sl_len t <= sl_off s + sl_len s.

Section Proofs.
Context (grow : nat -> nat).
Lemma contents_length M s : WF M s -> List.length (contents M s) = sl_len s.
Proof. intros (H1 & _ & H2). unfold contents. rewrite firstn_length, skipn_length. lia. Qed.
Lemma append1_ok M s r M' s' : WF M s -> append1 grow M s r = (M', s') ->
  contents M' s' = contents M s ++ [r] /\ WF M' s' /\ mm_streams M' = mm_streams M /\
  forall t, WF M t -> Prot s t -> contents M' t = contents M t /\ WF M' t /\ Prot s' t.
Proof.
  intros W. pose proof (contents_length M s W) as CL. destruct W as (W1 & W2 & W3). unfold append1. destruct (Nat.ltb_spec (sl_len s) (sl_cap s)) as [L|L]; intros E; injection E as <- <-.
  - set (arr := nth (sl_arr s) (mm_arrays M) []) in *.
    split; [|split; [|split; [reflexivity|]]].
    + unfold contents. cbn [mm_arrays sl_arr sl_off sl_len]. rewrite set_nth_same by exact W2. fold arr.
      rewrite skipn_set_nth. destruct (Nat.ltb_spec (sl_off s + sl_len s) (sl_off s)); [lia|].
      replace (sl_off s + sl_len s - sl_off s) with (sl_len s) by lia. apply firstn_set_end. rewrite skipn_length. lia.
    + unfold WF. cbn [mm_arrays sl_arr sl_off sl_len sl_cap]. rewrite set_nth_same by exact W2. rewrite !set_nth_length. fold arr. lia.
    + intros t (T1 & T2 & T3) P. unfold WF, contents. cbn [mm_arrays]. rewrite set_nth_length.
      destruct (Nat.eq_dec (sl_arr s) (sl_arr t)) as [E|E].
      * rewrite <- E. rewrite set_nth_same by exact W2. rewrite set_nth_length. fold arr. rewrite <- E in T2, T3. fold arr in T3.
        specialize (P E). split; [|split; [lia|]].
        -- destruct (Nat.eq_dec (sl_len t) 0) as [Z|Z]; [rewrite Z; reflexivity|]. apply window_set. lia.
        -- unfold Prot. cbn [sl_arr sl_off sl_len sl_cap]. lia.
      * rewrite set_nth_other by exact E. split; [reflexivity|]. split; [lia|]. unfold Prot. cbn [sl_arr]. intros X. contradiction.
  - split; [|split; [|split; [reflexivity|]]].
    + unfold contents at 1. cbn [mm_arrays sl_arr sl_off sl_len skipn]. rewrite app_nth2, Nat.sub_diag by lia. cbn [nth].
      rewrite firstn_app, CL. rewrite firstn_all2 by lia. replace (S (sl_len s) - sl_len s) with 1 by lia. reflexivity.
    + unfold WF. cbn [mm_arrays sl_arr sl_off sl_len sl_cap]. rewrite app_nth2, Nat.sub_diag by lia. cbn [nth].
      rewrite !app_length, CL. cbn [List.length]. rewrite repeat_length. lia.
    + intros t (T1 & T2 & T3) P. unfold WF, contents. cbn [mm_arrays]. rewrite app_nth1 by exact T2. rewrite app_length.
      split; [reflexivity|]. split; [lia|]. unfold Prot. cbn [sl_arr]. lia.
Qed.
Lemma enc_adds_mem_ok l : forall M s M' s', WF M s -> enc_adds_mem grow (M, s) l = (M', s') ->
  contents M' s' = enc_adds (contents M s) l /\ mm_streams M' = mm_streams M /\
  forall t, WF M t -> Prot s t -> contents M' t = contents M t /\ WF M' t.
Proof.
  unfold enc_adds_mem, enc_adds. induction l as [|r l IH]; intros M s M' s' W; cbn [fold_left].
  - intros E. injection E as <- <-. auto.
  - unfold enc_add_mem at 2, enc_add at 2. destruct (existsb _ (contents M s)); [apply IH; exact W|].
    destruct (append1 grow M s r) as [M1 s1] eqn:A. destruct (append1_ok M s r M1 s1 W A) as (C & W1 & S1 & T1). intros E.
    destruct (IH M1 s1 M' s' W1 E) as (C' & S' & T'). rewrite C', C, S', S1. split; [reflexivity|]. split; [reflexivity|].
    intros t Wt P. destruct (T1 t Wt P) as (H1 & H2 & H3). destruct (T' t H2 H3) as (H4 & H5). split; [congruence|exact H5].
Qed.

Context (normalize : string -> string) (resolve : string -> string -> string) (refuses : list string -> string -> string -> bool).
Lemma write_childs_mem_ok prec mm (T : list RSlice) l : forall M M' w o,
  (forall t, In t T -> WF M t) -> (forall kc, In kc l -> In (snd (snd kc)) T) ->
  (forall kc t, In kc l -> In t T -> Prot (snd (snd kc)) t) ->
  write_childs_mem grow normalize resolve refuses prec (mm_model mm) M w l = (o, M') ->
  o = write_childs normalize resolve refuses prec (mm_model mm) w (map (seen_child M) l) /\
  mm_streams M' = mm_streams M /\ forall t, In t T -> contents M' t = contents M t /\ WF M' t.
Proof.
  induction l as [|[k [c s]] l IH]; intros M M' w o W I P; cbn [write_childs_mem].
  - intros E. injection E as <- <-. auto.
  - destruct (enc_adds_mem grow (M, s) (op_rels (write_child prec (mm_model mm) c))) as [M1 s1] eqn:A.
    assert (Is : In s T) by (apply (I (k, (c, s))); left; reflexivity).
    destruct (enc_adds_mem_ok _ M s M1 s1 (W s Is) A) as (C & S1 & T1).
    assert (T1' : forall t, In t T -> contents M1 t = contents M t /\ WF M1 t).
    { intros t It. apply T1; [apply W; exact It|]. apply (P (k, (c, s)) t); [left; reflexivity|exact It]. }
    cbn [map]. unfold write_childs. cbn [creates]. unfold seen_child at 1 2 3 4. cbn [fst snd ch_rels].
    change (write_child prec (mm_model mm) {| ch_res := ch_res c; ch_rels := contents M s; ch_any := ch_any c |}) with (write_child prec (mm_model mm) c).
    rewrite <- C. destruct (create _ _ _ _ _ _) as [w1|] eqn:K.
    + intros E. assert (S : map (seen_child M) l = map (seen_child M1) l).
      { apply map_ext_in. intros kc H. unfold seen_child. rewrite (proj1 (T1' _ (I kc (or_intror H)))). reflexivity. }
      rewrite S. destruct (IH M1 M' w1 o) as (H1 & H2 & H3).
      * intros t It. apply T1'. exact It.
      * intros kc H. apply I. right. exact H.
      * intros kc t H It. apply P; [right; exact H|exact It].
      * exact E.
      * split; [exact H1|]. split; [congruence|]. intros t It. destruct (H3 t It) as [X Y]. split; [|exact Y]. rewrite X. apply T1'. exact It.
    + intros E. injection E as <- <-. split; [reflexivity|]. split; [reflexivity|]. intros t It. split; [reflexivity|apply W; exact It].
Qed.
Lemma write_attachments_mem_ok l : forall M M' w o, NoDup (map snd l) -> (forall i, In i (map snd l) -> i < List.length (mm_streams M)) ->
  write_attachments_mem normalize refuses M w l = (o, M') ->
  o = write_attachments normalize refuses w (seen_atts M l) /\ mm_arrays M' = mm_arrays M /\ List.length (mm_streams M') = List.length (mm_streams M) /\
  (o <> None -> forall i, In i (map snd l) -> nth i (mm_streams M') "" = "") /\
  (forall i, ~ In i (map snd l) -> nth i (mm_streams M') "" = nth i (mm_streams M) "").
Proof.
  unfold write_attachments. induction l as [|[a i] l IH]; intros M M' w o N B; cbn [write_attachments_mem].
  - intros E. injection E as <- <-. cbn. repeat split; auto. intros _ i [].
  - cbn [map snd] in N. inversion N as [|? ? Ni Nl]; subst. cbn [seen_atts map fst snd creates at_path at_ctype at_data].
    destruct (create normalize refuses w _ _ _ _) as [w1|] eqn:C.
    + intros E. specialize (IH (mkMem (mm_arrays M) (set_nth i "" (mm_streams M))) M' w1 o Nl). destruct IH as (H1 & H2 & H3 & H4 & H5).
      * intros j J. cbn [mm_streams]. rewrite set_nth_length. apply B. right. exact J.
      * exact E.
      * cbn [mm_arrays mm_streams] in *. rewrite set_nth_length in H3. split; [|split; [exact H2|split; [exact H3|split]]].
        -- rewrite H1. unfold seen_atts. f_equal. apply map_ext_in. intros [b j] J. cbn [mm_streams fst snd].
           rewrite set_nth_other; [reflexivity|]. intros <-. apply Ni. apply in_map_iff. exists (b, i). auto.
        -- intros O j [<-|J]; [|apply H4; [exact O|exact J]]. cbn [snd]. rewrite H5 by exact Ni. apply set_nth_same. apply B. left. reflexivity.
        -- intros j J. rewrite H5 by (intros X; apply J; right; exact X). apply set_nth_other. intros ->. apply J. left. reflexivity.
    + intros E. injection E as <- <-. repeat split; auto. intros X. congruence.
Qed.
(** Whether all parts are accepted depends on their names and types only *)
Fixpoint accepted (names : list string) (l : list (string * string)) : bool :=
  match l with
  | [] => true
  | (n, c) :: l => negb (refuses names (normalize n) c) && accepted (names ++ [normalize n]) l
  end.
Lemma accepted_app a b : forall names, accepted names (a ++ b) = (accepted names a && accepted (names ++ map (fun nc => normalize (fst nc)) a) b)%bool.
Proof.
  induction a as [|[n c] a IH]; intros names; cbn [accepted app map fst]; [rewrite app_nil_r; reflexivity|].
  rewrite IH, <- app_assoc. cbn [app]. apply andb_assoc.
Qed.
Definition some {A} (o : option A) : bool := match o with Some _ => true | None => false end.
Lemma creates_accepted {A} (part : A -> string * string * string * list Relationship) l : forall w,
  some (creates (fun w x => let '(n, c, d, r) := part x in create normalize refuses w n c d r) w l) =
  accepted (map pt_name (pk_parts w)) (map (fun x => let '(n, c, d, r) := part x in (n, c)) l).
Proof.
  induction l as [|x l IH]; intros w; cbn [creates map accepted]; [reflexivity|].
  destruct (part x) as [[[n c] d] r] eqn:E. cbn [accepted]. unfold create at 1. destruct (refuses _ _ _); [reflexivity|]. cbn [negb andb].
  rewrite IH. cbn [pk_parts]. rewrite map_app. reflexivity.
Qed.
Lemma encode_accepted prec order1 order2 m : some (encode normalize resolve refuses prec order1 order2 m) =
  accepted [] (map (fun a => (at_path a, at_ctype a)) (mo_atts m) ++ (path_or_default m, ctype_model) :: map (fun kc => (resolve (path_or_default m) (fst kc), ctype_model)) order2).
Proof.
  unfold encode. rewrite accepted_app. cbn [accepted].
  pose proof (creates_accepted (fun a => (at_path a, at_ctype a, at_data a, [])) (mo_atts m) (mkPkg [] [])) as H. cbn [map pk_parts] in H. rewrite <- H. clear H.
  unfold write_attachments. destruct (creates _ _ (mo_atts m)) as [w|] eqn:E; [|reflexivity]. cbn [some andb app].
  apply (creates_parts normalize refuses (fun a => (at_path a, at_ctype a, at_data a, []))) in E as [_ E]. cbn [pk_parts app] in E.
  unfold create. cbn [pk_parts pk_rels]. rewrite E. rewrite map_map. cbn [pt_name]. rewrite map_map. cbn [fst].
  destruct (refuses _ _ _); [reflexivity|]. cbn [negb andb].
  pose proof (creates_accepted (fun kc : string * Child => (resolve (path_or_default m) (fst kc), ctype_model, xml_header +++ print (write_child prec m (snd kc)),
     opc_adds [] (enc_adds (ch_rels (snd kc)) (op_rels (write_child prec m (snd kc)))))) order2) as H. unfold write_childs. rewrite H.
  cbn [pk_parts]. rewrite !map_app, map_map. reflexivity.
Qed.
Lemma contents_arrays M M' s : mm_arrays M' = mm_arrays M -> contents M' s = contents M s.
Proof. intros E. unfold contents. rewrite E. reflexivity. Qed.
End Proofs.
