(** * Proofs: the attributes of a tag, looked up by name *)
From Coq Require Import ZArith.
From Verif Require Import GoBase GoNum GoUtf8 GoFloat GoStrconv Types XmlTypes M_Core M_Errors M_Text M_Xml M_Decode
  S_Core S_Text S_Errors S_Xml S_Attr S_Meaning P_Core P_Text P_Errors P_Decode P_State P_RTBase P_Attr.

(** ** Values *)
Lemma u32_value a b n : get_u32 a b = (n, None) -> n = uint_of (avalue a).
Proof.
  unfold get_u32. destruct (parse_u32 (avalue a)) as [v ok] eqn:E. destruct ok; [|discriminate]. intros [= <-]. unfold parse_u32 in E. rewrite parse_uint_spec in E.
  destruct E as (_ & _ & -> & _). unfold uint_of. rewrite dec_val_fold. reflexivity.
Qed.
Lemma f32_value a b x e : get_f32 a b = (x, e) -> x = num_of (avalue a).
Proof. unfold get_f32, num_of. destruct (parse_float (avalue a)). intros [= <- <-]. reflexivity. Qed.
Lemma hex_value c v : HexDigit c v -> hex_of c = v.
Proof.
  intros H. assert (X : exists k, N.to_nat v = k) by eauto. destruct X as (k & K). assert (V : v = N.of_nat k) by lia. unfold HexDigit in H. rewrite K in H. subst v. clear K.
  do 16 (destruct k as [|k]; [destruct H as [H|H]; injection H as <-; reflexivity|]). destruct H as [H|H]; cbn in H; destruct k; discriminate.
Qed.
Lemma colour_value s c : parse_rgba s = (c, true) -> c = colour_of s.
Proof.
  intros H. apply parse_rgba_spec in H.
  assert (B : forall a b v, HexByte a b v -> (16 * hex_of a + hex_of b)%N = v).
  { intros a b v (hi & lo & H1 & H2 & ->). rewrite (hex_value _ _ H1), (hex_value _ _ H2). reflexivity. }
  destruct H as [? ? ? ? ? ? r g b H1 H2 H3|? ? ? ? ? ? ? ? r g b a H1 H2 H3 H4]; unfold colour_of; cbn [chars of_chars];
    rewrite (B _ _ _ H1), (B _ _ _ H2), (B _ _ _ H3); [reflexivity|]. rewrite (B _ _ _ H4). reflexivity.
Qed.
Lemma floats_value l : forall t, parse_floats l = Some t -> t = map num_of l.
Proof.
  induction l as [|s l IH]; intros t; cbn [parse_floats map]; [congruence|]. unfold num_of at 1. destruct (parse_float s) as [x ok]. destruct ok; [|discriminate].
  destruct (parse_floats l) as [t'|]; [|discriminate]. intros [= <-]. cbn [fst]. f_equal. apply IH. reflexivity.
Qed.
Lemma matrix_value s t : parse_matrix s = (t, true) -> t = matrix_of s.
Proof.
  unfold parse_matrix, matrix_of. destruct (negb _); [discriminate|]. destruct (parse_floats (fields s)) as [l|] eqn:E; [|discriminate]. apply floats_value in E. rewrite <- E.
  do 12 (destruct l as [|? l]; [discriminate|]). destruct l; [|discriminate]. congruence.
Qed.
Lemma append_none e x : append e [x] = None -> e = None /\ x = None.
Proof. destruct e as [[]|], x; cbn; try discriminate; auto. Qed.
Lemma u32s_value a l : forall e ns, u32_fields a l e = (ns, None) -> e = None /\ ns = map uint_of l.
Proof.
  induction l as [|s l IH]; intros e ns; cbn [u32_fields map]; [intros [= <- <-]; auto|].
  destruct (parse_u32 s) as [n ok] eqn:E. destruct (u32_fields a l _) as [t er] eqn:EL. intros [= <- ->]. apply IH in EL as (X & ->). apply append_none in X as (-> & X).
  destruct ok; [|discriminate]. split; [reflexivity|]. f_equal. unfold parse_u32 in E. rewrite parse_uint_spec in E. destruct E as (_ & _ & -> & _). unfold uint_of. rewrite dec_val_fold. reflexivity.
Qed.
Lemma f32s_value a l : forall e ns, f32_fields a l e = (ns, None) -> e = None /\ ns = map num_of l.
Proof.
  induction l as [|s l IH]; intros e ns; cbn [f32_fields map]; [intros [= <- <-]; auto|]. unfold num_of at 1.
  destruct (parse_float s) as [n ok] eqn:E. destruct (f32_fields a l _) as [t er] eqn:EL. intros [= <- ->]. apply IH in EL as (X & ->). apply append_none in X as (-> & X).
  split; reflexivity.
Qed.
Lemma word_value {A} (tbl : list (A * string)) pr pa v d : EnumOk tbl pr pa -> word_of tbl d v = match pa v with Some x => x | None => d end.
Proof.
  intros (_ & _ & H). unfold word_of. destruct (find _ tbl) as [[x w]|] eqn:F.
  - apply find_some in F as [I E]. cbn in E. destruct (seq_spec w v) as [->|]; [|discriminate]. apply H in I. rewrite I. reflexivity.
  - destruct (pa v) as [x|] eqn:E; [|reflexivity]. apply H in E. pose proof (find_none _ _ F _ E) as X. cbn in X. rewrite seq_refl in X. discriminate.
Qed.

(** ** Looking up attributes *)
Lemma attr_snoc n d a : NoDup (map aname (d ++ [a])) -> attr_of n (d ++ [a]) = if name_eqb (aname a) n then Some (avalue a) else attr_of n d.
Proof.
  unfold attr_of. induction d as [|b d IH]; cbn [app map find]; intros N; [destruct (name_eqb _ _); reflexivity|]. inversion N as [|? ? N1 N2]; subst.
  destruct (name_eqb_spec (aname b) n) as [E|_]; [|apply IH, N2]. destruct (name_eqb_spec (aname a) n) as [E'|_]; [|reflexivity].
  exfalso. apply N1. rewrite E, <- E', map_app. apply in_or_app. right. left. reflexivity.
Qed.
Lemma get_snoc {A} l d a (f : string -> A) x : NoDup (map aname (d ++ [a])) -> get l (d ++ [a]) f x = if is_attr l a then f (avalue a) else get l d f x.
Proof. intros N. unfold get. rewrite attr_snoc by exact N. change (name_eqb (aname a) (mkName "" l)) with (is_attr l a). destruct (is_attr l a); reflexivity. Qed.
Lemma loop_inv {A} (f : A -> Attr -> option (A * error)) (I : list Attr -> A -> Prop) (G : Attr -> Prop) x0 attrs y : I [] x0 ->
  (forall d a x y, NoDup (map aname (d ++ [a])) -> G a -> I d x -> f x a = Some (y, None) -> I (d ++ [a]) y) ->
  NoDup (map aname attrs) -> Forall G attrs -> attrs_loop f x0 None attrs = Some (y, None) -> I attrs y.
Proof.
  intros H0 HS N FG H. assert (X : forall r d x, attrs = d ++ r -> I d x -> attrs_loop f x None r = Some (y, None) -> I attrs y).
  { induction r as [|a r IH]; intros d x E Id L; cbn [attrs_loop] in L.
    - injection L as <-. rewrite app_nil_r in E. subst. exact Id.
    - destruct (f x a) as [[x1 e]|] eqn:F; [|discriminate]. pose proof (al_none _ _ _ _ _ L) as En. rewrite En in L. apply append_none in En as (_ & ->).
      apply (IH (d ++ [a]) x1); [rewrite <- app_assoc; exact E| |exact L]. apply (HS d a x x1); [| |exact Id|exact F].
      + rewrite E in N. replace (d ++ a :: r) with ((d ++ [a]) ++ r) in N by (rewrite <- app_assoc; reflexivity). rewrite map_app in N.
        clear -N. induction (map aname (d ++ [a])) as [|z l IHl]; [constructor|]. cbn in N. inversion N as [|? ? N1 N2]; subst. constructor; [|apply IHl, N2].
        intros Q. apply N1, in_or_app. left. exact Q.
      + rewrite Forall_forall in FG. apply FG. rewrite E. apply in_elt. }
  apply (X attrs [] x0 eq_refl H0 H).
Qed.
Lemma loop_all {A} (f : A -> Attr -> option (A * error)) (I : list Attr -> A -> Prop) x0 attrs y : I [] x0 ->
  (forall d a x y, NoDup (map aname (d ++ [a])) -> I d x -> f x a = Some (y, None) -> I (d ++ [a]) y) ->
  NoDup (map aname attrs) -> attrs_loop f x0 None attrs = Some (y, None) -> I attrs y.
Proof.
  intros H0 HS N H. apply (loop_inv f I (fun _ => True) x0 attrs y H0); [|exact N|apply Forall_forall; trivial|exact H]. intros d a x z ? _. apply HS. assumption.
Qed.
Lemma fold_all {A} (f : A -> Attr -> A) (I : list Attr -> A -> Prop) x0 attrs : I [] x0 ->
  (forall d a x, NoDup (map aname (d ++ [a])) -> I d x -> I (d ++ [a]) (f x a)) -> NoDup (map aname attrs) -> I attrs (fold_left f attrs x0).
Proof.
  intros H0 HS N. assert (E : forall l x, attrs_loop (fun x a => Some (f x a, None)) x None l = Some (fold_left f l x, None)).
  { induction l as [|a l IH]; intros x; [reflexivity|]. cbn [attrs_loop fold_left]. apply IH. }
  apply (loop_all (fun x a => Some (f x a, None)) I x0 attrs _ H0); [|exact N|apply E]. intros d a x y N' Id [= <-]. apply HS; assumption.
Qed.
Lemma first_get {A} l attrs (f : string -> A) x : match first_attr (is_attr l) attrs with Some a => f (avalue a) | None => x end = get l attrs f x.
Proof.
  unfold get, attr_of. induction attrs as [|a r IH]; [reflexivity|]. cbn [first_attr find]. change (name_eqb (aname a) (mkName "" l)) with (is_attr l a).
  destruct (is_attr l a); [reflexivity|exact IH].
Qed.
Lemma first_local l attrs : Forall (fun x => nspace (aname x) = "") attrs -> first_attr (fun a => seq (nlocal (aname a)) l) attrs = first_attr (is_attr l) attrs.
Proof.
  induction 1 as [|a r H F IH]; [reflexivity|]. cbn [first_attr]. rewrite IH. unfold is_attr. rewrite H. reflexivity.
Qed.

(** ** Groups *)
Lemma firsts_in x l : In x (firsts l) <-> In x l.
Proof.
  induction l as [|y l IH]; [reflexivity|]. cbn [firsts In]. rewrite filter_In, IH. split; [tauto|]. intros [->|H]; [auto|].
  destruct (seq_spec x y) as [->|N]; [auto|]. right. split; [exact H|reflexivity].
Qed.
Lemma firsts_nodup l : NoDup (firsts l).
Proof.
  induction l as [|y l IH]; [constructor|]. cbn [firsts]. constructor; [|apply NoDup_filter, IH]. rewrite filter_In, seq_refl. intros [_ H]. discriminate.
Qed.
Lemma firsts_snoc l x : firsts (l ++ [x]) = if existsb (seq x) l then firsts l else firsts l ++ [x].
Proof.
  induction l as [|y l IH]; [reflexivity|]. cbn [firsts app existsb]. rewrite IH. destruct (existsb (seq x) l) eqn:E; [rewrite orb_true_r; reflexivity|].
  rewrite orb_false_r, filter_app. cbn [filter]. destruct (seq_spec x y) as [->|N]; cbn [negb]; [rewrite app_nil_r; reflexivity|reflexivity].
Qed.
Section Groups.
  Context (reg : Reg).
  Notation known := (knownb reg).
  Notation group_of := (group_of known).
  Lemma group_ns_of el d ns : group_ns (group_of el d ns) = ns.
  Proof.
    unfold S_Meaning.group_of. destruct (negb _); [reflexivity|]. destruct (seq_spec ns ns_production) as [->|_].
    - repeat destruct (seq el _); reflexivity.
    - destruct (seq_spec ns ns_slices) as [->|_]; reflexivity.
  Qed.
  Lemma attr_other ns l d a : nspace (aname a) <> ns -> NoDup (map aname (d ++ [a])) -> attr_of (mkName ns l) (d ++ [a]) = attr_of (mkName ns l) d.
  Proof. intros H N. rewrite attr_snoc by exact N. destruct (name_eqb_spec (aname a) (mkName ns l)) as [E|_]; [|reflexivity]. rewrite E in H. contradiction H. reflexivity. Qed.
  Lemma group_other el d a ns : NoDup (map aname (d ++ [a])) -> nspace (aname a) <> ns -> group_of el (d ++ [a]) ns = group_of el d ns.
  Proof.
    intros N H. unfold S_Meaning.group_of. rewrite !attr_other by assumption. rewrite filter_app. cbn [filter].
    destruct (seq_spec (nspace (aname a)) ns); [contradiction|]. rewrite app_nil_r. reflexivity.
  Qed.
  Lemma group_step el d a g e : NoDup (map aname (d ++ [a])) -> unmarshal_attr (group_of el d (nspace (aname a))) a = (g, e) -> e = None ->
    g = group_of el (d ++ [a]) (nspace (aname a)).
  Proof.
    intros N H ->. destruct a as [[ns l] v]. cbn [aname nspace] in *. unfold S_Meaning.group_of in *. rewrite !attr_snoc by exact N. unfold name_eqb. cbn [aname nspace nlocal avalue]. rewrite seq_refl. cbn [andb].
    assert (X : filter (fun x => seq (nspace (aname x)) ns) (d ++ [mkAttr (mkName ns l) v]) = filter (fun x => seq (nspace (aname x)) ns) d ++ [mkAttr (mkName ns l) v]).
    { rewrite filter_app. cbn [filter aname nspace]. rewrite seq_refl. reflexivity. }
    rewrite X. clear X.
    destruct (negb (known ns)); [cbn in H; congruence|]. destruct (seq ns ns_production) eqn:EP.
    - destruct (seq el "build"); [|destruct (seq el "item"); [|destruct (seq el "object"); [|destruct (seq el "component")]]];
        cbn [unmarshal_attr aname nlocal avalue] in H; try congruence;
        (destruct (seq l "UUID") eqn:EU; [destruct (uuid_validate v); [|unfold parse_err in H; discriminate]|]);
        try congruence; try (destruct (seq l "path") eqn:EQ; try congruence); destruct (seq_spec l "UUID") as [->|]; discriminate.
    - destruct (seq ns ns_slices) eqn:ES; [|cbn in H; congruence]. cbn [unmarshal_attr aname nlocal avalue] in H.
      revert H. destruct (seq_spec l "slicestackid") as [->|N1]; intros H.
      + pose proof (u32_value (mkAttr (mkName ns "slicestackid") v) true) as U. unfold get_u32 in U. cbn [avalue] in U. destruct (parse_u32 v) as [n ok]. destruct ok; [|unfold parse_err in H; discriminate].
        injection H as <-. rewrite <- (U n eq_refl). reflexivity.
      + revert H. destruct (seq_spec l "meshresolution") as [->|N2]; intros H; [|congruence].
        rewrite (word_value _ _ _ v 0%N enum_resolution). destruct (new_resolution v) as [m|]; [|unfold parse_err in H; discriminate]. injection H as <-. reflexivity.
  Qed.
  Lemma attr_absent n d : ~ In n (map aname d) -> attr_of n d = None.
  Proof.
    unfold attr_of. intros H. destruct (find _ d) as [x|] eqn:F; [|reflexivity]. apply find_some in F as [I E]. destruct (name_eqb_spec (aname x) n) as [<-|]; [|discriminate].
    exfalso. apply H, in_map, I.
  Qed.
  Lemma group_new el d ns g : ~ In ns (map (fun x => nspace (aname x)) d) -> new_attr_group reg ns el = Some g -> g = group_of el d ns.
  Proof.
    intros H HN. assert (A : forall l, attr_of (mkName ns l) d = None).
    { intros l. apply attr_absent. intros I. apply H. apply in_map_iff in I as (x & E & I). apply in_map_iff. exists x. split; [rewrite E; reflexivity|exact I]. }
    assert (F : filter (fun x => seq (nspace (aname x)) ns) d = []).
    { clear -H. induction d as [|x d IH]; [reflexivity|]. cbn [filter map In] in *. destruct (seq_spec (nspace (aname x)) ns); [exfalso; apply H; left; assumption|]. apply IH. tauto. }
    unfold S_Meaning.group_of. rewrite !A, F. unfold new_attr_group in HN. unfold knownb. destruct (load reg ns) as [sp|] eqn:L; [|cbn; congruence]. cbn [negb].
    assert (LS : match sp with SpMat => ns = ns_materials | SpProd => ns = ns_production | SpSlices => ns = ns_slices | SpBeam => ns = ns_beam end).
    { unfold load in L. destruct (seq_spec ns ns_materials) as [->|_]; [destruct (rg_mat reg); inversion L; reflexivity|]. destruct (seq_spec ns ns_production) as [->|_]; [destruct (rg_prod reg); inversion L; reflexivity|].
      destruct (seq_spec ns ns_slices) as [->|_]; [destruct (rg_slices reg); inversion L; reflexivity|]. destruct (seq_spec ns ns_beam) as [->|_]; [destruct (rg_beam reg); inversion L; reflexivity|discriminate]. }
    destruct sp; subst ns; try discriminate.
    - change (seq ns_production ns_production) with true. cbn iota. repeat (destruct (seq el _); [congruence|]). discriminate.
    - change (seq ns_slices ns_production) with false. change (seq ns_slices ns_slices) with true. cbn iota. destruct (seq el "object"); [congruence|discriminate].
  Qed.
  Lemma any_step el d a : NoDup (map aname (d ++ [a])) -> forall L any, NoDup L -> (In (nspace (aname a)) L <-> In (nspace (aname a)) (map (fun x => nspace (aname x)) d)) ->
    any_attr reg el (map (group_of el d) L) a = Some (any, None) ->
    any = map (group_of el (d ++ [a])) (if existsb (seq (nspace (aname a))) L then L else L ++ [nspace (aname a)]).
  Proof.
    intros N. set (ns := nspace (aname a)).
    assert (X : forall L any, NoDup L -> any_attr reg el (map (group_of el d) L) a = Some (any, None) ->
      (~ In ns L -> ~ In ns (map (fun x => nspace (aname x)) d)) ->
      any = map (group_of el (d ++ [a])) (if existsb (seq ns) L then L else L ++ [ns])).
    { induction L as [|y L IH]; intros any NL H HI; cbn [map any_attr existsb app] in *.
      - fold ns in H. destruct (new_attr_group reg ns el) as [g|] eqn:EG; [|discriminate]. destruct (unmarshal_attr g a) as [g' e] eqn:EU. injection H as <- ->.
        apply (group_new el d) in EG; [|apply HI; auto]. subst g. rewrite (group_step el d a g' None N EU eq_refl). reflexivity.
      - rewrite group_ns_of in H. fold ns in H. inversion NL as [|? ? N1 N2]; subst. destruct (seq_spec y ns) as [->|NE].
        + destruct (unmarshal_attr _ a) as [g' e] eqn:EU. injection H as <- ->. rewrite seq_refl. cbn [orb map]. rewrite (group_step el d a g' None N EU eq_refl). fold ns. f_equal.
          apply map_ext_in. intros z Iz. symmetry. apply group_other; [exact N|]. fold ns. intros ->. contradiction.
        + destruct (any_attr reg el _ a) as [[r e]|] eqn:EA; [|discriminate]. injection H as <- ->. destruct (seq_spec ns y) as [->|_]; [contradiction|]. cbn [orb].
          assert (HI' : ~ In ns L -> ~ In ns (map (fun x => nspace (aname x)) d)) by (intros Q; apply HI; intros [->|Q']; contradiction).
          rewrite (IH _ N2 eq_refl HI'). destruct (existsb (seq ns) L); cbn [map app]; f_equal; symmetry; (apply group_other; [exact N|]); fold ns; congruence. }
    intros L any NL HI H. apply (X L any NL H). tauto.
  Qed.
  Lemma groups_step el d a any : NoDup (map aname (d ++ [a])) -> any_attr reg el (groups known el d) a = Some (any, None) -> any = groups known el (d ++ [a]).
  Proof.
    intros N H. unfold groups, spaces in *. apply (any_step el d a N) in H; [|apply firsts_nodup|apply firsts_in]. rewrite H, map_app. cbn [map]. rewrite firsts_snoc. f_equal.
    assert (E : existsb (seq (nspace (aname a))) (firsts (map (fun x => nspace (aname x)) d)) = existsb (seq (nspace (aname a))) (map (fun x => nspace (aname x)) d)).
    { apply eq_true_iff_eq. rewrite !existsb_exists. split; intros (x & I & E); exists x; (split; [apply firsts_in; exact I|exact E]). }
    rewrite E. reflexivity.
  Qed.
  Lemma groups_loop el attrs any : NoDup (map aname attrs) -> group_start reg el [] attrs = Some (any, None) -> any = groups known el attrs.
  Proof.
    intros N H. apply (loop_all (any_attr reg el) (fun d x => x = groups known el d) [] attrs any eq_refl); [|exact N|exact H].
    intros d a x y Nd -> H'. apply groups_step; assumption.
  Qed.
  (** The attributes of other namespaces of an element that also has its own *)
  Lemma foreign_snoc d a : foreign (d ++ [a]) = if seq (nspace (aname a)) "" then foreign d else foreign d ++ [a].
  Proof. unfold foreign. rewrite filter_app. cbn [filter]. destruct (seq _ _); cbn [negb]; [apply app_nil_r|reflexivity]. Qed.
  Lemma filter_names (p : Attr -> bool) d a : NoDup (map aname (d ++ [a])) -> NoDup (map aname (filter p d ++ [a])).
  Proof.
    rewrite !map_app. cbn [map]. intros N. assert (N1 : NoDup (map aname d)). { clear -N. induction d as [|x d IH]; [constructor|]. cbn in *. inversion N; subst. constructor; [|auto]. intros I. apply H1, in_or_app. left. exact I. }
    assert (N2 : ~ In (aname a) (map aname d)). { intros I. apply (NoDup_remove_2 _ [] (aname a) N). rewrite app_nil_r. exact I. }
    assert (F : incl (map aname (filter p d)) (map aname d)). { intros x I. apply in_map_iff in I as (y & <- & I). apply filter_In in I as [I _]. apply in_map, I. }
    apply NoDup_rev in N. rewrite <- (rev_involutive (map aname (filter p d) ++ [aname a])). apply NoDup_rev. rewrite rev_app_distr. cbn. constructor.
    - rewrite <- in_rev. intros I. apply N2, F, I.
    - apply NoDup_rev. clear -N1. induction d as [|x d IH]; [constructor|]. cbn [filter map] in *. inversion N1; subst. destruct (p x); [|auto]. cbn. constructor; [|auto]. intros I.
      apply H1. apply in_map_iff in I as (y & E & I). apply filter_In in I as [I _]. rewrite <- E. apply in_map, I.
  Qed.
  Lemma foreign_step el d a any : NoDup (map aname (d ++ [a])) -> seq (nspace (aname a)) "" = false -> any_attr reg el (groups known el (foreign d)) a = Some (any, None) ->
    any = groups known el (foreign (d ++ [a])).
  Proof. intros N E H. rewrite foreign_snoc, E. apply groups_step; [apply filter_names, N|exact H]. Qed.
End Groups.

(** ** The attributes of each element *)
Lemma pair_inv {A} (a y : A) (e : error) : Some (a, e) = Some (y, None) -> y = a /\ e = None.
Proof. intros [= <- ->]. auto. Qed.
Lemma get_fresh {A} l d a (f : string -> A) x : NoDup (map aname (d ++ [a])) -> is_attr l a = true -> get l d f x = x.
Proof.
  intros N E. unfold get. rewrite attr_absent; [reflexivity|]. unfold is_attr in E. change (name_eqb (aname a) (mkName "" l) = true) in E. destruct (name_eqb_spec (aname a) (mkName "" l)) as [<-|]; [|discriminate].
  rewrite map_app in N. cbn [map] in N. intros I. apply (NoDup_remove_2 _ [] (aname a) N). rewrite app_nil_r. exact I.
Qed.
Ltac lits := repeat match goal with
  | |- context [seq ?a ?b] => let v := eval vm_compute in (seq a b) in match v with true => idtac | false => idtac end; change (seq a b) with v
  end; cbn [negb andb orb].
Ltac split_local l := repeat match goal with |- context [seq l ?s] => destruct (seq_spec l s) as [->|?]; lits end.
Ltac err_none H := try (apply append_none in H as (_ & H)); try match type of H with
  | ?e = None => is_var e; subst e
  | (if ?ok then _ else _) = None => destruct ok; [|unfold parse_err in H; discriminate H]
  | parse_err _ _ = None => unfold parse_err in H; discriminate H
  | match ?ok with Some _ => _ | None => _ end = None => destruct ok; [|unfold parse_err in H; discriminate H]
  end.
Ltac val H := repeat match type of H with
  | context [get_u32 ?a ?b] => let E := fresh "E" in destruct (get_u32 a b) as [? ?] eqn:E
  | context [get_f32 ?a ?b] => let E := fresh "E" in destruct (get_f32 a b) as [? ?] eqn:E
  | context [parse_matrix ?a] => let E := fresh "E" in destruct (parse_matrix a) as [? ?] eqn:E
  | context [parse_rgba ?a] => let E := fresh "E" in destruct (parse_rgba a) as [? ?] eqn:E
  | context [u32_fields ?a ?b ?c] => let E := fresh "E" in destruct (u32_fields a b c) as [? ?] eqn:E
  | context [f32_fields ?a ?b ?c] => let E := fresh "E" in destruct (f32_fields a b c) as [? ?] eqn:E
  end;
  apply pair_inv in H; let HE := fresh "HE" in destruct H as [H HE]; err_none HE; subst;
  repeat match goal with
  | E : get_u32 _ _ = (_, None) |- _ => apply u32_value in E; cbn [avalue] in E; subst
  | E : get_f32 _ _ = (_, _) |- _ => apply f32_value in E; cbn [avalue] in E; subst
  | E : parse_matrix _ = (_, true) |- _ => apply matrix_value in E; cbn [avalue] in E; subst
  | E : parse_rgba _ = (_, true) |- _ => apply colour_value in E; cbn [avalue] in E; subst
  | E : u32_fields _ _ _ = (_, None) |- _ => apply u32s_value in E as (_ & E); cbn [avalue] in E; subst
  | E : f32_fields _ _ _ = (_, None) |- _ => apply f32s_value in E as (_ & E); cbn [avalue] in E; subst
  end.
Ltac snocs N := unfold num, uint, str, word; rewrite ?get_snoc by exact N; unfold is_attr; cbn [aname avalue nspace nlocal].
Section Attributes.
  Context (reg : Reg).
  Notation known := (knownb reg).
  Lemma vertex_step d a x y : NoDup (map aname (d ++ [a])) -> x = vertex_of d -> vertex_attr x a = Some (y, None) -> y = vertex_of (d ++ [a]).
  Proof.
    destruct a as [[sp l] v]. intros N -> H. revert H. unfold vertex_attr, vertex_of. snocs N. cbn [px py pz].
    destruct (seq_spec sp "") as [->|NS]; cbn [negb andb]; [|intros H; val H; reflexivity].
    split_local l; intros H; val H; reflexivity.
  Qed.
  Lemma vertex_loop a y : NoDup (map aname a) -> attrs_loop vertex_attr point_zero None a = Some (y, None) -> y = vertex_of a.
  Proof. apply (loop_all vertex_attr (fun d x => x = vertex_of d) point_zero a y eq_refl vertex_step). Qed.
  Definition tri_vars (a : list Attr) : TriV :=
    let opt l := get l a (fun v => Some (uint_of v)) None in
    mkTriV (uint "v1" a) (uint "v2" a) (uint "v3" a) (opt "pid") (opt "p1") (opt "p2") (opt "p3") (groups known "triangle" (foreign a)).
  Ltac others_ N := match goal with |- context [any_attr reg ?el ?g ?a] =>
      let E := fresh "E" in destruct (any_attr reg el g a) as [[? ?]|] eqn:E; [|discriminate]; let H := fresh "H" in intros H; val H;
      apply (foreign_step reg) in E; [subst; reflexivity|exact N|]
    end.
  Ltac mixed N sp l := let NS := fresh "NS" in
    destruct (seq_spec sp "") as [->|NS]; cbn [negb andb];
    [rewrite foreign_snoc; cbn [aname nspace]; split_local l; let H := fresh "H" in intros H; val H; reflexivity
    |others_ N; cbn [aname nspace]; destruct (seq_spec sp ""); [contradiction|reflexivity]].
  Lemma tri_step d a x y : NoDup (map aname (d ++ [a])) -> x = tri_vars d -> tri_attr reg x a = Some (y, None) -> y = tri_vars (d ++ [a]).
  Proof.
    destruct a as [[sp l] v]. intros N -> H. revert H. unfold tri_attr, tri_vars. snocs N. cbn [tv_v1 tv_v2 tv_v3 tv_pid tv_p1 tv_p2 tv_p3 tv_any]. mixed N sp l.
  Qed.
  Lemma default_get l a d : apply_default (get l a (fun v => Some (uint_of v)) None) d = get l a uint_of d.
  Proof. unfold get, apply_default. destruct (attr_of _ a); reflexivity. Qed.
  Lemma tri_loop pid pindex a y : NoDup (map aname a) -> attrs_loop (tri_attr reg) (mkTriV 0 0 0 None None None None []) None a = Some (y, None) ->
    tri_of pid pindex y = triangle_of known pid pindex a.
  Proof.
    intros N H. assert (y = tri_vars a) as ->.
    { revert N H. apply (loop_all (tri_attr reg) (fun d x => x = tri_vars d) _ a y eq_refl tri_step). }
    unfold tri_of, tri_vars, triangle_of. cbn [tv_v1 tv_v2 tv_v3 tv_pid tv_p1 tv_p2 tv_p3 tv_any]. rewrite !default_get. reflexivity.
  Qed.
  Definition obj_attrs (a : list Attr) : Object :=
    mkObj (uint "id" a) (str "name" a) (str "partnumber" a) (str "thumbnail" a) (uint "pid" a) (uint "pindex" a) (word spec_object_type 0%Z "type" a)
      mg_zero None None (groups known "object" (foreign a)).
  Lemma obj_step d a x y : NoDup (map aname (d ++ [a])) -> x = obj_attrs d -> obj_attr reg x a = Some (y, None) -> y = obj_attrs (d ++ [a]).
  Proof.
    destruct a as [[sp l] v]. intros N -> H. revert H. unfold obj_attr, obj_attrs. snocs N.
    cbn [ob_id ob_name ob_part ob_thumb ob_pid ob_pindex ob_type ob_md ob_mesh ob_comps ob_any].
    rewrite (word_value _ _ _ v 0%Z enum_object_type). destruct (new_object_type v); mixed N sp l.
  Qed.
  Lemma obj_loop a y : NoDup (map aname a) -> attrs_loop (obj_attr reg) obj_zero None a = Some (y, None) -> y = obj_attrs a.
  Proof. apply (loop_all (obj_attr reg) (fun d x => x = obj_attrs d) obj_zero a y eq_refl obj_step). Qed.
  Definition item_attrs (a : list Attr) : Item :=
    mkItem (uint "objectid" a) (get "transform" a matrix_of matrix_zero) (str "partnumber" a) mg_zero (groups known "item" (foreign a)).
  Lemma item_step d a x y : NoDup (map aname (d ++ [a])) -> x = item_attrs d -> item_attr reg x a = Some (y, None) -> y = item_attrs (d ++ [a]).
  Proof.
    destruct a as [[sp l] v]. intros N -> H. revert H. unfold item_attr, item_attrs. snocs N. cbn [it_oid it_tr it_part it_md it_any]. mixed N sp l.
  Qed.
  Lemma item_loop a y : NoDup (map aname a) -> attrs_loop (item_attr reg) item_zero None a = Some (y, None) -> y = item_attrs a.
  Proof. apply (loop_all (item_attr reg) (fun d x => x = item_attrs d) item_zero a y eq_refl item_step). Qed.
  Lemma comp_step d a x y : NoDup (map aname (d ++ [a])) -> x = component_of known d -> comp_attr reg x a = Some (y, None) -> y = component_of known (d ++ [a]).
  Proof.
    destruct a as [[sp l] v]. intros N -> H. revert H. unfold comp_attr, component_of. snocs N. cbn [co_oid co_tr co_any]. mixed N sp l.
  Qed.
  Lemma comp_loop a y : NoDup (map aname a) -> attrs_loop (comp_attr reg) (mkComp 0 matrix_zero []) None a = Some (y, None) -> y = component_of known a.
  Proof. apply (loop_all (comp_attr reg) (fun d x => x = component_of known d) _ a y eq_refl comp_step). Qed.
  Lemma base_step d a x y : NoDup (map aname (d ++ [a])) -> x = base_of known d -> base_attr reg x a = Some (y, None) -> y = base_of known (d ++ [a]).
  Proof.
    destruct a as [[sp l] v]. intros N -> H. revert H. unfold base_attr, base_of. snocs N. cbn [ba_name ba_color ba_any]. mixed N sp l.
  Qed.
  Lemma base_loop a y : NoDup (map aname a) -> attrs_loop (base_attr reg) (mkBase "" rgba_zero []) None a = Some (y, None) -> y = base_of known a.
  Proof. apply (loop_all (base_attr reg) (fun d x => x = base_of known d) _ a y eq_refl base_step). Qed.
  Definition bm_attrs (a : list Attr) : BaseMaterials := mkBM (uint "id" a) [] (groups known "basematerials" (foreign a)).
  Lemma bm_step d a x y : NoDup (map aname (d ++ [a])) -> x = bm_attrs d -> bm_attr reg x a = Some (y, None) -> y = bm_attrs (d ++ [a]).
  Proof.
    destruct a as [[sp l] v]. intros N -> H. revert H. unfold bm_attr, bm_attrs. snocs N. cbn [bs_id bs_mats bs_any]. mixed N sp l.
  Qed.
  Lemma bm_loop a y : NoDup (map aname a) -> attrs_loop (bm_attr reg) bm_zero None a = Some (y, None) -> y = bm_attrs a.
  Proof. apply (loop_all (bm_attr reg) (fun d x => x = bm_attrs d) bm_zero a y eq_refl bm_step). Qed.
  Definition meta_attrs (prefixes : list string) (a : list Attr) : Metadata :=
    mkMeta (get "name" a (meta_name prefixes) (mkName "" "")) "" (str "type" a) (get "preserve" a true_of false).
  Lemma meta_loop exts ps a : (forall p, existsb (fun e => seq (ex_local e) p) exts = existsb (seq p) ps) -> NoDup (map aname a) ->
    fold_left (meta_attr exts) a meta_zero = meta_attrs ps a.
  Proof.
    intros HE. apply (fold_all (meta_attr exts) (fun d x => x = meta_attrs ps d) meta_zero a eq_refl). clear a. intros d [[sp l] v] x N ->. unfold meta_attr, meta_attrs. snocs N.
    cbn [md_name md_value md_type md_preserve]. destruct (seq_spec sp "") as [->|NS]; cbn [negb andb]; [|reflexivity]. split_local l; try reflexivity.
    unfold meta_name. destruct (split_at ":" v) as [[p r]|]; [rewrite HE|]; reflexivity.
  Qed.

  (** *** Materials *)
  Lemma coord_loop a y : NoDup (map aname a) -> attrs_loop coord_attr (f_zero, f_zero) None a = Some (y, None) -> y = (num "u" a, num "v" a).
  Proof.
    apply (loop_all coord_attr (fun d x => x = (num "u" d, num "v" d)) _ a y eq_refl). clear a y. intros d [[sp l] v] x y N -> H. revert H. unfold coord_attr. snocs N. cbn [fst snd].
    destruct (seq_spec sp "") as [->|NS]; cbn [negb andb]; [|intros H; val H; reflexivity]. split_local l; intros H; val H; reflexivity.
  Qed.
  Lemma texg_loop a y : NoDup (map aname a) -> attrs_loop texg_attr (mkTG 0 0 []) None a = Some (y, None) -> y = mkTG (uint "id" a) (uint "texid" a) [].
  Proof.
    apply (loop_all texg_attr (fun d x => x = mkTG (uint "id" d) (uint "texid" d) []) _ a y eq_refl). clear a y. intros d [[sp l] v] x y N -> H. revert H. unfold texg_attr. snocs N.
    cbn [tg_id tg_tex tg_coords]. destruct (seq_spec sp "") as [->|NS]; cbn [negb andb]; [|intros H; val H; reflexivity]. split_local l; intros H; val H; reflexivity.
  Qed.
  Lemma tex_loop a y : NoDup (map aname a) -> attrs_loop tex_attr (mkTex2D 0 "" 0 0 0 0) None a = Some (y, None) -> y = texture_of a.
  Proof.
    apply (loop_all tex_attr (fun d x => x = texture_of d) _ a y eq_refl). clear a y. intros d [[sp l] v] x y N -> H. revert H. unfold tex_attr, texture_of. snocs N.
    cbn [tx_id tx_path tx_ctype tx_tu tx_tv tx_filter].
    rewrite (word_value _ _ _ v 0%N enum_tex_type), (word_value _ _ _ v 0%N enum_tile), (word_value _ _ _ v 0%N enum_filter).
    destruct (seq_spec sp "") as [->|NS]; cbn [negb andb]; [|intros H; val H; reflexivity]. split_local l; intros H; val H; reflexivity.
  Qed.
  Lemma composites_loop a y : NoDup (map aname a) -> attrs_loop composites_attr (mkCM 0 0 [] []) None a = Some (y, None) ->
    y = mkCM (uint "id" a) (uint "matid" a) (get "matindices" a uints_of []) [].
  Proof.
    apply (loop_all composites_attr (fun d x => x = mkCM (uint "id" d) (uint "matid" d) (get "matindices" d uints_of []) []) _ a y eq_refl). clear a y.
    intros d [[sp l] v] x y N -> H. revert H. unfold composites_attr. snocs N. cbn [cm_id cm_mat cm_indices cm_comps].
    destruct (seq_spec sp "") as [->|NS]; cbn [negb andb]; [|intros H; val H; reflexivity]. split_local l; intros H; val H; try reflexivity.
    rewrite (get_fresh "matindices" d _ uints_of [] N) by reflexivity. reflexivity.
  Qed.
  Lemma composite_loop a y : NoDup (map aname a) -> attrs_loop composite_attr [] None a = Some (y, None) -> y = get "values" a nums_of [].
  Proof.
    apply (loop_all composite_attr (fun d x => x = get "values" d nums_of []) _ a y eq_refl). clear a y. intros d a x y N -> H. revert H. unfold composite_attr. rewrite get_snoc by exact N.
    destruct (is_attr "values" a) eqn:EA; intros H; val H; [|reflexivity]. rewrite (get_fresh "values" d a nums_of [] N EA). reflexivity.
  Qed.
  Lemma multis_loop a y : NoDup (map aname a) -> attrs_loop multis_attr (mkMP 0 [] [] []) None a = Some (y, None) ->
    y = mkMP (uint "id" a) (get "pids" a uints_of []) (get "blendmethods" a (fun v => map (word_of spec_blend 0%N) (fields v)) []) [].
  Proof.
    apply (loop_all multis_attr (fun d x => x = mkMP (uint "id" d) (get "pids" d uints_of []) (get "blendmethods" d (fun v => map (word_of spec_blend 0%N) (fields v)) []) []) _ a y eq_refl). clear a y.
    intros d [[sp l] v] x y N -> H. revert H. unfold multis_attr. snocs N. cbn [mp_id mp_pids mp_blend mp_multis].
    destruct (seq_spec sp "") as [->|NS]; cbn [negb andb]; [|intros H; val H; reflexivity]. split_local l; intros H; val H; try reflexivity.
    - rewrite (get_fresh "blendmethods" d _ _ [] N) by reflexivity. cbn [app avalue]. f_equal. apply map_ext. intros w. rewrite (word_value _ _ _ w 0%N enum_blend). reflexivity.
    - rewrite (get_fresh "pids" d _ uints_of [] N) by reflexivity. reflexivity.
  Qed.
  Lemma multi_loop a y : NoDup (map aname a) -> attrs_loop multi_attr [] None a = Some (y, None) -> y = get "pindices" a uints_of [].
  Proof.
    apply (loop_all multi_attr (fun d x => x = get "pindices" d uints_of []) _ a y eq_refl). clear a y. intros d a x y N -> H. revert H. unfold multi_attr. rewrite get_snoc by exact N.
    destruct (is_attr "pindices" a) eqn:EA; intros H; val H; [|reflexivity]. rewrite (get_fresh "pindices" d a uints_of [] N EA). reflexivity.
  Qed.

  (** *** Slices, whose decoders do not look at the namespaces of attributes *)
  Definition bare (a : Attr) : Prop := nspace (aname a) = "".
  Lemma stack_loop a y : NoDup (map aname a) -> Forall bare a -> attrs_loop stack_attr (mkSS 0 f_zero [] []) None a = Some (y, None) ->
    y = mkSS (uint "id" a) (num "zbottom" a) [] [].
  Proof.
    apply (loop_inv stack_attr (fun d x => x = mkSS (uint "id" d) (num "zbottom" d) [] []) bare _ a y eq_refl). clear a y.
    intros d [[sp l] v] x y N B -> H. unfold bare in B. cbn [aname nspace] in B. subst sp. revert H. unfold stack_attr. snocs N. cbn [ss_id ss_bottom ss_slices ss_refs]. lits.
    split_local l; intros H; val H; reflexivity.
  Qed.
  Lemma sliceref_loop a y : NoDup (map aname a) -> Forall bare a -> attrs_loop sliceref_attr (mkSRef 0 "") None a = Some (y, None) ->
    y = mkSRef (uint "slicestackid" a) (str "slicepath" a).
  Proof.
    apply (loop_inv sliceref_attr (fun d x => x = mkSRef (uint "slicestackid" d) (str "slicepath" d)) bare _ a y eq_refl). clear a y.
    intros d [[sp l] v] x y N B -> H. unfold bare in B. cbn [aname nspace] in B. subst sp. revert H. unfold sliceref_attr. snocs N. cbn [sr_id sr_path]. lits.
    split_local l; intros H; val H; reflexivity.
  Qed.
  Lemma svert_loop a y : NoDup (map aname a) -> Forall bare a -> attrs_loop svert_attr (P2 f_zero f_zero) None a = Some (y, None) -> y = P2 (num "x" a) (num "y" a).
  Proof.
    apply (loop_inv svert_attr (fun d x => x = P2 (num "x" d) (num "y" d)) bare _ a y eq_refl). clear a y.
    intros d [[sp l] v] x y N B -> H. unfold bare in B. cbn [aname nspace] in B. subst sp. revert H. unfold svert_attr. snocs N. cbn [p2x p2y]. lits.
    split_local l; intros H; val H; reflexivity.
  Qed.
  Definition has (l : string) (a : list Attr) : bool := get l a (fun _ => true) false.
  Lemma has_not {A} l a (f : string -> A) x : has l a = false -> get l a f x = x.
  Proof. unfold has, get. destruct (attr_of _ a); [discriminate|reflexivity]. Qed.
  Lemma has_get {A} l a (f : string -> A) x x' : has l a = true -> get l a f x = get l a f x'.
  Proof. unfold has, get. destruct (attr_of _ a); [reflexivity|discriminate]. Qed.
  Lemma has_snoc l d a : NoDup (map aname (d ++ [a])) -> has l (d ++ [a]) = if is_attr l a then true else has l d.
  Proof. unfold has. apply get_snoc. Qed.
  Lemma has_fresh l d a : NoDup (map aname (d ++ [a])) -> is_attr l a = true -> has l d = false.
  Proof. intros N E. unfold has. apply (get_fresh l d a _ false N E). Qed.
  Lemma seg_loop a y : NoDup (map aname a) -> Forall bare a -> attrs_loop seg_attr (mkSeg 0 0 0 0, (false, false)) None a = Some (y, None) ->
    fst y = segment_of a.
  Proof.
    intros N B H. assert (X : y = (segment_of a, (has "p1" a, has "p2" a))); [|rewrite X; reflexivity]. revert N B H.
    apply (loop_inv seg_attr (fun d x => x = (segment_of d, (has "p1" d, has "p2" d))) bare _ a y eq_refl). clear a y.
    intros d [[sp l] v] x y N B -> H. unfold bare in B. cbn [aname nspace] in B. subst sp. revert H. unfold seg_attr, segment_of. rewrite !has_snoc by exact N. snocs N. cbn [sg_v2 sg_pid sg_p1 sg_p2]. lits.
    destruct (has "p1" d) eqn:E1, (has "p2" d) eqn:E2;
      split_local l; intros H; cbn [andb negb sg_v2 sg_pid sg_p1 sg_p2] in H; val H; try reflexivity;
      rewrite ?(has_not "p2" d _ _ E2), ?(has_not "p1" d _ _ E1); try reflexivity; f_equal; f_equal; apply (has_get "p2" d uint_of _ _ E2).
  Qed.

  (** *** Beam lattices *)
  Definition once (a : list Attr) : Prop := has "minlength" a && has "precision" a = false /\ has "clippingmode" a && has "clipping" a = false.
  Definition lattice_attrs (a : list Attr) : BeamLattice :=
    mkBL (get "clippingmode" a (word_of spec_clip 0%N) (word spec_clip 0%N "clipping" a)) (uint "clippingmesh" a) (uint "representationmesh" a) [] []
      (get "minlength" a num_of (num "precision" a)) (num "radius" a) (word spec_cap 0%N "cap" a).
  Lemma once_snoc d a : NoDup (map aname (d ++ [a])) -> once (d ++ [a]) -> once d.
  Proof.
    intros N. unfold once. rewrite !has_snoc by exact N.
    destruct (is_attr "minlength" a), (is_attr "precision" a), (is_attr "clippingmode" a), (is_attr "clipping" a), (has "minlength" d), (has "precision" d), (has "clippingmode" d), (has "clipping" d); cbn; intuition discriminate.
  Qed.
  Lemma lattice_loop a y : NoDup (map aname a) -> once a -> attrs_loop lattice_attr lattice_zero None a = Some (y, None) -> y = lattice_attrs a.
  Proof.
    intros N O H. revert O. revert N H. apply (loop_all lattice_attr (fun d x => once d -> x = lattice_attrs d) _ a y); [reflexivity|]. clear a y.
    intros d [[sp l] v] x y N I H O. specialize (I (once_snoc _ _ N O)). subst x. destruct O as [O1 O2]. revert H O1 O2. unfold lattice_attr, lattice_attrs. rewrite !has_snoc by exact N. snocs N.
    cbn [bl_clip bl_clipmesh bl_repmesh bl_beams bl_sets bl_minlen bl_radius bl_cap]. rewrite (word_value _ _ _ v 0%N enum_clip), (word_value _ _ _ v 0%N enum_cap).
    destruct (seq_spec sp "") as [->|NS]; cbn [negb andb]; [|intros H; val H; reflexivity].
    split_local l; intros H O1 O2; rewrite ?andb_true_r in *; val H; try reflexivity; rewrite ?(has_not _ d _ _ O1), ?(has_not _ d _ _ O2); reflexivity.
  Qed.
  Definition some_cap (v : string) : bool := match new_cap v with Some _ => true | None => false end.
  Definition beam_vars (a : list Attr) : Beam * (bool * bool) :=
    (mkBeam (uint "v1" a) (uint "v2" a) (num "r1" a) (num "r2" a) (word spec_cap 0%N "cap1" a) (word spec_cap 0%N "cap2" a),
     (get "cap1" a some_cap false, get "cap2" a some_cap false)).
  Lemma beam_loop g a y : NoDup (map aname a) -> attrs_loop beam_attr (beam_zero, (false, false)) None a = Some (y, None) ->
    M_Decode.beam_of g y = S_Meaning.beam_of (bl_radius g) (bl_cap g) a.
  Proof.
    intros N H. assert (y = beam_vars a) as ->.
    { revert N H. apply (loop_all beam_attr (fun d x => x = beam_vars d) _ a y eq_refl). clear a y.
      intros d [[sp l] v] x y N -> H. revert H. unfold beam_attr, beam_vars. snocs N. cbn [bm_i1 bm_i2 bm_r1 bm_r2 bm_c1 bm_c2]. rewrite (word_value _ _ _ v 0%N enum_cap). unfold some_cap at 3 4.
      destruct (seq_spec sp "") as [->|NS]; cbn [negb andb]; [|intros H; val H; reflexivity].
      split_local l; intros H; val H; try reflexivity.
      - rewrite (get_fresh "cap1" d _ some_cap false N) by reflexivity. reflexivity.
      - rewrite (get_fresh "cap2" d _ some_cap false N) by reflexivity. reflexivity. }
    assert (C : forall l, (if get l a some_cap false then word spec_cap 0%N l a else bl_cap g) = word spec_cap (bl_cap g) l a).
    { intros l. unfold word, get. destruct (attr_of _ a) as [v|]; [|reflexivity]. rewrite !(word_value _ _ _ v _ enum_cap). unfold some_cap. destruct (new_cap v); reflexivity. }
    unfold M_Decode.beam_of, S_Meaning.beam_of, beam_vars. cbn [bm_i1 bm_i2 bm_r1 bm_r2 bm_c1 bm_c2]. rewrite !C. reflexivity.
  Qed.
  Lemma set_loop a : NoDup (map aname a) -> fold_left set_attr a set_zero = mkBS [] (str "name" a) (str "identifier" a).
  Proof.
    apply (fold_all set_attr (fun d x => x = mkBS [] (str "name" d) (str "identifier" d)) _ a eq_refl). clear a. intros d [[sp l] v] x N ->. unfold set_attr. snocs N. cbn [bs_refs bs_name bs_ident].
    destruct (seq_spec sp "") as [->|NS]; cbn [negb andb]; [|reflexivity]. split_local l; reflexivity.
  Qed.

  (** *** The root element *)
  Definition lang_of (a : list Attr) : string := match attr_of (mkName ns_xml "lang") a with Some v => v | None => "" end.
  Definition exts_of (a : list Attr) : list Extension := map (fun x => mkExt (avalue x) (nlocal (aname x)) false) (declared a).
  Definition model_attrs (M : Model) (a : list Attr) : Model * list string :=
    (mo_head (lang_of a) (word spec_units 0%N "unit" a) (str "thumbnail" a) (exts_of a) (groups known "model" (others a)) M, get "requiredextensions" a fields []).
  Lemma others_snoc d a : others (d ++ [a]) = if existsb (seq (nspace (aname a))) [""; "xmlns"; ns_xml] then others d else others d ++ [a].
  Proof. unfold others. rewrite filter_app. cbn [filter]. destruct (existsb _ _); cbn [negb]; [apply app_nil_r|reflexivity]. Qed.
  Lemma declared_snoc d a : declared (d ++ [a]) = if seq (nspace (aname a)) "xmlns" then declared d ++ [a] else declared d.
  Proof. unfold declared. rewrite filter_app. cbn [filter]. destruct (seq _ _); [reflexivity|apply app_nil_r]. Qed.
  Lemma lang_snoc d a : NoDup (map aname (d ++ [a])) -> lang_of (d ++ [a]) = if seq (nspace (aname a)) ns_xml && seq (nlocal (aname a)) "lang" then avalue a else lang_of d.
  Proof. intros N. unfold lang_of. rewrite attr_snoc by exact N. unfold name_eqb. cbn [nspace nlocal]. destruct (_ && _); reflexivity. Qed.
  Lemma head_head l u t e y l' u' t' e' y' m : mo_head l u t e y (mo_head l' u' t' e' y' m) = mo_head l u t e y m.
  Proof. reflexivity. Qed.
  Lemma model_step M d a x y : NoDup (map aname (d ++ [a])) -> x = model_attrs M d -> model_attr reg x a = Some (y, None) -> y = model_attrs M (d ++ [a]).
  Proof.
    destruct a as [[sp l] v]. intros N -> H. revert H. unfold model_attr, model_attrs, model_nocore, exts_of. cbv beta iota zeta. rewrite others_snoc, declared_snoc, lang_snoc by exact N. snocs N.
    unfold mo_head at 2 3 4 5 6 7 8 9 10. cbn [mo_lang mo_units mo_thumb mo_exts mo_anyattr existsb]. rewrite !head_head.
    rewrite (word_value _ _ _ v 0%N enum_units). change "http://www.w3.org/XML/1998/namespace" with ns_xml.
    destruct (seq_spec sp "") as [->|NS]; cbn [negb andb existsb].
    - change (seq "" ns_xml) with false. change (seq "" "xmlns") with false. cbn [orb andb].
      split_local l; intros H; try (val H; reflexivity). destruct (new_units v); val H; reflexivity.
    - destruct (seq_spec sp ns_xml) as [->|NX].
      + change (seq ns_xml "xmlns") with false. cbn [orb andb]. destruct (seq l "lang"); intros H; val H; reflexivity.
      + destruct (seq_spec sp "xmlns") as [->|ND]; cbn [orb andb].
        * intros H; val H. rewrite map_app. reflexivity.
        * destruct (any_attr reg "model" _ _) as [[any e]|] eqn:EA; [|discriminate]. intros H. val H. apply groups_step in EA; [subst any; reflexivity|]. apply filter_names, N.
  Qed.
  Definition Fresh (M : Model) : Prop := mo_lang M = "" /\ mo_units M = 0%N /\ mo_thumb M = "" /\ mo_exts M = [] /\ mo_anyattr M = [].
  Lemma model_loop M a y : Fresh M -> NoDup (map aname a) -> attrs_loop (model_attr reg) (M, []) None a = Some (y, None) -> y = model_attrs M a.
  Proof.
    intros F. apply (loop_all (model_attr reg) (fun d x => x = model_attrs M d) (M, []) a y).
    - destruct F as (F1 & F2 & F3 & F4 & F5). unfold model_attrs, mo_head. destruct M. cbn in *. subst. reflexivity.
    - apply model_step.
  Qed.
  Lemma require_exts req : forall l, NoDup (map ex_local l) ->
    fold_left (fun l local => require local l) req l = map (fun e => mkExt (ex_ns e) (ex_local e) (ex_req e || existsb (seq (ex_local e)) req)) l.
  Proof.
    assert (R : forall p l, NoDup (map ex_local l) -> require p l = map (fun e => mkExt (ex_ns e) (ex_local e) (ex_req e || seq (ex_local e) p)) l).
    { induction l as [|e l IH]; [reflexivity|]. cbn [require map]. intros N. inversion N as [|? ? N1 N2]; subst. destruct (seq_spec (ex_local e) p) as [<-|NE].
      - rewrite orb_true_r. f_equal. rewrite <- map_id at 1. apply map_ext_in. intros x I. destruct (seq_spec (ex_local x) (ex_local e)) as [E|_]; [exfalso; apply N1; rewrite <- E; apply in_map, I|].
        rewrite orb_false_r. destruct x; reflexivity.
      - rewrite IH by exact N2. rewrite orb_false_r. destruct e; reflexivity. }
    induction req as [|p req IH]; intros l N; cbn [fold_left existsb].
    - rewrite <- map_id at 1. apply map_ext. intros e. rewrite orb_false_r. destruct e; reflexivity.
    - rewrite R by exact N. rewrite IH; rewrite !map_map; cbn [ex_local ex_ns ex_req]; [|exact N]. apply map_ext. intros e. rewrite orb_assoc. reflexivity.
  Qed.
End Attributes.
