(** * Proofs about groups of attributes *)
From Verif Require Import GoBase GoNum GoUtf8 GoFloat GoStrconv Types XmlTypes M_Core M_Errors M_Text M_Text M_Decode M_Get S_Groups.
From Verif Require Import Types.
Local Open Scope list_scope.

Lemma space_of_ns g : space_of g = group_ns g.
Proof. destruct g; reflexivity. Qed.
Lemma once_nodup l : NoDup (once l).
Proof.
  induction l as [|x l IH]; cbn [once]; constructor.
  - intros H. apply filter_In in H as [_ H]. rewrite seq_refl in H. discriminate.
  - apply NoDup_filter. exact IH.
Qed.
Lemma once_in x l : In x (once l) <-> In x l.
Proof.
  induction l as [|y l IH]; cbn [once In]; [reflexivity|]. rewrite filter_In, IH.
  destruct (seq_spec x y) as [->|N]; cbn [negb]; [tauto|]. intuition congruence.
Qed.

Section Groups.
  Variable reg : Reg.
  Variable parent : string.
  Notation space a := (nspace (aname a)).

  Lemma unmarshal_ns g a : group_ns (fst (unmarshal_attr g a)) = group_ns g.
  Proof.
    unfold unmarshal_attr. destruct g; cbv zeta;
      repeat match goal with
             | |- context [seq ?x ?y] => destruct (seq x y)
             | |- context [uuid_validate ?x] => destruct (uuid_validate x)
             | |- context [parse_u32 ?x] => destruct (parse_u32 x) as [? []]
             | |- context [new_resolution ?x] => destruct (new_resolution x)
             end; reflexivity.
  Qed.
  Lemma new_group_ns ns g : new_attr_group reg ns parent = Some g -> group_ns g = ns.
  Proof.
    unfold new_attr_group, load.
    destruct (seq_spec ns ns_materials) as [->|_]; [destruct (rg_mat reg); intros [= <-]; reflexivity|].
    destruct (seq_spec ns ns_production) as [->|_].
    { destruct (rg_prod reg); [|intros [= <-]; reflexivity]. repeat (destruct (seq parent _); [intros [= <-]; reflexivity|]). discriminate. }
    destruct (seq_spec ns ns_slices) as [->|_].
    { destruct (rg_slices reg); [|intros [= <-]; reflexivity]. destruct (seq parent _); [intros [= <-]; reflexivity|discriminate]. }
    destruct (seq_spec ns ns_beam) as [->|_]; [destruct (rg_beam reg); intros [= <-]; reflexivity|]. intros [= <-]. reflexivity.
  Qed.

  (** One more attribute of its namespace. *)
  Definition more (ns : string) (g : option AttrGroup) (a : Attr) : option AttrGroup :=
    match (match g with Some g => Some g | None => new_attr_group reg ns parent end) with
    | Some g => Some (fst (unmarshal_attr g a))
    | None => None
    end.
  Lemma any_get_step any a any' e ns : any_attr reg parent any a = Some (any', e) ->
    any_get ns any' = if seq (space a) ns then more ns (any_get ns any) a else any_get ns any.
  Proof.
    revert any'; induction any as [|g any IH]; intros any'; cbn [any_attr any_get].
    - destruct (new_attr_group reg (space a) parent) as [g|] eqn:E; [|discriminate].
      pose proof (unmarshal_ns g a) as U. destruct (unmarshal_attr g a) as [g' e'] eqn:Eu. cbn [fst] in U. intros [= <- <-]. cbn [any_get].
      rewrite U, (new_group_ns _ _ E). destruct (seq_spec (space a) ns) as [<-|_]; [|reflexivity].
      unfold more. rewrite E, Eu. reflexivity.
    - destruct (seq_spec (group_ns g) (space a)) as [Eg|Ng].
      + pose proof (unmarshal_ns g a) as U. destruct (unmarshal_attr g a) as [g' e'] eqn:Eu. cbn [fst] in U. intros [= <- <-]. cbn [any_get].
        rewrite U, Eg. destruct (seq (space a) ns); [|reflexivity]. unfold more. rewrite Eu. reflexivity.
      + destruct (any_attr reg parent any a) as [[r e']|]; [|discriminate]. intros [= <- <-]. cbn [any_get].
        rewrite (IH _ eq_refl). destruct (seq_spec (group_ns g) ns) as [<-|_]; [|reflexivity].
        destruct (seq_spec (space a) (group_ns g)); [congruence|reflexivity].
  Qed.
  Lemma any_none any a : any_attr reg parent any a = None <-> any_get (space a) any = None /\ new_attr_group reg (space a) parent = None.
  Proof.
    induction any as [|g any IH]; cbn [any_attr any_get].
    - destruct (new_attr_group reg (space a) parent) as [g|]; [destruct (unmarshal_attr g a); split; [|intros [_ ?]]; discriminate|tauto].
    - destruct (seq (group_ns g) (space a)); [destruct (unmarshal_attr g a); split; [|intros [? _]]; discriminate|].
      destruct (any_attr reg parent any a) as [[r e]|]; [|tauto]. split; [discriminate|]. intros H. apply IH in H. discriminate.
  Qed.
  Lemma any_spaces any a any' e : any_attr reg parent any a = Some (any', e) ->
    map group_ns any' = if existsb (seq (space a)) (map group_ns any) then map group_ns any else map group_ns any ++ [space a].
  Proof.
    revert any'; induction any as [|g any IH]; intros any'; cbn [any_attr map existsb].
    - destruct (new_attr_group reg (space a) parent) as [g|] eqn:E; [|discriminate].
      pose proof (unmarshal_ns g a) as U. destruct (unmarshal_attr g a) as [g' e'] eqn:Eu. cbn [fst] in U. intros [= <- <-].
      cbn. rewrite U, (new_group_ns _ _ E). reflexivity.
    - destruct (seq_spec (group_ns g) (space a)) as [Eg|Ng].
      + pose proof (unmarshal_ns g a) as U. destruct (unmarshal_attr g a) as [g' e'] eqn:Eu. cbn [fst] in U. intros [= <- <-]. cbn [map].
        rewrite U, Eg, seq_refl. reflexivity.
      + destruct (any_attr reg parent any a) as [[r e']|]; [|discriminate]. intros [= <- <-]. cbn [map].
        destruct (seq_spec (space a) (group_ns g)) as [X|_]; [congruence|]. cbn [orb]. rewrite (IH _ eq_refl).
        destruct (existsb _ _); reflexivity.
  Qed.

  (** All the attributes, without the errors. *)
  Fixpoint run (any : AnyAttr) (l : list Attr) : option AnyAttr :=
    match l with
    | [] => Some any
    | a :: r => match any_attr reg parent any a with Some (any, _) => run any r | None => None end
    end.
  Lemma run_get ns l : forall any any', run any l = Some any' ->
    any_get ns any' = fold_left (more ns) (of_space ns l) (any_get ns any).
  Proof.
    induction l as [|a l IH]; intros any any'; cbn [run].
    - intros [= <-]. reflexivity.
    - destruct (any_attr reg parent any a) as [[any1 e]|] eqn:E; [|discriminate]. intros H. rewrite (IH _ _ H), (any_get_step _ _ _ _ ns E).
      unfold of_space. cbn [filter]. destruct (seq (space a) ns); reflexivity.
  Qed.
  Lemma run_part ns l : forall any any2 any', run any l = Some any' -> any_get ns any2 = any_get ns any ->
    exists any2', run any2 (of_space ns l) = Some any2'.
  Proof.
    induction l as [|a l IH]; intros any any2 any'; unfold of_space; cbn [run filter].
    - intros _ _. eauto.
    - destruct (any_attr reg parent any a) as [[any1 e]|] eqn:E; [|discriminate]. intros H G.
      pose proof (any_get_step _ _ _ _ ns E) as S1.
      destruct (seq_spec (space a) ns) as [<-|_].
      + cbn [run]. destruct (any_attr reg parent any2 a) as [[any3 e3]|] eqn:E3.
        * eapply IH; [exact H|]. rewrite (any_get_step _ _ _ _ (space a) E3), seq_refl, S1, G. reflexivity.
        * exfalso. apply any_none in E3. rewrite G in E3. apply any_none in E3. congruence.
      + eapply IH; [exact H|]. congruence.
  Qed.
  Lemma run_spaces l : forall any any', run any l = Some any' ->
    map group_ns any' = map group_ns any ++ filter (fun y => negb (existsb (seq y) (map group_ns any))) (once (map (fun a => space a) l)).
  Proof.
    induction l as [|a l IH]; intros any any'; cbn [run map once filter].
    - intros [= <-]. symmetry. apply app_nil_r.
    - destruct (any_attr reg parent any a) as [[any1 e]|] eqn:E; [|discriminate]. intros H. rewrite (IH _ _ H), (any_spaces _ _ _ _ E).
      assert (FF : forall (p q r : string -> bool) l0, (forall y, p y = q y && r y) -> filter p l0 = filter q (filter r l0)).
      { intros p q r l0 X. induction l0 as [|y l0 IHl]; cbn [filter]; [reflexivity|]. rewrite X. destruct (r y); cbn [filter].
        - rewrite andb_true_r. destruct (q y); rewrite IHl; reflexivity.
        - rewrite andb_false_r. exact IHl. }
      destruct (existsb (seq (space a)) (map group_ns any)) eqn:X; cbn [negb].
      + f_equal. apply FF. intros y. destruct (seq_spec y (space a)) as [->|_]; [rewrite X; reflexivity|rewrite andb_true_r; reflexivity].
      + rewrite <- app_assoc. cbn [app]. do 2 f_equal. apply FF. intros y. rewrite existsb_app. cbn [existsb].
        rewrite orb_false_r, negb_orb. reflexivity.
  Qed.
  Lemma unknown_fold ns l : forall acc, fold_left (more ns) l (Some (GUnknown ns acc)) = Some (GUnknown ns (acc ++ l)).
  Proof.
    induction l as [|a l IH]; intros acc; cbn [fold_left]; [rewrite app_nil_r; reflexivity|].
    unfold more at 2. cbn [unmarshal_attr fst]. rewrite IH, <- app_assoc. reflexivity.
  Qed.
  Lemma unknown_get ns l any : load reg ns = None -> run [] l = Some any ->
    any_get ns any = match of_space ns l with [] => None | l' => Some (GUnknown ns l') end.
  Proof.
    intros L H. rewrite (run_get ns _ _ _ H). cbn [any_get].
    destruct (of_space ns l) as [|a r]; [reflexivity|]. cbn [fold_left].
    unfold more at 2. unfold new_attr_group. rewrite L. cbn [unmarshal_attr fst app]. apply unknown_fold.
  Qed.

  (** Loops that hand some attributes to the groups of what they build and leave the groups alone otherwise. *)
  Lemma loop_run {A} (f : A -> Attr -> option (A * error)) (get : A -> AnyAttr) (skip : Attr -> bool) :
    (forall x a x' e, f x a = Some (x', e) -> if skip a then get x' = get x else exists e', any_attr reg parent (get x) a = Some (get x', e')) ->
    forall l x errs x' errs', attrs_loop f x errs l = Some (x', errs') -> run (get x) (filter (fun a => negb (skip a)) l) = Some (get x').
  Proof.
    intros H. induction l as [|a l IH]; intros x errs x' errs'; cbn [attrs_loop filter run].
    - intros [= <- _]. reflexivity.
    - destruct (f x a) as [[x1 e]|] eqn:E; [|discriminate]. intros L. apply IH in L. apply H in E. destruct (skip a); cbn [negb].
      + rewrite <- E. exact L.
      + destruct E as (e' & E). cbn [run]. rewrite E. exact L.
  Qed.
  Lemma run_loop l : forall any any' errs, run any l = Some any' -> exists e, attrs_loop (any_attr reg parent) any errs l = Some (any', e).
  Proof.
    induction l as [|a l IH]; intros any any' errs; cbn [run attrs_loop].
    - intros [= <-]. eauto.
    - destruct (any_attr reg parent any a) as [[any1 e]|]; [|discriminate]. intros H. apply IH, H.
  Qed.
End Groups.
