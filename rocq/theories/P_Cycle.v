(** * Proofs about objects that contain themselves *)
From Verif Require Import GoBase GoFloat Types M_Core M_Geom M_Errors M_Validate M_ExtValidate S_Core S_Geom S_Cycle P_Core P_Geom P_ExtSlices2 Conc.

Lemma many_trans {A} (R : A -> A -> Prop) x y z : Many R x y -> Many R y z -> Many R x z.
Proof. induction 1 as [x|x w y H _ IH]; [auto|]. intros K. eapply MMore; [exact H|auto]. Qed.
(** ** Long walks in finite graphs *)
Section Walk.
  Context {K : Type} (dec : forall a b : K, {a = b} + {a <> b}) (step : K -> K -> Prop) (all : list K).
  Context (Fin : forall a b, step a b -> In b all).
  Fixpoint walk (k : K) (l : list K) : Prop := match l with [] => True | b :: l => step k b /\ walk b l end.
  Lemma walk_all l : forall k, walk k l -> incl l all.
  Proof. induction l as [|b l IH]; intros k W; [intros ? []|]. destruct W as [S W]. intros x [<-|H]; [eapply Fin, S|eapply IH; eassumption]. Qed.
  Lemma walk_to l : forall k x, walk k l -> In x l -> Plus step k x.
  Proof.
    induction l as [|b l IH]; intros k x W H; [destruct H|]. destruct W as [S W]. exists b. split; [exact S|].
    destruct H as [<-|H]; [constructor|]. destruct (IH b x W H) as (y & S' & M). eapply MMore; eassumption.
  Qed.
  Lemma walk_cycle l : forall k, walk k l -> NoDup l \/ exists x, Many step k x /\ Plus step x x.
  Proof.
    induction l as [|b l IH]; intros k W; [left; constructor|]. destruct W as [S W]. destruct (IH b W) as [N|(x & M & P)].
    - destruct (in_dec dec b l) as [I|I]; [right|left; constructor; assumption]. exists b. split; [eapply MMore; [exact S|constructor]|]. eapply walk_to; eassumption.
    - right. exists x. split; [eapply MMore; eassumption|exact P].
  Qed.
  Lemma long_walk l k : walk k l -> length all < length l -> exists x, Many step k x /\ Plus step x x.
  Proof. intros W L. destruct (walk_cycle l k W) as [N|H]; [|exact H]. apply walk_all in W. pose proof (NoDup_incl_length N W). lia. Qed.
End Walk.
(** ** Objects by what they are looked up with *)
Definition okey := (string * N)%type.
Definition okey_dec (a b : okey) : {a = b} + {a <> b}.
Proof. decide equality; [apply N.eq_dec|apply string_dec]. Defined.
Section Keys.
  Context (m : Model) (path : string) (ok : Object -> Prop).
  Definition key_of (c : Component) : okey := (comp_path c path, co_oid c).
  Definition get_key (k : okey) : option Object := find_object m (fst k) (snd k).
  Definition kstep (k k' : okey) : Prop := exists o c, get_key k = Some o /\ ok o /\ In c (Comps o) /\ k' = key_of c /\ get_key k' <> None.
  Definition all_objects : list Object := rs_objects (mo_res m) ++ concat (map (fun pc => rs_objects (ch_res (snd pc))) (mo_childs m)).
  Definition all_keys : list okey := concat (map (fun o => map key_of (Comps o)) all_objects).
  Lemma object_all o : ObjectOf m o -> In o all_objects.
  Proof.
    intros [Ho|(pc & Hpc & Ho)]; unfold all_objects; apply in_app_iff; [auto|right].
    apply in_concat. eexists; split; [|exact Ho]. apply in_map_iff. eauto.
  Qed.
  Lemma kstep_all k k' : kstep k k' -> In k' all_keys.
  Proof.
    intros (o & c & G & _ & C & -> & _). apply find_object_in in G as [Ho _]. apply object_all in Ho. unfold all_keys. apply in_concat.
    exists (map key_of (Comps o)). split; [apply in_map_iff; eauto|apply in_map, C].
  Qed.
  Definition ostep (o o' : Object) : Prop := ok o /\ exists c, In c (Comps o) /\ find_object m (comp_path c path) (co_oid c) = Some o'.
  Lemma kstep_ostep k k' o : kstep k k' -> get_key k = Some o -> exists o', get_key k' = Some o' /\ ostep o o'.
  Proof.
    intros (o1 & c & G & K & C & -> & N) G'. rewrite G in G'. injection G' as <-. destruct (get_key (key_of c)) as [o'|] eqn:E; [|congruence].
    exists o'. split; [reflexivity|]. split; [exact K|]. exists c. split; [exact C|exact E].
  Qed.
  Lemma kmany_omany k k' : Many kstep k k' -> forall o, get_key k = Some o -> exists o', get_key k' = Some o' /\ Many ostep o o'.
  Proof.
    induction 1 as [k|k k1 k' S _ IH]; intros o G; [exists o; split; [exact G|constructor]|].
    destruct (kstep_ostep _ _ _ S G) as (o1 & G1 & S1). destruct (IH o1 G1) as (o' & G' & M). exists o'. split; [exact G'|eapply MMore; eassumption].
  Qed.
  Lemma kplus_oplus k k' : Plus kstep k k' -> forall o, get_key k = Some o -> exists o', get_key k' = Some o' /\ Plus ostep o o'.
  Proof.
    intros (k1 & S & M) o G. destruct (kstep_ostep _ _ _ S G) as (o1 & G1 & S1). destruct (kmany_omany _ _ M o1 G1) as (o' & G' & M'). exists o'. split; [exact G'|exists o1; auto].
  Qed.
  (** A walk of more steps than components passes an object that contains itself. *)
  Lemma long_cycle k l o : walk kstep k l -> length all_keys < length l -> get_key k = Some o -> exists x, Many ostep o x /\ Plus ostep x x.
  Proof.
    intros W L G. destruct (long_walk okey_dec kstep all_keys kstep_all l k W L) as (kx & M & P). destruct (kmany_omany _ _ M o G) as (x & Gx & Mx).
    destruct (kplus_oplus _ _ P x Gx) as (y & Gy & Py). rewrite Gx in Gy. injection Gy as <-. eauto.
  Qed.
  (** Endless walks *)
  Fixpoint steps (n : nat) (o : Object) : Prop := match n with O => True | S n => exists o', ostep o o' /\ steps n o' end.
  Lemma many_steps o x : Many ostep o x -> forall n, steps n x -> steps n o.
  Proof.
    induction 1 as [o|o o1 x S _ IH]; intros n H; [exact H|]. specialize (IH n H). destruct n as [|n]; [exact I|]. exists o1. split; [exact S|].
    clear -IH. revert o1 IH. induction n as [|n IHn]; intros o1 H; [exact I|]. destruct H as (o2 & S & H). exists o2. split; [exact S|apply IHn, H].
  Qed.
  Lemma cycle_steps x : Plus ostep x x -> forall n, steps n x.
  Proof. intros (y & S & M). induction n as [|n IH]; [exact I|]. exists y. split; [exact S|]. eapply many_steps; eassumption. Qed.
End Keys.
(** ** The bounding box *)
Definition meshless (o : Object) : Prop := ob_mesh o = None.
Lemma comps_none m path rec cs : forall acc, comps_bbox m path rec acc cs = None -> exists c o, In c cs /\ find_object m (comp_path c path) (co_oid c) = Some o /\ rec o = None.
Proof.
  induction cs as [|c cs IH]; intros acc; cbn [comps_bbox]; [discriminate|]. destruct (find_object m (comp_path c path) (co_oid c)) as [o|] eqn:E.
  - destruct (rec o) as [b|] eqn:R; [|intros _; exists c, o; split; [left; reflexivity|auto]]. intros H. destruct (IH _ H) as (c1 & o1 & I & H1). exists c1, o1. split; [right; exact I|exact H1].
  - intros H. destruct (IH _ H) as (c1 & o1 & I & H1). exists c1, o1. split; [right; exact I|exact H1].
Qed.
Lemma comps_some m path rec cs : forall acc b c o, comps_bbox m path rec acc cs = Some b -> In c cs -> find_object m (comp_path c path) (co_oid c) = Some o -> rec o <> None.
Proof.
  induction cs as [|c cs IH]; intros acc b c1 o; cbn [comps_bbox]; [intros _ []|]. intros H [->|I] F.
  - rewrite F in H. destruct (rec o); congruence.
  - destruct (find_object m (comp_path c path) (co_oid c)) as [o1|]; [destruct (rec o1); [|discriminate]|]; eapply IH; eassumption.
Qed.
Lemma bbox_walk m path f : forall o k, get_key m k = Some o -> obj_bbox f m path o = None -> exists l, length l = f /\ walk (kstep m path meshless) k l.
Proof.
  induction f as [|f IH]; intros o k G; [exists []; split; [reflexivity|exact I]|]. cbn [obj_bbox]. destruct (ob_mesh o) as [me|] eqn:EM; [discriminate|].
  change (comps_of o) with (Comps o). destruct (Comps o) as [|c0 cs] eqn:EC; [discriminate|]. intros H. apply comps_none in H as (c & o1 & I & F & R).
  destruct (IH o1 (key_of path c) F R) as (l & L & W). exists (key_of path c :: l). split; [cbn; congruence|]. split; [|exact W].
  exists o, c. split; [exact G|]. split; [exact EM|]. split; [rewrite EC; exact I|]. split; [reflexivity|]. unfold get_key, key_of. cbn [fst snd]. congruence.
Qed.
Lemma bbox_steps m path f : forall o b, obj_bbox f m path o = Some b -> ~ steps m path meshless f o.
Proof.
  induction f as [|f IH]; intros o b; cbn [obj_bbox]; [discriminate|]. intros H (o1 & (M & c & I & F) & S). unfold meshless in M. rewrite M in H.
  change (comps_of o) with (Comps o) in H. destruct (Comps o) as [|c0 cs] eqn:EC; [destruct I|].
  pose proof (comps_some _ _ _ _ _ _ _ _ H I F) as N. destruct (obj_bbox f m path o1) as [b1|] eqn:E; [|congruence]. exact (IH _ _ E S).
Qed.
Lemma below_ostep m path o o' : ChildsOk m -> Below m path o o' <-> ostep m path meshless o o'.
Proof.
  intros Ok. split.
  - intros (M & c & f & I & T). apply (target_spec _ _ _ _ _ Ok) in T as [-> T]. split; [exact M|eauto].
  - intros (M & c & I & T). split; [exact M|]. exists c, (comp_path c path). split; [exact I|]. apply (target_spec _ _ _ _ _ Ok). auto.
Qed.
Lemma many_impl {A} (R S : A -> A -> Prop) x y : (forall a b, R a b -> S a b) -> Many R x y -> Many S x y.
Proof. intros H. induction 1; [constructor|eapply MMore; eauto]. Qed.
Lemma plus_impl {A} (R S : A -> A -> Prop) x y : (forall a b, R a b -> S a b) -> Plus R x y -> Plus S x y.
Proof. intros H (z & K & M). exists z. split; [auto|eapply many_impl; eassumption]. Qed.
Lemma shows_spec m it file o : ChildsOk m -> Shows m it file o <-> file = item_path it /\ find_object m file (it_oid it) = Some o.
Proof. intros Ok. unfold Shows. rewrite any_path_spec, (find_object_spec _ _ _ _ Ok). unfold item_path. split; intros [A B]; split; auto. Qed.
Theorem model_bbox_exact m : ChildsOk m -> (exists fuel r, model_bbox fuel m r) <-> ~ Cyclic m.
Proof.
  intros Ok. split.
  - intros (fuel & r & H) (it & file & o & x & I & S & M & P). apply (shows_spec _ _ _ _ Ok) in S as [-> F].
    assert (T : item_task fuel m it <> None).
    { unfold model_bbox in H. destruct (bu_items (mo_build m)) as [|i is]; [destruct I|]. destruct H as (ts & H & _). revert ts H I. generalize (i :: is) as l.
      induction l as [|a l IH]; intros ts H; [intros []|]. cbn [map all_some] in H. destruct (item_task fuel m a) as [t|] eqn:E; [|discriminate].
      destruct (all_some (map (item_task fuel m) l)) as [ts'|]; [|discriminate]. intros [->|I]; [congruence|]. eapply IH; [reflexivity|exact I]. }
    unfold item_task in T. rewrite F in T. destruct (obj_bbox fuel m (item_path it) o) as [b|] eqn:E; [|congruence]. apply bbox_steps in E. apply E.
    apply (many_steps m (item_path it) meshless o x).
    + eapply many_impl; [|exact M]. intros a b' H'. apply (below_ostep _ _ _ _ Ok), H'.
    + apply cycle_steps. eapply plus_impl; [|exact P]. intros a b' H'. apply (below_ostep _ _ _ _ Ok), H'.
  - intros N. unfold model_bbox. destruct (bu_items (mo_build m)) as [|i is] eqn:Ei; [exists 0; eauto|].
    destruct (finite_max (fun it => length (all_keys m (item_path it))) (i :: is)) as (n & Hn).
    destruct (all_some_exists (map (item_task n m) (i :: is))) as (ts & Hts).
    { intros t Ht. apply in_map_iff in Ht as (it & <- & I). unfold item_task.
      destruct (find_object m (item_path it) (it_oid it)) as [o|] eqn:Eo; [|discriminate].
      destruct (obj_bbox n m (item_path it) o) as [b|] eqn:Eb; [destruct (negb _); discriminate|]. exfalso. apply N.
      destruct (bbox_walk m (item_path it) n o (item_path it, it_oid it) Eo Eb) as (l & L & W).
      destruct (long_cycle m (item_path it) meshless (item_path it, it_oid it) l o W) as (x & M & P); [rewrite L; apply Hn, I|exact Eo|].
      exists it, (item_path it), o, x. split; [rewrite Ei; exact I|]. split; [apply (shows_spec _ _ _ _ Ok); auto|].
      split; [eapply many_impl; [|exact M]|eapply plus_impl; [|exact P]]; intros a b H; apply (below_ostep _ _ _ _ Ok), H. }
    destruct (outcome_exists limit_box ts) as (r & Hr). exists n, r, ts. auto.
Qed.
(** ** The validator of slices *)
Definition any_obj (o : Object) : Prop := True.
Lemma ctrans_none m path id rec oid cs : comps_transforms m path id rec oid cs = None -> exists c o, In c cs /\ find_object m (comp_path c path) (co_oid c) = Some o /\ rec o = None.
Proof.
  induction cs as [|c cs IH]; cbn [comps_transforms]; [discriminate|]. cbv zeta. destruct (_ && _); [discriminate|]. destruct (_ && _); [discriminate|].
  destruct (find_object m (comp_path c path) (co_oid c)) as [o|] eqn:E.
  - destruct (rec o) as [[]|] eqn:R; [|discriminate|intros _; exists c, o; split; [left; reflexivity|auto]].
    intros H. destruct (IH H) as (c1 & o1 & I & H1). exists c1, o1. split; [right; exact I|exact H1].
  - intros H. destruct (IH H) as (c1 & o1 & I & H1). exists c1, o1. split; [right; exact I|exact H1].
Qed.
Lemma otrans_walk m path id f : forall o k, get_key m k = Some o -> obj_transforms f m path id o = None -> exists l, length l = f /\ walk (kstep m path any_obj) k l.
Proof.
  induction f as [|f IH]; intros o k G; [exists []; split; [reflexivity|exact I]|]. cbn [obj_transforms]. destruct (ob_comps o) as [cs|] eqn:EC; [|discriminate].
  intros H. apply ctrans_none in H as (c & o1 & I & F & R).
  destruct (IH o1 (key_of path c) F R) as (l & L & W). exists (key_of path c :: l). split; [cbn; congruence|]. split; [|exact W].
  exists o, c. split; [exact G|]. split; [exact Logic.I|]. split; [unfold Comps; rewrite EC; exact I|]. split; [reflexivity|]. unfold get_key, key_of. cbn [fst snd]. congruence.
Qed.
Lemma itrans_none fuel m path id its : items_transforms fuel m path id its = None -> exists it o, In it its /\
  find_object m (if seq (item_path it) "" then path else item_path it) (it_oid it) = Some o /\ obj_transforms fuel m path id o = None.
Proof.
  induction its as [|it its IH]; cbn [items_transforms]; [discriminate|]. cbv zeta. destruct (_ && _); [discriminate|].
  destruct (find_object m (if seq (item_path it) "" then path else item_path it) (it_oid it)) as [o|] eqn:E.
  - destruct (obj_transforms fuel m path id o) as [[]|] eqn:R; [|discriminate|intros _; exists it, o; split; [left; reflexivity|auto]].
    intros H. destruct (IH H) as (i1 & o1 & I & H1). exists i1, o1. split; [right; exact I|exact H1].
  - intros H. destruct (IH H) as (i1 & o1 & I & H1). exists i1, o1. split; [right; exact I|exact H1].
Qed.
Lemma contains_ostep m path o o' : ChildsOk m -> ostep m path any_obj o o' -> Contains m path o o'.
Proof. intros Ok (_ & c & I & T). exists c, (comp_path c path). split; [exact I|]. apply (target_spec _ _ _ _ _ Ok). auto. Qed.
Theorem slices_returns m path el : ChildsOk m -> ~ CyclicFrom m path -> exists fuel e, forall fuel', fuel <= fuel' -> slices_validate fuel' m path el = Some e.
Proof.
  intros Ok N. assert (T : forall id fuel, length (all_keys m path) < fuel -> items_transforms fuel m path id (bu_items (mo_build m)) <> None).
  { intros id fuel L H. apply itrans_none in H as (it & o & I & F & R). apply N.
    destruct (otrans_walk m path id fuel o (_, it_oid it) F R) as (l & L' & W).
    destruct (long_cycle m path any_obj _ l o W) as (x & M & P); [rewrite L'; exact L|exact F|].
    exists it, (item_path it), o, x. split; [exact I|]. split; [apply any_path_spec; reflexivity|]. split.
    - apply (find_object_spec _ _ _ _ Ok). rewrite <- F. f_equal. destruct (seq_spec (item_path it) "") as [E|E], (string_dec (item_path it) "") as [D|D]; congruence.
    - split; [eapply many_impl; [|exact M]|eapply plus_impl; [|exact P]]; intros a b H; apply (contains_ostep _ _ _ _ Ok), H. }
  exists (S (length (all_keys m path))).
  assert (E : exists e, slices_validate (S (length (all_keys m path))) m path el = Some e).
  { destruct el as [|a|o]; cbn [slices_validate]; [eauto|destruct a as [| |[]]; eauto|]. unfold slice_object_validate.
    destruct (get_slice_attr (ob_any o)) as [[sid res]|]; [|eauto]. destruct (sid =? 0)%N; [eauto|].
    destruct (res_find_asset m path sid) as [a|]; [|eauto]. destruct a as [| |x]; eauto. destruct x; eauto.
    destruct (items_transforms _ m path (ob_id o) _) as [b|] eqn:E; [eauto|]. apply T in E; [destruct E|lia]. }
  destruct E as (e & E). exists e. intros fuel' L. eapply slices_mono; eassumption.
Qed.
