(** * Proofs: what SetMissingUUIDs changes *)
From Coq Require Import Lia Permutation.
From Verif Require Import GoBase GoFloat Types M_Core M_Geom M_Validate M_ExtValidate S_Core S_Same S_Uuids P_Core P_ExtProd2 P_Uuids.
From Verif Require Import Types.
Local Open Scope list_scope.

Lemma plain_app a b : plain_any (a ++ b) = plain_any a ++ plain_any b.
Proof. unfold plain_any. apply flat_map_app. Qed.
(** ** Maps *)
Lemma adel_miss {V} p (cs : list (string * V)) : ~ In p (map fst cs) -> adel seq p cs = cs.
Proof.
  induction cs as [|[q v] cs IH]; cbn [adel map fst In]; [reflexivity|]. intros H. destruct (seq_spec p q) as [->|_]; [exfalso; apply H; left; reflexivity|].
  rewrite IH; [reflexivity|]. intros C. apply H. right. exact C.
Qed.
Lemma adel_perm {V} p (cs : list (string * V)) c : NoDup (map fst cs) -> aget seq p cs = Some c -> Permutation ((p, c) :: adel seq p cs) cs.
Proof.
  induction cs as [|[q v] cs IH]; cbn [adel aget map fst]; [discriminate|]. intros D. inversion D as [|? ? Hn Hd]; subst. destruct (seq_spec p q) as [->|N].
  - intros E. injection E as ->. rewrite (adel_miss _ _ Hn). reflexivity.
  - intros E. eapply Permutation_trans; [apply perm_swap|]. constructor. apply IH; assumption.
Qed.
Lemma aget_perm {V} (cs cs' : list (string * V)) : NoDup (map fst cs) -> Permutation cs cs' -> forall p, aget seq p cs = aget seq p cs'.
Proof.
  intros D P p. assert (D' : NoDup (map fst cs')) by (eapply Permutation_NoDup; [apply Permutation_map, P|exact D]).
  destruct (aget seq p cs) as [v|] eqn:E.
  - symmetry. apply (in_aget _ _ _ D'). apply aget_in in E. eapply Permutation_in; eassumption.
  - destruct (aget seq p cs') as [v|] eqn:E'; [|reflexivity]. apply aget_in in E'. apply (Permutation_in _ (Permutation_sym P)) in E'.
    apply (in_aget _ _ _ D) in E'. congruence.
Qed.

Section One.
Context (fresh : nat -> string).
(** ** The attributes that stay *)
Lemma fill_item_plain u l : plain_any (fill_item u l) = plain_any l.
Proof. induction l as [|g l IH]; [reflexivity|]. destruct g; cbn [fill_item plain_any flat_map]; fold (plain_any l); try reflexivity; f_equal; exact IH. Qed.
Lemma fill_obj_plain u l : plain_any (fill_obj u l) = plain_any l.
Proof. induction l as [|g l IH]; [reflexivity|]. destruct g; cbn [fill_obj plain_any flat_map]; fold (plain_any l); try reflexivity; f_equal; exact IH. Qed.
Lemma fill_comp_plain u l : plain_any (fill_comp u l) = plain_any l.
Proof. induction l as [|g l IH]; [reflexivity|]. destruct g; cbn [fill_comp plain_any flat_map]; fold (plain_any l); try reflexivity; f_equal; exact IH. Qed.
Lemma set_build_plain n l : plain_any (snd (set_build fresh n l)) = plain_any l.
Proof. unfold set_build. destruct (get_build_attr l); cbn [snd]; [reflexivity|]. rewrite plain_app. apply app_nil_r. Qed.
Lemma set_item_plain n it : plain_item (snd (set_item fresh n it)) = plain_item it.
Proof.
  unfold set_item. destruct (get_item_attr (it_any it)) as [[u p]|]; [destruct (seq u "")|]; cbn [snd]; try reflexivity; unfold plain_item; cbn [it_oid it_tr it_part it_md it_any]; f_equal.
  - apply fill_item_plain.
  - rewrite plain_app. apply app_nil_r.
Qed.
Lemma set_comp_plain n c : plain_comp (snd (set_comp fresh n c)) = plain_comp c.
Proof.
  unfold set_comp. destruct (get_comp_attr (co_any c)) as [[u p]|]; [destruct (seq u "")|]; cbn [snd]; try reflexivity; unfold plain_comp; cbn [co_oid co_tr co_any]; f_equal.
  - apply fill_comp_plain.
  - rewrite plain_app. apply app_nil_r.
Qed.
Lemma set_list_map {A B} (g : A -> B) (f : nat -> A -> nat * A) : (forall n x, g (snd (f n x)) = g x) -> forall l n, map g (snd (set_list f n l)) = map g l.
Proof.
  intros H. induction l as [|x l IH]; intros n; cbn [set_list]; [reflexivity|]. specialize (H n x). destruct (f n x) as [n1 x']. specialize (IH n1).
  destruct (set_list f n1 l) as [n2 l']. cbn [snd map] in *. congruence.
Qed.
Lemma set_object_plain n o : plain_object (snd (set_object fresh n o)) = plain_object o.
Proof.
  unfold set_object. assert (E : exists n1 any, (match get_object_attr (ob_any o) with
                    | None => (S n, ob_any o ++ [GObj (fresh n)])
                    | Some u => if seq u "" then (S n, fill_obj (fresh n) (ob_any o)) else (n, ob_any o)
                    end) = (n1, any) /\ plain_any any = plain_any (ob_any o)).
  { destruct (get_object_attr (ob_any o)) as [u|]; [destruct (seq u "")|]; eexists; eexists; (split; [reflexivity|]); [apply fill_obj_plain|reflexivity|].
    rewrite plain_app. apply app_nil_r. }
  destruct E as (n1 & any & -> & E). destruct (ob_comps o) as [cs|] eqn:C.
  - pose proof (set_list_map plain_comp (set_comp fresh) set_comp_plain (cs_list cs) n1) as L. destruct (set_list (set_comp fresh) n1 (cs_list cs)) as [n2 l]. cbn [snd] in *.
    unfold plain_object. cbn [ob_id ob_name ob_part ob_thumb ob_pid ob_pindex ob_type ob_md ob_mesh ob_comps ob_any]. rewrite C, E. cbn [option_map]. unfold plain_comps. cbn [cs_list cs_any]. rewrite L. reflexivity.
  - cbn [snd]. unfold plain_object. cbn [ob_id ob_name ob_part ob_thumb ob_pid ob_pindex ob_type ob_md ob_mesh ob_comps ob_any]. rewrite C, E. reflexivity.
Qed.
Lemma set_res_plain n rs : plain_res (snd (set_res fresh n rs)) = plain_res rs.
Proof.
  unfold set_res. pose proof (set_list_map plain_object (set_object fresh) set_object_plain (rs_objects rs) n) as L.
  destruct (set_list (set_object fresh) n (rs_objects rs)) as [n1 l]. cbn [snd] in *. unfold plain_res. cbn [rs_assets rs_objects rs_any]. rewrite L. reflexivity.
Qed.
Lemma set_childs_plain ps : forall n cs, NoDup (map fst cs) ->
  Permutation (map plain_child (snd (set_childs fresh n ps cs))) (map plain_child cs).
Proof.
  induction ps as [|p ps IH]; intros n cs D; cbn [set_childs]; [reflexivity|]. destruct (aget seq p cs) as [c|] eqn:E; [|reflexivity].
  pose proof (set_res_plain n (ch_res c)) as R. destruct (set_res fresh n (ch_res c)) as [n1 rs]. cbn [snd] in R.
  eapply Permutation_trans; [apply IH, aset_nodup, D|]. eapply Permutation_trans; [|apply Permutation_map, (adel_perm p cs c D E)].
  unfold aset. cbn [map]. unfold plain_child at 1 3. cbn [fst snd ch_res ch_rels ch_any]. rewrite R. reflexivity.
Qed.
(** ** What is set is not set again *)
Context (Ne : forall n, fresh n <> "").
Definition stable {A} (again : nat -> A -> nat * A) (x : A) : Prop := forall n, again n x = (n, x).
Lemma set_list_stable {A} (f f' : nat -> A -> nat * A) : (forall n x, stable f' (snd (f n x))) -> forall l n, stable (set_list f') (snd (set_list f n l)).
Proof.
  intros H. induction l as [|x l IH]; intros n k; cbn [set_list]; [reflexivity|]. specialize (H n x). destruct (f n x) as [n1 x']. specialize (IH n1).
  destruct (set_list f n1 l) as [n2 l']. cbn [snd set_list] in *. rewrite H, IH. reflexivity.
Qed.
Lemma seq_fresh n : seq (fresh n) "" = false.
Proof. destruct (seq_spec (fresh n) "") as [E|_]; [destruct (Ne n E)|reflexivity]. Qed.
Lemma get_item_app l g : get_item_attr l = None -> get_item_attr (l ++ [g]) = get_item_attr [g].
Proof. induction l as [|[] l IH]; cbn [get_item_attr app]; auto; discriminate. Qed.
Lemma get_comp_app l g : get_comp_attr l = None -> get_comp_attr (l ++ [g]) = get_comp_attr [g].
Proof. induction l as [|[] l IH]; cbn [get_comp_attr app]; auto; discriminate. Qed.
Lemma get_obj_app l g : get_object_attr l = None -> get_object_attr (l ++ [g]) = get_object_attr [g].
Proof. induction l as [|[] l IH]; cbn [get_object_attr app]; auto; discriminate. Qed.
Lemma get_build_app l g : get_build_attr l = None -> get_build_attr (l ++ [g]) = get_build_attr [g].
Proof. induction l as [|[] l IH]; cbn [get_build_attr app]; auto; discriminate. Qed.
Lemma get_item_fill u v p l : get_item_attr l = Some (u, p) -> get_item_attr (fill_item v l) = Some (v, p).
Proof. induction l as [|[] l IH]; cbn [get_item_attr fill_item]; auto; try discriminate. intros E. injection E as _ ->. reflexivity. Qed.
Lemma get_comp_fill u v p l : get_comp_attr l = Some (u, p) -> get_comp_attr (fill_comp v l) = Some (v, p).
Proof. induction l as [|[] l IH]; cbn [get_comp_attr fill_comp]; auto; try discriminate. intros E. injection E as _ ->. reflexivity. Qed.
Lemma get_obj_fill u v l : get_object_attr l = Some u -> get_object_attr (fill_obj v l) = Some v.
Proof. induction l as [|[] l IH]; cbn [get_object_attr fill_obj]; auto; discriminate. Qed.
Context (fresh' : nat -> string).
Lemma build_stable n l : stable (set_build fresh') (snd (set_build fresh n l)).
Proof.
  intros k. unfold set_build at 2 3. destruct (get_build_attr l) as [u|] eqn:E; cbn [snd]; unfold set_build; [rewrite E; reflexivity|].
  rewrite (get_build_app _ _ E). reflexivity.
Qed.
Lemma item_stable n it : stable (set_item fresh') (snd (set_item fresh n it)).
Proof.
  intros k. unfold set_item at 2 3. destruct (get_item_attr (it_any it)) as [[u p]|] eqn:E; [destruct (seq u "") eqn:U|]; cbn [snd]; unfold set_item; cbn [it_any].
  - rewrite (get_item_fill _ _ _ _ E), seq_fresh. reflexivity.
  - rewrite E, U. reflexivity.
  - rewrite (get_item_app _ _ E). cbn [get_item_attr]. rewrite seq_fresh. reflexivity.
Qed.
Lemma comp_stable n c : stable (set_comp fresh') (snd (set_comp fresh n c)).
Proof.
  intros k. unfold set_comp at 2 3. destruct (get_comp_attr (co_any c)) as [[u p]|] eqn:E; [destruct (seq u "") eqn:U|]; cbn [snd]; unfold set_comp; cbn [co_any].
  - rewrite (get_comp_fill _ _ _ _ E), seq_fresh. reflexivity.
  - rewrite E, U. reflexivity.
  - rewrite (get_comp_app _ _ E). cbn [get_comp_attr]. rewrite seq_fresh. reflexivity.
Qed.
Lemma object_stable n o : stable (set_object fresh') (snd (set_object fresh n o)).
Proof.
  intros k. unfold set_object at 2 3. assert (E : exists n1 any, (match get_object_attr (ob_any o) with
                    | None => (S n, ob_any o ++ [GObj (fresh n)])
                    | Some u => if seq u "" then (S n, fill_obj (fresh n) (ob_any o)) else (n, ob_any o)
                    end) = (n1, any) /\ exists u, get_object_attr any = Some u /\ seq u "" = false).
  { destruct (get_object_attr (ob_any o)) as [u|] eqn:E; [destruct (seq u "") eqn:U|]; eexists; eexists; (split; [reflexivity|]).
    - exists (fresh n). split; [exact (get_obj_fill _ _ _ E)|apply seq_fresh].
    - exists u. split; [exact E|exact U].
    - exists (fresh n). split; [rewrite (get_obj_app _ _ E); reflexivity|apply seq_fresh]. }
  destruct E as (n1 & any & -> & u & Eu & U). destruct (ob_comps o) as [cs|] eqn:C.
  - pose proof (set_list_stable (set_comp fresh) (set_comp fresh') comp_stable (cs_list cs) n1) as L. destruct (set_list (set_comp fresh) n1 (cs_list cs)) as [n2 l]. cbn [snd] in *.
    unfold set_object. cbn [ob_any ob_comps cs_list cs_any ob_id ob_name ob_part ob_thumb ob_pid ob_pindex ob_type ob_md ob_mesh]. rewrite Eu, U, L. reflexivity.
  - cbn [snd]. unfold set_object. cbn [ob_any ob_comps ob_id ob_name ob_part ob_thumb ob_pid ob_pindex ob_type ob_md ob_mesh]. rewrite Eu, U. reflexivity.
Qed.
Lemma res_stable n rs : stable (set_res fresh') (snd (set_res fresh n rs)).
Proof.
  intros k. unfold set_res at 2 3. pose proof (set_list_stable (set_object fresh) (set_object fresh') object_stable (rs_objects rs) n) as L.
  destruct (set_list (set_object fresh) n (rs_objects rs)) as [n1 l]. cbn [snd] in *. unfold set_res. cbn [rs_objects rs_assets rs_any]. rewrite L. reflexivity.
Qed.
Lemma childs_stable ps : forall n cs, NoDup ps -> NoDup (map fst cs) -> (forall p, In p ps -> In p (map fst cs)) ->
  let cs' := snd (set_childs fresh n ps cs) in
  (forall p, ~ In p ps -> aget seq p cs' = aget seq p cs) /\ NoDup (map fst cs') /\ (forall p, In p (map fst cs') <-> In p (map fst cs)) /\
  (forall p c, In p ps -> aget seq p cs' = Some c -> stable (set_res fresh') (ch_res c)).
Proof.
  induction ps as [|p ps IH]; intros n cs Dp D K; cbn [set_childs]; cbv zeta.
  - split; [reflexivity|]. split; [exact D|]. split; [reflexivity|intros p c []].
  - inversion Dp as [|? ? Hp Dp']; subst. destruct (aget seq p cs) as [c|] eqn:E.
    2:{ exfalso. specialize (K p (or_introl eq_refl)). apply in_map_iff in K as ([q v] & Q & K). cbn in Q. subst q. apply (in_aget _ _ _ D) in K. congruence. }
    pose proof (res_stable n (ch_res c)) as R. destruct (set_res fresh n (ch_res c)) as [n1 rs]. cbn [snd] in R.
    destruct (IH n1 (aset seq p (mkChild rs (ch_rels c) (ch_any c)) cs) Dp' (aset_nodup _ _ _ D)) as (A & B & C & F).
    { intros q Hq. apply (aset_keys fresh). right. apply K. right. exact Hq. }
    cbv zeta in *. split; [|split; [exact B|split]].
    + intros q Hq. rewrite (A q); [|intros X; apply Hq; right; exact X]. apply aget_aset_other; [apply seq_spec|]. intros ->. apply Hq. left. reflexivity.
    + intros q. rewrite C, (aset_keys fresh). split; [intros [->|X]; [apply K; left; reflexivity|exact X]|auto].
    + intros q c' [<-|Hq] Ec; [|exact (F q c' Hq Ec)]. rewrite (A p Hp), aget_aset_same in Ec by apply seq_spec. injection Ec as <-. exact R.
Qed.
(** Parts that are set already are put back as they are. *)
Lemma childs_again ps : forall n cs, NoDup (map fst cs) -> (forall p c, In p ps -> aget seq p cs = Some c -> stable (set_res fresh') (ch_res c)) ->
  Permutation (snd (set_childs fresh' n ps cs)) cs /\ ((forall p, In p ps -> In p (map fst cs)) -> fst (set_childs fresh' n ps cs) = n).
Proof.
  induction ps as [|p ps IH]; intros n cs D H; cbn [set_childs]; [split; [reflexivity|intros _; reflexivity]|]. destruct (aget seq p cs) as [c|] eqn:E; [|split; [reflexivity|intros _; reflexivity]].
  rewrite (H p c (or_introl eq_refl) E). replace (mkChild (ch_res c) (ch_rels c) (ch_any c)) with c by (destruct c; reflexivity).
  assert (P : Permutation (aset seq p c cs) cs) by exact (adel_perm p cs c D E).
  destruct (IH n (aset seq p c cs) (aset_nodup _ _ _ D)) as (A & B).
  { intros q d Hq Ed. rewrite (aget_perm _ _ (aset_nodup _ _ _ D) P) in Ed. exact (H q d (or_intror Hq) Ed). }
  split; [eapply Permutation_trans; [exact A|exact P]|]. intros K. apply B. intros q Hq. apply (aset_keys fresh). right. apply K. right. exact Hq.
Qed.
End One.
Lemma sorted_perm m : Permutation (sorted_childs m) (map fst (mo_childs m)).
Proof. unfold sorted_childs. apply Permutation_sym, isort_perm. Qed.
Lemma set_missing_parts fresh m : exists n1 n2 n3,
  set_missing_uuids fresh m = mkModel (mo_path m) (mo_lang m) (mo_units m) (mo_thumb m) (snd (set_res fresh n3 (mo_res m)))
    (mkBuild (snd (set_list (set_item fresh) n1 (bu_items (mo_build m)))) (snd (set_build fresh 0 (bu_any (mo_build m))))) (mo_atts m) (mo_exts m)
      (mo_md m) (snd (set_childs fresh n2 (sorted_childs m) (mo_childs m))) (mo_rootrels m) (mo_rels m) (mo_any m) (mo_anyattr m) /\
  n1 = fst (set_build fresh 0 (bu_any (mo_build m))) /\ n2 = fst (set_list (set_item fresh) n1 (bu_items (mo_build m))) /\
  n3 = fst (set_childs fresh n2 (sorted_childs m) (mo_childs m)).
Proof.
  unfold set_missing_uuids. destruct (set_build fresh 0 (bu_any (mo_build m))) as [n1 any]. exists n1.
  destruct (set_list (set_item fresh) n1 (bu_items (mo_build m))) as [n2 its] eqn:E2. exists n2.
  destruct (set_childs fresh n2 (sorted_childs m) (mo_childs m)) as [n3 cs] eqn:E3. exists n3.
  destruct (set_res fresh n3 (mo_res m)) as [n4 rs] eqn:E4. cbn [fst snd]. repeat split; reflexivity.
Qed.
Lemma part_seen_plain cs cs' : Permutation (map plain_child cs) (map plain_child cs') ->
  Permutation (map part_seen (map plain_child cs)) (map part_seen (map plain_child cs')).
Proof. apply Permutation_map. Qed.
Theorem set_missing_same fresh m : NoDup (map fst (mo_childs m)) -> SameButUuids m (set_missing_uuids fresh m).
Proof.
  intros D. destruct (set_missing_parts fresh m) as (n1 & n2 & n3 & -> & _). unfold SameButUuids. constructor; try reflexivity.
  - cbn [plain mo_res]. apply set_res_plain.
  - cbn [plain mo_build bu_items bu_any]. rewrite set_build_plain, (set_list_map plain_item (set_item fresh) (set_item_plain fresh)). reflexivity.
  - cbn [plain mo_childs]. apply part_seen_plain, set_childs_plain, D.
Qed.
Theorem set_missing_again fresh fresh' m : NoDup (map fst (mo_childs m)) -> (forall n, fresh n <> "") ->
  Reordered (set_missing_uuids fresh m) (set_missing_uuids fresh' (set_missing_uuids fresh m)).
Proof.
  intros D Ne. destruct (set_missing_parts fresh m) as (n1 & n2 & n3 & E & _). rewrite E. clear E.
  set (m1 := mkModel _ _ _ _ _ _ _ _ _ _ _ _ _ _). destruct (set_missing_parts fresh' m1) as (k1 & k2 & k3 & E & _). rewrite E. clear E.
  unfold m1 at 5 6 7 8 9 10 11 12 13. cbn [mo_res mo_build bu_items bu_any].
  pose proof (childs_stable fresh Ne fresh' (sorted_childs m) n2 (mo_childs m)) as S. cbv zeta in S.
  destruct S as (_ & B & C & F); [exact (Permutation_NoDup (Permutation_sym (sorted_perm m)) D)|exact D|intros p Hp; exact (Permutation_in _ (sorted_perm m) Hp)|].
  assert (Dk : Permutation (snd (set_childs fresh' k2 (sorted_childs m1) (mo_childs m1))) (mo_childs m1)).
  { apply (childs_again fresh fresh'); [exact B|]. intros p c Hp Ec. apply (F p c); [|exact Ec]. apply (Permutation_in _ (sorted_perm m1)) in Hp.
    apply (Permutation_in _ (Permutation_sym (sorted_perm m))), C, Hp. }
  exists (snd (set_childs fresh' k2 (sorted_childs m1) (mo_childs m1))). split; [exact Dk|].
  rewrite (res_stable fresh Ne fresh' n3 (mo_res m) k3). cbn [snd].
  rewrite (set_list_stable (set_item fresh) (set_item fresh') (item_stable fresh Ne fresh') (bu_items (mo_build m)) n1 k1). cbn [snd].
  rewrite (build_stable fresh fresh' 0 (bu_any (mo_build m)) 0). cbn [snd]. reflexivity.
Qed.
(** ** The order of the map *)
Lemma set_childs_order fresh ps : forall n cs cs', NoDup (map fst cs) -> Permutation cs cs' ->
  fst (set_childs fresh n ps cs) = fst (set_childs fresh n ps cs') /\ Permutation (snd (set_childs fresh n ps cs)) (snd (set_childs fresh n ps cs')).
Proof.
  induction ps as [|p ps IH]; intros n cs cs' D P; cbn [set_childs]; [split; [reflexivity|exact P]|]. rewrite <- (aget_perm cs cs' D P p).
  destruct (aget seq p cs) as [c|] eqn:E; [|split; [reflexivity|exact P]]. destruct (set_res fresh n (ch_res c)) as [n1 rs]. apply IH; [apply aset_nodup, D|].
  unfold aset. constructor. assert (D' : NoDup (map fst cs')) by (eapply Permutation_NoDup; [apply Permutation_map, P|exact D]).
  apply (Permutation_cons_inv (a := (p, c))). rewrite (adel_perm p cs c D E). rewrite (aget_perm cs cs' D P p) in E. rewrite (adel_perm p cs' c D' E). exact P.
Qed.
Theorem set_missing_order fresh m m' : NoDup (map fst (mo_childs m)) -> Reordered m m' -> Reordered (set_missing_uuids fresh m) (set_missing_uuids fresh m').
Proof.
  intros D (cs & P & ->). destruct (set_missing_parts fresh m) as (n1 & n2 & n3 & -> & E1 & E2 & E3).
  destruct (set_missing_parts fresh (with_childs m cs)) as (k1 & k2 & k3 & -> & F1 & F2 & F3).
  assert (Es : sorted_childs (with_childs m cs) = sorted_childs m).
  { unfold sorted_childs. cbn [with_childs mo_childs]. apply (isort_perm_eq _ sleb_total sleb_trans sleb_antisym), Permutation_map, P. }
  rewrite Es in *. cbn [with_childs mo_build mo_childs] in F1, F2, F3. rewrite <- E1 in F1. subst k1. rewrite <- E2 in F2. subst k2.
  destruct (set_childs_order fresh (sorted_childs m) n2 (mo_childs m) cs D (Permutation_sym P)) as (G & H). rewrite <- G, <- E3 in F3. subst k3.
  exists (snd (set_childs fresh n2 (sorted_childs m) cs)). split; [apply Permutation_sym, H|]. reflexivity.
Qed.
