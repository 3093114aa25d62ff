From Verif Require Import GoBase GoNum GoFloat Types M_Errors S_Errors.

Lemma append_list_spec l errs :
  append_list l errs = l ++ concat (map members errs).
Proof.
  revert l; induction errs as [|[e|] errs IH]; intros l; cbn.
  - rewrite app_nil_r; reflexivity.
  - destruct e; cbn; rewrite IH, <- ?app_assoc; reflexivity.
  - apply IH.
Qed.
Lemma non_nil_members errs : concat (map members (non_nil errs)) = concat (map members errs).
Proof. induction errs as [|[e|] errs IH]; cbn; [reflexivity|rewrite IH; reflexivity|exact IH]. Qed.
Lemma non_nil_nil errs : non_nil errs = [] <-> Forall (fun e => e = None) errs.
Proof.
  induction errs as [|[e|] errs IH]; cbn.
  - split; auto.
  - split; [discriminate|]. intros H; inversion H; discriminate.
  - rewrite IH. split; [intros H; constructor; auto|]. intros H; inversion H; auto.
Qed.
Lemma append_members err errs : members (append err errs) = members err ++ concat (map members errs).
Proof.
  destruct errs as [|e errs]; [cbn; rewrite app_nil_r; reflexivity|].
  unfold append. assert (H : forall err, match non_nil (err :: e :: errs) with
      | [] => None | _ => Some (EList (append_list [] (non_nil (err :: e :: errs)))) end = 
     match non_nil (err :: e :: errs) with
      | [] => None | _ => Some (EList (members err ++ concat (map members (e :: errs)))) end).
  { intros e0. rewrite append_list_spec, non_nil_members. destruct (non_nil _); reflexivity. }
  assert (H' : forall e0, members (match non_nil (e0 :: e :: errs) with
      | [] => None | _ => Some (EList (append_list [] (non_nil (e0 :: e :: errs)))) end) =
      members e0 ++ concat (map members (e :: errs))).
  { intros e0. rewrite H. destruct (non_nil (e0 :: e :: errs)) eqn:E; [|reflexivity].
    change (members e0 ++ concat (map members (e :: errs))) with (concat (map members (e0 :: e :: errs))).
    rewrite <- non_nil_members, E. reflexivity. }
  destruct err as [[ | | | |l]|]; try apply H'. cbn [members]. apply append_list_spec.
Qed.
Lemma append_nil err errs :
  append err errs = None <-> err = None /\ Forall (fun e => e = None) errs.
Proof.
  destruct errs as [|e errs]; [cbn; split; [intros ->; split; auto|intros [-> _]; reflexivity]|].
  assert (H' : forall e0, (match non_nil (e0 :: e :: errs) with
      | [] => None | _ => Some (EList (append_list [] (non_nil (e0 :: e :: errs)))) end) = None <->
      e0 = None /\ Forall (fun e => e = None) (e :: errs)).
  { intros e0. destruct (non_nil (e0 :: e :: errs)) eqn:E.
    - apply non_nil_nil in E. inversion E; subst. tauto.
    - split; [discriminate|]. intros [H0 HF]. assert (Q : non_nil (e0 :: e :: errs) = []) by
        (apply non_nil_nil; constructor; auto). rewrite Q in E. discriminate E. }
  unfold append. destruct err as [[ | | | |l]|]; try apply H'.
  split; [discriminate|]. intros [H _]; discriminate.
Qed.
Lemma append_is_list err e errs x : append err (e :: errs) = Some x -> exists l, x = EList l.
Proof.
  unfold append. assert (H : forall e0, match non_nil (e0 :: e :: errs) with
      | [] => None | _ => Some (EList (append_list [] (non_nil (e0 :: e :: errs)))) end = Some x ->
      exists l, x = EList l).
  { intros e0. destruct (non_nil (e0 :: e :: errs)); [discriminate|]. intros H; injection H as <-; eauto. }
  destruct err as [[ | | | |l]|]; try apply H. intros H'; injection H' as <-; eauto.
Qed.

Lemma located_list l : located (EList l) = concat (map located l).
Proof. induction l as [|e l IH]; cbn; [reflexivity|]. rewrite <- IH. reflexivity. Qed.

Section GerrInd.
  Variable P : gerr -> Prop.
  Hypothesis HS : forall n, P (ESent n).
  Hypothesis HM : forall n, P (EMissing n).
  Hypothesis HP : forall n r, P (EParse n r).
  Hypothesis HE : forall t e p, P e -> P (EErr t e p).
  Hypothesis HL : forall l, Forall P l -> P (EList l).
  Fixpoint gerr_ind' (e : gerr) : P e :=
    match e with
    | ESent n => HS n
    | EMissing n => HM n
    | EParse n r => HP n r
    | EErr t e p => HE t e p (gerr_ind' e)
    | EList l => HL l ((fix go l : Forall P l := match l with
                         | [] => Forall_nil P | e :: r => Forall_cons e (gerr_ind' e) (go r) end) l)
    end.
End GerrInd.

Lemma wrap_index_located e n i : located (wrap_index1 e n i) = map (outer (mkLevel n i)) (located e).
Proof.
  induction e as [| | |t e p IH|l IH] using gerr_ind'; try reflexivity.
  - cbn. rewrite rev_app_distr. reflexivity.
  - cbn [wrap_index1]. rewrite !located_list, map_map. rewrite concat_map, map_map.
    f_equal. apply map_ext_in. intros x Hx. rewrite Forall_forall in IH. apply IH; exact Hx.
Qed.
Lemma wrap_path_located e n p :
  located (wrap_path1 e n p) = map (fun x => in_part p (outer (mkLevel n (-1)) x)) (located e).
Proof.
  induction e as [| | |t e q IH|l IH] using gerr_ind'; try reflexivity.
  - cbn. rewrite rev_app_distr. reflexivity.
  - cbn [wrap_path1]. rewrite !located_list, map_map. rewrite concat_map, map_map.
    f_equal. apply map_ext_in. intros x Hx. rewrite Forall_forall in IH. apply IH; exact Hx.
Qed.

Lemma dec_val_fold n s : fold_left (fun a c => (a * 10 + (bN c - 48))%N) (chars s) n = dec_val_aux n s.
Proof. revert n; induction s as [|c s IH]; intros n; cbn; auto. Qed.

Lemma level_string_spec l : (-1 <= lv_index l)%Z -> LevelText l (level_string l).
Proof.
  destruct l as [n i]; cbn. intros H. unfold level_string; cbn.
  destruct (Z.eqb_spec i (-1)) as [->|Hn]; [constructor|].
  unfold fmt_int. destruct (Z.ltb_spec i 0); [lia|].
  rewrite <- (Z2N.id i) at 1 by lia. destruct (fmt_dec_spec (Z.to_N i)) as (H1 & H2 & H3).
  apply LTIndex; auto. rewrite dec_val_fold. exact H3.
Qed.

Lemma sjoin_path (l : list Level) : l <> [] -> Forall (fun l => (-1 <= lv_index l)%Z) l ->
  PathText l ("/" +++ sjoin "/" (map level_string l)).
Proof.
  induction l as [|x l IH]; [congruence|]. intros _ H; inversion H; subst.
  destruct l as [|y l].
  - cbn [map sjoin]. rewrite <- (sapp_nil_r (level_string x)). apply PTCons; [|constructor].
    apply level_string_spec; assumption.
  - cbn [map sjoin] in *. apply PTCons; [apply level_string_spec; assumption|]. apply IH; [discriminate|assumption].
Qed.
Lemma xpath_spec t : t <> [] -> Forall (fun l => (-1 <= lv_index l)%Z) t -> PathText (rev t) (xpath t).
Proof.
  intros Hn HF. unfold xpath. rewrite <- map_rev. apply sjoin_path.
  - intros E. apply Hn. rewrite <- (rev_involutive t), E. reflexivity.
  - apply Forall_rev; exact HF.
Qed.
