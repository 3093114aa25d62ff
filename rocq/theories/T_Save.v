(** * Theorems: what saving does to the model in memory: C67 *)
From Coq Require Import Lia Permutation.
From Verif Require Import GoBase GoNum GoFloat Types PkgTypes MemTypes XmlTypes M_Core M_Xml M_Printer M_Decode M_Encode M_Package M_Save S_Package S_Save P_Package P_Save.

Lemma combine_snd {A B} (l : list A) (r : list B) : List.length r = List.length l -> map snd (combine l r) = r.
Proof. revert r. induction l as [|x l IH]; intros [|y r] E; cbn in *; try reflexivity; try discriminate. rewrite IH; congruence. Qed.
(** The package saved is that of the model in memory, whatever the orders of the maps; afterwards all relationships are
    as before, and the streams of the attachments are at their end.  Missing: relationships that share their arrays, see
    below. *)
Theorem C67_saved_partial : forall grow normalize resolve refuses prec order1 order2 M mm o M',
  InMemory M mm -> Separate mm -> (forall kc, In kc order2 -> In kc (mm_childs mm)) ->
  encode_mem grow normalize resolve refuses prec order1 order2 M mm = (o, M') ->
  o = encode normalize resolve refuses prec (map (seen_child M) order1) (map (seen_child M) order2) (seen M mm) /\
  InMemory M' mm /\ (forall s, In s (slices mm) -> contents M' s = contents M s) /\
  (forall i, ~ In i (mm_readers mm) -> nth i (mm_streams M') "" = nth i (mm_streams M) "") /\
  (o <> None -> forall i, In i (mm_readers mm) -> nth i (mm_streams M') "" = "").
Proof.
  intros * (W & L & N & B) S O2. unfold encode_mem. destruct (write_attachments_mem _ _ _ _ _) as [ow M1] eqn:A.
  assert (CS := combine_snd (mo_atts (mm_model mm)) (mm_readers mm) L).
  destruct (write_attachments_mem_ok normalize refuses (combine (mo_atts (mm_model mm)) (mm_readers mm)) M M1 _ _ ltac:(rewrite CS; exact N) ltac:(rewrite CS; exact B) A)
    as (H1 & H2 & H3 & H4 & H5). rewrite CS in H4, H5.
  assert (W1 : forall t, In t (slices mm) -> WF M1 t) by (intros t It; unfold WF; rewrite H2; exact (W t It)).
  assert (I1 : forall M2, mm_streams M2 = mm_streams M1 -> (forall t, In t (slices mm) -> WF M2 t) -> InMemory M2 mm).
  { intros M2 E X. split; [intros t It; exact (X t It)|]. split; [exact L|]. split; [exact N|]. rewrite E, H3. exact B. }
  unfold encode. change (mo_atts (seen M mm)) with (seen_atts M (combine (mo_atts (mm_model mm)) (mm_readers mm))). rewrite <- H1.
  destruct ow as [w|]; [|intros E; injection E as <- <-; split; [reflexivity|]; split; [apply I1; [reflexivity|exact W1]|]; split; [intros s _; apply contents_arrays; exact H2|]; split; [exact H5|congruence]].
  change (write_model prec (seen M mm)) with (write_model prec (mm_model mm)). change (path_or_default (seen M mm)) with (path_or_default (mm_model mm)).
  change (mo_thumb (seen M mm)) with (mo_thumb (mm_model mm)). change (mo_rootrels (seen M mm)) with (contents M (mm_rootrels mm)). change (mo_rels (seen M mm)) with (contents M (mm_rels mm)).
  rewrite !(contents_arrays M M1) by exact H2. rewrite map_map. change (fun x => child_rel (fst (seen_child M x))) with (fun x : string * (Child * RSlice) => child_rel (fst x)).
  destruct (create _ _ _ _ _ _) as [w1|] eqn:C; [|intros E; injection E as <- <-; split; [reflexivity|]; split; [apply I1; [reflexivity|exact W1]|]; split; [intros s _; apply contents_arrays; exact H2|]; split; [exact H5|congruence]].
  intros E. destruct (write_childs_mem_ok grow normalize resolve refuses prec mm (slices mm) order2 M1 M' w1 o) as (K1 & K2 & K3).
  - exact W1.
  - intros kc H. right. right. apply in_map_iff. exists kc. auto.
  - intros kc t H It. refine (S (snd (snd kc)) t _ It). apply in_map_iff. exists kc. auto.
  - exact E.
  - split; [|split; [apply I1; [exact K2|intros t It; apply K3; exact It]|split; [|split]]].
    + rewrite K1. change (write_childs normalize resolve refuses prec (seen M mm)) with (write_childs normalize resolve refuses prec (mm_model mm)).
      f_equal. apply map_ext. intros kc. unfold seen_child. rewrite (contents_arrays M M1) by exact H2. reflexivity.
    + intros s Is. rewrite (proj1 (K3 s Is)). apply contents_arrays. exact H2.
    + intros i Ni. rewrite K2. apply H5. exact Ni.
    + intros _ i Ii. rewrite K2. apply H4; [discriminate|exact Ii].
Qed.
Print Assumptions C67_saved_partial.

(** Saving the same model again gives the same package with all attachments empty. *)
Theorem C67_again_partial : forall grow normalize resolve refuses prec order1 order2 M mm w M' o M'',
  InMemory M mm -> Separate mm -> (forall kc, In kc order1 -> In kc (mm_childs mm)) -> (forall kc, In kc order2 -> In kc (mm_childs mm)) ->
  encode_mem grow normalize resolve refuses prec order1 order2 M mm = (Some w, M') ->
  encode_mem grow normalize resolve refuses prec order1 order2 M' mm = (o, M'') ->
  o = Some (emptied (List.length (mo_atts (mm_model mm))) w).
Proof.
  intros * I S O1 O2 E1 E2. destruct (C67_saved_partial _ _ _ _ _ _ _ _ _ _ _ I S O2 E1) as (A1 & I' & C & _ & D).
  destruct (C67_saved_partial _ _ _ _ _ _ _ _ _ _ _ I' S O2 E2) as (A2 & _).
  assert (OS : forall l, (forall kc, In kc l -> In kc (mm_childs mm)) -> map (seen_child M') l = map (seen_child M) l).
  { intros l H. apply map_ext_in. intros kc K. unfold seen_child. rewrite C; [reflexivity|]. right. right. apply in_map_iff. exists kc. auto. }
  rewrite !OS in A2 by assumption.
  pose proof (encode_accepted normalize resolve refuses prec (map (seen_child M) order1) (map (seen_child M) order2) (seen M mm)) as Y1. rewrite <- A1 in Y1.
  pose proof (encode_accepted normalize resolve refuses prec (map (seen_child M) order1) (map (seen_child M) order2) (seen M' mm)) as Y2. rewrite <- A2 in Y2.
  change (path_or_default (seen M' mm)) with (path_or_default (seen M mm)) in Y2.
  assert (N : map (fun a => (at_path a, at_ctype a)) (mo_atts (seen M' mm)) = map (fun a => (at_path a, at_ctype a)) (mo_atts (seen M mm))).
  { cbn [mo_atts seen]. unfold seen_atts. rewrite !map_map. apply map_ext. reflexivity. }
  rewrite N, <- Y1 in Y2. destruct o as [w2|]; [|discriminate]. f_equal. symmetry in A1, A2.
  apply encode_parts in A1 as [R1 P1]. apply encode_parts in A2 as [R2 P2].
  assert (L : List.length (mo_atts (seen M mm)) = List.length (mo_atts (mm_model mm))).
  { cbn [mo_atts seen]. unfold seen_atts. rewrite map_length, combine_length. destruct I as (_ & L & _). rewrite L. apply Nat.min_id. }
  unfold emptied. destruct w as [wr wp], w2 as [wr2 wp2]. cbn [pk_rels pk_parts] in *. subst wr wr2 wp wp2. f_equal.
  - cbn [mo_rootrels seen]. rewrite C by (left; reflexivity). reflexivity.
  - rewrite <- L. rewrite <- (map_length (att_part normalize)). rewrite firstn_app, skipn_app, Nat.sub_diag, firstn_all, skipn_all. cbn [firstn skipn app]. rewrite app_nil_r.
    f_equal.
    + cbn [mo_atts seen]. unfold seen_atts. rewrite !map_map. apply map_ext_in. intros [a i] H. unfold att_part. cbn [at_path at_ctype at_data fst snd pt_name pt_ctype pt_rels].
      rewrite D; [reflexivity|discriminate|]. apply in_combine_r in H. exact H.
    + f_equal. unfold root_part. cbn [mo_rels seen]. rewrite C by (right; left; reflexivity). reflexivity.
Qed.
Print Assumptions C67_again_partial.
(** False in general: a decoded texture is gone after the first save. *)
Definition picture_model : MemModel :=
  mkMM (mkModel "" "" 0 "" res_zero (mkBuild [] []) [mkAtt "" "/3D/Texture/t.png" "image/png"] [] [] [] [] [] [] [])
    [0] (mkRSl 0 0 0 0) (mkRSl 0 0 1 1) [].
Theorem C67_streams_refuted : exists M mm w M' w' M'', InMemory M mm /\ Separate mm /\
  encode_mem (fun n => n) (fun n => n) (fun _ n => n) (fun _ _ _ => false) 4 [] [] M mm = (Some w, M') /\
  encode_mem (fun n => n) (fun n => n) (fun _ n => n) (fun _ _ _ => false) 4 [] [] M' mm = (Some w', M'') /\
  map pt_data (firstn 1 (pk_parts w)) = ["the picture"] /\ map pt_data (firstn 1 (pk_parts w')) = [""].
Proof.
  exists (mkMem [[mkRel "/3D/Texture/t.png" type_texture ""]] ["the picture"]), picture_model. eexists _, _, _, _.
  split; [|split; [|split; [vm_compute; reflexivity|split; [vm_compute; reflexivity|split; reflexivity]]]].
  - split; [|split; [reflexivity|split; [repeat constructor; intros []|intros i [<-|[]]; cbn; lia]]].
    intros s [<-|[<-|[]]]; cbn; lia.
  - intros s t [].
Qed.
Print Assumptions C67_streams_refuted.
(** The relationships of two children are parts of one array: saving the texture of the first overwrites those of the second,
    in the package and in the model. *)
Definition textured : Child := mkChild (mkRes [AExt (XTexture2D (mkTex2D 9 "/3D/t.png" 1 0 0 0))] [] []) [] [].
Definition sharing : list (string * (Child * RSlice)) := [("/a.model", (textured, mkRSl 0 0 1 2)); ("/b.model", (child_zero, mkRSl 0 1 1 1))].
Definition shared_model : MemModel :=
  mkMM (mkModel "" "" 0 "" res_zero (mkBuild [] []) [] [] [] [] [] [] [] []) [] (mkRSl 0 0 0 0) (mkRSl 0 0 0 0) sharing.
Theorem C67_relationships_refuted : exists M mm w M' s r, InMemory M mm /\ In s (child_slices mm) /\
  encode_mem (fun n => n) (fun n => n) (fun _ n => n) (fun _ _ _ => false) 4 (mm_childs mm) (mm_childs mm) M mm = (Some w, M') /\
  In r (contents M s) /\ (forall p, In p (pk_parts w) -> ~ In r (pt_rels p)) /\ ~ In r (contents M' s).
Proof.
  exists (mkMem [[mkRel "/ticket.xml" "http://x/ticket" "a"; mkRel "/notes.txt" "http://x/notes" "b"]] []), shared_model. eexists _, _, (mkRSl 0 1 1 1), (mkRel "/notes.txt" "http://x/notes" "b").
  split; [|split; [right; left; reflexivity|split; [vm_compute; reflexivity|split; [left; reflexivity|split]]]].
  - split; [|split; [reflexivity|split; [constructor|intros i []]]]. intros s [<-|[<-|[<-|[<-|[]]]]]; cbn; lia.
  - intros p. cbn. intros H. repeat (destruct H as [<-|H]; [cbn; intuition discriminate|]). destruct H.
  - cbn. intuition discriminate.
Qed.
Print Assumptions C67_relationships_refuted.
(** Two children with arrays of their own, the first with room for one more relationship, and an attachment *)
Definition apart_model : MemModel :=
  mkMM (mkModel "" "" 0 "" res_zero (mkBuild [] []) [mkAtt "" "/3D/t.png" "image/png"] [] [] [] [] [] [] []) [1] (mkRSl 0 0 0 0) (mkRSl 1 1 1 1)
    [("/a.model", (textured, mkRSl 0 0 1 2)); ("/b.model", (child_zero, mkRSl 1 0 1 1))].
Definition apart_mem : Mem :=
  mkMem [[mkRel "/ticket.xml" "http://x/ticket" "a"; mkRel "" "" ""]; [mkRel "/notes.txt" "http://x/notes" "b"; mkRel "/3D/t.png" type_texture ""]] ["other"; "png"].
Example C67_nonvacuous : InMemory apart_mem apart_model /\ Separate apart_model /\ exists w M',
  encode_mem (fun n => n) (fun n => n) (fun _ n => n) (fun _ _ _ => false) 4 (mm_childs apart_model) (mm_childs apart_model) apart_mem apart_model = (Some w, M') /\
  map pt_rels (skipn 2 (pk_parts w)) = [[mkRel "/ticket.xml" "http://x/ticket" "a"; mkRel "/3D/t.png" type_texture ""]; [mkRel "/notes.txt" "http://x/notes" "b"]].
Proof.
  split; [|split; [|eexists _, _; split; [vm_compute; reflexivity|reflexivity]]].
  - split; [|split; [reflexivity|split; [repeat constructor; intros []|intros i [<-|[]]; cbn; lia]]]. intros s [<-|[<-|[<-|[<-|[]]]]]; cbn; lia.
  - intros s t [<-|[<-|[]]] [<-|[<-|[<-|[<-|[]]]]]; cbn; intros E; try discriminate E; lia.
Qed.
