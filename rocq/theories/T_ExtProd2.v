(** * Exactly when SetMissingUUIDs leaves nothing missing: C28 *)
From Verif Require Import GoBase GoFloat Types M_Core S_Core P_Core M_Geom S_Geom M_Validate S_Validate M_ExtValidate S_ExtProd P_ExtProd P_ExtProd2 T_ExtProd.

(** With a source of UUIDs, everything has a UUID afterwards exactly if the build has no attribute group, or one with a
    UUID.  Missing for C28: the other builds. *)
Theorem C28_exact_partial : forall fresh m, NoDup (map fst (mo_childs m)) -> (forall n, fresh n <> "") ->
  UuidsComplete (set_missing_uuids fresh m) <-> (forall u, Carries KBuild (bu_any (mo_build m)) u "" -> u <> "").
Proof.
  intros fresh m Hk Hf. split; [|apply C28_set_missing_partial; assumption]. intros [(v & Cv & Nv) _] u Cu.
  pose proof (C28_set_missing_completes fresh m Hk) as H. inversion H as [? any its rs cs B _ _ _ _ E0 E]. subst. rewrite <- E in Cv. cbn [mo_build bu_any] in Cv.
  inversion B as [l w Cw E1 E2|l w N _ E1 E2]; subst.
  - apply get_group_spec in Cu. apply get_group_spec in Cv. congruence.
  - destruct Cu as (_ & a & b & E3 & _). destruct (N u ""). rewrite E3. apply in_or_app. right. left. reflexivity.
Qed.
Print Assumptions C28_exact_partial.
(** A build without group, in a model with an item *)
Example C28_exact_nonvacuous : let m := mkModel "" "" 0 "" (mkRes [] [] []) (mkBuild [mkItem 1 matrix_zero "" mg_zero []] []) [] [] [] [] [] [] [] [] in
  NoDup (map fst (mo_childs m)) /\ (forall u, Carries KBuild (bu_any (mo_build m)) u "" -> u <> "") /\ ~ UuidsComplete m.
Proof.
  cbv zeta. split; [constructor|]. split.
  - intros u (_ & a & b & E & _). cbn in E. destruct a; discriminate E.
  - intros [(u & (_ & a & b & E & _) & _) _]. cbn in E. destruct a; discriminate E.
Qed.
