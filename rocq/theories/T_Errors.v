(** * Property theorems C19 and C41 *)
From Verif Require Import GoBase GoNum GoFloat Types M_Errors S_Errors P_Errors.

(** C19: Append keeps everything in order, flattening one level and dropping nil. *)
Theorem C19_append_keeps_all : forall err errs,
  members (append err errs) = members err ++ concat (map members errs).
Proof. exact append_members. Qed.
Print Assumptions C19_append_keeps_all.
Theorem C19_append_nil : forall err errs,
  append err errs = None <-> err = None /\ Forall (fun e => e = None) errs.
Proof. exact append_nil. Qed.
Print Assumptions C19_append_nil.
Theorem C19_append_makes_list : forall err e errs x, append err (e :: errs) = Some x -> exists l, x = EList l.
Proof. exact append_is_list. Qed.
Print Assumptions C19_append_makes_list.
Theorem C19_wrap_index : forall e n i,
  located_o (wrap_index e n i) = map (outer (mkLevel n i)) (located_o e).
Proof. intros [e|] n i; [apply wrap_index_located|reflexivity]. Qed.
Print Assumptions C19_wrap_index.
Theorem C19_wrap : forall e n,
  located_o (wrap e n) = map (outer (mkLevel n (-1))) (located_o e).
Proof. intros e n. apply C19_wrap_index. Qed.
Print Assumptions C19_wrap.
Theorem C19_wrap_path : forall e n p,
  located_o (wrap_path e n p) = map (fun x => in_part p (outer (mkLevel n (-1)) x)) (located_o e).
Proof. intros [e|] n p; [apply wrap_path_located|reflexivity]. Qed.
Print Assumptions C19_wrap_path.
Theorem C19_xpath : forall t, t <> [] -> Forall (fun l => (-1 <= lv_index l)%Z) t ->
  PathText (rev t) (xpath t).
Proof. exact xpath_spec. Qed.
Print Assumptions C19_xpath.
Example C19_nonvacuous :
  xpath [mkLevel "base" 12; mkLevel "basematerials" 0; mkLevel "model" (-1)] =
    "/model/basematerials[0]/base[12]" /\
  append (Some (ESent "a")) [None; Some (EList [ESent "b"; EMissing "c"]); Some (ESent "d")] =
    Some (EList [ESent "a"; ESent "b"; EMissing "c"; ESent "d"]).
Proof. split; reflexivity. Qed.

(** C41 *)
Theorem C41_uint_round_trip : forall n, (n < 2 ^ 32)%N -> parse_u32 (fmt_dec n) = (n, true).
Proof. intros n H. apply parse_fmt_dec. unfold max_uint32. change (2 ^ 32)%N with 4294967296%N in H. lia. Qed.
Print Assumptions C41_uint_round_trip.
(** Accepted texts are exactly the non-empty digit strings that denote a number below 2^32,
    and the value is the number denoted. *)
Theorem C41_uint_accepted : forall s v,
  parse_u32 s = (v, true) <->
  s <> "" /\ sall is_digit s = true /\
  v = fold_left (fun a c => (a * 10 + (bN c - 48))%N) (chars s) 0%N /\ (v < 2 ^ 32)%N.
Proof.
  intros s v. unfold parse_u32. rewrite parse_uint_spec, dec_val_fold.
  change (2 ^ 32)%N with 4294967296%N. unfold max_uint32, dec_val.
  split; intros (H1 & H2 & H3 & H4); repeat split; auto; lia.
Qed.
Print Assumptions C41_uint_accepted.
(** A refused text leaves 0 or 4294967295 with an error. *)
Theorem C41_uint_refused : forall s v, parse_u32 s = (v, false) -> v = 0%N \/ v = 4294967295%N.
Proof.
  intros s v. unfold parse_u32, parse_uint. destruct s as [|c s]; [intros H; injection H; auto|].
  generalize 0%N at 1. generalize (String c s) as t. induction t as [|d t IH]; intros n; cbn; [discriminate|].
  destruct (is_digit d); [|intros H; injection H; auto].
  destruct (_ <? _)%N; [intros H; injection H; auto|apply IH].
Qed.
Print Assumptions C41_uint_refused.
Example C41_nonvacuous : parse_u32 "4294967295" = (4294967295%N, true) /\
  parse_u32 "4294967296" = (4294967295%N, false) /\ parse_u32 "-1" = (0%N, false) /\ fmt_dec 1024 = "1024".
Proof. repeat split; reflexivity. Qed.
