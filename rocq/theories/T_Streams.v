(** * Every stream that Decode opens is closed, once and last (C80) *)
From Verif Require Import GoBase GoNum GoUtf8 GoFloat Types XmlTypes PkgTypes M_Core M_Errors M_Xml M_Decode M_Package M_Childs M_Decoder M_Reuse StreamTypes S_Streams M_Streams P_Childs P_Streams T_Decode T_Read.

(** When DecodeContext has returned, with or without an error, or when the decoding of the root model has panicked: each
    stream was never opened, or it was opened, read and closed once, after all reads.  It holds of all packages and
    files, of new and of used Decoders, in all executions of the goroutines and wherever the context is cancelled. *)
Theorem C80_closed : forall reg strict every resolve job outer nr p m l,
  decode_log reg strict every resolve job outer nr p m l -> forall s o, On s l o -> Settled o.
Proof. intros until l. intros D s o O. apply On_on in O. subst. exact (decode_settled _ _ _ _ _ _ _ _ _ _ D s). Qed.
Print Assumptions C80_closed.
(** At every moment of the decoding of the child models no stream is read before it is opened or after it is closed;
    where a goroutine has finished or panicked, its stream is closed. *)
Theorem C80_always : forall reg strict every outer jobs m n l x,
  lsteps reg strict every outer n (c_init jobs m) l x ->
  forall k j g, nth_error (snd x) k = Some (j, g) -> forall o, On (SChild k) l o ->
    (Settled o \/ Held o) /\ (g = GDone \/ g = GPanic -> Settled o).
Proof.
  intros until x. intros L k j g N o O. apply On_on in O. destruct (lsteps_ok _ _ _ _ _ _ _ _ L (init_ok _ _)) as [A _]. specialize (A _ _ _ N).
  subst. destruct g; cbn in A; split; try (intros [X|X]; discriminate X); try (left; exact A); try (right; exact A); try (intros _; exact A).
  left. rewrite A. apply settled_nil.
Qed.
Print Assumptions C80_always.
(** Every child model that can be opened has been opened when DecodeContext returns, even where an earlier one failed. *)
Theorem C80_all_children : forall reg strict every resolve job outer nr p m l m1 cs root k f,
  decode_log reg strict every resolve job outer nr p m l -> process_opc_again resolve nr p m = Some (m1, cs, root) ->
  nth_error cs k = Some f -> (On (SChild k) l [] <-> jb_open (job f) = None).
Proof.
  intros until f. intros D P N. rewrite On_on.
  destruct D as [l E C|m1' cs' root' m2 e l t E C T|m1' cs' root' m2 l t r E C T R]; rewrite P in E; try discriminate E; injection E as <- <- <-;
    destruct (copies_on _ _ _ C) as [_ [_ [B _]]]; pose proof (childs_opened _ _ _ _ _ _ _ _ _ T k (job f)) as X.
  - rewrite on_app, B. apply X. rewrite nth_error_map, N. reflexivity.
  - destruct (root_settled _ _ R) as [_ [I _]]. rewrite !on_app, B, I, app_nil_r. apply X. rewrite nth_error_map, N. reflexivity.
Qed.
Print Assumptions C80_all_children.
(** The stream of the root model is opened when all others are closed. *)
Theorem C80_root_last : forall reg strict every resolve job outer nr p m a o b,
  decode_log reg strict every resolve job outer nr p m (a ++ (SRoot, o) :: b) -> forall s o', In (s, o') b -> s = SRoot.
Proof.
  intros until b. intros D. remember (a ++ (SRoot, o) :: b) as l eqn:L. assert (I : In (SRoot, o) l) by (rewrite L; apply in_elt).
  assert (Z : forall l0 r0, on SRoot l0 = [] -> (forall s o', In (s, o') r0 -> s = SRoot) -> a ++ (SRoot, o) :: b = l0 ++ r0 -> forall s o', In (s, o') b -> s = SRoot).
  { clear. intros l0. revert a. induction l0 as [|[t x] l0 IH]; intros a r0 N R E s o' B.
    - apply (R s o'). cbn in E. rewrite <- E. apply in_or_app. right. right. exact B.
    - destruct a as [|y a]; cbn in E.
      + injection E as <- <- E. cbn in N. discriminate N.
      + injection E as _ E. refine (IH a r0 _ R E s o' B). cbn in N. destruct (sid_dec t SRoot); [discriminate|exact N]. }
  destruct D as [l E C|m1 cs root m2 e l t E C T|m1 cs root m2 l t r E C T R]; destruct (copies_on _ _ _ C) as [_ [_ [_ B]]].
  - apply on_in in I. rewrite B in I. destruct I.
  - destruct (childs_settled _ _ _ _ _ _ _ _ _ T) as [_ [_ G]]. apply on_in in I. rewrite on_app, B, G in I. destruct I.
  - destruct (childs_settled _ _ _ _ _ _ _ _ _ T) as [_ [_ G]]. rewrite app_assoc in L. apply (Z (l ++ t) r); [rewrite on_app, B, G; reflexivity| |symmetry; exact L].
    intros s o' H. destruct R as [|x n _]; [destruct H|]. destruct H as [H|H]; [injection H as <- _; reflexivity|].
    apply in_app_or in H. destruct H as [H|[H|[]]]; [apply repeat_spec in H|]; injection H; auto.
Qed.
Print Assumptions C80_root_last.
(** The attachments that Decode adds to the model are those files, of the ones opened as attachments, that could be read
    to their end; a file that is not opened cannot be. *)
Theorem C80_attachments : forall reg strict every resolve job outer nr p m l m1 cs root,
  decode_log reg strict every resolve job outer nr p m l -> process_opc_again resolve nr p m = Some (m1, cs, root) ->
  exists fs, mo_atts m1 = mo_atts m ++ flat_map (fun f => match pf_data f with Some d => [mkAtt d (pf_name f) (pf_ctype f)] | None => [] end) fs /\
    (forall k f, nth_error fs k = Some f -> On (SAtt k) l [] -> pf_data f = None) /\
    (forall k, nth_error fs k = None -> On (SAtt k) l []).
Proof.
  intros until root. intros D P. exists (opc_copies resolve p nr m). split; [exact (opc_copied _ _ _ _ _ _ _ P)|].
  assert (X : exists l0, copy_files 0 (opc_copies resolve p nr m) l0 /\ forall k, on (SAtt k) l = on (SAtt k) l0).
  { destruct D as [l E C|m1' cs' root' m2 e l t E C T|m1' cs' root' m2 l t r E C T R]; exists l; (split; [exact C|]); intros k; [reflexivity| |];
      destruct (childs_settled _ _ _ _ _ _ _ _ _ T) as [_ [F _]].
    - rewrite on_app, F. apply app_nil_r.
    - destruct (root_settled _ _ R) as [H _]. rewrite !on_app, F, H. apply app_nil_r. }
  destruct X as [l0 [C X]]. split; intros k.
  - intros f N O. apply On_on in O. rewrite X in O. exact (copy_each _ _ _ C k f N O).
  - intros N. apply On_on. rewrite X. clear -C N. apply nth_error_None in N. apply on_none.
    assert (Y : forall i fs l0, copy_files i fs l0 -> forall j o, In (SAtt j, o) l0 -> j < i + List.length fs).
    { clear. induction 1 as [i|i f fs o l C L IH]; intros j x; [intros []|]. intros H. apply in_app_or in H. cbn [List.length]. destruct H as [H|H].
      - apply in_map_iff in H. destruct H as [y [H _]]. injection H as <- _. apply Nat.lt_add_pos_r, Nat.lt_0_succ.
      - specialize (IH _ _ H). rewrite <- plus_n_Sm. exact IH. }
    intros o I. exact (Nat.lt_irrefl _ (Nat.lt_le_trans _ _ _ (Y _ _ _ C _ _ I) N)).
Qed.
Print Assumptions C80_attachments.
(** Every execution of C75 and C68 has such a log: the streams restrict none of them. *)
Theorem C80_executions : forall reg strict every resolve later nr p m r,
  decodes_again reg strict every resolve later nr p m r -> exists l, decode_log reg strict every resolve (job_of later) false nr p m l.
Proof. exact decode_log_some. Qed.
Print Assumptions C80_executions.
(** OpenReader leaves the file open only where it returns what closes it. *)
Theorem C80_open_reader : forall opens stats o ok, open_reader opens stats = (o, ok) ->
  (ok = false -> Settled o) /\ (ok = true -> Held o /\ Settled (o ++ close_reader)).
Proof.
  intros [] [] o ok E; injection E as <- <-; split; try discriminate; intros _; try (left; reflexivity); try (right; exists 0; reflexivity).
  split; [exists 0; reflexivity|right; exists 0; reflexivity].
Qed.
Print Assumptions C80_open_reader.

(** The package of C75: a root model, a child and a thumbnail, which is opened once though two relationships name it *)
Example C80_nonvacuous : exists l n k a, decode_log all_specs true 1000 (fun _ n => n) (job_of (fun _ _ => "")) false [] pkg_all model_zero l /\
  On (SAtt 0) l (SOpen :: repeat SRead a ++ [SClose]) /\ On (SAtt 1) l [] /\
  On (SChild 0) l (SOpen :: repeat SRead k ++ [SClose]) /\ On SRoot l (SOpen :: repeat SRead n ++ [SClose]).
Proof.
  destruct C75_nonvacuous as (root & c & ra & rk & rd & ca & ck & cd & m & F & _ & _ & _ & _ & _ & D & _).
  assert (P : exists m1 c' root', process_opc_again (fun _ n => n) [] pkg_all model_zero = Some (m1, [c'], root') /\ pf_data c' <> None /\ pf_data root' <> None
      /\ opc_copies (fun _ n => n) pkg_all [] model_zero = [mkPF "/t.png" "image/png" (Some "PNG") []]).
  { eexists _, _, _. split; [vm_compute; reflexivity|]. split; [discriminate|]. split; [discriminate|]. vm_compute. reflexivity. }
  destruct P as (m1 & c' & root' & P & Dc & Dr & K).
  assert (Q : exists m2, childs_return all_specs true 1000 false (map (job_of (fun _ _ => "")) [c']) m1 m2 None).
  { inversion D as [E|m1' cs' r' m2 e E C|m1' cs' r' m2 r E C R]; change (process_opc (fun _ n => n) pkg_all model_zero) with (process_opc_again (fun _ n => n) [] pkg_all model_zero) in E;
      rewrite P in E; injection E as <- <- <-. exists m2. exact C. }
  destruct Q as [m2 Q]. apply childs_log_some in Q. destruct Q as [t T].
  destruct (pf_data root') as [rdata|] eqn:ER; [|congruence].
  assert (R : root_log (job_of (fun _ _ => "") root') ((SRoot, SOpen) :: repeat (SRoot, SRead) 2 ++ [(SRoot, SClose)])) by (apply (RootOpened _ (rdata, XEOF)); unfold job_of; cbn; rewrite ER; reflexivity).
  assert (C : copy_files 0 (opc_copies (fun _ n => n) pkg_all [] model_zero) (map (pair (SAtt 0)) (SOpen :: repeat SRead 1 ++ [SClose]) ++ [])).
  { rewrite K. constructor; [apply CopyOpened|constructor]. }
  pose proof (LogRoot _ _ _ _ _ _ _ _ _ _ _ _ _ _ _ _ P C T R) as L.
  destruct (childs_settled _ _ _ _ _ _ _ _ _ T) as [A [B G]].
  pose proof (childs_opened _ _ _ _ _ _ _ _ _ T 0 _ eq_refl) as O.
  destruct (A 0) as [A0|[k A0]]; [apply O in A0; unfold job_of in A0; cbn in A0; destruct (pf_data c'); [discriminate|congruence]|].
  eexists _, 2, k, 1. split; [exact L|]. rewrite !On_on, !on_app, !B, G, A0. cbn. rewrite !app_nil_r. repeat split; reflexivity.
Qed.
