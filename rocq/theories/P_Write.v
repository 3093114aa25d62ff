(** * Proofs about saving to a writer that may fail *)
From Coq Require Import Lia.
From Verif Require Import GoBase GoNum GoUtf8 GoFloat Types PkgTypes WriteTypes XmlTypes M_Core M_Xml M_Printer M_Decode M_Encode M_Package M_Write S_Write.

Definition is_write (x : ev) : Prop := match x with EvWrite _ _ _ => True | _ => False end.
Definition accepted (l : list ev) : string := fold_right (fun x t => (match x with EvWrite s n _ => stake n s | _ => "" end) +++ t) "" l.
Lemma accepted_app a b : accepted (a ++ b) = accepted a +++ accepted b.
Proof. induction a as [|x a IH]; cbn [app accepted fold_right]; [reflexivity|]. fold (accepted (a ++ b)). fold (accepted a). rewrite IH, sapp_assoc. reflexivity. Qed.
Lemma got_app h l : parts_got (h ++ l) = fold_left got l (parts_got h).
Proof. unfold parts_got. apply fold_left_app. Qed.
Lemma got_writes l : Forall is_write l -> forall ps n c d, fold_left got l (ps ++ [(n, c, d)]) = ps ++ [(n, c, d +++ accepted l)].
Proof.
  induction 1 as [|x l Hx _ IH]; intros ps n c d; cbn [fold_left].
  - cbn. rewrite sapp_nil_r. reflexivity.
  - destruct x as [| s k e |]; try contradiction. cbn [got]. rewrite upd_last_app. cbn [fst snd]. rewrite IH. cbn [accepted fold_right]. rewrite sapp_assoc. reflexivity.
Qed.

Section Write.
Context (W : Oracle) (size : nat) (Pos : 1 <= size).
Lemma do_write_spec h s h' n e : do_write W h s = (h', n, e) -> h' = h ++ [EvWrite s n e] /\ (e = None -> n = String.length s).
Proof. unfold do_write. destruct (o_write W h s) as [[k x]|]; intros E; injection E as <- <- <-; split; congruence. Qed.
(** [T] was handed to the buffer since [h0] *)
Definition Inv (h0 : list ev) (T : string) (b : BW) : Prop := exists evs, bw_h b = h0 ++ evs /\ Forall is_write evs /\
  match bw_err b with
  | None => Fine evs /\ accepted evs +++ bw_buf b = T
  | Some e => exists evs' s n, evs = evs' ++ [EvWrite s n (Some e)] /\ Fine evs' /\ exists rest, accepted evs +++ rest = T
  end.
Lemma inv_err h0 T b e t : bw_err b = Some e -> Inv h0 T b -> Inv h0 (T +++ t) b.
Proof.
  intros E (evs & H1 & H2 & H3). exists evs. split; [exact H1|]. split; [exact H2|]. rewrite E in *. destruct H3 as (evs' & s & n & H3 & H4 & rest & H5).
  exists evs', s, n. split; [exact H3|]. split; [exact H4|]. exists (rest +++ t). rewrite <- sapp_assoc, H5. reflexivity.
Qed.
Lemma inv_put h0 T b s : bw_err b = None -> Inv h0 T b -> Inv h0 (T +++ s) (put b s).
Proof.
  intros E (evs & H1 & H2 & H3). exists evs. split; [exact H1|]. split; [exact H2|]. unfold put. cbn [bw_err bw_buf]. rewrite E in *. destruct H3 as [H3 H4].
  split; [exact H3|]. rewrite <- sapp_assoc, H4. reflexivity.
Qed.
Lemma fine_app a b : Fine a -> Fine b -> Fine (a ++ b).
Proof. unfold Fine. rewrite Forall_app. auto. Qed.
Lemma inv_flush h0 T b : Inv h0 T b -> Inv h0 T (bw_flush W b).
Proof.
  intros I. unfold bw_flush. destruct (bw_err b) as [e|] eqn:E; [exact I|]. destruct (seq_spec (bw_buf b) ""); [exact I|].
  destruct (do_write W (bw_h b) (bw_buf b)) as [[h k] e] eqn:D. apply do_write_spec in D as [-> K]. destruct I as (evs & H1 & H2 & H3). rewrite E in H3. destruct H3 as [H3 H4].
  destruct e as [e|].
  - exists (evs ++ [EvWrite (bw_buf b) k (Some e)]). cbn [bw_h bw_err]. rewrite H1, app_assoc. split; [reflexivity|]. split; [apply Forall_app; split; [exact H2|repeat constructor]|].
    exists evs, (bw_buf b), k. split; [reflexivity|]. split; [exact H3|]. exists (sdrop k (bw_buf b)).
    rewrite accepted_app. cbn [accepted fold_right]. rewrite sapp_nil_r, sapp_assoc, stake_drop. exact H4.
  - rewrite (K eq_refl). exists (evs ++ [EvWrite (bw_buf b) (String.length (bw_buf b)) None]). cbn [bw_h bw_err bw_buf]. rewrite H1, app_assoc. split; [reflexivity|].
    split; [apply Forall_app; split; [exact H2|repeat constructor]|]. split; [apply fine_app; [exact H3|repeat constructor]|].
    rewrite accepted_app. cbn [accepted fold_right]. rewrite stake_all, !sapp_nil_r. exact H4.
Qed.
Lemma flush_empty b : bw_err (bw_flush W b) = None -> bw_buf (bw_flush W b) = "".
Proof.
  unfold bw_flush. destruct (bw_err b) eqn:E; [congruence|]. destruct (seq_spec (bw_buf b) "") as [X|X]; [auto|].
  destruct (do_write W (bw_h b) (bw_buf b)) as [[h k] [e|]]; cbn; congruence.
Qed.
Lemma inv_direct h0 T b s : bw_err b = None -> bw_buf b = "" -> Inv h0 T b -> Inv h0 (T +++ s) (bw_direct W b s).
Proof.
  intros E B (evs & H1 & H2 & H3). rewrite E in H3. destruct H3 as [H3 H4]. rewrite B, sapp_nil_r in H4. subst T.
  unfold bw_direct. destruct (do_write W (bw_h b) s) as [[h k] e] eqn:D. apply do_write_spec in D as [-> K].
  exists (evs ++ [EvWrite s k e]). cbn [bw_h bw_err bw_buf]. rewrite H1, app_assoc. split; [reflexivity|].
  split; [apply Forall_app; split; [exact H2|repeat constructor]|]. destruct e as [e|].
  - exists evs, s, k. split; [reflexivity|]. split; [exact H3|]. exists (sdrop k s). rewrite accepted_app. cbn [accepted fold_right]. rewrite sapp_nil_r, sapp_assoc, stake_drop. reflexivity.
  - split; [apply fine_app; [exact H3|repeat constructor]|]. rewrite accepted_app. cbn [accepted fold_right]. rewrite (K eq_refl), stake_all, B, !sapp_nil_r. reflexivity.
Qed.
Lemma inv_write h0 T b s : Inv h0 T b -> Inv h0 (T +++ s) (bw_write W size b s).
Proof.
  intros I. unfold bw_write. destruct (bw_err b) as [e|] eqn:E; [eapply inv_err; eassumption|]. destruct (Nat.leb _ _); [apply inv_put; assumption|].
  destruct (seq_spec (bw_buf b) "") as [B|B]; [apply inv_direct; assumption|].
  pose proof (inv_flush _ _ _ (inv_put _ _ _ (stake (avail size b) s) E I)) as I'. cbv zeta.
  set (b' := bw_flush W (put b (stake (avail size b) s))) in *. rewrite <- (stake_drop (avail size b) s) at 1. rewrite <- sapp_assoc.
  destruct (bw_err b') as [e|] eqn:E'; [eapply inv_err; eassumption|]. destruct (Nat.leb _ _); [apply inv_put; assumption|].
  apply inv_direct; [exact E'| |exact I']. apply flush_empty. exact E'.
Qed.
Lemma inv_byte h0 T b c : Inv h0 T b -> Inv h0 (T +++ String c "") (bw_byte W size b c).
Proof.
  intros I. unfold bw_byte. destruct (bw_err b) as [e|] eqn:E; [eapply inv_err; eassumption|]. cbv zeta.
  assert (I' : Inv h0 T (if Nat.eqb (avail size b) 0 then bw_flush W b else b)) by (destruct (Nat.eqb _ _); [apply inv_flush|]; exact I).
  destruct (bw_err (if Nat.eqb (avail size b) 0 then bw_flush W b else b)) as [e|] eqn:E'; [eapply inv_err; eassumption|apply inv_put; assumption].
Qed.
Lemma inv_string fuel : forall h0 T b s, (String.length s + (if Nat.eqb (avail size b) 0 then 1 else 0) <= fuel) ->
  Inv h0 T b -> Inv h0 (T +++ s) (bw_string W size fuel b s).
Proof.
  induction fuel as [|fuel IH]; intros h0 T b s F I; cbn [bw_string]; (destruct (bw_err b) as [e|] eqn:E; [eapply inv_err; eassumption|]).
  - destruct (Nat.leb_spec (String.length s) (avail size b)); [apply inv_put; assumption|lia].
  - destruct (Nat.leb_spec (String.length s) (avail size b)) as [|L]; [apply inv_put; assumption|].
    rewrite <- (stake_drop (avail size b) s) at 1. rewrite <- sapp_assoc.
    pose proof (inv_flush _ _ _ (inv_put _ _ _ (stake (avail size b) s) E I)) as I'. set (b' := bw_flush W (put b (stake (avail size b) s))) in *.
    destruct (bw_err b') as [e|] eqn:E'.
    + assert (X : bw_string W size fuel b' (sdrop (avail size b) s) = b') by (destruct fuel; cbn [bw_string]; rewrite E'; reflexivity).
      rewrite X. eapply inv_err; eassumption.
    + apply IH; [|exact I']. assert (B : bw_buf b' = "") by (apply flush_empty; exact E'). unfold avail at 2. rewrite B. cbn [String.length].
      destruct (Nat.eqb_spec (size - 0) 0) as [Z|Z]; [lia|]. rewrite sdrop_length. destruct (Nat.eqb_spec (avail size b) 0); lia.
Qed.
Lemma inv_call h0 T b c : Inv h0 T b -> Inv h0 (T +++ call_text c) (bw_call W size b c).
Proof.
  intros I. destruct c as [c|s|s|]; cbn [bw_call call_text].
  - apply inv_byte. exact I.
  - apply inv_string; [destruct (Nat.eqb _ _); lia|exact I].
  - apply inv_write. exact I.
  - rewrite sapp_nil_r. apply inv_flush. exact I.
Qed.
Lemma inv_calls l : forall h0 T b, Inv h0 T b -> Inv h0 (T +++ calls_text l) (bw_calls W size b l).
Proof.
  unfold bw_calls, calls_text. induction l as [|c l IH]; intros h0 T b I; cbn [fold_left fold_right]; [rewrite sapp_nil_r; exact I|].
  rewrite <- sapp_assoc. apply IH. apply inv_call. exact I.
Qed.

Context (normalize : string -> string) (resolve : string -> string -> string) (calls : list op -> list call) (Calls : forall l, calls_text (calls l) = print l).
(** Everything written, or an error after a beginning *)
Definition Done (h : list ev) (ps : list (string * string * string)) : Prop := Fine h /\ parts_got h = ps.
Definition Failed (h : list ev) (e : werr) (ps : list (string * string * string)) : Prop :=
  (exists h0 x, h = h0 ++ [x] /\ Fine h0 /\ failing x = Some e) /\ forall q, Begins (parts_got h) (ps ++ q).
Lemma begins_self ps q : Begins ps (ps ++ q).
Proof. induction ps as [|p ps IH]; cbn [app]; [apply BNone|apply BMore; exact IH]. Qed.
Lemma begins_last ps n c d d' q : Begins (ps ++ [(n, c, d)]) ((ps ++ [(n, c, d +++ d')]) ++ q).
Proof. induction ps as [|p ps IH]; cbn [app]; [apply BPart|apply BMore; exact IH]. Qed.
Lemma do_create_spec h ps n c h' e : Done h ps -> do_create W normalize h n c = (h', e) ->
  match e with None => Done h' (ps ++ [(normalize n, c, "")]) | Some e => Failed h' e ps end.
Proof.
  intros [F G]. unfold do_create. cbv zeta. destruct (o_create W h (normalize n) c) as [x|]; intros E; injection E as <- <-.
  - split; [exists h, (EvCreate (normalize n) c (Some x)); auto|]. intros q. rewrite got_app, G. cbn. apply begins_self.
  - split; [apply fine_app; [exact F|repeat constructor]|]. rewrite got_app, G. reflexivity.
Qed.
Lemma do_write_part h ps n c d s h' k e : Done h (ps ++ [(n, c, d)]) -> do_write W h s = (h', k, e) ->
  match e with None => Done h' (ps ++ [(n, c, d +++ s)]) | Some e => Failed h' e (ps ++ [(n, c, d +++ s)]) end.
Proof.
  intros [F G] E. apply do_write_spec in E as [-> K]. destruct e as [e|].
  - split; [eexists _, _; split; [reflexivity|]; split; [exact F|reflexivity]|]. intros q. rewrite got_app, G. cbn [fold_left got]. rewrite upd_last_app. cbn [fst snd].
    rewrite <- (stake_drop k s) at 2. rewrite <- sapp_assoc. apply begins_last.
  - split; [apply fine_app; [exact F|repeat constructor]|]. rewrite got_app, G. cbn [fold_left got]. rewrite upd_last_app, (K eq_refl), stake_all. reflexivity.
Qed.
Lemma begins_weaken a b : Begins a b -> forall q, Begins a (b ++ q).
Proof. induction 1; intros r; cbn [app]; constructor; auto. Qed.
Lemma begins_extend g ps n c d t q : Begins g (ps ++ [(n, c, d)]) -> Begins g ((ps ++ [(n, c, d +++ t)]) ++ q).
Proof.
  revert g. induction ps as [|p ps IH]; intros g R; cbn [app] in *.
  - inversion R as [|? ? a b ? E1 E2|p' ps' ? R' E1 E2]; subst; [apply BNone| |].
    + rewrite sapp_assoc. apply BPart.
    + inversion R'; subst. apply BPart.
  - inversion R; subst; [apply BNone|apply BPart|apply BMore; apply IH; assumption].
Qed.
(** The error of a stream *)
Definition ReadFailed (h : list ev) (e : werr) (ps : list (string * string * string)) : Prop := Fine h /\ forall q, Begins (parts_got h) (ps ++ q).
Lemma io_copy_spec l fin : forall h ps n c d h' e, Done h (ps ++ [(n, c, d)]) -> io_copy W h l fin = (h', e) ->
  match e with
  | None => fin = None /\ Done h' (ps ++ [(n, c, d +++ joined l)])
  | Some e => Failed h' e (ps ++ [(n, c, d +++ joined l)]) \/ fin = Some e /\ Done h' (ps ++ [(n, c, d +++ joined l)])
  end.
Proof.
  induction l as [|s l IH]; intros h ps n c d h' e D; cbn [io_copy joined fold_right].
  - intros E. injection E as <- <-. rewrite sapp_nil_r. destruct fin; auto.
  - fold (joined l). destruct (seq_spec s "") as [->|X]; [apply IH; exact D|].
    destruct (do_write W h s) as [[h1 k] e1] eqn:Dw. pose proof (do_write_part _ _ _ _ _ _ _ _ _ D Dw) as R. destruct e1 as [e1|].
    + intros E. injection E as <- <-. left. destruct R as [R1 R2]. split; [exact R1|]. intros q. specialize (R2 []). rewrite app_nil_r in R2.
      rewrite <- sapp_assoc. apply begins_extend. exact R2.
    + rewrite <- sapp_assoc. apply IH. exact R.
Qed.
(** The rest of Encode: a beginning of [ps] stays one of more *)
Lemma failed_more h e ps q : Failed h e ps -> Failed h e (ps ++ q).
Proof. intros [H1 H2]. split; [exact H1|]. intros r. rewrite <- app_assoc. apply H2. Qed.
Definition att_want (x : Attachment * Stream) : string * string * string := (normalize (at_path (fst x)), at_ctype (fst x), joined (fst (snd x))).
Definition Stopped (h : list ev) (e : werr) (l : list (Attachment * Stream)) (ps : list (string * string * string)) : Prop :=
  exists a d, In (a, (d, Some e)) l /\ Fine h /\ forall q, Begins (parts_got h) (ps ++ q).
Lemma copy_attachments_spec l : forall h ps h' e, Done h ps -> copy_attachments W normalize h l = (h', e) ->
  match e with
  | None => (forall a s, In (a, s) l -> snd s = None) /\ Done h' (ps ++ map att_want l)
  | Some e => Failed h' e (ps ++ map att_want l) \/ Stopped h' e l (ps ++ map att_want l)
  end.
Proof.
  induction l as [|[a [d fin]] l IH]; intros h ps h' e D; cbn [copy_attachments map].
  - intros E. injection E as <- <-. rewrite app_nil_r. split; [intros a s []|exact D].
  - destruct (do_create W normalize h (at_path a) (at_ctype a)) as [h1 e1] eqn:C. pose proof (do_create_spec _ _ _ _ _ _ D C) as R1. destruct e1 as [e1|].
    + intros E. injection E as <- <-. left. apply failed_more. exact R1.
    + destruct (io_copy W h1 d fin) as [h2 e2] eqn:Y. pose proof (io_copy_spec _ _ _ _ _ _ _ _ _ R1 Y) as R2. cbn [String.append] in R2.
      assert (A : forall q, ps ++ att_want (a, (d, fin)) :: q = (ps ++ [(normalize (at_path a), at_ctype a, joined d)]) ++ q) by (intros q; rewrite <- app_assoc; reflexivity).
      rewrite A. destruct e2 as [e2|].
      * intros E. injection E as <- <-. destruct R2 as [R2|[-> [F G]]]; [left; apply failed_more; exact R2|]. right. exists a, d. split; [left; reflexivity|]. split; [exact F|].
        intros q. rewrite G, <- app_assoc. apply begins_self.
      * destruct R2 as [-> R2]. intros E. specialize (IH _ _ _ _ R2 E). destruct e as [e|].
        -- destruct IH as [IH|(a' & d' & I & X)]; [left; exact IH|]. right. exists a', d'. split; [right; exact I|exact X].
        -- destruct IH as [I1 I2]. split; [|exact I2]. intros b s [X|X]; [injection X as <- <-; reflexivity|eapply I1; exact X].
Qed.
Lemma model_part_spec h ps name ops h' e : Done h ps -> model_part W size normalize calls h name ops = (h', e) ->
  let want := ps ++ [(normalize name, ctype_model, M_Package.xml_header +++ print ops)] in
  match e with None => Done h' want | Some e => Failed h' e want end.
Proof.
  intros D. unfold model_part. destruct (do_create W normalize h name ctype_model) as [h1 e1] eqn:C. pose proof (do_create_spec _ _ _ _ _ _ D C) as R1. destruct e1 as [e1|].
  - intros E. injection E as <- <-. apply failed_more. exact R1.
  - destruct (do_write W h1 M_Package.xml_header) as [[h2 k] e2] eqn:Y. pose proof (do_write_part _ _ _ _ _ _ _ _ _ R1 Y) as R2. cbn [String.append] in R2. destruct e2 as [e2|].
    + intros E. injection E as <- <-. destruct R2 as [R2 R3]. split; [exact R2|]. intros q. apply begins_extend. specialize (R3 []). rewrite app_nil_r in R3. exact R3.
    + cbv zeta. set (b := bw_flush W (bw_calls W size (mkBW h2 "" None) (calls ops))).
      assert (I : Inv h2 (print ops) b).
      { apply inv_flush. rewrite <- Calls. change (calls_text (calls ops)) with ("" +++ calls_text (calls ops)). apply inv_calls. exists []. cbn. rewrite app_nil_r. repeat split; constructor. }
      intros E. injection E as <- <-. destruct I as (evs & H1 & H2 & H3). destruct R2 as [F G]. rewrite H1.
      destruct (bw_err b) as [x|] eqn:B.
      * destruct H3 as (evs' & s & n & -> & H4 & rest & H5). split.
        -- exists (h2 ++ evs'), (EvWrite s n (Some x)). rewrite app_assoc. split; [reflexivity|]. split; [apply fine_app; assumption|reflexivity].
        -- intros q. rewrite got_app, G, got_writes by exact H2. rewrite <- H5, <- sapp_assoc. apply begins_last.
      * destruct H3 as [H3 H4]. split; [apply fine_app; assumption|]. rewrite got_app, G, got_writes by exact H2.
        assert (Z : bw_buf b = "") by (apply flush_empty; exact B). rewrite Z, sapp_nil_r in H4. rewrite H4. reflexivity.
Qed.
Definition child_want (prec : nat) (m : Model) (kc : string * Child) : string * string * string :=
  (normalize (resolve (path_or_default m) (fst kc)), ctype_model, M_Package.xml_header +++ print (write_child prec m (snd kc))).
Lemma child_parts_spec prec m l : forall h ps h' e, Done h ps -> child_parts W size normalize resolve calls prec m h l = (h', e) ->
  match e with None => Done h' (ps ++ map (child_want prec m) l) | Some e => Failed h' e (ps ++ map (child_want prec m) l) end.
Proof.
  induction l as [|[k c] l IH]; intros h ps h' e D; cbn [child_parts map].
  - intros E. injection E as <- <-. rewrite app_nil_r. exact D.
  - destruct (model_part W size normalize calls h (resolve (path_or_default m) k) (write_child prec m c)) as [h1 e1] eqn:C.
    pose proof (model_part_spec _ _ _ _ _ _ D C) as R1. cbv zeta in R1.
    assert (A : forall q, ps ++ child_want prec m (k, c) :: q = (ps ++ [child_want prec m (k, c)]) ++ q) by (intros q; rewrite <- app_assoc; reflexivity).
    rewrite A. destruct e1 as [e1|].
    + intros E. injection E as <- <-. apply failed_more. exact R1.
    + intros E. exact (IH _ _ _ _ R1 E).
Qed.
Lemma encode_io_spec prec order2 streams m h e : encode_io W size normalize resolve calls prec order2 streams m = (h, e) ->
  let want := map att_want (combine (mo_atts m) streams) ++ (normalize (path_or_default m), ctype_model, M_Package.xml_header +++ print (write_model prec m)) :: map (child_want prec m) order2 in
  match e with
  | None => Done h want /\ (forall a s, In (a, s) (combine (mo_atts m) streams) -> snd s = None) /\ exists h0, h = h0 ++ [EvClose None]
  | Some e => Failed h e want \/ Stopped h e (combine (mo_atts m) streams) want
  end.
Proof.
  unfold encode_io. set (l := combine (mo_atts m) streams). cbv zeta.
  assert (D0 : Done [] []) by (split; [constructor|reflexivity]).
  destruct (copy_attachments W normalize [] l) as [h1 e1] eqn:C. pose proof (copy_attachments_spec l _ _ _ _ D0 C) as R1. cbn [app] in R1.
  assert (A : forall x q, map att_want l ++ x :: q = (map att_want l ++ [x]) ++ q) by (intros x q; rewrite <- app_assoc; reflexivity). rewrite A.
  destruct e1 as [e1|].
  - intros E. injection E as <- <-. destruct R1 as [R1|(a & d & I & F & B)]; [left; apply failed_more, failed_more; exact R1|]. right. exists a, d. split; [exact I|]. split; [exact F|].
    intros q. rewrite <- !app_assoc. apply B.
  - destruct R1 as [S1 D1]. destruct (model_part W size normalize calls h1 (path_or_default m) (write_model prec m)) as [h2 e2] eqn:P. pose proof (model_part_spec _ _ _ _ _ _ D1 P) as R2. cbv zeta in R2.
    destruct e2 as [e2|]; [intros E; injection E as <- <-; left; apply failed_more; exact R2|].
    destruct (child_parts W size normalize resolve calls prec m h2 order2) as [h3 e3] eqn:Q. pose proof (child_parts_spec _ _ _ _ _ _ _ R2 Q) as R3.
    destruct e3 as [e3|]; [intros E; injection E as <- <-; left; exact R3|].
    destruct R3 as [F G]. destruct (o_close W h3) as [x|]; intros E; injection E as <- <-.
    + left. split; [exists h3, (EvClose (Some x)); auto|]. intros q. rewrite got_app, G. cbn. apply begins_self.
    + split; [|split; [exact S1|exists h3; reflexivity]]. split; [apply fine_app; [exact F|repeat constructor]|]. rewrite got_app, G. reflexivity.
Qed.
End Write.

(** ** The calls of the printer *)
Lemma calls_text_app a b : calls_text (a ++ b) = calls_text a +++ calls_text b.
Proof. unfold calls_text. induction a as [|c a IH]; cbn [app fold_right]; [reflexivity|]. rewrite IH, sapp_assoc. reflexivity. Qed.
Section Calls.
Context (esc : string -> list string) (Esc : forall s, fold_right String.append "" (esc s) = escape_text s).
Lemma escaped_text s : calls_text (escaped esc s) = escape_text s.
Proof. rewrite <- Esc. unfold escaped, calls_text. generalize (esc s) as l. induction l as [|x l IH]; cbn [map fold_right call_text]; [reflexivity|]. rewrite IH. reflexivity. Qed.
Lemma tag_calls_text m n : calls_text (tag_calls m n) = tag_name m n.
Proof. unfold tag_calls, tag_name. destruct (_ && _)%bool; cbn; rewrite ?sapp_nil_r, ?sapp_assoc; reflexivity. Qed.
Lemma attr_calls_text skip l : forall m, calls_text (fst (attr_calls esc skip m l)) = fst (write_attrs skip m l) /\ snd (attr_calls esc skip m l) = snd (write_attrs skip m l).
Proof.
  induction l as [|a l IH]; intros m; cbn [attr_calls write_attrs]; [auto|]. destruct (seq (nlocal (aname a)) ""); [apply IH|].
  destruct (negb (seq (nspace (aname a)) "")).
  - destruct (create_attr_prefix m a) as [p m1]. destruct (IH m1) as [I1 I2]. destruct (attr_calls esc skip m1 l) as [s1 m2], (write_attrs skip m1 l) as [s2 m3]. cbn [fst snd] in *. subst. split; [|reflexivity].
    rewrite !calls_text_app. cbn [calls_text fold_right call_text]. destruct skip; [cbn [calls_text fold_right call_text]|rewrite escaped_text]; rewrite ?sapp_nil_r; cbn [String.append]; rewrite ?sapp_assoc; reflexivity.
  - destruct (IH m) as [I1 I2]. destruct (attr_calls esc skip m l) as [s1 m2], (write_attrs skip m l) as [s2 m3]. cbn [fst snd] in *. subst. split; [|reflexivity].
    rewrite !calls_text_app. cbn [calls_text fold_right call_text]. destruct skip; [cbn [calls_text fold_right call_text]|rewrite escaped_text]; rewrite ?sapp_nil_r; cbn [String.append]; rewrite ?sapp_assoc; reflexivity.
Qed.
Lemma op_calls_text p o : calls_text (fst (op_calls esc p o)) = fst (print_op p o) /\ snd (op_calls esc p o) = snd (print_op p o).
Proof.
  destruct o as [[n a|n|s]|b|b|r]; cbn [op_calls print_op]; try (split; reflexivity).
  - unfold write_start. destruct (attr_calls_text (pr_skip p) a (pr_prefix p)) as [A B].
    destruct (attr_calls esc (pr_skip p) (pr_prefix p) a) as [s m], (write_attrs (pr_skip p) (pr_prefix p) a) as [s' m']. cbn [fst snd] in *. subst. split; [|reflexivity].
    rewrite !calls_text_app, tag_calls_text. destruct (pr_auto p); reflexivity.
  - cbn [fst snd]. split; [|reflexivity]. rewrite !calls_text_app, tag_calls_text. reflexivity.
  - cbn [fst snd]. rewrite escaped_text. auto.
Qed.
Lemma ops_calls_text l : forall p, calls_text (ops_calls esc p l) = fst (print_ops p l).
Proof.
  induction l as [|o l IH]; intros p; cbn [ops_calls print_ops]; [reflexivity|]. destruct (op_calls_text p o) as [A B].
  destruct (op_calls esc p o) as [s p1], (print_op p o) as [s' p2]. cbn [fst snd] in *. subst. rewrite calls_text_app, IH. destruct (print_ops p2 l). reflexivity.
Qed.
Lemma printer_calls_text flushed l : calls_text (printer_calls esc flushed l) = print l.
Proof.
  unfold printer_calls, print. rewrite <- ops_calls_text. generalize (ops_calls esc printer_new l) as cs. unfold mapi. generalize 0 as i.
  intros i cs. revert i. induction cs as [|c cs IH]; intros i; cbn [mapi_from concat]; [reflexivity|].
  rewrite calls_text_app, IH. destruct (flushed i); cbn [calls_text fold_right call_text]; rewrite ?sapp_nil_r; reflexivity.
Qed.
End Calls.

(** ** The results are those of the writer *)
Section Answers.
Context (W : Oracle) (size : nat).
Lemma do_write_answered h s h' n e : Answered W h -> do_write W h s = (h', n, e) -> Answered W h'.
Proof. intros A. unfold do_write. destruct (o_write W h s) as [[k x]|] eqn:O; intros E; injection E as <- <- <-; [apply AWriteErr|apply AWrite]; assumption. Qed.
Lemma bw_flush_answered b : Answered W (bw_h b) -> Answered W (bw_h (bw_flush W b)).
Proof.
  intros A. unfold bw_flush. destruct (bw_err b); [exact A|]. destruct (seq (bw_buf b) ""); [exact A|].
  destruct (do_write W (bw_h b) (bw_buf b)) as [[h n] e] eqn:D. apply (do_write_answered _ _ _ _ _ A) in D. destruct e; exact D.
Qed.
Lemma bw_direct_answered b s : Answered W (bw_h b) -> Answered W (bw_h (bw_direct W b s)).
Proof. intros A. unfold bw_direct. destruct (do_write W (bw_h b) s) as [[h n] e] eqn:D. exact (do_write_answered _ _ _ _ _ A D). Qed.
Lemma bw_string_answered fuel : forall b s, Answered W (bw_h b) -> Answered W (bw_h (bw_string W size fuel b s)).
Proof.
  induction fuel as [|fuel IH]; intros b s A; cbn [bw_string]; destruct (bw_err b); try exact A; destruct (Nat.leb _ _); try exact A.
  apply IH, bw_flush_answered. exact A.
Qed.
Lemma bw_call_answered b c : Answered W (bw_h b) -> Answered W (bw_h (bw_call W size b c)).
Proof.
  intros A. destruct c as [c|s|s|]; cbn [bw_call].
  - unfold bw_byte. destruct (bw_err b); [exact A|]. assert (A' : Answered W (bw_h (if Nat.eqb (avail size b) 0 then bw_flush W b else b))) by (destruct (Nat.eqb _ _); [apply bw_flush_answered|]; exact A).
    cbv zeta. destruct (bw_err _); exact A'.
  - apply bw_string_answered. exact A.
  - unfold bw_write. destruct (bw_err b); [exact A|]. destruct (Nat.leb _ _); [exact A|]. destruct (seq _ _); [apply bw_direct_answered; exact A|].
    assert (A' : Answered W (bw_h (bw_flush W (put b (stake (avail size b) s))))) by (apply bw_flush_answered; exact A).
    cbv zeta. destruct (bw_err _); [exact A'|]. destruct (Nat.leb _ _); [exact A'|apply bw_direct_answered; exact A'].
  - apply bw_flush_answered. exact A.
Qed.
Lemma bw_calls_answered l : forall b, Answered W (bw_h b) -> Answered W (bw_h (bw_calls W size b l)).
Proof. induction l as [|c l IH]; intros b A; [exact A|]. apply IH, bw_call_answered. exact A. Qed.
Context (normalize : string -> string) (resolve : string -> string -> string) (calls : list op -> list call).
Lemma io_copy_answered l fin : forall h h' e, Answered W h -> io_copy W h l fin = (h', e) -> Answered W h'.
Proof.
  induction l as [|s l IH]; intros h h' e A; cbn [io_copy]; [intros E; injection E as <- <-; exact A|]. destruct (seq s ""); [apply IH; exact A|].
  destruct (do_write W h s) as [[h1 n] e1] eqn:D. apply (do_write_answered _ _ _ _ _ A) in D. destruct e1; [intros E; injection E as <- <-; exact D|apply IH; exact D].
Qed.
Lemma copy_attachments_answered l : forall h h' e, Answered W h -> copy_attachments W normalize h l = (h', e) -> Answered W h'.
Proof.
  induction l as [|[a [d fin]] l IH]; intros h h' e A; cbn [copy_attachments]; [intros E; injection E as <- <-; exact A|]. unfold do_create.
  assert (A1 := ACreate W h (normalize (at_path a)) (at_ctype a) A). destruct (o_create W h (normalize (at_path a)) (at_ctype a)); [intros E; injection E as <- <-; exact A1|].
  destruct (io_copy W _ d fin) as [h1 e1] eqn:D. apply (io_copy_answered _ _ _ _ _ A1) in D. destruct e1; [intros E; injection E as <- <-; exact D|apply IH; exact D].
Qed.
Lemma model_part_answered h name ops h' e : Answered W h -> model_part W size normalize calls h name ops = (h', e) -> Answered W h'.
Proof.
  intros A. unfold model_part, do_create. assert (A1 := ACreate W h (normalize name) ctype_model A). destruct (o_create W h (normalize name) ctype_model); [intros E; injection E as <- <-; exact A1|].
  destruct (do_write W _ _) as [[h1 n] e1] eqn:D. apply (do_write_answered _ _ _ _ _ A1) in D. destruct e1; intros E; injection E as <- <-; [exact D|].
  apply bw_flush_answered, bw_calls_answered. exact D.
Qed.
Lemma child_parts_answered prec m l : forall h h' e, Answered W h -> child_parts W size normalize resolve calls prec m h l = (h', e) -> Answered W h'.
Proof.
  induction l as [|[k c] l IH]; intros h h' e A; cbn [child_parts]; [intros E; injection E as <- <-; exact A|].
  destruct (model_part _ _ _ _ _ _ _) as [h1 e1] eqn:D. apply (model_part_answered _ _ _ _ _ A) in D. destruct e1; [intros E; injection E as <- <-; exact D|apply IH; exact D].
Qed.
Lemma encode_io_answered prec order2 streams m h e : encode_io W size normalize resolve calls prec order2 streams m = (h, e) -> Answered W h.
Proof.
  unfold encode_io. destruct (copy_attachments _ _ _ _) as [h1 e1] eqn:C. apply (copy_attachments_answered _ _ _ _ (ANone W)) in C. destruct e1; [intros E; injection E as <- <-; exact C|].
  destruct (model_part _ _ _ _ _ _ _) as [h2 e2] eqn:D. apply (model_part_answered _ _ _ _ _ C) in D. destruct e2; [intros E; injection E as <- <-; exact D|].
  destruct (child_parts _ _ _ _ _ _ _ _ _) as [h3 e3] eqn:F. apply (child_parts_answered _ _ _ _ _ _ D) in F. destruct e3; intros E; injection E as <- <-; [exact F|].
  apply AClose. exact F.
Qed.
End Answers.
Lemma answered_last W h x : Answered W (h ++ [x]) -> match failing x with None => True | Some e =>
  (exists n c, o_create W h n c = Some e) \/ (exists s n, o_write W h s = Some (n, e)) \/ o_close W h = Some e end.
Proof.
  intros A. inversion A as [E|h' n c A' E|h' s A' O E|h' s n e A' O E|h' A' E].
  - destruct h; discriminate.
  - apply app_inj_tail in E as [-> <-]. cbn. destruct (o_create W h n c) eqn:O; [|exact I]. left. exists n, c. exact O.
  - apply app_inj_tail in E as [-> <-]. exact I.
  - apply app_inj_tail in E as [-> <-]. right. left. exists s, n. exact O.
  - apply app_inj_tail in E as [-> <-]. cbn. destruct (o_close W h) eqn:O; [|exact I]. auto.
Qed.
