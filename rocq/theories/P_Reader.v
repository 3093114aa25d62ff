(** * The byte reader delivers the bytes of the source *)
From Verif Require Import GoBase GoNum GoUtf8 GoFloat Types XmlTypes M_Reader S_Reader P_Xml.

(** the bytes a source still delivers *)
Definition src_bytes (s : Source) : string := sjoin "" (rs_reads s) +++ (match rs_last s with Some x => x | None => "" end).
(** [Rep b rest]: the bytes of [b] still to be read are [rest]; a pending error is the final one *)
Definition Rep (b : Reader) (rest : string) : Prop :=
  rest = (match r_next b with Some c => String c "" | None => "" end) +++ r_buf b +++ src_bytes (r_src b) /\
  Patient (rs_reads (r_src b)) /\
  (forall e, r_err b = Some e -> e = rs_fin (r_src b) /\ rs_reads (r_src b) = [] /\ rs_last (r_src b) = None).
Lemma patient_tl x l : Patient (x :: l) -> Patient l.
Proof. intros H a b E. apply (H (x :: a) b). rewrite E. reflexivity. Qed.
Lemma sjoin_cons x l : sjoin "" (x :: l) = x +++ sjoin "" l.
Proof. destruct l; cbn [sjoin]; [rewrite sapp_nil_r|]; reflexivity. Qed.
Lemma fill_spec k l last fin next : (forall a b, l <> a ++ repeat "" 100 ++ b) -> 
  (forall b, l <> repeat "" k ++ b) ->
  let b := mkReader "" None next (mkSource l last fin) in
  let b' := fill_loop k b in
  r_next b' = next /\ r_buf b' +++ src_bytes (r_src b') = src_bytes (mkSource l last fin) /\
  rs_fin (r_src b') = fin /\ Patient (rs_reads (r_src b')) /\
  ((r_buf b' <> "" /\ r_err b' = None) \/ (r_err b' = Some fin /\ rs_reads (r_src b') = [] /\ rs_last (r_src b') = None)).
Proof.
  revert l; induction k as [|k IH]; intros l HP HK; [destruct (HK l eq_refl)|]. cbn [fill_loop r_buf r_err r_next r_src]. unfold source_read. cbn [rs_reads rs_last rs_fin].
  destruct l as [|x l].
  - destruct last as [x|]; unfold src_bytes; cbn [r_next r_buf r_src r_err rs_fin rs_reads rs_last sjoin String.append]; (sp; [reflexivity|apply sapp_nil_r || reflexivity|reflexivity|exact HP|auto]).
  - assert (HP' : forall a b, l <> a ++ repeat "" 100 ++ b) by exact (patient_tl _ _ HP).
    destruct x as [|c x].
    + cbn [String.append]. destruct (IH l HP') as (I1 & I2 & I3 & I4 & I5).
      { intros b E. apply (HK b). rewrite E. reflexivity. }
      cbn zeta in *. sp; try assumption. rewrite I2. unfold src_bytes. cbn [rs_reads rs_last]. rewrite sjoin_cons. reflexivity.
    + cbn [r_next r_buf r_src r_err rs_fin rs_reads rs_last String.append]. sp; try reflexivity; [|exact HP'|left; split; [discriminate|reflexivity]].
      unfold src_bytes. cbn [rs_reads rs_last]. rewrite sjoin_cons, sapp_assoc. reflexivity.
Qed.
Lemma getc_rep fuel b rest : 2 < fuel -> Rep b rest ->
  exists x b', getc fuel b = Some (x, b') /\ r_next b' = None /\ rs_fin (r_src b') = rs_fin (r_src b) /\
    match x, rest with
    | inl c, String c' r => c = c' /\ Rep b' r
    | inr e, EmptyString => e = rs_fin (r_src b) /\ Rep b' ""
    | _, _ => False
    end.
Proof.
  intros HF (E & HP & HE). unfold getc, read_byte. destruct b as [buf err next src]. cbn [r_buf r_err r_next r_src] in *.
  destruct next as [c|].
  { exists (inl c). eexists. sp; [reflexivity|reflexivity|reflexivity|]. subst rest. cbn [String.append]. split; [reflexivity|].
    unfold Rep. cbn [r_buf r_err r_next r_src]. sp; [reflexivity|exact HP|exact HE]. }
  cbn [String.append] in E. destruct fuel as [|[|[|f]]]; try lia. cbn [read_loop r_buf r_err r_next r_src].
  destruct buf as [|c buf].
  2:{ exists (inl c). eexists. sp; [reflexivity|reflexivity|reflexivity|]. subst rest. cbn [String.append]. split; [reflexivity|].
      unfold Rep. cbn [r_buf r_err r_next r_src]. sp; [reflexivity|exact HP|exact HE]. }
  destruct err as [e|].
  { destruct (HE e eq_refl) as (-> & H1 & H2). destruct src as [l last fin]. cbn [rs_reads rs_last rs_fin] in *. subst. cbn.
    exists (inr fin). eexists. split; [reflexivity|]. split; [reflexivity|]. split; [reflexivity|]. split; [reflexivity|]. unfold Rep. cbn. sp; [reflexivity|exact HP|discriminate]. }
  destruct src as [l last fin]. unfold fill. cbn [rs_reads rs_last rs_fin] in *.
  destruct (fill_spec max_empty_reads l last fin None HP) as (F1 & F2 & F3 & F4 & F5).
  { intros b. exact (HP [] b). }
  cbn zeta in *. set (b' := fill_loop max_empty_reads _) in *. clearbody b'. destruct b' as [buf' err' next' [l' last' fin']].
  cbn [r_buf r_err r_next r_src rs_reads rs_last rs_fin] in *. subst next' fin'. cbn [String.append] in E. rewrite <- F2 in E.
  destruct buf' as [|c buf'].
  - destruct F5 as [[F5 _]|(-> & -> & ->)]; [congruence|]. cbn in E. subst rest. cbn. exists (inr fin). eexists. split; [reflexivity|]. split; [reflexivity|]. split; [reflexivity|].
    split; [reflexivity|]. unfold Rep. cbn. sp; [reflexivity|exact F4|discriminate].
  - subst rest. exists (inl c). eexists. sp; [reflexivity|reflexivity|reflexivity|]. cbn [String.append]. split; [reflexivity|].
    unfold Rep. cbn [r_buf r_err r_next r_src rs_reads rs_last rs_fin]. sp; [reflexivity|exact F4|].
    intros e He. destruct F5 as [[_ F5]|(-> & -> & ->)]; [congruence|]. split; [congruence|auto].
Qed.
Lemma ungetc_rep c b rest : r_next b = None -> Rep b rest -> Rep (ungetc c b) (String c rest).
Proof.
  intros HN (E & HP & HE). rewrite HN in E. unfold Rep, ungetc. cbn [r_buf r_err r_next r_src]. sp; [|exact HP|exact HE].
  rewrite E. reflexivity.
Qed.
Lemma serve_rep {A} fuel (c : client A) b rest : 2 < fuel -> Rep b rest -> serve fuel c b = Some (on_bytes (rs_fin (r_src b)) c rest).
Proof.
  intros HF. revert b rest. 
  assert (K : forall c : client A, forall b rest, Rep b rest -> serve fuel c b = Some (on_bytes (rs_fin (r_src b)) c rest)); [|exact (K c)].
  refine (fix F (c : client A) := match c with Ret a => fun b rest _ => eq_refl | Get k => fun b rest H => _ end).
  destruct (getc_rep fuel b rest HF H) as (x & b' & E & HN & HS & HX). cbn [serve on_bytes]. rewrite E.
  destruct x as [y|e].
  - destruct rest as [|z r]; [destruct HX|]. destruct HX as [<- HR]. rewrite <- HS. destruct (k (inl y)) as [back c'] eqn:Ek.
    pose proof (F (snd (k (inl y)))) as FC. rewrite Ek in FC. cbn [fst snd] in *. destruct back.
    + apply (FC (ungetc y b') (String y r)). apply ungetc_rep; assumption.
    + apply (FC b' r). assumption.
  - destruct rest as [|z r]; [|destruct HX]. destruct HX as [-> HR]. rewrite <- HS in *. destruct (k (inr (rs_fin (r_src b')))) as [back c'] eqn:Ek.
    pose proof (F (snd (k (inr (rs_fin (r_src b')))))) as FC. rewrite Ek in FC. cbn [fst snd] in *. apply (FC b' ""). assumption.
Qed.
