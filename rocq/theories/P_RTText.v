(** * Proofs: the texts of attributes, written and read *)
From Coq Require Import ZArith.
From Verif Require Import GoBase GoNum GoUtf8 GoFloat Types XmlTypes M_Core M_Errors M_Text M_Xml M_Decode M_Printer M_Encode
  S_Xml S_Printer S_Text S_Core S_Geom S_Strconv S_RoundTrip P_Xml P_Text P_Core P_Strconv P_RTBase GoStrconv.

(** ** Texts that are written as they are *)
Definition safe_char (c : ascii) : bool :=
  ((32 <=? bN c) && (bN c <? 127))%N && negb (existsb (ceq c) ["<"%char; "&"%char; """"%char; "'"%char]).
Definition safe (s : string) : bool := sall safe_char s.
Lemma printable_xml s : sall (fun c => (32 <=? bN c) && (bN c <? 127))%N s = true -> XmlText s.
Proof.
  induction s as [|c s IH]; intros H; [constructor|]. cbn [sall] in H. apply andb_true_iff in H as [H1 H2].
  apply andb_true_iff in H1 as [H1 H3].
  apply N.leb_le in H1. apply N.ltb_lt in H3. change (String c s) with (String c "" +++ s). apply (XtCons (bN c)); [unfold XmlChar; lia| |auto].
  replace (String c "") with (str1 (bN c)); [constructor; lia|]. unfold str1, byte, bN. rewrite ascii_N_embedding. reflexivity.
Qed.
Lemma safe_xml s : safe s = true -> XmlText s.
Proof.
  intros H. apply printable_xml. unfold safe in H. rewrite sall_forall in *. intros c Hc. specialize (H c Hc). unfold safe_char in H. apply andb_true_iff in H as [H _]. exact H.
Qed.
Lemma safe_plain s : safe s = true -> PlainText s.
Proof.
  intros H c Hc HI. unfold safe in H. rewrite sall_forall in H. specialize (H c Hc). unfold safe_char in H. apply andb_true_iff in H as [H1 H2].
  destruct HI as [<-|[<-|[<-|[<-|[<-|[]]]]]]; discriminate.
Qed.
Lemma safe_writable sk s : safe s = true -> Writable sk s.
Proof. destruct sk; [apply safe_plain|apply safe_xml]. Qed.
Lemma safe_app a b : safe (a +++ b) = safe a && safe b.
Proof. apply sall_app. Qed.
Lemma safe_digits s : sall is_digit s = true -> safe s = true.
Proof.
  unfold safe. rewrite !sall_forall. intros H c Hc. specialize (H c Hc). unfold is_digit in H. apply andb_true_iff in H as [H1 H2]. apply N.leb_le in H1, H2.
  unfold safe_char. apply andb_true_iff. split; [apply andb_true_iff; split; [apply N.leb_le|apply N.ltb_lt]; lia|].
  apply negb_true_iff. apply not_true_iff_false. intros HE. apply existsb_exists in HE as (x & Hx & E). apply ceq_true in E. subst x.
  destruct Hx as [<-|[<-|[<-|[<-|[]]]]]; vm_compute in H1, H2; congruence.
Qed.
Lemma safe_dec n : safe (fmt_dec n) = true.
Proof. apply safe_digits. apply fmt_dec_spec. Qed.
Lemma safe_fixed p n : safe (fixed_dec p n) = true.
Proof.
  destruct (fixed_dec_spec p n) as (i & f & -> & Hi & Di & Df & _). rewrite safe_app, (safe_digits _ Di). cbn [andb].
  destruct (Nat.eqb p 0); [reflexivity|]. rewrite safe_app, (safe_digits _ Df). reflexivity.
Qed.
Lemma safe_float p x : safe (format_f p x) = true.
Proof. destruct x as [s|s| |s m e]; try reflexivity; try (destruct s; reflexivity); cbn [format_f]; rewrite safe_app, safe_fixed; destruct s; reflexivity. Qed.
Lemma safe_hexdigit d : (d < 16)%N -> safe_char (hex_digit d) = true.
Proof.
  intros H. assert (E : exists k, (k < 16)%nat /\ d = N.of_nat k) by (exists (N.to_nat d); split; lia). destruct E as (k & Hk & ->).
  do 16 (destruct k as [|k]; [reflexivity|]). lia.
Qed.
Lemma safe_hex2 n : (n < 256)%N -> safe (hex2 n) = true.
Proof. intros H. destruct (div16 n H) as (H1 & H2 & _). unfold hex2, safe. cbn [sall]. rewrite !safe_hexdigit by assumption. reflexivity. Qed.
Lemma safe_rgba c : ColorFits c -> safe (format_rgba c) = true.
Proof. intros (H1 & H2 & H3 & H4). unfold format_rgba. destruct (_ =? _)%N; rewrite !safe_app, !safe_hex2 by assumption; reflexivity. Qed.
Lemma safe_join l : Forall (fun s => safe s = true) l -> safe (sjoin " " l) = true.
Proof.
  induction 1 as [|x l Hx Hl IH]; [reflexivity|]. destruct l as [|y l]; [exact Hx|]. change (sjoin " " (x :: y :: l)) with (x +++ " " +++ sjoin " " (y :: l)).
  rewrite !safe_app, Hx, IH. reflexivity.
Qed.
Lemma safe_matrix t : safe (matrix_string t) = true.
Proof. apply safe_join. apply Forall_map. apply Forall_forall. intros x _. apply safe_float. Qed.

(** ** Numbers *)
Lemma u32_max n : U32 n -> (n <= max_uint32)%N.
Proof. intros H. red in H. change max_uint32 with 4294967295%N. lia. Qed.
Lemma parse_u32_dec n : U32 n -> parse_u32 (fmt_dec n) = (n, true).
Proof. intros H. apply parse_fmt_dec, u32_max, H. Qed.
Lemma get_u32_dec nm n b : U32 n -> get_u32 (mkAttr nm (fmt_dec n)) b = (n, None).
Proof. intros H. unfold get_u32. cbn [avalue]. rewrite parse_u32_dec by exact H. reflexivity. Qed.
(** What is read of a number written with [p] decimals *)
Definition rf (p : nat) (x : f32) : f32 := fst (parse_float (format_f p x)).
Lemma rf_ok p x : Num x -> parse_float (format_f p x) = (rf p x, true) /\ Rounded p x (rf p x).
Proof. intros H. destruct (parse_rounded p x H) as (y & E & R). unfold rf. rewrite E. split; [reflexivity|exact R]. Qed.
Lemma get_f32_fmt nm p x b : Num x -> get_f32 (mkAttr nm (format_f p x)) b = (rf p x, None).
Proof. intros H. unfold get_f32. cbn [avalue]. rewrite (proj1 (rf_ok p x H)). reflexivity. Qed.
Lemma rf_rounded p x : Num x -> Rounded p x (rf p x).
Proof. intros H. apply rf_ok, H. Qed.
Lemma rgba_read c : ColorFits c -> parse_rgba (format_rgba c) = (c, true).
Proof. intros (H1 & H2 & H3 & H4). apply format_parse_rgba; assumption. Qed.
Lemma dec_word n : word (fmt_dec n).
Proof. destruct (fmt_dec_spec n) as (H1 & H2 & _). split; [exact H1|apply digit_nospace, H2]. Qed.
Lemma fields_join l : Forall word l -> fields (sjoin " " l) = l.
Proof. intros H. apply words_fields, words_join, H. Qed.
Lemma u32_fields_dec a l : Forall U32 l -> u32_fields a (map fmt_dec l) None = (l, None).
Proof. induction 1 as [|n l H Hl IH]; [reflexivity|]. cbn [map u32_fields]. rewrite parse_u32_dec by exact H. change (append None [None]) with (@None gerr). rewrite IH. reflexivity. Qed.
Lemma u32_list a l : Forall U32 l -> u32_fields a (fields (sjoin " " (map fmt_dec l))) None = (l, None).
Proof. intros H. rewrite fields_join; [apply u32_fields_dec, H|]. apply Forall_map, Forall_forall. intros x _. apply dec_word. Qed.
Lemma f32_fields_fmt a p l : Forall Num l -> f32_fields a (map (format_f p) l) None = (map (rf p) l, None).
Proof. induction 1 as [|n l H Hl IH]; [reflexivity|]. cbn [map f32_fields]. rewrite (proj1 (rf_ok p n H)). change (append None [None]) with (@None gerr). rewrite IH. reflexivity. Qed.
Lemma f32_list a p l : Forall Num l -> f32_fields a (fields (sjoin " " (map (format_f p) l))) None = (map (rf p) l, None).
Proof. intros H. rewrite fields_join; [apply f32_fields_fmt, H|]. apply Forall_map, Forall_forall. intros x _. apply format_word. Qed.
(** Transforms *)
Definition rt_tr (t : Matrix) : Matrix := if has_transform t then fst (parse_matrix (matrix_string t)) else matrix_zero.
Lemma matrix_read t : ValidMatrix t -> exists t', parse_matrix (matrix_string t) = (t', true) /\ RoundedMatrix t t'.
Proof.
  intros H. unfold ValidMatrix in H. unfold parse_matrix, matrix_string.
  rewrite fields_join by (apply Forall_map, Forall_forall; intros x _; apply format_word).
  cbn [map List.length Nat.eqb negb]. rewrite !Forall_cons_iff in H. destruct H as (H0 & H1 & H2 & H4 & H5 & H6 & H8 & H9 & H10 & H12 & H13 & H14 & _).
  cbn [parse_floats].
  rewrite (proj1 (rf_ok 3 _ H0)), (proj1 (rf_ok 3 _ H1)), (proj1 (rf_ok 3 _ H2)), (proj1 (rf_ok 3 _ H4)), (proj1 (rf_ok 3 _ H5)), (proj1 (rf_ok 3 _ H6)),
    (proj1 (rf_ok 3 _ H8)), (proj1 (rf_ok 3 _ H9)), (proj1 (rf_ok 3 _ H10)), (proj1 (rf_ok 3 _ H12)), (proj1 (rf_ok 3 _ H13)), (proj1 (rf_ok 3 _ H14)).
  eexists. split; [reflexivity|]. unfold RoundedMatrix. cbn [m0 m1 m2 m3 m4 m5 m6 m7 m8 m9 m10 m11 m12 m13 m14 m15].
  pose proof (rf_rounded 3). repeat split; auto.
Qed.
Lemma transform_read t : TransformFits t -> has_transform t = true -> parse_matrix (matrix_string t) = (rt_tr t, true).
Proof.
  intros [H|H] HT; [apply has_transform_spec in H; congruence|]. unfold rt_tr. rewrite HT. destruct (matrix_read t H) as (t' & -> & _). reflexivity.
Qed.
Lemma transform_same t : TransformFits t -> SameTransform t (rt_tr t).
Proof.
  intros H. unfold rt_tr. destruct (has_transform t) eqn:E.
  - right. assert (N : ~ NoTransform t) by (intros N; apply has_transform_spec in N; congruence). split; [exact N|].
    destruct H as [H|H]; [contradiction|]. destruct (matrix_read t H) as (t' & -> & R). exact R.
  - left. split; [apply has_transform_spec, E|reflexivity].
Qed.

(** ** Enumerations *)
Ltac enum n H := let k := fresh "k" in let E := fresh "E" in
  assert (E : exists k, n = N.of_nat k) by (exists (N.to_nat n); lia); destruct E as (k & ->);
  do 7 (destruct k as [|k]; [try (split; reflexivity); try reflexivity; try (exfalso; lia)|]); exfalso; lia.
Lemma units_read n : (n <= 5)%N -> new_units (units_string n) = Some n.
Proof. intros H. enum n H. Qed.
Lemma safe_units n : safe (units_string n) = true.
Proof. unfold units_string, print_enum. destruct (aget N.eqb n _) as [s|] eqn:E; [|reflexivity]. cbn [aget] in E. repeat (destruct (n =? _)%N; [injection E as <-; reflexivity|]). discriminate. Qed.
Lemma type_read t : (0 <= t <= 4)%Z -> new_object_type (object_type_string t) = Some t.
Proof. intros H. assert (E : exists k, t = Z.of_nat k) by (exists (Z.to_nat t); lia). destruct E as (k & ->). do 5 (destruct k as [|k]; [reflexivity|]). lia. Qed.
Lemma safe_type t : (0 <= t <= 4)%Z -> safe (object_type_string t) = true.
Proof. intros H. assert (E : exists k, t = Z.of_nat k) by (exists (Z.to_nat t); lia). destruct E as (k & ->). do 5 (destruct k as [|k]; [reflexivity|]). lia. Qed.
Lemma ctype_read n : (n <= 2)%N -> or0 (new_tex_type (tex_type_string n)) = n /\ safe (tex_type_string n) = true.
Proof. intros H. enum n H. Qed.
Lemma tile_read n : (n <= 3)%N -> or0 (new_tile (tile_string n)) = n /\ safe (tile_string n) = true.
Proof. intros H. enum n H. Qed.
Lemma filter_read n : (n <= 2)%N -> or0 (new_filter (filter_string n)) = n /\ safe (filter_string n) = true.
Proof. intros H. enum n H. Qed.
Lemma blend_read n : (n <= 1)%N -> or0 (new_blend (blend_string n)) = n /\ safe (blend_string n) = true.
Proof. intros H. enum n H. Qed.
Lemma clip_read n : (n <= 2)%N -> new_clip (clip_string n) = Some n /\ safe (clip_string n) = true.
Proof. intros H. enum n H. Qed.
Lemma cap_read n : (n <= 2)%N -> new_cap (cap_string n) = Some n /\ safe (cap_string n) = true.
Proof. intros H. enum n H. Qed.
Lemma res_read n : (n <= 1)%N -> new_resolution (resolution_string n) = Some n /\ safe (resolution_string n) = true.
Proof. intros H. enum n H. Qed.
Lemma blend_word n : (n <= 1)%N -> word (blend_string n).
Proof. intros H. assert (E : exists k, n = N.of_nat k) by (exists (N.to_nat n); lia); destruct E as (k & ->). do 2 (destruct k as [|k]; [split; [discriminate|reflexivity]|]). lia. Qed.
