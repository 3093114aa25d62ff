(** * Decimal integers: strconv.FormatUint(n, 10), strconv.ParseUint(s, 10, 32), fmt "%d" *)
From Verif Require Import GoBase.

(** strconv.FormatUint(n, 10); the fuel is the number of bits of [n], which
    bounds its number of decimal digits. *)
Fixpoint fmt_dec_aux (fuel : nat) (n : N) (acc : string) : string :=
  match fuel with
  | O => acc
  | S f =>
      let acc := String (digit_char (n mod 10)) acc in
      if (n <? 10)%N then acc else fmt_dec_aux f (n / 10) acc
  end.
Definition fmt_dec (n : N) : string := fmt_dec_aux (S (N.size_nat n)) n "".

(** "%d" on an int *)
Definition fmt_int (z : Z) : string :=
  if (z <? 0)%Z then String "-" (fmt_dec (Z.to_N (- z))) else fmt_dec (Z.to_N z).

(** strconv.ParseUint(s, 10, bits) with [mx] = 2^bits - 1: the value and whether the
    error is nil.  The value is 0 on a syntax error and [mx] on a range error,
    which is signalled at the first digit that overflows. *)
Fixpoint parse_uint_aux (mx n : N) (s : string) : N * bool :=
  match s with
  | EmptyString => (n, true)
  | String c r =>
      if is_digit c then
        let n1 := (n * 10 + (bN c - 48))%N in
        if (mx <? n1)%N then (mx, false) else parse_uint_aux mx n1 r
      else (0%N, false)
  end.
Definition parse_uint (mx : N) (s : string) : N * bool :=
  match s with EmptyString => (0%N, false) | _ => parse_uint_aux mx 0 s end.
Definition max_uint32 : N := 4294967295.
Definition parse_u32 : string -> N * bool := parse_uint max_uint32.

(** ** Facts *)
(** The number a string of digits denotes. *)
Fixpoint dec_val_aux (n : N) (s : string) : N :=
  match s with EmptyString => n | String c r => dec_val_aux (n * 10 + (bN c - 48)) r end.
Definition dec_val (s : string) : N := dec_val_aux 0 s.

Lemma dec_val_aux_ge n s : (n <= dec_val_aux n s)%N.
Proof.
  revert n; induction s as [|c s IH]; intros n; cbn; [lia|]. specialize (IH (n * 10 + (bN c - 48))%N). lia.
Qed.
Lemma dec_val_aux_app n a b : dec_val_aux n (a +++ b) = dec_val_aux (dec_val_aux n a) b.
Proof. revert n; induction a as [|c a IH]; intros n; cbn; auto. Qed.

Lemma parse_uint_aux_ok mx n s : sall is_digit s = true -> (dec_val_aux n s <= mx)%N ->
  parse_uint_aux mx n s = (dec_val_aux n s, true).
Proof.
  revert n; induction s as [|c s IH]; intros n; cbn; [reflexivity|].
  rewrite andb_true_iff. intros [Hc Hs] Hle. rewrite Hc.
  pose proof (dec_val_aux_ge (n * 10 + (bN c - 48)) s).
  destruct (N.ltb_spec mx (n * 10 + (bN c - 48))); [lia|]. apply IH; assumption.
Qed.
Lemma parse_uint_aux_true mx n s v : (n <= mx)%N -> parse_uint_aux mx n s = (v, true) ->
  sall is_digit s = true /\ v = dec_val_aux n s /\ (v <= mx)%N.
Proof.
  revert n; induction s as [|c s IH]; intros n; cbn.
  - intros Hn H; injection H as <-; auto.
  - intros Hn. destruct (is_digit c); [|discriminate].
    destruct (N.ltb_spec mx (n * 10 + (bN c - 48))); [discriminate|]. intros H'.
    apply IH in H'; [|lia]. cbn. tauto.
Qed.
Lemma parse_uint_spec mx s v :
  parse_uint mx s = (v, true) <->
  s <> "" /\ sall is_digit s = true /\ v = dec_val s /\ (v <= mx)%N.
Proof.
  unfold parse_uint. destruct s as [|c s].
  - split; [discriminate|]. intros [H _]; congruence.
  - split.
    + intros H. apply parse_uint_aux_true in H; [|lia]. split; [discriminate|exact H].
    + intros (_ & H1 & -> & H2). apply parse_uint_aux_ok; assumption.
Qed.

Lemma fmt_dec_aux_spec f n acc : (n < 2 ^ N.of_nat f)%N ->
  exists d, fmt_dec_aux (S f) n acc = d +++ acc /\ d <> "" /\ sall is_digit d = true /\ dec_val d = n.
Proof.
  revert n acc; induction f as [|f IH]; intros n acc Hn.
  - cbn in Hn. assert (n = 0)%N as -> by lia. exists "0"; repeat split; try reflexivity. discriminate.
  - remember (S f) as f'. cbn [fmt_dec_aux]. destruct (N.ltb_spec n 10) as [Hl|Hl].
    + exists (String (digit_char (n mod 10)) ""). rewrite N.mod_small by exact Hl.
      destruct (digit_char_spec n Hl) as [H1 H2]. cbn. rewrite H1. repeat split; try discriminate.
      unfold dec_val; cbn. rewrite H2. lia.
    + assert (Hq : (n / 10 < 2 ^ N.of_nat f)%N).
      { subst f'. rewrite Nat2N.inj_succ, N.pow_succ_r' in Hn. apply N.div_lt_upper_bound; lia. }
      subst f'. destruct (IH (n / 10)%N (String (digit_char (n mod 10)) acc) Hq) as (d & E & Hne & Hd & Hv).
      assert (Hm : (n mod 10 < 10)%N) by (apply N.mod_lt; lia).
      destruct (digit_char_spec _ Hm) as [H1 H2].
      exists (d +++ String (digit_char (n mod 10)) ""). rewrite E. repeat split.
      * rewrite sapp_assoc. reflexivity.
      * destruct d; discriminate.
      * rewrite sall_app, Hd. cbn. rewrite H1; reflexivity.
      * unfold dec_val in *. rewrite dec_val_aux_app, Hv. cbn. rewrite H2.
        rewrite (N.add_comm 48), N.add_sub, N.mul_comm. symmetry. apply N.div_mod. discriminate.
Qed.
Lemma size_nat_bound n : (n < 2 ^ N.of_nat (N.size_nat n))%N.
Proof.
  replace (N.of_nat (N.size_nat n)) with (N.size n); [apply N.size_gt|].
  destruct n as [|p]; [reflexivity|]. cbn [N.size N.size_nat].
  induction p as [p IH|p IH|]; cbn [Pos.size Pos.size_nat]; [| |reflexivity];
    rewrite Nat2N.inj_succ, <- IH; reflexivity.
Qed.
Lemma fmt_dec_spec n : fmt_dec n <> "" /\ sall is_digit (fmt_dec n) = true /\ dec_val (fmt_dec n) = n.
Proof.
  unfold fmt_dec. destruct (fmt_dec_aux_spec (N.size_nat n) n "" (size_nat_bound n)) as (d & E & H).
  rewrite E, sapp_nil_r. exact H.
Qed.
Lemma parse_fmt_dec mx n : (n <= mx)%N -> parse_uint mx (fmt_dec n) = (n, true).
Proof. intros H. apply parse_uint_spec. destruct (fmt_dec_spec n) as (H1 & H2 & H3). rewrite H3; auto. Qed.
Lemma fmt_dec_inj a b : fmt_dec a = fmt_dec b -> a = b.
Proof. intros H. destruct (fmt_dec_spec a) as (_ & _ & <-), (fmt_dec_spec b) as (_ & _ & <-). rewrite H; reflexivity. Qed.
