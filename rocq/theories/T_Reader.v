(** * C31: the scanner does not depend on how the reader splits its input *)
From Verif Require Import GoBase GoNum GoUtf8 GoFloat Types XmlTypes M_Reader S_Reader P_Xml P_Reader.

(** Whatever the splitting into reads, a client computes what it computes on the bytes themselves,
    followed by the reader's error.  Three rounds of the loop of ReadByte are enough. *)
Theorem C31_splitting_invisible A (c : client A) reads last fin fuel : Patient reads -> 3 <= fuel ->
  serve fuel c (reader_new (mkSource reads (Some last) fin)) = Some (on_bytes fin c (sjoin "" reads +++ last)).
Proof.
  intros HP HF. rewrite (serve_rep fuel c _ (sjoin "" reads +++ last)); [reflexivity|lia|].
  unfold Rep. cbn. split; [reflexivity|]. split; [exact HP|discriminate].
Qed.
(** Two splittings of the same bytes cannot be told apart. *)
Theorem C31_same_bytes A (c : client A) reads reads' last last' fin fuel : Patient reads -> Patient reads' -> 3 <= fuel ->
  sjoin "" reads +++ last = sjoin "" reads' +++ last' ->
  serve fuel c (reader_new (mkSource reads (Some last) fin)) = serve fuel c (reader_new (mkSource reads' (Some last') fin)).
Proof. intros H H' HF E. rewrite !C31_splitting_invisible by assumption. congruence. Qed.
(** The limit: after 100 empty reads in a row the error is io.ErrNoProgress, whatever follows. *)
Theorem C31_no_progress reads src fuel : 2 <= fuel ->
  exists b, getc fuel (reader_new (mkSource (repeat "" 100 ++ reads) src XEOF)) = Some (inr no_progress, b).
Proof.
  intros H. destruct fuel as [|[|f]]; try lia. unfold getc, read_byte, reader_new. cbn [r_next read_loop r_buf r_err]. unfold fill.
  assert (K : forall n buf, fill_loop n (mkReader "" None None (mkSource (repeat "" n ++ reads) src buf)) =
    mkReader "" (Some no_progress) None (mkSource reads src buf)).
  { induction n as [|n IH]; intros buf; [reflexivity|]. cbn. apply IH. }
  unfold max_empty_reads. rewrite K. cbn. eauto.
Qed.
Lemma patient_short reads : length reads < 100 -> Patient reads.
Proof. intros H a b E. subst. rewrite !app_length, repeat_length in H. lia. Qed.
(** Reads of one byte, an empty read, and the error together with the last bytes; the client puts a byte back. *)
Example C31_nonvacuous : let c := Get (fun x => (true, Get (fun y => (false, Get (fun z => (false, Get (fun w => (false, Ret (x, y, z, w))))))))) in
  Patient ["a"; ""; "b"] /\
  serve 3 c (reader_new (mkSource ["a"; ""; "b"] (Some "") XEOF)) = Some (inl "a"%char, inl "a"%char, inl "b"%char, inr XEOF) /\
  sjoin "" ["a"; ""; "b"] +++ "" = sjoin "" [] +++ "ab".
Proof. cbn zeta. sp; [apply patient_short; cbn; lia|vm_compute; reflexivity|reflexivity]. Qed.

Print Assumptions C31_splitting_invisible.
Print Assumptions C31_same_bytes.
Print Assumptions C31_no_progress.
