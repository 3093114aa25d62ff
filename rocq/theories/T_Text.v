(** * Property theorems C06-C09 *)
From Verif Require Import GoBase GoFloat Types M_Text S_Text P_Text.

(** C06 *)
Theorem C06_format_parse_rgba : forall c,
  (cR c < 256)%N -> (cG c < 256)%N -> (cB c < 256)%N -> (cA c < 256)%N ->
  parse_rgba (format_rgba c) = (c, true).
Proof. exact format_parse_rgba. Qed.
Print Assumptions C06_format_parse_rgba.
Theorem C06_parse_format_rgba : forall s c, parse_rgba s = (c, true) -> format_rgba c = colour_canonical s.
Proof. exact parse_format_rgba. Qed.
Print Assumptions C06_parse_format_rgba.
Example C06_nonvacuous : parse_rgba "#0aF1fF80" = (mkRGBA 10 241 255 128, true) /\
  format_rgba (mkRGBA 10 241 255 128) = "#0af1ff80" /\ format_rgba (mkRGBA 10 241 255 255) = "#0af1ff".
Proof. repeat split; reflexivity. Qed.

(** C07 *)
Theorem C07_parse_rgba_accepts : forall s c, parse_rgba s = (c, true) <-> ColourText s c.
Proof. exact parse_rgba_spec. Qed.
Print Assumptions C07_parse_rgba_accepts.
Example C07_nonvacuous : parse_rgba "#0a0b0c" = (mkRGBA 10 11 12 255, true) /\ snd (parse_rgba "#0a0b0g") = false.
Proof. split; reflexivity. Qed.

(** C08 *)
Theorem C08_new_is_version4 : forall rnd, String.length rnd = 16 -> Uuid4 (uuid_new rnd).
Proof. exact uuid_new_uuid4. Qed.
Print Assumptions C08_new_is_version4.
Theorem C08_new_is_valid : forall rnd, String.length rnd = 16 -> uuid_validate (uuid_new rnd) = true.
Proof. exact uuid_new_valid. Qed.
Print Assumptions C08_new_is_valid.
Theorem C08_new_injective : forall rnd rnd', String.length rnd = 16 -> String.length rnd' = 16 ->
  uuid_new rnd = uuid_new rnd' -> SameFreeBits rnd rnd'.
Proof. exact uuid_new_inj. Qed.
Print Assumptions C08_new_injective.
Example C08_nonvacuous : uuid_new "0123456789abcdef" = "30313233-3435-4637-b839-616263646566".
Proof. reflexivity. Qed.

(** C09: the brace form is not checked: any byte may stand for each brace. *)
Theorem C09_validate_refuted : exists s, uuid_validate s = true /\ ~ UuidText s.
Proof.
  exists "x30313233-3435-4637-b839-616263646566y". split; [reflexivity|].
  intros H. remember "x30313233-3435-4637-b839-616263646566y" as u eqn:E. destruct H as [t Ht|p t Hp Ht|t Ht|t Ht]; subst.
  - apply hyphenated_len in Ht. discriminate.
  - assert (HL : String.length (p +++ t) = 38) by (rewrite E; reflexivity).
    rewrite slength_app, (hyphenated_len _ Ht), <- slower_length, Hp in HL. discriminate.
  - discriminate E.
  - destruct Ht as [HL _]. discriminate HL.
Qed.
Print Assumptions C09_validate_refuted.
(** C09, what holds: the accepted texts are exactly the documented ones with arbitrary bytes for the braces. *)
Theorem C09_validate_partial : forall s, uuid_validate s = true <-> UuidTextLoose s.
Proof. exact uuid_validate_spec. Qed.
Print Assumptions C09_validate_partial.
Example C09_nonvacuous : uuid_validate "{30313233-3435-4637-b839-616263646566}" = true /\
  uuid_validate "Urn:UuiD:30313233-3435-4637-b839-616263646566" = true /\
  uuid_validate "30313233343546371839616263646566" = true /\
  uuid_validate "30313233-3435-4637-b839-61626364656" = false.
Proof. repeat split; reflexivity. Qed.
