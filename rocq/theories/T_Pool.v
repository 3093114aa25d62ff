(** * C72: the values of attributes and their buffers *)
From Verif Require Import GoBase Types PoolTypes M_Pool P_Pool.

(** A value kept by a decoder as the []byte it was given (spec.UnmarshalerAttr, spec/encoding.go) is overwritten by the
    attributes of the next start tag. *)
Theorem C72_kept_refuted : exists grow A tags P A1 g1 A2 g2 x,
  pool_tags grow (pool_new A) tags = Some (P, [(A1, g1); (A2, g2)]) /\ In x g1 /\
  read_bytes A1 (pa_value x) = "1.5" /\ read_bytes A2 (pa_value x) = "7.5".
Proof.
  exists (fun _ _ => 61), [], [[mkAttr (mkName "" "x") "1.5"]; [mkAttr (mkName "" "y") "7.5"]].
  do 6 eexists. split; [vm_compute; reflexivity|]. split; [left; reflexivity|]. split; vm_compute; reflexivity.
Qed.

(** Full claim: the values given to a decoder are those of its element and stay so.  What holds, whatever the tags before
    and however the buffers grow: during the callback of a start tag the names and values are those of the tag, and no
    index is out of range.  The decoders of the repository copy every value.  Missing: keeping the slices, see above. *)
Theorem C72_values_partial : forall grow A tags, exists P given,
  pool_tags grow (pool_new A) tags = Some (P, given) /\
  Forall2 (fun g l => map (read_attr (fst g)) (snd g) = l) given tags.
Proof. intros grow A tags. apply pool_tags_spec. apply pinv_new. Qed.

(** Eleven attributes, a long value after a short one, and a short one after that *)
Example C72_nonvacuous : exists P given,
  pool_tags (fun _ n => 64 - n) (pool_new []) [map (fun n => mkAttr (mkName "" n) n) ["a"; "b"; "c"; "d"; "e"; "f"; "g"; "h"; "i"; "j"; "k"];
    [mkAttr (mkName "" "a") (zeros 100)]; [mkAttr (mkName "" "a") ""; mkAttr (mkName "" "b") "x"]] = Some (P, given) /\
  length (po_bufs P) = 20 /\ length (po_arrays P) = 12 /\ length given = 3.
Proof. do 2 eexists. split; [vm_compute; reflexivity|]. repeat split; vm_compute; reflexivity. Qed.
Print Assumptions C72_kept_refuted.
Print Assumptions C72_values_partial.
