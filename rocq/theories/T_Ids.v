(** * Theorem: exactly when UnusedID is in use: C02 *)
From Coq Require Import Lia.
From Verif Require Import GoBase GoFloat Types M_Core S_Core S_Ids P_Core P_Ids T_Core.

(** C02, exactly: the result is in use if and only if an identifier that is repeated (or 0) lies at least two below the lowest
    unused one. *)
Theorem C02_exact : forall rs g, LowestUnused rs g -> (g < 2 ^ 32)%N ->
  (IdInUse rs (unused_id rs) <-> exists k, (k + 1 < g)%N /\ Repeated rs k).
Proof. exact unused_id_exact. Qed.
Print Assumptions C02_exact.
Example C02_exact_nonvacuous :
  let rs := mkRes [ex_asset 1; ex_asset 3] [ex_obj 2; ex_obj 1] [] in LowestUnused rs 4 /\ Repeated rs 1 /\ unused_id rs = 2%N.
Proof.
  cbn. split; [|split; [unfold Repeated, id_count; cbn; lia|reflexivity]]. split; [lia|]. split.
  - intros [(a & [<-|[<-|[]]] & H)|(o & [<-|[<-|[]]] & H)]; discriminate H.
  - intros k Hk. assert (k = 1 \/ k = 2 \/ k = 3)%N as [->|[->| ->]] by lia.
    + left; exists (ex_asset 1); cbn; auto.
    + right; exists (ex_obj 2); cbn; auto.
    + left; exists (ex_asset 3); cbn; auto.
Qed.
