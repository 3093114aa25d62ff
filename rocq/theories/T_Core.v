(** * Property theorems C01-C05 and C56 *)
From Coq Require Import Permutation.
From Verif Require Import GoBase GoFloat Types M_Core S_Core P_Core.

Definition ex_obj (id : N) : Object := mkObj id "" "" "" 0 0 0 mg_zero None None [].
Definition ex_asset (id : N) : Asset := ABase (mkBM id [] []).

(** C01 *)
Theorem C01_unused_id_fresh_and_lowest : forall rs,
  DistinctIds rs ->
  (N.of_nat (List.length (rs_assets rs) + List.length (rs_objects rs)) < 2 ^ 32 - 1)%N ->
  unused_id rs <> 0%N /\ ~ IdInUse rs (unused_id rs) /\
  (forall k, (0 < k < unused_id rs)%N -> IdInUse rs k).
Proof.
  intros rs Hd Hl. destruct (unused_id_distinct rs Hd Hl) as (H0 & H1 & H2).
  split; [|split; assumption]. intros E; rewrite E in H0. discriminate.
Qed.
Print Assumptions C01_unused_id_fresh_and_lowest.

Definition ex_rs : Resources := mkRes [ex_asset 5; ex_asset 1] [ex_obj 2] [].
Example C01_nonvacuous : DistinctIds ex_rs /\ unused_id ex_rs = 3%N.
Proof.
  split; [|reflexivity]. intros k. unfold id_count; cbn.
  destruct (N.eqb_spec 5 k) as [<-|]; [cbn; lia|].
  destruct (N.eqb_spec 1 k) as [<-|]; [cbn; lia|].
  destruct (N.eqb_spec 2 k) as [<-|]; [cbn; lia|]. intros Hc; exfalso; apply Hc; reflexivity.
Qed.

(** C02: refuted as stated; the identifier 2 is returned although it is in use. *)
Theorem C02_unused_id_not_in_use_refuted :
  exists rs, IdInUse rs (unused_id rs).
Proof.
  exists (mkRes [ex_asset 1] [ex_obj 1; ex_obj 2] []). vm_compute.
  right. exists (ex_obj 2). split; [right; left; reflexivity|reflexivity].
Qed.
Print Assumptions C02_unused_id_not_in_use_refuted.

(** C02, what holds: repetitions above the lowest unused identifier do no harm.
    Missing: identifiers 0 and repeated identifiers below the lowest unused one. *)
Theorem C02_unused_id_not_in_use_partial : forall rs g,
  LowestUnused rs g -> (g < 2 ^ 32)%N -> id_count rs 0 = 0 ->
  (forall k, (0 < k < g)%N -> id_count rs k = 1) ->
  unused_id rs = g.
Proof. exact unused_id_lowest. Qed.
Print Assumptions C02_unused_id_not_in_use_partial.

Example C02_nonvacuous :
  let rs := mkRes [ex_asset 1; ex_asset 7] [ex_obj 2; ex_obj 7] [] in
  LowestUnused rs 3 /\ id_count rs 0 = 0 /\ (forall k, (0 < k < 3)%N -> id_count rs k = 1).
Proof.
  cbn. repeat split; try lia.
  - intros [(a & [<-|[<-|[]]] & H)|(o & [<-|[<-|[]]] & H)]; discriminate H.
  - intros k Hk. assert (k = 1 \/ k = 2)%N as [->| ->] by lia.
    + left; exists (ex_asset 1); cbn; auto.
    + right; exists (ex_obj 2); cbn; auto.
  - intros k Hk. assert (k = 1 \/ k = 2)%N as [->| ->] by lia; reflexivity.
Qed.

(** C03 *)
Theorem C03_find_resources : forall m path rs, ChildsOk m ->
  find_resources m path = Some rs <-> Addressed m path rs.
Proof. exact find_resources_spec. Qed.
Print Assumptions C03_find_resources.
Theorem C03_find_object : forall m path id o, ChildsOk m ->
  find_object m path id = Some o <->
  exists rs, Addressed m path rs /\ FirstWith ob_id id (rs_objects rs) o.
Proof. exact find_object_spec. Qed.
Print Assumptions C03_find_object.
Theorem C03_find_asset : forall m path id a, ChildsOk m ->
  find_asset m path id = Some a <->
  exists rs, Addressed m path rs /\ FirstWith asset_id id (rs_assets rs) a.
Proof. exact find_asset_spec. Qed.
Print Assumptions C03_find_asset.

Definition ex_model : Model :=
  mkModel "" "en" 0 "" (mkRes [ex_asset 1] [ex_obj 2] []) (mkBuild [] []) [] [] []
    [("/b.model", mkChild (mkRes [] [ex_obj 4; ex_obj 5] []) [] []);
     ("/a.model", mkChild (mkRes [ex_asset 3] [ex_obj 4] []) [] [])] [] [] [] [].
Example C03_nonvacuous : ChildsOk ex_model /\
  find_object ex_model "/a.model" 4 = Some (ex_obj 4) /\
  find_object ex_model "/3D/3dmodel.model" 2 = Some (ex_obj 2) /\
  find_object ex_model "/a.model" 2 = None.
Proof.
  split; [|split; [|split]; reflexivity].
  unfold ChildsOk; cbn. repeat constructor; cbn; intuition discriminate.
Qed.

(** C04 *)
Theorem C04_walk_objects : forall (St E : Type) (fn : St -> string -> Object -> St * option E) m st,
  ChildsOk m ->
  exists v, Visits rs_objects m v /\ CallAll fn st v (walk_objects fn m st).
Proof. intros; apply walk_spec; assumption. Qed.
Print Assumptions C04_walk_objects.
Theorem C04_walk_assets : forall (St E : Type) (fn : St -> string -> Asset -> St * option E) m st,
  ChildsOk m ->
  exists v, Visits rs_assets m v /\ CallAll fn st v (walk_assets fn m st).
Proof. intros; apply walk_spec; assumption. Qed.
Print Assumptions C04_walk_assets.
(** The visits and the outcome are determined: neither depends on the iteration
    order of the children map. *)
Theorem C04_visits_unique : forall A (items : Resources -> list A) m v v',
  ChildsOk m -> Visits items m v -> Visits items m v' -> v = v'.
Proof. intros A items m v v'. apply visits_unique. Qed.
Print Assumptions C04_visits_unique.
Theorem C04_outcome_unique : forall St E A (fn : St -> string -> A -> St * option E) st v r r',
  CallAll fn st v r -> CallAll fn st v r' -> r = r'.
Proof. intros St E A fn st v r r'. apply call_all_det. Qed.
Print Assumptions C04_outcome_unique.
Theorem C04_map_order : forall St E (fn : St -> string -> Object -> St * option E)
    (fa : St -> string -> Asset -> St * option E) m m' st,
  ChildsOk m -> mo_res m = mo_res m' -> Permutation (mo_childs m) (mo_childs m') ->
  walk_objects fn m st = walk_objects fn m' st /\ walk_assets fa m st = walk_assets fa m' st.
Proof. intros St E fn fa m m' st Hok Hr HP. split; apply walk_perm; assumption. Qed.
Print Assumptions C04_map_order.

Example C04_nonvacuous : ChildsOk ex_model /\
  walk_objects (fun st p (o : Object) => ((st ++ [(p, ob_id o)])%list, @None unit)) ex_model [] =
    ([("/a.model", 4%N); ("/b.model", 4%N); ("/b.model", 5%N); ("", 2%N)], None).
Proof. split; [apply C03_nonvacuous|reflexivity]. Qed.

(** C05 *)
Theorem C05_enumerations :
  EnumOk spec_units units_string new_units /\
  EnumOk spec_object_type object_type_string new_object_type /\
  EnumOk spec_tex_type tex_type_string new_tex_type /\
  EnumOk spec_tile tile_string new_tile /\
  EnumOk spec_filter filter_string new_filter /\
  EnumOk spec_blend blend_string new_blend /\
  EnumOk spec_clip clip_string new_clip /\
  EnumOk spec_cap cap_string new_cap /\
  EnumOk spec_resolution resolution_string new_resolution.
Proof.
  exact (conj enum_units (conj enum_object_type (conj enum_tex_type (conj enum_tile (conj enum_filter
    (conj enum_blend (conj enum_clip (conj enum_cap enum_resolution)))))))).
Qed.
Print Assumptions C05_enumerations.
Example C05_nonvacuous : new_units "foot" = Some 4%N /\ new_units "Foot" = None.
Proof. split; reflexivity. Qed.

(** C56, first half: HasTransform (for the items and the components). *)
Theorem C56_has_transform : forall t, has_transform t = false <-> ZeroMatrix t \/ IdentityMatrix t.
Proof. exact has_transform_spec. Qed.
Print Assumptions C56_has_transform.
Example C56_nonvacuous : has_transform identity = false /\ has_transform matrix_zero = false /\
  has_transform (M16 f_one f_zero f_zero f_zero f_zero f_one f_zero f_zero f_zero f_zero f_one f_zero
                     f_one f_zero f_zero f_one) = true.
Proof. repeat split; reflexivity. Qed.
