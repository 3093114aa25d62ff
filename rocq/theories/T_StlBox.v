(** * Property theorem C103: the box of an imported STL file *)
From Verif Require Import GoBase GoNum GoFloat GoStrconv Types M_Core M_Geom M_Stl S_Core S_Geom S_Strconv S_Stl S_SameStl
  P_Stl T_Stl T_SameStl T_BuiltBox.
From Verif Require Import Types.
Local Open Scope list_scope.

(** The object added for a file of facets has a box whose faces are at corners of the facets, and each
    corner shares its cell with a corner in the box; with no two different corners in a cell it is the box of
    the corners.  Missing: as for C103_box_partial, and what C99_same_partial lacks. *)
Theorem C103_stl_partial : forall oor ctx fuel ts data m, FileOf ts data -> (forall k, ctx k = false) ->
  ts <> [] -> (forall p, In p (S_SameStl.corners ts) -> FinitePoint p) -> (N.of_nat (3 * List.length ts) <= 2 ^ 32)%N ->
  exists m' o me, decode_stl oor ctx (S fuel) (eof data) m = Some (m', None) /\
    rs_objects (mo_res m') = rs_objects (mo_res m) ++ [o] /\ ob_mesh o = Some me /\
    Touches (S_SameStl.corners ts) (mesh_bbox me) /\
    (forall p, In p (S_SameStl.corners ts) -> exists v, In v (S_SameStl.corners ts) /\ SameCell oor v p /\ Inside v (mesh_bbox me)) /\
    ((forall p q, In p (S_SameStl.corners ts) -> In q (S_SameStl.corners ts) -> SameCell oor p q -> p = q) ->
     forall p, In p (S_SameStl.corners ts) -> Inside p (mesh_bbox me)).
Proof.
  intros oor ctx fuel ts data m F NC Hne Hf Hb.
  destruct (file_mesh oor ctx fuel ts data F NC) as (b & mb & tris & nodes & A & D & (E & _)).
  assert (L : List.length (S_SameStl.corners ts) = 3 * List.length ts).
  { clear. induction ts as [|((x & y) & z) l IH]; [reflexivity|]. unfold S_SameStl.corners in *. cbn [flat_map]. rewrite app_length, IH. cbn [List.length]. lia. }
  assert (N0 : S_SameStl.corners ts <> []) by (intros X; rewrite X in L; destruct ts; [congruence|cbn in L; lia]).
  rewrite <- L in Hb. set (me := mesh_of mb tris).
  destruct (C103_box_partial oor _ mb _ me N0 Hf Hb E eq_refl) as (T & H).
  unfold decode_stl. rewrite A, D. cbv beta iota zeta. eexists _, _, me. split; [reflexivity|]. split; [reflexivity|]. split; [reflexivity|].
  split; [exact T|]. split; [exact H|]. intros Ha p Hp. destruct (H p Hp) as (v & Hv & Hc & Hi). rewrite <- (Ha v p Hv Hp Hc). exact Hi.
Qed.
Print Assumptions C103_stl_partial.
Example C103_stl_nonvacuous : let ts := repeat ex_corner 5 in FileOf ts (ex_same 5) /\ ts <> [] /\
  (forall p, In p (S_SameStl.corners ts) -> FinitePoint p) /\ (N.of_nat (3 * List.length ts) <= 2 ^ 32)%N /\
  (forall p q, In p (S_SameStl.corners ts) -> In q (S_SameStl.corners ts) -> SameCell (fun _ => 0%Z) p q -> p = q).
Proof.
  cbv zeta. split; [apply C99_nonvacuous|]. split; [discriminate|].
  assert (K : forall p, In p (S_SameStl.corners (repeat ex_corner 5)) -> In p [P3 f_zero f_zero f_zero; P3 f_one f_zero f_zero; P3 f_zero f15 f_zero]).
  { intros p Hp. unfold S_SameStl.corners in Hp. apply in_flat_map in Hp as (t & Ht & Hp). apply repeat_spec in Ht. subst t. exact Hp. }
  split; [intros p Hp; apply K in Hp; destruct Hp as [<-|[<-|[<-|[]]]]; repeat split; reflexivity|]. split; [vm_compute; discriminate|].
  intros p q Hp Hq Hc. apply K in Hp, Hq. apply P_Geom.same_cell_spec in Hc.
  destruct Hp as [<-|[<-|[<-|[]]]]; destruct Hq as [<-|[<-|[<-|[]]]]; first [reflexivity|exfalso; revert Hc; vm_compute; discriminate].
Qed.
