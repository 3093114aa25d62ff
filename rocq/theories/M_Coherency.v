(** * Mesh coherency (validate.go 370-462, math.go 10-36) *)
From Coq Require Import Permutation.
From Verif Require Import GoBase GoFloat Types M_Errors Conc.

(** math.go 31-36, newPairEntry *)
Definition pair_entry (a b : N) : N * N := if (a <? b)%N then (a, b) else (b, a).
Definition pair_eqb (x y : N * N) : bool := ((fst x =? fst y) && (snd x =? snd y))%N.
(** math.go 16, pairMatch: a map from pairs to edge numbers *)
Definition pair_match := list ((N * N) * N).
(** math.go 20-22, AddMatch; 25-28, CheckMatch *)
Definition add_match (t : pair_match) (a b param : N) : pair_match := aset pair_eqb (pair_entry a b) param t.
Definition check_match (t : pair_match) (a b : N) : option N := aget pair_eqb (pair_entry a b) t.

(** validate.go 432-434 and 444-446: the pairs (n1, n2) of a face, in the order
    of the inner loop. *)
Definition face_pairs (t : Triangle) : list (N * N) := [(t_v1 t, t_v2 t); (t_v2 t, t_v3 t); (t_v3 t, t_v1 t)].
Definition u32 (n : N) : N := (n mod 2 ^ 32)%N.

(** validate.go 429-440: the two nested loops that number the undirected edges.
    edgeCounter is a uint32. *)
Fixpoint number_edges (es : list (N * N)) (t : pair_match) (counter : N) : pair_match * N :=
  match es with
  | [] => (t, counter)
  | (a, b) :: r =>
      match check_match t a b with
      | Some _ => number_edges r t counter
      | None => number_edges r (add_match t a b counter) (u32 (counter + 1))
      end
  end.

(** [l[i]++] on a []uint32.  Go panics when [i] is out of range; here the list
    is left alone, and [P_Coherency.number_edges_inv] shows the case does not
    arise below 2^32 edges. *)
Fixpoint incr_at (i : nat) (l : list N) : list N :=
  match l, i with
  | [], _ => []
  | x :: r, O => u32 (x + 1) :: r
  | x :: r, S i => x :: incr_at i r
  end.

(** validate.go 442-454: counting the occurrences in each direction.  A missing
    pair gives edge number 0, as in Go. *)
Fixpoint count_edges (es : list (N * N)) (t : pair_match) (pos neg : list N) : list N * list N :=
  match es with
  | [] => (pos, neg)
  | (a, b) :: r =>
      let i := match check_match t a b with Some i => N.to_nat i | None => O end in
      if (a <=? b)%N then count_edges r t (incr_at i pos) neg
      else count_edges r t pos (incr_at i neg)
  end.

(** validate.go 421-462, Mesh.ValidateCoherency *)
Definition mesh_coherency (me : Mesh) : error :=
  if (List.length (me_verts me) <? 3)%nat then Some (ESent "ErrInsufficientVertices")
  else if (List.length (me_tris me) <=? 3)%nat then Some (ESent "ErrInsufficientTriangles")
  else
    let es := flat_map face_pairs (me_tris me) in
    let '(t, n) := number_edges es [] 0 in
    let '(pos, neg) := count_edges es t (repeat 0%N (N.to_nat n)) (repeat 0%N (N.to_nat n)) in
    if forallb (fun pn => (fst pn =? 1)%N && (snd pn =? 1)%N) (combine pos neg)
    then None else Some (ESent "ErrMeshConsistency").

(** validate.go 416-418, isSolidObject; ObjectTypeModel is 0 and
    ObjectTypeSolidSupport is 3 (core.go 72-80). *)
Definition is_solid (o : Object) : bool :=
  match ob_mesh o with
  | Some _ => (ob_type o =? 0)%Z || (ob_type o =? 3)%Z
  | None => false
  end.

(** validate.go 378-389, the goroutine of a root object *)
Definition coherency_task (wrapr : error -> error) (i : nat) (o : Object) : @task error :=
  if is_solid o then
    match ob_mesh o with
    | Some me =>
        match mesh_coherency me with
        | Some e =>
            Some (fun errs => append errs
                    [wrapr (wrap_index (wrap (Some e) "mesh") "object" (Z.of_nat i))])
        | None => None
        end
    | None => None
    end
  else None.
(** validate.go 377-408: the goroutines started, for the order [cs] in which the
    map Childs is iterated *)
Definition coherency_tasks (m : Model) (cs : list (string * Child)) : list (@task error) :=
  mapi (coherency_task (fun e => wrap e "resources")) (rs_objects (mo_res m)) ++
  flat_map (fun pc => mapi (coherency_task (fun e => wrap_path e "resources" (fst pc)))
                           (rs_objects (ch_res (snd pc)))) cs.

(** validate.go 370-414, Model.ValidateCoherency: [r] is a possible result *)
Definition model_coherency (m : Model) (r : error) : Prop :=
  exists cs errs, Permutation cs (mo_childs m) /\ outcome None (coherency_tasks m cs) errs /\
    r = wrap errs "model".
