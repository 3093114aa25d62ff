(** * The STL importer (importer/stl)

    A reader delivers [in_data], in pieces of any size, and then fails forever with [in_fin] (io.EOF or another
    error).  Readers that fail and then go on are not modelled, neither is running out of memory: importer/stl/binary.go 38
    allocates room for the declared number of facets before reading them. *)
From Coq Require Import ZArith.
From Verif Require Import GoBase GoNum GoFloat GoStrconv Types M_Core M_Geom.

(** io.EOF, io.ErrUnexpectedEOF, an error of the reader, bufio.ErrTooLong, ctx.Err() *)
Inductive serr := SEof | SUnexpectedEof | SRead (msg : string) | STooLong | SCtx.
Record Input := mkIn { in_data : string; in_fin : serr }.

(** importer/stl/decoder.go 18 *)
Definition size_of_header : nat := 300.
(** bufio.Reader.Peek(sizeOfHeader) on the unread input; the buffer holds 4096 bytes *)
Definition peek (i : Input) : string * option serr :=
  if Nat.leb size_of_header (String.length (in_data i)) then (stake size_of_header (in_data i), None) else (in_data i, Some (in_fin i)).
(** importer/stl/decoder.go 76-83, isASCII *)
Definition all_ascii (s : string) : bool := sall (fun c => (bN c <? 128)%N) s.
(** importer/stl/decoder.go 60-74, Decoder.isASCII; [None]: the loop has not ended after [fuel] rounds.  strings.ToLower is
    modelled on ASCII letters. *)
Fixpoint is_ascii (fuel : nat) (i : Input) : option (bool + serr) :=
  match fuel with
  | O => None
  | S f =>
      let (buff, err) := peek i in
      match err with
      | Some SEof => Some (inr SEof)
      | _ => if Nat.leb size_of_header (String.length buff)
             then let header := slower buff in Some (inl (String.prefix "solid" header && all_ascii header))
             else is_ascii f i
      end
  end.

Section Stl.
(** The platform's conversion of out-of-range floats (see M_Geom); whether the context is done when it is polled
    with that many triangles *)
Context (oor : f32 -> Z) (ctx_done : nat -> bool).
(** importer/stl/decoder.go 16 *)
Definition check_every : nat := 1000.

(** ** importer/stl/ascii.go *)
(** bufio.ScanLines: the lines without the newline; what follows the last newline is a line if it is not empty *)
Fixpoint lines_aux (cur s : string) : list string :=
  match s with
  | EmptyString => match cur with EmptyString => [] | _ => [cur] end
  | String c r => if ceq c "010" then cur :: lines_aux "" r else lines_aux (cur +++ String c "") r
  end.
Definition lines (s : string) : list string := lines_aux "" s.
(** dropCR *)
Fixpoint drop_cr (s : string) : string :=
  match s with
  | EmptyString => ""
  | String c EmptyString => if ceq c "013" then "" else s
  | String c r => String c (drop_cr r)
  end.
(** bufio.MaxScanTokenSize: a line and its newline must fit in 65536 bytes *)
Definition max_line : N := 65535.
(** The vertices of the mesh and the builder, nodes[:position], the triangles and nextFaceCheck *)
Record AState := mkA { a_mb : MB; a_nodes : list N; a_tris : list Triangle; a_next : nat }.
(** importer/stl/ascii.go 33-35: errors are ignored *)
Definition read_f32 (s : string) : f32 := fst (parse_float s).
Definition triangle (a b c : N) : Triangle := mkTri a b c 0 0 0 0 [].
(** importer/stl/ascii.go 43-52 and importer/stl/binary.go 47-55: poll the context *)
Definition poll (n next : nat) : option serr * nat :=
  if Nat.ltb next n then (if ctx_done n then Some SCtx else None, next + check_every) else (None, next).
(** importer/stl/ascii.go 29-55, the body of the loop *)
Definition ascii_line (l : string) (st : AState) : AState * option serr :=
  match fields (drop_cr l) with
  | [w; x; y; z] =>
      if seq w "vertex" then
        let (mb, n) := add_vertex oor (a_mb st) (P3 (read_f32 x) (read_f32 y) (read_f32 z)) in
        match a_nodes st with
        | [n0; n1] =>
            let tris := a_tris st ++ [triangle n0 n1 n] in
            let (err, next) := poll (List.length tris) (a_next st) in
            (mkA mb [] tris next, err)
        | nodes => (mkA mb (nodes ++ [n]) (a_tris st) (a_next st), None)
        end
      else (st, None)
  | _ => (st, None)
  end.
(** importer/stl/ascii.go 28-57 *)
Fixpoint ascii_loop (fin : serr) (ls : list string) (st : AState) : AState * option serr :=
  match ls with
  | [] => (st, match fin with SEof => None | e => Some e end)
  | l :: r =>
      if (max_line <? N.of_nat (String.length l))%N then (st, Some STooLong)
      else let (st, err) := ascii_line l st in
           match err with Some e => (st, Some e) | None => ascii_loop fin r st end
  end.
Definition mesh_of (mb : MB) (tris : list Triangle) : Mesh := mkMesh (mb_verts mb) [] tris [] [] [].
Definition decode_ascii (i : Input) : Mesh * option serr :=
  let (st, err) := ascii_loop (in_fin i) (lines (in_data i)) (mkA (new_builder []) [] [] check_every) in
  (mesh_of (a_mb st) (a_tris st), err).

(** ** importer/stl/binary.go *)
(** io.ReadFull by binary.Read *)
Definition read_full (n : nat) (i : Input) : (string * Input) + serr :=
  if Nat.leb n (String.length (in_data i)) then inl (stake n (in_data i), mkIn (sdrop n (in_data i)) (in_fin i))
  else inr (match in_data i, in_fin i with
            | EmptyString, e => e
            | _, SEof => SUnexpectedEof
            | _, e => e
            end).
(** The little-endian number *)
Fixpoint le_num (s : string) : N := match s with EmptyString => 0 | String c r => bN c + 256 * le_num r end.
Definition word32 (k : nat) (s : string) : N := le_num (stake 4 (sdrop k s)).
(** math.Float32frombits; the payload of a NaN is not kept *)
Definition f32_of_bits (n : N) : f32 :=
  let s := N.testbit n 31 in
  let e := ((n / 2 ^ 23) mod 2 ^ 8)%N in
  let m := (n mod 2 ^ 23)%N in
  if (e =? 255)%N then (if (m =? 0)%N then S754_infinity s else S754_nan)
  else if (e =? 0)%N then match m with N0 => S754_zero s | Npos p => S754_finite s p (-149) end
  else S754_finite s (N.succ_pos (m + 8388607)) (Z.of_N e - 150).
Definition float_at (k : nat) (s : string) : f32 := f32_of_bits (word32 k s).
Definition point_at (k : nat) (s : string) : Point3D := P3 (float_at k s) (float_at (k + 4) s) (float_at (k + 8) s).
(** importer/stl/binary.go 61-68, decodeFace *)
Definition decode_face (facet : string) (mb : MB) : MB * Triangle :=
  let (mb, a) := add_vertex oor mb (point_at 12 facet) in
  let (mb, b) := add_vertex oor mb (point_at 24 facet) in
  let (mb, c) := add_vertex oor mb (point_at 36 facet) in
  (mb, triangle a b c).
(** importer/stl/binary.go 41-58; [break] leaves the select statement only *)
Fixpoint binary_loop (n : nat) (i : Input) (mb : MB) (tris : list Triangle) (next : nat) (err : option serr) : MB * list Triangle * option serr :=
  match n with
  | O => (mb, tris, err)
  | S n =>
      match read_full 50 i with
      | inr e => (mb, tris, Some e)
      | inl (facet, i) =>
          let (mb, t) := decode_face facet mb in
          let tris := tris ++ [t] in
          let (err, next) := poll (List.length tris) next in
          binary_loop n i mb tris next err
      end
  end.
(** importer/stl/binary.go 30-59, decode *)
Definition decode_binary (i : Input) : Mesh * option serr :=
  match read_full 84 i with
  | inr e => (mesh_of (new_builder []) [], Some e)
  | inl (header, i) =>
      let '(mb, tris, err) := binary_loop (N.to_nat (word32 80 header)) i (new_builder []) [] check_every None in
      (mesh_of mb tris, err)
  end.

(** importer/stl/decoder.go 39-58, DecodeContext; [None]: no result after [fuel] rounds of isASCII *)
Definition decode_stl (fuel : nat) (i : Input) (m : Model) : option (Model * option serr) :=
  match is_ascii fuel i with
  | None => None
  | Some (inr e) => Some (m, Some e)
  | Some (inl b) =>
      let (mesh, err) := if b then decode_ascii i else decode_binary i in
      match err with
      | Some e => Some (m, Some e)
      | None =>
          let id := unused_id (mo_res m) in
          let o := mkObj id "" "" "" 0 0 0 mg_zero (Some mesh) None [] in
          let rs := mkRes (rs_assets (mo_res m)) (rs_objects (mo_res m) ++ [o]) (rs_any (mo_res m)) in
          let bu := mkBuild (bu_items (mo_build m) ++ [mkItem id matrix_zero "" mg_zero []]) (bu_any (mo_build m)) in
          Some (mkModel (mo_path m) (mo_lang m) (mo_units m) (mo_thumb m) rs bu (mo_atts m) (mo_exts m) (mo_md m) (mo_childs m)
                        (mo_rootrels m) (mo_rels m) (mo_any m) (mo_anyattr m), None)
      end
  end.
End Stl.
