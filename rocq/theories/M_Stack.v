(** * The stack of the scanner and its recycled nodes (internal/xml/xml.go 186-316)

    M_Xml has the stack as a list.  Here it is what the code has: nodes linked by pointers, with popped nodes kept for
    the next push.  A popped node is read by the caller of [pop] after it has been put on the free list. *)
From Verif Require Import GoBase GoNum GoUtf8 GoFloat Types XmlTypes StackTypes M_Xml.

Inductive mres (A : Type) := MOk (a : A) | MPanic | MOut.
Arguments MOk {A}. Arguments MPanic {A}. Arguments MOut {A}.

Definition upd (p : nat) (nd : Node) (l : list Node) : list Node := firstn p l ++ nd :: skipn (S p) l.
(** Reading through a pointer; [None]: it is nil *)
Definition deref (m : Nodes) (p : option nat) : option Node :=
  match p with Some p => nth_error (ns_mem m) p | None => None end.

(** internal/xml/xml.go 203-208 and 241-246: take a free node or make one *)
Definition take (m : Nodes) : nat * Nodes :=
  match ns_free m with
  | Some p =>
      match nth_error (ns_mem m) p with
      | Some nd => (p, mkNodes (ns_mem m) (ns_stk m) (nd_next nd))
      | None => (p, m)
      end
  | None => (length (ns_mem m), mkNodes (ns_mem m ++ [node_zero]) (ns_stk m) None)
  end.
(** Assigning a node through a pointer *)
Definition assign (p : nat) (f : Node -> Node) (m : Nodes) : Nodes :=
  match nth_error (ns_mem m) p with
  | Some nd => mkNodes (upd p (f nd) (ns_mem m)) (ns_stk m) (ns_free m)
  | None => m
  end.
Definition with_next (q : option nat) (nd : Node) : Node := mkNode q (nd_kind nd) (nd_name nd) (nd_ok nd).
Definition with_kind (k : Kind) (nd : Node) : Node := mkNode (nd_next nd) k (nd_name nd) (nd_ok nd).

(** internal/xml/xml.go 202-213, push *)
Definition push (k : Kind) (m : Nodes) : nat * Nodes :=
  let '(p, m) := take m in
  let m := assign p (with_next (ns_stk m)) m in
  let m := assign p (with_kind k) m in
  (p, mkNodes (ns_mem m) (Some p) (ns_free m)).
(** internal/xml/xml.go 215-223, pop *)
Definition pop (m : Nodes) : option nat * Nodes :=
  match ns_stk m with
  | Some p =>
      match nth_error (ns_mem m) p with
      | Some nd =>
          let m := mkNodes (ns_mem m) (nd_next nd) (ns_free m) in
          let m := assign p (with_next (ns_free m)) m in
          (Some p, mkNodes (ns_mem m) (ns_stk m) (Some p))
      | None => (Some p, m)
      end
  | None => (None, m)
  end.
(** internal/xml/xml.go 232-235 *)
Fixpoint find_start (fuel : nat) (m : Nodes) (p : option nat) : mres nat :=
  match fuel, p with
  | O, _ => MOut
  | _, None => MPanic
  | S f, Some q =>
      match nth_error (ns_mem m) q with
      | Some nd => match nd_kind nd with KStart => MOk q | _ => find_start f m (nd_next nd) end
      | None => MPanic
      end
  end.
(** internal/xml/xml.go 238-240 *)
Fixpoint skip_ns (fuel : nat) (m : Nodes) (q : nat) : mres nat :=
  match fuel with
  | O => MOut
  | S f =>
      match nth_error (ns_mem m) q with
      | None => MPanic
      | Some nd =>
          match nd_next nd with
          | None => MOk q
          | Some q' =>
              match nth_error (ns_mem m) q' with
              | Some nd' => match nd_kind nd' with KNs => skip_ns f m q' | _ => MOk q end
              | None => MPanic
              end
          end
      end
  end.
(** internal/xml/xml.go 225-250, pushEOF; nothing in the repository calls it *)
Definition push_eof (m : Nodes) : mres Nodes :=
  match find_start (S (length (ns_mem m))) m (ns_stk m) with
  | MOk q =>
      match skip_ns (S (length (ns_mem m))) m q with
      | MOk start =>
          let '(p, m) := take m in
          let m := assign p (with_kind KEOF) m in
          match nth_error (ns_mem m) start with
          | Some nd => MOk (assign start (with_next (Some p)) (assign p (with_next (nd_next nd)) m))
          | None => MPanic
          end
      | MPanic => MPanic
      | MOut => MOut
      end
  | MPanic => MPanic
  | MOut => MOut
  end.
(** internal/xml/xml.go 252-260, popEOF *)
Definition pop_eof (m : Nodes) : bool * Nodes :=
  match deref m (ns_stk m) with
  | Some nd => match nd_kind nd with KEOF => (true, snd (pop m)) | _ => (false, m) end
  | None => (false, m)
  end.
(** internal/xml/xml.go 262-266, pushElement *)
Definition push_element (n : Name) (m : Nodes) : Nodes :=
  let '(p, m) := push KStart m in assign p (fun nd => mkNode (nd_next nd) (nd_kind nd) n (nd_ok nd)) m.
(** internal/xml/xml.go 268-275, pushNs: the three assignments *)
Definition push_ns (l u : string) (ok : bool) (m : Nodes) : Nodes :=
  let '(p, m) := push KNs m in
  let m := assign p (fun nd => mkNode (nd_next nd) (nd_kind nd) (mkName (nspace (nd_name nd)) l) (nd_ok nd)) m in
  let m := assign p (fun nd => mkNode (nd_next nd) (nd_kind nd) (mkName u (nlocal (nd_name nd))) (nd_ok nd)) m in
  assign p (fun nd => mkNode (nd_next nd) (nd_kind nd) (nd_name nd) ok) m.

(** What the caller of pop reads in the node *)
Definition entry_of (nd : Node) : Entry :=
  match nd_kind nd with
  | KStart => EnStart (nd_name nd)
  | KNs => EnNs (nlocal (nd_name nd)) (nspace (nd_name nd)) (nd_ok nd)
  | KEOF => EnEof
  end.
Definition stack_op (o : StackOp) (m : Nodes) : mres (Nodes * StackOut) :=
  match o with
  | OElement n => MOk (push_element n m, OutNone)
  | ONs l u ok => MOk (push_ns l u ok m, OutNone)
  | OPop => let (p, m) := pop m in MOk (m, OutEntry (option_map entry_of (deref m p)))
  | OPushEof => match push_eof m with MOk m => MOk (m, OutNone) | MPanic => MPanic | MOut => MOut end
  | OPopEof => let (b, m) := pop_eof m in MOk (m, OutBool b)
  end.
Definition nodes_new : Nodes := mkNodes [] None None.
(** Any calls one after the other *)
Fixpoint stack_run (ops : list StackOp) (m : Nodes) : mres (Nodes * list StackOut) :=
  match ops with
  | [] => MOk (m, [])
  | o :: ops =>
      match stack_op o m with
      | MOk (m, out) =>
          match stack_run ops m with MOk (m, outs) => MOk (m, out :: outs) | MPanic => MPanic | MOut => MOut end
      | MPanic => MPanic
      | MOut => MOut
      end
  end.

(** ** The scanner with this stack *)
(** internal/xml/xml.go 88-104: the list [d_stk] of [h_dec] is not used *)
Record HDec := mkHDec { h_dec : Dec; h_nodes : Nodes }.
Definition hdec_new (input : string) : HDec := mkHDec (dec_new input) nodes_new.
(** internal/xml/xml.go 125-138 *)
Fixpoint declare_h (attrs : list Attr) (ns : list (string * string)) (m : Nodes) : list (string * string) * Nodes :=
  match attrs with
  | [] => (ns, m)
  | a :: r =>
      let step k ns m :=
        let (v, ok) := match aget seq k ns with Some v => (v, true) | None => ("", false) end in
        (aset seq k (avalue a) ns, push_ns k v ok m) in
      let '(ns, m) := if seq (nspace (aname a)) "xmlns" then step (nlocal (aname a)) ns m else (ns, m) in
      let '(ns, m) :=
        if seq (nspace (aname a)) "" && seq (nlocal (aname a)) "xmlns" then step "" ns m else (ns, m) in
      declare_h r ns m
  end.
Inductive htok_res := HTok (ev : list event) (d : HDec) | HErr (e : xerr) (d : HDec) | HOut.
Definition set_ns (d : Dec) (ns : list (string * string)) : Dec :=
  mkDec (d_rest d) (d_err d) (d_stk d) (d_close d) ns (d_names d) (d_buf d).
Definition set_err (d : Dec) (e : option xerr) : Dec :=
  mkDec (d_rest d) e (d_stk d) (d_close d) (d_ns d) (d_names d) (d_buf d).
(** internal/xml/xml.go 124-147, handleStartElement *)
Definition handle_start_h (d : Dec) (m : Nodes) (n : Name) (attrs : list Attr) : htok_res :=
  let (ns, m) := declare_h attrs (d_ns d) m in
  let n' := translate ns n true in
  let attrs' := map (fun a => mkAttr (translate ns (aname a) false) (avalue a)) attrs in
  HTok [EvStart n' attrs'] (mkHDec (set_ns d ns) (push_element n' m)).
(** internal/xml/xml.go 304-313; [fuel] bounds the iterations *)
Fixpoint undo_h (fuel : nat) (ns : list (string * string)) (m : Nodes) : option (list (string * string) * Nodes) :=
  match fuel with
  | O => None
  | S f =>
      match deref m (ns_stk m) with
      | Some nd =>
          match nd_kind nd with
          | KNs =>
              let (s, m) := pop m in
              match deref m s with
              | Some s =>
                  let k := nlocal (nd_name s) in
                  undo_h f (if nd_ok s then aset seq k (nspace (nd_name s)) ns else adel seq k ns) m
              | None => None
              end
          | _ => Some (ns, m)
          end
      | None => Some (ns, m)
      end
  end.
(** internal/xml/xml.go 149-158 and 282-316, handleEndElement and popElement *)
Definition handle_end_h (d : Dec) (m : Nodes) (n : Name) : htok_res :=
  let n := translate (d_ns d) n true in
  let (s, m) := pop m in
  let fail msg := HErr (XSyntax msg) (mkHDec (set_err d (Some (XSyntax msg))) m) in
  let unexpected := fail ("unexpected end element </" +++ nlocal n +++ ">") in
  match deref m s with
  | None => unexpected
  | Some s =>
      match nd_kind s with
      | KStart =>
          if negb (seq (nlocal (nd_name s)) (nlocal n)) then
            fail ("element <" +++ nlocal (nd_name s) +++ "> closed by </" +++ nlocal n +++ ">")
          else if negb (seq (nspace (nd_name s)) (nspace n)) then
            fail ("element <" +++ nlocal (nd_name s) +++ "> in space " +++ nspace (nd_name s) +++ "closed by </" +++
                  nlocal n +++ "> in space " +++ nspace n)
          else
            match undo_h (S (length (ns_mem m))) (d_ns d) m with
            | Some (ns, m) => HTok [EvEnd n] (mkHDec (set_ns d ns) m)
            | None => HOut
            end
      | _ => unexpected
      end
  end.
(** internal/xml/xml.go 323-325, 340-342 *)
Definition eof_err_h (e : xerr) (m : Nodes) : xerr :=
  match e, deref m (ns_stk m) with
  | XEOF, Some nd => match nd_kind nd with KEOF => XEOF | _ => XSyntax "unexpected EOF" end
  | _, _ => e
  end.
(** internal/xml/xml.go 318-488, RawToken *)
Definition raw_token_h (fin : xerr) (cached : bool) (h : HDec) : htok_res :=
  let d := h_dec h in
  let m := h_nodes h in
  let stopped := match deref m (ns_stk m) with Some nd => match nd_kind nd with KEOF => true | _ => false end | None => false end in
  if stopped then HErr XEOF h
  else
    match d_err d with
    | Some e => let e := eof_err_h e m in HErr e (mkHDec (set_err d (Some e)) m)
    | None =>
        match d_close d with
        | Some n => handle_end_h (mkDec (d_rest d) None (d_stk d) None (d_ns d) (d_names d) (d_buf d)) m n
        | None =>
            match lex fin cached (d_rest d) (d_names d) (d_buf d) with
            | LOut => HOut
            | LErr e names b =>
                let e := match d_rest d with EmptyString => eof_err_h e m | _ => e end in
                HErr e (mkHDec (mkDec "" (Some e) (d_stk d) None (d_ns d) names b) m)
            | LTok t rest err names b =>
                let d' close := mkDec rest err (d_stk d) close (d_ns d) names b in
                match t with
                | RwStart n attrs empty => handle_start_h (d' (if empty then Some n else None)) m n attrs
                | RwEnd n => handle_end_h (d' None) m n
                | RwChar now r => HTok [EvChar now r] (mkHDec (d' None) m)
                | RwInst => HTok [] (mkHDec (d' None) m)
                end
            end
        end
    end.
(** The calls of RawToken until the first error *)
Fixpoint scan_loop_h (fin : xerr) (cached : bool) (fuel : nat) (h : HDec) : option (list event * xerr) :=
  match fuel with
  | O => None
  | S f =>
      match raw_token_h fin cached h with
      | HErr e _ => Some ([], e)
      | HOut => None
      | HTok ev h => match scan_loop_h fin cached f h with Some (evs, e) => Some (ev ++ evs, e) | None => None end
      end
  end.
