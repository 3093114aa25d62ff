(** * The XML scanner (internal/xml/xml.go)

    The reader is modelled by the bytes it delivers before its error and that
    error, which it keeps returning ([fin]); Reader.v treats the buffering in
    between.  [ungetc] after [getc] puts the byte back, so a function that reads
    a byte and unreads it leaves the remaining input unchanged.  Attribute values
    live in a pool of buffers that is reused for the next element; all callers copy
    them, so they are plain strings.  The buffer of names and texts is modelled with its
    array, because character data is handed out without a copy.  stkEOF entries
    are never pushed ([pushEOF] has no caller) and are left out. *)
From Verif Require Import GoBase GoNum GoUtf8 GoFloat Types XmlTypes.

(** internal/xml/xml.go 534-539, mustNotEOF *)
Definition must_not_eof (e : xerr) : xerr :=
  match e with XEOF => XSyntax "unexpected EOF" | _ => e end.

(** internal/xml/xml.go 805-810 *)
Definition is_name_byte (c : ascii) : bool :=
  let n := bN c in
  (((65 <=? n) && (n <=? 90)) || ((97 <=? n) && (n <=? 122)) || ((48 <=? n) && (n <=? 57)))%N ||
  ceq c "_" || ceq c ":" || ceq c "." || ceq c "-".
(** [b < runSelf && !isNameByte(b)] fails *)
Definition in_name (c : ascii) : bool := (128 <=? bN c)%N || is_name_byte c.
(** internal/xml/xml.go 811-813, isName *)
Definition is_name (s : string) : bool := negb (seq s "").

Section Scan.
  Variable fin : xerr.

  (** internal/xml/xml.go 777-803, readName.  [RnNo]: false without an error. *)
  Inductive rname := RnOk (rest : string) (b : Buf) | RnNo (rest : string) (b : Buf) | RnErr (e : xerr) (b : Buf).
  Fixpoint read_name_loop (rest : string) (b : Buf) : rname :=
    match rest with
    | EmptyString => RnErr (must_not_eof fin) b
    | String c r => if in_name c then read_name_loop r (buf_put c b) else RnOk rest b
    end.
  Definition read_name (rest : string) (b : Buf) : rname :=
    match rest with
    | EmptyString => RnErr (must_not_eof fin) b
    | String c r => if in_name c then read_name_loop r (buf_put c b) else RnNo rest b
    end.

  (** internal/xml/xml.go 713-754: the names with a literal of their own, case by case *)
  Definition literal_name (s : string) : option string :=
    match s with
    | String a EmptyString =>
        if ceq a "x" then Some "x"
        else if ceq a "y" then Some "y"
        else if ceq a "z" then Some "z"
        else if ceq a "u" then Some "u"
        else if ceq a "v" then Some "v"
        else None
    | String a (String b EmptyString) =>
        if ceq a "v" then
          if ceq b "1" then Some "v1"
          else if ceq b "2" then Some "v2"
          else if ceq b "3" then Some "v3"
          else None
        else if ceq a "p" then
          if ceq b "1" then Some "p1"
          else if ceq b "2" then Some "p2"
          else if ceq b "3" then Some "p3"
          else None
        else None
    | _ =>
        if seq s "vertex" then Some "vertex"
        else if seq s "triangle" then Some "triangle"
        else if seq s "pid" then Some "pid"
        else if seq s "color" then Some "color"
        else None
    end.
  (** [copy(arr[:], b)] on an array of eight zero bytes *)
  Definition name_key (s : string) : string := stake 8 (s +++ of_chars (repeat "000"%char 8)).
  (** internal/xml/xml.go 705-772, name.  [cached] is true in the code; false is the function
      without the cache, for stating C33. *)
  Inductive nres := NOk (s rest : string) (names : list (string * string)) (b : Buf)
                  | NNo (rest : string) (b : Buf) | NErr (e : xerr) (b : Buf).
  Variable cached : bool.
  Definition name (rest : string) (names : list (string * string)) (b : Buf) : nres :=
    match read_name rest (buf_reset b) with
    | RnErr e b => NErr e b
    | RnNo rest b => NNo rest b
    | RnOk rest b =>
        let s := b_cur b in
        match literal_name s with
        | Some l => NOk l rest names b
        | None =>
          let small := cached && (String.length s <=? 8)%nat in
          match (if small then aget seq (name_key s) names else None) with
          | Some v => NOk v rest names b
          | None =>
              if is_name s then NOk s rest (if small then aset seq (name_key s) s names else names) b
              else NErr (XSyntax ("invalid XML name: " +++ s)) b
          end
        end
    end.
  (** internal/xml/xml.go 687-700, nsname: the split at the first colon *)
  Definition ns_name (s : string) : Name :=
    match split_at ":" s with Some (p, l) => mkName p l | None => mkName "" s end.

  (** internal/xml/xml.go 506-519, space *)
  Definition is_space (c : ascii) : bool :=
    ceq c " " || ceq c (byte 13) || ceq c (byte 10) || ceq c (byte 9).
  Fixpoint space (rest : string) : string :=
    match rest with
    | String c r => if is_space c then space r else rest
    | EmptyString => EmptyString
    end.

  (** internal/xml/xml.go 546-552 *)
  Definition entity : list (string * N) := [("lt", 60%N); ("gt", 62%N); ("amp", 38%N); ("apos", 39%N); ("quot", 34%N)].
  (** internal/xml/xml.go 613-619: the digits of a character reference *)
  Definition is_ref_digit (base : N) (c : ascii) : bool :=
    match hexval c with Some d => (d <? base)%N | None => false end.
  Fixpoint ref_digits (base : N) (rest : string) (b : Buf) : string * Buf :=
    match rest with
    | EmptyString => (rest, b)
    | String c r => if is_ref_digit base c then ref_digits base r (buf_put c b) else (rest, b)
    end.
  (** internal/xml/xml.go 584-668: an entity, after its '&'.  [EOk]: the text and the buffer
      with the text in place of the reference. *)
  Inductive ent := EOk (rest : string) (b : Buf) | EErr (e : xerr) (b : Buf).
  Definition bad_entity (before : nat) (b : Buf) : ent :=
    let t := sdrop before (b_cur b) in
    let semi := match rev (chars t) with c :: _ => ceq c ";" | [] => false end in
    EErr (XSyntax ("invalid character entity " +++ t +++ (if semi then "" else " (no semicolon)"))) b.
  Definition good_entity (before : nat) (text : string) (rest : string) (b : Buf) : ent :=
    EOk rest (buf_write text (buf_truncate before b)).
  Definition char_ref (before : nat) (base : N) (rest : string) (b : Buf) : ent :=
    let start := String.length (b_cur b) in
    let (rest, b) := ref_digits base rest b in
    match rest with
    | EmptyString => EErr (must_not_eof fin) b
    | String c rest' =>
        if ceq c ";" then
          let s := sdrop start (b_cur b) in
          let b := buf_put ";" b in
          match parse_base base s with
          | Some n => if (n <=? max_rune)%N then good_entity before (rune_string n) rest' b
                      else bad_entity before b
          | None => bad_entity before b
          end
        else bad_entity before b
    end.
  Definition named_ref (before : nat) (rest : string) (b : Buf) : ent :=
    let after rest b :=
      match rest with
      | EmptyString => EErr (must_not_eof fin) b
      | String c rest' =>
          if ceq c ";" then
            let nm := sdrop (before + 1) (b_cur b) in
            let b := buf_put ";" b in
            if is_name nm then
              match aget seq nm entity with
              | Some r => good_entity before (rune_string r) rest' b
              | None => bad_entity before b
              end
            else bad_entity before b
          else bad_entity before b
      end in
    match read_name rest b with
    | RnErr e b => EErr e b
    | RnNo rest b => after rest b
    | RnOk rest b => after rest b
    end.
  Definition scan_entity (rest : string) (b : Buf) : ent :=
    let before := String.length (b_cur b) in
    let b := buf_put "&" b in
    match rest with
    | EmptyString => EErr (must_not_eof fin) b
    | String c r =>
        if ceq c "#" then
          let b := buf_put "#" b in
          match r with
          | EmptyString => EErr (must_not_eof fin) b
          | String c2 r2 =>
              if ceq c2 "x" then
                let b := buf_put "x" b in
                match r2 with
                | EmptyString => EErr (must_not_eof fin) b
                | _ => char_ref before 16 r2 b
                end
              else char_ref before 10 r b
          end
        else named_ref before rest b
    end.

  (** internal/xml/xml.go 558-683, text; [quote] is the closing quote of an attribute value and
      [b1] the previous byte.  [TOk]: the text is the contents of the buffer; the error
      is that left in d.err (the end of the input ends a text). *)
  Inductive txt := TOk (rest : string) (err : option xerr) (b : Buf) | TErr (e : xerr) (b : Buf) | TOut.
  Fixpoint text_loop (fuel : nat) (quote : option ascii) (b1 : ascii) (rest : string) (b : Buf) : txt :=
    match fuel with
    | O => TOut
    | S f =>
        match rest with
        | EmptyString => TOk "" (Some fin) b
        | String c r =>
            if ceq c "<" then
              match quote with
              | Some _ => TErr (XSyntax "unescaped < inside quoted string") b
              | None => TOk rest None b
              end
            else if match quote with Some q => ceq c q | None => false end then TOk r None b
            else if ceq c "&" then
              match scan_entity r b with
              | EOk r b => text_loop f quote (byte 0) r b
              | EErr e b => TErr e b
              end
            else if ceq c (byte 13) then text_loop f quote c r (buf_put (byte 10) b)
            else if ceq b1 (byte 13) && ceq c (byte 10) then text_loop f quote c r b
            else text_loop f quote c r (buf_put c b)
        end
    end.
  Definition text (quote : option ascii) (rest : string) (b : Buf) : txt :=
    text_loop (S (String.length rest)) quote (byte 0) rest (buf_reset b).

  (** internal/xml/xml.go 490-503, attrval *)
  Definition attrval (rest : string) (b : Buf) : txt :=
    match rest with
    | EmptyString => TErr (must_not_eof fin) b
    | String c r =>
        if ceq c """" || ceq c "'" then text (Some c) r b
        else TErr (XSyntax "unquoted or missing attribute value in element") b
    end.

  (** internal/xml/xml.go 416-479: the attributes of a start tag, up to its end *)
  Inductive attrs_res :=
  | AOk (attrs : list Attr) (empty : bool) (rest : string) (names : list (string * string)) (b : Buf)
  | AErr (e : xerr) (names : list (string * string)) (b : Buf)
  | AOut.
  Fixpoint attrs_loop (fuel : nat) (acc : list Attr) (rest : string) (names : list (string * string)) (b : Buf) : attrs_res :=
    match fuel with
    | O => AOut
    | S f =>
        match space rest with
        | EmptyString => AErr (must_not_eof fin) names b
        | String c r =>
            if ceq c "/" then
              match r with
              | EmptyString => AErr (must_not_eof fin) names b
              | String c2 r2 => if ceq c2 ">" then AOk (rev acc) true r2 names b
                                else AErr (XSyntax "expected /> in element") names b
              end
            else if ceq c ">" then AOk (rev acc) false r names b
            else
              match name (String c r) names b with
              | NErr e b => AErr e names b
              | NNo _ b => AErr (XSyntax "expected attribute name in element") names b
              | NOk s rest names b =>
                  match space rest with
                  | EmptyString => AErr (must_not_eof fin) names b
                  | String c r =>
                      if ceq c "=" then
                        match attrval (space r) b with
                        | TOk rest _ b => attrs_loop f (mkAttr (ns_name s) (b_cur b) :: acc) rest names b
                        | TErr e b => AErr e names b
                        | TOut => AOut
                        end
                      else AErr (XSyntax "attribute name without = in element") names b
                  end
              end
        end
    end.

  (** internal/xml/xml.go 392-402: a processing instruction, up to "?>" *)
  Fixpoint proc_inst (b0 : ascii) (rest : string) (b : Buf) : option string * Buf :=
    match rest with
    | EmptyString => (None, b)
    | String c r =>
        let b := buf_put c b in
        if ceq b0 "?" && ceq c ">" then (Some r, b) else proc_inst c r b
    end.

  (** What one call of RawToken reads (internal/xml/xml.go 337-487).  After an error the rest of the
      input is not looked at again. *)
  Inductive lex_res :=
  | LTok (t : raw) (rest : string) (err : option xerr) (names : list (string * string)) (b : Buf)
  | LErr (e : xerr) (names : list (string * string)) (b : Buf)
  | LOut.
  Definition lex (rest : string) (names : list (string * string)) (b : Buf) : lex_res :=
    match rest with
    | EmptyString => LErr fin names b
    | String c r =>
        if negb (ceq c "<") then
          match text None rest b with
          | TOk rest err b => LTok (RwChar (b_cur b) (buf_ref b)) rest err names b
          | TErr e b => LErr e names b
          | TOut => LOut
          end
        else
          match r with
          | EmptyString => LErr (must_not_eof fin) names b
          | String c2 r2 =>
              if ceq c2 "/" then
                match name r2 names b with
                | NErr e b => LErr e names b
                | NNo _ b => LErr (XSyntax "expected element name after </") names b
                | NOk s rest names b =>
                    match space rest with
                    | EmptyString => LErr (must_not_eof fin) names b
                    | String c3 r3 =>
                        if ceq c3 ">" then LTok (RwEnd (ns_name s)) r3 None names b
                        else LErr (XSyntax ("invalid characters between </" +++ nlocal (ns_name s) +++ " and >")) names b
                    end
                end
              else if ceq c2 "?" then
                match name r2 names b with
                | NErr e b => LErr e names b
                | NNo _ b => LErr (XSyntax "expected target name after <?") names b
                | NOk _ rest names b =>
                    match proc_inst (byte 0) (space rest) b with
                    | (Some rest, b) => LTok RwInst rest None names b
                    | (None, b) => LErr (must_not_eof fin) names b
                    end
                end
              else
                match name r names b with
                | NErr e b => LErr e names b
                | NNo _ b => LErr (XSyntax "expected element name after <") names b
                | NOk s rest names b =>
                    match attrs_loop (S (String.length rest)) [] rest names b with
                    | AOk attrs empty rest names b => LTok (RwStart (ns_name s) attrs empty) rest None names b
                    | AErr e names b => LErr e names b
                    | AOut => LOut
                    end
                end
          end
    end.
End Scan.

(** ** Namespaces and the element stack *)
(** internal/xml/xml.go 190-200: stkStart and stkNs entries *)
Inductive StkEl := SStart (n : Name) | SNs (local url : string) (ok : bool).

(** The state of a Decoder, internal/xml/xml.go 89-103.  [d_close]: needClose and toClose. *)
Record Dec := mkDec {
  d_rest : string; d_err : option xerr; d_stk : list StkEl; d_close : option Name;
  d_ns : list (string * string); d_names : list (string * string); d_buf : Buf }.
(** internal/xml/xml.go 105-120, NewDecoder *)
Definition dec_new (input : string) : Dec := mkDec input None [] None [] [] buf_new.

(** internal/xml/xml.go 160-164 *)
Definition xml_url : string := "http://www.w3.org/XML/1998/namespace".
(** internal/xml/xml.go 169-183, translate *)
Definition translate (ns : list (string * string)) (n : Name) (is_elem : bool) : Name :=
  if seq (nspace n) "xmlns" then n
  else if seq (nspace n) "" && negb is_elem then n
  else
    let look n := match aget seq (nspace n) ns with Some v => mkName v (nlocal n) | None => n end in
    if seq (nspace n) "xml" then look (mkName xml_url (nlocal n))
    else if seq (nspace n) "" && seq (nlocal n) "xmlns" then n
    else look n.
(** internal/xml/xml.go 125-138: the declarations of a start tag *)
Fixpoint declare (attrs : list Attr) (ns : list (string * string)) (stk : list StkEl) : list (string * string) * list StkEl :=
  match attrs with
  | [] => (ns, stk)
  | a :: r =>
      let push k :=
        let (v, ok) := match aget seq k ns with Some v => (v, true) | None => ("", false) end in
        (aset seq k (avalue a) ns, SNs k v ok :: stk) in
      let '(ns, stk) :=
        if seq (nspace (aname a)) "xmlns" then push (nlocal (aname a))
        else if seq (nspace (aname a)) "" && seq (nlocal (aname a)) "xmlns" then push ""
        else (ns, stk) in
      declare r ns stk
  end.
(** internal/xml/xml.go 308-315: undo the declarations of the closed element *)
Fixpoint undo (ns : list (string * string)) (stk : list StkEl) : list (string * string) * list StkEl :=
  match stk with
  | SNs k v ok :: r => undo (if ok then aset seq k v ns else adel seq k ns) r
  | _ => (ns, stk)
  end.

(** One call of RawToken: it returns nil after an event or none, or an error *)
Inductive tok_res :=
| RTok (ev : list event) (d : Dec)
| RErr (e : xerr) (d : Dec)
| ROut.
(** internal/xml/xml.go 124-147, handleStartElement *)
Definition handle_start (d : Dec) (n : Name) (attrs : list Attr) : tok_res :=
  let (ns, stk) := declare attrs (d_ns d) (d_stk d) in
  let n' := translate ns n true in
  let attrs' := map (fun a => mkAttr (translate ns (aname a) false) (avalue a)) attrs in
  RTok [EvStart n' attrs'] (mkDec (d_rest d) (d_err d) (SStart n' :: stk) (d_close d) ns (d_names d) (d_buf d)).
(** internal/xml/xml.go 149-158 and 288-316, handleEndElement and popElement *)
Definition handle_end (d : Dec) (n : Name) : tok_res :=
  let n := translate (d_ns d) n true in
  let fail stk msg := RErr (XSyntax msg) (mkDec (d_rest d) (Some (XSyntax msg)) stk (d_close d) (d_ns d) (d_names d) (d_buf d)) in
  match d_stk d with
  | SStart m :: r =>
      if negb (seq (nlocal m) (nlocal n)) then
        fail r ("element <" +++ nlocal m +++ "> closed by </" +++ nlocal n +++ ">")
      else if negb (seq (nspace m) (nspace n)) then
        fail r ("element <" +++ nlocal m +++ "> in space " +++ nspace m +++ "closed by </" +++ nlocal n +++
                "> in space " +++ nspace n)
      else
        let (ns, stk) := undo (d_ns d) r in
        RTok [EvEnd n] (mkDec (d_rest d) (d_err d) stk (d_close d) ns (d_names d) (d_buf d))
  | stk => fail (tl stk) ("unexpected end element </" +++ nlocal n +++ ">")
  end.
(** The error returned for [e]: at the end of the input open elements make it a
    syntax error (internal/xml/xml.go 323-325, 340-342) *)
Definition eof_err (e : xerr) (stk : list StkEl) : xerr :=
  match e, stk with XEOF, _ :: _ => XSyntax "unexpected EOF" | _, _ => e end.
(** internal/xml/xml.go 318-488, RawToken *)
Definition raw_token (fin : xerr) (cached : bool) (d : Dec) : tok_res :=
  match d_err d with
  | Some e => let e := eof_err e (d_stk d) in
              RErr e (mkDec (d_rest d) (Some e) (d_stk d) (d_close d) (d_ns d) (d_names d) (d_buf d))
  | None =>
      match d_close d with
      | Some n => handle_end (mkDec (d_rest d) None (d_stk d) None (d_ns d) (d_names d) (d_buf d)) n
      | None =>
          match lex fin cached (d_rest d) (d_names d) (d_buf d) with
          | LOut => ROut
          | LErr e names b =>
              let e := match d_rest d with EmptyString => eof_err e (d_stk d) | _ => e end in
              RErr e (mkDec "" (Some e) (d_stk d) None (d_ns d) names b)
          | LTok t rest err names b =>
              let d' close := mkDec rest err (d_stk d) close (d_ns d) names b in
              match t with
              | RwStart n attrs empty => handle_start (d' (if empty then Some n else None)) n attrs
              | RwEnd n => handle_end (d' None) n
              | RwChar now r => RTok [EvChar now r] (d' None)
              | RwInst => RTok [] (d' None)
              end
          end
      end
  end.

(** The calls of RawToken until the first error *)
Inductive scan_res := SDone (evs : list event) (e : xerr) (d : Dec) | SOut.
Fixpoint scan_loop (fin : xerr) (cached : bool) (fuel : nat) (d : Dec) : scan_res :=
  match fuel with
  | O => SOut
  | S f =>
      match raw_token fin cached d with
      | RErr e d => SDone [] e d
      | ROut => SOut
      | RTok ev d =>
          match scan_loop fin cached f d with
          | SDone evs e d => SDone (ev ++ evs) e d
          | SOut => SOut
          end
      end
  end.
(** Enough steps for any input: see C32. *)
Definition scan_fuel (input : string) : nat := 2 * String.length input + 2.
Definition scan (fin : xerr) (input : string) : scan_res :=
  scan_loop fin true (scan_fuel input) (dec_new input).

(** The runs of the scanner: what each call of RawToken read ([Lexed t], or [Closed n] when it
    supplied the end of an empty-element tag), the events and the state reached. *)
Definition step_of (fin : xerr) (cached : bool) (d : Dec) : option step :=
  match d_close d with
  | Some n => Some (Closed n)
  | None => match lex fin cached (d_rest d) (d_names d) (d_buf d) with LTok t _ _ _ _ => Some (Lexed t) | _ => None end
  end.
Inductive Run (fin : xerr) (cached : bool) (input : string) : list step -> list event -> Dec -> Prop :=
| RunNew : Run fin cached input [] [] (dec_new input)
| RunStep l evs d s ev d' : Run fin cached input l evs d -> raw_token fin cached d = RTok ev d' ->
    step_of fin cached d = Some s -> Run fin cached input (l ++ [s]) (evs ++ ev) d'.
