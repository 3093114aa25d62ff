(** * Go library fragments: UTF-8, strconv.ParseUint in base 16, bytes.Buffer, encoding/xml.EscapeText *)
From Verif Require Import GoBase GoNum.

(** ** unicode/utf8 *)
Definition byte (n : N) : ascii := ascii_of_N n.
Definition str1 (n : N) : string := String (byte n) "".
(** utf8.AppendRune on a rune in range that is no surrogate *)
Definition utf8_raw (r : N) : string :=
  if (r <? 128)%N then str1 r
  else if (r <? 2048)%N then str1 (192 + r / 64) +++ str1 (128 + r mod 64)
  else if (r <? 65536)%N then str1 (224 + r / 4096) +++ str1 (128 + (r / 64) mod 64) +++ str1 (128 + r mod 64)
  else str1 (240 + r / 262144) +++ str1 (128 + (r / 4096) mod 64) +++ str1 (128 + (r / 64) mod 64) +++ str1 (128 + r mod 64).
Definition is_surrogate (r : N) : bool := ((55296 <=? r) && (r <=? 57343))%N.
Definition max_rune : N := 1114111.
Definition rune_error : N := 65533.
(** string(rune(r)) *)
Definition rune_string (r : N) : string :=
  if is_surrogate r || (max_rune <? r)%N then utf8_raw rune_error else utf8_raw r.

(** utf8.DecodeRune: the rune and its width; (RuneError, 1) for an invalid
    encoding.  The bounds on the second byte are those of acceptRanges. *)
Definition cont (c : ascii) : bool := ((128 <=? bN c) && (bN c <=? 191))%N.
Definition in_range (lo hi : N) (c : ascii) : bool := ((lo <=? bN c) && (bN c <=? hi))%N.
Definition decode_rune (s : string) : N * nat :=
  match s with
  | EmptyString => (rune_error, 0)
  | String c0 r0 =>
      let b0 := bN c0 in
      if (b0 <? 128)%N then (b0, 1)
      else if (b0 <? 194)%N then (rune_error, 1)
      else if (b0 <? 224)%N then
        match r0 with
        | String c1 _ => if cont c1 then (((b0 - 192) * 64 + (bN c1 - 128))%N, 2) else (rune_error, 1)
        | _ => (rune_error, 1)
        end
      else if (b0 <? 240)%N then
        let lo := if (b0 =? 224)%N then 160%N else 128%N in
        let hi := if (b0 =? 237)%N then 159%N else 191%N in
        match r0 with
        | String c1 (String c2 _) =>
            if in_range lo hi c1 && cont c2
            then (((b0 - 224) * 4096 + (bN c1 - 128) * 64 + (bN c2 - 128))%N, 3) else (rune_error, 1)
        | _ => (rune_error, 1)
        end
      else if (b0 <? 245)%N then
        let lo := if (b0 =? 240)%N then 144%N else 128%N in
        let hi := if (b0 =? 244)%N then 143%N else 191%N in
        match r0 with
        | String c1 (String c2 (String c3 _)) =>
            if in_range lo hi c1 && cont c2 && cont c3
            then (((b0 - 240) * 262144 + (bN c1 - 128) * 4096 + (bN c2 - 128) * 64 + (bN c3 - 128))%N, 4)
            else (rune_error, 1)
        | _ => (rune_error, 1)
        end
      else (rune_error, 1)
  end.

(** ** encoding/xml.EscapeText (escapeText with escapeNewline = true) *)
(** isInCharacterRange *)
Definition xml_char (r : N) : bool :=
  ((r =? 9) || (r =? 10) || (r =? 13) || ((32 <=? r) && (r <=? 55295)) ||
   ((57344 <=? r) && (r <=? 65533)) || ((65536 <=? r) && (r <=? 1114111)))%N.
Definition esc_fffd : string := utf8_raw rune_error.
(** The text written for a rune [r] of width [w] whose bytes are [raw] *)
Definition esc_rune (r : N) (w : nat) (raw : string) : string :=
  if (r =? 34)%N then "&#34;"
  else if (r =? 39)%N then "&#39;"
  else if (r =? 38)%N then "&amp;"
  else if (r =? 60)%N then "&lt;"
  else if (r =? 62)%N then "&gt;"
  else if (r =? 9)%N then "&#x9;"
  else if (r =? 10)%N then "&#xA;"
  else if (r =? 13)%N then "&#xD;"
  else if negb (xml_char r) || ((r =? rune_error)%N && Nat.eqb w 1) then esc_fffd
  else raw.
Fixpoint escape_loop (fuel : nat) (s : string) : string :=
  match fuel, s with
  | S f, String _ _ =>
      let (r, w) := decode_rune s in
      esc_rune r w (stake w s) +++ escape_loop f (sdrop w s)
  | _, _ => EmptyString
  end.
(** Every rune has a positive width, so the length of the text bounds the number of runes. *)
Definition escape_text (s : string) : string := escape_loop (String.length s) s.

(** ** strconv.ParseUint(s, 16, 64) and (s, 10, 64); [None] is a non-nil error *)
Definition hexval (c : ascii) : option N :=
  let n := bN c in
  if ((48 <=? n) && (n <=? 57))%N then Some (n - 48)%N
  else if ((97 <=? n) && (n <=? 102))%N then Some (n - 87)%N
  else if ((65 <=? n) && (n <=? 70))%N then Some (n - 55)%N
  else None.
Definition max_uint64 : N := 18446744073709551615.
Fixpoint parse_base_aux (base n : N) (s : string) : option N :=
  match s with
  | EmptyString => Some n
  | String c r =>
      match hexval c with
      | Some d => if (d <? base)%N then
                    let n1 := (n * base + d)%N in
                    if (max_uint64 <? n1)%N then None else parse_base_aux base n1 r
                  else None
      | None => None
      end
  end.
Definition parse_base (base : N) (s : string) : option N :=
  match s with EmptyString => None | _ => parse_base_aux base 0 s end.

(** ** bytes.Buffer without reads, so its offset is 0.  [b_cur] is its contents, [b_tail] the
    bytes of its array that were written before and lie beyond its length, [b_cap] the
    capacity; [b_old] are the arrays it used before growing, which stay as they were.
    Growth is that of Go 1.13 (64 bytes, then 2*cap+n); later versions round up. *)
Record Buf := mkBuf { b_old : list string; b_cur : string; b_tail : string; b_cap : nat }.
Definition buf_new : Buf := mkBuf [] "" "" 0.
(** Buffer.Reset and Buffer.Truncate *)
Definition buf_truncate (n : nat) (b : Buf) : Buf :=
  mkBuf (b_old b) (stake n (b_cur b)) (sdrop n (b_cur b) +++ b_tail b) (b_cap b).
Definition buf_reset (b : Buf) : Buf := mkBuf (b_old b) "" (b_cur b +++ b_tail b) (b_cap b).
(** Buffer.Write and Buffer.WriteByte *)
Definition buf_write (s : string) (b : Buf) : Buf :=
  let n := String.length s in
  if (String.length (b_cur b) + n <=? b_cap b)%nat
  then mkBuf (b_old b) (b_cur b +++ s) (sdrop n (b_tail b)) (b_cap b)
  else if (Nat.eqb (b_cap b) 0 && (n <=? 64)%nat)
  then mkBuf (b_old b) (b_cur b +++ s) "" 64
  else mkBuf (b_old b ++ [b_cur b +++ b_tail b]) (b_cur b +++ s) "" (2 * b_cap b + n).
Definition buf_put (c : ascii) (b : Buf) : Buf := buf_write (String c "") b.
(** A slice of the first [snd] bytes of the array number [fst], as given by
    Buffer.Bytes, and what it holds in a later state *)
Definition Ref := (nat * nat)%type.
Definition buf_ref (b : Buf) : Ref := (List.length (b_old b), String.length (b_cur b)).
Definition buf_deref (b : Buf) (r : Ref) : string :=
  stake (snd r) (match nth_error (b_old b) (fst r) with Some a => a | None => b_cur b +++ b_tail b end).

Lemma buf_cur_write s b : b_cur (buf_write s b) = b_cur b +++ s.
Proof. unfold buf_write. destruct (_ <=? _)%nat; [reflexivity|]. destruct (_ && _); reflexivity. Qed.
Lemma buf_cur_put c b : b_cur (buf_put c b) = b_cur b +++ String c "".
Proof. apply buf_cur_write. Qed.
Lemma buf_deref_now b : buf_deref b (buf_ref b) = b_cur b.
Proof.
  unfold buf_deref, buf_ref; cbn [fst snd].
  replace (nth_error (b_old b) (List.length (b_old b))) with (@None string).
  - apply stake_app_l.
  - symmetry. apply nth_error_None. lia.
Qed.
