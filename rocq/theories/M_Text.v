(** * Colours (spec/utils.go 15-58) and UUIDs (uuid/uuid.go) *)
From Verif Require Import GoBase GoFloat Types.

(** spec/utils.go 22-33, hexToByte; the boolean is "err is unchanged". *)
Definition hex_to_byte (b : ascii) : N * bool :=
  let n := bN b in
  if ((48 <=? n) && (n <=? 57))%N then ((n - 48)%N, true)
  else if ((97 <=? n) && (n <=? 102))%N then ((n - 97 + 10)%N, true)
  else if ((65 <=? n) && (n <=? 70))%N then ((n - 65 + 10)%N, true)
  else (0%N, false).
(** hexToByte(a)<<4 + hexToByte(b), in a byte *)
Definition hex_pair (a b : ascii) : N * bool :=
  let (x, ok1) := hex_to_byte a in
  let (y, ok2) := hex_to_byte b in
  (((x * 16 + y) mod 256)%N, ok1 && ok2).
Definition rgba_zero := mkRGBA 0 0 0 0.
(** spec/utils.go 15-50, ParseRGBA: the colour left in [c] and whether err is nil *)
Definition parse_rgba (s : string) : RGBA * bool :=
  match s with
  | EmptyString => (rgba_zero, false)
  | String h t =>
      if negb (ceq h "#") then (rgba_zero, false) else
      match t with
      | String c1 (String c2 (String c3 (String c4 (String c5 (String c6 u))))) =>
          let (r, o1) := hex_pair c1 c2 in
          let (g, o2) := hex_pair c3 c4 in
          let (b, o3) := hex_pair c5 c6 in
          match u with
          | EmptyString => (mkRGBA r g b 255, o1 && o2 && o3)
          | String c7 (String c8 EmptyString) =>
              let (a, o4) := hex_pair c7 c8 in (mkRGBA r g b a, o1 && o2 && o3 && o4)
          | _ => (rgba_zero, false)
          end
      | _ => (rgba_zero, false)
      end
  end.

(** A lower-case hexadecimal digit: fmt "%x" and encoding/hex. *)
Definition hex_digit (d : N) : ascii :=
  if (d <? 10)%N then ascii_of_N (48 + d) else ascii_of_N (87 + d).
(** fmt "%02x" of a byte; also one byte of hex.Encode *)
Definition hex2 (n : N) : string :=
  String (hex_digit (n / 16)) (String (hex_digit (n mod 16)) "").
(** spec/utils.go 53-58, FormatRGBA *)
Definition format_rgba (c : RGBA) : string :=
  if (cA c =? 255)%N then "#" +++ hex2 (cR c) +++ hex2 (cG c) +++ hex2 (cB c)
  else "#" +++ hex2 (cR c) +++ hex2 (cG c) +++ hex2 (cB c) +++ hex2 (cA c).

(** ** uuid *)
(** hex.Encode *)
Fixpoint hex_encode (s : string) : string :=
  match s with EmptyString => "" | String c r => hex2 (bN c) +++ hex_encode r end.
(** s[i] = f(s[i]) *)
Fixpoint upd_byte (i : nat) (f : N -> N) (s : string) : string :=
  match s, i with
  | EmptyString, _ => EmptyString
  | String c r, O => String (ascii_of_N (f (bN c))) r
  | String c r, S j => String c (upd_byte j f r)
  end.
(** uuid/uuid.go 143-153, encodeHex *)
Definition uuid_encode (u : string) : string :=
  hex_encode (stake 4 u) +++ "-" +++ hex_encode (stake 2 (sdrop 4 u)) +++ "-" +++
  hex_encode (stake 2 (sdrop 6 u)) +++ "-" +++ hex_encode (stake 2 (sdrop 8 u)) +++ "-" +++
  hex_encode (sdrop 10 u).
(** uuid/uuid.go 35-46, New; [rnd] is the 16 bytes io.ReadFull delivered.  A failing random
    source makes New panic; that is not modelled. *)
Definition uuid_new (rnd : string) : string :=
  let u := upd_byte 6 (fun b => N.lor (N.land b 15) 64) rnd in
  let u := upd_byte 8 (fun b => N.lor (N.land b 63) 128) u in
  uuid_encode u.

(** uuid/uuid.go 61-85: xvalues[c] != 255 *)
Definition is_xdigit (c : ascii) : bool := snd (hex_to_byte c).
(** xtob's second result, on s[i] and s[i+1]; [None] would be an index out of range *)
Definition xtob_at (s : string) (i : nat) : bool :=
  match sget i s, sget (i + 1) s with
  | Some a, Some b => is_xdigit a && is_xdigit b
  | _, _ => false
  end.
Definition dash_at (s : string) (i : nat) : bool :=
  match sget i s with Some c => ceq c "-" | None => false end.
(** uuid/uuid.go 121-140: the hyphenated form *)
Definition validate36 (s : string) : bool :=
  dash_at s 8 && dash_at s 13 && dash_at s 18 && dash_at s 23 &&
  forallb (xtob_at s) [0; 2; 4; 6; 9; 11; 14; 16; 19; 21; 24; 26; 28; 30; 32; 34].
(** uuid/uuid.go 53-58 and 93-141, Validate; true when the error is nil *)
Definition uuid_validate (s : string) : bool :=
  let n := String.length s in
  if Nat.eqb n 36 then validate36 s
  else if Nat.eqb n 45 then
    if seq (slower (stake 9 s)) "urn:uuid:" then validate36 (sdrop 9 s) else false
  else if Nat.eqb n 38 then validate36 (sdrop 1 s)
  else if Nat.eqb n 32 then
    forallb (fun i => xtob_at s (i * 2)) (List.seq 0 16)
  else false.
