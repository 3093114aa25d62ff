(** * Specification of colour and UUID texts *)
From Verif Require Import GoBase GoFloat Types.

(** [c] is the hexadecimal digit of value [v], in either case. *)
Definition HexDigit (c : ascii) (v : N) : Prop :=
  sget (N.to_nat v) "0123456789abcdef" = Some c \/ sget (N.to_nat v) "0123456789ABCDEF" = Some c.
Definition HexByte (a b : ascii) (v : N) : Prop :=
  exists hi lo, HexDigit a hi /\ HexDigit b lo /\ v = (16 * hi + lo)%N.

(** '#' followed by two hexadecimal digits for each of red, green, blue and, optionally, alpha. *)
Inductive ColourText : string -> RGBA -> Prop :=
| ColourShort a1 a2 b1 b2 c1 c2 r g b :
    HexByte a1 a2 r -> HexByte b1 b2 g -> HexByte c1 c2 b ->
    ColourText (of_chars ["#"; a1; a2; b1; b2; c1; c2]%char) (mkRGBA r g b 255)
| ColourLong a1 a2 b1 b2 c1 c2 d1 d2 r g b a :
    HexByte a1 a2 r -> HexByte b1 b2 g -> HexByte c1 c2 b -> HexByte d1 d2 a ->
    ColourText (of_chars ["#"; a1; a2; b1; b2; c1; c2; d1; d2]%char) (mkRGBA r g b a).

(** Lower case, without a final "ff" alpha. *)
Definition colour_canonical (s : string) : string :=
  let l := slower s in
  if Nat.eqb (String.length l) 9 && seq (sdrop 7 l) "ff" then stake 7 l else l.

(** xxxxxxxx-xxxx-xxxx-xxxx-xxxxxxxxxxxx *)
Definition IsHex (c : ascii) : Prop := exists v, HexDigit c v.
Definition Hyphenated (s : string) : Prop :=
  String.length s = 36 /\
  forall i c, sget i s = Some c ->
    (In i [8; 13; 18; 23] -> c = "-"%char) /\ (~ In i [8; 13; 18; 23] -> IsHex c).
Definition Raw (s : string) : Prop :=
  String.length s = 32 /\ forall i c, sget i s = Some c -> IsHex c.
(** The forms the documentation of Validate lists. *)
Inductive UuidText : string -> Prop :=
| UPlain s : Hyphenated s -> UuidText s
| UUrn p s : slower p = "urn:uuid:" -> Hyphenated s -> UuidText (p +++ s)
| UBraces s : Hyphenated s -> UuidText ("{" +++ s +++ "}")
| URaw s : Raw s -> UuidText s.
(** The same with arbitrary bytes in place of the braces. *)
Inductive UuidTextLoose : string -> Prop :=
| ULPlain s : Hyphenated s -> UuidTextLoose s
| ULUrn p s : slower p = "urn:uuid:" -> Hyphenated s -> UuidTextLoose (p +++ s)
| ULBraces a b s : Hyphenated s -> UuidTextLoose (String a (s +++ String b ""))
| ULRaw s : Raw s -> UuidTextLoose s.

(** A version 4, variant RFC 4122 UUID in lower case. *)
Definition IsLowerHex (c : ascii) : Prop := In c (chars "0123456789abcdef").
Definition Uuid4 (s : string) : Prop :=
  String.length s = 36 /\
  (forall i c, sget i s = Some c ->
    (In i [8; 13; 18; 23] -> c = "-"%char) /\ (~ In i [8; 13; 18; 23] -> IsLowerHex c)) /\
  sget 14 s = Some "4"%char /\
  (exists c, sget 19 s = Some c /\ In c (chars "89ab")).
(** Random bytes agree outside the six fixed bits. *)
Definition SameFreeBits (r r' : string) : Prop :=
  (forall i, i <> 6 -> i <> 8 -> sget i r = sget i r') /\
  (forall a b, sget 6 r = Some a -> sget 6 r' = Some b -> (bN a mod 16 = bN b mod 16)%N) /\
  (forall a b, sget 8 r = Some a -> sget 8 r' = Some b -> (bN a mod 64 = bN b mod 64)%N).
