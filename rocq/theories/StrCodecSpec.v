(** Specification vocabulary: text encodings, and how Python shows numbers. *)
From Verif Require Import Base Serialize StrCodec.
From Coq Require Import ZArith List Bool.
Import ListNotations.
Open Scope Z_scope.

(** Code points that are characters: no surrogates. *)
Definition scalar (c : Z) : Prop := 0 <= c < 55296 \/ 57344 <= c < 1114112.

(** UTF-8, by the bits of the code point in groups of six; the shortest form only (Unicode, table 3-6). *)
Inductive utf8_is : Z -> list Z -> Prop :=
| utf8_1 c : 0 <= c < 128 -> utf8_is c [c]
| utf8_2 a b : 0 <= b < 64 -> 128 <= 64 * a + b < 2048 -> utf8_is (64 * a + b) [192 + a; 128 + b]
| utf8_3 a b c : 0 <= b < 64 -> 0 <= c < 64 -> 2048 <= 4096 * a + 64 * b + c < 65536 -> scalar (4096 * a + 64 * b + c) ->
    utf8_is (4096 * a + 64 * b + c) [224 + a; 128 + b; 128 + c]
| utf8_4 a b c d : 0 <= b < 64 -> 0 <= c < 64 -> 0 <= d < 64 -> 65536 <= 262144 * a + 4096 * b + 64 * c + d < 1114112 ->
    utf8_is (262144 * a + 4096 * b + 64 * c + d) [240 + a; 128 + b; 128 + c; 128 + d].

(** One 16 bit unit, high byte first or last. *)
Definition unit_is (big : bool) (u : Z) (l : list Z) : Prop :=
  exists h t, is_byte h /\ is_byte t /\ u = 256 * h + t /\ l = (if big then [h; t] else [t; h]).
(** UTF-16: one unit, or a surrogate pair (Unicode, table 3-5). *)
Inductive utf16_is (big : bool) : Z -> list Z -> Prop :=
| utf16_1 c l : scalar c -> c < 65536 -> unit_is big c l -> utf16_is big c l
| utf16_2 h t l1 l2 : 0 <= h < 1024 -> 0 <= t < 1024 -> unit_is big (55296 + h) l1 -> unit_is big (56320 + t) l2 ->
    utf16_is big (65536 + 1024 * h + t) (l1 ++ l2).

(** The bytes of a character. *)
Definition char_is (e : codec) (c : Z) (l : list Z) : Prop :=
  match e with
  | Ascii => 0 <= c < 128 /\ l = [c]
  | Latin1 => 0 <= c < 256 /\ l = [c]
  | Utf8 => utf8_is c l
  | Utf16LE => utf16_is false c l
  | Utf16BE => utf16_is true c l
  end.
(** The bytes of a text: those of its characters. *)
Inductive text_is (e : codec) : list Z -> list Z -> Prop :=
| text_nil : text_is e [] []
| text_cons c s l r : char_is e c l -> text_is e s r -> text_is e (c :: s) (l ++ r).

(** The characters that an encoding has. *)
Definition has_char (e : codec) (c : Z) : Prop :=
  match e with Ascii => 0 <= c < 128 | Latin1 => 0 <= c < 256 | _ => scalar c end.

(** Decimal digits of a number, highest first, without leading zeros. *)
Fixpoint number_of (ds : list Z) (acc : Z) : Z := match ds with [] => acc | d :: r => number_of r (10 * acc + d) end.
Definition decimal_digits (n : Z) (ds : list Z) : Prop :=
  Forall (fun d => 0 <= d < 10) ds /\ number_of ds 0 = n /\ (n <> 0 -> exists d r, ds = d :: r /\ d <> 0) /\ (n = 0 -> ds = [0]).
Definition shows_int (n : Z) (text : list Z) : Prop :=
  exists ds, decimal_digits (Z.abs n) ds /\ text = (if n <? 0 then [45] else []) ++ map (Z.add 48) ds.

(** Bytes that repr() shows as they are: printable, no quote and no backslash. *)
Definition plain_byte (b : Z) : Prop := 32 <= b < 127 /\ b <> 39 /\ b <> 34 /\ b <> 92.

(** repr() of a bytes object in quotes [q]: printable characters as they are, the quote and the backslash behind a
    backslash, tab, newline and return as \t, \n and \r, and all others as \x and two hexadecimal digits. *)
Definition hex_digits : list Z := [48; 49; 50; 51; 52; 53; 54; 55; 56; 57; 97; 98; 99; 100; 101; 102].   (* 0123456789abcdef *)
Inductive shows_byte (q : Z) : Z -> list Z -> Prop :=
| sb_plain b : 32 <= b < 127 -> b <> q -> b <> 92 -> shows_byte q b [b]
| sb_quoted b : b = q \/ b = 92 -> shows_byte q b [92; b]
| sb_tab : shows_byte q 9 [92; 116]
| sb_newline : shows_byte q 10 [92; 110]
| sb_return : shows_byte q 13 [92; 114]
| sb_hex b x y : 0 <= b < 32 \/ 127 <= b < 256 -> b <> 9 -> b <> 10 -> b <> 13 ->
    nth_error hex_digits (Z.to_nat (b / 16)) = Some x -> nth_error hex_digits (Z.to_nat (b mod 16)) = Some y -> shows_byte q b [92; 120; x; y].
(** Double quotes if there are only single ones inside. *)
Definition quote_for (l : list Z) (q : Z) : Prop := In 39 l /\ ~ In 34 l /\ q = 34 \/ ~ (In 39 l /\ ~ In 34 l) /\ q = 39.
