(** Specification: what the names of the numeric types say. *)
From Verif Require Import Base IntCodec.
From Coq Require Import ZArith List Bool String Ascii.
Open Scope string_scope.
Open Scope Z_scope.

Inductive byte_order : Type := BigEndian | LittleEndian | HostOrder.
Definition order_letter (c : ascii) : option byte_order :=
  if Ascii.eqb c "B" then Some BigEndian else if Ascii.eqb c "L" then Some LittleEndian
  else if Ascii.eqb c "N" then Some HostOrder else None.
Definition sign_letter (c : ascii) : option bool :=
  if Ascii.eqb c "S" then Some true else if Ascii.eqb c "U" then Some false else None.
Definition bits_word (s : string) : option Z :=
  if String.eqb s "8" then Some 8 else if String.eqb s "16" then Some 16
  else if String.eqb s "32" then Some 32 else if String.eqb s "64" then Some 64 else None.
(** [U] or [S], then [B], [L] or [N], then [Int] and the number of bits. *)
Definition integer_name (s : string) : option (bool * byte_order * Z) :=
  match s with
  | String a (String b (String "I" (String "n" (String "t" w)))) =>
      match sign_letter a, order_letter b, bits_word w with
      | Some sg, Some o, Some n => Some (sg, o, n)
      | _, _, _ => None
      end
  | _ => None
  end.
(** [B], [L] or [N], then [Float] and the number of bits. *)
Definition float_name (s : string) : option (byte_order * Z) :=
  match s with
  | String b (String "F" (String "l" (String "o" (String "a" (String "t" w))))) =>
      match order_letter b, bits_word w with Some o, Some n => Some (o, n) | _, _ => None end
  | _ => None
  end.

(** The integers that fit. *)
Definition fits (signed : bool) (bits z : Z) : Prop :=
  if signed then - 2 ^ (bits - 1) <= z < 2 ^ (bits - 1) else 0 <= z < 2 ^ bits.
Definition big_host (h : host) : bool := match h with HostBig => true | HostLittle => false end.
(** Does the byte of highest weight come first on this host? *)
Definition high_first (big_host : bool) (o : byte_order) : bool :=
  match o with BigEndian => true | LittleEndian => false | HostOrder => big_host end.
(** The bytes of a number of [bits] bits; negative numbers in two's complement. *)
Definition byte_at (high : bool) (bits z : Z) (i : Z) : Z :=
  (z / 256 ^ (if high then bits / 8 - 1 - i else i)) mod 256.
(** The byte of the lowest weight. *)
Definition low_byte (high : bool) (b : list Z) : Z := if high then last b 0 else hd 0 b.
