(** Specification vocabulary for field packers and unpackers. *)
From Verif Require Import Base IntCodec CodecSpec Stream Marshal FieldSpec Range IoBuffer IoSpec Serialize.
From Coq Require Import ZArith List Bool.
Import ListNotations.
Open Scope Z_scope.

(** Two's complement or plain binary on [bits] bits. *)
Definition int_fits (signed : bool) (bits z : Z) : Prop :=
  if signed then - 2 ^ (bits - 1) <= z < 2 ^ (bits - 1) else 0 <= z < 2 ^ bits.

(** Which byte comes first. *)
Definition msb_first (h : host) (e : bendian) : Prop :=
  e = BBig \/ ((e = BNative \/ e = BUnspecified) /\ h = HostBig).

(** Byte [i] of the encoding of [z] on [n] bytes. *)
Definition int_byte (h : host) (e : bendian) (n z i b : Z) : Prop :=
  (msb_first h e -> b = (z / 256 ^ (n - 1 - i)) mod 256)
  /\ (~ msb_first h e -> b = (z / 256 ^ i) mod 256).

(** The widths that have struct codecs, except the 4 bytes of 'unspecified' endianness, for which
    struct uses the native size of a long, 8 bytes. *)
Definition struct_width (e : bendian) (s : isize) : Prop := ~ (e = BUnspecified /\ s = I32).

(** A width without a struct codec. *)
Definition odd_width (w : Z) : Prop := w <> 8 /\ w <> 16 /\ w <> 32 /\ w <> 64.

(** A view that a field can be read from, whose bits are [bits]. *)
Definition view_with (b : buf) (bits : list bool) : Prop := buf_ok b /\ is_view b /\ buf_bits b = bits.

(** ASCII text. *)
Definition is_ascii (l : list Z) : Prop := Forall (fun c => 0 <= c < 128) l.

(** [l] padded to [width] bytes with the byte [c]: on the right, on the left or on both sides (as
    evenly as possible). *)
Definition padded (j : justify) (c : Z) (width : Z) (l r : list Z) : Prop :=
  exists a b : nat, r = repeat c a ++ l ++ repeat c b /\ zlen r = Z.max width (zlen l)
    /\ match j with
       | JLeft => a = 0%nat
       | JRight => b = 0%nat
       | JCenter => (a = b \/ a = S b \/ b = S a)
       end.

(** Where a string field is stripped. *)
Definition strip_left (j : justify) : bool := match j with JLeft => false | _ => true end.
Definition strip_right (j : justify) : bool := match j with JRight => false | _ => true end.

(** The text of a field: what is left after trimming the bytes of [strip], then the padding. *)
Definition field_text (j : justify) (strip : list Z) (c : Z) (l core : list Z) : Prop :=
  exists mid, trims (strip_left j) (strip_right j) strip l mid
    /\ trims (strip_left j) (strip_right j) [c] mid core.

(** No byte of [set] where a string field is stripped. *)
Definition no_strip (j : justify) (set l : list Z) : Prop :=
  (strip_left j = true -> forall x t, l = x :: t -> ~ In x set)
  /\ (strip_right j = true -> forall x t, l = t ++ [x] -> ~ In x set).

(** The whole bit string of a list of elements, given the bits of each. *)
Definition concat_bits (l : list (list bool)) : list bool := List.concat l.

(** An element that is written as the bits [bits]. *)
Definition packs_as (pack : value -> res buf) (v : value) (bits : list bool) : Prop :=
  exists p, pack v = Ok p /\ buf_ok p /\ buf_bits p = bits.
(** An element unpacker that recognises [bits] as [v], whatever follows and whatever the index. *)
Definition unpacks_from (unpack : Z -> buf -> res (value * option Z)) (v : value) (bits : list bool) : Prop :=
  forall i b rest, view_with b (bits ++ rest) -> unpack i b = Ok (v, Some (zlen bits)).

(** [elements unpack b last i offset l offset']: starting with element number [i] at bit [offset],
    the elements [l] are read one behind the other; each gets the bits of [b] from its offset to
    [last] (to the end of [b] if there is no [last]); [offset'] is where the last one ends. *)
Inductive elements (unpack : Z -> buf -> res (value * option Z)) (b : buf) (last : option Z)
  : Z -> Z -> list value -> Z -> Prop :=
| elements_nil i offset : elements unpack b last i offset [] offset
| elements_cons i offset s v len l offset' :
    buf_slice b (Some offset) last = Ok s -> unpack i s = Ok (v, Some len) ->
    elements unpack b last (i + 1) (offset + len) l offset' ->
    elements unpack b last i offset (v :: l) offset'.

(** An element unpacker that uses at least one bit whenever it succeeds. *)
Definition consumes (unpack : Z -> buf -> res (value * option Z)) : Prop :=
  forall i b v len, unpack i b = Ok (v, Some len) -> 0 < len.
(** ... that does not go back, and does not look at the index. *)
Definition never_back (unpack : Z -> buf -> res (value * option Z)) : Prop :=
  forall i b v len, unpack i b = Ok (v, Some len) -> 0 <= len.
Definition ignores_index (unpack : Z -> buf -> res (value * option Z)) : Prop :=
  forall i j b, unpack i b = unpack j b.

(** The number of bytes an int takes. *)
Definition int_bytes (n : Z) : Z := cdiv8 (Z.max 1 (bit_length n)).

(** The [i]-th group of [w] bits (shorter at the end). *)
Definition cut (w : Z) (bits : list bool) (i : nat) : list bool :=
  firstn (Z.to_nat w) (skipn (i * Z.to_nat w) bits).
