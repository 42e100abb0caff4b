(** Specification vocabulary: what unpack() reads. *)
From Verif Require Import Base Marshal Range RangeSpec IoBuffer IoSpec Serialize SerializeSpec RefEngine RefSpec BufferModel BufferSpec BufferMacros.
From Coq Require Import ZArith List Bool String.
Import ListNotations.
Open Scope list_scope.
Open Scope Z_scope.

(** The bits of [b] at the ranges [r]; what lies beyond the end of [b] is left out. *)
Definition bits_at (b : buf) (r : list srange) : list bool := flat_map (range_bits (buf_bits b)) r.

(** Field [f], number [i], was read from the input [b]: its condition was evaluated, and if it holds,
    its unpacker was given the bits of [b] at the position of the field, returned a value, and that
    value is the attribute; with set_after_unpack, references to the field have the converted value. *)
Definition read_from (b : buf) (o' : attrs) (m : memory) (i : nat) (f : field) : Prop :=
  exists c, RefEngine.lookup rid_eqb (f_unpack_if f) m = Some c
    /\ (truthy c = true -> exists r given args a x used,
          RefEngine.lookup rid_eqb (mkRid KUnpackPos i) m = Some (RRanges r)
          /\ (Forall closed_range r -> view_with given (bits_at b r))
          /\ f_unpack f args a given (given_size f r) = Ok (x, used)
          /\ RefEngine.lookup rid_eqb (mkRid KUnpack i) m = Some (RPair x used)
          /\ match f_after f with
             | None => Marshal.lookup o' (f_name f) = Some x
             | Some g => exists y, g x = Ok y /\ RefEngine.lookup rid_eqb (mkRid KUnpackValue i) m = Some (RVal y)
             end).

(** A place with an end, whose ranges do not overlap. *)
Definition proper_place (r : list srange) : Prop :=
  Forall closed r /\ pairwise_disjoint r /\ ((exists x, r = [x]) \/ Forall nonempty_range r).
(** When unpacking, field [f] is always read, at [r], and what is read is stored. *)
Definition always_at (C : cls) (f : field) (r : list srange) : Prop :=
  static (nodes C) (f_where_unpack f) (RRanges r) /\ proper_place r
  /\ (exists c, static (nodes C) (f_unpack_if f) c /\ truthy c = true)
  /\ f_after f = None.
(** Its unpacker makes [v] of the input [b]. *)
Definition decodes (C : cls) (b : buf) (f : field) (r : list srange) (v : value) : Prop :=
  exists args used, Forall2 (static_arg C) (f_unpack_args f) args
    /\ forall a given, view_with given (bits_at b r) -> f_unpack f args a given (given_size f r) = Ok (v, used).

(** bytes_ref[a:b] *)
Definition byte_place (a b : Z) : list srange := [mkR (8 * a) (Some (8 * b))].
(** Fields that take whatever is there: byte arrays, and integers of a width that struct does not
    have. *)
Inductive tolerant (b : buf) : field -> list srange -> value -> Prop :=
| tolerant_bytes k r l : bytes_ok l -> bits_at b r = bits_of_bytes l -> tolerant b (bytearray_field k) r (VBytes l)
| tolerant_int h e signed k r : odd_width (zlen (all_positions r)) ->
    tolerant b (int_field h e signed None k) r (VInt (bits_value (bits_at b r))).
