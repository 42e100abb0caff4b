(** Specification vocabulary for bit strings: what views and arrays denote. *)
From Verif Require Import Base Range IoBuffer.
From Coq Require Import ZArith List Bool.
Import ListNotations.
Open Scope Z_scope.

(** The number a bit list stands for, least significant bit first. *)
Fixpoint bits_value (l : list bool) : Z :=
  match l with [] => 0 | b :: r => Z.b2z b + 2 * bits_value r end.

(** Bit lists as bytes: groups of eight, the last one padded with zeros. *)
Fixpoint bytes_of_bits (l : list bool) : list Z :=
  match l with
  | b0 :: b1 :: b2 :: b3 :: b4 :: b5 :: b6 :: b7 :: r =>
      bits_value [b0; b1; b2; b3; b4; b5; b6; b7] :: bytes_of_bits r
  | [] => []
  | _ => [bits_value l]
  end.

(** Zero bits up to a whole number of bytes. *)
Definition pad_to_byte (l : list bool) : list bool :=
  l ++ repeat false (Z.to_nat ((- zlen l) mod 8)).

(** The bits a buffer denotes: a bytearray all its bits, a view the bits from [start] to [stop] of
    what it is a view of. *)
Fixpoint buf_bits (b : buf) : list bool :=
  match b with
  | BArr l => bits_of_bytes l
  | BView inner start stop => py_slice (pad_to_byte (buf_bits inner)) start stop
  end.

(** Buffers that can exist: bytes are bytes, and views lie inside what they view (the assertions
    of the constructor). *)
Fixpoint buf_ok (b : buf) : Prop :=
  match b with
  | BArr l => bytes_ok l
  | BView inner start stop => buf_ok inner /\ 0 <= start /\ start <= stop /\ stop <= 8 * blen inner
  end.
Definition is_view (b : buf) : Prop := match b with BArr _ => False | BView _ _ _ => True end.

(** Mutable arrays: what they contain, and which can exist. *)
Definition ba_bits (x : baa) : list bool := buf_bits (ba_view x).
Definition ba_ok (x : baa) : Prop := buf_ok (ba_view x).

(** Python slicing of a list of bits. *)
Definition slice_bits (l : list bool) (a b : option Z) : list bool :=
  py_slice l (match a with Some x => x | None => 0 end)
             (match b with Some x => x | None => zlen l end).
(** The bounds are in order, after clamping to the length. *)
Definition slice_in_order (l : list bool) (a b : option Z) : Prop :=
  py_clamp (zlen l) (match a with Some x => x | None => 0 end)
  <= py_clamp (zlen l) (match b with Some x => x | None => zlen l end).

(** Bit [i] of the bytes of an array. *)
Definition abit (x : baa) (i : Z) : bool := bit_at (ba_buf x) i.

(** No bits set behind the end: the padding of the last byte and spare bytes are zero. *)
Definition ba_clean (x : baa) : Prop := forall i, ba_stop x <= i -> abit x i = false.

(** The bits [a..b) of [l] replaced by [v]. *)
Definition splice (l : list bool) (a b : Z) (v : list bool) : list bool :=
  firstn (Z.to_nat a) l ++ v ++ skipn (Z.to_nat b) l.

(** Bounds of a slice, clamped to the length. *)
Definition lo_of (n : Z) (a : option Z) : Z := py_clamp n (match a with Some v => v | None => 0 end).

Definition hi_of (n : Z) (b : option Z) : Z := py_clamp n (match b with Some v => v | None => n end).

(** What a value denotes as bits: views and byte sequences. *)
Definition value_bits (v : bvalue) : list bool :=
  match v with BVView b => buf_bits b | BVSeq l => bits_of_bytes l | BVInt _ => [] end.

(** ... and which such values can exist. *)
Definition value_ok (v : bvalue) : Prop :=
  match v with BVView b => buf_ok b | BVSeq l => bytes_ok l | BVInt _ => False end.

(** Sufficient and (for [8 <= t]) necessary for [n] bits appended by [zfill] at the bit offset [t]
    to be zeros: the end is at a byte boundary, or no whole byte is inserted, or the new end is at a
    smaller offset within its byte than the old one. *)
Definition gap_ok (t n : Z) : Prop := t mod 8 = 0 \/ t mod 8 + n < 16 \/ (t + n) mod 8 < t mod 8.

(** Deleting bits [a..b) works in two steps: whole bytes between them are cut out, then what follows
    is shifted down by the remaining bits, eight at a time.  The number of bytes cut out: *)
Definition whole_removed (a b : Z) : Z := Z.max 0 (b / 8 - cdiv8 a).

(** There is nothing to shift, or the groups of eight bits written from [a] on lie inside the array. *)
Definition deletion_fits (x : baa) (a b : Z) : Prop :=
  b - a = 8 * whole_removed a b
  \/ a + 8 * cdiv8 (ba_stop x - b) <= Z.max a (8 * (zlen (ba_buf x) - whole_removed a b))
  \/ ba_stop x <= b.

(** The [m] low bits of [n]. *)
Definition int_bits (n m : Z) : list bool := map (fun j => Z.testbit n (Z.of_nat j)) (seq 0 (Z.to_nat m)).

(** Which of the [m] bits of a range an int [n] reaches: whole bytes, as many as it needs. *)
Definition int_reach (n m : Z) : Z := Z.min m (8 * cdiv8 (Z.max 1 (bit_length n))).

(** Ranges with a stop, in order; the bits a range selects. *)
Definition closed_range (r : srange) : Prop := match r_stop r with Some e => 0 <= r_start r <= e | None => False end.

Definition range_bits (l : list bool) (r : srange) : list bool := slice_bits l (Some (r_start r)) (r_stop r).

(** What setting [val] at the closed ranges [l] does to the bits [b] of an output buffer: each
    range takes the next bits of [val]; if the range starts behind the end, [gap] is put in between,
    and it consists of zeros whenever [gap_ok]. *)
Fixpoint placed (val : list bool) (l : list (Z * Z)) (b b' : list bool) : Prop :=
  match l with
  | [] => b' = b
  | (s, e) :: rest =>
      exists gap, zlen gap = Z.max 0 (s - zlen b)
        /\ (s <= zlen b \/ gap_ok (zlen b) (s - zlen b) -> gap = repeat false (Z.to_nat (s - zlen b)))
        /\ placed (skipn (Z.to_nat (e - s)) val) rest
             (splice (b ++ gap) s (Z.min e (zlen (b ++ gap))) (firstn (Z.to_nat (e - s)) val)) b'
  end.

Definition bounds (r : srange) : Z * Z := (r_start r, match r_stop r with Some e => e | None => r_start r end).

Definition total_len (l : list (Z * Z)) : Z := fold_right (fun p acc => (snd p - fst p) + acc) 0 l.

(** Array states of an output buffer. *)
Definition out_ok (x : baa) : Prop := ba_ok x /\ ba_start x = 0 /\ ba_clean x.

(** A chain of slices. *)
Fixpoint slice_chain (v : buf) (l : list (option Z * option Z)) : res buf :=
  match l with [] => Ok v | (a, b) :: r => let* w := buf_slice v a b in slice_chain w r end.
Fixpoint slices_bits (v : list bool) (l : list (option Z * option Z)) : list bool :=
  match l with [] => v | (a, b) :: r => slices_bits (slice_bits v a b) r end.
Fixpoint slices_in_order (v : list bool) (l : list (option Z * option Z)) : Prop :=
  match l with [] => True | (a, b) :: r => slice_in_order v a b /\ slices_in_order (slice_bits v a b) r end.

(** A sequence of extensions. *)
Fixpoint extend_all (l : list bvalue) : stM baa unit :=
  match l with [] => sret tt | v :: r => do ba_extend v ;; extend_all r end.
