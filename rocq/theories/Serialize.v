(** Model of buffer/serialize.py: packers and unpackers of Buffer fields.  Sizes are in bits
    (Python: multiples of 1/8 byte).  A packer returns a readable buffer (bytes, bytearray or
    BitAwareByteArray), an unpacker the value and the size it used ([None] where Python returns
    None).  Host byte order is the parameter [h].

    Simplifications: the keyword [byte_size] is always present (the field builder and the element
    types always pass it, maybe as None); the only string encoding is ASCII; an integral size is an
    int (a string field over a range given by bits would get a float and fail); JSON fields are not
    modelled; [str] of a value that is not a string is [NotModelled]. *)
From Verif Require Import Base IntCodec Stream Marshal Range IoBuffer.
From Coq Require Import ZArith List Bool.
Import ListNotations.
Open Scope Z_scope.

(** serialize.py:47 *)
Inductive bendian : Type := BUnspecified | BNative | BBig | BLittle.
Definition base_endian (e : bendian) : endian :=
  match e with BUnspecified | BNative => ENative | BBig => EBig | BLittle => ELittle end.

(** serialize.py:62-68.  With '@' the sizes are native: 'l' has 8 bytes on LP64 platforms. *)
Definition format_size (e : bendian) (s : isize) : isize :=
  match e, s with BUnspecified, I32 => I64 | _, _ => s end.
Definition int_format (signed : bool) (e : bendian) (s : isize) : intfmt :=
  mkFmt (base_endian e) signed (format_size e s).

(** serialize.py:74-79, 106-111: the keys of STRUCT_INT_PACKERS and STRUCT_INT_UNPACKERS, in bits. *)
Definition struct_size (bits : Z) : option isize :=
  if bits =? 8 then Some I8 else if bits =? 16 then Some I16
  else if bits =? 32 then Some I32 else if bits =? 64 then Some I64 else None.
Definition struct_key (byte_size : option Z) : option isize :=
  match byte_size with Some n => struct_size n | None => None end.

(** serialize.py:15-19; every number of bits is a fraction of 8. *)
Definition fractional_size (byte_size : option Z) : res (option Z) :=
  match byte_size with
  | None => Ok None
  | Some n => let* _ := passert (0 <=? n) in Ok (Some n)
  end.
(** serialize.py:22-26 *)
Definition int_size (byte_size : option Z) : res (option Z) :=
  match byte_size with
  | None => Ok None
  | Some n => let* _ := passert ((0 <=? n) && (n mod 8 =? 0)) in Ok (Some n)
  end.

Definition run_ba {A} (m : stM baa A) (x : baa) : res baa :=
  match m x with (Ok _, x') => Ok x' | (Err e, _) => Err e end.

(** serialize.py:55-59 *)
Definition pack_bit_int (n : Z) (byte_size : option Z) : res buf :=
  match byte_size with
  | None => Err AssertionError
  | Some w =>
      let* x := mk_baa (repeat 0 (Z.to_nat (cdiv8 w))) 0 w in
      let* x' := run_ba (ba_setitem (KSlice (Some 0) None) (BVInt n)) x in
      Ok (ba_view x')
  end.

(** serialize.py:71-72 *)
Definition pack_struct_int (h : host) (signed : bool) (e : bendian) (s : isize) (v : value) : res buf :=
  match v with
  | VInt n => let* b := struct_pack_int h (int_format signed e s) n in Ok (BArr b)
  | _ => Err StructError
  end.

(** serialize.py:82-88; [value.bit_length()] is evaluated even if it is not needed. *)
Definition pack_int (h : host) (signed : bool) (e : bendian) (byte_size : option Z) (v : value) : res buf :=
  let* byte_size := fractional_size byte_size in
  match struct_key byte_size with
  | Some s => pack_struct_int h signed e s v
  | None => match v with VInt n => pack_bit_int n byte_size | _ => Err AttributeError end
  end.

(** serialize.py:94-96 *)
Fixpoint accumulate (acc : Z) (l : list Z) : Z :=
  match l with [] => acc | b :: r => accumulate (acc * 256 + b) r end.

(** serialize.py:91-97.  [kwargs.get("endian", "big")] is a non-empty string, so the bytes are
    always reversed; Sequence.__reversed__ yields [b[i]] for [i] from [len(b) - 1] down to 0. *)
Definition unpack_bit_int (b : buf) (byte_size : option Z) : res (value * option Z) :=
  let* s := buf_slice b (Some 0) byte_size in
  let* l := rmap_list (buf_nth s) (rev (py_range (blen s))) in
  Ok (VInt (accumulate 0 l), byte_size).

(** serialize.py:100-104 *)
Definition unpack_struct_int (h : host) (signed : bool) (e : bendian) (s : isize) (b : buf) : res (value * option Z) :=
  let f := int_format signed e s in
  let n := isize_bytes (f_size f) in
  let* _ := passert (n <=? blen b) in
  let* p := buf_slice b (Some 0) (Some (8 * n)) in
  let* l := to_bytes p in
  let* z := struct_unpack_int h f l in
  Ok (VInt z, Some (8 * n)).

(** serialize.py:114-120 *)
Definition unpack_int (h : host) (signed : bool) (e : bendian) (byte_size : option Z) (b : buf) : res (value * option Z) :=
  let* byte_size := fractional_size byte_size in
  match struct_key byte_size with
  | Some s => unpack_struct_int h signed e s b
  | None => unpack_bit_int b byte_size
  end.

(** serialize.py:127-131, 146-149: 4 or 8 bytes. *)
Definition float_key (byte_size : option Z) : res fsize :=
  match byte_size with
  | None => Ok F32
  | Some n => if n =? 32 then Ok F32 else if n =? 64 then Ok F64 else Err AssertionError
  end.

(** serialize.py:134-143 *)
Definition pack_float (h : host) (e : bendian) (byte_size : option Z) (v : value) : res buf :=
  let* byte_size := int_size byte_size in
  let* s := float_key byte_size in
  match v with
  | VFloat p => let* b := struct_pack_float h (mkFFmt (base_endian e) s) p in Ok (BArr b)
  | VInt z => match double_of_int z with
              | Ok p => let* b := struct_pack_float h (mkFFmt (base_endian e) s) p in Ok (BArr b)
              | Err _ => Err StructError
              end
  | _ => Err StructError
  end.

(** serialize.py:152-169: the unpacker for 8 bytes uses the format character 'q', which
    format_from_struct_float_arguments rejects. *)
Definition unpack_float (h : host) (e : bendian) (byte_size : option Z) (b : buf) : res (value * option Z) :=
  let* byte_size := int_size byte_size in
  let* s := float_key byte_size in
  match s with
  | F64 => Err AssertionError
  | F32 =>
      let* _ := passert (4 <=? blen b) in
      let* p := buf_slice b (Some 0) (Some 32) in
      let* l := to_bytes p in
      let* q := struct_unpack_float h (mkFFmt (base_endian e) F32) l in
      Ok (VFloat q, Some 32)
  end.

(** Python 3 bytes and str arguments are different things. *)
Inductive strarg : Type := ABytes (l : list Z) | AText (l : list Z).
Definition strarg_len (a : strarg) : Z := match a with ABytes l => zlen l | AText l => zlen l end.
Inductive justify : Type := JLeft | JRight | JCenter.

(** bytearray.ljust / rjust / center: the fill character must be bytes of length one; [center] puts
    the odd byte on the left iff the width is odd. *)
Definition py_justify (j : justify) (l : list Z) (width : Z) (fill : strarg) : res (list Z) :=
  match fill with
  | ABytes [c] =>
      let pad := width - zlen l in
      if pad <=? 0 then Ok l
      else Ok match j with
              | JLeft => l ++ repeat c (Z.to_nat pad)
              | JRight => repeat c (Z.to_nat pad) ++ l
              | JCenter =>
                  let left := pad / 2 + Z.land (Z.land pad width) 1 in
                  repeat c (Z.to_nat left) ++ l ++ repeat c (Z.to_nat (pad - left))
              end
  | _ => Err TypeError
  end.
(** bytes.rstrip / lstrip / strip with a set of bytes. *)
Definition py_strip (j : justify) (l : list Z) (set : strarg) : res (list Z) :=
  match set with
  | ABytes s => Ok (strip_bytes (match j with JLeft => PRight | JRight => PLeft | JCenter => PBoth end) s l)
  | AText _ => Err TypeError
  end.
Definition ascii_encode (l : list Z) : res (list Z) :=
  if forallb (fun c => (0 <=? c) && (c <? 128)) l then Ok l else Err UnicodeError.
Definition ascii_decode (l : list Z) : res (list Z) :=
  if forallb (fun c => (0 <=? c) && (c <? 128)) l then Ok l else Err UnicodeError.

(** serialize.py:178-198 *)
Definition pack_str (padding : strarg) (j : justify) (byte_size : option Z) (v : value) : res buf :=
  let* _ := passert (strarg_len padding =? 1) in
  let* byte_size := int_size byte_size in
  match v with
  | VStr s =>
      let* l := ascii_encode s in
      match byte_size with
      | None => Ok (BArr l)
      | Some n => let* r := py_justify j l (n / 8) padding in Ok (BArr r)
      end
  | _ => Err NotModelled
  end.

(** serialize.py:201-219.  Without a size nothing is stripped; the size returned is always the
    length of the whole buffer. *)
Definition unpack_str (padding strip : strarg) (j : justify) (byte_size : option Z) (b : buf) : res (value * option Z) :=
  let* _ := passert (strarg_len padding =? 1) in
  let* byte_size := int_size byte_size in
  let* _ := match byte_size with
            | Some n => if negb (n =? 0) && (blen b <? n / 8) then Err ValueError else Ok tt
            | None => Ok tt
            end in
  let* p := buf_slice b (Some 0) byte_size in
  let* l := to_bytes p in
  let* l := match byte_size with
            | None => Ok l
            | Some _ => let* l := py_strip j l strip in py_strip j l padding
            end in
  let* s := ascii_decode l in
  Ok (VStr s, Some (8 * blen b)).

(** serialize.py:231-232: [bytearray(value)]; an int gives that many zero bytes.  A [VBytes] whose
    elements are not all bytes is no Python value; it is refused like a list with such elements. *)
Definition int_of_value (v : value) : res Z :=
  match v with VInt n => if is_byteb n then Ok n else Err ValueError | _ => Err TypeError end.
Definition pack_bytearray (v : value) : res buf :=
  match v with
  | VBytes l => if bytes_okb l then Ok (BArr l) else Err ValueError
  | VInt n => if n <? 0 then Err ValueError else Ok (BArr (repeat 0 (Z.to_nat n)))
  | VList l => let* r := rmap_list int_of_value l in Ok (BArr r)
  | _ => Err TypeError
  end.

(** serialize.py:235-242 for a view; the result is a bytearray, or a view if the view's buffer is
    one (its bytes, here). *)
Definition unpack_bytearray (b : buf) : res (value * option Z) :=
  let* r := to_bytearray b in
  let* l := buf_bytes r in
  Ok (VBytes l, Some (8 * blen r)).

(** serialize.py:281-285; [+=] is MutableSequence.__iadd__, that is [extend]. *)
Fixpoint pack_elems (elem_packer : value -> res buf) (l : list value) (acc : baa) : res baa :=
  match l with
  | [] => Ok acc
  | o :: r =>
      let* p := elem_packer o in
      let* acc' := run_ba (ba_extend (match p with BArr bytes => BVSeq bytes | v => BVView v end)) acc in
      pack_elems elem_packer r acc'
  end.
Definition pack_list (elem_packer : value -> res buf) (v : value) : res buf :=
  match v with
  | VList l => let* x := pack_elems elem_packer l (new_baa []) in Ok (ba_view x)
  | VNone => Err TypeError
  | _ => Err NotModelled
  end.

(** serialize.py:288-302.  [elem_unpacker] gets the index and the rest of the buffer.  The loop is
    run [fuel] times at most; [None] means that it has not ended by then. *)
Fixpoint unpack_loop (elem_unpacker : Z -> buf -> res (value * option Z)) (b : buf) (n byte_size : option Z)
    (fuel : nat) (offset index : Z) (acc : list value) : option (res (list value * Z)) :=
  if (offset <? blength b) && match n with None => true | Some k => index <? k end then
    match fuel with
    | O => None
    | S fuel' =>
        match (let* s := buf_slice b (Some offset) byte_size in elem_unpacker index s) with
        | Err e => Some (Err e)
        | Ok (item, None) => Some (Err TypeError)
        | Ok (item, Some len) =>
            unpack_loop elem_unpacker b n byte_size fuel' (offset + len) (index + 1) (acc ++ [item])
        end
    end
  else Some (Ok (acc, offset)).

(** [n] must be an int or None. *)
Definition unpack_list_n (elem_unpacker : Z -> buf -> res (value * option Z)) (n byte_size : option Z)
    (fuel : nat) (b : buf) : option (res (value * option Z)) :=
  match fractional_size byte_size with
  | Err e => Some (Err e)
  | Ok byte_size =>
      match unpack_loop elem_unpacker b n byte_size fuel 0 0 [] with
      | None => None
      | Some (Err e) => Some (Err e)
      | Some (Ok (l, offset)) => Some (Ok (VList l, Some offset))
      end
  end.

(** The number of rounds that is enough if every element uses at least one bit, or [n] is given. *)
Definition list_fuel (n : option Z) (b : buf) : nat :=
  match n with Some k => Z.to_nat k | None => Z.to_nat (blength b) end.
(** serialize.py:288-302; [Diverges] if the loop has not ended after [list_fuel] rounds.  For an
    element unpacker that does not look at the index this means that it never ends: see
    SerializeLists.unpack_list_diverges. *)
Definition unpack_list (elem_unpacker : Z -> buf -> res (value * option Z)) (n byte_size : option Z)
    (b : buf) : res (value * option Z) :=
  match unpack_list_n elem_unpacker n byte_size (list_fuel n b) b with
  | Some r => r
  | None => Err Diverges
  end.

(** macros.py:28-62 int_marshal: element types of lists; the size is fixed. *)
Definition int_marshal_pack (h : host) (bits : Z) (signed : bool) (e : bendian) : value -> res buf :=
  pack_int h signed e (Some bits).
Definition int_marshal_unpack (h : host) (bits : Z) (signed : bool) (e : bendian) : Z -> buf -> res (value * option Z) :=
  fun _ b => unpack_int h signed e (Some bits) b.
(** macros.py:70-76 str_type_factory with a size; the default padding and strip are text. *)
Definition str_type_pack (padding : strarg) (j : justify) (bits : Z) : value -> res buf := pack_str padding j (Some bits).
Definition str_type_unpack (padding strip : strarg) (j : justify) (bits : Z) : Z -> buf -> res (value * option Z) :=
  fun _ b => unpack_str padding strip j (Some bits) b.
