(** Model of the parts of Python's [struct] module that the library uses
    (numeric.py:20-32 and the format constants numeric.py:42-101,
    buffer/serialize.py pack_struct_int / unpack_struct_int / floats). *)
From Verif Require Import Base.
From Coq Require Import ZArith List Bool.
Import ListNotations.
Open Scope Z_scope.

(** Byte-order prefix of a format string: '>' , '<' , '='. *)
Inductive endian : Type := EBig | ELittle | ENative.

(** Host byte order ([sys.byteorder]); every theorem quantifies over it. *)
Inductive host : Type := HostLittle | HostBig.

(** Format characters b/B, h/H, l/L, q/Q in standard size (prefix '>', '<' or '='). *)
Inductive isize : Type := I8 | I16 | I32 | I64.

(** numeric.py:10-18: a format is an endianness, a signedness and a size. *)
Record intfmt : Type := mkFmt { f_endian : endian; f_signed : bool; f_size : isize }.

(** [struct.calcsize] in standard size mode. *)
Definition isize_bytes (s : isize) : Z :=
  match s with I8 => 1 | I16 => 2 | I32 => 4 | I64 => 8 end.

(** Little-endian base-256 digits of [v], [n] of them. *)
Fixpoint le_digits (n : nat) (v : Z) : list Z :=
  match n with
  | O => []
  | S n' => v mod 256 :: le_digits n' (v / 256)
  end.

(** Value of a little-endian digit list. *)
Fixpoint le_value (l : list Z) : Z :=
  match l with
  | [] => 0
  | b :: r => b + 256 * le_value r
  end.

Definition is_big (h : host) (e : endian) : bool :=
  match e, h with
  | EBig, _ => true
  | ELittle, _ => false
  | ENative, HostBig => true
  | ENative, HostLittle => false
  end.

(** Lowest and highest value of a format. *)
Definition int_min (signed : bool) (n : Z) : Z := if signed then - 2 ^ (8 * n - 1) else 0.
Definition int_max (signed : bool) (n : Z) : Z :=
  if signed then 2 ^ (8 * n - 1) - 1 else 2 ^ (8 * n) - 1.

(** [struct.pack(format, v)] for an integer [v]; out of range is [struct.error]. *)
Definition struct_pack_int (h : host) (f : intfmt) (v : Z) : res (list Z) :=
  let n := isize_bytes (f_size f) in
  if (int_min (f_signed f) n <=? v) && (v <=? int_max (f_signed f) n) then
    let le := le_digits (Z.to_nat n) v in
    Ok (if is_big h (f_endian f) then rev le else le)
  else Err StructError.

(** [struct.unpack(format, b)[0]]; a wrong length is [struct.error]. *)
Definition struct_unpack_int (h : host) (f : intfmt) (b : list Z) : res Z :=
  let n := isize_bytes (f_size f) in
  if zlen b =? n then
    let u := le_value (if is_big h (f_endian f) then rev b else b) in
    Ok (if f_signed f && (2 ^ (8 * n - 1) <=? u) then u - 2 ^ (8 * n) else u)
  else Err StructError.

(** The integer format constants of numeric.py:42-89, in order. *)
Definition UBInt8Marshal  := mkFmt EBig false I8.      (* numeric.py:43 *)
Definition UBInt16Marshal := mkFmt EBig false I16.     (* numeric.py:45 *)
Definition UBInt32Marshal := mkFmt EBig false I32.     (* numeric.py:47 *)
Definition UBInt64Marshal := mkFmt EBig false I64.     (* numeric.py:49 *)
Definition SBInt8Marshal  := mkFmt EBig true I8.       (* numeric.py:51 *)
Definition SBInt16Marshal := mkFmt EBig true I16.      (* numeric.py:53 *)
Definition SBInt32Marshal := mkFmt EBig true I32.      (* numeric.py:55 *)
Definition SBInt64Marshal := mkFmt EBig true I64.      (* numeric.py:57 *)
Definition ULInt8Marshal  := mkFmt ELittle false I8.   (* numeric.py:59 *)
Definition ULInt16Marshal := mkFmt ELittle false I16.  (* numeric.py:61 *)
Definition ULInt32Marshal := mkFmt ELittle false I32.  (* numeric.py:63 *)
Definition ULInt64Marshal := mkFmt ELittle false I64.  (* numeric.py:65 *)
Definition SLInt8Marshal  := mkFmt ELittle true I8.    (* numeric.py:67 *)
Definition SLInt16Marshal := mkFmt ELittle true I16.   (* numeric.py:69 *)
Definition SLInt32Marshal := mkFmt ELittle true I32.   (* numeric.py:71 *)
Definition SLInt64Marshal := mkFmt ELittle true I64.   (* numeric.py:73 *)
Definition UNInt8Marshal  := mkFmt ENative false I8.   (* numeric.py:75 *)
Definition UNInt16Marshal := mkFmt ENative false I16.  (* numeric.py:77 *)
Definition UNInt32Marshal := mkFmt ENative false I32.  (* numeric.py:79 *)
Definition UNInt64Marshal := mkFmt ENative false I64.  (* numeric.py:81 *)
Definition SNInt8Marshal  := mkFmt ENative true I8.    (* numeric.py:83 *)
Definition SNInt16Marshal := mkFmt ENative true I16.   (* numeric.py:85 *)
Definition SNInt32Marshal := mkFmt ENative true I32.   (* numeric.py:87 *)
Definition SNInt64Marshal := mkFmt ENative true I64.   (* numeric.py:89 *)

(** ** IEEE floats.  A Python float is modelled by its 64-bit IEEE pattern. *)
Inductive fsize : Type := F32 | F64.
Record floatfmt : Type := mkFFmt { ff_endian : endian; ff_size : fsize }.
Definition fsize_bytes (s : fsize) : Z := match s with F32 => 4 | F64 => 8 end.

(** Integer division rounding half to even. *)
Definition round_half_even (m d : Z) : Z :=
  let q := m / d in
  let r := m mod d in
  if 2 * r <? d then q
  else if d <? 2 * r then q + 1
  else if Z.even q then q else q + 1.

(** Conversion of a double pattern to a single pattern ([(float)x] in CPython's
    [PyFloat_Pack4]): OverflowError when a finite value rounds to infinity.
    A NaN keeps its sign and the top of its payload (quieted). *)
Definition double_to_single (p : Z) : res Z :=
  let s := p / 2 ^ 63 in
  let e := (p / 2 ^ 52) mod 2 ^ 11 in
  let m := p mod 2 ^ 52 in
  if e =? 2047 then
    if m =? 0 then Ok (s * 2 ^ 31 + 255 * 2 ^ 23)
    else Ok (s * 2 ^ 31 + 255 * 2 ^ 23 + Z.lor (2 ^ 22) (m / 2 ^ 29))
  else
    (* value = M * 2^E *)
    let M := if e =? 0 then m else 2 ^ 52 + m in
    let E := (if e =? 0 then 1 else e) - 1075 in
    let q := Z.max (E + 29) (-149) in
    let M' := round_half_even M (2 ^ (q - E)) in
    let r := (q + 149) * 2 ^ 23 + M' in
    if 255 * 2 ^ 23 <=? r then Err OverflowError else Ok (s * 2 ^ 31 + r).

(** Conversion of a single pattern to a double pattern (exact). *)
Definition single_to_double (p : Z) : Z :=
  let s := p / 2 ^ 31 in
  let e := (p / 2 ^ 23) mod 2 ^ 8 in
  let m := p mod 2 ^ 23 in
  s * 2 ^ 63 +
  (if e =? 255 then
     if m =? 0 then 2047 * 2 ^ 52 else 2047 * 2 ^ 52 + Z.lor (2 ^ 51) (m * 2 ^ 29)
   else if e =? 0 then
     if m =? 0 then 0
     else let k := Z.log2 m in (k - 149 + 1023) * 2 ^ 52 + (m * 2 ^ (52 - k) - 2 ^ 52)
   else (e - 127 + 1023) * 2 ^ 52 + m * 2 ^ 29).

(** An int as a double, rounded half to even (CPython's [PyLong_AsDouble], which [struct.pack] calls
    for an int): OverflowError when it rounds to infinity. *)
Definition double_of_int (z : Z) : res Z :=
  let m := Z.abs z in
  if m =? 0 then Ok 0
  else
    let e := Z.log2 m in
    let M := if e <=? 52 then m * 2 ^ (52 - e) else round_half_even m (2 ^ (e - 52)) in
    let r := (e + 1022) * 2 ^ 52 + M in
    if 2047 * 2 ^ 52 <=? r then Err OverflowError else Ok ((if z <? 0 then 2 ^ 63 else 0) + r).

(** [struct.pack('f' / 'd', x)] on the pattern of [x]. *)
Definition struct_pack_float (h : host) (f : floatfmt) (p : Z) : res (list Z) :=
  let* bits := match ff_size f with F64 => Ok p | F32 => double_to_single p end in
  let le := le_digits (Z.to_nat (fsize_bytes (ff_size f))) bits in
  Ok (if is_big h (ff_endian f) then rev le else le).

Definition struct_unpack_float (h : host) (f : floatfmt) (b : list Z) : res Z :=
  if zlen b =? fsize_bytes (ff_size f) then
    let u := le_value (if is_big h (ff_endian f) then rev b else b) in
    Ok (match ff_size f with F64 => u | F32 => single_to_double u end)
  else Err StructError.
