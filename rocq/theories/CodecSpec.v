(** Specification vocabulary for numbers. *)
From Verif Require Import Base IntCodec.
From Coq Require Import ZArith List Bool.
Open Scope Z_scope.

(** Integers a format can represent: two's complement or plain binary on 8, 16, 32 or 64 bits. *)
Definition int_representable (f : intfmt) (z : Z) : Prop :=
  let bits := 8 * isize_bytes (f_size f) in
  if f_signed f then - 2 ^ (bits - 1) <= z < 2 ^ (bits - 1) else 0 <= z < 2 ^ bits.

(** Floats (64-bit patterns) a format can represent exactly: any double, respectively the doubles
    that are widened singles. *)
Definition float_representable (f : floatfmt) (p : Z) : Prop :=
  match ff_size f with
  | F64 => 0 <= p < 2 ^ 64
  | F32 => exists q, 0 <= q < 2 ^ 32 /\ p = single_to_double q
  end.

(** Formats that put the most significant byte first: the big-endian ones, and the native ones on
    a big-endian host. *)
Definition most_significant_first (h : host) (e : endian) : Prop :=
  e = EBig \/ (e = ENative /\ h = HostBig).

(** Number of bytes of a format, by its name (UBInt8 ... SNInt64). *)
Definition width_in_bytes (s : isize) : Z :=
  match s with I8 => 1 | I16 => 2 | I32 => 4 | I64 => 8 end.
