(** Specification vocabulary for floats: the value of a 64-bit IEEE pattern. *)
From Coq Require Import ZArith.
Open Scope Z_scope.

(** Exponent field of a double. *)
Definition exponent_field (p : Z) : Z := (p / 2 ^ 52) mod 2 ^ 11.
(** Patterns of finite numbers: neither infinite nor NaN. *)
Definition finite (p : Z) : Prop := 0 <= p < 2 ^ 64 /\ exponent_field p <> 2047.
(** The value of a finite pattern, in units of 2^-1074, the smallest positive double: all finite
    doubles are whole numbers of these. *)
Definition float_value (p : Z) : Z :=
  let m := p mod 2 ^ 52 in
  let e := exponent_field p in
  (if p / 2 ^ 63 =? 0 then 1 else -1) * ((if e =? 0 then m else 2 ^ 52 + m) * 2 ^ (Z.max e 1 - 1)).
(** One, in these units. *)
Definition float_one : Z := 2 ^ 1074.
