(** Specification vocabulary: when two values are equal (==), as constants and keys are compared. *)
From Verif Require Import Base Marshal FloatSpec.
From Coq Require Import ZArith List.
Import ListNotations.
Open Scope Z_scope.

(** The pattern of an infinity. *)
Definition infinite (p : Z) : Prop := exponent_field p = 2047 /\ p mod 2 ^ 52 = 0.
(** Numbers are equal if they have the same value, be they ints or floats; an infinity only to itself and a NaN to
    nothing.  Texts, bytes and lists are equal if they have equal elements; None is equal to itself.  Nothing else
    is: not values of different sorts, and no object that was read to any other. *)
Inductive equal : value -> value -> Prop :=
| eq_none : equal VNone VNone
| eq_int z : equal (VInt z) (VInt z)
| eq_int_float z p : exponent_field p <> 2047 -> float_value p = z * float_one -> equal (VInt z) (VFloat p)
| eq_float_int z p : exponent_field p <> 2047 -> float_value p = z * float_one -> equal (VFloat p) (VInt z)
| eq_float p q : exponent_field p <> 2047 -> exponent_field q <> 2047 -> float_value p = float_value q -> equal (VFloat p) (VFloat q)
| eq_infinite p : infinite p -> equal (VFloat p) (VFloat p)
| eq_bytes l : equal (VBytes l) (VBytes l)
| eq_str l : equal (VStr l) (VStr l)
| eq_list l l' : Forall2 equal l l' -> equal (VList l) (VList l').

(** The floats in a value are patterns of 64 bits. *)
Inductive patterns : value -> Prop :=
| pa_none : patterns VNone
| pa_int z : patterns (VInt z)
| pa_float p : 0 <= p < 2 ^ 64 -> patterns (VFloat p)
| pa_bytes l : patterns (VBytes l)
| pa_str l : patterns (VStr l)
| pa_list l : Forall patterns l -> patterns (VList l)
| pa_obj c a : patterns (VObj c a).
