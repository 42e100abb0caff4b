(** Model of the exported numeric types: the float constants of numeric.py and the table of
    numeric_macros.py. *)
From Verif Require Import Base IntCodec Marshal.
From Coq Require Import ZArith List Bool String.
Import ListNotations.
Open Scope string_scope.

Definition BFloat32Marshal := mkFFmt EBig F32.      (* numeric.py:91 *)
Definition LFloat32Marshal := mkFFmt ELittle F32.   (* numeric.py:93 *)
Definition NFloat32Marshal := mkFFmt ENative F32.   (* numeric.py:95 *)
Definition BFloat64Marshal := mkFFmt EBig F64.      (* numeric.py:97 *)
Definition LFloat64Marshal := mkFFmt ELittle F64.   (* numeric.py:99 *)
Definition NFloat64Marshal := mkFFmt ENative F64.   (* numeric.py:101 *)

(** numeric_macros.py:29-39: every name stands for the marshal of the same name; [MarshalWithField]
    (lines 6-27) passes everything on to it. *)
Definition integer_types : list (string * intfmt) :=
  [ ("UBInt8", UBInt8Marshal); ("UBInt16", UBInt16Marshal); ("UBInt32", UBInt32Marshal); ("UBInt64", UBInt64Marshal);
    ("SBInt8", SBInt8Marshal); ("SBInt16", SBInt16Marshal); ("SBInt32", SBInt32Marshal); ("SBInt64", SBInt64Marshal);
    ("ULInt8", ULInt8Marshal); ("ULInt16", ULInt16Marshal); ("ULInt32", ULInt32Marshal); ("ULInt64", ULInt64Marshal);
    ("SLInt8", SLInt8Marshal); ("SLInt16", SLInt16Marshal); ("SLInt32", SLInt32Marshal); ("SLInt64", SLInt64Marshal);
    ("UNInt8", UNInt8Marshal); ("UNInt16", UNInt16Marshal); ("UNInt32", UNInt32Marshal); ("UNInt64", UNInt64Marshal);
    ("SNInt8", SNInt8Marshal); ("SNInt16", SNInt16Marshal); ("SNInt32", SNInt32Marshal); ("SNInt64", SNInt64Marshal) ].
Definition float_types : list (string * floatfmt) :=
  [ ("BFloat32", BFloat32Marshal); ("LFloat32", LFloat32Marshal); ("NFloat32", NFloat32Marshal);
    ("BFloat64", BFloat64Marshal); ("LFloat64", LFloat64Marshal); ("NFloat64", NFloat64Marshal) ].

(** numeric_macros.py:11-12: [UBInt8("foo", 4)] is a field. *)
Definition MarshalWithField_call (m : marshal) (n : name) (default : value) : field := FField n m default.
