(** Vocabulary: constants and fields declared anywhere in a struct, in groups or among bit fields. *)
From Verif Require Import Base Marshal.
From Coq Require Import ZArith List String.
Import ListNotations.

Inductive declares_const (n : name) (k : value) : field -> Prop :=
| dc_field m : declares_const n k (FConst n m k)
| dc_group f fs : In f fs -> declares_const n k f -> declares_const n k (FGroup fs)
| dc_bits m bs : In (BConst n m k) bs -> declares_const n k (FBits bs)
| dc_pos m size bs : In (BConst n m k) bs -> declares_const n k (FPosBits size bs).

(** A field of this name with this default. *)
Inductive declares_default (n : name) (d : value) : field -> Prop :=
| dd_field m : declares_default n d (FField n m d)
| dd_opt m p : declares_default n d (FOpt n m p d)
| dd_group f fs : In f fs -> declares_default n d f -> declares_default n d (FGroup fs)
| dd_bits m bs : In (BField n m d) bs -> declares_default n d (FBits bs)
| dd_pos m size bs : In (BField n m d) bs -> declares_default n d (FPosBits size bs).
