(** Vocabulary for the properties of definitions. *)
From Verif Require Import Base IntCodec Stream MinMax Marshal BitFieldSpec Macros.
From Coq Require Import ZArith List Bool String.
Import ListNotations.
Open Scope Z_scope.

Definition width (f : bitfield) : Z := bm_size (bf_marshal f).
Fixpoint total (l : list Z) : Z := match l with [] => 0 | x :: r => x + total r end.
Definition positional (f : bitfield) : Prop := exists sl, bf_marshal f = BMPos sl.
Definition slice_of (f : bitfield) (s : Z * Z) : Prop := exists sl, bf_marshal f = BMPos sl /\ In s sl.
(** [top] is the highest bit number that a slice goes up to. *)
Definition is_top (fs : list bitfield) (top : Z) : Prop :=
  (exists f s, In f fs /\ slice_of f s /\ snd s = top) /\ (forall f s, In f fs -> slice_of f s -> snd s <= top).

(** A group of bits as a user writes it, by widths. *)
Inductive bits_decl : Type := DFlag (n : name) | DBits (n : name) (w : Z) | DPad (w : Z).
Definition declare_bits (d : bits_decl) : bitfield :=
  match d with DFlag n => BitFlag n VNone | DBits n w => BitField n (WInt w) VNone | DPad w => BitPadding w end.
(** A flag is one bit. *)
Definition declared_item (d : bits_decl) : bititem :=
  match d with DFlag n => Named n 1 | DBits n w => Named n w | DPad w => Padding w end.
