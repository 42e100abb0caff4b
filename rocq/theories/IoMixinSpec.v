(** Specification vocabulary for the methods of sequences. *)
From Verif Require Import Base Range IoBuffer IoSpec.
From Coq Require Import ZArith List Bool.
Import ListNotations.
Open Scope Z_scope.

(** The elements of a view: its bits eight by eight, the last ones padded with zeros. *)
Definition elements (v : buf) : list Z := bytes_of_bits (buf_bits v).

(** [p] is the first position from [s] on where [x] is. *)
Definition first_at (l : list Z) (x : Z) (s p : Z) : Prop :=
  s <= p /\ nth_error l (Z.to_nat p) = Some x /\ forall q, s <= q < p -> nth_error l (Z.to_nat q) <> Some x.
(** There is none. *)
Definition absent (l : list Z) (x : Z) (s : Z) : Prop :=
  forall q, s <= q -> nth_error l (Z.to_nat q) <> Some x.

(** A loop comes to an end with this result; it never does. *)
Definition ends {A} (f : nat -> option A) (r : A) : Prop := exists n, forall fuel, (n <= fuel)%nat -> f fuel = Some r.
Definition hangs {A} (f : nat -> option A) : Prop := forall fuel, f fuel = None.
