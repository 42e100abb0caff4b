(** Specification vocabulary for ranges of bit positions. *)
From Verif Require Import Base Range.
From Coq Require Import ZArith List Bool.
Import ListNotations.
Open Scope Z_scope.

(** Points of a range, and when two ranges have one in common. *)
Definition in_range (p : Z) (r : srange) : Prop :=
  r_start r <= p /\ match r_stop r with None => True | Some e => p < e end.
Definition intersect (a b : srange) : Prop := exists p, in_range p a /\ in_range p b.
(** No two members of the list (at different places) have a point in common. *)
Definition pairwise_disjoint (l : list srange) : Prop := ForallOrdPairs (fun a b => ~ intersect a b) l.

(** Non-empty ranges that start below [sys.maxsize]. *)
Definition nonempty_range (r : srange) : Prop :=
  0 <= r_start r < 8 * (2 ^ 63 - 1) /\ match r_stop r with None => True | Some e => r_start r < e end.
(** What the constructor accepts. *)
Definition range_ok (r : srange) : Prop :=
  0 <= r_start r /\ match r_stop r with None => True | Some e => r_start r <= e end.

(** A list in which no element is smaller than the one before it. *)
Fixpoint no_inversion (l : list srange) : Prop :=
  match l with
  | a :: ((b :: _) as r) => range_lt b a = Ok false /\ no_inversion r
  | _ => True
  end.

(** The positions of a closed range, and of a list of closed ranges, in order. *)
Definition positions (r : srange) : list Z :=
  match r_stop r with None => [] | Some e => py_range3 (r_start r) e 1 end.
Definition all_positions (l : list srange) : list Z := flat_map positions l.
Definition closed (r : srange) : Prop := range_ok r /\ r_stop r <> None.
(** The length of a closed range. *)
Definition rlen (r : srange) : Z := match r_stop r with Some e => e - r_start r | None => 0 end.
(** Elements number [a] to [b - 1] of a list. *)
Definition pslice (l : list Z) (a b : Z) : list Z := firstn (Z.to_nat (b - a)) (skipn (Z.to_nat a) l).
