(** Model of [MinMax], base.py:53-90. *)
From Verif Require Import Base.
From Coq Require Import ZArith List Bool.
Import ListNotations.
Open Scope Z_scope.

Record minmax : Type := mkMM { mm_min : Z; mm_max : Z }.

(** base.py:60-75, two-argument / tuple form: the assertion comes first, then each bound is
    clipped on one side only. *)
Definition MinMax (mn mx : Z) : res minmax :=
  let* _ := passert (mn <=? mx) in
  Ok (mkMM (Z.max 0 mn) (Z.min mx maxsize)).

(** base.py:77-78 *)
Definition mm_add (a b : minmax) : res minmax :=
  MinMax (mm_min b + mm_min a) (mm_max b + mm_max a).

(** base.py:80-81 *)
Definition mm_is_unbounded (a : minmax) : bool := maxsize <=? mm_max a.

(** base.py:89-90 *)
Definition UNBOUNDED_MIN_MAX : minmax := mkMM 0 maxsize.
Definition ZERO_MIN_MAX : minmax := mkMM 0 0.

(** [sum(list, ZERO_MIN_MAX)], struct/__init__.py:109, struct/selector.py:22. *)
Fixpoint mm_sum (acc : minmax) (l : list minmax) : res minmax :=
  match l with
  | [] => Ok acc
  | x :: r => let* acc' := mm_add acc x in mm_sum acc' r
  end.

(** base.py:106-108 *)
Definition mm_is_fixed (a : minmax) : bool := mm_min a =? mm_max a.
