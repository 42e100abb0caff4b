(** Model of [repr] for objects with lazy containers (struct/lazy.py). *)
From Verif Require Import Base IntCodec Stream MinMax Marshal Repr Lazy.
From Coq Require Import ZArith List Bool String.
Import ListNotations.
Open Scope string_scope.
Open Scope Z_scope.

Section Show.
Variables (percent_d percent_f : Z -> string) (py_repr : value -> res string).

(** lazy.py:33-36, LazyField.to_repr: without data waiting to be decoded as the field itself, whose value comes through the
    descriptor (an unset one is a KeyError); members of the container that are no Field are not wrapped (lazy.py:51-54). *)
Definition lazy_field_repr (decoded : bool) (a : attrs) (f : field) : res string :=
  match f with
  | FField n _ _ | FOpt n _ _ _ =>
      if decoded then match lookup a n with Some _ => field_repr percent_d percent_f py_repr f a | None => Err KeyError end
      else Ok "<lazy>"
  | FConst _ _ _ => if decoded then field_repr percent_d percent_f py_repr f a else Ok "<lazy>"
  | FAnon _ | FGroup _ | FBits _ | FPosBits _ _ => field_repr percent_d percent_f py_repr f a
  end.
(** struct/__init__.py:102-103; lazy.py:68-69 *)
Definition item_repr (o : lobj) (k : nat) (i : item) : res string :=
  match i with
  | IField f => field_repr percent_d percent_f py_repr f (lo_attrs o)
  | ILazy fs =>
      let decoded := match pending k (lo_data o) with None => true | Some _ => false end in
      let* ts := rmap_list (lazy_field_repr decoded (lo_attrs o)) fs in Ok (join ", " ts)
  end.
Fixpoint items_repr (o : lobj) (k : nat) (l : list item) : res (list string) :=
  match l with
  | [] => Ok []
  | i :: r => let* x := item_repr o k i in let* xs := items_repr o (S k) r in Ok (x :: xs)
  end.
(** [repr(obj)], struct/__init__.py:209-215, 236-237 *)
Definition lazy_repr (cls : name) (items : list item) (o : lobj) : res string :=
  let* ts := items_repr o 0 items in Ok (cls ++ "(" ++ join ", " ts ++ ")")%string.
End Show.
