(** Specification vocabulary: arrays that share nothing. *)
From Verif Require Import Base IoBuffer IoShare.
From Coq Require Import ZArith List Bool.
Import ListNotations.
Open Scope list_scope.
Open Scope Z_scope.

(** Every array has a bytearray of its own. *)
Definition unshared (m : mem) : Prop :=
  NoDup (map a_cell (m_arrs m)) /\ Forall (fun a => (a_cell a < List.length (m_cells m))%nat) (m_arrs m).
(** The arrays as values. *)
Definition contents (m : mem) : list baa := map (as_baa m) (m_arrs m).

(** The same statements on values: an array that is an argument is a value as well. *)
Definition von {A} (x : nat) (f : stM baa A) : stM (list baa) A :=
  fun l => match nth_error l x with
           | None => (Err NotModelled, l)
           | Some s => let '(r, s') := f s in (r, list_upd l x s')
           end.
Definition vmade (r : res baa) (l : list baa) : res unit * list baa :=
  match r with Ok b => (Ok tt, l ++ [b]) | Err e => (Err e, l) end.
Definition with_arg (y : nat) (f : bvalue -> stM (list baa) unit) : stM (list baa) unit :=
  fun l => match nth_error l y with None => (Err NotModelled, l) | Some s => f (BVView (ba_view s)) l end.
Definition vplain (p : plain_op) : stM baa unit :=
  match p with
  | PSetBytes k l => ba_setitem k (BVSeq l)
  | PSetInt k n => ba_setitem k (BVInt n)
  | PDel k => ba_delitem k
  | PInsertBytes i l => ba_insert i (BVSeq l)
  | PAppend n => ba_append n
  | PExtendBytes l => ba_extend (BVSeq l)
  | PZfill n => ba_zfill n
  end.
Definition vstep (op : aop) : stM (list baa) unit :=
  match op with
  | ANew l start stop => vmade (mk_baa l start stop)
  | AShare _ _ _ => sraise NotModelled
  | ASlice x a b => fun l => match nth_error l x with None => (Err NotModelled, l) | Some s => vmade (slice_of s a b) l end
  | AAdd x y => fun l => match nth_error l x, nth_error l y with
                         | Some s, Some t => vmade (ba_add s (ba_view t)) l
                         | _, _ => (Err NotModelled, l)
                         end
  | ASet x k y => with_arg y (fun v => von x (ba_setitem k v))
  | AInsert x i y => with_arg y (fun v => von x (ba_insert i v))
  | AExtend x y => with_arg y (fun v => von x (ba_extend v))
  | APlain x p => von x (vplain p)
  end.
Definition vruns (l : list aop) : stM (list baa) unit := sforeach l vstep.

(** No statement shares a bytearray or gives an array itself as an argument. *)
Definition apart_op (op : aop) : Prop :=
  match op with
  | AShare _ _ _ => False
  | ASet x _ y | AInsert x _ y | AExtend x y => x <> y
  | _ => True
  end.
(** The numbers in [op] are those of arrays. *)
Definition op_arrays (op : aop) : list nat :=
  match op with
  | ANew _ _ _ => []
  | AShare x _ _ | ASlice x _ _ | APlain x _ => [x]
  | AAdd x y | ASet x _ y | AInsert x _ y | AExtend x y => [x; y]
  end.

(** Array [x] of [m] is the array [s], on bytearray [c]. *)
Definition holds (m : mem) (x c : nat) (s : baa) : Prop :=
  nth_error (m_arrs m) x = Some (mkArr c (ba_start s) (ba_stop s)) /\ nth_error (m_cells m) c = Some (ba_buf s).
(** [m] with array [x] and its bytearray replaced. *)
Definition replaced (m : mem) (x c : nat) (s : baa) : mem :=
  mkMem (list_upd (m_cells m) c (ba_buf s)) (list_upd (m_arrs m) x (mkArr c (ba_start s) (ba_stop s))).
