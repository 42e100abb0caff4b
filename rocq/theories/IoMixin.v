(** Model of what BitView and BitAwareByteArray inherit from [collections.abc.Sequence] and [MutableSequence]
    (buffer/io_buffer.py:10, 117), given by the standard library of Python 3.

    Simplifications: the elements that are looked for are ints; an offset given to [pop] is in bits (Python: bytes, an int
    or a float); [index] takes ints.  Loops that may go on for ever have fuel: [None] means not yet done. *)
From Verif Require Import Base Range IoBuffer IoIndex.
From Coq Require Import ZArith List Bool.
Import ListNotations.
Open Scope Z_scope.

(** io_buffer.py:44-46, Sequence.__contains__ [for v in self: if v is value or v == value: return True] *)
Definition view_contains (v : buf) (x : Z) : res bool :=
  let* l := buf_bytes v in Ok (existsb (fun y => y =? x) l).

(** Sequence.count *)
Definition view_count (v : buf) (x : Z) : res Z :=
  let* l := buf_bytes v in Ok (zlen (filter (fun y => y =? x) l)).

(** Sequence.__reversed__ [for i in reversed(range(len(self))): yield self[i]] *)
Definition view_reversed (v : buf) : res (list Z) :=
  rmap_list (fun i => view_get v (8 * i)) (rev (py_range (blen v))).

(** Sequence.index [while stop is None or i < stop: try: v = self[i] except IndexError: break; if v == value: return i;
    i += 1]; then [raise ValueError]. *)
Fixpoint index_loop (fuel : nat) (get : Z -> res Z) (x : Z) (stop : option Z) (i : Z) : option (res Z) :=
  if match stop with Some e => e <=? i | None => false end then Some (Err ValueError)
  else
    match fuel with
    | O => None
    | S fuel' =>
        match get i with
        | Ok y => if y =? x then Some (Ok i) else index_loop fuel' get x stop (i + 1)
        | Err IndexError => Some (Err ValueError)
        | Err e => Some (Err e)
        end
    end.
(** Negative bounds count from the end. *)
Definition view_find (fuel : nat) (v : buf) (x : Z) (start : Z) (stop : option Z) : option (res Z) :=
  index_loop fuel (fun i => view_get v (8 * i)) x
    (match stop with Some e => Some (if e <? 0 then e + blen v else e) | None => None end)
    (if start <? 0 then Z.max (blen v + start) 0 else start).

(** MutableSequence.pop [v = self[index]; del self[index]; return v]; the default is -1. *)
Definition ba_pop (ofs : Z) : stM baa Z :=
  s <- sget ;;
  v <- slift (view_get (ba_view s) ofs) ;;
  do ba_delitem (KIndex ofs) ;;
  sret v.

(** MutableSequence.remove [del self[self.index(value)]] *)
Definition ba_remove (fuel : nat) (x : Z) (s : baa) : option (res unit * baa) :=
  match view_find fuel (ba_view s) x 0 None with
  | None => None
  | Some (Ok i) => Some (ba_delitem (KIndex (8 * i)) s)
  | Some (Err e) => Some (Err e, s)
  end.

(** MutableSequence.clear [try: while True: self.pop() except IndexError: pass] *)
Fixpoint ba_clear (fuel : nat) (s : baa) : option (res unit * baa) :=
  match fuel with
  | O => None
  | S fuel' =>
      match ba_pop (-8) s with
      | (Ok _, s') => ba_clear fuel' s'
      | (Err IndexError, s') => Some (Ok tt, s')
      | (Err e, s') => Some (Err e, s')
      end
  end.

(** MutableSequence.reverse [n = len(self); for i in range(n//2): self[i], self[n-i-1] = self[n-i-1], self[i]] *)
Definition ba_swap (i j : Z) : stM baa unit :=
  s <- sget ;;
  b <- slift (view_get (ba_view s) (8 * j)) ;;
  a <- slift (view_get (ba_view s) (8 * i)) ;;
  do ba_setitem (KIndex (8 * i)) (BVInt b) ;;
  ba_setitem (KIndex (8 * j)) (BVInt a).
Definition ba_reverse : stM baa unit :=
  s <- sget ;;
  let n := blen (ba_view s) in
  sforeach (py_range (n / 2)) (fun i => ba_swap i (n - i - 1)).
