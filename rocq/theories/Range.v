(** Model of buffer/range.py.  Positions are counted in bits: the Python numbers are multiples of
    1/8 (bytes), here multiplied by 8.  Exact as long as the floats involved are (below 2^50). *)
From Verif Require Import Base.
From Coq Require Import ZArith List Bool.
Import ListNotations.
Open Scope Z_scope.

(** range.py:25-43 SequentialRange: [stop = None] is an open range. *)
Record srange : Type := mkR { r_start : Z; r_stop : option Z }.

(** range.py:30-43 __init__ with its assertions ([start = None] means 0). *)
Definition mk_srange (start : option Z) (stop : option Z) : res srange :=
  let s := match start with Some x => x | None => 0 end in
  let* _ := passert (0 <=? s) in
  let* _ := match stop with
            | None => Ok tt
            | Some e => let* _ := passert (0 <=? e) in passert (s <=? e)
            end in
  Ok (mkR s stop).

(** range.py:45-50 *)
Definition is_open (r : srange) : bool := match r_stop r with None => true | Some _ => false end.

(** range.py:52-60: the assertion is made even when the range is closed already. *)
Definition to_closed (r : srange) (new_stop : Z) : res srange :=
  let* _ := passert (r_start r <=? new_stop) in
  mk_srange (Some (r_start r)) (Some (match r_stop r with Some e => e | None => new_stop end)).

(** range.py:62-69; [None] for an open range. *)
Definition byte_length (r : srange) : option Z :=
  match r_stop r with None => None | Some e => Some (e - r_start r) end.

(** range.py:71-76 max_stop *)
Definition max_stop (r : srange) : option Z := r_stop r.

(** [sys.maxsize] bytes, in bits. *)
Definition maxsize_bits : Z := 8 * maxsize.

(** [self.to_closed(sys.maxsize).stop] *)
Definition imag_stop (r : srange) : res Z :=
  let* c := to_closed r maxsize_bits in
  match r_stop c with Some e => Ok e | None => Err TypeError end.

(** range.py:85-92 *)
Definition overlaps (r other : srange) : res bool :=
  let '(a, b) := if r_start r <=? r_start other then (r, other) else (other, r) in
  let* e := imag_stop a in
  Ok (r_start b <? e).

(** range.py:94-101 *)
Definition contains (r : srange) (point : Z) : bool :=
  (r_start r <=? point) && match r_stop r with None => true | Some e => point <? e end.

(** range.py:103-104 *)
Definition range_eq (a b : srange) : bool :=
  (r_start a =? r_start b) &&
  match r_stop a, r_stop b with
  | None, None => true | Some x, Some y => x =? y | _, _ => false
  end.

(** range.py:106-107 (short-circuit [and]) *)
Definition range_lt (a b : srange) : res bool :=
  if r_start a <? r_start b then
    let* x := imag_stop a in let* y := imag_stop b in Ok (x <? y)
  else Ok false.

(** ** range.py:113-194 SequentialRangeList *)

(** range.py:118-119 *)
Definition list_is_open (l : list srange) : bool := existsb is_open l.

Fixpoint rmap_list {A B} (f : A -> res B) (l : list A) : res (list B) :=
  match l with
  | [] => Ok []
  | x :: r => let* y := f x in let* ys := rmap_list f r in Ok (y :: ys)
  end.

(** range.py:121-122 *)
Definition list_to_closed (l : list srange) (total_len : Z) : res (list srange) :=
  rmap_list (fun r => to_closed r total_len) l.

(** range.py:124-134 *)
Fixpoint sum_length (acc : Z) (l : list srange) : option Z :=
  match l with
  | [] => Some acc
  | r :: rest => match byte_length r with None => None | Some n => sum_length (acc + n) rest end
  end.
Definition list_byte_length (l : list srange) : option Z := sum_length 0 l.

(** [sorted(l)]: CPython's sort of a list shorter than 64 is a binary insertion sort (after
    finding an initial run, [count_run]).  [__lt__] is not a total order here, so the result can
    depend on the algorithm; [sorted] below models it precisely for lists below 64 elements
    (Objects/listobject.c count_run, binarysort), and the theorems about sorting are stated for
    any result without adjacent inversions. *)

(** listobject.c binarysort: find the insertion point in [l[lo..hi)] by bisection. *)
Fixpoint bisect (fuel : nat) (l : list srange) (pivot : srange) (lo hi : nat) : res nat :=
  match fuel with
  | O => Ok lo
  | S k =>
      if (lo <? hi)%nat then
        let p := (lo + (hi - lo) / 2)%nat in
        match nth_error l p with
        | None => Err IndexError
        | Some x =>
            let* lt := range_lt pivot x in
            if lt then bisect k l pivot lo p else bisect k l pivot (S p) hi
        end
      else Ok lo
  end.

Fixpoint binarysort (sorted rest : list srange) : res (list srange) :=
  match rest with
  | [] => Ok sorted
  | pivot :: rest' =>
      let* k := bisect (length sorted) sorted pivot 0 (length sorted) in
      binarysort (firstn k sorted ++ pivot :: skipn k sorted) rest'
  end.

(** listobject.c count_run: the longest ascending or strictly descending prefix. *)
Fixpoint run_up (prev : srange) (l : list srange) : res (list srange * list srange) :=
  match l with
  | [] => Ok ([], [])
  | x :: r =>
      let* lt := range_lt x prev in
      if lt then Ok ([], l) else let* p := run_up x r in Ok (x :: fst p, snd p)
  end.
Fixpoint run_down (prev : srange) (l : list srange) : res (list srange * list srange) :=
  match l with
  | [] => Ok ([], [])
  | x :: r =>
      let* lt := range_lt x prev in
      if lt then let* p := run_down x r in Ok (x :: fst p, snd p) else Ok ([], l)
  end.
Definition py_sorted (l : list srange) : res (list srange) :=
  match l with
  | [] => Ok []
  | [x] => Ok [x]
  | x :: y :: r =>
      let* desc := range_lt y x in
      if desc then let* p := run_down y r in binarysort (rev (x :: y :: fst p)) (snd p)
      else let* p := run_up y r in binarysort (x :: y :: fst p) (snd p)
  end.

(** range.py:136-145: any adjacent pair of the sorted list that overlaps. *)
Fixpoint adjacent_overlap (l : list srange) : res bool :=
  match l with
  | [] => Ok false
  | x :: r =>
      match r with
      | [] => Ok false
      | y :: _ => let* o := overlaps x y in if o then Ok true else adjacent_overlap r
      end
  end.
Definition has_overlaps (l : list srange) : res bool :=
  let* s := py_sorted l in adjacent_overlap s.

(** range.py:147-157 *)
Fixpoint max_stop_from (m : Z) (l : list srange) : option Z :=
  match l with
  | [] => Some m
  | r :: rest => match r_stop r with None => None | Some e => max_stop_from (Z.max m e) rest end
  end.
Definition list_max_stop (l : list srange) : option Z := max_stop_from 0 l.

(** range.py:166-180 *)
Fixpoint byte_offset (l : list srange) (remaining : Z) : res Z :=
  match l with
  | [] => Err AssertionError
  | r :: rest =>
      match byte_length r with
      | None => Ok (r_start r + remaining)
      | Some n => if remaining <=? n then Ok (r_start r + remaining)
                  else byte_offset rest (remaining - n)
      end
  end.

(** range.py:182-188: index and the sum of the lengths before it, or None. *)
Fixpoint find_container (l : list srange) (i : nat) (sum point : Z) : option (nat * Z) :=
  match l with
  | [] => None
  | r :: rest =>
      match byte_length r with
      | None => Some (i, sum)
      | Some n => if point - sum - n <=? 0 then Some (i, sum)
                  else find_container rest (S i) (sum + n) point
      end
  end.
Definition find_relative_container_index (l : list srange) (point : Z) : option (nat * Z) :=
  find_container l 0 0 point.
