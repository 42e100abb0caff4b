(** Model of buffer/reference/range.py: what the range references evaluate to, given the values
    of the references they contain.  Positions in bits; byte numbers are multiplied by 8. *)
From Verif Require Import Base Range.
From Coq Require Import ZArith List Bool.
Import ListNotations.
Open Scope Z_scope.

(** reference/range.py:36-37 ListRangeReference.evaluate on the evaluated lists; [reduce] raises
    TypeError on an empty list. *)
Definition list_ref (l : list (list srange)) : res (list srange) :=
  match l with [] => Err TypeError | _ => Ok (concat l) end.

(** reference/range.py:114-126 BitNumericRangeReference.evaluate.  Unpacking [None] into two
    variables raises TypeError. *)
Definition bit_num_ref (l : list srange) (bit : Z) : res (list srange) :=
  let* _ := passert (1 <=? zlen l) in
  let* _ := passert (0 <=? bit) in
  match find_relative_container_index l bit with
  | None => Err TypeError
  | Some (i, sum) =>
      match nth_error l i with
      | None => Err IndexError
      | Some r =>
          let* x := mk_srange (Some (bit - sum + r_start r)) (Some (bit - sum + r_start r + 1)) in
          Ok [x]
      end
  end.

(** reference/range.py:160-175, the loop over the ranges from the first one on. *)
Fixpoint bit_slice_loop (start sum remaining : Z) (l : list srange) : res (list srange * Z) :=
  match l with
  | [] => Ok ([], remaining)
  | r :: rest =>
      let sub_start := r_start r + start - sum in
      let sub_stop := match r_stop r with
                      | None => sub_start + remaining
                      | Some e => if remaining <=? e - sub_start then sub_start + remaining else e
                      end in
      let* x := mk_srange (Some sub_start) (Some sub_stop) in
      let remaining' := remaining - (sub_stop - sub_start) in
      if remaining' =? 0 then Ok ([x], 0)
      else let* p := bit_slice_loop start sum remaining' rest in Ok (x :: fst p, snd p)
  end.

(** reference/range.py:143-177 BitSliceRangeReference.evaluate.  [float(None)] raises TypeError, so
    the branch for an open bit range (156-158) is never reached. *)
Definition bit_slice_ref (l : list srange) (start stop : option Z) : res (list srange) :=
  let* _ := passert (1 <=? zlen l) in
  match start, stop with
  | Some a, Some b =>
      let* br := mk_srange (Some a) (Some b) in
      match find_relative_container_index l a with
      | None => Err TypeError
      | Some (i, sum) =>
          let* p := bit_slice_loop a sum (b - a) (skipn i l) in
          if 0 <? snd p then Err ValueError else Ok (fst p)
      end
  | _, _ => Err TypeError
  end.
