(** Model of the definitions of positions, [where=bytes_ref[...]]: buffer/reference/range.py, which
    objects Python makes of the index expressions a user writes, and what these evaluate to.

    Simplifications: numbers as in [BufferModel.num_op]; [+] is modelled between two ranges. *)
From Verif Require Import Base Range RangeRef Marshal BufferModel RefOps.
From Coq Require Import ZArith List Bool String.
Import ListNotations.
Open Scope Z_scope.

(** What is written between the brackets: a single object, a slice (an omitted bound is None) or a
    tuple or list of those. *)
Inductive loc : Type :=
| LIndex (o : pobj)
| LSlice (start stop : pobj) (step : option Z)
| LList (l : list loc).
(** [bytes_ref[...]], [w.bits[...]], [w + w']. *)
Inductive wexp : Type :=
| EBytes (l : loc)
| EBits (w : wexp) (l : loc)
| EAdd (w w' : wexp).

(** Range references. *)
Inductive wref : Type :=
| WByteSlice (start stop : rexpr)            (* reference/range.py:54-71 *)
| WByteNum (a : rexpr)                       (* reference/range.py:77-86 *)
| WByteList (l : list wref)                  (* reference/range.py:48-51 *)
| WList (l : list wref)                      (* reference/range.py:31-37 *)
| WBitNum (parent : wref) (a : rexpr)        (* reference/range.py:109-126 *)
| WBitSlice (parent : wref) (start stop : rexpr). (* reference/range.py:132-177 *)

Definition omitted (o : pobj) : bool := match o with PConst (RVal VNone) => true | _ => false end.
(** reference.py:125-127 *)
Definition is_numeric_ref (o : pobj) : bool := match o with PConst _ => false | PRefr r => is_numeric r end.
Definition zero : pobj := PConst (RVal (VInt 0)).
(** [assert x] *)
Definition py_assert (x : res pobj) : res unit := let* o := x in let* t := py_bool o in passert t.
(** [assert slic.step in (1, None)] *)
Definition step_ok (step : option Z) : res unit :=
  passert (match step with None => true | Some s => s =? 1 end).

(** reference/range.py:55-68 *)
Definition byte_bound (o : pobj) : res unit :=
  if omitted o || is_numeric_ref o then Ok tt else py_assert (py_binop OpGe o zero).
Definition byte_slice (start stop : pobj) (step : option Z) : res wref :=
  let* _ := step_ok step in
  let* _ := byte_bound start in
  let* _ := byte_bound stop in
  let* _ := if omitted start || omitted stop || is_numeric_ref start || is_numeric_ref stop then Ok tt
            else py_assert (py_binop OpLe start stop) in
  Ok (WByteSlice (to_ref start) (to_ref stop)).
(** [isinstance(loc, (int, long)) or (isinstance(loc, Reference) and loc.is_numeric())] *)
Definition is_index (o : pobj) : bool :=
  match o with PConst (RVal (VInt _)) => true | PConst _ => false | PRefr r => is_numeric r end.
(** reference/range.py:78-81 *)
Definition byte_num (o : pobj) : res wref :=
  let* _ := if is_numeric_ref o then Ok tt else py_assert (py_binop OpGe o zero) in
  Ok (WByteNum (to_ref o)).
(** reference/range.py:92-100 ByteRangeFactory.__getitem__ *)
Fixpoint get_bytes (l : loc) : res wref :=
  match l with
  | LList ls =>
      let* ws := (fix go (ls : list loc) : res (list wref) :=
                    match ls with
                    | [] => Ok []
                    | l :: r => let* w := get_bytes l in let* ws := go r in Ok (w :: ws)
                    end) ls in
      Ok (WByteList ws)
  | LSlice a b s => byte_slice a b s
  | LIndex o => if is_index o then byte_num o else Err TypeError
  end.

(** reference/range.py:133-141: numeric references are not exempt from the checks. *)
Definition bit_bound (o : pobj) : res unit :=
  if omitted o then Ok tt else py_assert (py_binop OpGe o zero).
Definition bit_slice (parent : wref) (start stop : pobj) (step : option Z) : res wref :=
  let* _ := step_ok step in
  let* _ := bit_bound start in
  let* _ := bit_bound stop in
  let* _ := if omitted start || omitted stop then Ok tt else py_assert (py_binop OpLe start stop) in
  Ok (WBitSlice parent (to_ref start) (to_ref stop)).
(** reference/range.py:187-194 BitRangeFactory.__getitem__ *)
Fixpoint get_bits (parent : wref) (l : loc) : res wref :=
  match l with
  | LList ls =>
      let* ws := (fix go (ls : list loc) : res (list wref) :=
                    match ls with
                    | [] => Ok []
                    | l :: r => let* w := get_bits parent l in let* ws := go r in Ok (w :: ws)
                    end) ls in
      Ok (WList ws)
  | LSlice a b s => bit_slice parent a b s
  | LIndex o => if is_index o then Ok (WBitNum parent (to_ref o)) else Err TypeError
  end.

(** Only byte ranges have the attribute [bits] (reference/range.py:43-45). *)
Definition has_bits (w : wref) : bool :=
  match w with WByteSlice _ _ | WByteNum _ | WByteList _ => true | _ => false end.
(** reference/range.py:14-20 RangeReference.__add__ *)
Definition parts (w : wref) : list wref := match w with WByteList l | WList l => l | _ => [w] end.
Fixpoint define (e : wexp) : res wref :=
  match e with
  | EBytes l => get_bytes l
  | EBits w l => let* p := define w in
                 if has_bits p then get_bits p l else Err AttributeError
  | EAdd w w' => let* x := define w in let* y := define w' in Ok (WList (parts x ++ parts y))
  end.

(** Evaluation in one pack or unpack, in which every reference has one value. *)
Section Eval.
Variable env : leaf -> res rv.
Fixpoint ranges (w : wref) : res (list srange) :=
  match w with
  | WByteSlice a b => let* x := eval env a in let* y := eval env b in
                      let* v := slice_ranges x y in as_ranges v
  | WByteNum a => let* x := eval env a in let* v := num_ranges x in as_ranges v
  | WByteList l | WList l =>
      let* ls := (fix go (l : list wref) : res (list (list srange)) :=
                    match l with
                    | [] => Ok []
                    | w :: r => let* x := ranges w in let* xs := go r in Ok (x :: xs)
                    end) l in
      list_ref ls
  | WBitNum p a =>
      let* l := ranges p in
      let* _ := passert (1 <=? zlen l) in
      let* x := eval env a in let* n := bit_count x in bit_num_ref l n
  | WBitSlice p a b =>
      let* l := ranges p in
      let* _ := passert (1 <=? zlen l) in
      let* x := eval env a in let* y := eval env b in
      let* n := opt_bit_count x in let* m := opt_bit_count y in bit_slice_ref l n m
  end.
End Eval.
