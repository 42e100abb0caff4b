(** Model of the operators on positions that a class body may use besides indexing: buffer/reference/range.py:10-28
    and the operators that positions inherit from buffer/reference/reference.py.

    Simplifications: the operands of an operator are positions, lists that [+] made of them, and the
    objects of [RefOps]; what an operator other than [+] makes of positions is not itself an operand.  No class
    of positions overrides a method that another one has, so Python never tries the right operand first in a
    way that could be noticed. *)
From Verif Require Import Base Range RangeRef Marshal BufferModel RefOps WhereRef.
From Coq Require Import ZArith List Bool String.
Import ListNotations.
Open Scope Z_scope.

(** A member of a list of positions: a position, or a reference that is none. *)
Definition part : Type := (rexpr + wref)%type.
Inductive operand : Type :=
| OObj (o : pobj)              (* a constant, a field, an expression *)
| OWhere (w : wref)            (* a position *)
| OList (l : list part).       (* ListRangeReference: what [+] makes *)

Definition is_range (a : operand) : bool := match a with OObj _ => false | _ => true end.
Definition is_ref (a : operand) : bool := match a with OObj (PConst _) => false | _ => true end.
Definition is_const_number (a : operand) : bool := match a with OObj (PConst c) => is_number c | _ => false end.
(** reference.py:102-103 is_numeric.  range.py:78-81: the constructor of ByteNumericRangeReference calls that of
    the first base class, BitContainer (43-45), which does not go on to the one of Reference: the attribute
    is never set. *)
Definition numeric_of (a : operand) : res bool :=
  match a with
  | OObj (PConst _) => Ok false
  | OObj (PRefr r) => Ok (is_numeric r)
  | OWhere (WByteNum _) => Err AttributeError
  | OWhere _ | OList _ => Ok false
  end.
(** reference.py:147-148 *)
Definition check2 (self other : operand) : res bool :=
  let* n := numeric_of self in
  if n && is_const_number other then Ok true else if is_ref other then numeric_of other else Ok false.

(** What an operator gives. *)
Inductive outcome : Type :=
| TExpr (op : numop) (a b : operand)    (* NumericBinaryExpression, reference.py:270-281 *)
| TList (l : list part)                 (* ListRangeReference, range.py:31-37 *)
| TConst (c : rv)                       (* a constant of Python *)
| TObj (o : pobj).                      (* an object of [RefOps] *)

(** reference.py:150-244: a method of Reference; constants have none for references. *)
Definition method2 (op : numop) (self other : operand) : res (option outcome) :=
  if is_ref self then let* c := check2 self other in Ok (if c then Some (TExpr op self other) else None) else Ok None.
(** The reflected method of the right operand. *)
Definition rmethod2 (op : numop) (self other : operand) : res (option outcome) :=
  if is_ref self then let* c := check2 self other in Ok (if c then Some (TExpr op other self) else None) else Ok None.

(** range.py:15, 23 *)
Definition members (a : operand) : list part :=
  match a with OWhere w => map inr (parts w) | OList l => l | OObj o => [inl (to_ref o)] end.
(** range.py:14-20 RangeReference.__add__; otherwise Reference.__add__ *)
Definition add_method (self other : operand) : res (option outcome) :=
  if is_range self then Ok (if is_range other then Some (TList (members self ++ members other)) else None)
  else method2 OpAdd self other.
(** range.py:22-28 RangeReference.__radd__; otherwise Reference.__radd__ *)
Definition radd_method (self other : operand) : res (option outcome) :=
  if is_range self then Ok (if is_ref other then Some (TList (members other ++ members self)) else None)
  else rmethod2 OpAdd self other.

(** [a op b]; [same]: are they the same object? *)
Definition py_op2 (op : numop) (same : bool) (a b : operand) : res outcome :=
  match a, b with
  | OObj x, OObj y => let* o := py_binop op x y in Ok (TObj o)
  | _, _ =>
      let* first := match op with OpAdd => add_method a b | _ => method2 op a b end in
      match first with
      | Some t => Ok t
      | None =>
          let* second := match op with
                         | OpAdd => radd_method b a
                         | _ => if is_comparison op then method2 (swapped op) b a else rmethod2 op b a
                         end in
          match second with
          | Some t => Ok t
          | None => if is_comparison op
                    then let* o := rich_fallback op same in Ok (match o with PConst c => TConst c | _ => TObj o end)
                    else Err TypeError
          end
      end
  end.
(** [-a], reference.py:210-213 *)
Definition py_neg2 (a : operand) : res outcome :=
  match a with
  | OObj o => let* x := py_neg o in Ok (TObj x)
  | _ => let* _ := numeric_of a in Ok (TConst not_implemented)
  end.

(** [bytes_ref[a]], [w.bits[a]]: range.py:98-100, 192-194. *)
Definition index_of (a : operand) : res unit :=
  match a with
  | OObj o => if is_index o then Ok tt else Err TypeError
  | _ => let* n := numeric_of a in if n then Ok tt else Err TypeError
  end.
(** The first check of a bound of [bytes_ref[a:]], range.py:57-58: a number that is not negative. *)
Definition bound_of (a : operand) : res unit :=
  match a with
  | OObj o => byte_bound o
  | _ => let* n := numeric_of a in
         if n then Ok tt
         else let* t := py_op2 OpGe false a (OObj zero) in
              match t with TExpr _ _ _ => Err NotImplementedError | _ => Ok tt end
  end.

(** ** Evaluation *)
Section Eval.
Variable env : leaf -> res rv.
Definition eval_part (p : part) : res rv :=
  match p with inl r => eval env r | inr w => let* l := ranges env w in Ok (RRanges l) end.
(** [x + y], where SequentialRangeList (buffer/range.py:190-194) defines both methods, but the base class [list] has no
    [__radd__]: calling it is an AttributeError. *)
Definition add_values (x y : rv) : res rv :=
  match x, y with
  | RRanges a, RRanges b => Ok (RRanges (a ++ b))
  | RRanges _, RVal (VInt _ | VFloat _ | VNone | VBytes _ | VStr _) | RRanges _, RFrac _ => Err TypeError
  | (RVal _ | RFrac _), RRanges _ => Err AttributeError
  | RVal VNone, RVal (VInt _ | VNone) | RVal VNone, RFrac _ | RVal (VInt _), RVal VNone | RFrac _, RVal VNone => Err TypeError
  | (RVal (VInt _) | RFrac _), (RVal (VInt _) | RFrac _) => num_op OpAdd x y
  | _, _ => Err NotModelled
  end.
Fixpoint reduce_add (acc : rv) (l : list rv) : res rv :=
  match l with [] => Ok acc | x :: r => let* s := add_values acc x in reduce_add s r end.
(** range.py:36-37 ListRangeReference.evaluate: all references first, then [reduce]; numbers are not iterable. *)
Definition eval_list (l : list part) : res (list srange) :=
  let* vs := Marshal.rmap_list eval_part l in
  match vs with
  | [] => Err TypeError
  | x :: r =>
      let* s := reduce_add x r in
      match s with
      | RRanges l => Ok l
      | RVal (VInt _ | VFloat _ | VNone) | RFrac _ => Err TypeError
      | _ => Err NotModelled
      end
  end.
(** What an operand evaluates to. *)
Definition eval_operand (a : operand) : res rv :=
  match a with
  | OObj o => eval_obj env o
  | OWhere w => let* l := ranges env w in Ok (RRanges l)
  | OList l => let* r := eval_list l in Ok (RRanges r)
  end.
(** Python's operators on a list of ranges and a number or None. *)
Definition mixed_op (op : numop) (x y : rv) : res rv :=
  match op with
  | OpEq => Ok (rbool false)
  | OpNe => Ok (rbool true)
  | OpMul => if is_none x || is_none y then Err TypeError else Err NotModelled   (* repetition of the list *)
  | _ => Err TypeError
  end.
(** reference.py:280-281 *)
Definition eval_expr (op : numop) (a b : operand) : res rv :=
  let* x := eval_operand a in
  let* y := eval_operand b in
  match x, y with
  | RRanges _, RRanges _ => Err NotModelled
  | RRanges _, RVal (VInt _ | VNone) | RVal (VInt _ | VNone), RRanges _ | RRanges _, RFrac _ | RFrac _, RRanges _ => mixed_op op x y
  | RRanges _, _ | _, RRanges _ => Err NotModelled
  | _, _ => num_op op x y
  end.
End Eval.
