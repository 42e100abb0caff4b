(** Model of the operators of buffer/reference/reference.py: what Python makes of the expressions
    over references that a user writes in a class definition, and what the resulting references
    evaluate to.

    Simplifications: numbers are those of [BufferModel.num_op] (no division, no floats); operators
    between two constants that are not numbers are TypeErrors, except [==] and [!=]; an expression
    whose operands turn out to be no numbers (such as a str) when it is evaluated is a TypeError. *)
From Verif Require Import Base Marshal BufferModel.
From Coq Require Import ZArith List Bool String.
Import ListNotations.
Open Scope Z_scope.

(** The classes of reference objects, for Python's dispatch: reference.py, builtins.py, func_call.py,
    field.py, field_or_attr.py, contexts.py, total_size.py, after_field.py. *)
Inductive rclass : Type :=
| CUnary | CBinary | CObject | CCast
| CField | CFieldOrAttr | CAfterField | CTotalSize | CReturnContext | CInputLength
| CFuncCall | CLength | CGetAttr | CSetAttr | CAssignAttr | CMin | CMax | CContextGetAttr.
Scheme Equality for rclass.
(** Is the first class a proper subclass of the second one? *)
Definition subclass (a b : rclass) : bool :=
  match a, b with
  | (CLength | CGetAttr | CSetAttr | CAssignAttr | CMin | CMax | CContextGetAttr), CFuncCall => true
  | CContextGetAttr, CGetAttr => true
  | _, _ => false
  end.

(** A reference that is no expression: a field, an attribute, a length and so on.  [l_id] is its
    identity, [l_numeric] the constructor argument (reference.py:67-68). *)
Record leaf : Type := mkLeaf { l_id : nat; l_class : rclass; l_numeric : bool }.

(** References. *)
Inductive rexpr : Type :=
| RLeaf (l : leaf)
| RObj (c : rv)                              (* reference.py:116-119 to_ref: ObjectReference of a constant *)
| RBin (op : numop) (a b : rexpr)            (* reference.py:270-281 *)
| RNeg (a : rexpr)                           (* reference.py:250-260 *)
| RCast (a : rexpr)                          (* reference.py:311-317 *)
| RCastConst (c : rv)                        (* ... of something that is no reference *)
| RMin (a b : rexpr) | RMax (a b : rexpr).   (* builtins.py:51-66 with two arguments *)

(** isinstance(c, Number) *)
Definition is_number (c : rv) : bool :=
  match c with RVal (VInt _) | RVal (VFloat _) | RFrac _ => true | _ => false end.

(** reference.py:102-103; lines 119, 255, 275, 313 and builtins.py:54, 62 say what is numeric. *)
Definition is_numeric (r : rexpr) : bool :=
  match r with
  | RLeaf l => l_numeric l
  | RObj c => is_number c
  | _ => true
  end.
Definition class_of (r : rexpr) : rclass :=
  match r with
  | RLeaf l => l_class l | RObj _ => CObject | RBin _ _ _ => CBinary | RNeg _ => CUnary
  | RCast _ | RCastConst _ => CCast | RMin _ _ => CMin | RMax _ _ => CMax
  end.

(** What a Python expression evaluates to in a class definition. *)
Inductive pobj : Type := PConst (c : rv) | PRefr (r : rexpr).
(** reference.py:115-119 *)
Definition to_ref (o : pobj) : rexpr := match o with PConst c => RObj c | PRefr r => r end.

(** reference.py:147-148 __check_binary_expression_for_numeric; [and] binds stronger than [or]. *)
Definition check (self : rexpr) (other : pobj) : bool :=
  (is_numeric self && match other with PConst c => is_number c | PRefr _ => false end)
  || match other with PConst _ => false | PRefr r => is_numeric r end.

(** reference.py:150-244: [self.__op__(other)]; [None] is NotImplemented. *)
Definition method (op : numop) (self : rexpr) (other : pobj) : option rexpr :=
  if check self other then Some (RBin op self (to_ref other)) else None.
(** [self.__rop__(other)], defined for arithmetic. *)
Definition rmethod (op : numop) (self : rexpr) (other : pobj) : option rexpr :=
  if check self other then Some (RBin op (to_ref other) self) else None.

Definition is_comparison (op : numop) : bool :=
  match op with OpLe | OpLt | OpGe | OpGt | OpEq | OpNe => true | _ => false end.
(** The reflected comparison: [a < b] may be computed as [b > a]. *)
Definition swapped (op : numop) : numop :=
  match op with OpLe => OpGe | OpLt => OpGt | OpGe => OpLe | OpGt => OpLt | o => o end.

(** Are these the same object?  Two expressions that were written separately never are. *)
Definition same_object (a b : rexpr) : bool :=
  match a, b with RLeaf x, RLeaf y => Nat.eqb (l_id x) (l_id y) | _, _ => false end.

(** Python's binary operators.  Arithmetic: the left method, then the right one unless the classes
    are the same (no class overrides a method of its base class, so the right one never comes first).
    Comparisons: first the right one if its class is a subclass, then left, then right; if all fail,
    [==] and [!=] compare identities. *)
Definition rich_fallback (op : numop) (same : bool) : res pobj :=
  match op with
  | OpEq => Ok (PConst (rbool same))
  | OpNe => Ok (PConst (rbool (negb same)))
  | _ => Err TypeError
  end.
(** Two constants: Python's own operators, without the library.  Of those on other values than numbers only [==] and [!=]
    are modelled, and that None and objects have no other operators. *)
Definition inert (c : rv) : bool := match c with RVal VNone | RVal (VObj _ _) => true | _ => false end.
Definition const_op (op : numop) (a b : rv) : res rv :=
  if is_number a && is_number b then num_op op a b
  else match op, a, b with
       | OpEq, RVal x, RVal y => Ok (rbool (py_eq x y))
       | OpNe, RVal x, RVal y => Ok (rbool (negb (py_eq x y)))
       | _, _, _ => if inert a || inert b then Err TypeError else Err NotModelled
       end.
Definition py_binop (op : numop) (a b : pobj) : res pobj :=
  match a, b with
  | PConst x, PConst y => let* c := const_op op x y in Ok (PConst c)
  | PRefr x, PConst _ =>
      match method op x b with
      | Some r => Ok (PRefr r)
      | None => if is_comparison op then rich_fallback op false else Err TypeError
      end
  | PConst _, PRefr y =>
      if is_comparison op then
        match method (swapped op) y a with
        | Some r => Ok (PRefr r)
        | None => rich_fallback op false
        end
      else match rmethod op y a with Some r => Ok (PRefr r) | None => Err TypeError end
  | PRefr x, PRefr y =>
      if is_comparison op then
        let first := if subclass (class_of y) (class_of x) then method (swapped op) y a else None in
        match first with
        | Some r => Ok (PRefr r)
        | None =>
            match method op x b with
            | Some r => Ok (PRefr r)
            | None =>
                match method (swapped op) y a with
                | Some r => Ok (PRefr r)
                | None => rich_fallback op (same_object x y)
                end
            end
        end
      else
        match method op x b with
        | Some r => Ok (PRefr r)
        | None =>
            if rclass_beq (class_of x) (class_of y) then Err TypeError
            else match rmethod op y a with Some r => Ok (PRefr r) | None => Err TypeError end
        end
  end.

(** Python's [NotImplemented], as an object without attributes of a class of that name. *)
Definition not_implemented : rv := RVal (VObj "NotImplemented" []).
(** reference.py:210-213 __neg__.  A unary operator has no reflected method: what __neg__ returns is
    the value of the expression, also if that is [NotImplemented]. *)
Definition const_neg (c : rv) : res rv := let* b := num_bits c in Ok (rnum (- b)).
Definition py_neg (a : pobj) : res pobj :=
  match a with
  | PConst c => let* d := const_neg c in Ok (PConst d)
  | PRefr r => Ok (if is_numeric r then PRefr (RNeg r) else PConst not_implemented)
  end.

(** bool(x): reference.py:290-291 NumericBinaryExpression raises; NumericUnaryExpression defines only
    the Python 2 method; every other object is true. *)
Definition py_bool (a : pobj) : res bool :=
  match a with
  | PConst c => Ok (truthy c)
  | PRefr (RBin _ _ _) => Err NotImplementedError
  | PRefr _ => Ok true
  end.

(** Expressions of the user: constants, references, operators, num_ref, min_ref and max_ref
    (macros.py:337-346), [and], [or], [not] and chained comparisons. *)
Inductive pexp : Type :=
| XConst (c : rv)
| XRef (l : leaf)
| XBin (op : numop) (a b : pexp)
| XNeg (a : pexp)
| XNum (a : pexp)
| XMin (a b : pexp) | XMax (a b : pexp)
| XAnd (a b : pexp) | XOr (a b : pexp) | XNot (a : pexp)
| XChain (a : pexp) (op1 : numop) (b : pexp) (op2 : numop) (c : pexp).   (* a op1 b op2 c *)

Fixpoint build (e : pexp) : res pobj :=
  match e with
  | XConst c => Ok (PConst c)
  | XRef l => Ok (PRefr (RLeaf l))
  | XBin op a b => let* x := build a in let* y := build b in py_binop op x y
  | XNeg a => let* x := build a in py_neg x
  | XNum a => let* x := build a in
              Ok (PRefr (match x with PConst c => RCastConst c | PRefr r => RCast r end))
  | XMin a b => let* x := build a in let* y := build b in Ok (PRefr (RMin (to_ref x) (to_ref y)))
  | XMax a b => let* x := build a in let* y := build b in Ok (PRefr (RMax (to_ref x) (to_ref y)))
  | XAnd a b => let* x := build a in let* t := py_bool x in if t then build b else Ok x
  | XOr a b => let* x := build a in let* t := py_bool x in if t then Ok x else build b
  | XNot a => let* x := build a in let* t := py_bool x in Ok (PConst (rbool (negb t)))
  | XChain a op1 b op2 c =>
      let* x := build a in
      let* y := build b in
      let* l := py_binop op1 x y in
      let* t := py_bool l in
      if t then let* z := build c in py_binop op2 y z else Ok l
  end.

(** Evaluation in one pack or unpack, in which every reference has one value (C38): reference.py:259,
    280, 301, 316; builtins.py:51-66. *)
Fixpoint eval (env : leaf -> res rv) (r : rexpr) : res rv :=
  match r with
  | RLeaf l => env l
  | RObj c => Ok c
  | RBin op a b => let* x := eval env a in let* y := eval env b in num_op op x y
  | RNeg a => let* x := eval env a in const_neg x
  | RCast a => eval env a
  | RCastConst _ => Err AttributeError
  | RMin a b => let* x := eval env a in let* y := eval env b in min_max Z.min [x; y]
  | RMax a b => let* x := eval env a in let* y := eval env b in min_max Z.max [x; y]
  end.
(** What a builder makes of its argument (reference.py:115-119). *)
Definition eval_obj (env : leaf -> res rv) (o : pobj) : res rv := eval env (to_ref o).
