(** Specification: the value of an expression over integers. *)
From Verif Require Import Base BufferModel RefOps.
From Coq Require Import ZArith List Bool.
Import ListNotations.
Open Scope Z_scope.

Definition truth (b : bool) : Z := if b then 1 else 0.
(** Python's operators on ints; [None]: division by zero. *)
Definition on_ints (op : numop) (x y : Z) : option Z :=
  match op with
  | OpAdd => Some (x + y) | OpSub => Some (x - y) | OpMul => Some (x * y)
  | OpFloorDiv => if y =? 0 then None else Some (x / y)
  | OpLe => Some (truth (x <=? y)) | OpLt => Some (truth (x <? y))
  | OpGe => Some (truth (y <=? x)) | OpGt => Some (truth (y <? x))
  | OpEq => Some (truth (x =? y)) | OpNe => Some (truth (negb (x =? y)))
  end.
Definition obind {A B} (x : option A) (f : A -> option B) : option B := match x with Some a => f a | None => None end.
(** The value of an expression of integer constants, references, arithmetic and comparisons when the
    references have these values. *)
Fixpoint int_value (val : leaf -> Z) (e : pexp) : option Z :=
  match e with
  | XConst (RVal (Marshal.VInt n)) => Some n
  | XConst _ => None
  | XRef l => Some (val l)
  | XBin op a b => obind (int_value val a) (fun x => obind (int_value val b) (fun y => on_ints op x y))
  | XNeg a => obind (int_value val a) (fun x => Some (- x))
  | XNum a => int_value val a
  | XMin a b => obind (int_value val a) (fun x => obind (int_value val b) (fun y => Some (Z.min x y)))
  | XMax a b => obind (int_value val a) (fun x => obind (int_value val b) (fun y => Some (Z.max x y)))
  | XAnd _ _ | XOr _ _ | XNot _ | XChain _ _ _ _ _ => None
  end.

(** Does the expression contain a reference ([min_ref] and [max_ref] make one)? *)
Fixpoint has_ref (e : pexp) : bool :=
  match e with
  | XConst _ => false | XRef _ => true
  | XBin _ a b => has_ref a || has_ref b
  | XMin _ _ | XMax _ _ => true
  | XNeg a | XNum a => has_ref a
  | _ => false
  end.
(** Arithmetic and comparisons of integers and references, where each reference is numeric or made so
    by [num_ref]. *)
Fixpoint arithmetic (e : pexp) : bool :=
  match e with
  | XConst (RVal (Marshal.VInt _)) => true
  | XConst _ => false
  | XRef l => l_numeric l
  | XBin _ a b | XMin a b | XMax a b => arithmetic a && arithmetic b
  | XNeg a => arithmetic a
  | XNum (XRef _) => true
  | XNum a => arithmetic a && has_ref a
  | XAnd _ _ | XOr _ _ | XNot _ | XChain _ _ _ _ _ => false
  end.

(** The classes of references that are derived from another one (builtins.py, contexts.py:56). *)
Inductive derived : rclass -> rclass -> Prop :=
| d_length : derived CLength CFuncCall
| d_getattr : derived CGetAttr CFuncCall
| d_setattr : derived CSetAttr CFuncCall
| d_assign : derived CAssignAttr CFuncCall
| d_min : derived CMin CFuncCall
| d_max : derived CMax CFuncCall
| d_context : derived CContextGetAttr CGetAttr
| d_context_call : derived CContextGetAttr CFuncCall.
(** Does the operator make a truth value? *)
Definition compares (op : numop) : Prop :=
  match op with OpLe | OpLt | OpGe | OpGt | OpEq | OpNe => True | OpAdd | OpSub | OpMul | OpFloorDiv => False end.
