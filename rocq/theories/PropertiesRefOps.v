(** Properties C66 and C67: expressions over references. *)
From Verif Require Import Base Marshal BufferModel RefOps RefOpsSpec RefOpsFacts.
From Coq Require Import ZArith List Bool.
Import ListNotations.
Open Scope Z_scope.

(** C66.  An arithmetic expression or comparison over integers and numeric references: if the
    references have integer values when the object is packed or unpacked, the reference that Python
    makes of the expression has the value of the expression over these integers.  Division by zero
    raises ZeroDivisionError, at the latest when the value is needed. *)
Theorem C66_expression_value : forall env val e,
  (forall l, env l = Ok (RVal (VInt (val l)))) -> arithmetic e = true ->
  match int_value val e with
  | Some z => exists o, build e = Ok o /\ eval_obj env o = Ok (RVal (VInt z))
  | None => build e = Err ZeroDivisionError
            \/ exists o, build e = Ok o /\ eval_obj env o = Err ZeroDivisionError
  end.
Proof. exact expression_value. Qed.
Print Assumptions C66_expression_value.

(** C66.  The left operand is evaluated first, so that it decides what is raised, with one exception:
    in a comparison the right one comes first if its class is derived from the class of the left one. *)
Theorem C66_operand_order : forall l l' op, l_numeric l = true -> l_numeric l' = true ->
  exists r, build (XBin op (XRef l) (XRef l')) = Ok (PRefr r)
    /\ (compares op -> derived (l_class l') (l_class l) ->
          forall env, (forall e, env l' = Err e -> eval env r = Err e)
            /\ forall y e, env l' = Ok y -> env l = Err e -> eval env r = Err e)
    /\ (~ (compares op /\ derived (l_class l') (l_class l)) ->
          forall env, (forall e, env l = Err e -> eval env r = Err e)
            /\ forall x e, env l = Ok x -> env l' = Err e -> eval env r = Err e).
Proof. exact operand_order. Qed.
Print Assumptions C66_operand_order.

(** C67.  A reference that is not declared numeric, such as [self_ref.x], compared with a constant is
    no reference at all: [==] is False and [!=] is True, once and for all, whatever the attribute and
    the constant are.  Every other operator raises TypeError. *)
Theorem C67_plain_reference_and_constant : forall l c op, l_numeric l = false ->
  let result := match op with
                | OpEq => Ok (PConst (RVal (VInt 0)))
                | OpNe => Ok (PConst (RVal (VInt 1)))
                | _ => Err TypeError
                end in
  build (XBin op (XRef l) (XConst c)) = result /\ build (XBin op (XConst c) (XRef l)) = result.
Proof. intros l c op H. destruct (plain_const l c op H) as [A B]. rewrite A, B. now destruct op. Qed.
Print Assumptions C67_plain_reference_and_constant.

(** C67.  The same holds for every reference, also a numeric one or the result of arithmetic, with a
    constant that is no number, such as a string, bytes or None. *)
Theorem C67_other_constants : forall e r v op,
  build e = Ok (PRefr r) -> (forall n, v <> VInt n) -> (forall x, v <> VFloat x) ->
  let result := match op with
                | OpEq => Ok (PConst (RVal (VInt 0)))
                | OpNe => Ok (PConst (RVal (VInt 1)))
                | _ => Err TypeError
                end in
  build (XBin op e (XConst (RVal v))) = result /\ build (XBin op (XConst (RVal v)) e) = result.
Proof. intros e r v op B N F. destruct (other_const e r v op B N F) as [A C]. rewrite A, C. now destruct op. Qed.
Print Assumptions C67_other_constants.

(** Two constants of which one is no number are compared at once, [!=] being the opposite of [==]. *)
Theorem C67_two_constants : forall v w, ((forall n, v <> VInt n) /\ (forall x, v <> VFloat x) \/ (forall n, w <> VInt n) /\ (forall x, w <> VFloat x)) ->
  build (XBin OpEq (XConst (RVal v)) (XConst (RVal w))) = Ok (PConst (RVal (VInt (if py_eq v w then 1 else 0))))
  /\ build (XBin OpNe (XConst (RVal v)) (XConst (RVal w))) = Ok (PConst (RVal (VInt (if py_eq v w then 0 else 1)))).
Proof.
  intros v w H. cbn [build py_binop rbind]. unfold const_op.
  assert (E : is_number (RVal v) && is_number (RVal w) = false).
  { destruct (is_number (RVal v)) eqn:V, (is_number (RVal w)) eqn:W; try reflexivity. exfalso. destruct H as [[A B] | [A B]].
    - destruct v; try discriminate V; [eapply A|eapply B]; reflexivity.
    - destruct w; try discriminate W; [eapply A|eapply B]; reflexivity. }
  rewrite E. split; destruct (py_eq v w); reflexivity.
Qed.
Print Assumptions C67_two_constants.

(** C67.  The same holds for two such references: [==] asks whether they are the same object. *)
Theorem C67_plain_references : forall l l' op, l_numeric l = false -> l_numeric l' = false ->
  build (XBin op (XRef l) (XRef l')) =
  match op with
  | OpEq => Ok (PConst (RVal (VInt (if Nat.eqb (l_id l) (l_id l') then 1 else 0))))
  | OpNe => Ok (PConst (RVal (VInt (if Nat.eqb (l_id l) (l_id l') then 0 else 1))))
  | _ => Err TypeError
  end.
Proof. intros l l' op H H'. rewrite (plain_plain l l' op H H'). destruct op, (Nat.eqb (l_id l) (l_id l')); reflexivity. Qed.
Print Assumptions C67_plain_references.

(** C67.  Together with a numeric reference on the right hand side every operator works; with the
    numeric one on the left, arithmetic works only if they are objects of different classes. *)
Theorem C67_mixed_references : forall l l' op, l_numeric l = false -> l_numeric l' = true ->
  (exists r, build (XBin op (XRef l) (XRef l')) = Ok (PRefr r)
     /\ forall env, eval env r = (let* x := env l in let* y := env l' in num_op op x y))
  /\ (is_comparison op = false ->
      build (XBin op (XRef l') (XRef l))
      = if rclass_beq (l_class l') (l_class l) then Err TypeError else Ok (PRefr (RBin op (RLeaf l') (RLeaf l)))).
Proof.
  intros l l' op H H'. destruct (plain_numeric l l' op H H') as [(r & E & V) K]. split; [|exact K].
  exists r. split; [exact E|]. exact V.
Qed.
Print Assumptions C67_mixed_references.

(** C67.  [and], [or] and [not] do not make references: with a plain reference, such as a field, on the
    left, [l and e] is [e], [l or e] is [l] and [not l] is False.  With an arithmetic expression or
    comparison on the left they raise NotImplementedError, and so do chained comparisons. *)
Theorem C67_boolean_operators : forall l e,
  build (XAnd (XRef l) e) = build e
  /\ build (XOr (XRef l) e) = Ok (PRefr (RLeaf l))
  /\ build (XNot (XRef l)) = Ok (PConst (RVal (VInt 0))).
Proof. exact and_or_not. Qed.
Print Assumptions C67_boolean_operators.
Theorem C67_conditions_raise : forall op a b r, build (XBin op a b) = Ok (PRefr r) ->
  (forall e, build (XAnd (XBin op a b) e) = Err NotImplementedError)
  /\ (forall e, build (XOr (XBin op a b) e) = Err NotImplementedError)
  /\ build (XNot (XBin op a b)) = Err NotImplementedError
  /\ (forall op2 e, build (XChain a op b op2 e) = Err NotImplementedError).
Proof. exact condition_raises. Qed.
Print Assumptions C67_conditions_raise.

(** C67.  A chain of comparisons whose first one is decided when the reference is written, as for references that are not
    numeric, is decided by it if it does not hold, without a look at the rest; otherwise it is the second comparison alone. *)
Theorem C67_chains : forall l l' op e, l_numeric l = false -> l_numeric l' = false ->
  build (XChain (XRef l) OpEq (XRef l') op e)
  = (if Nat.eqb (l_id l) (l_id l') then build (XBin op (XRef l') e) else Ok (PConst (RVal (VInt 0))))
  /\ build (XChain (XRef l) OpNe (XRef l') op e)
  = (if Nat.eqb (l_id l) (l_id l') then Ok (PConst (RVal (VInt 0))) else build (XBin op (XRef l') e)).
Proof.
  intros l l' op e N N'. pose proof (C67_plain_references l l' OpEq N N') as A. pose proof (C67_plain_references l l' OpNe N N') as B.
  cbn [build rbind] in *. rewrite A, B. destruct (Nat.eqb (l_id l) (l_id l')); split; reflexivity.
Qed.
Print Assumptions C67_chains.


(** C67.  Negating a reference that is no number is not rejected when the class is defined: the expression
    is Python's NotImplemented, as which it is then compared and handed on; only calculating with it fails. *)
Theorem C67_negated_plain_refuted : forall l, l_numeric l = false ->
  build (XNeg (XRef l)) = Ok (PConst not_implemented)
  /\ (forall env, eval_obj env (PConst not_implemented) = Ok not_implemented)
  /\ forall n op, build (XBin op (XNeg (XRef l)) (XConst (RVal (VInt n))))
     = match op with OpEq => Ok (PConst (RVal (VInt 0))) | OpNe => Ok (PConst (RVal (VInt 1))) | _ => Err TypeError end.
Proof.
  intros l H. cbn [build rbind py_neg is_numeric]. rewrite H. split; [reflexivity|]. split; [reflexivity|]. intros n op. destruct op; reflexivity.
Qed.
Print Assumptions C67_negated_plain_refuted.

(** C67.  [num_ref] of something that is no reference is accepted when the class is defined, and raises
    AttributeError whenever its value is needed. *)
Theorem C67_num_ref_of_constant : forall c, exists r, build (XNum (XConst c)) = Ok (PRefr r)
  /\ (forall env, eval env r = Err AttributeError)
  /\ forall op n, exists q, build (XBin op (XNum (XConst c)) (XConst (RVal (VInt n)))) = Ok (PRefr q)
       /\ forall env, eval env q = Err AttributeError.
Proof.
  intros c. exists (RCastConst c). split; [reflexivity|]. split; [reflexivity|].
  intros op n. destruct op; eexists; (split; [reflexivity|reflexivity]).
Qed.
Print Assumptions C67_num_ref_of_constant.

(** [20 <= num_ref(self_ref.n) * 4 - -offset // 2]; [self_ref.n == 5]; [flag and flag + 1 > 2]. *)
Definition self_n : leaf := mkLeaf 0 CFieldOrAttr false.
Definition offset : leaf := mkLeaf 1 CField true.
Definition demo : pexp :=
  XBin OpLe (XConst (RVal (VInt 20)))
    (XBin OpSub (XBin OpMul (XNum (XRef self_n)) (XConst (RVal (VInt 4)))) (XBin OpFloorDiv (XNeg (XRef offset)) (XConst (RVal (VInt 2))))).
Definition demo_values (n o : Z) : leaf -> Z := fun l => if Nat.eqb (l_id l) 0 then n else o.
Example C66_nonvacuous :
  arithmetic demo = true
  /\ int_value (demo_values 4 7) demo = Some 1 /\ int_value (demo_values 4 6) demo = Some 0
  /\ build demo = Ok (PRefr (RBin OpGe
       (RBin OpSub (RBin OpMul (RCast (RLeaf self_n)) (RObj (RVal (VInt 4)))) (RBin OpFloorDiv (RNeg (RLeaf offset)) (RObj (RVal (VInt 2)))))
       (RObj (RVal (VInt 20)))))
  /\ (let* o := build demo in eval_obj (fun l => Ok (RVal (VInt (demo_values 4 7 l)))) o) = Ok (RVal (VInt 1)).
Proof. repeat split. Qed.
Example C67_nonvacuous :
  build (XBin OpEq (XRef self_n) (XConst (RVal (VInt 5)))) = Ok (PConst (RVal (VInt 0)))
  /\ build (XBin OpAdd (XRef self_n) (XConst (RVal (VInt 5)))) = Err TypeError
  /\ (exists r, build (XBin OpGt (XBin OpAdd (XRef offset) (XConst (RVal (VInt 1)))) (XConst (RVal (VInt 2)))) = Ok (PRefr r))
  /\ build (XBin OpAdd (XRef (mkLeaf 2 CField false)) (XRef offset)) = Ok (PRefr (RBin OpAdd (RLeaf (mkLeaf 2 CField false)) (RLeaf offset)))
  /\ build (XBin OpAdd (XRef offset) (XRef (mkLeaf 2 CField false))) = Err TypeError.
Proof. repeat split. eexists. reflexivity. Qed.
Example C66_nonvacuous_order :
  compares OpLt /\ derived (l_class (mkLeaf 3 CLength true)) (l_class (mkLeaf 4 CFuncCall true))
  /\ build (XBin OpLt (XRef (mkLeaf 4 CFuncCall true)) (XRef (mkLeaf 3 CLength true))) = Ok (PRefr (RBin OpGt (RLeaf (mkLeaf 3 CLength true)) (RLeaf (mkLeaf 4 CFuncCall true)))).
Proof. split; [exact I|]. split; [constructor|reflexivity]. Qed.
Example C67_nonvacuous_others :
  (exists r, build (XBin OpAdd (XRef offset) (XConst (RVal (VInt 1)))) = Ok (PRefr r))
  /\ (forall n, VNone <> VInt n) /\ (forall x, VNone <> VFloat x)
  /\ build (XBin OpEq (XBin OpAdd (XRef offset) (XConst (RVal (VInt 1)))) (XConst (RVal VNone))) = Ok (PConst (RVal (VInt 0))).
Proof. split; [eexists; reflexivity|]. split; [discriminate|]. split; [discriminate|reflexivity]. Qed.
(** [self_ref.n == self_ref.m > 1] and [self_ref.n != self_ref.m == offset]. *)
Example C67_nonvacuous_chains :
  let self_m := mkLeaf 5 CFieldOrAttr false in
  build (XChain (XRef self_n) OpEq (XRef self_m) OpGt (XConst (RVal (VInt 1)))) = Ok (PConst (RVal (VInt 0)))
  /\ build (XChain (XRef self_n) OpNe (XRef self_m) OpEq (XRef offset)) = build (XBin OpEq (XRef self_m) (XRef offset))
  /\ exists r, build (XChain (XRef self_n) OpNe (XRef self_m) OpEq (XRef offset)) = Ok (PRefr r).
Proof. split; [reflexivity|]. split; [reflexivity|]. eexists. reflexivity. Qed.
