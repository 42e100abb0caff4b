(** C106: operators on positions. *)
From Verif Require Import Base Range RangeRef Marshal BufferModel RefOps WhereRef WhereOps WhereOpsFacts.
From Coq Require Import ZArith List Bool String.
Import ListNotations.
Open Scope Z_scope.

(** ** C106: what a class body can do with positions besides indexing them *)

(** Positions are added: the sum covers the ranges of the left one and then those of the right one. *)
Theorem C106_sum : forall env w w' same l l', ranges env w = Ok l -> ranges env w' = Ok l' ->
  exists s, py_op2 OpAdd same (OWhere w) (OWhere w') = Ok (TList s) /\ eval_list env s = Ok (l ++ l').
Proof. exact positions_added. Qed.
Print Assumptions C106_sum.

(** Positions other than that of a single byte: with constants, with references that are no numbers, and with each other they
    can be compared for being the same object, and nothing else; they are no index and no bound. *)
Theorem C106_constants : forall e w c, define e = Ok w ->
  (forall same, py_op2 OpAdd same (OWhere w) (OObj (PConst c)) = Err TypeError /\ py_op2 OpAdd same (OObj (PConst c)) (OWhere w) = Err TypeError)
  /\ (~ one_byte e -> forall op, op <> OpAdd ->
        py_op2 op false (OWhere w) (OObj (PConst c)) = unknown_to_each_other op false
        /\ py_op2 op false (OObj (PConst c)) (OWhere w) = unknown_to_each_other op false).
Proof. intros e w c D. split; [intros same; apply add_constant|]. intros N op A. exact (with_constant e w D N op c A). Qed.
Print Assumptions C106_constants.
Theorem C106_plain_references : forall e w r op, define e = Ok w -> ~ one_byte e -> is_numeric r = false -> op <> OpAdd ->
  py_op2 op false (OWhere w) (OObj (PRefr r)) = unknown_to_each_other op false
  /\ py_op2 op false (OObj (PRefr r)) (OWhere w) = unknown_to_each_other op false.
Proof. intros e w r op D N R A. exact (with_plain_reference e w D N r op R A). Qed.
Print Assumptions C106_plain_references.
Theorem C106_positions : forall e w e' w' op same, define e = Ok w -> define e' = Ok w' -> ~ one_byte e -> ~ one_byte e' -> op <> OpAdd ->
  py_op2 op same (OWhere w) (OWhere w') = unknown_to_each_other op same.
Proof. exact two_positions. Qed.
Print Assumptions C106_positions.
Theorem C106_other_uses : forall e w, define e = Ok w -> ~ one_byte e ->
  index_of (OWhere w) = Err TypeError /\ bound_of (OWhere w) = Err TypeError /\ py_neg2 (OWhere w) = Ok (TConst not_implemented).
Proof. intros e w D N. destruct (used_otherwise e w D N) as (A & B & C). auto. Qed.
Print Assumptions C106_other_uses.

(** Of the other objects, ints and references to numbers, and only they, are an index; it is what bytes_ref[o] accepts in a class body. *)
Theorem C106_index : forall o, (index_of (OObj o) = Ok tt \/ index_of (OObj o) = Err TypeError)
  /\ (index_of (OObj o) = Ok tt <-> (exists n, o = PConst (RVal (VInt n))) \/ exists r, o = PRefr r /\ is_numeric r = true)
  /\ (index_of (OObj o) = Err TypeError <-> define (EBytes (LIndex o)) = Err TypeError).
Proof. exact index_object. Qed.
Print Assumptions C106_index.

(** What one would not expect: the position of a single byte, bytes_ref[x], does not know whether it is a
    number; whatever asks it raises AttributeError. *)
Theorem C106_one_byte_refuted : forall x w, define (EBytes (LIndex x)) = Ok w ->
  (forall op same a, op <> OpAdd -> py_op2 op same (OWhere w) a = Err AttributeError /\ py_op2 op same a (OWhere w) = Err AttributeError)
  /\ (forall same r, py_op2 OpAdd same (OWhere w) (OObj (PRefr r)) = Err AttributeError /\ py_op2 OpAdd same (OObj (PRefr r)) (OWhere w) = Err AttributeError)
  /\ py_neg2 (OWhere w) = Err AttributeError /\ index_of (OWhere w) = Err AttributeError /\ bound_of (OWhere w) = Err AttributeError.
Proof. exact one_byte_position. Qed.
Print Assumptions C106_one_byte_refuted.

(** Comparing any other position with a numeric field, and calculating with both, is accepted when the class is defined; when an object
    is packed or unpacked the two are never equal, and everything else raises TypeError ([*] with a number aside, which repeats the list). *)
Theorem C106_number_references_refuted : forall e w r op same, define e = Ok w -> ~ one_byte e -> is_numeric r = true -> op <> OpAdd ->
  exists a b a' b' op', py_op2 op same (OWhere w) (OObj (PRefr r)) = Ok (TExpr op a b)
    /\ py_op2 op same (OObj (PRefr r)) (OWhere w) = Ok (TExpr op' a' b')
    /\ forall env l v, ranges env w = Ok l -> eval env r = Ok (RVal v) -> v = VNone \/ (op <> OpMul /\ exists n, v = VInt n) ->
         eval_expr env op a b = position_and_number op /\ eval_expr env op' a' b' = position_and_number op.
Proof. intros e w r op same D N R A. exact (with_number_reference e w D N r op same R A). Qed.
Print Assumptions C106_number_references_refuted.

(** Adding a field to a position is accepted if the field is on the left (and a TypeError on the right); such a sum never has a
    value, and neither has one of it and other positions. *)
Theorem C106_reference_plus_position_refuted : forall e w, define e = Ok w -> ~ one_byte e -> forall r same,
  py_op2 OpAdd same (OWhere w) (OObj (PRefr r)) = Err TypeError
  /\ exists l, py_op2 OpAdd same (OObj (PRefr r)) (OWhere w) = Ok (TList l)
     /\ (forall env x, eval env r = Err x -> eval_list env l = Err x)
     /\ forall env v x, eval env r = Ok v -> plain_value v -> ranges env w = Ok x -> eval_list env l = Err AttributeError.
Proof. exact reference_plus_position. Qed.
Print Assumptions C106_reference_plus_position_refuted.
Theorem C106_mixed_list_refuted : forall l r, In (inl r) l ->
  (forall w same, exists s s', py_op2 OpAdd same (OList l) (OWhere w) = Ok (TList s) /\ py_op2 OpAdd same (OWhere w) (OList l) = Ok (TList s')
     /\ In (inl r) s /\ In (inl r) s')
  /\ forall env, (forall r, In (inl r) l -> exists v, eval env r = Ok v /\ plain_value v) -> (forall w, In (inr w) l -> exists x, ranges env w = Ok x) ->
     eval_list env l = Err TypeError \/ eval_list env l = Err AttributeError.
Proof.
  intros l r I. split.
  - intros w same. exists (l ++ map inr (parts w)), (map inr (parts w) ++ l). split; [reflexivity|]. split; [reflexivity|]. split; apply in_or_app; auto.
  - intros env HL HR. apply mixed_list; eauto.
Qed.
Print Assumptions C106_mixed_list_refuted.

(** ** Cases *)
Definition five : pobj := PConst (RVal (VInt 5)).
Definition size_field : rexpr := RLeaf (mkLeaf 0 CField true).
Definition name_field : rexpr := RLeaf (mkLeaf 1 CField false).
Definition env0 (l : leaf) : res rv := if Nat.eqb (l_id l) 0 then Ok (RVal (VInt 7)) else Ok (RVal VNone).
(** bytes_ref[5] and bytes_ref[0:5]; size > bytes_ref[0:5]; name + bytes_ref[0:5] + bytes_ref[5]. *)
Example C106_nonvacuous : exists w w', define (EBytes (LIndex five)) = Ok w /\ one_byte (EBytes (LIndex five))
  /\ define (EBytes (LSlice zero five None)) = Ok w' /\ ~ one_byte (EBytes (LSlice zero five None))
  /\ ranges env0 w = Ok [mkR 40 (Some 48)] /\ ranges env0 w' = Ok [mkR 0 (Some 40)]
  /\ py_op2 OpEq false (OWhere w) (OObj five) = Err AttributeError /\ py_op2 OpEq false (OWhere w') (OObj five) = Ok (TConst (RVal (VInt 0)))
  /\ py_op2 OpGt false (OObj (PRefr size_field)) (OWhere w') = Ok (TExpr OpLt (OWhere w') (OObj (PRefr size_field)))
  /\ eval_expr env0 OpLt (OWhere w') (OObj (PRefr size_field)) = Err TypeError
  /\ py_op2 OpAdd false (OObj (PRefr name_field)) (OWhere w') = Ok (TList [inl name_field; inr w'])
  /\ py_op2 OpAdd false (OList [inl name_field; inr w']) (OWhere w) = Ok (TList [inl name_field; inr w'; inr w])
  /\ eval_list env0 [inl name_field; inr w'; inr w] = Err AttributeError /\ eval_list env0 [inr w; inl size_field; inr w'] = Err TypeError
  /\ eval_list env0 [inr w'; inr w] = Ok [mkR 0 (Some 40); mkR 40 (Some 48)].
Proof.
  eexists _, _. split; [reflexivity|]. split; [eexists; reflexivity|]. split; [reflexivity|]. split; [intros [o O]; discriminate|]. repeat split.
Qed.
Example C106_nonvacuous_fields : is_numeric size_field = true /\ is_numeric name_field = false
  /\ eval env0 size_field = Ok (RVal (VInt 7)) /\ plain_value (RVal (VInt 7)) /\ eval env0 name_field = Ok (RVal VNone) /\ plain_value (RVal VNone).
Proof. repeat split; constructor. Qed.
