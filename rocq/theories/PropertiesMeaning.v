(** C100: references mean what they say. *)
From Verif Require Import Base Marshal Range RangeRef IoBuffer RefEngine RefSpec BufferModel BufferSpec MeaningSpec MeaningFacts.
From Coq Require Import ZArith List Bool String.
Import ListNotations.
Open Scope Z_scope.

(** A reference that a user writes from other references, and that has no value yet, evaluates its
    arguments in order; then it has the value that [says] gives for theirs, and is remembered with it.
    If an argument raises, the reference raises the same; if there is no value to have, it raises. *)
Theorem C100_reference_value : forall C k u l m s, nth_error (k_users C) k = Some u -> arguments u = Some l ->
  RefEngine.lookup rid_eqb (mkRid KUser k) m = None ->
  (forall v m' s', eval rid_eqb (nodes C) (mkRid KUser k) m s (Ok v) m' s'
     <-> exists vs m1, args_have C l m s vs m1 s' /\ says u vs v /\ m' = (mkRid KUser k, v) :: m1)
  /\ (forall e m' s', eval rid_eqb (nodes C) (mkRid KUser k) m s (Err e) m' s' ->
        args_raise C l m s e m' s' \/ exists vs, args_have C l m s vs m' s' /\ forall v, ~ says u vs v)
  /\ (forall e m' s', args_raise C l m s e m' s' -> eval rid_eqb (nodes C) (mkRid KUser k) m s (Err e) m' s')
  /\ (forall vs m' s', args_have C l m s vs m' s' -> (forall v, ~ says u vs v) ->
        exists e, eval rid_eqb (nodes C) (mkRid KUser k) m s (Err e) m' s').
Proof. exact reference_value. Qed.
Print Assumptions C100_reference_value.

(** Which exception it is, if the values of the arguments are not such as the operation takes. *)
Theorem C100_errors : forall C k u l m s vs m' s' e, nth_error (k_users C) k = Some u -> arguments u = Some l ->
  RefEngine.lookup rid_eqb (mkRid KUser k) m = None -> args_have C l m s vs m' s' -> fails u vs e ->
  eval rid_eqb (nodes C) (mkRid KUser k) m s (Err e) m' s'
  /\ forall r m2 s2, eval rid_eqb (nodes C) (mkRid KUser k) m s r m2 s2 -> r = Err e.
Proof. exact reference_errors. Qed.
Print Assumptions C100_errors.

(** The values for which pack_if and unpack_if leave a field out. *)
Theorem C100_false_values : forall v, truthy v = false <-> counts_as_false v.
Proof. exact false_values. Qed.
Print Assumptions C100_false_values.

(** ** Cases *)
(** max(n, 4 + 8 // n, 1.5 bytes) with n = 2 is 8; min is 1.5 bytes; bytes[n:]; a quotient rounds down. *)
Example C100_nonvacuous : says (UMax []) [RVal (VInt 2); RVal (VInt 8); RFrac 12] (RVal (VInt 8))
  /\ says (UMin []) [RVal (VInt 2); RVal (VInt 8); RFrac 12] (RFrac 12)
  /\ says (UByteSlice (AConst (RVal (VInt 2))) (AConst (RVal VNone))) [RVal (VInt 2); RVal VNone] (RRanges [mkR 16 None])
  /\ says (UNum OpFloorDiv (AConst (RVal (VInt (-7)))) (AConst (RVal (VInt 2)))) [RVal (VInt (-7)); RVal (VInt 2)] (RVal (VInt (-4)))
  /\ says (UList []) [RRanges [mkR 0 (Some 8)]; RRanges [mkR 16 None]] (RRanges [mkR 0 (Some 8); mkR 16 None]).
Proof.
  assert (F : Forall2 number [16; 64; 12] [RVal (VInt 2); RVal (VInt 8); RFrac 12]).
  { constructor; [apply (num_int 2)|]. constructor; [apply (num_int 8)|]. constructor; [apply num_frac|constructor]. }
  split; [|split; [|split; [|split]]].
  - apply (sa_max _ _ [16; 64; 12] 64); [repeat constructor|exact F|right; now left| |apply (res_int 8)].
    intros q [<-|[<-|[<-|[]]]]; discriminate.
  - apply (sa_min _ _ [16; 64; 12] 12); [repeat constructor|exact F|right; right; now left| |apply res_frac; discriminate].
    intros q [<-|[<-|[<-|[]]]]; discriminate.
  - apply (sa_slice _ _ _ _ (Some 16) None); [constructor; apply (num_int 2)|constructor| |discriminate]. intros p E. injection E as <-. discriminate.
  - apply (sa_num _ _ _ _ _ (-56) 16); [apply (num_int (-7))|apply (num_int 2)|]. apply (os_div _ _ (-4)); [discriminate| | |apply (res_int (-4))].
    + intros _. split; [discriminate|reflexivity].
    + intros E. discriminate E.
  - apply (sa_list [] [[mkR 0 (Some 8)]; [mkR 16 None]]). discriminate.
Qed.
Example C100_nonvacuous_false : ~ counts_as_false (RVal (VStr [48])) /\ counts_as_false (RVal (VList [])) /\ ~ counts_as_false (RVal (VInt (-1))).
Proof. split; [|split]; [intros H; inversion H|constructor|intros H; inversion H]. Qed.

(** A comparison of None, of a text or of bytes with a number: not equal, and no order; an operator on None. *)
Example C100_equality : says (UNum OpEq (AConst (RVal VNone)) (AConst (RVal (VInt 3)))) [RVal VNone; RVal (VInt 3)] (RVal (VInt 0))
  /\ says (UNum OpNe (AConst (RVal (VStr [97]))) (AConst (RVal (VBytes [97])))) [RVal (VStr [97]); RVal (VBytes [97])] (RVal (VInt 1))
  /\ says (UNum OpEq (AConst (RVal (VStr [97]))) (AConst (RVal (VStr [97])))) [RVal (VStr [97]); RVal (VStr [97])] (RVal (VInt 1))
  /\ fails (UNum OpLt (AConst (RVal VNone)) (AConst (RVal (VInt 3)))) [RVal VNone; RVal (VInt 3)] TypeError
  /\ fails (UNum OpFloorDiv (AConst (RVal (VInt 3))) (AConst (RVal (VInt 0)))) [RVal (VInt 3); RVal (VInt 0)] ZeroDivisionError
  /\ fails (UMin []) [RVal (VInt 3); RVal VNone] TypeError.
Proof.
  repeat apply conj.
  - eapply sa_eq; [apply (same_not _ _ SNone SNumber); [reflexivity|reflexivity|discriminate]|]. apply truth_no. tauto.
  - eapply sa_ne; [apply (same_not _ _ SText SBytes); [reflexivity|reflexivity|discriminate]|]. apply truth_yes. tauto.
  - eapply sa_eq; [apply same_text|]. now apply truth_yes.
  - apply fa_none; [discriminate|discriminate|now left].
  - apply (fa_zero _ _ _ _ 24); [apply (num_int 3)|apply (num_int 0)].
  - apply fa_min; [|right; right; now left]. constructor; [apply (nn_num 24), (num_int 3)|constructor; [constructor|constructor]].
Qed.
(** Such a reference in a class that can be written down: x < 3 where x is None. *)
Example C100_errors_case : forall m s, let C := mkCls [] [UNum OpLt (AConst (RVal VNone)) (AConst (RVal (VInt 3)))] None in
  RefEngine.lookup rid_eqb (mkRid KUser 0) m = None -> eval rid_eqb (nodes C) (mkRid KUser 0) m s (Err TypeError) m s.
Proof.
  intros m s C N. eapply C100_errors; [reflexivity|reflexivity|exact N|repeat constructor|]. apply fa_none; [discriminate|discriminate|now left].
Qed.
