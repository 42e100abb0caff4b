(** Facts about the operators of references. *)
From Verif Require Import Base Marshal BufferModel RefOps RefOpsSpec.
From Coq Require Import ZArith List Bool Lia ZifyBool.
Import ListNotations.
Open Scope Z_scope.
Ltac Zify.zify_post_hook ::= Z.div_mod_to_equations.

Definition vint (z : Z) : rv := RVal (VInt z).
Lemma rnum8 z : rnum (8 * z) = vint z.
Proof.
  unfold rnum. replace (8 * z mod 8) with 0 by lia. cbn [Z.eqb]. replace (8 * z / 8) with z by lia. reflexivity.
Qed.
Lemma rbool_truth b : rbool b = vint (truth b).
Proof. now destruct b. Qed.
Lemma num_op_int op x y : num_op op (vint x) (vint y) = match on_ints op x y with Some z => Ok (vint z) | None => Err ZeroDivisionError end.
Proof.
  unfold num_op, vint. cbn [num_bits rbind]. destruct op; cbn [on_ints].
  - replace (8 * x + 8 * y) with (8 * (x + y)) by lia. now rewrite rnum8.
  - replace (8 * x - 8 * y) with (8 * (x - y)) by lia. now rewrite rnum8.
  - replace (8 * x * (8 * y)) with (8 * (8 * (x * y))) by ring. replace (8 * (8 * (x * y)) mod 8) with 0 by lia. cbn [Z.eqb].
    replace (8 * (8 * (x * y)) / 8) with (8 * (x * y)) by lia. now rewrite rnum8.
  - destruct (Z.eqb_spec y 0) as [->|N]; [reflexivity|]. destruct (Z.eqb_spec (8 * y) 0); [lia|].
    rewrite Z.div_mul_cancel_l by lia. now rewrite rnum8.
  - rewrite rbool_truth. now replace (8 * x <=? 8 * y) with (x <=? y) by lia.
  - rewrite rbool_truth. now replace (8 * x <? 8 * y) with (x <? y) by lia.
  - rewrite rbool_truth. now replace (8 * y <=? 8 * x) with (y <=? x) by lia.
  - rewrite rbool_truth. now replace (8 * y <? 8 * x) with (y <? x) by lia.
  - rewrite rbool_truth. now replace (8 * x =? 8 * y) with (x =? y) by lia.
  - rewrite rbool_truth. now replace (8 * x =? 8 * y) with (x =? y) by lia.
Qed.
Lemma on_ints_swapped op x y : is_comparison op = true -> on_ints (swapped op) y x = on_ints op x y.
Proof. destruct op; intros H; try discriminate; cbn [swapped on_ints]; try reflexivity; rewrite Z.eqb_sym; reflexivity. Qed.
Lemma neg_int x : const_neg (vint x) = Ok (vint (- x)).
Proof. unfold const_neg, vint. cbn [num_bits rbind]. replace (- (8 * x)) with (8 * - x) by lia. now rewrite rnum8. Qed.

(** What building gives: something numeric, whose evaluation is what the specification says. *)
Definition evals (env : leaf -> res rv) (o : pobj) (z : option Z) : Prop :=
  eval_obj env o = match z with Some n => Ok (vint n) | None => Err ZeroDivisionError end.
Definition good (o : pobj) (ref : bool) : Prop :=
  is_numeric (to_ref o) = true /\ match o with PConst c => ref = false /\ exists n, c = vint n | PRefr _ => ref = true end.

Lemma evals_bin env op a b x y : evals env a x -> evals env b y ->
  evals env (PRefr (RBin op (to_ref a) (to_ref b))) (obind x (fun x => obind y (fun y => on_ints op x y))).
Proof.
  unfold evals, eval_obj. intros A B. cbn [to_ref eval]. rewrite A. destruct x as [x|]; [|reflexivity]. cbn [rbind obind]. rewrite B.
  destruct y as [y|]; [|reflexivity]. cbn [rbind obind]. now rewrite num_op_int.
Qed.
Lemma evals_swapped env op a b x y : is_comparison op = true -> evals env a x -> evals env b y ->
  evals env (PRefr (RBin (swapped op) (to_ref b) (to_ref a))) (obind x (fun x => obind y (fun y => on_ints op x y))).
Proof.
  intros C A B. pose proof (evals_bin env (swapped op) b a y x B A) as H. unfold evals in *. rewrite H.
  destruct x as [x|], y as [y|]; cbn [obind]; try reflexivity. now rewrite on_ints_swapped.
Qed.
Lemma check_good a b ra rb : good a ra -> good b rb -> ra = true -> check (to_ref a) b = true.
Proof.
  intros [Na Ka] [Nb Kb] R. unfold check. rewrite Na. destruct b as [c|r].
  - destruct Kb as (_ & n & ->). reflexivity.
  - cbn [to_ref] in Nb. rewrite Nb. cbn. reflexivity.
Qed.

Lemma binop_good env op a b x y ra rb : good a ra -> good b rb -> evals env a x -> evals env b y ->
  let z := obind x (fun x => obind y (fun y => on_ints op x y)) in
  (exists o, py_binop op a b = Ok o /\ good o (ra || rb) /\ evals env o z)
  \/ (py_binop op a b = Err ZeroDivisionError /\ z = None).
Proof.
  intros Ga Gb A B. cbn zeta. pose proof (evals_bin env op a b x y A B) as E1.
  pose proof (fun C => evals_swapped env op a b x y C A B) as E2.
  destruct a as [ca|r], b as [cb|r'].
  - destruct Ga as (_ & -> & n & ->), Gb as (_ & -> & m & ->). unfold evals, eval_obj in A, B. cbn in A, B.
    assert (x = Some n) as -> by (destruct x; [unfold vint in A; congruence|discriminate]).
    assert (y = Some m) as -> by (destruct y; [unfold vint in B; congruence|discriminate]).
    cbn [py_binop]. unfold const_op. change (is_number (vint n) && is_number (vint m)) with true. cbv iota. rewrite num_op_int. cbn [obind].
    destruct (on_ints op n m) as [z|]; cbn [rbind]; [left|right; auto].
    exists (PConst (vint z)). split; [reflexivity|]. split; [|reflexivity]. split; [reflexivity|]. eauto.
  - destruct Gb as (Nb & ->). left. rewrite orb_true_r. pose proof Ga as (_ & -> & n & ->). cbn [py_binop].
    assert (K : check r' (PConst (vint n)) = true) by (unfold check; cbn [to_ref] in Nb; now rewrite Nb).
    destruct (is_comparison op) eqn:Eo; unfold method, rmethod; rewrite K.
    + eexists. split; [reflexivity|]. split; [now split|]. apply (E2 eq_refl).
    + eexists. split; [reflexivity|]. split; [now split|]. exact E1.
  - destruct Ga as (Na & ->). left. pose proof Gb as (_ & -> & n & ->). cbn [py_binop orb].
    assert (K : check r (PConst (vint n)) = true) by (unfold check; cbn [to_ref] in Na; now rewrite Na).
    unfold method. rewrite K. eexists. split; [reflexivity|]. split; [now split|]. exact E1.
  - destruct Ga as (Na & ->), Gb as (Nb & ->). left. cbn [py_binop orb]. cbn [to_ref] in Na, Nb.
    assert (K : check r (PRefr r') = true) by (unfold check; rewrite Nb; apply orb_true_r).
    assert (K' : check r' (PRefr r) = true) by (unfold check; rewrite Na; apply orb_true_r).
    unfold method, rmethod. rewrite K, K'. destruct (is_comparison op) eqn:Eo.
    + destruct (subclass _ _); (eexists; split; [reflexivity|]; split; [now split|]); [apply (E2 eq_refl)|exact E1].
    + eexists. split; [reflexivity|]. split; [now split|]. exact E1.
Qed.

Lemma min_max_int pick env a b x y : (forall p q, pick (8 * p) (8 * q) = 8 * pick p q) -> evals env a x -> evals env b y ->
  (let* u := eval env (to_ref a) in let* v := eval env (to_ref b) in min_max pick [u; v])
  = match obind x (fun x => obind y (fun y => Some (pick x y))) with Some n => Ok (vint n) | None => Err ZeroDivisionError end.
Proof.
  unfold evals, eval_obj. intros P A B. rewrite A. destruct x as [x|]; [|reflexivity]. cbn [rbind obind]. rewrite B.
  destruct y as [y|]; [|reflexivity]. cbn [rbind obind].
  change (min_max pick [vint x; vint y]) with (Ok (rnum (pick (8 * x) (8 * y)))).
  rewrite P, rnum8. reflexivity.
Qed.

Lemma build_good env val : (forall l, env l = Ok (vint (val l))) -> forall e, arithmetic e = true ->
  (exists o, build e = Ok o /\ good o (has_ref e) /\ evals env o (int_value val e))
  \/ (build e = Err ZeroDivisionError /\ int_value val e = None).
Proof.
  intros Hv. induction e as [c|l|op a IHa b IHb|a IHa|a IHa|a IHa b IHb|a IHa b IHb|a IHa b IHb|a IHa b IHb|a IHa|a IHa op1 b IHb op2 c IHc];
    intros W; cbn [arithmetic] in W; try discriminate.
  - destruct c as [[]| | | |]; try discriminate. left. eexists. split; [reflexivity|]. split; [|reflexivity]. split; [reflexivity|]. split; [reflexivity|]. eexists; reflexivity.
  - left. exists (PRefr (RLeaf l)). split; [reflexivity|]. split; [now split|]. unfold evals, eval_obj. cbn. now rewrite Hv.
  - apply andb_true_iff in W as [Wa Wb]. cbn [build has_ref int_value].
    destruct (IHa Wa) as [(x & Ex & Gx & Vx)|[Ex Vx]]; [|right; rewrite Ex, Vx; auto]. rewrite Ex. cbn [rbind].
    destruct (IHb Wb) as [(y & Ey & Gy & Vy)|[Ey Vy]]; [|right; rewrite Ey, Vy; split; [reflexivity|destruct (int_value val a); reflexivity]].
    rewrite Ey. cbn [rbind]. now apply binop_good.
  - cbn [build has_ref int_value]. destruct (IHa W) as [(x & Ex & Gx & Vx)|[Ex Vx]]; [|right; rewrite Ex, Vx; auto]. rewrite Ex. cbn [rbind].
    left. destruct Gx as [Nx Kx]. destruct x as [c|r]; cbn [py_neg].
    + destruct Kx as (R & n & ->). rewrite neg_int. cbn [rbind]. eexists. split; [reflexivity|]. split; [split; [reflexivity|]; eauto|].
      unfold evals, eval_obj in *. cbn [to_ref eval] in *. destruct (int_value val a) as [m|]; [|discriminate]. unfold vint in Vx. assert (n = m) as -> by congruence. reflexivity.
    + cbn [to_ref] in Nx. rewrite Nx. eexists. split; [reflexivity|]. split; [now split|]. unfold evals, eval_obj in *. cbn [to_ref eval] in *. rewrite Vx.
      destruct (int_value val a); cbn [rbind obind]; [apply neg_int|reflexivity].
  - cbn [build has_ref int_value]. destruct (match a with XRef _ => true | _ => false end) eqn:Ea.
    + destruct a; try discriminate. left. exists (PRefr (RCast (RLeaf l))). split; [reflexivity|]. split; [now split|]. unfold evals, eval_obj. cbn. now rewrite Hv.
    + assert (Wa : arithmetic a = true /\ has_ref a = true) by (apply andb_true_iff; now destruct a). destruct Wa as [Wa Wr].
      destruct (IHa Wa) as [(x & Ex & Gx & Vx)|[Ex Vx]]; [|right; rewrite Ex, Vx; auto]. rewrite Ex. cbn [rbind]. left. destruct Gx as [Nx Kx].
      destruct x as [c|r]; [destruct Kx as [Kx _]; congruence|]. eexists. split; [reflexivity|]. split; [now split|]. exact Vx.
  - apply andb_true_iff in W as [Wa Wb]. cbn [build has_ref int_value].
    destruct (IHa Wa) as [(x & Ex & Gx & Vx)|[Ex Vx]]; [|right; rewrite Ex, Vx; auto]. rewrite Ex. cbn [rbind].
    destruct (IHb Wb) as [(y & Ey & Gy & Vy)|[Ey Vy]]; [|right; rewrite Ey, Vy; split; [reflexivity|destruct (int_value val a); reflexivity]].
    rewrite Ey. cbn [rbind].
    left. eexists. split; [reflexivity|]. split; [now split|]. unfold evals, eval_obj. cbn [to_ref eval]. apply (min_max_int Z.min); [lia|assumption|assumption].
  - apply andb_true_iff in W as [Wa Wb]. cbn [build has_ref int_value].
    destruct (IHa Wa) as [(x & Ex & Gx & Vx)|[Ex Vx]]; [|right; rewrite Ex, Vx; auto]. rewrite Ex. cbn [rbind].
    destruct (IHb Wb) as [(y & Ey & Gy & Vy)|[Ey Vy]]; [|right; rewrite Ey, Vy; split; [reflexivity|destruct (int_value val a); reflexivity]].
    rewrite Ey. cbn [rbind].
    left. eexists. split; [reflexivity|]. split; [now split|]. unfold evals, eval_obj. cbn [to_ref eval]. apply (min_max_int Z.max); [lia|assumption|assumption].
Qed.

Lemma expression_value env val e : (forall l, env l = Ok (vint (val l))) -> arithmetic e = true ->
  match int_value val e with
  | Some z => exists o, build e = Ok o /\ eval_obj env o = Ok (vint z)
  | None => build e = Err ZeroDivisionError \/ exists o, build e = Ok o /\ eval_obj env o = Err ZeroDivisionError
  end.
Proof.
  intros Hv W. destruct (build_good env val Hv e W) as [(o & E & _ & V)|[E V]].
  - unfold evals in V. destruct (int_value val e); [|right]; eauto.
  - rewrite V. now left.
Qed.

(** Operators on references that are not numeric. *)
Lemma plain_const l c op : l_numeric l = false ->
  build (XBin op (XRef l) (XConst c)) = rich_fallback op false /\ build (XBin op (XConst c) (XRef l)) = rich_fallback op false.
Proof.
  intros N. cbn [build rbind py_binop]. unfold method, rmethod, check. cbn [is_numeric]. rewrite N. cbn [andb orb]. split; destruct op; reflexivity.
Qed.
(** Any reference and a constant that is no number. *)
Lemma other_const e r v op : build e = Ok (PRefr r) -> (forall n, v <> VInt n) -> (forall x, v <> VFloat x) ->
  build (XBin op e (XConst (RVal v))) = rich_fallback op false /\ build (XBin op (XConst (RVal v)) e) = rich_fallback op false.
Proof.
  intros B N F. assert (K : is_number (RVal v) = false).
  { destruct v; cbn; try reflexivity; [now destruct (N z)|now destruct (F pattern)]. }
  cbn [build rbind]. rewrite B. cbn [rbind py_binop]. unfold method, rmethod, check. rewrite K, andb_false_r. cbn [orb]. split; destruct op; reflexivity.
Qed.
Lemma plain_plain l l' op : l_numeric l = false -> l_numeric l' = false ->
  build (XBin op (XRef l) (XRef l')) = rich_fallback op (Nat.eqb (l_id l) (l_id l')).
Proof.
  intros N N'. cbn [build rbind py_binop]. unfold method, rmethod, check. cbn [is_numeric]. rewrite N, N'. cbn [andb orb same_object class_of].
  destruct op; cbn [is_comparison]; try (destruct (rclass_beq _ _); reflexivity); destruct (subclass _ _); reflexivity.
Qed.
Lemma plain_numeric l l' op : l_numeric l = false -> l_numeric l' = true ->
  (exists r, build (XBin op (XRef l) (XRef l')) = Ok (PRefr r) /\ forall env, eval env r = eval env (RBin op (RLeaf l) (RLeaf l')))
  /\ (is_comparison op = false ->
      build (XBin op (XRef l') (XRef l)) = if rclass_beq (l_class l') (l_class l) then Err TypeError else Ok (PRefr (RBin op (RLeaf l') (RLeaf l)))).
Proof.
  intros N N'. cbn [build rbind py_binop]. unfold method, rmethod, check. cbn [is_numeric]. rewrite N, N'. cbn [andb orb same_object class_of]. split.
  - destruct (is_comparison op) eqn:E; [|eexists; split; reflexivity]. destruct (subclass _ _); eexists; split; reflexivity.
  - intros E. rewrite E. destruct (rclass_beq _ _); reflexivity.
Qed.

(** [and], [or], [not] and chained comparisons. *)
Lemma plain_truth l : py_bool (PRefr (RLeaf l)) = Ok true.
Proof. reflexivity. Qed.
Lemma and_or_not l e :
  build (XAnd (XRef l) e) = build e /\ build (XOr (XRef l) e) = Ok (PRefr (RLeaf l)) /\ build (XNot (XRef l)) = Ok (PConst (rbool false)).
Proof. repeat split. Qed.
Lemma binop_truth op a b r : py_binop op a b = Ok (PRefr r) -> py_bool (PRefr r) = Err NotImplementedError.
Proof.
  assert (M : forall op x y r, method op x y = Some r -> py_bool (PRefr r) = Err NotImplementedError).
  { unfold method. intros o x y q. destruct (check x y); [|discriminate]. now intros [= <-]. }
  assert (M' : forall op x y r, rmethod op x y = Some r -> py_bool (PRefr r) = Err NotImplementedError).
  { unfold rmethod. intros o x y q. destruct (check x y); [|discriminate]. now intros [= <-]. }
  assert (F : forall op b, rich_fallback op b <> Ok (PRefr r)) by (intros []; discriminate).
  intros H. destruct a as [ca|x], b as [cb|y]; cbn [py_binop] in H.
  - destruct (const_op op ca cb); discriminate.
  - destruct (is_comparison op).
    + destruct (method (swapped op) y (PConst ca)) eqn:E; [|now apply F in H]. assert (r0 = r) as -> by congruence. eapply M, E.
    + destruct (rmethod op y (PConst ca)) eqn:E; [|discriminate]. assert (r0 = r) as -> by congruence. eapply M', E.
  - destruct (method op x (PConst cb)) eqn:E; [assert (r0 = r) as -> by congruence; eapply M, E|]. destruct (is_comparison op); [now apply F in H|discriminate].
  - destruct (is_comparison op).
    + cbv zeta in H. destruct (if subclass (class_of y) (class_of x) then method (swapped op) y (PRefr x) else None) eqn:E1.
      { assert (r0 = r) as -> by congruence. destruct (subclass _ _); [eapply M, E1|discriminate]. }
      destruct (method op x (PRefr y)) eqn:E2; [assert (r0 = r) as -> by congruence; eapply M, E2|].
      destruct (method (swapped op) y (PRefr x)) eqn:E3; [assert (r0 = r) as -> by congruence; eapply M, E3|]. now apply F in H.
    + destruct (method op x (PRefr y)) eqn:E2; [assert (r0 = r) as -> by congruence; eapply M, E2|]. destruct (rclass_beq _ _); [discriminate|].
      destruct (rmethod op y (PRefr x)) eqn:E3; [assert (r0 = r) as -> by congruence; eapply M', E3|]. discriminate.
Qed.
Lemma condition_raises op a b r : build (XBin op a b) = Ok (PRefr r) ->
  (forall e, build (XAnd (XBin op a b) e) = Err NotImplementedError)
  /\ (forall e, build (XOr (XBin op a b) e) = Err NotImplementedError)
  /\ build (XNot (XBin op a b)) = Err NotImplementedError
  /\ (forall op2 e, build (XChain a op b op2 e) = Err NotImplementedError).
Proof.
  intros H. assert (T : py_bool (PRefr r) = Err NotImplementedError).
  { cbn [build] in H. destruct (build a) as [x|]; cbn [rbind] in H; [|discriminate]. destruct (build b) as [y|]; cbn [rbind] in H; [|discriminate]. eapply binop_truth, H. }
  split; [|split; [|split]]; intros.
  - change (build (XAnd (XBin op a b) e)) with (let* x := build (XBin op a b) in let* t := py_bool x in if t then build e else Ok x).
    rewrite H. cbn [rbind]. now rewrite T.
  - change (build (XOr (XBin op a b) e)) with (let* x := build (XBin op a b) in let* t := py_bool x in if t then Ok x else build e).
    rewrite H. cbn [rbind]. now rewrite T.
  - change (build (XNot (XBin op a b))) with (let* x := build (XBin op a b) in let* t := py_bool x in Ok (PConst (rbool (negb t)))).
    rewrite H. cbn [rbind]. now rewrite T.
  - cbn [build] in H |- *. destruct (build a) as [x|]; cbn [rbind] in H |- *; [|discriminate]. destruct (build b) as [y|]; cbn [rbind] in H |- *; [|discriminate].
    rewrite H. cbn [rbind]. now rewrite T.
Qed.

Lemma derived_iff a b : derived a b <-> subclass a b = true.
Proof. split; [now intros []|]. destruct a, b; cbn; try discriminate; constructor. Qed.
Lemma compares_iff op : compares op <-> is_comparison op = true.
Proof. destruct op; cbn; intuition discriminate. Qed.
Lemma operand_order l l' op : l_numeric l = true -> l_numeric l' = true ->
  exists r, build (XBin op (XRef l) (XRef l')) = Ok (PRefr r)
    /\ (compares op -> derived (l_class l') (l_class l) ->
          forall env, (forall e, env l' = Err e -> eval env r = Err e)
            /\ forall y e, env l' = Ok y -> env l = Err e -> eval env r = Err e)
    /\ (~ (compares op /\ derived (l_class l') (l_class l)) ->
          forall env, (forall e, env l = Err e -> eval env r = Err e)
            /\ forall x e, env l = Ok x -> env l' = Err e -> eval env r = Err e).
Proof.
  intros N N'. cbn [build rbind py_binop]. unfold method, rmethod, check. cbn [is_numeric]. rewrite N, N'. cbn [andb orb class_of].
  pose proof (compares_iff op) as Q1. pose proof (derived_iff (l_class l') (l_class l)) as Q2.
  destruct (is_comparison op); [destruct (subclass _ _)|]; (eexists; split; [reflexivity|]); split; intros A; try (intros B); try intros env;
    try (exfalso; first [apply Q1 in A; discriminate|apply Q2 in B; discriminate|apply A; tauto]);
    (split; [intros e H; cbn [eval to_ref]; now rewrite H|intros v e H1 H2; cbn [eval to_ref]; rewrite H1; cbn [rbind]; now rewrite H2]).
Qed.
