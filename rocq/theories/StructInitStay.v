(** What the constructors of base classes assign stays. *)
From Verif Require Import Base IntCodec Stream StreamSpec MinMax Marshal MarshalInd FieldSpec FieldFacts StructInit StructInitSpec StructInitFacts StructInitCalls.
From Coq Require Import ZArith List Bool String Lia.
Import ListNotations.
Open Scope Z_scope.

Scheme sets_mut := Induction for sets Sort Prop
  with base_sets_mut := Induction for base_sets Sort Prop.

Section Stay.
Variable fs : list field.
Variables (n : name) (v : value).
Hypothesis not_const : lookup (class_attrs fs) n = None.

Lemma put_back_same p kw : put_back p kw kw = kw.
Proof.
  unfold put_back. generalize (map fst (p_pos p)). intros l.
  assert (G : forall l kw', kw' = kw -> fold_left (fun kw0 n0 => match lookup kw n0 with Some w => put kw0 n0 w | None => kw0 end) l kw' = kw).
  { induction l0 as [|x r IH]; intros kw' E; [exact E|]. cbn [fold_left]. apply IH. subst kw'.
    destruct (lookup kw x) eqn:L; [|reflexivity]. now apply set_same. }
  now apply G.
Qed.

Lemma assigned a w : assign_attr fs a n w = Ok (set_attr a n w).
Proof. unfold assign_attr. now rewrite not_const. Qed.

Lemma quiet_stays super p : quiet n p -> forall a, lookup a n = Some v -> lookup (snd (run_init fs super p a)) n = Some v.
Proof.
  induction 1 as [r|n' k H IH|n' w k N H IH]; intros a L; cbn [run_init]; [exact L|now apply IH|].
  unfold assign_attr. destruct (lookup (class_attrs fs) n'); [destruct (py_eq _ _); now apply IH|].
  apply IH. rewrite lookup_set_other; auto.
Qed.

Lemma base_stays : forall up args kw, base_sets n v up args kw ->
  forall a, lookup (snd (instance_init fs false up args kw a)) n = Some v.
Proof.
  apply (base_sets_mut n v
    (fun up p _ => forall a, lookup (snd (run_init fs (instance_init fs false up) p a)) n = Some v)
    (fun up args kw _ => forall a, lookup (snd (instance_init fs false up args kw a)) n = Some v)).
  - intros up n' k H IH a. cbn [run_init]. apply IH.
  - intros up n' w k H IH a. cbn [run_init]. destruct (assign_attr fs a n' w); apply IH.
  - intros up k Q a. cbn [run_init]. rewrite assigned. apply quiet_stays; [apply Q|apply lookup_set_same].
  - intros up args kw k H IH a. cbn [run_init]. destruct (instance_init fs false up args kw a) as [r a']. apply IH.
  - intros up args kw k H IH Q a. cbn [run_init]. specialize (IH a). destruct (instance_init fs false up args kw a) as [r a']. now apply quiet_stays.
  - intros up args kw H IH a. cbn [instance_init fst snd]. apply IH.
  - intros ui up args kw b B H IH a. cbn [instance_init fst snd]. rewrite put_back_same, B. apply IH.
Qed.

Lemma sets_stay up p : sets n v up p -> forall a, lookup (snd (run_init fs (instance_init fs false up) p a)) n = Some v.
Proof.
  induction 1 as [up n' k H IH|up n' w k H IH|up k Q|up args kw k H IH|up args kw k H Q]; intros a; cbn [run_init].
  - apply IH.
  - destruct (assign_attr fs a n' w); apply IH.
  - rewrite assigned. apply quiet_stays; [apply Q|apply lookup_set_same].
  - destruct (instance_init fs false up args kw a) as [r a']. apply IH.
  - pose proof (base_stays up args kw H a) as E. destruct (instance_init fs false up args kw a) as [r a']. now apply quiet_stays.
Qed.
End Stay.

Lemma constructed_stays fs ui up args kw n v :
  NoDup (map fst (p_pos (ui_params ui)) ++ map fst (p_kwonly (ui_params ui))) -> p_varkw (ui_params ui) = false ->
  args_fit fs (ui_params ui) args kw ->
  ~ In n (map fst (class_attrs fs)) ->
  (forall b, sets n v up (ui_body ui b)) ->
  lookup (snd (construct fs (Some ui :: up) args kw)) n = Some v.
Proof.
  intros ND K F N S. destruct (proj1 (construct_args fs ui up args kw ND K) F) as (b & -> & _).
  apply sets_stay; [now apply lookup_none|apply S].
Qed.

Lemma constructed_constant fs ui up args kw n x v answer :
  NoDup (map fst (p_pos (ui_params ui)) ++ map fst (p_kwonly (ui_params ui))) -> p_varkw (ui_params ui) = false ->
  args_fit fs (ui_params ui) args kw ->
  lookup (class_attrs fs) n = Some x ->
  (forall b, ui_body ui b = ISet n v (fun r => IDone (answer r))) ->
  construct fs (Some ui :: up) args kw = (answer (if py_eq v x then Ok tt else Err InstructError), new_attrs fs kw).
Proof.
  intros ND K F L B. destruct (proj1 (construct_args fs ui up args kw ND K) F) as (b & -> & _). rewrite B. cbn [run_init].
  unfold assign_attr. rewrite L. destruct (py_eq v x); reflexivity.
Qed.
