(** Facts on the operators on positions. *)
From Verif Require Import Base Range RangeRef Marshal BufferModel RefOps WhereRef WhereOps.
From Coq Require Import ZArith List Bool String Lia.
Import ListNotations.
Open Scope Z_scope.

(** ** Specification *)
(** [bytes_ref[x]] with a single index. *)
Definition one_byte (e : wexp) : Prop := exists o, e = EBytes (LIndex o).
(** What comparing and calculating gives if no operand knows the other one. *)
Definition unknown_to_each_other (op : numop) (same : bool) : res outcome :=
  match op with
  | OpEq => Ok (TConst (RVal (VInt (if same then 1 else 0))))
  | OpNe => Ok (TConst (RVal (VInt (if same then 0 else 1))))
  | _ => Err TypeError
  end.
(** Numbers, and None. *)
Inductive plain_value : rv -> Prop :=
| pv_int n : plain_value (RVal (VInt n)) | pv_frac b : plain_value (RFrac b) | pv_none : plain_value (RVal VNone).

(** ** Which positions are of the class whose constructor misses an attribute *)
Lemma byte_num_shape o w : byte_num o = Ok w -> exists a, w = WByteNum a.
Proof. unfold byte_num. destruct (if is_numeric_ref o then _ else _); cbn [rbind]; [|discriminate]. intros [= <-]. eauto. Qed.
Lemma one_byte_shape o w : define (EBytes (LIndex o)) = Ok w -> exists a, w = WByteNum a.
Proof. cbn [define get_bytes]. destruct (is_index o); [|discriminate]. apply byte_num_shape. Qed.
Lemma other_shape e w : define e = Ok w -> ~ one_byte e -> numeric_of (OWhere w) = Ok false.
Proof.
  intros D N. destruct w as [| | | | |] eqn:W; try reflexivity. exfalso. apply N. destruct e as [[o|p b s|ls]|w0 l|w0 w1]; cbn [define get_bytes] in D.
  - exists o. reflexivity.
  - unfold byte_slice in D. destruct (step_ok s); cbn [rbind] in D; [|discriminate]. destruct (byte_bound p); cbn [rbind] in D; [|discriminate].
    destruct (byte_bound b); cbn [rbind] in D; [|discriminate]. match type of D with rbind ?x _ = _ => destruct x; cbn [rbind] in D; discriminate end.
  - match type of D with rbind ?x _ = _ => destruct x; cbn [rbind] in D; discriminate end.
  - destruct (define w0); cbn [rbind] in D; [|discriminate]. destruct (has_bits _); [|discriminate]. destruct l as [o|a1 b s|ls]; cbn [get_bits] in D.
    + destruct (is_index o); discriminate.
    + unfold bit_slice in D. destruct (step_ok s); cbn [rbind] in D; [|discriminate]. destruct (bit_bound a1); cbn [rbind] in D; [|discriminate].
      destruct (bit_bound b); cbn [rbind] in D; [|discriminate]. match type of D with rbind ?x _ = _ => destruct x; cbn [rbind] in D; discriminate end.
    + match type of D with rbind ?x _ = _ => destruct x; cbn [rbind] in D; discriminate end.
  - destruct (define w0); cbn [rbind] in D; [|discriminate]. destruct (define w1); cbn [rbind] in D; discriminate.
Qed.

Section OneByte.
Variables (o : pobj) (w : wref).
Hypothesis D : define (EBytes (LIndex o)) = Ok w.
Lemma numeric_missing : numeric_of (OWhere w) = Err AttributeError.
Proof. destruct (one_byte_shape o w D) as [a ->]. reflexivity. Qed.
Lemma check_left x : check2 (OWhere w) x = Err AttributeError.
Proof. unfold check2. now rewrite numeric_missing. Qed.
Lemma check_right x : check2 x (OWhere w) = Err AttributeError.
Proof.
  unfold check2. destruct (numeric_of x) as [n|e] eqn:N; cbn [rbind is_const_number is_ref].
  - rewrite andb_false_r. apply numeric_missing.
  - destruct x as [[c|r]|w'|l]; try discriminate N. cbn [numeric_of] in N. destruct w'; congruence.
Qed.
Lemma op_left op same x : op <> OpAdd -> py_op2 op same (OWhere w) x = Err AttributeError.
Proof.
  intros N. unfold py_op2. destruct op; try contradiction; unfold method2; cbn [is_ref]; rewrite check_left; now destruct x.
Qed.
Lemma op_right op same x : op <> OpAdd -> py_op2 op same x (OWhere w) = Err AttributeError.
Proof.
  intros N. unfold py_op2. destruct x as [[c|r]|w'|l].
  - destruct op; try contradiction; unfold method2, rmethod2; cbn [is_ref rbind is_comparison swapped]; now rewrite check_left.
  - destruct op; try contradiction; unfold method2; cbn [is_ref]; now rewrite check_right.
  - destruct op; try contradiction; unfold method2; cbn [is_ref]; now rewrite check_right.
  - destruct op; try contradiction; unfold method2; cbn [is_ref]; now rewrite check_right.
Qed.
Lemma add_reference same r : py_op2 OpAdd same (OWhere w) (OObj (PRefr r)) = Err AttributeError
  /\ py_op2 OpAdd same (OObj (PRefr r)) (OWhere w) = Err AttributeError.
Proof.
  unfold py_op2, add_method, radd_method, method2, rmethod2. cbn [is_range is_ref rbind]. rewrite check_right. split; reflexivity.
Qed.
Lemma one_byte_position :
  (forall op same x, op <> OpAdd -> py_op2 op same (OWhere w) x = Err AttributeError /\ py_op2 op same x (OWhere w) = Err AttributeError)
  /\ (forall same r, py_op2 OpAdd same (OWhere w) (OObj (PRefr r)) = Err AttributeError /\ py_op2 OpAdd same (OObj (PRefr r)) (OWhere w) = Err AttributeError)
  /\ py_neg2 (OWhere w) = Err AttributeError /\ index_of (OWhere w) = Err AttributeError /\ bound_of (OWhere w) = Err AttributeError.
Proof.
  split; [intros op same x N; split; [now apply op_left|now apply op_right]|]. split; [exact add_reference|].
  unfold py_neg2, index_of, bound_of. rewrite numeric_missing. repeat split.
Qed.
End OneByte.

Section Others.
Variables (e : wexp) (w : wref).
Hypotheses (D : define e = Ok w) (N : ~ one_byte e).
Lemma not_numeric : numeric_of (OWhere w) = Ok false.
Proof. exact (other_shape e w D N). Qed.
Lemma check_const c : check2 (OWhere w) (OObj (PConst c)) = Ok false.
Proof. unfold check2. rewrite not_numeric. reflexivity. Qed.
Lemma check_ref r : check2 (OWhere w) (OObj (PRefr r)) = Ok (is_numeric r).
Proof. unfold check2. rewrite not_numeric. reflexivity. Qed.
Lemma ref_check r : check2 (OObj (PRefr r)) (OWhere w) = Ok false.
Proof. unfold check2. cbn [numeric_of rbind is_const_number is_ref]. rewrite andb_false_r. exact not_numeric. Qed.
Lemma with_constant op c : op <> OpAdd ->
  py_op2 op false (OWhere w) (OObj (PConst c)) = unknown_to_each_other op false
  /\ py_op2 op false (OObj (PConst c)) (OWhere w) = unknown_to_each_other op false.
Proof.
  intros A. unfold py_op2, method2, rmethod2. destruct op; try contradiction; cbn [is_ref rbind is_comparison swapped]; rewrite check_const; split; reflexivity.
Qed.
Lemma used_otherwise : py_neg2 (OWhere w) = Ok (TConst not_implemented) /\ index_of (OWhere w) = Err TypeError /\ bound_of (OWhere w) = Err TypeError.
Proof.
  unfold py_neg2, index_of, bound_of. rewrite not_numeric. cbn [rbind]. split; [reflexivity|]. split; [reflexivity|].
  destruct (with_constant OpGe (RVal (VInt 0)) ltac:(discriminate)) as [E _]. unfold zero. now rewrite E.
Qed.
Lemma with_plain_reference r op : is_numeric r = false ->
  (op <> OpAdd -> py_op2 op false (OWhere w) (OObj (PRefr r)) = unknown_to_each_other op false
     /\ py_op2 op false (OObj (PRefr r)) (OWhere w) = unknown_to_each_other op false).
Proof.
  intros R A. unfold py_op2, method2, rmethod2. destruct op; try contradiction; cbn [is_ref]; rewrite ?check_ref, ?ref_check, R; cbn [rbind is_comparison swapped];
    rewrite ?check_ref, ?ref_check, ?R; split; reflexivity.
Qed.
Definition position_and_number (op : numop) : res rv :=
  match op with OpEq => Ok (RVal (VInt 0)) | OpNe => Ok (RVal (VInt 1)) | _ => Err TypeError end.
Lemma with_number_reference r op same : is_numeric r = true -> op <> OpAdd ->
  exists a b a' b' op', py_op2 op same (OWhere w) (OObj (PRefr r)) = Ok (TExpr op a b)
    /\ py_op2 op same (OObj (PRefr r)) (OWhere w) = Ok (TExpr op' a' b')
    /\ forall env l v, ranges env w = Ok l -> eval env r = Ok (RVal v) -> v = VNone \/ (op <> OpMul /\ exists n, v = VInt n) ->
         eval_expr env op a b = position_and_number op /\ eval_expr env op' a' b' = position_and_number op.
Proof.
  intros R A.
  destruct (is_comparison op) eqn:K.
  - exists (OWhere w), (OObj (PRefr r)), (OWhere w), (OObj (PRefr r)), (swapped op). split; [|split].
    + unfold py_op2, method2. destruct op; try contradiction; cbn [is_ref]; rewrite check_ref, R; reflexivity.
    + unfold py_op2, method2. destruct op; try discriminate; cbn [is_ref]; rewrite ref_check; cbn [rbind is_comparison swapped]; rewrite check_ref, R; reflexivity.
    + intros env l v L V M. unfold eval_expr. cbn [eval_operand]. rewrite L. cbn [rbind]. unfold eval_obj. cbn [to_ref]. rewrite V. cbn [rbind]. destruct M as [-> | (M & n & ->)]; destruct op; try discriminate; split; reflexivity.
  - exists (OWhere w), (OObj (PRefr r)), (OObj (PRefr r)), (OWhere w), op. split; [|split].
    + unfold py_op2, method2. destruct op; try contradiction; cbn [is_ref]; rewrite check_ref, R; reflexivity.
    + unfold py_op2, method2, rmethod2. destruct op; try contradiction; try discriminate; cbn [is_ref]; rewrite ref_check; cbn [rbind is_comparison]; rewrite check_ref, R; reflexivity.
    + intros env l v L V M. unfold eval_expr. cbn [eval_operand]. rewrite L. cbn [rbind]. unfold eval_obj. cbn [to_ref]. rewrite V. cbn [rbind]. destruct M as [-> | (M & n & ->)]; destruct op; try discriminate; try contradiction; split; reflexivity.
Qed.
End Others.

Lemma add_constant w c same : py_op2 OpAdd same (OWhere w) (OObj (PConst c)) = Err TypeError /\ py_op2 OpAdd same (OObj (PConst c)) (OWhere w) = Err TypeError.
Proof. split; reflexivity. Qed.

(** ** Lists *)
Lemma parts_ranges env : forall w l, ranges env w = Ok l -> exists ls, Marshal.rmap_list (eval_part env) (map inr (parts w)) = Ok (map RRanges ls) /\ ls <> [] /\ List.concat ls = l.
Proof.
  assert (G : forall ws l, ranges env (WList ws) = Ok l -> exists ls, Marshal.rmap_list (eval_part env) (map inr ws) = Ok (map RRanges ls) /\ ls <> [] /\ List.concat ls = l).
  { intros ws l E. cbn [ranges] in E. match type of E with rbind ?x _ = _ => destruct x as [ls|] eqn:X; cbn [rbind] in E; [|discriminate] end.
    exists ls. assert (M : Marshal.rmap_list (eval_part env) (map inr ws) = Ok (map RRanges ls)).
    { clear E. revert ls X. induction ws as [|w ws IH]; intros ls X.
      - injection X as <-. reflexivity.
      - cbn [map Marshal.rmap_list eval_part]. destruct (ranges env w) as [x|]; cbn [rbind] in X |- *; [|discriminate].
        match type of X with rbind ?y _ = _ => destruct y as [xs|] eqn:Y; cbn [rbind] in X; [|discriminate] end. injection X as <-. rewrite (IH _ eq_refl). reflexivity. }
    split; [exact M|]. unfold list_ref in E. destruct ls; [discriminate|]. injection E as E. split; [discriminate|exact E]. }
  intros w l E. destruct w; try (exact (G _ _ E));
    exists [l]; cbn [parts map Marshal.rmap_list eval_part]; rewrite E; cbn [rbind]; (split; [reflexivity|]); (split; [discriminate|]); cbn [List.concat]; apply app_nil_r.
Qed.
Lemma rmap_app {A B} (f : A -> res B) : forall l l' y, Marshal.rmap_list f l = Ok y ->
  Marshal.rmap_list f (l ++ l') = let* z := Marshal.rmap_list f l' in Ok (y ++ z).
Proof.
  induction l as [|x l IH]; intros l' y E; cbn [app Marshal.rmap_list] in *.
  - injection E as <-. now destruct (Marshal.rmap_list f l').
  - destruct (f x) as [u|]; cbn [rbind] in *; [|discriminate]. destruct (Marshal.rmap_list f l) as [v|]; cbn [rbind] in *; [|discriminate]. injection E as <-.
    rewrite (IH _ _ eq_refl). now destruct (Marshal.rmap_list f l').
Qed.
Lemma reduce_ranges : forall ls a, reduce_add (RRanges a) (map RRanges ls) = Ok (RRanges (a ++ List.concat ls)).
Proof.
  induction ls as [|x ls IH]; intros a; cbn [map reduce_add add_values rbind List.concat]; [now rewrite app_nil_r|]. rewrite IH, app_assoc. reflexivity.
Qed.
Lemma positions_added env w w' same l l' : ranges env w = Ok l -> ranges env w' = Ok l' ->
  exists s, py_op2 OpAdd same (OWhere w) (OWhere w') = Ok (TList s) /\ eval_list env s = Ok (l ++ l').
Proof.
  intros E E'. destruct (parts_ranges env w l E) as (ls & M & Ne & C). destruct (parts_ranges env w' l' E') as (ls' & M' & Ne' & C').
  eexists. split; [reflexivity|]. unfold eval_list. cbn [members]. rewrite (rmap_app _ _ _ _ M), M'. cbn [rbind]. rewrite <- map_app.
  destruct ls as [|x ls]; [contradiction|]. cbn [app map]. rewrite reduce_ranges. cbn [rbind]. f_equal. subst l l'. rewrite List.concat_app. cbn [List.concat]. now rewrite app_assoc.
Qed.
Lemma two_positions e w e' w' op same : define e = Ok w -> define e' = Ok w' -> ~ one_byte e -> ~ one_byte e' -> op <> OpAdd ->
  py_op2 op same (OWhere w) (OWhere w') = unknown_to_each_other op same.
Proof.
  intros D D' N N' A. assert (C : check2 (OWhere w) (OWhere w') = Ok false).
  { unfold check2. rewrite (not_numeric e w D N). cbn [rbind is_const_number is_ref andb]. exact (not_numeric e' w' D' N'). }
  assert (C' : check2 (OWhere w') (OWhere w) = Ok false).
  { unfold check2. rewrite (not_numeric e' w' D' N'). cbn [rbind is_const_number is_ref andb]. exact (not_numeric e w D N). }
  unfold py_op2, method2, rmethod2. destruct op; try contradiction; cbn [is_ref]; rewrite C; cbn [rbind is_comparison swapped]; rewrite C'; destruct same; reflexivity.
Qed.

Definition is_ranges (v : rv) : Prop := exists l, v = RRanges l.
Lemma add_plain x y : plain_value x \/ is_ranges x -> plain_value y \/ is_ranges y ->
  match add_values x y with
  | Ok v => plain_value v /\ plain_value x /\ plain_value y \/ is_ranges v /\ is_ranges x /\ is_ranges y
  | Err e => e = TypeError \/ e = AttributeError
  end.
Proof.
  assert (R : forall b, plain_value (rnum b)) by (intros b; unfold rnum; destruct (_ =? 0); constructor).
  intros [[n|b|]|[l ->]] [[m|c|]|[l' ->]]; cbn; auto 10 using plain_value; try (left; repeat split; auto using plain_value; fail).
  right. repeat split; eexists; reflexivity.
Qed.
Lemma reduce_plain : forall l acc, plain_value acc \/ is_ranges acc -> Forall (fun v => plain_value v \/ is_ranges v) l ->
  match reduce_add acc l with
  | Ok v => plain_value v \/ is_ranges v /\ is_ranges acc /\ Forall is_ranges l
  | Err e => e = TypeError \/ e = AttributeError
  end.
Proof.
  induction l as [|x l IH]; intros acc A F; cbn [reduce_add].
  - destruct A as [A|A]; [now left|right; auto].
  - inversion F as [|? ? X F']; subst. pose proof (add_plain acc x A X) as P. destruct (add_values acc x) as [s|]; cbn [rbind]; [|exact P].
    assert (S' : plain_value s \/ is_ranges s) by (destruct P as [(P & _)|(P & _)]; auto). specialize (IH s S' F').
    destruct (reduce_add s l) as [v|]; [|exact IH]. destruct IH as [V|(V & Sr & Fr)]; [now left|]. destruct P as [(Q & _)|(_ & Q1 & Q2)].
    + destruct Sr as [q ->]. inversion Q.
    + right. auto.
Qed.
Lemma mixed_list env l : (exists r, In (inl r) l) ->
  (forall r, In (inl r) l -> exists v, eval env r = Ok v /\ plain_value v) -> (forall w, In (inr w) l -> exists x, ranges env w = Ok x) ->
  eval_list env l = Err TypeError \/ eval_list env l = Err AttributeError.
Proof.
  intros [r0 I0] HL HR. unfold eval_list.
  assert (G : forall k, (forall p, In p k -> In p l) -> exists vs, Marshal.rmap_list (eval_part env) k = Ok vs /\ Forall (fun v => plain_value v \/ is_ranges v) vs
            /\ ((exists r, In (inl r) k) -> Exists plain_value vs)).
  { induction k as [|p k IH]; intros S.
    - exists []. split; [reflexivity|]. split; [constructor|intros [r []]].
    - destruct IH as (vs & E & F & X); [intros q Q; apply S; now right|]. cbn [Marshal.rmap_list]. rewrite E. destruct p as [r|w]; cbn [eval_part].
      + destruct (HL r) as (v & V & P); [apply S; now left|]. rewrite V. cbn [rbind]. exists (v :: vs). split; [reflexivity|]. split; [constructor; auto|]. intros _. now constructor.
      + destruct (HR w) as (x & V); [apply S; now left|]. rewrite V. cbn [rbind]. exists (RRanges x :: vs). split; [reflexivity|].
        split; [constructor; [right; eexists; reflexivity|exact F]|]. intros [r [Q|Q]]; [discriminate|]. right. apply X. eauto. }
  destruct (G l (fun p H => H)) as (vs & E & F & X). rewrite E. cbn [rbind]. specialize (X (ex_intro _ r0 I0)).
  destruct vs as [|v vs]; [now left|]. inversion F as [|? ? A F']; subst. pose proof (reduce_plain vs v A F') as P. destruct (reduce_add v vs) as [s|err]; cbn [rbind].
  - destruct P as [P|(_ & Pv & Fr)]; [inversion P; now left|]. exfalso. rewrite Exists_exists in X. destruct X as (y & [<-|Y] & Py).
    + destruct Pv as [q ->]. inversion Py.
    + rewrite Forall_forall in Fr. destruct (Fr y Y) as [q ->]. inversion Py.
  - destruct P as [-> | ->]; auto.
Qed.
Lemma reference_plus_position e w : define e = Ok w -> ~ one_byte e -> forall r same,
  py_op2 OpAdd same (OWhere w) (OObj (PRefr r)) = Err TypeError
  /\ exists l, py_op2 OpAdd same (OObj (PRefr r)) (OWhere w) = Ok (TList l)
     /\ (forall env x, eval env r = Err x -> eval_list env l = Err x)
     /\ forall env v x, eval env r = Ok v -> plain_value v -> ranges env w = Ok x -> eval_list env l = Err AttributeError.
Proof.
  intros D N r same. unfold py_op2, add_method, radd_method, method2, rmethod2. cbn [is_range is_ref rbind]. rewrite (ref_check e w D N). cbn [rbind is_comparison].
  split; [reflexivity|]. exists (inl r :: map inr (parts w)). split; [reflexivity|]. split.
  - intros env x E. unfold eval_list. cbn [Marshal.rmap_list eval_part]. now rewrite E.
  - intros env v x E P R. destruct (parts_ranges env w x R) as (ls & M & Ne & C). unfold eval_list. cbn [Marshal.rmap_list eval_part]. rewrite E, M. cbn [rbind].
    destruct ls as [|y ls]; [contradiction|]. cbn [map reduce_add]. destruct P; reflexivity.
Qed.

Lemma index_object o : (index_of (OObj o) = Ok tt \/ index_of (OObj o) = Err TypeError)
  /\ (index_of (OObj o) = Ok tt <-> (exists n, o = PConst (RVal (VInt n))) \/ exists r, o = PRefr r /\ is_numeric r = true)
  /\ (index_of (OObj o) = Err TypeError <-> define (EBytes (LIndex o)) = Err TypeError).
Proof.
  split; [|split].
  - cbn [index_of]. destruct (is_index o); auto.
  - cbn [index_of]. split.
    + destruct o as [c|r]; cbn [is_index].
      * destruct c as [v| | | |]; try discriminate. destruct v; try discriminate. intros _. left. eauto.
      * destruct (is_numeric r) eqn:R; [|discriminate]. intros _. right. eauto.
    + intros [(n & ->)|(r & -> & R)]; cbn [is_index]; [reflexivity|]. now rewrite R.
  - cbn [index_of define get_bytes]. destruct (is_index o) eqn:I; [|tauto]. split; [discriminate|]. intros B. exfalso. revert B.
    unfold byte_num. destruct o as [c|r]; cbn [is_index] in I.
    + destruct c as [v| | | |]; try discriminate. destruct v; try discriminate. cbn. destruct (_ <=? _); cbn; discriminate.
    + cbn [is_numeric_ref]. rewrite I. discriminate.
Qed.
