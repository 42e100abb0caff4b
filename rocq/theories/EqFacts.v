(** Equality of values: lemmas for C17. *)
From Verif Require Import Base Marshal FloatSpec FloatRound FloatEq EqSpec.
From Coq Require Import ZArith List Bool Lia ZifyBool ZifyNat.
Import ListNotations.
Open Scope Z_scope.
Ltac Zify.zify_post_hook ::= Z.div_mod_to_equations.

(** Finite patterns of the same magnitude have the same fields. *)
Lemma parts_lt e m e' m' : 0 <= m < 2 ^ 52 -> 0 <= m' < 2 ^ 52 -> 0 <= e -> e < e' ->
  (if e =? 0 then m else 2 ^ 52 + m) * 2 ^ (Z.max e 1 - 1) < (if e' =? 0 then m' else 2 ^ 52 + m') * 2 ^ (Z.max e' 1 - 1).
Proof.
  intros M M' E L. replace (e' =? 0) with false by lia. set (x := Z.max e 1 - 1). set (k := Z.max e' 1 - 1 - x).
  replace (Z.max e' 1 - 1) with (x + k) by lia. assert (X : 0 < 2 ^ x) by (apply Z.pow_pos_nonneg; lia). rewrite Z.pow_add_r by lia.
  assert (G : forall A a b X K t, 0 <= a < t * A -> A <= b -> 0 < X -> t <= K -> 0 < t -> a * X < b * (X * K)).
  { clear. intros A a b X K t Ha Hb HX HK Ht. assert (a * X < t * A * X) by nia. assert (0 < A) by nia. assert (t * A <= K * b) by nia. assert (t * A * X <= K * b * X) by nia. nia. }
  destruct (Z.eqb_spec e 0) as [E0|E0].
  - apply (G (2 ^ 52) _ _ _ _ 1); try lia.
  - apply (G (2 ^ 52) _ _ _ _ 2); try lia. change 2 with (2 ^ 1) at 1. apply Z.pow_le_mono_r; lia.
Qed.
Lemma parts_eq e m e' m' : 0 <= m < 2 ^ 52 -> 0 <= m' < 2 ^ 52 -> 0 <= e -> 0 <= e' ->
  (if e =? 0 then m else 2 ^ 52 + m) * 2 ^ (Z.max e 1 - 1) = (if e' =? 0 then m' else 2 ^ 52 + m') * 2 ^ (Z.max e' 1 - 1) -> e = e' /\ m = m'.
Proof.
  intros M M' E E' H. destruct (Z.lt_trichotomy e e') as [L|[L|L]].
  - pose proof (parts_lt e m e' m' M M' E L). lia.
  - subst e'. split; [reflexivity|]. assert (X : 0 < 2 ^ (Z.max e 1 - 1)) by (apply Z.pow_pos_nonneg; lia).
    apply Z.mul_reg_r in H; [|lia]. destruct (e =? 0); lia.
  - pose proof (parts_lt e' m' e m M' M E' L). lia.
Qed.
Lemma pattern_parts p : p mod 2 ^ 63 = exponent_field p * 2 ^ 52 + p mod 2 ^ 52.
Proof.
  unfold exponent_field. change (2 ^ 63) with (2 ^ 52 * 2 ^ 11). rewrite Z.rem_mul_r by (vm_compute; congruence). lia.
Qed.
Lemma field_bounds p : 0 <= exponent_field p < 2048 /\ 0 <= p mod 2 ^ 52 < 2 ^ 52.
Proof. split; [unfold exponent_field; change 2048 with (2 ^ 11)|]; apply Z.mod_pos_bound; reflexivity. Qed.
Lemma part_nonneg e m : 0 <= m -> 0 <= (if e =? 0 then m else 2 ^ 52 + m) * 2 ^ (Z.max e 1 - 1).
Proof. intros H. apply Z.mul_nonneg_nonneg; [destruct (e =? 0); lia|apply Z.pow_nonneg; lia]. Qed.
Lemma value_injective p q : 0 <= p < 2 ^ 64 -> 0 <= q < 2 ^ 64 -> float_value p = float_value q ->
  p = q \/ p mod 2 ^ 63 = 0 /\ q mod 2 ^ 63 = 0.
Proof.
  intros P Q H. destruct (field_bounds p) as [Ep Mp], (field_bounds q) as [Eq Mq]. unfold float_value in H.
  set (a := (if exponent_field p =? 0 then p mod 2 ^ 52 else 2 ^ 52 + p mod 2 ^ 52) * 2 ^ (Z.max (exponent_field p) 1 - 1)) in *.
  set (b := (if exponent_field q =? 0 then q mod 2 ^ 52 else 2 ^ 52 + q mod 2 ^ 52) * 2 ^ (Z.max (exponent_field q) 1 - 1)) in *.
  assert (A0 : 0 <= a) by (apply part_nonneg, Mp).
  assert (B0 : 0 <= b) by (apply part_nonneg, Mq).
  assert (AB : a = b) by (destruct (p / 2 ^ 63 =? 0), (q / 2 ^ 63 =? 0); lia).
  destruct (parts_eq _ _ _ _ Mp Mq (proj1 Ep) (proj1 Eq) AB) as [E1 E2].
  assert (R : p mod 2 ^ 63 = q mod 2 ^ 63) by (rewrite !pattern_parts; lia).
  destruct (Z.eq_dec (p / 2 ^ 63) (q / 2 ^ 63)) as [S|S].
  - left. rewrite (Z.div_mod p (2 ^ 63)), (Z.div_mod q (2 ^ 63)) by (vm_compute; congruence). now rewrite S, R.
  - right. assert (a = 0).
    { assert (0 <= p / 2 ^ 63 <= 1 /\ 0 <= q / 2 ^ 63 <= 1) as [Sp Sq].
      { change (2 ^ 64) with 18446744073709551616 in *. change (2 ^ 63) with 9223372036854775808 in *. lia. }
      destruct (Z.eqb_spec (p / 2 ^ 63) 0), (Z.eqb_spec (q / 2 ^ 63) 0); lia. }
    assert (Z0 : exponent_field p = 0 /\ p mod 2 ^ 52 = 0).
    { apply Z.mul_eq_0_l in H0; [|apply Z.pow_nonzero; lia]. destruct (Z.eqb_spec (exponent_field p) 0); lia. }
    rewrite <- R, pattern_parts. lia.
Qed.
Lemma zero_value p : p mod 2 ^ 63 = 0 -> exponent_field p = 0 /\ float_value p = 0.
Proof.
  intros Z. rewrite pattern_parts in Z. destruct (field_bounds p) as [E M]. assert (exponent_field p = 0 /\ p mod 2 ^ 52 = 0) as [E0 M0] by lia.
  split; [exact E0|]. unfold float_value. rewrite E0, M0. rewrite Z.mul_0_l. apply Z.mul_0_r.
Qed.
Lemma nan_fields p : float_is_nan p = true <-> exponent_field p = 2047 /\ p mod 2 ^ 52 <> 0.
Proof. unfold float_is_nan, exponent_field. generalize ((p / 2 ^ 52) mod 2 ^ 11) (p mod 2 ^ 52). intros. lia. Qed.
Lemma float_eq_spec p q : 0 <= p < 2 ^ 64 -> 0 <= q < 2 ^ 64 -> py_eq (VFloat p) (VFloat q) = true <-> equal (VFloat p) (VFloat q).
Proof.
  intros P Q. cbn [py_eq]. split.
  - intros H. apply andb_true_iff in H as [H E]. apply andb_true_iff in H as [N1 N2]. apply orb_true_iff in E as [E|E].
    + apply Z.eqb_eq in E. subst q. destruct (Z.eq_dec (exponent_field p) 2047) as [X|X]; [|now apply eq_float].
      apply eq_infinite. split; [exact X|]. destruct (Z.eq_dec (p mod 2 ^ 52) 0) as [|Y]; [assumption|].
      assert (float_is_nan p = true) as W by (now apply nan_fields). rewrite W in N1. discriminate.
    + apply andb_true_iff in E as [E1 E2]. apply Z.eqb_eq in E1, E2. apply zero_value in E1 as [A1 A2], E2 as [B1 B2].
      apply eq_float; congruence.
  - assert (F : forall x, exponent_field x <> 2047 \/ infinite x -> float_is_nan x = false).
    { intros x H. destruct (float_is_nan x) eqn:E; [|reflexivity]. apply nan_fields in E. unfold infinite in H. lia. }
    intros H. inversion H as [| | | |x y X Y V|x I| | |]; subst.
    + rewrite (F p (or_introl X)), (F q (or_introl Y)). cbn [negb andb]. destruct (value_injective p q P Q V) as [-> |[Zp Zq]].
      * now rewrite Z.eqb_refl.
      * rewrite Zp, Zq. cbn. apply orb_true_r.
    + rewrite (F q (or_intror I)), Z.eqb_refl. reflexivity.
Qed.

Lemma equal_spec : forall v w, patterns v -> patterns w -> (py_eq v w = true <-> equal v w).
Proof.
  fix IH 1. intros v w V W. destruct v as [|z|p|l|l|l|c a].
  - destruct w; cbn [py_eq]; split; intros H; try discriminate; try constructor; inversion H.
  - destruct w; cbn [py_eq]; split; intros H; try discriminate; try (now inversion H).
    + apply Z.eqb_eq in H. subst. constructor.
    + inversion H; subst. apply Z.eqb_refl.
    + apply int_eq_float_spec in H as [A B]. now constructor.
    + inversion H; subst. apply int_eq_float_spec. auto.
  - destruct w; try (cbn [py_eq]; split; intros H; try discriminate; now inversion H).
    + cbn [py_eq]; split; intros H; [apply int_eq_float_spec in H as [A B]; now constructor|]. inversion H; subst. apply int_eq_float_spec. auto.
    + inversion V; subst. inversion W; subst. now apply float_eq_spec.
  - destruct w; cbn [py_eq]; split; intros H; try discriminate; try (now inversion H).
    + destruct (list_eq_dec Z.eq_dec l b); [subst; constructor|discriminate].
    + inversion H; subst. destruct (list_eq_dec Z.eq_dec b b); congruence.
  - destruct w; cbn [py_eq]; split; intros H; try discriminate; try (now inversion H).
    + destruct (list_eq_dec Z.eq_dec l s); [subst; constructor|discriminate].
    + inversion H; subst. destruct (list_eq_dec Z.eq_dec s s); congruence.
  - destruct w as [| | | | |l'|]; try (cbn [py_eq]; split; intros H; try discriminate; now inversion H).
    inversion V as [| | | | |x F|]; subst. inversion W as [| | | | |x F'|]; subst. clear V W. cbn [py_eq].
    assert (G : (fix go (x y : list value) : bool :=
         match x, y with [], [] => true | a :: x', b :: y' => py_eq a b && go x' y' | _, _ => false end) l l' = true <-> Forall2 equal l l').
    { revert l' F'. induction l as [|a l IHl]; intros [|b l'] F'; try (split; intros H; [discriminate|inversion H]).
      - split; [constructor|reflexivity].
      - inversion F as [|x y Fa Fl]; subst. inversion F' as [|x y Fb Fl']; subst. rewrite andb_true_iff, (IH a b Fa Fb), (IHl Fl l' Fl'). split.
        + intros [A B]. now constructor.
        + intros H. inversion H; subst. auto. }
    rewrite G. split; [now constructor|]. intros H. now inversion H.
  - destruct w; cbn [py_eq]; split; intros H; try discriminate; now inversion H.
Qed.
