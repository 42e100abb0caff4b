(** Comparing an int with a float. *)
From Verif Require Import Base IntCodec Marshal FloatSpec FloatRound IntFloat IntFloatFacts.
From Coq Require Import ZArith List Bool Lia ZifyBool ZifyNat.
Open Scope Z_scope.
Ltac Zify.zify_post_hook ::= Z.div_mod_to_equations.

Lemma float_units_value p : float_units p = float_value p.
Proof.
  unfold float_units, float_value, exponent_field. set (e := (p / 2 ^ 52) mod 2 ^ 11).
  assert (0 <= e) by (unfold e; apply Z.mod_pos_bound; reflexivity).
  destruct (Z.eqb_spec e 0) as [->|N].
  - change (2 ^ (Z.max 0 1 - 1)) with 1. destruct (p / 2 ^ 63 =? 0); lia.
  - replace (Z.max e 1 - 1) with (e - 1) by lia. set (x := 2 ^ (e - 1)). destruct (p / 2 ^ 63 =? 0); lia.
Qed.

Lemma int_eq_float_spec z p : int_eq_float z p = true <-> exponent_field p <> 2047 /\ float_value p = z * float_one.
Proof.
  unfold int_eq_float, float_finite. rewrite float_units_value. fold (exponent_field p). unfold float_one.
  generalize (float_value p) (z * 2 ^ 1074). intros a b. rewrite andb_true_iff, negb_true_iff, Z.eqb_neq, Z.eqb_eq. intuition.
Qed.

(** An int that equals some float can be made a float. *)
Lemma value_bound p : exponent_field p <> 2047 -> Z.abs (float_value p) <= (2 ^ 54 - 2) * 2 ^ 2044.
Proof.
  intros F. unfold float_value. set (e := exponent_field p) in *.
  assert (He : 0 <= e < 2048) by (unfold e, exponent_field; change 2048 with (2 ^ 11); apply Z.mod_pos_bound; reflexivity).
  assert (Hm : 0 <= p mod 2 ^ 52 < 2 ^ 52) by (apply Z.mod_pos_bound; reflexivity).
  set (m := if e =? 0 then p mod 2 ^ 52 else 2 ^ 52 + p mod 2 ^ 52).
  assert (Hm' : 0 <= m <= 2 ^ 53 - 1) by (unfold m; destruct (e =? 0); change (2 ^ 53) with (2 * 2 ^ 52); lia).
  clearbody m e. clear Hm.
  assert (X : 0 <= 2 ^ (Z.max e 1 - 1) <= 2 ^ 2045) by (split; [apply Z.pow_nonneg; lia|apply Z.pow_le_mono_r; lia]).
  replace (Z.abs ((if p / 2 ^ 63 =? 0 then 1 else -1) * (m * 2 ^ (Z.max e 1 - 1)))) with (m * 2 ^ (Z.max e 1 - 1)) by (destruct (p / 2 ^ 63 =? 0); lia).
  set (x := 2 ^ (Z.max e 1 - 1)) in *. change (2 ^ 2045) with (2 * 2 ^ 2044) in X. replace ((2 ^ 54 - 2) * 2 ^ 2044) with ((2 ^ 53 - 1) * (2 * 2 ^ 2044)) by reflexivity.
  clearbody x. generalize dependent (2 * 2 ^ 2044). generalize dependent (2 ^ 53 - 1). intros a Ha b Hb. apply Z.mul_le_mono_nonneg; lia.
Qed.
Lemma int_eq_convertible z p : int_eq_float z p = true -> exists q, double_of_int z = Ok q.
Proof.
  intros H. apply int_eq_float_spec in H as [F V]. destruct (int_as_float z) as [[A _]|(q & _ & Q & _)]; [exfalso|eauto].
  pose proof (value_bound p F) as B. rewrite V, Z.abs_mul in B. unfold float_one in B. rewrite (Z.abs_eq (2 ^ 1074)) in B by (vm_compute; discriminate).
  assert (E : (2 ^ 1024 - 2 ^ 970) * 2 ^ 1074 = (2 ^ 54 - 1) * 2 ^ 2044) by reflexivity.
  assert (L : (2 ^ 1024 - 2 ^ 970) * 2 ^ 1074 <= Z.abs z * 2 ^ 1074) by (apply Z.mul_le_mono_nonneg_r; [vm_compute; discriminate|exact A]).
  rewrite E in L. revert L B. assert (P : 0 < 2 ^ 2044) by reflexivity. generalize dependent (2 ^ 2044). generalize (Z.abs z * 2 ^ 1074) (2 ^ 54). clear. intros. nia.
Qed.
