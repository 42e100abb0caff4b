(** How numbers are shown. *)
From Verif Require Import Base IntCodec Marshal FloatSpec FloatEq Repr.
From Coq Require Import ZArith List Bool String Lia.
Open Scope Z_scope.

Lemma quot_toward_zero x u : 0 < u ->
  (0 <= x -> Z.quot x u * u <= x < (Z.quot x u + 1) * u) /\ (x <= 0 -> (Z.quot x u - 1) * u < x <= Z.quot x u * u).
Proof.
  intros U. pose proof (Z.quot_rem' x u) as E. split; intros S.
  - pose proof (Z.rem_bound_pos x u S U). nia.
  - assert (R : - u < Z.rem x u <= 0) by (pose proof (Z.rem_bound_pos (- x) u ltac:(lia) U) as R; rewrite Z.rem_opp_l' in R; lia). nia.
Qed.
Lemma float_as_int pd pf pr f p :
  (exponent_field p <> 2047 -> exists z, to_repr pd pf pr (MInt f) (VFloat p) = Ok (pd z)
     /\ (0 <= float_value p -> z * float_one <= float_value p < (z + 1) * float_one)
     /\ (float_value p <= 0 -> (z - 1) * float_one < float_value p <= z * float_one))
  /\ (exponent_field p = 2047 -> to_repr pd pf pr (MInt f) (VFloat p) = Err (if p mod 2 ^ 52 =? 0 then OverflowError else ValueError)).
Proof.
  change (to_repr pd pf pr (MInt f) (VFloat p)) with (show_int pd (VFloat p)). unfold show_int, float_finite, float_is_nan. fold (exponent_field p). split; intros E.
  - rewrite (proj2 (Z.eqb_neq _ _) E). cbn [negb]. rewrite float_units_value. eexists. split; [reflexivity|]. apply quot_toward_zero. reflexivity.
  - rewrite E. cbn [Z.eqb Pos.eqb negb andb]. destruct (p mod 2 ^ 52 =? 0); reflexivity.
Qed.
