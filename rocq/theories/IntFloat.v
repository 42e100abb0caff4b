(** Integers written to float fields. *)
From Verif Require Import Base BaseProofs IntCodec CodecSpec IntCodecProofs FloatProofs FloatSpec FloatRound.
From Coq Require Import ZArith List Bool Lia ZifyBool ZifyNat.
Import ListNotations.
Open Scope Z_scope.
Ltac Zify.zify_post_hook ::= Z.div_mod_to_equations.

Definition mag (p : Z) : Z := mantissa p * 2 ^ (Z.max (exponent_field p) 1 - 1).

Lemma mag_nonneg p : 0 <= p -> 0 <= mag p.
Proof.
  intros H. unfold mag, mantissa. apply Z.mul_nonneg_nonneg; [|apply Z.pow_nonneg; lia].
  destruct (Z.eqb_spec (exponent_field p) 0); pows; lia.
Qed.

(** Doubles are multiples of the spacing at an exponent, or smaller than everything there. *)
Lemma mag_grid p k : 0 <= p -> 0 <= k -> (exists n, mag p = n * 2 ^ k) \/ mag p < 2 ^ 52 * 2 ^ k.
Proof.
  intros Hp Hk. unfold mag, mantissa. set (e := exponent_field p). assert (He : 0 <= e) by (unfold e, exponent_field; apply Z.mod_pos_bound; reflexivity).
  assert (Hm : 0 <= p mod 2 ^ 52 < 2 ^ 52) by (apply Z.mod_pos_bound; reflexivity). set (m := p mod 2 ^ 52) in *. clearbody e m.
  set (M := if e =? 0 then m else 2 ^ 52 + m).
  assert (HM : 0 <= M < 2 ^ 53) by (unfold M; destruct (e =? 0); pows; lia).
  set (x := Z.max e 1 - 1). assert (0 <= x) by lia. clearbody M x.
  destruct (Z_le_gt_dec k x) as [L|L].
  - left. exists (M * 2 ^ (x - k)). rewrite <- Z.mul_assoc, <- Z.pow_add_r by lia. do 2 f_equal. lia.
  - right. replace k with (x + 1 + (k - x - 1)) by lia. rewrite !Z.pow_add_r by lia. change (2 ^ 1) with 2.
    assert (0 < 2 ^ x) by (apply Z.pow_pos_nonneg; lia). assert (1 <= 2 ^ (k - x - 1)) by (pose proof (Z.pow_pos_nonneg 2 (k - x - 1)); lia).
    change (2 ^ 53) with (2 * 2 ^ 52) in HM. nia.
Qed.

Lemma abs_value p : 0 <= p -> Z.abs (float_value p) = mag p.
Proof.
  intros H. pose proof (mag_nonneg p H). rewrite value_split. fold (mag p). unfold sign_of. destruct (_ =? 0); lia.
Qed.

Lemma pattern_value s k M : 0 <= s <= 1 -> 0 <= k -> 2 ^ 52 <= M <= 2 ^ 53 -> k * 2 ^ 52 + M < 2047 * 2 ^ 52 ->
  let p := s * 2 ^ 63 + (k * 2 ^ 52 + M) in
  finite p /\ p / 2 ^ 63 = s /\ float_value p = sign_of s * (M * 2 ^ k) /\ Z.even p = Z.even M.
Proof.
  intros Hs Hk HM L p.
  assert (Ev : Z.even p = Z.even M).
  { unfold p. rewrite !Z.even_add, !Z.even_mul. change (Z.even (2 ^ 63)) with true. change (Z.even (2 ^ 52)) with true. rewrite !orb_true_r. now destruct (Z.even M). }
  assert (Hx : exists e' m', 0 < e' < 2047 /\ 0 <= m' < 2 ^ 52 /\ k * 2 ^ 52 + M = e' * 2 ^ 52 + m' /\ M * 2 ^ k = (2 ^ 52 + m') * 2 ^ (e' - 1)).
  { destruct (Z.eq_dec M (2 ^ 53)) as [->|N].
    - exists (k + 2), 0. split; [clear - L Hk; pows; lia|]. split; [lia|]. split; [clear; pows; lia|]. replace (k + 2 - 1) with (k + 1) by lia. rewrite Z.pow_add_r by lia. change (2 ^ 53) with (2 ^ 52 * 2). change (2 ^ 1) with 2. ring.
    - exists (k + 1), (M - 2 ^ 52). split; [clear - L Hk HM; pows; lia|]. split; [clear - HM N; pows; lia|]. split; [clear; pows; lia|]. replace (k + 1 - 1) with k by lia. f_equal. lia. }
  destruct Hx as (e' & m' & He & Hm & E1 & E2). unfold p in *. rewrite E1 in *. rewrite E2.
  destruct (split_double s e' m' Hs ltac:(lia) Hm) as (P1 & P2 & P3 & P4). cbv zeta in *.
  split; [split; [exact P4|unfold exponent_field; rewrite P2; lia]|]. split; [exact P1|]. split; [|exact Ev].
  unfold float_value, exponent_field. rewrite P1, P2, P3. destruct (Z.eqb_spec e' 0); [lia|]. unfold sign_of. rewrite (Z.max_l e' 1) by lia. reflexivity.
Qed.

Lemma scaled_abs a m u : 0 < u -> Z.abs (a * u - m * u) = Z.abs (a - m) * u.
Proof. intros U. rewrite <- Z.mul_sub_distr_r, Z.abs_mul, (Z.abs_eq u) by lia. reflexivity. Qed.
Lemma near_mult m d u n : 0 < d -> 0 < u -> let y := round_half_even m d * (d * u) in
  Z.abs (y - m * u) <= Z.abs (n * (d * u) - m * u) /\ (Z.abs (y - m * u) = Z.abs (n * (d * u) - m * u) -> n * (d * u) <> y -> Z.even (round_half_even m d) = true).
Proof.
  intros D U y. unfold y. rewrite !Z.mul_assoc, !scaled_abs by exact U. split.
  - apply Z.mul_le_mono_nonneg_r; [lia|]. now apply rhe_nearest.
  - intros T Ne. apply (rhe_tie m d n D); [|intros ->; now apply Ne]. apply Z.mul_reg_r with u; [lia|exact T].
Qed.
Lemma near_below m d u w : 0 < d -> 0 < u -> 2 ^ 52 * d <= m -> w < 2 ^ 52 * (d * u) ->
  Z.abs (round_half_even m d * (d * u) - m * u) < Z.abs (w - m * u).
Proof.
  intros D U L G. apply Z.le_lt_trans with (Z.abs (2 ^ 52 * (d * u) - m * u)).
  - rewrite !Z.mul_assoc, !scaled_abs by exact U. apply Z.mul_le_mono_nonneg_r; [lia|]. now apply rhe_nearest.
  - assert (2 ^ 52 * (d * u) <= m * u) by (rewrite Z.mul_assoc; apply Z.mul_le_mono_nonneg_r; lia).
    revert H G. generalize (2 ^ 52 * (d * u)) (m * u). intros. lia.
Qed.

Section Of.
Variable z : Z.
Hypothesis Hz : z <> 0.
Let m := Z.abs z.
Let e := Z.log2 m.
Let M := if e <=? 52 then m * 2 ^ (52 - e) else round_half_even m (2 ^ (e - 52)).

Lemma of_log : 0 <= e /\ 2 ^ e <= m < 2 * 2 ^ e.
Proof.
  assert (0 < m) by lia. split; [apply Z.log2_nonneg|]. pose proof (Z.log2_spec m ltac:(lia)) as L. unfold e. rewrite Z.pow_succ_r in L by apply Z.log2_nonneg. exact L.
Qed.
Lemma of_M : 2 ^ 52 <= M <= 2 ^ 53.
Proof.
  destruct of_log as [E L]. unfold M. destruct (Z.leb_spec e 52) as [H|H].
  - assert (P : 2 ^ e * 2 ^ (52 - e) = 2 ^ 52) by (rewrite <- Z.pow_add_r by lia; f_equal; lia). assert (0 < 2 ^ (52 - e)) by (apply Z.pow_pos_nonneg; lia). change (2 ^ 53) with (2 * 2 ^ 52). nia.
  - assert (P : 2 ^ 52 * 2 ^ (e - 52) = 2 ^ e) by (rewrite <- Z.pow_add_r by lia; f_equal; lia). apply rhe_bounds; [apply Z.pow_pos_nonneg; lia|]. change (2 ^ 53) with (2 * 2 ^ 52). nia.
Qed.
Lemma of_eq : double_of_int z = if 2047 * 2 ^ 52 <=? (e + 1022) * 2 ^ 52 + M then Err OverflowError else Ok ((if z <? 0 then 2 ^ 63 else 0) + ((e + 1022) * 2 ^ 52 + M)).
Proof. unfold double_of_int. fold m. destruct (Z.eqb_spec m 0); [lia|]. reflexivity. Qed.
Lemma of_pattern p : double_of_int z = Ok p -> finite p /\ p / 2 ^ 63 = (if z <? 0 then 1 else 0) /\ float_value p = Z.sgn z * (M * 2 ^ (e + 1022)) /\ Z.even p = Z.even M.
Proof.
  rewrite of_eq. destruct (Z.leb_spec (2047 * 2 ^ 52) ((e + 1022) * 2 ^ 52 + M)) as [|L]; [discriminate|]. intros H.
  assert (Ep : p = (if z <? 0 then 1 else 0) * 2 ^ 63 + ((e + 1022) * 2 ^ 52 + M)) by (destruct (z <? 0); [change (1 * 2 ^ 63) with (2 ^ 63)|change (0 * 2 ^ 63) with 0]; congruence).
  pose proof of_M as HM. destruct of_log as [E _].
  destruct (pattern_value (if z <? 0 then 1 else 0) (e + 1022) M ltac:(destruct (z <? 0); lia) ltac:(lia) HM L) as (A & B & C & D). cbv zeta in *. rewrite <- Ep in *.
  split; [exact A|]. split; [exact B|]. split; [|exact D]. rewrite C. f_equal. unfold sign_of. destruct (Z.ltb_spec z 0); cbn [Z.eqb]; lia.
Qed.
Lemma of_overflow : double_of_int z = Err OverflowError <-> 2 ^ 1024 - 2 ^ 970 <= m.
Proof.
  rewrite of_eq. destruct of_log as [E L]. pose proof of_M as HM.
  assert (T : 2047 * 2 ^ 52 <= (e + 1022) * 2 ^ 52 + M <-> 2 ^ 1024 - 2 ^ 970 <= m).
  { destruct (Z_lt_le_dec e 1023) as [H|H]; [|destruct (Z_lt_le_dec 1023 e) as [H'|H']].
    - split; intros X; exfalso.
      + clear - X H HM. pows; lia.
      + assert (2 ^ e <= 2 ^ 1022) by (apply Z.pow_le_mono_r; lia). clear - X L H0. change (2 ^ 1024) with (4 * 2 ^ 1022) in X. change (2 ^ 1022) with (2 ^ 52 * 2 ^ 970) in *. assert (0 < 2 ^ 970) by reflexivity. change (2 ^ 52) with 4503599627370496 in *. lia.
    - assert (2 ^ 1024 <= 2 ^ e) by (apply Z.pow_le_mono_r; lia). assert (0 < 2 ^ 970) by reflexivity. split; intros; [lia|]. clear - H' HM. pows; lia.
    - assert (Ee : e = 1023) by lia. unfold M. unfold M in HM. rewrite Ee in *. cbn [Z.leb Z.compare Pos.compare Pos.compare_cont] in *. change (1023 - 52) with 971 in *. change (1023 + 1022) with 2045.
      assert (B : m < 2 ^ 53 * 2 ^ 971) by (change (2 ^ 53 * 2 ^ 971) with (2 * 2 ^ 1023); lia).
      change (2 ^ 1024 - 2 ^ 970) with (2 ^ 53 * 2 ^ 971 - 2 ^ 970). assert (D : 2 ^ 971 = 2 * 2 ^ 970) by reflexivity. assert (D0 : 0 < 2 ^ 970) by reflexivity.
      clear L E H H' Ee. clearbody m. clear e M. generalize dependent (2 ^ 970). generalize dependent (2 ^ 971). intros d HM B h Ed Hh. subst d.
      pose proof (rhe_nearest m (2 * h) (2 ^ 53 - 1) ltac:(lia)) as N1. pose proof (rhe_nearest m (2 * h) (2 ^ 53) ltac:(lia)) as N2. pose proof (rhe_tie m (2 * h) (2 ^ 53) ltac:(lia)) as N3. pose proof (rhe_tie m (2 * h) (2 ^ 53 - 1) ltac:(lia)) as N4.
      set (r := round_half_even m (2 * h)) in *. clearbody r.
      assert (Hr : 2047 * 2 ^ 52 <= 2045 * 2 ^ 52 + r <-> r = 2 ^ 53) by (clear - HM; pows; lia). rewrite Hr. clear Hr.
      split.
      + intros ->. change (2 ^ 53) with 9007199254740992 in *. lia.
      + intros G. destruct (Z.eq_dec r (2 ^ 53)) as [|Ne]; [assumption|exfalso].
        assert (r <= 2 ^ 53 - 1) by lia. assert (r * (2 * h) <= (2 ^ 53 - 1) * (2 * h)) by nia.
        assert (X : Z.abs (r * (2 * h) - m) = Z.abs (2 ^ 53 * (2 * h) - m) /\ r = 2 ^ 53 - 1).
        { assert (r = 2 ^ 53 - 1). { assert (r * (2 * h) >= (2 ^ 53 - 1) * (2 * h)) by (change (2 ^ 53) with 9007199254740992 in *; lia). nia. } subst r. split; [|reflexivity]. change (2 ^ 53) with 9007199254740992 in *. lia. }
        destruct X as [X1 X2]. specialize (N3 X1 ltac:(congruence)). rewrite X2 in N3. discriminate N3. }
  destruct (Z.leb_spec (2047 * 2 ^ 52) ((e + 1022) * 2 ^ 52 + M)); split; intros X; try reflexivity; try discriminate; try tauto. exfalso. apply T in X. lia.
Qed.
Lemma of_nearest p x : double_of_int z = Ok p -> finite x ->
  Z.abs (float_value p - z * float_one) <= Z.abs (float_value x - z * float_one)
  /\ (Z.abs (float_value p - z * float_one) = Z.abs (float_value x - z * float_one) -> float_value x <> float_value p -> Z.even p = true).
Proof.
  intros Hp [Hx _]. destruct (of_pattern p Hp) as (_ & _ & V & Ev). rewrite Ev. destruct of_log as [E L]. pose proof of_M as HM.
  pose proof (abs_value x ltac:(lia)) as Ax. pose proof (mag_nonneg x ltac:(lia)) as Nx. unfold float_one.
  assert (Zz : z = Z.sgn z * m) by (unfold m; lia). assert (Sg : Z.sgn z = 1 \/ Z.sgn z = -1) by lia.
  assert (P0 : 0 < 2 ^ (e + 1022)) by (apply Z.pow_pos_nonneg; lia).
  assert (Q0 : 0 < 2 ^ 1074) by reflexivity.
  assert (Near : let y := M * 2 ^ (e + 1022) in let v := m * 2 ^ 1074 in
     Z.abs (y - v) <= Z.abs (mag x - v) /\ (Z.abs (y - v) = Z.abs (mag x - v) -> mag x <> y -> Z.even M = true)).
  { cbv zeta. unfold M. destruct (Z.leb_spec e 52) as [H|H].
    - assert (Eq : m * 2 ^ (52 - e) * 2 ^ (e + 1022) = m * 2 ^ 1074). { rewrite <- Z.mul_assoc, <- Z.pow_add_r by lia. do 2 f_equal. lia. }
      rewrite Eq. lia.
    - set (d := 2 ^ (e - 52)). assert (D : 0 < d) by (apply Z.pow_pos_nonneg; lia).
      assert (Ed : 2 ^ (e + 1022) = d * 2 ^ 1074) by (unfold d; rewrite <- Z.pow_add_r by lia; f_equal; lia).
      assert (Ee : 2 ^ e = 2 ^ 52 * d) by (unfold d; rewrite <- Z.pow_add_r by lia; f_equal; lia).
      rewrite Ed. destruct (mag_grid x (e + 1022) ltac:(lia) ltac:(lia)) as [(n & G)|G]; rewrite Ed in G.
      + rewrite G. now apply near_mult.
      + rewrite Ee in L. assert (Lt := near_below m d (2 ^ 1074) (mag x) D Q0 (proj1 L) G). split; [now apply Z.lt_le_incl|]. intros T. rewrite T in Lt. now apply Z.lt_irrefl in Lt. }
  cbv zeta in Near. rewrite V. assert (Zv : z * 2 ^ 1074 = Z.sgn z * (m * 2 ^ 1074)) by (rewrite Zz at 1; ring). rewrite Zv.
  assert (Y0 : 0 < M * 2 ^ (e + 1022)). { assert (0 < 2 ^ 52) by reflexivity. nia. } assert (V0 : 0 < m * 2 ^ 1074) by (unfold m in *; nia).
  set (y := M * 2 ^ (e + 1022)) in *. set (v := m * 2 ^ 1074) in *. clear Zv. set (w := float_value x) in *. rewrite <- Ax in Near. clearbody w y v. clear - Near Sg Y0 V0. revert Near Sg. generalize (Z.sgn z). intros g Near Sg.
  destruct Near as [N1 N2]. destruct Sg as [-> | ->]; (split; [lia|intros T Ne; apply N2; lia]).
Qed.
End Of.
