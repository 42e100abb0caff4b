(** Narrowing to single precision gives the nearest single. *)
From Verif Require Import Base BaseProofs IntCodec CodecSpec IntCodecProofs FloatProofs FloatSpec.
From Coq Require Import ZArith List Bool Lia ZifyBool ZifyNat.
Import ListNotations.
Open Scope Z_scope.
Ltac Zify.zify_post_hook ::= Z.div_mod_to_equations.

(** ** Rounding *)
Lemma rhe_nearest m d n : 0 < d -> Z.abs (round_half_even m d * d - m) <= Z.abs (n * d - m).
Proof.
  intros D. unfold round_half_even. pose proof (Z.div_mod m d ltac:(lia)) as E. pose proof (Z.mod_pos_bound m d D) as B.
  set (q := m / d) in *. set (r := m mod d) in *. clearbody q r. subst m.
  assert (N : n <= q \/ q + 1 <= n) by lia.
  assert (X : Z.abs (q * d - (d * q + r)) <= Z.abs (n * d - (d * q + r)) \/ q + 1 <= n) by (destruct N as [N|N]; [left; nia|now right]).
  destruct (Z.ltb_spec (2 * r) d); [|destruct (Z.ltb_spec d (2 * r)); [|destruct (Z.even q)]]; destruct N as [N|N]; nia.
Qed.
Lemma rhe_tie m d n : 0 < d -> Z.abs (round_half_even m d * d - m) = Z.abs (n * d - m) -> n <> round_half_even m d -> Z.even (round_half_even m d) = true.
Proof.
  intros D. unfold round_half_even. pose proof (Z.div_mod m d ltac:(lia)) as E. pose proof (Z.mod_pos_bound m d D) as B.
  set (q := m / d) in *. set (r := m mod d) in *. clearbody q r. subst m.
  destruct (Z.ltb_spec (2 * r) d) as [L|L]; [|destruct (Z.ltb_spec d (2 * r)) as [L2|L2]; [|destruct (Z.even q) eqn:Ev]].
  - intros T N. exfalso. assert (n <= q - 1 \/ q + 1 <= n) by lia. nia.
  - intros T N. exfalso. assert (n <= q \/ q + 2 <= n) by lia. nia.
  - auto.
  - intros _ _. replace (q + 1) with (Z.succ q) by lia. rewrite Z.even_succ. now rewrite <- Z.negb_even, Ev.
Qed.
Lemma rhe_bounds m d lo hi : 0 < d -> lo * d <= m <= hi * d -> lo <= round_half_even m d <= hi.
Proof.
  intros D B. unfold round_half_even. assert (L : lo <= m / d <= hi) by (split; [apply Z.div_le_lower_bound; lia|apply Z.div_le_upper_bound; lia]).
  pose proof (Z.mod_pos_bound m d D) as R. pose proof (Z.div_mod m d ltac:(lia)) as E.
  assert (U : m mod d <> 0 -> m / d + 1 <= hi) by nia.
  destruct (Z.ltb_spec (2 * (m mod d)) d); [lia|]. assert (m mod d <> 0) by lia. destruct (Z.ltb_spec d (2 * (m mod d))); [lia|]. destruct (Z.even (m / d)); lia.
Qed.

(** ** The value of a single: its magnitude bits [r], in the same units *)
Definition single_mag (r : Z) : Z := (if r / 2 ^ 23 =? 0 then r mod 2 ^ 23 else 2 ^ 23 + r mod 2 ^ 23) * 2 ^ (Z.max (r / 2 ^ 23) 1 + 924).
Lemma single_mag_of k M : 0 <= k -> 0 <= M <= 2 ^ 24 -> (k = 0 \/ 2 ^ 23 <= M) -> single_mag (k * 2 ^ 23 + M) = M * 2 ^ (k + 925).
Proof.
  intros K B O. unfold single_mag. destruct (Z_lt_le_dec M (2 ^ 23)) as [L|L].
  - assert (k = 0) as -> by lia. rewrite Z.mul_0_l, Z.add_0_l. rewrite Z.div_small, Z.mod_small by lia. reflexivity.
  - destruct (Z.eq_dec M (2 ^ 24)) as [->|N].
    + assert (D : (k * 2 ^ 23 + 2 ^ 24) / 2 ^ 23 = k + 2) by (pows; lia). assert (R : (k * 2 ^ 23 + 2 ^ 24) mod 2 ^ 23 = 0) by (pows; lia).
      rewrite D, R. destruct (Z.eqb_spec (k + 2) 0); [lia|]. rewrite Z.max_l by lia. replace (k + 2 + 924) with (1 + (k + 925)) by lia. rewrite Z.pow_add_r by lia.
      change (2 ^ 24) with (2 ^ 23 * 2 ^ 1). generalize (2 ^ (k + 925)). intros. pows. lia.
    + assert (D : (k * 2 ^ 23 + M) / 2 ^ 23 = k + 1) by (pows; lia). assert (R : (k * 2 ^ 23 + M) mod 2 ^ 23 = M - 2 ^ 23) by (pows; lia).
      rewrite D, R. destruct (Z.eqb_spec (k + 1) 0); [lia|]. rewrite Z.max_l by lia. replace (k + 1 + 924) with (k + 925) by lia. f_equal. lia.
Qed.
Definition sign_of (s : Z) : Z := if s =? 0 then 1 else -1.

(** Widening keeps the value. *)
Lemma widen_value s r : 0 <= s <= 1 -> 0 <= r < 255 * 2 ^ 23 ->
  let p := single_to_double (s * 2 ^ 31 + r) in finite p /\ p / 2 ^ 63 = s /\ float_value p = sign_of s * single_mag r.
Proof.
  intros Hs Hr p.
  set (e := r / 2 ^ 23). set (m := r mod 2 ^ 23).
  assert (He : 0 <= e < 255) by (unfold e; pows; lia). assert (Hm : 0 <= m < 2 ^ 23) by (unfold m; pows; lia).
  assert (F : (s * 2 ^ 31 + r) / 2 ^ 31 = s /\ ((s * 2 ^ 31 + r) / 2 ^ 23) mod 2 ^ 8 = e /\ (s * 2 ^ 31 + r) mod 2 ^ 23 = m).
  { assert (Er : r = e * 2 ^ 23 + m) by (unfold e, m; pows; lia). clearbody e m. subst r. clear - Hs He Hm. pows.
    assert (E : (s * 2147483648 + (e * 8388608 + m)) / 8388608 = s * 256 + e) by (symmetry; apply Z.div_unique with m; lia). rewrite E. repeat split; lia. }
  destruct F as (F1 & F2 & F3). unfold p, single_to_double. rewrite F1, F2, F3. unfold single_mag. fold e m. clearbody e m. clear p F1 F2 F3.
  destruct (Z.eqb_spec e 255); [lia|]. destruct (Z.eqb_spec e 0) as [->|E0].
  - destruct (Z.eqb_spec m 0) as [->|M0].
    + destruct (split_double s 0 0) as (P1 & P2 & P3 & P4); try lia. cbv zeta in *. rewrite Z.mul_0_l, Z.add_0_l in *.
      split; [split; [exact P4|unfold exponent_field; rewrite P2; lia]|]. split; [exact P1|]. unfold float_value, exponent_field. rewrite P1, P2, P3. cbn [Z.eqb]. unfold sign_of. now rewrite !Z.mul_0_l, !Z.mul_0_r.
    + set (k := Z.log2 m).
      assert (Hk : 0 <= k <= 22). { split; [apply Z.log2_nonneg|]. unfold k. assert (Z.log2 m < 23) by (apply Z.log2_lt_pow2; lia). lia. }
      assert (Lk : 2 ^ k <= m < 2 ^ (k + 1)). { replace (k + 1) with (Z.succ k) by lia. apply Z.log2_spec; lia. }
      assert (Pw : 2 ^ k * 2 ^ (52 - k) = 2 ^ 52). { rewrite <- Z.pow_add_r by lia. f_equal; lia. }
      rewrite Z.pow_add_r in Lk by lia. change (2 ^ 1) with 2 in Lk.
      assert (Pp : 0 < 2 ^ (52 - k)) by (apply Z.pow_pos_nonneg; lia).
      assert (Bm : 2 ^ 52 <= m * 2 ^ (52 - k) < 2 * 2 ^ 52) by nia.
      destruct (split_double s (k - 149 + 1023) (m * 2 ^ (52 - k) - 2 ^ 52)) as (P1 & P2 & P3 & P4); try lia. cbv zeta in *.
      split; [split; [exact P4|unfold exponent_field; rewrite P2; lia]|]. split; [exact P1|]. unfold float_value, exponent_field. rewrite P1, P2, P3.
      destruct (Z.eqb_spec (k - 149 + 1023) 0); [lia|]. cbn [Z.eqb]. fold (sign_of s). f_equal.
      replace (2 ^ 52 + (m * 2 ^ (52 - k) - 2 ^ 52)) with (m * 2 ^ (52 - k)) by lia. rewrite <- Z.mul_assoc, <- Z.pow_add_r by lia. f_equal. f_equal. lia.
  - destruct (split_double s (e - 127 + 1023) (m * 2 ^ 29)) as (P1 & P2 & P3 & P4); try lia. cbv zeta in *.
    split; [split; [exact P4|unfold exponent_field; rewrite P2; lia]|]. split; [exact P1|]. unfold float_value, exponent_field. rewrite P1, P2, P3.
    destruct (Z.eqb_spec (e - 127 + 1023) 0); [lia|]. fold (sign_of s). f_equal.
    replace (2 ^ 52 + m * 2 ^ 29) with ((2 ^ 23 + m) * 2 ^ 29) by (clear; pows; lia). rewrite <- Z.mul_assoc, <- Z.pow_add_r by lia. f_equal. f_equal. lia.
Qed.
Lemma single_mag_nonneg r : 0 <= r -> 0 <= single_mag r.
Proof. intros H. unfold single_mag. apply Z.mul_nonneg_nonneg; [|apply Z.pow_nonneg; lia]. destruct (Z.eqb_spec (r / 2 ^ 23) 0); pows; lia. Qed.

(** Singles at or above 2^(23+k+925) are multiples of 2^(k+925). *)
Lemma single_mag_grid r k : 0 <= r -> 0 <= k -> (exists n, single_mag r = n * 2 ^ (k + 925)) \/ (0 < k /\ single_mag r < 2 ^ 23 * 2 ^ (k + 925)).
Proof.
  intros Hr Hk. unfold single_mag. set (e := r / 2 ^ 23). assert (He : 0 <= e) by (unfold e; pows; lia).
  assert (Hm : 0 <= r mod 2 ^ 23 < 2 ^ 23) by (pows; lia). set (m := r mod 2 ^ 23) in *. clearbody e m.
  set (M := if e =? 0 then m else 2 ^ 23 + m).
  assert (HM : 0 <= M < 2 ^ 24) by (unfold M; destruct (e =? 0); pows; lia).
  destruct (Z_le_gt_dec (k + 1) (Z.max e 1)) as [L|L].
  - left. exists (M * 2 ^ (Z.max e 1 - 1 - k)). rewrite <- Z.mul_assoc, <- Z.pow_add_r by lia. f_equal. f_equal. lia.
  - right. split; [lia|]. assert (Y : 2 ^ (k + 925) = 2 * 2 ^ (k + 924)) by (replace (k + 925) with (1 + (k + 924)) by lia; rewrite Z.pow_add_r by lia; reflexivity).
    rewrite Y. assert (X : 2 ^ (Z.max e 1 + 924) <= 2 ^ (k + 924)) by (apply Z.pow_le_mono_r; lia).
    assert (0 < 2 ^ (Z.max e 1 + 924)) by (apply Z.pow_pos_nonneg; lia). change (2 ^ 24) with (2 * 2 ^ 23) in HM. nia.
Qed.

(** ** Narrowing *)
Definition mantissa (p : Z) : Z := if exponent_field p =? 0 then p mod 2 ^ 52 else 2 ^ 52 + p mod 2 ^ 52.
Lemma narrow_finite p : finite p ->
  exists k M d, 0 <= k /\ 0 <= M <= 2 ^ 24 /\ (k = 0 \/ 2 ^ 23 <= M) /\ 0 < d
    /\ M = round_half_even (mantissa p) d /\ d * 2 ^ (Z.max (exponent_field p) 1 - 1) = 2 ^ (k + 925)
    /\ (k = 0 \/ 2 ^ 23 * d <= mantissa p) /\ 0 <= mantissa p
    /\ (k = Z.max 0 (exponent_field p - 897)) /\ (0 < k -> d = 2 ^ 29)
    /\ double_to_single p = if 255 * 2 ^ 23 <=? k * 2 ^ 23 + M then Err OverflowError else Ok (p / 2 ^ 63 * 2 ^ 31 + (k * 2 ^ 23 + M)).
Proof.
  intros [B F]. set (e := exponent_field p) in *. unfold double_to_single. change ((p / 2 ^ 52) mod 2 ^ 11) with e. destruct (Z.eqb_spec e 2047) as [|N]; [contradiction|].
  unfold mantissa. fold e. set (m := p mod 2 ^ 52). assert (Hm : 0 <= m < 2 ^ 52) by (unfold m; pows; lia).
  assert (He : 0 <= e < 2048) by (unfold e, exponent_field; pows; lia). set (M0 := if e =? 0 then m else 2 ^ 52 + m).
  assert (HM : 0 <= M0 < 2 ^ 53) by (unfold M0; destruct (e =? 0); pows; lia).
  assert (EE : (if e =? 0 then 1 else e) = Z.max e 1) by (destruct (Z.eqb_spec e 0); lia). rewrite EE. set (E := Z.max e 1 - 1075).
  set (q := Z.max (E + 29) (-149)). set (d := 2 ^ (q - E)).
  assert (D0 : 0 < d) by (apply Z.pow_pos_nonneg; lia).
  assert (D1 : 2 ^ 29 <= d) by (apply Z.pow_le_mono_r; lia).
  exists (q + 149), (round_half_even M0 d), d. clearbody e m.
  assert (Nk : q + 149 = 0 \/ 2 ^ 23 * d <= M0).
  { destruct (Z.eq_dec (q + 149) 0) as [|Nq]; [now left|right]. unfold d. replace (q - E) with 29 by lia. unfold M0. destruct (Z.eqb_spec e 0); [lia|]. clear - Hm. pows; lia. }
  split; [lia|]. assert (Bn : 0 <= round_half_even M0 d <= 2 ^ 24). { apply rhe_bounds; [exact D0|]. split; [lia|]. change (2 ^ 53) with (2 ^ 24 * 2 ^ 29) in HM. nia. }
  split; [exact Bn|]. split.
  { destruct Nk as [Nk|Nk]; [now left|right]. apply (rhe_bounds M0 d (2 ^ 23) (2 ^ 24)); [exact D0|]. split; [exact Nk|]. change (2 ^ 53) with (2 ^ 24 * 2 ^ 29) in HM. nia. }
  split; [exact D0|]. split; [reflexivity|]. split; [unfold d; rewrite <- Z.pow_add_r by lia; f_equal; lia|]. split; [exact Nk|]. split; [lia|]. split; [lia|]. split; [intros; unfold d; f_equal; lia|]. reflexivity.
Qed.
Lemma value_split p : float_value p = sign_of (p / 2 ^ 63) * (mantissa p * 2 ^ (Z.max (exponent_field p) 1 - 1)).
Proof. reflexivity. Qed.

Lemma nearest_mag m x d k M r : 0 < x -> 0 < d -> d * x = 2 ^ (k + 925) -> 0 <= m -> 0 <= k -> (k = 0 \/ 2 ^ 23 * d <= m) -> M = round_half_even m d -> 0 <= r ->
  Z.abs (M * 2 ^ (k + 925) - m * x) <= Z.abs (single_mag r - m * x)
  /\ (Z.abs (M * 2 ^ (k + 925) - m * x) = Z.abs (single_mag r - m * x) -> single_mag r <> M * 2 ^ (k + 925) -> Z.even M = true).
Proof.
  intros X D E Hm Hk Nk -> Hr. rewrite <- E. assert (S : forall n, Z.abs (n * (d * x) - m * x) = Z.abs (n * d - m) * x).
  { intros n. replace (n * (d * x) - m * x) with ((n * d - m) * x) by ring. rewrite Z.abs_mul. rewrite (Z.abs_eq x) by lia. reflexivity. }
  destruct (single_mag_grid r k Hr Hk) as [(n & G)|[Pk G]].
  - rewrite G, <- E, !S. split; [pose proof (rhe_nearest m d n D); nia|]. intros T Ne. apply (rhe_tie m d n D); [nia|]. intros ->. now apply Ne.
  - destruct Nk as [|Nk]; [lia|]. rewrite S. pose proof (rhe_nearest m d (2 ^ 23) D) as R. rewrite <- E in G.
    assert (L : Z.abs (2 ^ 23 * d - m) * x < Z.abs (single_mag r - m * x)).
    { rewrite Z.abs_neq by lia. rewrite Z.abs_neq by nia. nia. }
    split; [nia|]. intros T. nia.
Qed.
Lemma single_parts q : 0 <= q < 2 ^ 32 -> finite (single_to_double q) -> exists s r, 0 <= s <= 1 /\ 0 <= r < 255 * 2 ^ 23 /\ q = s * 2 ^ 31 + r.
Proof.
  intros B F. exists (q / 2 ^ 31), (q mod 2 ^ 31). split; [pows; lia|]. split; [|pows; lia].
  destruct (Z_lt_le_dec (q mod 2 ^ 31) (255 * 2 ^ 23)) as [L|L]; [pows; lia|]. exfalso. destruct F as [_ F]. apply F. clear F.
  assert (He : (q / 2 ^ 23) mod 2 ^ 8 = 255) by (pows; lia). assert (Hs : 0 <= q / 2 ^ 31 <= 1) by (pows; lia). assert (Hm : 0 <= q mod 2 ^ 23 < 2 ^ 23) by (pows; lia).
  unfold single_to_double. rewrite He. cbn [Z.eqb Pos.eqb]. unfold exponent_field. destruct (Z.eqb_spec (q mod 2 ^ 23) 0) as [|N].
  - destruct (split_double (q / 2 ^ 31) 2047 0 Hs ltac:(lia) ltac:(lia)) as (_ & P2 & _). cbv zeta in *. now rewrite Z.add_0_r in P2.
  - assert (Bm : 2 ^ 51 <= Z.lor (2 ^ 51) (q mod 2 ^ 23 * 2 ^ 29) < 2 ^ 52). { apply (lor_pow2_bounds 51); [lia|]. change (51 + 1) with 52. clear - Hm. pows; lia. }
    destruct (split_double (q / 2 ^ 31) 2047 (Z.lor (2 ^ 51) (q mod 2 ^ 23 * 2 ^ 29)) Hs ltac:(lia) ltac:(lia)) as (_ & P2 & _). exact P2.
Qed.
Lemma narrow_nearest p q : finite p -> double_to_single p = Ok q ->
  0 <= q < 2 ^ 32 /\ finite (single_to_double q)
  /\ (single_to_double q) / 2 ^ 63 = p / 2 ^ 63
  /\ forall q', 0 <= q' < 2 ^ 32 -> finite (single_to_double q') ->
      Z.abs (float_value (single_to_double q) - float_value p) <= Z.abs (float_value (single_to_double q') - float_value p)
      /\ (Z.abs (float_value (single_to_double q) - float_value p) = Z.abs (float_value (single_to_double q') - float_value p) ->
          float_value (single_to_double q') <> float_value (single_to_double q) -> Z.even q = true).
Proof.
  intros F N. destruct (narrow_finite p F) as (k & M & d & K0 & MB & KM & D0 & EM & ED & Nk & M0 & _ & _ & E). rewrite E in N.
  destruct (Z.leb_spec (255 * 2 ^ 23) (k * 2 ^ 23 + M)) as [|L]; [discriminate|].
  assert (Eq : q = p / 2 ^ 63 * 2 ^ 31 + (k * 2 ^ 23 + M)) by congruence. clear N. subst q.
  set (s := p / 2 ^ 63). assert (Hs : 0 <= s <= 1) by (unfold s; destruct F as [F _]; clear - F; pows; lia).
  assert (R0 : 0 <= k * 2 ^ 23 + M) by (clear - K0 MB; pows; lia).
  destruct (widen_value s (k * 2 ^ 23 + M) Hs (conj R0 L)) as (W1 & W3 & W2). cbv zeta in W1, W2, W3.
  split; [clear - Hs R0 L; pows; lia|]. split; [exact W1|]. split; [exact W3|].
  intros q' B' F'. destruct (single_parts q' B' F') as (s' & r' & Hs' & Hr' & ->). destruct (widen_value s' r' Hs' Hr') as (_ & _ & W'). cbv zeta in W'.
  rewrite W2, W', (value_split p). fold s. rewrite single_mag_of by auto.
  set (x := 2 ^ (Z.max (exponent_field p) 1 - 1)) in *. assert (X : 0 < x) by (apply Z.pow_pos_nonneg; lia).
  destruct (nearest_mag (mantissa p) x d k M r' X D0 ED M0 K0 Nk EM (proj1 Hr')) as [A1 A2].
  destruct (nearest_mag (mantissa p) x d k M 0 X D0 ED M0 K0 Nk EM ltac:(lia)) as [Z1 _]. change (single_mag 0) with 0 in Z1.
  assert (Ev : Z.even (s * 2 ^ 31 + (k * 2 ^ 23 + M)) = Z.even M).
  { rewrite !Z.even_add, !Z.even_mul. change (Z.even (2 ^ 31)) with true. change (Z.even (2 ^ 23)) with true. rewrite !orb_true_r. now destruct (Z.even M). }
  rewrite Ev. pose proof (single_mag_nonneg r' (proj1 Hr')) as P'. set (w := single_mag r') in *. set (v := mantissa p * x) in *. set (y := M * 2 ^ (k + 925)) in *.
  assert (V : 0 <= v) by (unfold v; nia). assert (Y : 0 <= y) by (unfold y; apply Z.mul_nonneg_nonneg; [lia|apply Z.pow_nonneg; lia]).
  clearbody w v y. clear - A1 A2 Z1 P' V Y Hs Hs'.
  assert (Sg : sign_of s = 1 \/ sign_of s = -1) by (unfold sign_of; destruct (s =? 0); auto).
  assert (Sg' : sign_of s' = 1 \/ sign_of s' = -1) by (unfold sign_of; destruct (s' =? 0); auto).
  set (g := sign_of s) in *. set (g' := sign_of s') in *. clearbody g g'.
  destruct Sg as [-> | ->], Sg' as [-> | ->]; (split; [lia|intros T Ne]); try (apply A2; lia).
Qed.
Lemma narrow_overflow p : finite p -> (double_to_single p = Err OverflowError <-> Z.abs (float_value p) >= float_one * (2 ^ 128 - 2 ^ 103)).
Proof.
  intros F. destruct (narrow_finite p F) as (k & M & d & K0 & MB & KM & D0 & EM & ED & Nk & M0 & Ek & Ed & E). rewrite E.
  set (e := exponent_field p) in *. assert (He : 0 <= e < 2048) by (unfold e, exponent_field; clear; pows; lia).
  assert (Hm : 0 <= mantissa p < 2 ^ 53). { unfold mantissa. fold e. clearbody e. clear. destruct (e =? 0); pows; lia. }
  assert (V : Z.abs (float_value p) = mantissa p * 2 ^ (Z.max e 1 - 1)).
  { rewrite value_split. fold e. assert (0 <= mantissa p * 2 ^ (Z.max e 1 - 1)) by (apply Z.mul_nonneg_nonneg; [lia|apply Z.pow_nonneg; lia]). unfold sign_of. destruct (p / 2 ^ 63 =? 0); lia. }
  rewrite V. unfold float_one.
  assert (C1 : 255 * 2 ^ 23 <= k * 2 ^ 23 + M <-> 254 <= k \/ (k = 253 /\ M = 2 ^ 24)).
  { clear - K0 MB KM. pows. lia. }
  assert (C2 : (255 * 2 ^ 23 <=? k * 2 ^ 23 + M) = true <-> 254 <= k \/ (k = 253 /\ M = 2 ^ 24)) by (rewrite Z.leb_le; exact C1).
  assert (C3 : (if 255 * 2 ^ 23 <=? k * 2 ^ 23 + M then Err OverflowError else Ok (p / 2 ^ 63 * 2 ^ 31 + (k * 2 ^ 23 + M))) = Err OverflowError <-> 254 <= k \/ (k = 253 /\ M = 2 ^ 24)).
  { rewrite <- C2. destruct (255 * 2 ^ 23 <=? k * 2 ^ 23 + M); split; congruence. }
  rewrite C3. clear C1 C2 C3 E V. set (m := mantissa p) in *.
  assert (T : 2 ^ 1074 * (2 ^ 128 - 2 ^ 103) = (2 ^ 53 - 2 ^ 28) * 2 ^ 1149) by reflexivity. rewrite T. clear T.
  set (u := 2 ^ 1149). assert (U : 0 < u) by reflexivity.
  destruct (Z_le_gt_dec 254 k) as [K|K].
  - split; [intros _|now left]. assert (X : 2 * u <= 2 ^ (Z.max e 1 - 1)). { change (2 * u) with (2 ^ 1150). apply Z.pow_le_mono_r; lia. }
    destruct Nk as [Nk|Nk]; [lia|]. rewrite Ed in Nk by lia. revert X. generalize (2 ^ (Z.max e 1 - 1)). intros y X. clearbody u m. clear - X Nk U. pows. nia.
  - destruct (Z.eq_dec k 253) as [K'|K'].
    + replace (Z.max e 1 - 1) with 1149 by lia. fold u. specialize (Ed ltac:(lia)). subst d.
      assert (R : round_half_even m (2 ^ 29) = 2 ^ 24 <-> 2 ^ 53 - 2 ^ 28 <= m).
      { unfold round_half_even. clear - Hm. pows. split; intros H.
        - destruct (Z.ltb_spec (2 * (m mod 536870912)) 536870912); [lia|]. destruct (Z.ltb_spec 536870912 (2 * (m mod 536870912))); [lia|]. destruct (Z.even (m / 536870912)); lia.
        - destruct (Z.ltb_spec (2 * (m mod 536870912)) 536870912); [lia|]. destruct (Z.ltb_spec 536870912 (2 * (m mod 536870912))); [lia|].
          destruct (Z.even (m / 536870912)) eqn:Ev; [|lia]. exfalso. assert (m / 536870912 = 16777215) by lia. rewrite H2 in Ev. discriminate. }
      rewrite <- EM in R. split.
      * intros [H|[_ H]]; [lia|]. apply R in H. clearbody u. clear - H U. nia.
      * intros H. right. split; [exact K'|]. apply R. clearbody u. clear - H U. nia.
    + split; [lia|]. intros H. exfalso. assert (X : 2 * 2 ^ (Z.max e 1 - 1) <= u). { change 2 with (2 ^ 1) at 1. rewrite <- Z.pow_add_r by lia. apply Z.pow_le_mono_r; lia. }
      assert (P : 0 < 2 ^ (Z.max e 1 - 1)) by (apply Z.pow_pos_nonneg; lia). revert H X P. generalize (2 ^ (Z.max e 1 - 1)). intros y H X P. clearbody u m. clear - H X P U Hm. pows. nia.
Qed.
