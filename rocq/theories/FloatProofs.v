(** The single precision conversions: narrowing undoes widening. *)
From Verif Require Import Base BaseProofs IntCodec CodecSpec IntCodecProofs.
From Coq Require Import ZArith List Bool Lia ZifyBool ZifyNat.
Import ListNotations.
Open Scope Z_scope.
Ltac Zify.zify_post_hook ::= Z.div_mod_to_equations.

Lemma round_half_even_exact x d : 0 < d -> round_half_even (x * d) d = x.
Proof.
  intros H. unfold round_half_even. rewrite Z.div_mul, Z.mod_mul by lia.
  now replace (2 * 0 <? d) with true by lia.
Qed.

Lemma lor_pow2_bounds n x : 0 <= n -> 0 <= x < 2 ^ (n + 1) -> 2 ^ n <= Z.lor (2 ^ n) x < 2 ^ (n + 1).
Proof.
  intros Hn Hx. assert (0 < 2 ^ n) by (apply Z.pow_pos_nonneg; lia). split.
  - destruct (Z.testbit x n) eqn:T.
    + assert (Z.lor (2 ^ n) x = x).
      { apply Z.bits_inj'. intros i Hi. rewrite Z.lor_spec, Z.pow2_bits_eqb by lia.
        destruct (Z.eqb_spec n i); subst; auto. }
      rewrite H0. destruct (Z_lt_le_dec x (2 ^ n)); auto.
      rewrite (testbit_above x n n) in T by lia. discriminate.
    + assert (E : Z.lor (2 ^ n) x = 2 ^ n + x).
      { rewrite <- Z.lxor_lor, Z.add_nocarry_lxor; auto.
        all: apply Z.bits_inj'; intros i Hi; rewrite Z.land_spec, Z.pow2_bits_eqb, Z.bits_0 by lia;
          destruct (Z.eqb_spec n i); subst; auto. }
      lia.
  - apply lt_pow2_bits; try lia.
    + apply Z.lor_nonneg. lia.
    + intros i Hi. rewrite Z.lor_spec, Z.pow2_bits_eqb by lia.
      destruct (Z.eqb_spec n i); [lia|]. cbn. apply (testbit_above x (n + 1)); lia.
Qed.

Lemma lor_scale a x : Z.lor (2 ^ 51) (x * 2 ^ 29) / 2 ^ 29 = Z.lor (2 ^ 22) x
  /\ Z.lor (2 ^ 51) (Z.lor (2 ^ 22) a * 2 ^ 29) = Z.lor (2 ^ 51) (a * 2 ^ 29).
Proof.
  split; apply Z.bits_inj'; intros i Hi.
  - rewrite <- Z.shiftr_div_pow2, Z.shiftr_spec, !Z.lor_spec, !Z.pow2_bits_eqb by lia.
    rewrite Z.mul_pow2_bits by lia. f_equal; [lia|f_equal; lia].
  - rewrite !Z.lor_spec, Z.pow2_bits_eqb by lia. rewrite !Z.mul_pow2_bits by lia.
    destruct (Z.ltb_spec i 29).
    + now rewrite !Z.testbit_neg_r by lia.
    + rewrite Z.lor_spec, Z.pow2_bits_eqb by lia. destruct (Z.eqb_spec 51 i); auto.
      replace (22 =? i - 29) with false by lia. reflexivity.
Qed.

Ltac pows :=
  repeat match goal with
  | |- context [2 ^ ?n] => let v := eval vm_compute in (2 ^ n) in
                           match v with Zpos _ => change (2 ^ n) with v end
  | H : context [2 ^ ?n] |- _ => let v := eval vm_compute in (2 ^ n) in
                           match v with Zpos _ => change (2 ^ n) with v in H end
  end.

(** Fields of the widened pattern. *)
Lemma split_double s e m : 0 <= s <= 1 -> 0 <= e < 2048 -> 0 <= m < 2 ^ 52 ->
  let p := s * 2 ^ 63 + (e * 2 ^ 52 + m) in
  p / 2 ^ 63 = s /\ (p / 2 ^ 52) mod 2 ^ 11 = e /\ p mod 2 ^ 52 = m /\ 0 <= p < 2 ^ 64.
Proof.
  intros Hs He Hm p. unfold p. pows.
  assert (E : (s * 9223372036854775808 + (e * 4503599627370496 + m)) / 4503599627370496 = s * 2048 + e).
  { symmetry. apply Z.div_unique with m; lia. }
  rewrite E. repeat split; try lia.
Qed.

Lemma double_single q : 0 <= q < 2 ^ 32 ->
  0 <= single_to_double q < 2 ^ 64 /\
  exists q', double_to_single (single_to_double q) = Ok q' /\ 0 <= q' < 2 ^ 32
             /\ single_to_double q' = single_to_double q.
Proof.
  intros Hq.
  set (s := q / 2 ^ 31). set (e := (q / 2 ^ 23) mod 2 ^ 8). set (m := q mod 2 ^ 23).
  assert (Hs : 0 <= s <= 1) by (unfold s; pows; lia).
  assert (He : 0 <= e < 256) by (unfold e; pows; lia).
  assert (Hm : 0 <= m < 2 ^ 23) by (unfold m; pows; lia).
  assert (Eq : q = s * 2 ^ 31 + e * 2 ^ 23 + m) by (unfold s, e, m; pows; lia).
  assert (Q2 : forall e2 m2, 0 <= e2 < 256 -> 0 <= m2 < 2 ^ 23 ->
               let r := s * 2 ^ 31 + e2 * 2 ^ 23 + m2 in
               0 <= r < 2 ^ 32 /\ r / 2 ^ 31 = s /\ (r / 2 ^ 23) mod 2 ^ 8 = e2 /\ r mod 2 ^ 23 = m2).
  { intros e2 m2 H1 H2 r. unfold r. clear - Hs H1 H2. pows.
    assert (E : (s * 2147483648 + e2 * 8388608 + m2) / 8388608 = s * 256 + e2).
    { symmetry. apply Z.div_unique with m2; lia. }
    rewrite E. repeat split; lia. }
  unfold single_to_double at 1 2 3 5. fold s e m. clearbody s e m. subst q.
  destruct (Z.eqb_spec e 255) as [->|E255].
  - destruct (Z.eqb_spec m 0) as [->|Hm0].
    + destruct (split_double s 2047 0) as (P1 & P2 & P3 & P4); try lia. cbv zeta in *.
      rewrite Z.add_0_r in *. split; auto. exists (s * 2 ^ 31 + 255 * 2 ^ 23).
      unfold double_to_single. rewrite P1, P2, P3. cbn [Z.eqb Pos.eqb].
      split; auto. destruct (Q2 255 0) as (R0 & R1 & R2 & R3); try lia. rewrite Z.add_0_r in *.
      split; auto. unfold single_to_double. now rewrite R1, R2, R3.
    + assert (B : 2 ^ 51 <= Z.lor (2 ^ 51) (m * 2 ^ 29) < 2 ^ 52).
      { apply (lor_pow2_bounds 51); [lia|]. change (51 + 1) with 52. clear - Hm. pows; lia. }
      assert (B2 : 2 ^ 22 <= Z.lor (2 ^ 22) m < 2 ^ 23).
      { apply (lor_pow2_bounds 22); [lia|]. exact Hm. }
      destruct (split_double s 2047 (Z.lor (2 ^ 51) (m * 2 ^ 29))) as (P1 & P2 & P3 & P4); try lia.
      cbv zeta in *. split; auto.
      exists (s * 2 ^ 31 + 255 * 2 ^ 23 + Z.lor (2 ^ 22) m).
      unfold double_to_single. rewrite P1, P2, P3. cbn [Z.eqb Pos.eqb].
      destruct (Z.eqb_spec (Z.lor (2 ^ 51) (m * 2 ^ 29)) 0) as [Z0|_]; [exfalso; rewrite Z0 in B; clear - B; pows; lia|].
      rewrite (proj1 (lor_scale 0 m)).
      assert (I : Z.lor (2 ^ 22) (Z.lor (2 ^ 22) m) = Z.lor (2 ^ 22) m)
        by now rewrite Z.lor_assoc, Z.lor_diag.
      rewrite I. split; auto. destruct (Q2 255 (Z.lor (2 ^ 22) m)) as (R0 & R1 & R2 & R3); try lia.
      cbv zeta in *. split; auto. unfold single_to_double. rewrite R1, R2, R3. cbn [Z.eqb Pos.eqb].
      destruct (Z.eqb_spec (Z.lor (2 ^ 22) m) 0) as [Z0|_]; [exfalso; rewrite Z0 in B2; clear - B2; pows; lia|].
      now rewrite (proj2 (lor_scale m 0)).
  - assert (Fin : exists q', double_to_single
                   (s * 2 ^ 63 + (if e =? 0 then if m =? 0 then 0
                       else (Z.log2 m - 149 + 1023) * 2 ^ 52 + (m * 2 ^ (52 - Z.log2 m) - 2 ^ 52)
                     else (e - 127 + 1023) * 2 ^ 52 + m * 2 ^ 29)) = Ok q'
                   /\ q' = s * 2 ^ 31 + e * 2 ^ 23 + m
                   /\ 0 <= (s * 2 ^ 63 + (if e =? 0 then if m =? 0 then 0
                       else (Z.log2 m - 149 + 1023) * 2 ^ 52 + (m * 2 ^ (52 - Z.log2 m) - 2 ^ 52)
                     else (e - 127 + 1023) * 2 ^ 52 + m * 2 ^ 29)) < 2 ^ 64).
    { destruct (Z.eqb_spec e 0) as [->|E0].
      - destruct (Z.eqb_spec m 0) as [->|Hm0].
        + destruct (split_double s 0 0) as (P1 & P2 & P3 & P4); try lia. cbv zeta in *.
          rewrite Z.mul_0_l, Z.add_0_l in *.
          exists (s * 2 ^ 31 + 0). unfold double_to_single. rewrite P1, P2, P3.
          split; [reflexivity|]. split; [lia|auto].
        + set (k := Z.log2 m).
          assert (Hk : 0 <= k <= 22).
          { split; [apply Z.log2_nonneg|]. unfold k.
            assert (Z.log2 m < 23) by (apply Z.log2_lt_pow2; lia). lia. }
          assert (Lk : 2 ^ k <= m < 2 ^ (k + 1)).
          { replace (k + 1) with (Z.succ k) by lia. apply Z.log2_spec; lia. }
          assert (Pw : 2 ^ k * 2 ^ (52 - k) = 2 ^ 52).
          { rewrite <- Z.pow_add_r by lia. f_equal; lia. }
          rewrite Z.pow_add_r in Lk by lia. change (2 ^ 1) with 2 in Lk.
          assert (Pp : 0 < 2 ^ (52 - k)) by (apply Z.pow_pos_nonneg; lia).
          assert (Bm : 2 ^ 52 <= m * 2 ^ (52 - k) < 2 * 2 ^ 52) by nia.
          destruct (split_double s (k - 149 + 1023) (m * 2 ^ (52 - k) - 2 ^ 52)) as (P1 & P2 & P3 & P4); try lia.
          cbv zeta in *. eexists. unfold double_to_single. rewrite P1, P2, P3.
          destruct (Z.eqb_spec (k - 149 + 1023) 2047); [lia|].
          destruct (Z.eqb_spec (k - 149 + 1023) 0); [lia|].
          replace (Z.max (k - 149 + 1023 - 1075 + 29) (-149)) with (-149) by lia.
          replace (-149 - (k - 149 + 1023 - 1075)) with (52 - k) by lia.
          replace (2 ^ 52 + (m * 2 ^ (52 - k) - 2 ^ 52)) with (m * 2 ^ (52 - k)) by lia.
          rewrite round_half_even_exact by auto.
          destruct (Z.leb_spec (255 * 2 ^ 23) ((-149 + 149) * 2 ^ 23 + m)) as [X|X].
          { exfalso. clear - X Hm. pows; lia. }
          split; [reflexivity|]. split; [lia|auto].
      - destruct (split_double s (e - 127 + 1023) (m * 2 ^ 29)) as (P1 & P2 & P3 & P4); try lia.
        cbv zeta in *. eexists. unfold double_to_single. rewrite P1, P2, P3.
        destruct (Z.eqb_spec (e - 127 + 1023) 2047); [lia|].
        destruct (Z.eqb_spec (e - 127 + 1023) 0); [lia|].
        replace (Z.max (e - 127 + 1023 - 1075 + 29) (-149)) with (e - 150) by lia.
        replace (e - 150 - (e - 127 + 1023 - 1075)) with 29 by lia.
        replace (2 ^ 52 + m * 2 ^ 29) with ((2 ^ 23 + m) * 2 ^ 29) by (clear; pows; lia).
        rewrite round_half_even_exact by (clear; pows; lia).
        destruct (Z.leb_spec (255 * 2 ^ 23) ((e - 150 + 149) * 2 ^ 23 + (2 ^ 23 + m))) as [X|X].
        { exfalso. clear - X Hm He E255. pows; lia. }
        split; [reflexivity|]. split; [lia|auto]. }
    destruct Fin as (q' & F1 & F2 & F3). split; auto. exists q'. split; auto.
    destruct (Q2 e m) as (R0 & R1 & R2 & R3); auto. cbv zeta in *. rewrite F2. split; auto.
    unfold single_to_double. rewrite R1, R2, R3.
    destruct (Z.eqb_spec e 255); [lia|]. reflexivity.
Qed.

Lemma fsize_bytes_pos s : 0 < fsize_bytes s.
Proof. destruct s; cbn; lia. Qed.

Lemma unpack_bytes h f bits :
  0 <= bits < 256 ^ fsize_bytes (ff_size f) ->
  let le := le_digits (Z.to_nat (fsize_bytes (ff_size f))) bits in
  let b := if is_big h (ff_endian f) then rev le else le in
  zlen b = fsize_bytes (ff_size f) /\ bytes_ok b
  /\ le_value (if is_big h (ff_endian f) then rev b else b) = bits.
Proof.
  intros Hb le b. pose proof (fsize_bytes_pos (ff_size f)).
  assert (V : le_value le = bits).
  { unfold le. rewrite le_value_digits, Z2Nat.id by lia. apply Z.mod_small; auto. }
  unfold b. destruct (is_big h (ff_endian f)).
  - rewrite rev_involutive, zlen_rev. unfold zlen, le. rewrite le_digits_length.
    repeat split; auto; try lia. apply bytes_ok_rev, le_digits_bytes.
  - unfold zlen, le. rewrite le_digits_length.
    repeat split; auto; try lia. apply le_digits_bytes.
Qed.

Lemma float_codec_roundtrip h f p : float_representable f p ->
  exists b, struct_pack_float h f p = Ok b /\ zlen b = fsize_bytes (ff_size f) /\ bytes_ok b
            /\ struct_unpack_float h f b = Ok p.
Proof.
  intros R. unfold struct_pack_float, struct_unpack_float, float_representable in *.
  assert (G : exists bits, match ff_size f with F64 => Ok p | F32 => double_to_single p end = Ok bits
              /\ 0 <= bits < 256 ^ fsize_bytes (ff_size f)
              /\ match ff_size f with F64 => bits | F32 => single_to_double bits end = p).
  { destruct (ff_size f).
    - destruct R as (q & Hq & ->). destruct (double_single q Hq) as (_ & q' & E & B & S).
      exists q'. auto.
    - exists p. auto. }
  destruct G as (bits & E & B & S). rewrite E. cbn [rbind]. eexists. split; [reflexivity|].
  destruct (unpack_bytes h f bits B) as (L & O & V). cbv zeta in *. split; auto. split; auto.
  rewrite L, Z.eqb_refl, V. now rewrite S.
Qed.
