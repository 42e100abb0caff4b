(** Integers written to float fields: lemmas about writing. *)
From Verif Require Import Base BaseProofs IntCodec CodecSpec IntCodecProofs Stream Marshal FloatProofs FloatSpec FloatRound
  Formats FormatSpec FormatFacts NumericFacts IntFloat.
From Coq Require Import ZArith List Bool String Lia ZifyBool ZifyNat.
Import ListNotations.
Open Scope Z_scope.

Lemma int_as_float z :
  (2 ^ 1024 - 2 ^ 970 <= Z.abs z /\ double_of_int z = Err OverflowError)
  \/ exists p, Z.abs z < 2 ^ 1024 - 2 ^ 970 /\ double_of_int z = Ok p /\ finite p /\ p / 2 ^ 63 = (if z <? 0 then 1 else 0)
     /\ forall x, finite x ->
        Z.abs (float_value p - z * float_one) <= Z.abs (float_value x - z * float_one)
        /\ (Z.abs (float_value p - z * float_one) = Z.abs (float_value x - z * float_one) -> float_value x <> float_value p -> Z.even p = true).
Proof.
  destruct (Z.eq_dec z 0) as [->|N].
  - right. exists 0. split; [reflexivity|]. split; [reflexivity|]. split; [split; [lia|discriminate]|]. split; [reflexivity|]. intros x _. change (float_value 0) with 0. rewrite Z.mul_0_l. lia.
  - pose proof (of_overflow z N) as Ov. destruct (double_of_int z) as [p|e] eqn:E.
    + right. exists p. split; [apply Z.nle_gt; intros H; apply Ov in H; discriminate|]. split; [reflexivity|]. destruct (of_pattern z N p E) as (A & B & _).
      split; [exact A|]. split; [exact B|]. intros x Fx. now apply (of_nearest z N).
    + left. assert (e = OverflowError) as ->. { rewrite (of_eq z N) in E. destruct (_ <=? _); congruence. } split; [now apply Ov|reflexivity].
Qed.
Lemma write_int h f z :
  (2 ^ 1024 - 2 ^ 970 <= Z.abs z /\ forall out, write h (MFloat f) (VInt z) out = (Err InstructError, out))
  \/ exists p, Z.abs z < 2 ^ 1024 - 2 ^ 970 /\ finite p /\ p / 2 ^ 63 = (if z <? 0 then 1 else 0)
     /\ (forall x, finite x ->
        Z.abs (float_value p - z * float_one) <= Z.abs (float_value x - z * float_one)
        /\ (Z.abs (float_value p - z * float_one) = Z.abs (float_value x - z * float_one) -> float_value x <> float_value p -> Z.even p = true))
     /\ forall out, write h (MFloat f) (VInt z) out = write h (MFloat f) (VFloat p) out.
Proof.
  destruct (int_as_float z) as [[A B]|(p & A & B & C & D & E)].
  - left. split; [exact A|]. intros out. cbn [write]. now rewrite B.
  - right. exists p. split; [exact A|]. split; [exact C|]. split; [exact D|]. split; [exact E|]. intros out. cbn [write]. now rewrite B.
Qed.

(** Small integers are exact. *)
Lemma small_single z : Z.abs z <= 2 ^ 24 -> exists q, 0 <= q < 2 ^ 32 /\ finite (single_to_double q) /\ float_value (single_to_double q) = z * float_one.
Proof.
  intros B. destruct (Z.eq_dec z 0) as [->|N]; [exists 0; split; [lia|]; split; [split; [vm_compute; split; congruence|discriminate]|reflexivity]|].
  destruct (of_log z N) as [E L]. set (m := Z.abs z) in *. set (e := Z.log2 m) in *. set (s := if z <? 0 then 1 else 0).
  assert (Hs : 0 <= s <= 1) by (unfold s; destruct (z <? 0); lia). assert (Zz : z = sign_of s * m) by (unfold s, sign_of, m; destruct (Z.ltb_spec z 0); cbn [Z.eqb]; lia).
  assert (Hx : exists k M, 0 <= k < 253 /\ 2 ^ 23 <= M <= 2 ^ 24 /\ M * 2 ^ (k + 925) = m * 2 ^ 1074).
  { destruct (Z.eq_dec m (2 ^ 24)) as [Em|Nm]; [exists 149, (2 ^ 24); rewrite Em; split; [lia|]; split; [lia|reflexivity]|].
    assert (He : e <= 23). { assert (e < 24); [|lia]. apply Z.log2_lt_pow2; lia. }
    exists (e + 126), (m * 2 ^ (23 - e)). split; [lia|]. assert (P : 2 ^ e * 2 ^ (23 - e) = 2 ^ 23) by (rewrite <- Z.pow_add_r by lia; f_equal; lia). assert (0 < 2 ^ (23 - e)) by (apply Z.pow_pos_nonneg; lia).
    split; [change (2 ^ 24) with (2 * 2 ^ 23); nia|]. rewrite <- Z.mul_assoc, <- Z.pow_add_r by lia. do 2 f_equal. lia. }
  destruct Hx as (k & M & Hk & HM & V). exists (s * 2 ^ 31 + (k * 2 ^ 23 + M)).
  assert (R : 0 <= k * 2 ^ 23 + M < 255 * 2 ^ 23) by (clear - Hk HM; pows; lia).
  destruct (widen_value s (k * 2 ^ 23 + M) Hs R) as (W1 & _ & W2). cbv zeta in *.
  split; [clear - Hs R; pows; lia|]. split; [exact W1|]. rewrite W2, single_mag_of by lia. rewrite V. rewrite Zz. unfold float_one. rewrite Z.mul_assoc. reflexivity.
Qed.
Lemma small_double z : Z.abs z <= 2 ^ 53 -> exists x, finite x /\ float_value x = z * float_one.
Proof.
  intros B. destruct (Z.eq_dec z 0) as [->|N]; [exists 0; split; [split; [lia|discriminate]|reflexivity]|].
  destruct (Z.eq_dec (Z.abs z) (2 ^ 53)) as [A|A].
  - assert (z = 2 ^ 53 \/ z = - 2 ^ 53) as [-> | ->] by lia; [exists 0x4340000000000000|exists 0xC340000000000000]; (split; [split; [lia|discriminate]|reflexivity]).
  - destruct (of_log z N) as [E L]. assert (He : Z.log2 (Z.abs z) <= 52). { assert (Z.log2 (Z.abs z) < 53); [|lia]. apply Z.log2_lt_pow2; lia. }
    pose proof (of_overflow z N) as Ov. destruct (double_of_int z) as [p|e] eqn:D.
    + destruct (of_pattern z N p D) as (F & _ & V & _). exists p. split; [exact F|]. rewrite V. destruct (Z.leb_spec (Z.log2 (Z.abs z)) 52); [|lia].
      rewrite <- Z.mul_assoc, <- Z.pow_add_r by lia. replace (52 - Z.log2 (Z.abs z) + (Z.log2 (Z.abs z) + 1022)) with 1074 by lia. unfold float_one. rewrite Z.mul_assoc. f_equal. lia.
    + exfalso. assert (e = OverflowError) as ->. { rewrite (of_eq z N) in D. destruct (_ <=? _); congruence. }
      assert (X : 2 ^ 1024 - 2 ^ 970 <= Z.abs z) by now apply Ov. clear - B X. assert (2 ^ 53 < 2 ^ 1024 - 2 ^ 970) by reflexivity. lia.
Qed.
Lemma int_exact h f z : Z.abs z <= 2 ^ (match ff_size f with F32 => 24 | F64 => 53 end) ->
  exists b p, zlen b = fsize_bytes (ff_size f) /\ (forall out, write h (MFloat f) (VInt z) out = (Ok tt, out ++ b))
    /\ (forall c pre tail, read h (MFloat f) c (SBytesIO (pre ++ b ++ tail) (zlen pre)) = (Ok (VFloat p), SBytesIO (pre ++ b ++ tail) (zlen pre + fsize_bytes (ff_size f))))
    /\ finite p /\ float_value p = z * float_one.
Proof.
  intros B. assert (B53 : Z.abs z <= 2 ^ 53) by (destruct (ff_size f); [assert (2 ^ 24 <= 2 ^ 53) by (apply Z.pow_le_mono_r; lia)|]; lia).
  destruct (write_int h f z) as [[X _]|(p & _ & F & _ & Nr & W)].
  { exfalso. clear - B53 X. assert (2 ^ 53 < 2 ^ 1024 - 2 ^ 970) by reflexivity. lia. }
  destruct (small_double z B53) as (x & Fx & Vx). destruct (Nr x Fx) as [Nx _]. rewrite Vx, Z.sub_diag in Nx. assert (Vp : float_value p = z * float_one) by lia. clear x Fx Vx Nx.
  destruct (ff_size f) eqn:Es.
  - destruct (store32 h f p Es F) as [[X _]|(b & p' & Lb & Wb & Rb & _ & F' & _ & Np)].
    + exfalso. rewrite Vp in X. rewrite Z.abs_mul in X. change (Z.abs float_one) with float_one in X. assert (O : 0 < float_one) by reflexivity. clear - X B O. revert X O. generalize float_one. intros u X O.
      assert (2 ^ 24 < 2 ^ 128 - 2 ^ 103) by reflexivity. nia.
    + exists b, p'. split; [exact Lb|]. split; [intros out; rewrite W; apply Wb|]. split; [exact Rb|]. split; [exact F'|].
      destruct (small_single z B) as (q & Bq & Fq & Vq). destruct (Np (single_to_double q)) as [Nq _]; [unfold float_representable; rewrite Es; exists q; auto|exact Fq|]. rewrite Vq, Vp, Z.sub_diag in Nq. lia.
  - destruct (float_roundtrip h f p) as (b & Lb & Wb & Rb); [unfold float_representable; rewrite Es; apply F|].
    exists b, p. rewrite Es in *. split; [exact Lb|]. split; [intros out; rewrite W; apply Wb|]. split; [change (fsize_bytes F64) with 8; rewrite <- Lb; exact Rb|]. split; [exact F|exact Vp].
Qed.

From Verif Require Import Range IoBuffer Serialize.
Lemma pack_float_int h e size z : size = None \/ size = Some 32 \/ size = Some 64 ->
  (2 ^ 1024 - 2 ^ 970 <= Z.abs z /\ pack_float h e size (VInt z) = Err StructError)
  \/ exists p, Z.abs z < 2 ^ 1024 - 2 ^ 970 /\ finite p /\ p / 2 ^ 63 = (if z <? 0 then 1 else 0)
     /\ (forall x, finite x ->
        Z.abs (float_value p - z * float_one) <= Z.abs (float_value x - z * float_one)
        /\ (Z.abs (float_value p - z * float_one) = Z.abs (float_value x - z * float_one) -> float_value x <> float_value p -> Z.even p = true))
     /\ pack_float h e size (VInt z) = pack_float h e size (VFloat p).
Proof.
  intros Hs. destruct (int_as_float z) as [[A B]|(p & A & B & C & D & E)].
  - left. split; [exact A|]. unfold pack_float. rewrite B. destruct Hs as [-> | [-> | ->]]; reflexivity.
  - right. exists p. split; [exact A|]. split; [exact C|]. split; [exact D|]. split; [exact E|]. unfold pack_float. now rewrite B.
Qed.
