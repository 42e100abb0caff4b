(** Facts about the integer and float codecs. *)
From Verif Require Import Base BaseProofs IntCodec CodecSpec.
From Coq Require Import ZArith List Bool Lia ZifyBool ZifyNat.
Import ListNotations.
Open Scope Z_scope.
Ltac Zify.zify_post_hook ::= Z.div_mod_to_equations.

Lemma le_digits_length n v : length (le_digits n v) = n.
Proof. revert v; induction n; intros; cbn; auto. Qed.

Lemma le_digits_bytes n v : bytes_ok (le_digits n v).
Proof.
  revert v; induction n; intros; cbn; constructor.
  - unfold is_byte; pose proof (Z.mod_pos_bound v 256); lia.
  - apply IHn.
Qed.

Lemma pow256_S n : 256 ^ Z.of_nat (S n) = 256 * 256 ^ Z.of_nat n.
Proof. rewrite Nat2Z.inj_succ, Z.pow_succ_r; lia. Qed.

Lemma le_value_digits n v : le_value (le_digits n v) = v mod 256 ^ Z.of_nat n.
Proof.
  revert v; induction n; intros; cbn [le_digits le_value].
  - change (256 ^ Z.of_nat 0) with 1. now rewrite Z.mod_1_r.
  - rewrite IHn, pow256_S. symmetry. apply Z.rem_mul_r; lia.
Qed.

Lemma le_value_bounds l : bytes_ok l -> 0 <= le_value l < 256 ^ zlen l.
Proof.
  unfold zlen. induction 1 as [|b r Hb Hr IH].
  - cbn. lia.
  - cbn [le_value length]. rewrite pow256_S. unfold is_byte in Hb. nia.
Qed.

Lemma le_digits_value l : bytes_ok l -> le_digits (length l) (le_value l) = l.
Proof.
  induction 1 as [|b r Hb Hr IH]; cbn [le_digits length le_value]; auto.
  unfold is_byte in Hb. f_equal.
  - lia.
  - replace ((b + 256 * le_value r) / 256) with (le_value r); auto. lia.
Qed.

Lemma nth_le_digits n v i :
  (i < n)%nat -> nth i (le_digits n v) 0 = (v / 256 ^ Z.of_nat i) mod 256.
Proof.
  revert v i; induction n; intros v i Hi; [lia|].
  destruct i; cbn [le_digits nth].
  - change (256 ^ Z.of_nat 0) with 1. now rewrite Z.div_1_r.
  - rewrite IHn by lia. rewrite pow256_S. f_equal.
    rewrite Z.div_div; try lia.
Qed.

Lemma le_digits_cong n : forall u w,
  u mod 256 ^ Z.of_nat n = w mod 256 ^ Z.of_nat n -> le_digits n u = le_digits n w.
Proof.
  induction n; intros u w M; cbn [le_digits]; auto.
  rewrite pow256_S in M.
  rewrite !Z.rem_mul_r in M by lia.
  pose proof (Z.mod_pos_bound u 256). pose proof (Z.mod_pos_bound w 256).
  set (x := (u / 256) mod 256 ^ Z.of_nat n) in *.
  set (y := (w / 256) mod 256 ^ Z.of_nat n) in *.
  set (a := u mod 256) in *. set (b := w mod 256) in *.
  assert (a = b /\ x = y) as [-> E] by lia.
  f_equal. now apply IHn.
Qed.

Lemma isize_bytes_pos s : 0 < isize_bytes s.
Proof. destruct s; cbn; lia. Qed.

Lemma pow256_isize s : 256 ^ isize_bytes s = 2 ^ (8 * isize_bytes s).
Proof. destruct s; reflexivity. Qed.

Definition in_int_range (f : intfmt) (v : Z) : Prop :=
  int_min (f_signed f) (isize_bytes (f_size f)) <= v <= int_max (f_signed f) (isize_bytes (f_size f)).

Lemma struct_pack_int_ok h f v :
  in_int_range f v ->
  exists b, struct_pack_int h f v = Ok b /\ zlen b = isize_bytes (f_size f) /\ bytes_ok b
            /\ (if is_big h (f_endian f) then rev b else b)
               = le_digits (Z.to_nat (isize_bytes (f_size f))) v.
Proof.
  intros [H1 H2]. unfold struct_pack_int.
  destruct (Z.leb_spec (int_min (f_signed f) (isize_bytes (f_size f))) v); [|lia].
  destruct (Z.leb_spec v (int_max (f_signed f) (isize_bytes (f_size f)))); [|lia].
  cbn [andb]. eexists. split; [reflexivity|].
  pose proof (isize_bytes_pos (f_size f)).
  destruct (is_big h (f_endian f)).
  - unfold zlen. rewrite rev_length, le_digits_length, rev_involutive.
    repeat split; auto; try lia. apply bytes_ok_rev, le_digits_bytes.
  - unfold zlen. rewrite le_digits_length. repeat split; auto; try lia. apply le_digits_bytes.
Qed.

Lemma struct_pack_int_err h f v :
  ~ in_int_range f v -> struct_pack_int h f v = Err StructError.
Proof.
  intros H. unfold struct_pack_int, in_int_range in *.
  destruct (Z.leb_spec (int_min (f_signed f) (isize_bytes (f_size f))) v);
  destruct (Z.leb_spec v (int_max (f_signed f) (isize_bytes (f_size f)))); cbn [andb]; auto; lia.
Qed.

Lemma struct_pack_int_inv h f v b :
  struct_pack_int h f v = Ok b -> in_int_range f v.
Proof.
  unfold struct_pack_int, in_int_range.
  destruct (Z.leb_spec (int_min (f_signed f) (isize_bytes (f_size f))) v);
  destruct (Z.leb_spec v (int_max (f_signed f) (isize_bytes (f_size f)))); cbn [andb];
  intros; try discriminate; lia.
Qed.

Lemma struct_unpack_pack_int h f v b :
  struct_pack_int h f v = Ok b -> struct_unpack_int h f b = Ok v.
Proof.
  intros H. pose proof (struct_pack_int_inv _ _ _ _ H) as R.
  destruct (struct_pack_int_ok h f v R) as (b' & E & L & B & D).
  rewrite H in E; injection E as <-. clear H.
  unfold struct_unpack_int. rewrite L, Z.eqb_refl, D, le_value_digits.
  pose proof (isize_bytes_pos (f_size f)) as P.
  rewrite Z2Nat.id by lia. rewrite pow256_isize.
  unfold in_int_range in R. f_equal.
  destruct (f_signed f); cbn [int_min int_max andb] in *.
  - assert (E : 2 ^ (8 * isize_bytes (f_size f)) = 2 * 2 ^ (8 * isize_bytes (f_size f) - 1)).
    { rewrite <- Z.pow_succ_r by lia. f_equal. lia. }
    rewrite E. set (P2 := 2 ^ (8 * isize_bytes (f_size f) - 1)) in *.
    assert (0 < P2) by (apply Z.pow_pos_nonneg; lia).
    destruct (Z_lt_le_dec v 0).
    + replace (v mod (2 * P2)) with (v + 2 * P2).
      2:{ rewrite <- (Z.mod_small (v + 2 * P2) (2 * P2)) by lia.
          replace (v + 2 * P2) with (v + 1 * (2 * P2)) by lia. rewrite Z.mod_add; lia. }
      destruct (Z.leb_spec P2 (v + 2 * P2)); lia.
    + rewrite Z.mod_small by lia. destruct (Z.leb_spec P2 v); lia.
  - apply Z.mod_small; lia.
Qed.

Lemma struct_unpack_int_ok h f b :
  zlen b = isize_bytes (f_size f) -> bytes_ok b ->
  exists v, struct_unpack_int h f b = Ok v /\ in_int_range f v /\ struct_pack_int h f v = Ok b.
Proof.
  intros L B. unfold struct_unpack_int. rewrite L, Z.eqb_refl.
  eexists; split; [reflexivity|].
  set (b' := if is_big h (f_endian f) then rev b else b).
  assert (Lb : zlen b' = isize_bytes (f_size f)).
  { unfold b'. destruct (is_big h (f_endian f)); auto. unfold zlen in *. now rewrite rev_length. }
  assert (Bb : bytes_ok b').
  { unfold b'. destruct (is_big h (f_endian f)); auto. now apply bytes_ok_rev. }
  pose proof (le_value_bounds b' Bb) as Bd. rewrite Lb, pow256_isize in Bd.
  pose proof (isize_bytes_pos (f_size f)) as P.
  assert (E : 2 ^ (8 * isize_bytes (f_size f)) = 2 * 2 ^ (8 * isize_bytes (f_size f) - 1)).
  { rewrite <- Z.pow_succ_r by lia. f_equal. lia. }
  assert (Pp : 0 < 2 ^ (8 * isize_bytes (f_size f) - 1)) by (apply Z.pow_pos_nonneg; lia).
  set (v := if f_signed f && (2 ^ (8 * isize_bytes (f_size f) - 1) <=? le_value b')
            then le_value b' - 2 ^ (8 * isize_bytes (f_size f)) else le_value b').
  assert (R : in_int_range f v).
  { unfold in_int_range, v. destruct (f_signed f); cbn [andb int_min int_max].
    - destruct (Z.leb_spec (2 ^ (8 * isize_bytes (f_size f) - 1)) (le_value b')); lia.
    - lia. }
  split; auto.
  destruct (struct_pack_int_ok h f v R) as (c & Hc & Lc & Bc & Dc). rewrite Hc. f_equal.
  assert (D : le_digits (Z.to_nat (isize_bytes (f_size f))) v = b').
  { rewrite <- (le_digits_value b' Bb).
    assert (length b' = Z.to_nat (isize_bytes (f_size f))) as -> by (unfold zlen in Lb; lia).
    set (n := Z.to_nat (isize_bytes (f_size f))).
    assert (M : v mod 256 ^ Z.of_nat n = le_value b' mod 256 ^ Z.of_nat n).
    { unfold n. rewrite Z2Nat.id by lia. rewrite pow256_isize. unfold v.
      destruct (f_signed f && _); auto.
      rewrite <- (Z.mod_add (le_value b' - _) 1) by lia. f_equal. lia. }
    now apply le_digits_cong. }
  rewrite D in Dc. unfold b' in Dc.
  destruct (is_big h (f_endian f)); auto.
  now rewrite <- (rev_involutive c), Dc, rev_involutive.
Qed.

Lemma int_representable_range f z : int_representable f z <-> in_int_range f z.
Proof.
  unfold int_representable, in_int_range, int_min, int_max.
  destruct (f_signed f); lia.
Qed.
