(** Lemmas about the bit stream model. *)
From Verif Require Import Base BaseProofs BitStringIO.
From Coq Require Import ZArith List Bool Lia ZifyBool ZifyNat.
Import ListNotations.
Open Scope Z_scope.
Ltac Zify.zify_post_hook ::= Z.div_mod_to_equations.

Definition bs_ok (s : bsio) : Prop :=
  bytes_ok (bs_val s) /\ 0 <= bs_pos s <= 8 * zlen (bs_val s).

Lemma bs_or_byte_spec s byte_i x :
  bytes_ok (bs_val s) -> 0 <= byte_i < zlen (bs_val s) -> is_byte x ->
  exists v, bs_or_byte byte_i x s = (Ok tt, mkBsio (bs_pos s) v)
    /\ bytes_ok v /\ zlen v = zlen (bs_val s)
    /\ forall i, 0 <= i ->
         bit_at v i = (bit_at (bs_val s) i || ((i / 8 =? byte_i) && Z.testbit x (i mod 8))).
Proof.
  intros Hb Hi Hx. unfold bs_or_byte, sbind, sget, slift, sput.
  rewrite (py_nth_ok _ _ 0) by assumption.
  set (b := nth (Z.to_nat byte_i) (bs_val s) 0).
  assert (Hbb : is_byte b) by (apply bytes_ok_nth; assumption).
  assert (Hl : is_byte (Z.lor b x)).
  { apply is_byte_bits.
    - apply Z.lor_nonneg. unfold is_byte in *. lia.
    - intros i Hi8. rewrite Z.lor_spec, !testbit_high by assumption. reflexivity. }
  rewrite ba_set_ok by assumption. eexists. split; [reflexivity|].
  split; [apply Forall_list_upd; assumption|].
  split; [apply zlen_list_upd|].
  intros i Hi0. unfold zlen in Hi. rewrite bit_at_list_upd by lia.
  rewrite Z2Nat.id by lia.
  destruct (Z.eqb_spec (i / 8) byte_i) as [E|E]; cbn [andb].
  - rewrite Z.lor_spec, bit_at_nonneg by assumption. rewrite E. reflexivity.
  - now rewrite orb_false_r.
Qed.

Lemma bs_write_loop_spec value btw : forall (m : nat) n s byte_i,
  Z.to_nat (btw - n) = m ->
  bytes_ok (bs_val s) -> 0 <= n -> 0 <= byte_i ->
  (n < btw -> 8 * byte_i + (btw - n) <= 8 * zlen (bs_val s)) ->
  exists v, bs_write_loop (py_range3 n btw 8) byte_i value btw s
            = (Ok tt, mkBsio (bs_pos s) v)
    /\ bytes_ok v /\ zlen v = zlen (bs_val s)
    /\ forall i, 0 <= i ->
         bit_at v i = (bit_at (bs_val s) i
                       || ((8 * byte_i <=? i) && (i <? 8 * byte_i + (btw - n))
                           && Z.testbit value (i - 8 * byte_i + n))).
Proof.
  intros m. induction m as [m IH] using lt_wf_ind.
  intros n s byte_i Hm Hb Hn Hbi Hfit.
  destruct (Z_lt_ge_dec n btw) as [Hlt|Hge].
  - rewrite py_range3_cons by lia. cbn [bs_write_loop].
    set (c := Z.min 8 (btw - n)).
    assert (Hc : 0 <= c <= 8) by lia.
    unfold py_shl1. replace (c <? 0) with false by lia.
    unfold slift, sbind at 1.
    set (x := Z.land (Z.shiftr value n) (Z.shiftl 1 c - 1)).
    assert (Hxb : forall i, 0 <= i -> Z.testbit x i = ((i <? c) && Z.testbit value (i + n))).
    { intros i Hi. unfold x. rewrite Z.land_spec, testbit_mask, Z.shiftr_spec by lia.
      rewrite andb_comm. reflexivity. }
    assert (Hx : is_byte x).
    { apply is_byte_bits; [apply land_mask_nonneg; lia|].
      intros i Hi. rewrite Hxb by lia. now replace (i <? c) with false by lia. }
    destruct (bs_or_byte_spec s byte_i x) as (v1 & E1 & Hv1 & HL1 & HB1);
      [assumption|lia|assumption|].
    rewrite (sbind_ok _ _ _ _ _ E1).
    destruct (IH (Z.to_nat (btw - (n + 8)))) with (n := n + 8) (s := mkBsio (bs_pos s) v1) (byte_i := byte_i + 1)
      as (v2 & E2 & Hv2 & HL2 & HB2); cbn [bs_val bs_pos] in *; try lia; try assumption.
    exists v2. split; [exact E2|]. split; [assumption|]. split; [lia|].
    intros i Hi. rewrite HB2, HB1 by assumption.
    rewrite <- orb_assoc. f_equal.
    destruct (Z.eqb_spec (i / 8) byte_i) as [E|E]; cbn [andb].
    + rewrite Hxb by lia.
      replace (8 * (byte_i + 1) <=? i) with false by lia. cbn [andb].
      replace (8 * byte_i <=? i) with true by lia. cbn [andb]. rewrite orb_false_r.
      replace (i mod 8 + n) with (i - 8 * byte_i + n) by lia. f_equal. lia.
    + cbn [orb]. replace (i - 8 * (byte_i + 1) + (n + 8)) with (i - 8 * byte_i + n) by lia.
      f_equal. lia.
  - rewrite py_range3_nil by lia. exists (bs_val s). destruct s as [p0 v0]; cbn [bs_val bs_pos bs_write_loop].
    repeat split; auto.
    intros i Hi. replace ((8 * byte_i <=? i) && (i <? 8 * byte_i + (btw - n))) with false by lia.
    cbn [andb]. now rewrite orb_false_r.
Qed.

Lemma bs_write_ok s value n :
  bs_ok s -> 0 <= n -> bs_pos s + n <= 8 * zlen (bs_val s) ->
  exists v, bs_write value n s = (Ok tt, mkBsio (bs_pos s + n) v)
    /\ bytes_ok v /\ zlen v = zlen (bs_val s)
    /\ forall i, 0 <= i ->
         bit_at v i = (bit_at (bs_val s) i
                       || ((bs_pos s <=? i) && (i <? bs_pos s + n)
                           && Z.testbit value (i - bs_pos s))).
Proof.
  intros (Hb & Hp) Hn Hfit. unfold bs_write.
  unfold sget at 1. unfold sbind at 1.
  replace (n + bs_pos s >? zlen (bs_val s) * 8) with false by lia.
  set (byte_i := bs_pos s / 8). set (bit_i := bs_pos s mod 8).
  destruct (negb (bit_i =? 0)) eqn:Eb.
  - set (c := Z.min (8 - bit_i) n).
    assert (Hc : 0 <= c <= 8 - bit_i) by lia.
    unfold py_shl1. replace (c <? 0) with false by lia.
    set (x := Z.shiftl (Z.land value (Z.shiftl 1 c - 1)) bit_i).
    assert (Hxb : forall i, 0 <= i -> Z.testbit x i = ((bit_i <=? i) && (i <? bit_i + c) && Z.testbit value (i - bit_i))).
    { intros i Hi. unfold x. rewrite Z.shiftl_spec by lia.
      destruct (Z_lt_ge_dec i bit_i) as [Hl|Hl].
      - rewrite Z.testbit_neg_r by lia. replace (bit_i <=? i) with false by lia. reflexivity.
      - rewrite Z.land_spec, testbit_mask by lia. rewrite andb_comm. f_equal. lia. }
    assert (Hx : is_byte x).
    { apply is_byte_bits.
      - unfold x. apply Z.shiftl_nonneg, land_mask_nonneg; lia.
      - intros i Hi. rewrite Hxb by lia. replace (i <? bit_i + c) with false by lia.
        rewrite andb_false_r. reflexivity. }
    assert (Hbi : 0 <= byte_i < zlen (bs_val s)) by lia.
    destruct (bs_or_byte_spec s byte_i x Hb Hbi Hx) as (v1 & E1 & Hv1 & HL1 & HB1).
    destruct (bs_write_loop_spec value n _ c (mkBsio (bs_pos s) v1) (byte_i + 1) eq_refl)
      as (v2 & E2 & Hv2 & HL2 & HB2); cbn [bs_val bs_pos] in *; try lia; try assumption.
    exists v2. split.
    + unfold sbind, slift. cbv beta iota. fold x. rewrite E1, E2. reflexivity.
    + split; [assumption|]. split; [lia|].
      intros i Hi. rewrite HB2, HB1 by assumption. rewrite <- orb_assoc. f_equal.
      destruct (Z.eqb_spec (i / 8) byte_i) as [E|E]; cbn [andb].
      * rewrite Hxb by lia. replace (8 * (byte_i + 1) <=? i) with false by lia.
        cbn [andb]. rewrite orb_false_r.
        replace (i mod 8 - bit_i) with (i - bs_pos s) by lia. f_equal. lia.
      * cbn [orb].
        destruct (Z_lt_ge_dec i (8 * (byte_i + 1))).
        -- replace (8 * (byte_i + 1) <=? i) with false by lia.
           replace (bs_pos s <=? i) with false by lia. reflexivity.
        -- replace (8 * (byte_i + 1) <=? i) with true by lia.
           replace (bs_pos s <=? i) with true by lia. cbn [andb].
           destruct (Z_lt_ge_dec n (8 - bit_i)).
           ++ replace (i <? 8 * (byte_i + 1) + (n - c)) with false by lia.
              replace (i <? bs_pos s + n) with false by lia. reflexivity.
           ++ replace (i - 8 * (byte_i + 1) + c) with (i - bs_pos s) by lia. f_equal. lia.
  - destruct (bs_write_loop_spec value n _ 0 s byte_i eq_refl)
      as (v2 & E2 & Hv2 & HL2 & HB2); try lia; try assumption.
    exists v2. split.
    + unfold sbind, slift. rewrite E2. reflexivity.
    + split; [assumption|]. split; [lia|]. intros i Hi. rewrite HB2 by assumption. f_equal.
      replace (i - 8 * byte_i + 0) with (i - bs_pos s) by lia. f_equal. lia.
Qed.

Lemma bs_write_past_end s value n :
  8 * zlen (bs_val s) < bs_pos s + n -> bs_write value n s = (Err IOError, s).
Proof.
  intros H. unfold bs_write, sbind, sget.
  now replace (n + bs_pos s >? zlen (bs_val s) * 8) with true by lia.
Qed.

Lemma bs_read_loop_spec val btr : forall (m : nat) n byte_i result,
  Z.to_nat (btr - n) = m ->
  bytes_ok val -> 0 <= n -> 0 <= byte_i -> 0 <= result ->
  (n < btr -> 8 * byte_i + (btr - n) <= 8 * zlen val) ->
  exists r, bs_read_loop val (py_range3 n btr 8) byte_i btr result = Ok r
    /\ 0 <= r
    /\ forall i, 0 <= i ->
         Z.testbit r i = (Z.testbit result i || ((n <=? i) && (i <? btr) && bit_at val (8 * byte_i + (i - n)))).
Proof.
  intros m. induction m as [m IH] using lt_wf_ind.
  intros n byte_i result Hm Hb Hn Hbi Hr Hfit.
  destruct (Z_lt_ge_dec n btr) as [Hlt|Hge].
  - rewrite py_range3_cons by lia. cbn [bs_read_loop].
    set (c := Z.min 8 (btr - n)).
    assert (Hc : 0 <= c <= 8) by lia.
    unfold py_shl1. replace (c <? 0) with false by lia. cbn [rbind].
    rewrite (py_nth_ok _ _ 0) by lia. cbn [rbind].
    set (b := nth (Z.to_nat byte_i) val 0).
    destruct (IH (Z.to_nat (btr - (n + 8)))) with (n := n + 8) (byte_i := byte_i + 1)
        (result := Z.lor result (Z.shiftl (Z.land b (Z.shiftl 1 c - 1)) n))
      as (r & E & Hr0 & HB); try lia; try assumption.
    { apply Z.lor_nonneg. split; [assumption|]. apply Z.shiftl_nonneg, land_mask_nonneg; lia. }
    exists r. split; [exact E|]. split; [assumption|].
    intros i Hi. rewrite HB by assumption. rewrite Z.lor_spec, <- orb_assoc. f_equal.
    rewrite Z.shiftl_spec by lia.
    destruct (Z_lt_ge_dec i n).
    + rewrite Z.testbit_neg_r by lia.
      replace (n + 8 <=? i) with false by lia. replace (n <=? i) with false by lia. reflexivity.
    + rewrite Z.land_spec, testbit_mask by lia.
      replace (n <=? i) with true by lia. cbn [andb].
      destruct (Z_lt_ge_dec i (n + 8)).
      * replace (n + 8 <=? i) with false by lia. cbn [andb]. rewrite orb_false_r.
        rewrite bit_at_nonneg by lia.
        replace ((8 * byte_i + (i - n)) / 8) with byte_i by lia.
        replace ((8 * byte_i + (i - n)) mod 8) with (i - n) by lia.
        fold b. rewrite andb_comm. f_equal. lia.
      * replace (i - n <? c) with false by lia. rewrite andb_false_r. cbn [orb].
        replace (n + 8 <=? i) with true by lia. cbn [andb]. f_equal. f_equal. lia.
  - rewrite py_range3_nil by lia. exists result. cbn. split; [reflexivity|]. split; [assumption|].
    intros i Hi. replace ((n <=? i) && (i <? btr)) with false by lia. cbn [andb]. now rewrite orb_false_r.
Qed.

Lemma bs_read_ok s n :
  bs_ok s -> 0 <= n -> bs_pos s + n <= 8 * zlen (bs_val s) ->
  exists r, bs_read n s = (Ok r, mkBsio (bs_pos s + n) (bs_val s))
    /\ 0 <= r < 2 ^ n
    /\ forall i, 0 <= i -> Z.testbit r i = ((i <? n) && bit_at (bs_val s) (bs_pos s + i)).
Proof.
  intros (Hb & Hp) Hn Hfit.
  assert (H : exists r, bs_read n s = (Ok r, mkBsio (bs_pos s + n) (bs_val s)) /\ 0 <= r
    /\ forall i, 0 <= i -> Z.testbit r i = ((i <? n) && bit_at (bs_val s) (bs_pos s + i))).
  { unfold bs_read. unfold sget at 1. unfold sbind at 1.
    replace (zlen (bs_val s) * 8 <? n + bs_pos s) with false by lia.
    set (byte_i := bs_pos s / 8). set (bit_i := bs_pos s mod 8).
    destruct (negb (bit_i =? 0)) eqn:Eb.
    - set (c := Z.min (8 - bit_i) n).
      assert (Hc : 0 <= c <= 8 - bit_i) by lia.
      unfold py_shl1. replace (c <? 0) with false by lia. cbn [rbind].
      rewrite (py_nth_ok _ _ 0) by lia. cbn [rbind].
      set (b := nth (Z.to_nat byte_i) (bs_val s) 0).
      set (x := Z.land (Z.shiftr b bit_i) (Z.shiftl 1 c - 1)).
      destruct (bs_read_loop_spec (bs_val s) n _ c (byte_i + 1) x eq_refl)
        as (r & E & Hr0 & HB); try lia; try assumption.
      { apply land_mask_nonneg; lia. }
      exists r. split; [|split; [assumption|]].
      { unfold sbind, slift, sput, sret. rewrite E. reflexivity. }
      intros i Hi. rewrite HB by assumption. unfold x.
      rewrite Z.land_spec, testbit_mask, Z.shiftr_spec by lia.
      rewrite (bit_at_nonneg _ (bs_pos s + i)) by lia.
      destruct (Z_lt_ge_dec i (8 - bit_i)).
      + replace (c <=? i) with (negb (i <? n)) by lia.
        replace ((bs_pos s + i) / 8) with byte_i by lia.
        replace ((bs_pos s + i) mod 8) with (i + bit_i) by lia. fold b.
        replace (negb (i <? n) && (i <? n)) with false by lia. cbn [andb]. rewrite orb_false_r.
        rewrite andb_comm. f_equal. lia.
      + replace (i <? c) with false by lia. rewrite andb_false_r. cbn [orb].
        replace (c <=? i) with true by lia. cbn [andb].
        destruct (i <? n) eqn:E1; [|reflexivity]. cbn [andb].
        rewrite bit_at_nonneg by lia. f_equal; [f_equal; f_equal; lia|lia].
    - destruct (bs_read_loop_spec (bs_val s) n _ 0 byte_i 0 eq_refl)
        as (r & E & Hr0 & HB); try lia; try assumption.
      exists r. split; [|split; [assumption|]].
      { unfold sbind, slift, sput, sret. rewrite E. reflexivity. }
      intros i Hi. rewrite HB by assumption. rewrite Z.testbit_0_l. cbn [orb].
      replace (0 <=? i) with true by lia. cbn [andb]. f_equal. f_equal. lia. }
  destruct H as (r & E & Hr & HB). exists r. split; [exact E|]. split; [|exact HB].
  split; [exact Hr|]. apply lt_pow2_bits; [lia|lia|].
  intros i Hi. rewrite HB by lia. now replace (i <? n) with false by lia.
Qed.

Lemma bs_read_past_end s n :
  8 * zlen (bs_val s) < bs_pos s + n -> bs_read n s = (Err IOError, s).
Proof.
  intros H. unfold bs_read, sbind, sget.
  now replace (zlen (bs_val s) * 8 <? n + bs_pos s) with true by lia.
Qed.

Lemma bs_seek_ok s p :
  0 <= p < 8 * zlen (bs_val s) -> bs_seek p s = (Ok tt, mkBsio p (bs_val s)).
Proof.
  intros H. unfold bs_seek, sbind, sget, sput, slift, passert.
  now replace ((0 <=? p) && (p / 8 <? zlen (bs_val s))) with true by lia.
Qed.
Lemma bs_seek_fail s p :
  p < 0 \/ 8 * zlen (bs_val s) <= p -> bs_seek p s = (Err AssertionError, mkBsio p (bs_val s)).
Proof.
  intros H. unfold bs_seek, sbind, sget, sput, slift, passert.
  now replace ((0 <=? p) && (p / 8 <? zlen (bs_val s))) with false by lia.
Qed.
