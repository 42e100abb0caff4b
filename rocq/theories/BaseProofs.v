(** Lemmas about the Python vocabulary of [Base]. *)
From Verif Require Import Base.
From Coq Require Import ZArith List Bool Lia ZifyBool ZifyNat.
Import ListNotations.
Open Scope Z_scope.
Ltac Zify.zify_post_hook ::= Z.div_mod_to_equations.

(** ** lists *)
Lemma zlen_nonneg {A} (l : list A) : 0 <= zlen l.
Proof. unfold zlen; lia. Qed.
Lemma zlen_nil A : zlen (@nil A) = 0.
Proof. reflexivity. Qed.
Lemma zlen_cons {A} (x : A) l : zlen (x :: l) = 1 + zlen l.
Proof. unfold zlen; cbn [length]; lia. Qed.
Lemma zlen_app {A} (l l' : list A) : zlen (l ++ l') = zlen l + zlen l'.
Proof. unfold zlen; rewrite app_length; lia. Qed.
Lemma zlen_map {A B} (f : A -> B) l : zlen (map f l) = zlen l.
Proof. unfold zlen; now rewrite map_length. Qed.
Lemma zlen_repeat {A} (x : A) n : zlen (repeat x n) = Z.of_nat n.
Proof. unfold zlen; now rewrite repeat_length. Qed.
Lemma zlen_rev {A} (l : list A) : zlen (rev l) = zlen l.
Proof. unfold zlen; now rewrite rev_length. Qed.
Lemma zlen_firstn {A} (l : list A) n : zlen (firstn n l) = Z.min (Z.of_nat n) (zlen l).
Proof. unfold zlen; rewrite firstn_length; lia. Qed.
Lemma zlen_skipn {A} (l : list A) n : zlen (skipn n l) = Z.max 0 (zlen l - Z.of_nat n).
Proof. unfold zlen; rewrite skipn_length; lia. Qed.
Lemma zlen_0_nil {A} (l : list A) : zlen l = 0 -> l = [].
Proof. destruct l; [reflexivity|]. rewrite zlen_cons. pose proof (zlen_nonneg l). lia. Qed.

Lemma list_upd_length {A} (l : list A) k a : length (list_upd l k a) = length l.
Proof. revert k; induction l; intros [|k]; cbn; auto. Qed.
Lemma zlen_list_upd {A} (l : list A) k a : zlen (list_upd l k a) = zlen l.
Proof. unfold zlen; now rewrite list_upd_length. Qed.
Lemma nth_list_upd {A} (l : list A) k a d j :
  (k < length l)%nat -> nth j (list_upd l k a) d = if Nat.eqb j k then a else nth j l d.
Proof.
  revert k j; induction l as [|x l IH]; intros k j H; [cbn in H; lia|].
  destruct k, j; cbn; auto. apply IH; cbn in H; lia.
Qed.
Lemma Forall_list_upd {A} (P : A -> Prop) l k a :
  Forall P l -> P a -> Forall P (list_upd l k a).
Proof. intros H; revert k; induction H; intros [|k] Ha; cbn; auto. Qed.

Lemma py_index_ok {A} (l : list A) i :
  0 <= i < zlen l -> py_index l i = Some (Z.to_nat i).
Proof.
  intros H. unfold py_index.
  replace ((0 <=? i) && (i <? zlen l)) with true by lia. reflexivity.
Qed.
Lemma py_nth_ok {A} (l : list A) i d :
  0 <= i < zlen l -> py_nth l i = Ok (nth (Z.to_nat i) l d).
Proof.
  intros H. unfold py_nth. rewrite py_index_ok by assumption.
  rewrite (nth_error_nth' l d); [reflexivity|]. unfold zlen in H; lia.
Qed.
Lemma ba_set_ok l i v :
  0 <= i < zlen l -> is_byte v -> ba_set l i v = Ok (list_upd l (Z.to_nat i) v).
Proof.
  intros H Hv. unfold ba_set. rewrite py_index_ok by assumption.
  unfold is_byte in Hv. replace (is_byteb v) with true by (unfold is_byteb; lia). reflexivity.
Qed.

Lemma py_range3_nil start stop step :
  0 < step -> stop <= start -> py_range3 start stop step = [].
Proof.
  intros H1 H2. unfold py_range3.
  replace (Z.to_nat _) with 0%nat; [reflexivity|].
  assert ((stop - start + (step - 1)) / step < 1) by (apply Z.div_lt_upper_bound; lia).
  lia.
Qed.
Lemma py_range3_cons start stop step :
  0 < step -> start < stop ->
  py_range3 start stop step = start :: py_range3 (start + step) stop step.
Proof.
  intros H1 H2. unfold py_range3.
  assert (E : (stop - start + (step - 1)) / step = 1 + (stop - (start + step) + (step - 1)) / step).
  { replace (stop - start + (step - 1)) with (1 * step + (stop - (start + step) + (step - 1))) by lia.
    rewrite Z.div_add_l by lia. reflexivity. }
  rewrite E.
  assert (0 <= (stop - (start + step) + (step - 1)) / step) by (apply Z.div_pos; lia).
  rewrite Z2Nat.inj_add by lia. change (Z.to_nat 1) with 1%nat. cbn [Nat.add seq map].
  f_equal; [lia|]. rewrite <- seq_shift, map_map. apply map_ext. intros a. lia.
Qed.

Lemma py_range_cons_shift n :
  py_range n = py_range3 0 n 1.
Proof. reflexivity. Qed.
Lemma py_range_length n : length (py_range n) = Z.to_nat n.
Proof.
  unfold py_range, py_range3. rewrite map_length, seq_length.
  replace (n - 0 + (1 - 1)) with n by lia. now rewrite Z.div_1_r.
Qed.

(** ** bytes and bits *)
Lemma testbit_high b i : is_byte b -> 8 <= i -> Z.testbit b i = false.
Proof.
  intros [H1 H2] Hi. destruct (Z.eq_dec b 0) as [->|Hn]; [apply Z.testbit_0_l|].
  apply Z.bits_above_log2; [lia|].
  assert (Z.log2 b < 8) by (apply Z.log2_lt_pow2; [lia|exact H2]). lia.
Qed.

Lemma is_byte_bits b : 0 <= b -> (forall i, 8 <= i -> Z.testbit b i = false) -> is_byte b.
Proof.
  intros H0 H. split; [lia|]. change 256 with (2 ^ 8).
  destruct (Z.eq_dec b 0) as [->|Hn]; [lia|].
  apply Z.log2_lt_pow2; [lia|].
  destruct (Z_lt_ge_dec (Z.log2 b) 8) as [|Hge]; [assumption|].
  assert (Z.testbit b (Z.log2 b) = true) by (apply Z.bit_log2; lia).
  rewrite H in H1; [discriminate|lia].
Qed.

Lemma lt_pow2_bits b n : 0 <= n -> 0 <= b -> (forall i, n <= i -> Z.testbit b i = false) -> b < 2 ^ n.
Proof.
  intros Hn0 H0 H. destruct (Z.eq_dec b 0) as [->|Hn]; [apply Z.pow_pos_nonneg; lia|].
  apply Z.log2_lt_pow2; [lia|].
  destruct (Z_lt_ge_dec (Z.log2 b) n) as [|Hge]; [assumption|].
  assert (Z.testbit b (Z.log2 b) = true) by (apply Z.bit_log2; lia).
  rewrite H in H1; [discriminate|lia].
Qed.

Lemma testbit_above b n i : 0 <= b < 2 ^ n -> n <= i -> Z.testbit b i = false.
Proof.
  intros [H1 H2] Hi. destruct (Z.eq_dec b 0) as [->|Hn]; [apply Z.testbit_0_l|].
  destruct (Z_lt_ge_dec n 0) as [Hneg|Hn0]; [rewrite Z.pow_neg_r in H2; lia|].
  apply Z.bits_above_log2; [lia|].
  assert (Z.log2 b < n) by (apply Z.log2_lt_pow2; lia). lia.
Qed.

Lemma testbit_mask n i : 0 <= n -> 0 <= i ->
  Z.testbit (Z.shiftl 1 n - 1) i = (i <? n).
Proof.
  intros Hn Hi.
  replace (Z.shiftl 1 n - 1) with (Z.ones n) by (unfold Z.ones; lia).
  apply Z.testbit_ones_nonneg; lia.
Qed.

Lemma land_mask_nonneg v n : 0 <= n -> 0 <= Z.land v (Z.shiftl 1 n - 1).
Proof.
  intros Hn. apply Z.land_nonneg. right.
  rewrite Z.shiftl_1_l. pose proof (Z.pow_pos_nonneg 2 n). lia.
Qed.

Lemma land_mask_mod v n : 0 <= n -> Z.land v (Z.shiftl 1 n - 1) = v mod 2 ^ n.
Proof.
  intros Hn. replace (Z.shiftl 1 n - 1) with (Z.ones n) by (unfold Z.ones; lia).
  apply Z.land_ones; lia.
Qed.

Lemma testbit_mod_pow2 v n i : 0 <= n -> 0 <= i ->
  Z.testbit (v mod 2 ^ n) i = (i <? n) && Z.testbit v i.
Proof.
  intros Hn Hi. destruct (i <? n) eqn:E; cbn.
  - apply Z.mod_pow2_bits_low; lia.
  - apply Z.mod_pow2_bits_high; lia.
Qed.

Lemma bytes_ok_nth l k : bytes_ok l -> is_byte (nth k l 0).
Proof.
  intros H. destruct (Nat.lt_ge_cases k (length l)).
  - apply Forall_nth; auto.
  - rewrite nth_overflow by lia. split; lia.
Qed.

Lemma bit_at_list_upd l k v i :
  (k < length l)%nat -> 0 <= i ->
  bit_at (list_upd l k v) i =
  if i / 8 =? Z.of_nat k then Z.testbit v (i mod 8) else bit_at l i.
Proof.
  intros Hk Hi. unfold bit_at. replace (i <? 0) with false by lia.
  rewrite nth_list_upd by assumption.
  destruct (Nat.eqb_spec (Z.to_nat (i / 8)) k) as [E|E];
    destruct (Z.eqb_spec (i / 8) (Z.of_nat k)) as [E'|E']; try reflexivity; exfalso.
  - apply E'. lia.
  - apply E. lia.
Qed.

Lemma bit_at_nonneg l i : 0 <= i -> bit_at l i = Z.testbit (nth (Z.to_nat (i / 8)) l 0) (i mod 8).
Proof. intros. unfold bit_at. now replace (i <? 0) with false by lia. Qed.

Lemma bit_at_overflow l i : 8 * zlen l <= i -> bit_at l i = false.
Proof.
  intros H. unfold bit_at. destruct (i <? 0) eqn:E; [reflexivity|].
  rewrite nth_overflow; [apply Z.testbit_0_l|]. unfold zlen in H. lia.
Qed.

Lemma bit_at_nil i : bit_at [] i = false.
Proof.
  unfold bit_at. destruct (i <? 0); [reflexivity|].
  destruct (Z.to_nat (i / 8)); apply Z.testbit_0_l.
Qed.

Lemma bit_at_cons_lo b l i : 0 <= i < 8 -> bit_at (b :: l) i = Z.testbit b i.
Proof.
  intros H. rewrite bit_at_nonneg by lia.
  replace (i / 8) with 0 by lia. replace (i mod 8) with i by lia. reflexivity.
Qed.
Lemma bit_at_cons_hi b l i : 8 <= i -> bit_at (b :: l) i = bit_at l (i - 8).
Proof.
  intros H. rewrite !bit_at_nonneg by lia.
  replace (i / 8) with (1 + (i - 8) / 8) by lia.
  replace ((i - 8) mod 8) with (i mod 8) by lia.
  rewrite Z2Nat.inj_add by lia. reflexivity.
Qed.
Lemma bit_at_app l l' i :
  bit_at (l ++ l') i = if i <? 8 * zlen l then bit_at l i else bit_at l' (i - 8 * zlen l).
Proof.
  revert i; induction l as [|b l IH]; intros i; cbn [app].
  - rewrite zlen_nil. destruct (i <? 8 * 0) eqn:E.
    + unfold bit_at. now replace (i <? 0) with true by lia.
    + f_equal; lia.
  - rewrite zlen_cons. pose proof (zlen_nonneg l).
    destruct (Z_lt_ge_dec i 0).
    + replace (i <? 8 * (1 + zlen l)) with true by lia.
      unfold bit_at. now replace (i <? 0) with true by lia.
    + destruct (Z_lt_ge_dec i 8).
      * rewrite !bit_at_cons_lo by lia. now replace (i <? 8 * (1 + zlen l)) with true by lia.
      * rewrite !bit_at_cons_hi by lia. rewrite IH.
        replace (i - 8 <? 8 * zlen l) with (i <? 8 * (1 + zlen l)) by lia.
        destruct (i <? 8 * (1 + zlen l)); [reflexivity|]. f_equal; lia.
Qed.

Lemma bit_at_neg l i : i < 0 -> bit_at l i = false.
Proof. intros. unfold bit_at. now replace (i <? 0) with true by lia. Qed.

(** Byte strings are determined by their length and bits. *)
Lemma bytes_ext l l' :
  bytes_ok l -> bytes_ok l' -> zlen l = zlen l' ->
  (forall i, 0 <= i < 8 * zlen l -> bit_at l i = bit_at l' i) -> l = l'.
Proof.
  intros H. revert l'. induction H as [|b l Hb Hl IH]; intros l' H' HL HB.
  - symmetry. apply zlen_0_nil. rewrite <- HL. reflexivity.
  - destruct l' as [|b' l']; [rewrite zlen_cons, zlen_nil in HL; pose proof (zlen_nonneg l); lia|].
    inversion H'; subst. rewrite !zlen_cons in HL.
    pose proof (zlen_nonneg l). f_equal.
    + apply Z.bits_inj'. intros i Hi. destruct (Z_lt_ge_dec i 8).
      * specialize (HB i). rewrite zlen_cons in HB. rewrite !bit_at_cons_lo in HB by lia.
        apply HB. lia.
      * rewrite !testbit_high by (assumption || lia). reflexivity.
    + apply IH; [assumption|lia|]. intros i Hi.
      specialize (HB (i + 8)). rewrite zlen_cons in HB. rewrite !bit_at_cons_hi in HB by lia.
      replace (i + 8 - 8) with i in HB by lia. apply HB. lia.
Qed.

(** Bit lists *)
Lemma byte_bits_length b : length (byte_bits b) = 8%nat.
Proof. reflexivity. Qed.
Lemma bits_of_bytes_length l : zlen (bits_of_bytes l) = 8 * zlen l.
Proof.
  induction l as [|b l IH]; [reflexivity|].
  unfold bits_of_bytes in *. cbn [flat_map].
  rewrite zlen_app, IH, zlen_cons. unfold zlen at 1. rewrite byte_bits_length. lia.
Qed.
Lemma nth_byte_bits b k : (k < 8)%nat -> nth k (byte_bits b) false = Z.testbit b (Z.of_nat k).
Proof.
  intros H. unfold byte_bits.
  do 8 (destruct k as [|k]; [reflexivity|]). lia.
Qed.
Lemma nth_bits_of_bytes l i :
  0 <= i -> nth (Z.to_nat i) (bits_of_bytes l) false = bit_at l i.
Proof.
  revert i; induction l as [|b l IH]; intros i Hi.
  - cbn [bits_of_bytes flat_map]. rewrite bit_at_nil. now destruct (Z.to_nat i).
  - unfold bits_of_bytes in *. cbn [flat_map].
    destruct (Z_lt_ge_dec i 8).
    + rewrite app_nth1 by (rewrite byte_bits_length; lia).
      rewrite nth_byte_bits by lia. rewrite bit_at_cons_lo by lia. f_equal; lia.
    + rewrite app_nth2 by (rewrite byte_bits_length; lia).
      rewrite byte_bits_length, bit_at_cons_hi by lia. rewrite <- IH by lia. f_equal. lia.
Qed.

Lemma bytes_ok_app l l' : bytes_ok (l ++ l') <-> bytes_ok l /\ bytes_ok l'.
Proof. apply Forall_app. Qed.
Lemma bytes_ok_firstn n l : bytes_ok l -> bytes_ok (firstn n l).
Proof. intros H. rewrite <- (firstn_skipn n l) in H. now apply bytes_ok_app in H. Qed.
Lemma bytes_ok_skipn n l : bytes_ok l -> bytes_ok (skipn n l).
Proof. intros H. rewrite <- (firstn_skipn n l) in H. now apply bytes_ok_app in H. Qed.
Lemma bytes_ok_repeat0 n : bytes_ok (repeat 0 n).
Proof. induction n; cbn; constructor; auto. unfold is_byte; lia. Qed.
Lemma bytes_ok_rev l : bytes_ok l -> bytes_ok (rev l).
Proof. apply Forall_rev. Qed.
Lemma bytes_okb_spec l : bytes_okb l = true <-> bytes_ok l.
Proof.
  unfold bytes_okb, bytes_ok. rewrite forallb_forall, Forall_forall.
  split; intros H x Hx; specialize (H x Hx); unfold is_byteb, is_byte in *; lia.
Qed.

(** ** monads *)
Lemma sbind_ok {S A B} (m : stM S A) (f : A -> stM S B) s a s' :
  m s = (Ok a, s') -> sbind m f s = f a s'.
Proof. intros H. unfold sbind. now rewrite H. Qed.
Lemma sbind_err {S A B} (m : stM S A) (f : A -> stM S B) s e s' :
  m s = (Err e, s') -> sbind m f s = (Err e, s').
Proof. intros H. unfold sbind. now rewrite H. Qed.
