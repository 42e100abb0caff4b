(** Proofs about buffer/io_buffer.py, part 5: the operations as operations on bit strings. *)
From Verif Require Import Base BaseProofs Range IoBuffer IoSpec IoProofs IoMutProofs IoInsert IoDelete.
From Coq Require Import ZArith List Bool Lia ZifyBool ZifyNat.
Import ListNotations.
Open Scope Z_scope.
Ltac Zify.zify_post_hook ::= Z.div_mod_to_equations.

Lemma ba_bits_len x : ba_ok x -> zlen (ba_bits x) = ba_stop x - ba_start x.
Proof. intros H. unfold ba_bits. rewrite buf_bits_len by exact H. reflexivity. Qed.
Lemma bnth_ba x i : ba_ok x ->
  bnth (ba_bits x) i = if (0 <=? i) && (i <? ba_stop x - ba_start x) then abit x (ba_start x + i) else false.
Proof.
  intros H. unfold ba_bits, ba_view. rewrite bnth_view by exact H.
  cbn [buf_bits]. unfold abit. now rewrite bnth_bytes.
Qed.
Lemma ba_ok_intro x : bytes_ok (ba_buf x) -> 0 <= ba_start x <= ba_stop x -> ba_stop x <= 8 * zlen (ba_buf x) -> ba_ok x.
Proof. intros B H L. unfold ba_ok, ba_view. cbn [buf_ok blen]. repeat split; auto; lia. Qed.
Lemma ba_ok_elim x : ba_ok x -> bytes_ok (ba_buf x) /\ 0 <= ba_start x <= ba_stop x /\ ba_stop x <= 8 * zlen (ba_buf x).
Proof. intros (B & H1 & H2 & H3). cbn [blen] in H3. repeat split; auto; lia. Qed.


Lemma bnth_firstn l k i : 0 <= k -> bnth (firstn (Z.to_nat k) l) i = if i <? k then bnth l i else false.
Proof.
  intros Hk. unfold bnth. destruct (i <? 0) eqn:E; [now destruct (i <? k)|].
  destruct (i <? k) eqn:F.
  - rewrite <- (firstn_skipn (Z.to_nat k) l) at 2. destruct (Z_lt_ge_dec i (zlen l)).
    + rewrite app_nth1; auto. rewrite firstn_length. unfold zlen in *. lia.
    + rewrite !nth_overflow; auto; try rewrite app_length, firstn_length, skipn_length; try rewrite firstn_length; unfold zlen in *; lia.
  - apply nth_overflow. rewrite firstn_length. lia.
Qed.
Lemma nth_skip {A} (d : A) k : forall l i, nth i (skipn k l) d = nth (k + i) l d.
Proof. induction k as [|k IH]; intros [|a l] i; cbn [skipn Nat.add nth]; auto; destruct i; auto. Qed.
Lemma bnth_skipn l k i : 0 <= k -> 0 <= i -> bnth (skipn (Z.to_nat k) l) i = bnth l (k + i).
Proof.
  intros Hk Hi. unfold bnth. replace (i <? 0) with false by lia. replace (k + i <? 0) with false by lia.
  rewrite nth_skip. f_equal. lia.
Qed.
Lemma bnth_skipn_neg l k i : i < 0 -> bnth (skipn k l) i = false.
Proof. apply bnth_neg. Qed.


Lemma insert_end x n : ba_ok x -> 0 <= n ->
  exists x', insert_zeros (ba_stop x) (ba_stop x + n) x = (Ok tt, x')
    /\ ba_ok x' /\ ba_start x' = ba_start x /\ ba_stop x' = ba_stop x + n
    /\ (forall i, i < ba_stop x -> abit x' i = abit x i)
    /\ (ba_clean x -> ba_clean x'
        /\ (gap_ok (ba_stop x) n -> forall i, ba_stop x <= i -> abit x' i = false)
        /\ (~ gap_ok (ba_stop x) n -> 8 <= ba_stop x ->
            let f := 8 - ba_stop x mod 8 + (ba_stop x + n) mod 8 in
            forall i, ba_stop x <= i ->
              abit x' i = if (ba_stop x + f - 8 <=? i) && (i <? ba_stop x + f) then abit x (i - f) else false)).
Proof.
  intros K Hn. destruct (ba_ok_elim _ K) as (B & Hs & Hl).
  destruct (insert_zeros_spec x (ba_stop x) n) as (x' & X & S' & T' & B' & L' & Vlow & Vno & Vsh); auto; try lia.
  set (t := ba_stop x) in *. set (q := cdiv8 t) in *. set (w := whole t n) in *. set (frac := n - 8 * w) in *.
  exists x'. split; [exact X|]. split. { apply ba_ok_intro; auto; try lia. rewrite L'. unfold cdiv8. lia. }
  split; [auto|]. split; [auto|]. split; [exact Vlow|]. intros C.
  assert (Hq : 0 <= q <= zlen (ba_buf x)) by (unfold q, cdiv8; lia).
  assert (Hw : 0 <= w) by (unfold w, whole; lia).
  assert (Ob : forall i, t <= i -> opened_bit (ba_buf x) q w i = false).
  { intros i Hi. unfold opened_bit. destruct (i <? 8 * q) eqn:E; [now apply C|].
    destruct (i <? 8 * (q + w)) eqn:F; [reflexivity|]. apply C. unfold q, cdiv8 in *; fold t; lia. }
  assert (Oa : forall i, i < t -> opened_bit (ba_buf x) q w i = abit x i).
  { intros i Hi. unfold opened_bit. now replace (i <? 8 * q) with true by (unfold q, cdiv8; lia). }
  assert (Wq : 1 <= w -> 8 * (q + w) = t + n - (t + n) mod 8) by (unfold w, whole; fold q; lia).
  destruct (Z_le_gt_dec frac 0) as [F0|F0].
  { assert (frac = 0) by (unfold frac, w, whole, cdiv8 in *; lia).
    assert (All : forall i, t <= i -> abit x' i = false) by (intros i Hi; rewrite Vno by auto; now apply Ob).
    split; [|split].
    - intros i Hi. apply All. lia.
    - intros _. exact All.
    - intros G. exfalso. apply G. unfold gap_ok. unfold frac in *.
      destruct (Z.eq_dec w 0); [right; left; lia|left]. specialize (Wq ltac:(lia)). unfold q, cdiv8 in Wq. lia. }
  destruct (Z_le_gt_dec w 0) as [W0|W0].
  { assert (All : forall i, t <= i -> abit x' i = false) by (intros i Hi; rewrite Vno by (right; lia); now apply Ob).
    split; [|split].
    - intros i Hi. apply All. lia.
    - intros _. exact All.
    - intros G. exfalso. apply G. unfold gap_ok. unfold w, whole, cdiv8 in W0. lia. }
  specialize (Vsh ltac:(lia) ltac:(lia)). cbv zeta in Vsh. fold t in Vsh.
  set (ofs := t + 8 * w + frac - 8) in *. assert (Hofs : ofs = t + n - 8) by (unfold ofs, frac; lia).
  set (low := lowest ofs t) in *.
  assert (Hlow : low = t + frac mod 8).
  { unfold low, lowest. rewrite Hofs. specialize (Wq ltac:(lia)). unfold frac.
    assert (8 <= n) by (unfold q, cdiv8 in *; lia).
    replace (t <=? t + n - 8) with true by lia. lia. }
  destruct Vsh as (V1 & V2 & _).
  assert (Hfr : frac = 8 * q - t + (t + n) mod 8) by (unfold frac; lia).
  assert (Hq8 : 8 * q - t = if t mod 8 =? 0 then 0 else 8 - t mod 8) by (unfold q, cdiv8; destruct (t mod 8 =? 0) eqn:E; lia).
  split; [|split].
  - intros i Hi. rewrite T' in Hi. rewrite V1 by lia. apply Ob. lia.
  - intros G i Hi. destruct (Z_lt_ge_dec i low); [rewrite V1 by lia; apply Ob; lia|].
    destruct (Z_lt_ge_dec i (ofs + 8)); [|rewrite V1 by lia; apply Ob; lia].
    assert (F8 : frac < 8).
    { unfold gap_ok in G. destruct (t mod 8 =? 0) eqn:E; [lia|].
      assert (16 <= t mod 8 + n) by (unfold q, cdiv8 in *; lia). lia. }
    rewrite V2 by lia. apply Ob. lia.
  - intros G Ht f i Hi.
    assert (Er : t mod 8 <> 0 /\ 16 <= t mod 8 + n /\ t mod 8 <= (t + n) mod 8) by (unfold gap_ok in G; lia).
    assert (Ef : f = frac) by (unfold f; destruct (t mod 8 =? 0) eqn:E; lia). rewrite Ef.
    assert (L8 : low = t + frac - 8) by lia.
    destruct ((t + frac - 8 <=? i) && (i <? t + frac)) eqn:E.
    + rewrite V2 by (rewrite L8; unfold ofs; lia). apply Oa. lia.
    + destruct (Z_lt_ge_dec i low); [rewrite V1 by lia; apply Ob; lia|].
      destruct (Z_lt_ge_dec i (ofs + 8)); [|rewrite V1 by lia; apply Ob; lia].
      rewrite V2 by lia. apply Ob. lia.
Qed.

(** Copying the bytes of a bit string. *)
Lemma copy_bits x ofs v : bytes_ok (ba_buf x) -> 0 <= ofs -> ofs + zlen v <= 8 * zlen (ba_buf x) ->
  exists x', copy_to_range ofs (bytes_of_bits v) (zlen v) x = (Ok tt, x')
    /\ overwritten x x' ofs (zlen v) (bnth v).
Proof.
  intros B Ho Hl. destruct (bytes_of_bits_spec v) as (Bv & Lv & Vv). pose proof (zlen_nonneg v).
  destruct (copy_loop_spec (bytes_of_bits v) x ofs (zlen v)) as (x' & X & O); auto; try (unfold cdiv8 in *; lia).
  - intros i Hi. rewrite Vv. now apply bnth_over.
  - exists x'. split; [exact X|]. destruct O as (O1 & O2 & O3 & O4 & O5). unfold overwritten.
    split; [auto|]. split; [auto|]. split; [auto|]. split; [auto|]. intros i. rewrite O5.
    replace (Z.min (zlen v) (8 * zlen (bytes_of_bits v))) with (zlen v) by (unfold cdiv8 in *; lia).
    now rewrite Vv.
Qed.

(** Putting [v] at the end. *)
Lemma append_bits x v : ba_ok x ->
  exists x1 x', insert_zeros (ba_stop x) (ba_stop x + zlen v) x = (Ok tt, x1)
    /\ copy_to_range (ba_stop x) (bytes_of_bits v) (zlen v) x1 = (Ok tt, x')
    /\ ba_ok x' /\ ba_start x' = ba_start x /\ ba_bits x' = ba_bits x ++ v
    /\ (ba_clean x -> ba_clean x').
Proof.
  intros K. pose proof (zlen_nonneg v) as Hv.
  destruct (insert_end x (zlen v) K Hv) as (x1 & X1 & K1 & S1 & T1 & V1 & C1).
  destruct (ba_ok_elim _ K) as (B & Hs & Hl). destruct (ba_ok_elim _ K1) as (B1 & Hs1 & Hl1).
  destruct (copy_bits x1 (ba_stop x) v) as (x' & X' & S' & T' & L' & B' & V'); auto; try lia.
  exists x1, x'. split; [auto|]. split; [auto|].
  assert (K' : ba_ok x') by (apply ba_ok_intro; auto; lia).
  split; [auto|]. split; [congruence|]. split.
  - apply bnth_ext; [rewrite zlen_app, !ba_bits_len by auto; lia|].
    intros i Hi. rewrite bnth_app, !bnth_ba, ba_bits_len in * by auto. rewrite V', T', T1, S', S1 in *.
    replace ((0 <=? i) && (i <? ba_stop x + zlen v - ba_start x)) with true by lia.
    destruct (i <? ba_stop x - ba_start x) eqn:E.
    + replace (ba_stop x <=? ba_start x + i) with false by lia. cbn [andb].
      replace (0 <=? i) with true by lia. cbn [andb]. apply V1. lia.
    + replace ((ba_stop x <=? ba_start x + i) && (ba_start x + i <? ba_stop x + zlen v)) with true by lia.
      f_equal. lia.
  - intros C i Hi. rewrite V'. replace ((ba_stop x <=? i) && (i <? ba_stop x + zlen v)) with false by lia.
    destruct (C1 C) as (CC & _). apply CC. lia.
Qed.

Lemma extend_view x b : ba_ok x -> buf_ok b ->
  exists x', ba_extend (BVView b) x = (Ok tt, x') /\ ba_ok x' /\ ba_start x' = ba_start x
    /\ ba_bits x' = ba_bits x ++ buf_bits b /\ (ba_clean x -> ba_clean x').
Proof.
  intros K H. destruct (append_bits x (buf_bits b) K) as (x1 & x' & X1 & X2 & R). rewrite buf_bits_len in * by auto.
  exists x'. split; auto. unfold ba_extend. unfold sbind, sget, slift. rewrite X1, buf_bytes_spec by auto. exact X2.
Qed.

Lemma digits_1 v : int_digits 1 v = [v mod 256]. Proof. reflexivity. Qed.

Lemma bit_length_byte v : is_byte v -> bit_length v <= 8.
Proof.
  intros H. unfold is_byte in H. unfold bit_length. destruct (v =? 0) eqn:E; [lia|]. rewrite Z.abs_eq by lia.
  assert (Z.log2 v < 8) by (apply Z.log2_lt_pow2; lia). lia.
Qed.
Lemma bit_length_big v : 256 <= Z.abs v -> 8 < bit_length v.
Proof.
  intros H. unfold bit_length. destruct (v =? 0) eqn:E; [lia|].
  assert (8 <= Z.log2 (Z.abs v)) by (apply Z.log2_le_pow2; [lia|exact H]). lia.
Qed.
Lemma value_and_length_byte v : is_byte v -> value_and_length (BVInt v) 8 = Ok ([v], 8).
Proof.
  intros H. pose proof (bit_length_byte v H). pose proof H as H'. unfold is_byte in H. unfold value_and_length.
  replace (8 <? Z.max 1 (bit_length v)) with false by lia.
  replace (cdiv8 (Z.max 1 (bit_length v))) with 1 by (unfold cdiv8; lia). change (Z.to_nat 1) with 1%nat.
  rewrite digits_1, Z.mod_small by lia. do 2 f_equal. lia.
Qed.
Lemma value_and_length_big v : 256 <= Z.abs v -> value_and_length (BVInt v) 8 = Err ValueError.
Proof.
  intros H. pose proof (bit_length_big v H). unfold value_and_length.
  now replace (8 <? Z.max 1 (bit_length v)) with true by lia.
Qed.

Lemma append_byte x v : ba_ok x -> is_byte v ->
  exists x', ba_append v x = (Ok tt, x') /\ ba_ok x' /\ ba_start x' = ba_start x
    /\ ba_bits x' = ba_bits x ++ byte_bits v /\ (ba_clean x -> ba_clean x').
Proof.
  intros K Hv. destruct (append_bits x (byte_bits v) K) as (x1 & x' & X1 & X2 & R).
  exists x'. split; auto. destruct (ba_ok_elim _ K) as (B & Hs & Hl).
  unfold ba_append, ba_insert. unfold sbind, sget, slift. rewrite value_and_length_byte by auto.
  cbn [fst snd]. rewrite translate_clamp by lia.
  replace (py_clamp (ba_stop x - ba_start x) (8 * blen (ba_view x)) + ba_start x) with (ba_stop x)
    by (unfold ba_view, py_clamp; cbn [blen]; unfold cdiv8;
        repeat match goal with |- context [if ?c then _ else _] => destruct c eqn:? end; lia).
  change (zlen (byte_bits v)) with 8 in *.
  rewrite X1. rewrite <- X2. f_equal.
  rewrite <- (bytes_of_bits_of_bytes [v]) by (now constructor). reflexivity.
Qed.

Lemma extend_bytes l : forall x, ba_ok x -> bytes_ok l ->
  exists x', ba_extend (BVSeq l) x = (Ok tt, x') /\ ba_ok x' /\ ba_start x' = ba_start x
    /\ ba_bits x' = ba_bits x ++ bits_of_bytes l /\ (ba_clean x -> ba_clean x').
Proof.
  unfold ba_extend. induction l as [|b l IH]; intros x K H; cbn [sforeach].
  - exists x. split; [reflexivity|]. split; [auto|]. split; [auto|]. split; [now rewrite app_nil_r|auto].
  - inversion H; subst. destruct (append_byte x b K) as (x1 & X1 & K1 & S1 & V1 & C1); auto.
    unfold sbind. rewrite X1. destruct (IH x1 K1) as (x2 & X2 & K2 & S2 & V2 & C2); auto. rewrite X2.
    exists x2. split; [reflexivity|]. split; [auto|]. split; [congruence|]. split; [|auto].
    rewrite V2, V1, <- app_assoc. reflexivity.
Qed.

Lemma value_and_length_bits v n : value_ok v ->
  value_and_length v n = Ok (bytes_of_bits (value_bits v), zlen (value_bits v)).
Proof.
  destruct v as [b|l|k]; cbn [value_ok value_and_length value_bits]; intros H; [| |contradiction].
  - rewrite buf_bytes_spec, buf_bits_len by auto. reflexivity.
  - rewrite bytes_of_bits_of_bytes, bits_of_bytes_length by auto. reflexivity.
Qed.

Lemma zlen_splice l a b v : 0 <= a <= zlen l -> 0 <= b <= zlen l -> zlen (splice l a b v) = a + zlen v + (zlen l - b).
Proof. intros. unfold splice. rewrite !zlen_app, zlen_firstn, zlen_skipn. lia. Qed.
Lemma bnth_splice l a b v i : 0 <= a <= zlen l -> 0 <= b <= zlen l ->
  bnth (splice l a b v) i = if i <? a then bnth l i else if i <? a + zlen v then bnth v (i - a) else bnth l (i - a - zlen v + b).
Proof.
  intros. unfold splice. rewrite !bnth_app, bnth_firstn by lia. rewrite zlen_firstn.
  replace (Z.min (Z.of_nat (Z.to_nat a)) (zlen l)) with a by lia.
  destruct (i <? a) eqn:E; auto. replace (i - a <? zlen v) with (i <? a + zlen v) by lia.
  destruct (i <? a + zlen v) eqn:F; auto. rewrite bnth_skipn by lia. f_equal. lia.
Qed.

(** [x'] holds the bits of [x] with [a..b) (relative to the start) replaced by [v]. *)
Lemma spliced x x' a b v : ba_ok x -> ba_ok x' -> ba_start x' = ba_start x ->
  0 <= a <= b -> b <= ba_stop x - ba_start x ->
  ba_stop x' = ba_stop x - (b - a) + zlen v ->
  (forall i, 0 <= i < ba_stop x' - ba_start x' -> abit x' (ba_start x + i)
     = if i <? a then abit x (ba_start x + i) else if i <? a + zlen v then bnth v (i - a)
       else abit x (ba_start x + (i - a - zlen v + b))) ->
  ba_bits x' = splice (ba_bits x) a b v.
Proof.
  intros K K' S Ha Hb T V. destruct (ba_ok_elim _ K) as (B & Hs & Hl). pose proof (zlen_nonneg v).
  assert (La : zlen (ba_bits x) = ba_stop x - ba_start x) by now apply ba_bits_len.
  apply bnth_ext.
  - rewrite zlen_splice, ba_bits_len by (auto; lia). lia.
  - rewrite ba_bits_len by auto. intros i Hi. rewrite bnth_splice, !bnth_ba by (auto; lia).
    replace ((0 <=? i) && (i <? ba_stop x' - ba_start x')) with true by lia.
    rewrite S, V by lia. destruct (i <? a) eqn:E.
    { now replace ((0 <=? i) && (i <? ba_stop x - ba_start x)) with true by lia. }
    destruct (i <? a + zlen v) eqn:F; auto.
    now replace ((0 <=? i - a - zlen v + b) && (i - a - zlen v + b <? ba_stop x - ba_start x)) with true by lia.
Qed.

Lemma py_clamp_range n i : 0 <= n -> 0 <= py_clamp n i <= n.
Proof. intros. unfold py_clamp. repeat match goal with |- context [if ?c then _ else _] => destruct c eqn:? end; lia. Qed.

Lemma key_range_spec x a b : ba_ok x ->
  let n := ba_stop x - ba_start x in
  ba_key_to_range (KSlice a b) x =
    (if lo_of n a <=? hi_of n b then Ok (ba_start x + lo_of n a, ba_start x + hi_of n b) else Err AssertionError, x).
Proof.
  intros K n. destruct (ba_ok_elim _ K) as (B & Hs & Hl). unfold ba_key_to_range. f_equal.
  unfold key_to_range. rewrite !translate_clamp by lia. fold n. fold (lo_of n a). fold (hi_of n b).
  pose proof (py_clamp_range n (match a with Some v => v | None => 0 end) ltac:(lia)) as Hlo. fold (lo_of n a) in Hlo.
  rewrite (Z.add_comm (lo_of n a)), (Z.add_comm (hi_of n b)).
  replace ((ba_start x + lo_of n a <=? ba_start x + hi_of n b) && (0 <=? ba_start x + lo_of n a))
    with (lo_of n a <=? hi_of n b) by lia.
  destruct (lo_of n a <=? hi_of n b); reflexivity.
Qed.

(** Inserting somewhere before the end: where the old bits go. *)
Lemma insert_mid x a n : ba_ok x -> 0 <= a < ba_stop x -> 8 <= n ->
  (a mod 8 = 0 \/ 16 <= a mod 8 + n) ->
  exists x', insert_zeros a (a + n) x = (Ok tt, x')
    /\ bytes_ok (ba_buf x') /\ ba_start x' = ba_start x /\ ba_stop x' = ba_stop x + n
    /\ ba_stop x' <= 8 * zlen (ba_buf x')
    /\ (forall i, i < a -> abit x' i = abit x i)
    /\ (forall i, a + n <= i < ba_stop x + n ->
         abit x' i = if i - n <? 8 * cdiv8 a then false else abit x (i - n)).
Proof.
  intros K Ha Hn Hc. destruct (ba_ok_elim _ K) as (B & Hs & Hl).
  destruct (insert_zeros_spec x a n) as (x' & X & S' & T' & B' & L' & Vlow & Vno & Vsh); auto; try lia.
  set (q := cdiv8 a) in *. set (w := whole a n) in *. set (frac := n - 8 * w) in *.
  exists x'. split; [exact X|]. split; [auto|]. split; [auto|]. split; [auto|].
  split; [rewrite L'; unfold cdiv8; lia|]. split; [exact Vlow|].
  assert (Hq : 0 <= q <= zlen (ba_buf x)) by (unfold q, cdiv8; lia).
  assert (Hw : 1 <= w) by (unfold w, whole, cdiv8; lia).
  assert (Wq : 8 * (q + w) = a + n - (a + n) mod 8) by (unfold w, whole in *; fold q in Hw |- *; lia).
  assert (Hfr : 0 <= frac <= 14) by (unfold frac; unfold q, cdiv8 in *; lia).
  assert (Ob : forall i, a + 8 * w <= i -> opened_bit (ba_buf x) q w i = if i - 8 * w <? 8 * q then false else abit x (i - 8 * w)).
  { intros i Hi. unfold opened_bit, abit. replace (i <? 8 * q) with false by (unfold q, cdiv8; lia).
    replace (i <? 8 * (q + w)) with (i - 8 * w <? 8 * q) by lia. reflexivity. }
  intros i Hi. destruct (Z.eq_dec frac 0) as [F0|F0].
  { rewrite Vno by auto. rewrite Ob by (unfold frac in F0; lia). replace (i - 8 * w) with (i - n) by (unfold frac in F0; lia). reflexivity. }
  specialize (Vsh ltac:(lia) ltac:(lia)). cbv zeta in Vsh.
  set (ofs := ba_stop x + 8 * w + frac - 8) in *. assert (Hofs : ofs = ba_stop x + n - 8) by (unfold ofs, frac; lia).
  set (low := lowest ofs a) in *. destruct Vsh as (_ & V2 & _).
  assert (Hlow : low <= a + 7 /\ a <= low).
  { unfold low, lowest. rewrite Hofs. replace (a <=? ba_stop x + n - 8) with true by lia. lia. }
  rewrite V2 by (unfold frac; lia). rewrite Ob by (unfold frac; lia).
  replace (i - frac - 8 * w) with (i - n) by (unfold frac; lia). reflexivity.
Qed.

(** ** Assignment to a slice *)
Lemma setitem_slice x a b v : ba_ok x -> value_ok v ->
  let n := ba_stop x - ba_start x in let lo := lo_of n a in let hi := hi_of n b in
  let d := hi - lo - zlen (value_bits v) in
  lo <= hi ->
  (d = 0 \/ (d < 0 /\ hi = n) \/ (d <= -8 /\ (ba_start x + hi) mod 8 = 0)
   \/ (0 < d /\ deletion_fits x (ba_start x + hi - d) (ba_start x + hi)) ->
   exists x', ba_setitem (KSlice a b) v x = (Ok tt, x') /\ ba_ok x' /\ ba_start x' = ba_start x
     /\ ba_bits x' = splice (ba_bits x) lo hi (value_bits v)
     /\ (d <= 0 -> (d = 0 \/ hi = n) -> ba_clean x -> ba_clean x'))
  /\ (0 < d -> ~ deletion_fits x (ba_start x + hi - d) (ba_start x + hi) ->
      exists x', ba_setitem (KSlice a b) v x = (Err IndexError, x')).
Proof.
  intros K Hv n lo hi d Hlh. destruct (ba_ok_elim _ K) as (B & Hs & Hl).
  pose proof (py_clamp_range n (match a with Some v => v | None => 0 end) ltac:(lia)) as Hlo. fold (lo_of n a) in Hlo. fold lo in Hlo.
  pose proof (py_clamp_range n (match b with Some v => v | None => n end) ltac:(lia)) as Hhi. fold (hi_of n b) in Hhi. fold hi in Hhi.
  unfold ba_setitem. unfold sbind, slift. rewrite key_range_spec by auto. fold n lo hi.
  replace (lo <=? hi) with true by lia. cbn [fst snd]. rewrite value_and_length_bits by auto. cbn [fst snd].
  unfold set_range. unfold sbind, slift. set (vb := value_bits v) in *. pose proof (zlen_nonneg vb) as Hvb.
  replace ((ba_start x + lo <=? ba_start x + hi) && (0 <=? zlen vb)) with true by lia. cbn [passert].
  replace (ba_start x + hi - (ba_start x + lo)) with (hi - lo) by lia.
  split.
  - intros Hd. destruct (hi - lo <? zlen vb) eqn:E1.
    + (* longer *)
      assert (Hd' : d < 0 /\ hi = n \/ d <= -8 /\ (ba_start x + hi) mod 8 = 0) by (unfold d in *; lia).
      replace (ba_start x + hi + zlen vb - (hi - lo)) with (ba_start x + hi + (- d)) by (unfold d; lia).
      assert (I : exists x1, insert_zeros (ba_start x + hi) (ba_start x + hi + - d) x = (Ok tt, x1)
        /\ ba_ok x1 /\ ba_start x1 = ba_start x /\ ba_stop x1 = ba_stop x - d
        /\ (forall i, i < ba_start x + hi -> abit x1 i = abit x i)
        /\ (forall i, ba_start x + hi - d <= i < ba_stop x - d -> abit x1 i = abit x (i + d))
        /\ (hi = n -> ba_clean x -> ba_clean x1)).
      { destruct (Z.eq_dec hi n) as [En|En].
        - replace (ba_start x + hi) with (ba_stop x) by lia.
          destruct (insert_end x (- d) K) as (x1 & X1 & K1 & S1 & T1 & V1 & C1); [unfold d; lia|].
          exists x1. split; [auto|]. split; [auto|]. split; [auto|]. split; [lia|]. split; [auto|]. split; [lia|].
          intros _ C. apply C1. exact C.
        - assert (D8 : d <= -8 /\ (ba_start x + hi) mod 8 = 0) by lia.
          destruct (insert_mid x (ba_start x + hi) (- d) K) as (x1 & X1 & B1 & S1 & T1 & L1 & V1 & W1); try lia.
          exists x1. split; [auto|]. split; [apply ba_ok_intro; auto; lia|]. split; [auto|]. split; [lia|]. split; [auto|].
          split; [|congruence]. intros i Hi. rewrite W1 by lia.
          replace (i - - d <? 8 * cdiv8 (ba_start x + hi)) with false by (unfold cdiv8; lia). f_equal. lia. }
      destruct I as (x1 & X1 & K1 & S1 & T1 & V1 & W1 & C1). rewrite X1.
      destruct (ba_ok_elim _ K1) as (B1 & Hs1 & Hl1).
      destruct (copy_bits x1 (ba_start x + lo) vb) as (x' & X' & S' & T' & L' & B' & V'); auto; try (unfold d in *; lia).
      exists x'. split; [auto|]. assert (K' : ba_ok x') by (apply ba_ok_intro; auto; lia).
      split; [auto|]. split; [congruence|]. split.
      * apply spliced; auto; try lia; try congruence.
        intros i Hi. rewrite V'. destruct (i <? lo) eqn:F1.
        -- replace (ba_start x + lo <=? ba_start x + i) with false by lia. cbn [andb]. apply V1. lia.
        -- destruct (i <? lo + zlen vb) eqn:F2.
           ++ replace ((ba_start x + lo <=? ba_start x + i) && (ba_start x + i <? ba_start x + lo + zlen vb)) with true by lia.
              f_equal. lia.
           ++ replace ((ba_start x + lo <=? ba_start x + i) && (ba_start x + i <? ba_start x + lo + zlen vb)) with false by lia.
              rewrite W1 by (unfold d; lia). f_equal. unfold d. lia.
      * intros _ Hc C i Hi. rewrite V'.
        replace ((ba_start x + lo <=? i) && (i <? ba_start x + lo + zlen vb)) with false by (unfold d in *; lia).
        apply C1; auto; unfold d in *; lia.
    + destruct (zlen vb <? hi - lo) eqn:E2.
      * (* shorter *)
        assert (Hd' : 0 < d /\ deletion_fits x (ba_start x + hi - d) (ba_start x + hi)).
        { destruct Hd as [Hd|[Hd|[Hd|Hd]]]; auto; exfalso; unfold d in Hd; lia. }
        replace (ba_start x + hi - (hi - lo - zlen vb)) with (ba_start x + hi - d) by (unfold d; lia).
        destruct (del_range_spec x (ba_start x + hi - d) (ba_start x + hi) K) as [D _]; try (unfold d; lia).
        destruct (D (proj2 Hd')) as (x1 & X1 & S1 & T1 & B1 & L1 & V1). rewrite X1.
        destruct (copy_bits x1 (ba_start x + lo) vb) as (x' & X' & S' & T' & L' & B' & V'); auto; try (unfold d in *; lia).
        exists x'. split; [auto|]. assert (K' : ba_ok x') by (apply ba_ok_intro; auto; unfold d in *; lia).
        split; [auto|]. split; [congruence|]. split; [|lia].
        apply spliced; auto; try lia; try congruence; try (unfold d in *; lia).
        intros i Hi. rewrite V'. rewrite T', S', S1 in Hi. destruct (i <? lo) eqn:F1.
        -- replace (ba_start x + lo <=? ba_start x + i) with false by lia. cbn [andb]. rewrite V1 by lia.
           now replace (ba_start x + i <? ba_start x + hi - d) with true by (unfold d; lia).
        -- destruct (i <? lo + zlen vb) eqn:F2.
           ++ replace ((ba_start x + lo <=? ba_start x + i) && (ba_start x + i <? ba_start x + lo + zlen vb)) with true by lia.
              f_equal. lia.
           ++ replace ((ba_start x + lo <=? ba_start x + i) && (ba_start x + i <? ba_start x + lo + zlen vb)) with false by lia.
              rewrite V1 by lia. replace (ba_start x + i <? ba_start x + hi - d) with false by (unfold d; lia). f_equal. unfold d. lia.
      * (* same length *)
        destruct (copy_bits x (ba_start x + lo) vb) as (x' & X' & S' & T' & L' & B' & V'); auto; try (unfold d in *; lia).
        exists x'. split; [auto|]. assert (K' : ba_ok x') by (apply ba_ok_intro; auto; lia).
        split; [auto|]. split; [congruence|]. split.
        -- apply spliced; auto; try lia; try congruence.
           intros i Hi. rewrite V'. destruct (i <? lo) eqn:F1.
           ++ now replace (ba_start x + lo <=? ba_start x + i) with false by lia.
           ++ destruct (i <? lo + zlen vb) eqn:F2.
              ** replace ((ba_start x + lo <=? ba_start x + i) && (ba_start x + i <? ba_start x + lo + zlen vb)) with true by lia.
                 f_equal. lia.
              ** replace ((ba_start x + lo <=? ba_start x + i) && (ba_start x + i <? ba_start x + lo + zlen vb)) with false by lia.
                 f_equal. lia.
        -- intros _ _ C i Hi. rewrite V'.
           replace ((ba_start x + lo <=? i) && (i <? ba_start x + lo + zlen vb)) with false by lia. apply C. lia.
  - intros Hd Hf. replace (hi - lo <? zlen vb) with false by (unfold d in Hd; lia).
    replace (zlen vb <? hi - lo) with true by (unfold d in Hd; lia).
    replace (ba_start x + hi - (hi - lo - zlen vb)) with (ba_start x + hi - d) by (unfold d; lia).
    destruct (del_range_spec x (ba_start x + hi - d) (ba_start x + hi) K) as [_ D]; try (unfold d; lia).
    destruct (D Hf) as (x1 & X1). rewrite X1. eexists. reflexivity.
Qed.

(** ** Deletion *)
Lemma delitem_slice x a b : ba_ok x ->
  let n := ba_stop x - ba_start x in let lo := lo_of n a in let hi := hi_of n b in
  lo <= hi ->
  (deletion_fits x (ba_start x + lo) (ba_start x + hi) ->
     exists x', ba_delitem (KSlice a b) x = (Ok tt, x') /\ ba_ok x' /\ ba_start x' = ba_start x
       /\ ba_bits x' = splice (ba_bits x) lo hi [])
  /\ (~ deletion_fits x (ba_start x + lo) (ba_start x + hi) -> exists x', ba_delitem (KSlice a b) x = (Err IndexError, x')).
Proof.
  intros K n lo hi Hlh. destruct (ba_ok_elim _ K) as (B & Hs & Hl).
  pose proof (py_clamp_range n (match a with Some v => v | None => 0 end) ltac:(lia)) as Hlo. fold (lo_of n a) in Hlo. fold lo in Hlo.
  pose proof (py_clamp_range n (match b with Some v => v | None => n end) ltac:(lia)) as Hhi. fold (hi_of n b) in Hhi. fold hi in Hhi.
  unfold ba_delitem. unfold sbind. rewrite key_range_spec by auto. fold n lo hi.
  replace (lo <=? hi) with true by lia. cbn [fst snd].
  destruct (del_range_spec x (ba_start x + lo) (ba_start x + hi) K) as [D1 D2]; try lia.
  split; [intros F; destruct (D1 F) as (x' & X' & S' & T' & B' & L' & V')|intros F; exact (D2 F)].
  exists x'. split; [auto|]. assert (K' : ba_ok x') by (apply ba_ok_intro; auto; lia).
  split; [auto|]. split; [auto|].
  apply spliced; auto; try lia. { rewrite T', zlen_nil. lia. }
  intros i Hi. rewrite V' by lia. rewrite zlen_nil. destruct (i <? lo) eqn:E.
  - now replace (ba_start x + i <? ba_start x + lo) with true by lia.
  - replace (ba_start x + i <? ba_start x + lo) with false by lia. replace (i <? lo + 0) with false by lia. f_equal. lia.
Qed.

(** ** Insertion *)
Lemma insert_value x i v : ba_ok x -> value_ok v ->
  let n := ba_stop x - ba_start x in let a := py_clamp n i in let t := ba_start x + a in
  let k := zlen (value_bits v) in
  a = n \/ 8 <= k /\ (t mod 8 = 0 \/ 16 <= t mod 8 + k) ->
  exists x', ba_insert i v x = (Ok tt, x') /\ ba_ok x' /\ ba_start x' = ba_start x
    /\ ba_bits x' = firstn (Z.to_nat a) (ba_bits x) ++ value_bits v
                    ++ repeat false (Z.to_nat (Z.min (n - a) (8 * cdiv8 t - t)))
                    ++ skipn (Z.to_nat (a + (8 * cdiv8 t - t))) (ba_bits x).
Proof.
  intros K Hv n a t k Hc. destruct (ba_ok_elim _ K) as (B & Hs & Hl).
  pose proof (py_clamp_range n i ltac:(lia)) as Ha. fold a in Ha.
  unfold ba_insert. unfold sbind, sget, slift. rewrite translate_clamp by lia. fold n a.
  rewrite Z.add_comm. fold t. rewrite value_and_length_bits by auto. cbn [fst snd]. fold k.
  set (vb := value_bits v) in *. assert (Hk : 0 <= k) by (apply zlen_nonneg).
  set (pad := 8 * cdiv8 t - t). assert (Hpad : 0 <= pad < 8) by (unfold pad, cdiv8; lia).
  assert (I : exists x1, insert_zeros t (t + k) x = (Ok tt, x1)
        /\ ba_ok x1 /\ ba_start x1 = ba_start x /\ ba_stop x1 = ba_stop x + k
        /\ (forall i, i < t -> abit x1 i = abit x i)
        /\ (forall i, t + k <= i < ba_stop x + k -> abit x1 i = if i - k <? t + pad then false else abit x (i - k))).
  { destruct (Z.eq_dec a n) as [En|En].
    - replace t with (ba_stop x) by lia.
      destruct (insert_end x k K) as (x1 & X1 & K1 & S1 & T1 & V1 & C1); [lia|].
      exists x1. split; [auto|]. split; [auto|]. split; [auto|]. split; [lia|]. split; [auto|]. lia.
    - destruct (insert_mid x t k K) as (x1 & X1 & B1 & S1 & T1 & L1 & V1 & W1); try lia.
      exists x1. split; [auto|]. split; [apply ba_ok_intro; auto; lia|]. split; [auto|]. split; [lia|]. split; [auto|].
      intros j Hj. rewrite W1 by lia. replace (t + pad) with (8 * cdiv8 t) by (unfold pad; lia). reflexivity. }
  destruct I as (x1 & X1 & K1 & S1 & T1 & V1 & W1). rewrite X1.
  destruct (ba_ok_elim _ K1) as (B1 & Hs1 & Hl1).
  destruct (copy_bits x1 t vb) as (x' & X' & S' & T' & L' & B' & V'); auto; try (fold k; lia).
  fold k in X', V'. exists x'. split; [auto|]. assert (K' : ba_ok x') by (apply ba_ok_intro; auto; lia).
  split; [auto|]. split; [congruence|].
  assert (Lb : zlen (ba_bits x) = n) by (now apply ba_bits_len).
  apply bnth_ext.
  - rewrite !zlen_app, zlen_firstn, zlen_skipn, ba_bits_len, Lb by auto. fold k.
    replace (zlen (repeat false (Z.to_nat (Z.min (n - a) pad)))) with (Z.min (n - a) pad)
      by (unfold zlen; rewrite repeat_length; lia). lia.
  - rewrite ba_bits_len by auto. intros j Hj.
    rewrite !bnth_app, bnth_firstn, bnth_repeat, zlen_firstn, Lb by lia. fold k.
    replace (zlen (repeat false (Z.to_nat (Z.min (n - a) pad)))) with (Z.min (n - a) pad)
      by (unfold zlen; rewrite repeat_length; lia).
    replace (Z.min (Z.of_nat (Z.to_nat a)) n) with a by lia.
    rewrite !bnth_ba by auto. replace ((0 <=? j) && (j <? ba_stop x' - ba_start x')) with true by lia.
    rewrite V'. replace (ba_start x') with (ba_start x) by congruence.
    destruct (j <? a) eqn:E.
    + replace (t <=? ba_start x + j) with false by lia. cbn [andb]. rewrite V1 by lia.
      now replace ((0 <=? j) && (j <? ba_stop x - ba_start x)) with true by lia.
    + destruct (j - a <? k) eqn:F.
      * replace ((t <=? ba_start x + j) && (ba_start x + j <? t + k)) with true by lia. f_equal. lia.
      * replace ((t <=? ba_start x + j) && (ba_start x + j <? t + k)) with false by lia.
        rewrite W1 by lia. destruct (j - a - k <? Z.min (n - a) pad) eqn:G.
        -- now replace (ba_start x + j - k <? t + pad) with true by lia.
        -- replace (ba_start x + j - k <? t + pad) with false by lia.
           rewrite bnth_skipn by lia. rewrite bnth_ba by auto.
           replace (Z.min (n - a) pad) with pad in * by lia.
           replace ((0 <=? a + pad + (j - a - k - pad)) && (a + pad + (j - a - k - pad) <? ba_stop x - ba_start x)) with true by lia.
           f_equal. lia.
Qed.

(** ** zfill *)
Lemma zfill_ok x len : ba_ok x -> ba_clean x ->
  let n := ba_stop x - ba_start x in
  len <= n \/ gap_ok (ba_stop x) (len - n) ->
  exists x', ba_zfill len x = (Ok tt, x') /\ ba_ok x' /\ ba_start x' = ba_start x /\ ba_clean x'
    /\ ba_bits x' = ba_bits x ++ repeat false (Z.to_nat (len - n)).
Proof.
  intros K C n Hg. destruct (ba_ok_elim _ K) as (B & Hs & Hl). unfold ba_zfill. unfold sbind, sget. fold n.
  destruct (n <? len) eqn:E.
  - replace (ba_stop x + len - n) with (ba_stop x + (len - n)) by lia.
    destruct (insert_end x (len - n) K ltac:(lia)) as (x1 & X1 & K1 & S1 & T1 & V1 & C1).
    destruct (C1 C) as (C2 & G & _). exists x1. split; [auto|]. split; [auto|]. split; [auto|]. split; [auto|].
    assert (Lb : zlen (ba_bits x) = n) by (now apply ba_bits_len).
    apply bnth_ext.
    + rewrite zlen_app, !ba_bits_len by auto. unfold zlen at 1. rewrite repeat_length. lia.
    + rewrite ba_bits_len by auto. intros i Hi. rewrite bnth_app, bnth_repeat, Lb, !bnth_ba by auto.
      replace ((0 <=? i) && (i <? ba_stop x1 - ba_start x1)) with true by lia. rewrite S1.
      destruct (i <? n) eqn:F.
      * replace ((0 <=? i) && (i <? ba_stop x - ba_start x)) with true by lia. apply V1. lia.
      * apply G; [|lia]. destruct Hg; [lia|auto].
  - exists x. replace (Z.to_nat (len - n)) with 0%nat by lia. cbn [repeat]. rewrite app_nil_r. auto.
Qed.

(** ... and what appears otherwise. *)
Lemma zfill_junk x len : ba_ok x -> ba_clean x -> ba_start x = 0 -> 8 <= ba_stop x < len ->
  ~ gap_ok (ba_stop x) (len - ba_stop x) ->
  let f := 8 - ba_stop x mod 8 + len mod 8 in
  exists x', ba_zfill len x = (Ok tt, x') /\ ba_ok x'
    /\ ba_bits x' = ba_bits x ++ repeat false (Z.to_nat (f - 8)) ++ skipn (Z.to_nat (ba_stop x - 8)) (ba_bits x)
                    ++ repeat false (Z.to_nat (len - ba_stop x - f)).
Proof.
  intros K C Hs0 Ht Hg f. destruct (ba_ok_elim _ K) as (B & Hs & Hl). unfold ba_zfill. unfold sbind, sget. rewrite Hs0.
  replace (ba_stop x - 0 <? len) with true by lia.
  replace (ba_stop x + len - (ba_stop x - 0)) with (ba_stop x + (len - ba_stop x)) by lia.
  destruct (insert_end x (len - ba_stop x) K ltac:(lia)) as (x1 & X1 & K1 & S1 & T1 & V1 & C1).
  destruct (C1 C) as (C2 & _ & G). specialize (G Hg ltac:(lia)). cbv zeta in G.
  replace (ba_stop x + (len - ba_stop x)) with len in G by lia. fold f in G.
  assert (Hf : 8 <= f <= len - ba_stop x) by (unfold f, gap_ok in *; lia).
  exists x1. split; [auto|]. split; [auto|].
  assert (Lb : zlen (ba_bits x) = ba_stop x) by (rewrite ba_bits_len by auto; lia).
  assert (R : forall k, 0 <= k -> zlen (repeat false (Z.to_nat k)) = k) by (intros k Hk; unfold zlen; rewrite repeat_length; lia).
  apply bnth_ext.
  - rewrite !zlen_app, zlen_skipn, !R, ba_bits_len, Lb by (auto; lia). lia.
  - rewrite ba_bits_len by auto. intros i Hi. rewrite !bnth_app, !bnth_repeat, zlen_skipn, !R, Lb by lia.
    replace (Z.max 0 (ba_stop x - Z.of_nat (Z.to_nat (ba_stop x - 8)))) with 8 by lia.
    rewrite !bnth_ba by auto. replace ((0 <=? i) && (i <? ba_stop x1 - ba_start x1)) with true by lia. rewrite S1, Hs0.
    destruct (i <? ba_stop x) eqn:E1.
    { replace ((0 <=? i) && (i <? ba_stop x - 0)) with true by lia. apply V1. lia. }
    rewrite G by lia. destruct (i - ba_stop x <? f - 8) eqn:E2.
    { now replace ((ba_stop x + f - 8 <=? 0 + i) && (0 + i <? ba_stop x + f)) with false by lia. }
    match goal with |- context [if ?c <? 8 then _ else _] => destruct (c <? 8) eqn:E3 end.
    + replace ((ba_stop x + f - 8 <=? 0 + i) && (0 + i <? ba_stop x + f)) with true by lia.
      rewrite bnth_skipn by lia. rewrite bnth_ba by auto. rewrite Hs0.
      match goal with |- context [if ?c then abit x ?y else false] => replace c with true by lia end. f_equal. lia.
    + now replace ((ba_stop x + f - 8 <=? 0 + i) && (0 + i <? ba_stop x + f)) with false by lia.
Qed.
