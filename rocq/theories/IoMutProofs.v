(** Proofs about buffer/io_buffer.py, part 2: the mutable array. *)
From Verif Require Import Base BaseProofs Range IoBuffer IoSpec IoProofs.
From Coq Require Import ZArith List Bool Lia ZifyBool ZifyNat.
Import ListNotations.
Open Scope Z_scope.
Ltac Zify.zify_post_hook ::= Z.div_mod_to_equations.

Ltac sstep := cbn [sbind sret sraise sget sput slift ba_set_buf ba_set_stop ba_buf ba_start ba_stop fst snd passert rbind].


(** [x'] is [x] with the [n] bits from [ofs] replaced by [f]. *)
Definition overwritten (x x' : baa) (ofs n : Z) (f : Z -> bool) : Prop :=
  ba_start x' = ba_start x /\ ba_stop x' = ba_stop x
  /\ zlen (ba_buf x') = zlen (ba_buf x) /\ bytes_ok (ba_buf x')
  /\ forall i, abit x' i = if (ofs <=? i) && (i <? ofs + n) then f (i - ofs) else abit x i.

Lemma set_in_byte_spec x ofs n v :
  bytes_ok (ba_buf x) -> 0 <= ofs < 8 * zlen (ba_buf x) -> 0 <= n -> ofs mod 8 + n <= 8 -> 0 <= v < 2 ^ n ->
  exists x', set_in_byte ofs n v x = (Ok tt, x') /\ overwritten x x' ofs n (Z.testbit v).
Proof.
  intros B Ho Hn H8 Hv. destruct x as [l s e]. cbn [ba_buf] in *.
  unfold set_in_byte. rewrite Z.quot_div_nonneg, Z.rem_mod_nonneg by lia.
  assert (Hq : 0 <= ofs / 8 < zlen l) by lia.
  assert (Hk : (Z.to_nat (ofs / 8) < length l)%nat) by (unfold zlen in Hq; lia).
  assert (Vb : is_byte v).
  { split; [lia|]. eapply Z.lt_le_trans; [apply Hv|]. change 256 with (2 ^ 8). apply Z.pow_le_mono_r; lia. }
  destruct ((ofs mod 8 =? 0) && (n =? 8)) eqn:E.
  - unfold ba_store. cbn [ba_buf]. rewrite ba_set_ok by auto. eexists. split; [reflexivity|].
    unfold overwritten, abit. cbn [ba_buf ba_start ba_stop]. rewrite zlen_list_upd.
    split; [auto|]. split; [auto|]. split; [auto|]. split; [now apply Forall_list_upd|].
    intros i. destruct (Z_lt_ge_dec i 0).
    { rewrite !bit_at_neg by lia. now replace (ofs <=? i) with false by lia. }
    rewrite bit_at_list_upd by lia. rewrite Z2Nat.id by lia.
    replace ((ofs <=? i) && (i <? ofs + n)) with (i / 8 =? ofs / 8) by lia.
    destruct (i / 8 =? ofs / 8) eqn:F; auto. f_equal. lia.
  - unfold ba_load, sbind. cbn [ba_buf]. rewrite (py_nth_ok l (ofs / 8) 0) by lia.
    set (b := nth (Z.to_nat (ofs / 8)) l 0).
    assert (Bb : is_byte b) by (apply bytes_ok_nth; exact B).
    unfold slift, py_shl1. replace (n <? 0) with false by lia. replace (ofs mod 8 <? 0) with false by lia.
    set (m := Z.lnot (Z.shiftl (Z.shiftl 1 n - 1) (ofs mod 8))).
    assert (Mt : forall j, 0 <= j -> Z.testbit m j = negb ((ofs mod 8 <=? j) && (j <? ofs mod 8 + n))).
    { intros j Hj. unfold m. rewrite Z.lnot_spec by lia. f_equal. rewrite Z.shiftl_spec by lia.
      destruct (Z_lt_ge_dec (j - ofs mod 8) 0).
      - rewrite Z.testbit_neg_r by lia. lia.
      - rewrite testbit_mask by lia. lia. }
    assert (B1 : is_byte (Z.land b m)).
    { apply is_byte_bits.
      - apply Z.land_nonneg. left. apply Bb.
      - intros i Hi. rewrite Z.land_spec, testbit_high by auto. reflexivity. }
    unfold ba_store at 1. cbn [ba_buf]. rewrite ba_set_ok by auto. cbn [ba_buf ba_start ba_stop].
    set (l1 := list_upd l (Z.to_nat (ofs / 8)) (Z.land b m)).
    assert (L1 : zlen l1 = zlen l) by apply zlen_list_upd.
    rewrite (py_nth_ok l1 (ofs / 8) 0) by lia.
    assert (N1 : nth (Z.to_nat (ofs / 8)) l1 0 = Z.land b m).
    { unfold l1. rewrite nth_list_upd by auto. now rewrite Nat.eqb_refl. }
    rewrite N1. set (w := Z.lor (Z.land b m) (Z.land (Z.shiftl v (ofs mod 8)) 255)).
    assert (Bv : 0 <= Z.land (Z.shiftl v (ofs mod 8)) 255) by (apply land_nonneg_l; lia).
    assert (Wt : forall j, 0 <= j -> Z.testbit w j =
       (if (ofs mod 8 <=? j) && (j <? ofs mod 8 + n) then Z.testbit v (j - ofs mod 8) else Z.testbit b j)).
    { intros j Hj. unfold w. rewrite Z.lor_spec, !Z.land_spec, Mt, testbit_255, Z.shiftl_spec by lia.
      destruct ((ofs mod 8 <=? j) && (j <? ofs mod 8 + n)) eqn:F; cbn [negb].
      - rewrite andb_false_r. cbn [orb]. replace (j <? 8) with true by lia. now rewrite andb_true_r.
      - rewrite andb_true_r. destruct (Z_lt_ge_dec j (ofs mod 8)).
        + rewrite (Z.testbit_neg_r v) by lia. cbn [andb]. now rewrite orb_false_r.
        + rewrite (testbit_above v n) by lia. cbn [andb]. now rewrite orb_false_r. }
    assert (Wb : is_byte w).
    { apply is_byte_bits.
      - unfold w. apply Z.lor_nonneg. destruct B1. auto.
      - intros i Hi. rewrite Wt by lia. replace ((ofs mod 8 <=? i) && (i <? ofs mod 8 + n)) with false by lia.
        now apply testbit_high. }
    unfold ba_store. cbn [ba_buf]. rewrite ba_set_ok by (auto; lia).
    eexists. split; [reflexivity|]. unfold overwritten, abit. cbn [ba_buf ba_start ba_stop].
    rewrite zlen_list_upd, L1. split; [auto|]. split; [auto|]. split; [auto|].
    split; [apply Forall_list_upd; [now apply Forall_list_upd|auto]|].
    intros i. destruct (Z_lt_ge_dec i 0).
    { rewrite !bit_at_neg by lia. now replace (ofs <=? i) with false by lia. }
    assert (Hk1 : (Z.to_nat (ofs / 8) < length l1)%nat) by (unfold zlen in L1, Hq; lia).
    rewrite bit_at_list_upd by lia. unfold l1. rewrite bit_at_list_upd by lia. rewrite Z2Nat.id by lia.
    destruct (i / 8 =? ofs / 8) eqn:F.
    + rewrite Wt by lia.
      replace ((ofs mod 8 <=? i mod 8) && (i mod 8 <? ofs mod 8 + n)) with ((ofs <=? i) && (i <? ofs + n)) by lia.
      destruct ((ofs <=? i) && (i <? ofs + n)) eqn:G.
      * f_equal. lia.
      * unfold b. rewrite bit_at_nonneg by lia. now replace (i / 8) with (ofs / 8) by lia.
    + now replace ((ofs <=? i) && (i <? ofs + n)) with false by lia.
Qed.

Lemma overwritten_ok x x' ofs n f : overwritten x x' ofs n f -> bytes_ok (ba_buf x').
Proof. intros (_ & _ & _ & H & _). exact H. Qed.

Lemma set_byte_bits_spec x ofs n v :
  bytes_ok (ba_buf x) -> 0 <= ofs < 8 * zlen (ba_buf x) -> 0 <= n <= 8 -> ofs + n <= 8 * zlen (ba_buf x) ->
  0 <= v < 2 ^ n ->
  exists x', set_byte_bits ofs n v x = (Ok tt, x') /\ overwritten x x' ofs n (Z.testbit v).
Proof.
  intros B Ho Hn H8 Hv. unfold set_byte_bits. rewrite Z.quot_div_nonneg, Z.rem_mod_nonneg by lia.
  destruct (((ofs mod 8 =? 0) && (n =? 8)) || (ofs mod 8 + n <=? 8)) eqn:E.
  - apply set_in_byte_spec; auto; lia.
  - set (k := 8 - ofs mod 8).
    destruct (set_in_byte_spec x ofs k (Z.land v (Z.shiftl 1 k - 1))) as (x1 & X1 & O1); auto; try lia.
    { rewrite land_mask_mod by lia. apply Z.mod_pos_bound. apply Z.pow_pos_nonneg; lia. }
    unfold sbind. rewrite X1. destruct O1 as (S1 & T1 & L1 & B1 & V1).
    destruct (set_in_byte_spec x1 (8 * (ofs / 8 + 1)) (n - k) (Z.shiftr v k)) as (x2 & X2 & O2); auto; try lia.
    { rewrite Z.shiftr_div_pow2 by lia. split.
      - apply Z.div_pos; [lia|]. apply Z.pow_pos_nonneg; lia.
      - apply Z.div_lt_upper_bound; [apply Z.pow_pos_nonneg; lia|].
        rewrite <- Z.pow_add_r by lia. replace (k + (n - k)) with n by lia. lia. }
    rewrite X2. eexists. split; [reflexivity|]. destruct O2 as (S2 & T2 & L2 & B2 & V2).
    split; [congruence|]. split; [congruence|]. split; [congruence|]. split; [auto|].
    intros i. rewrite V2, V1.
    destruct ((8 * (ofs / 8 + 1) <=? i) && (i <? 8 * (ofs / 8 + 1) + (n - k))) eqn:F.
    + replace ((ofs <=? i) && (i <? ofs + n)) with true by lia.
      rewrite Z.shiftr_spec by lia. f_equal. lia.
    + destruct ((ofs <=? i) && (i <? ofs + k)) eqn:G.
      * replace ((ofs <=? i) && (i <? ofs + n)) with true by lia.
        rewrite Z.land_spec, testbit_mask by lia. replace (i - ofs <? k) with true by lia. apply andb_true_r.
      * now replace ((ofs <=? i) && (i <? ofs + n)) with false by lia.
Qed.

Lemma bit_at_tail b l i : 0 <= i -> bit_at (b :: l) (i + 8) = bit_at l i.
Proof. intros H. rewrite bit_at_cons_hi by lia. f_equal. lia. Qed.

Lemma copy_loop_spec L : forall x ofs len,
  bytes_ok (ba_buf x) -> bytes_ok L -> 0 <= ofs -> 0 <= len -> 8 * zlen L < len + 8 ->
  (forall i, len <= i -> bit_at L i = false) ->
  ofs + Z.min len (8 * zlen L) <= 8 * zlen (ba_buf x) ->
  exists x', copy_loop ofs len L x = (Ok tt, x') /\ overwritten x x' ofs (Z.min len (8 * zlen L)) (bit_at L).
Proof.
  induction L as [|b L IH]; intros x ofs len B BL Ho Hl H1 Hz H2; cbn [copy_loop].
  - exists x. split; [reflexivity|]. split; [auto|]. split; [auto|]. split; [auto|]. split; [auto|].
    intros i. rewrite zlen_nil. now replace ((ofs <=? i) && (i <? ofs + Z.min len (8 * 0))) with false by lia.
  - rewrite zlen_cons in *. pose proof (zlen_nonneg L). inversion BL as [|? ? Bb BL']; subst.
    assert (Vb : 0 <= b < 2 ^ Z.min len 8).
    { split; [apply Bb|]. apply lt_pow2_bits; [lia|apply Bb|]. intros i Hi.
      destruct (Z_lt_ge_dec i 8).
      - rewrite <- (bit_at_cons_lo b L) by lia. apply Hz. lia.
      - apply testbit_high; [exact Bb|lia]. }
    destruct (set_byte_bits_spec x ofs (Z.min len 8) b) as (x1 & X1 & S1 & T1 & L1 & B1 & V1); auto; try lia.
    unfold sbind. rewrite X1.
    destruct L as [|b' L'].
    { cbn [copy_loop sret]. exists x1. split; [reflexivity|]. split; [auto|]. split; [auto|]. split; [auto|]. split; [auto|].
      intros i. rewrite V1. rewrite zlen_nil. replace (Z.min len (8 * (1 + 0))) with (Z.min len 8) by lia.
      destruct ((ofs <=? i) && (i <? ofs + Z.min len 8)) eqn:F; auto. now rewrite bit_at_cons_lo by lia. }
    rewrite zlen_cons in *. pose proof (zlen_nonneg L').
    destruct (IH x1 (ofs + 8) (len - 8)) as (x2 & X2 & S2 & T2 & L2 & B2 & V2); auto; try lia.
    { intros i Hi. rewrite <- (bit_at_tail b) by lia. apply Hz. lia. }
    rewrite X2. exists x2. split; [reflexivity|].
    split; [congruence|]. split; [congruence|]. split; [congruence|]. split; [auto|].
    intros i. rewrite V2, V1. set (M := 1 + zlen L') in *.
    destruct ((ofs + 8 <=? i) && (i <? ofs + 8 + Z.min (len - 8) (8 * M))) eqn:F.
    + replace ((ofs <=? i) && (i <? ofs + Z.min len (8 * (1 + M)))) with true by lia.
      rewrite <- (bit_at_tail b) by lia. f_equal. lia.
    + destruct ((ofs <=? i) && (i <? ofs + Z.min len 8)) eqn:G.
      * replace ((ofs <=? i) && (i <? ofs + Z.min len (8 * (1 + M)))) with true by lia.
        now rewrite bit_at_cons_lo by lia.
      * now replace ((ofs <=? i) && (i <? ofs + Z.min len (8 * (1 + M)))) with false by lia.
Qed.

(** ** _get_byte_bits on the array *)
Lemma arr_get_spec l ofs n : bytes_ok l -> 0 <= ofs < 8 * zlen l -> 0 <= n <= 8 ->
  exists z, get_byte_bits (py_nth l) (zlen l) ofs n = Ok z /\ 0 <= z < 2 ^ n
    /\ forall j, 0 <= j -> Z.testbit z j = (j <? n) && bit_at l (ofs + j).
Proof.
  intros B Ho Hn. destruct (buf_get_bits_spec (BArr l) ofs n B Ho Hn) as (z & Z1 & Z2 & Z3).
  exists z. split; [exact Z1|]. split; [exact Z2|]. intros j Hj. rewrite Z3 by auto. cbn [buf_bits]. now rewrite bnth_bytes.
Qed.

(** A read that starts up to 15 bits before the array gives some byte. *)
Lemma arr_get_before l ofs : bytes_ok l -> 0 < zlen l -> -16 < ofs < 0 ->
  exists z, get_byte_bits (py_nth l) (zlen l) ofs 8 = Ok z /\ 0 <= z < 2 ^ 8.
Proof.
  intros B Hl Ho. unfold get_byte_bits. change (py_shl1 8) with (Ok 256). cbn [rbind].
  assert (Hq : Z.quot ofs 8 = 0 \/ Z.quot ofs 8 = -1).
  { pose proof (Z.quot_rem' ofs 8). pose proof (Z.rem_bound_neg_pos ofs 8). lia. }
  pose proof (Z.quot_rem' ofs 8) as Eqr. pose proof (Z.rem_bound_neg_pos ofs 8) as Hr.
  destruct (Z.rem ofs 8 =? 0) eqn:E0.
  - assert (Q : Z.quot ofs 8 = -1) by lia. rewrite Q. unfold py_nth, py_index.
    replace ((0 <=? -1) && (-1 <? zlen l)) with false by lia.
    replace ((-1 <? 0) && (0 <=? zlen l + -1)) with true by lia.
    destruct (nth_error l (Z.to_nat (zlen l + -1))) eqn:En.
    + cbn [rbind]. eexists. split; [reflexivity|]. split; [apply land_nonneg_l; lia|].
      apply lt_pow2_bits; [lia|apply land_nonneg_l; lia|]. intros i Hi. rewrite Z.land_spec.
      change (256 - 1) with 255. rewrite testbit_255 by lia. replace (i <? 8) with false by lia. apply andb_false_r.
    + apply nth_error_None in En. unfold zlen in *. lia.
  - replace (Z.rem ofs 8 <? 0) with true by lia. unfold py_shl1. replace (8 + Z.rem ofs 8 <? 0) with false by lia.
    cbn [rbind]. rewrite (py_nth_ok l 0 0) by lia. cbn [rbind]. eexists. split; [reflexivity|].
    pose proof (bytes_ok_nth l (Z.to_nat 0) B) as Bb.
    assert (0 <= Z.land (nth (Z.to_nat 0) l 0) (Z.shiftl 1 (8 + Z.rem ofs 8) - 1)) by (apply Z.land_nonneg; left; apply Bb).
    split; [auto|]. apply lt_pow2_bits; [lia|auto|]. intros i Hi. rewrite Z.land_spec, testbit_high by auto. reflexivity.
Qed.

(** The bits read up to 7 places before the array: the low bits of the first byte, unshifted. *)
Lemma arr_get_before_bits l ofs : bytes_ok l -> 0 < zlen l -> -8 < ofs < 0 ->
  exists z, get_byte_bits (py_nth l) (zlen l) ofs 8 = Ok z /\ 0 <= z < 2 ^ 8
   /\ forall j, 0 <= j -> Z.testbit z j = (j <? 8 + ofs) && bit_at l j.
Proof.
  intros B Hl Ho. unfold get_byte_bits. change (py_shl1 8) with (Ok 256). cbn [rbind].
  assert (Q : Z.quot ofs 8 = 0 /\ Z.rem ofs 8 = ofs).
  { pose proof (Z.quot_rem' ofs 8). pose proof (Z.rem_bound_neg_pos ofs 8). lia. }
  destruct Q as [Q R]. rewrite R.
  replace (ofs =? 0) with false by lia. replace (ofs <? 0) with true by lia.
  unfold py_shl1. replace (8 + ofs <? 0) with false by lia.
  cbn [rbind]. rewrite (py_nth_ok l 0 0) by lia. cbn [rbind]. eexists. split; [reflexivity|].
  pose proof (bytes_ok_nth l (Z.to_nat 0) B) as Bb.
  assert (0 <= Z.land (nth (Z.to_nat 0) l 0) (Z.shiftl 1 (8 + ofs) - 1)) by (apply Z.land_nonneg; left; apply Bb).
  split; [split; [auto|]|].
  - apply lt_pow2_bits; [lia|auto|]. intros i Hi. rewrite Z.land_spec, testbit_high by auto. reflexivity.
  - intros j Hj. rewrite Z.land_spec, testbit_mask by lia. rewrite andb_comm.
    destruct (j <? 8 + ofs) eqn:E; cbn [andb]; auto. rewrite bit_at_nonneg by lia. f_equal; [f_equal; lia|lia].
Qed.

(** ** Shifting up *)
(** The lowest offset the loop visits. *)
Definition lowest (ofs start : Z) : Z := if start <=? ofs then start + (ofs - start) mod 8 else ofs + 8.

Lemma shift_up_spec fuel : forall x ofs start frac,
  bytes_ok (ba_buf x) -> 0 <= start -> 0 < frac < 16 -> ofs + 8 <= 8 * zlen (ba_buf x) ->
  (Z.to_nat (ofs - start + 8) <= fuel)%nat ->
  exists x', shift_up fuel ofs start frac x = (Ok tt, x')
    /\ ba_start x' = ba_start x /\ ba_stop x' = ba_stop x
    /\ zlen (ba_buf x') = zlen (ba_buf x) /\ bytes_ok (ba_buf x')
    /\ (forall i, i < lowest ofs start \/ ofs + 8 <= i -> abit x' i = abit x i)
    /\ (forall i, lowest ofs start <= i < ofs + 8 -> 0 <= i - frac - (i - lowest ofs start) mod 8 ->
          abit x' i = abit x (i - frac))
    /\ (lowest ofs start < ofs + 8 -> -8 < lowest ofs start - frac < 0 ->
          forall j, 0 <= j < 8 -> abit x' (lowest ofs start + j)
            = (j <? 8 + (lowest ofs start - frac)) && abit x j).
Proof.
  induction fuel as [|k IH]; intros x ofs start frac B Hs Hf Hl Hk; cbn [shift_up]; unfold lowest.
  - replace (start <=? ofs) with false by lia. exists x. split; [reflexivity|].
    split; [auto|]. split; [auto|]. split; [auto|]. split; [auto|]. split; [auto|]. split; lia.
  - destruct (start <=? ofs) eqn:E.
    2:{ exists x. split; [reflexivity|]. split; [auto|]. split; [auto|]. split; [auto|]. split; [auto|].
        split; [auto|]. split; lia. }
    assert (G : exists z, get_byte_bits (py_nth (ba_buf x)) (zlen (ba_buf x)) (ofs - frac) 8 = Ok z /\ 0 <= z < 2 ^ 8
              /\ (0 <= ofs - frac -> forall j, 0 <= j -> Z.testbit z j = (j <? 8) && bit_at (ba_buf x) (ofs - frac + j))
              /\ (-8 < ofs - frac < 0 -> forall j, 0 <= j -> Z.testbit z j = (j <? 8 + (ofs - frac)) && bit_at (ba_buf x) j)).
    { destruct (Z_lt_ge_dec (ofs - frac) 0) as [Hn|Hn].
      - destruct (Z_lt_ge_dec (-8) (ofs - frac)).
        + destruct (arr_get_before_bits (ba_buf x) (ofs - frac)) as (z & Z1 & Z2 & Z3); auto; try lia.
          exists z. split; [auto|]. split; [auto|]. split; [lia|]. auto.
        + destruct (arr_get_before (ba_buf x) (ofs - frac)) as (z & Z1 & Z2); auto; try lia.
          exists z. split; [auto|]. split; [auto|]. split; lia.
      - destruct (arr_get_spec (ba_buf x) (ofs - frac) 8) as (z & Z1 & Z2 & Z3); auto; try lia.
        exists z. split; [auto|]. split; [auto|]. split; [auto|lia]. }
    destruct G as (z & Z1 & Z2 & Z3 & Z4). unfold sbind, ba_get_byte_bits. rewrite Z1.
    destruct (set_byte_bits_spec x ofs 8 z) as (x1 & X1 & S1 & T1 & L1 & B1 & V1); auto; try lia.
    rewrite X1. specialize (IH x1 (ofs - 8) start frac B1 Hs Hf).
    destruct IH as (x2 & X2 & S2 & T2 & L2 & B2 & U2 & V2 & W2); [lia|lia|].
    rewrite X2. exists x2. split; [reflexivity|]. split; [congruence|]. split; [congruence|]. split; [congruence|].
    split; [auto|]. unfold lowest in *.
    set (m := start + (ofs - start) mod 8) in *.
    assert (Em : (if start <=? ofs - 8 then start + (ofs - 8 - start) mod 8 else ofs - 8 + 8) = m).
    { unfold m. destruct (start <=? ofs - 8) eqn:F; lia. }
    rewrite Em in *. assert (Hm : start <= m <= ofs) by lia. split; [|split].
    + intros i Hi. rewrite U2 by lia. rewrite V1. now replace ((ofs <=? i) && (i <? ofs + 8)) with false by lia.
    + intros i Hi1 Hi2. destruct (Z_lt_ge_dec i ofs).
      * rewrite V2 by lia. rewrite V1. now replace ((ofs <=? i - frac) && (i - frac <? ofs + 8)) with false by lia.
      * rewrite U2 by lia. rewrite V1. replace ((ofs <=? i) && (i <? ofs + 8)) with true by lia.
        rewrite Z3 by lia. replace (i - ofs <? 8) with true by lia. cbn [andb]. unfold abit. f_equal. lia.
    + intros Hlt Hneg j Hj. destruct (Z.eq_dec m ofs) as [Hmo|Hmo].
      * rewrite U2 by lia. rewrite V1. replace ((ofs <=? m + j) && (m + j <? ofs + 8)) with true by lia.
        rewrite Hmo in *. rewrite Z4 by lia. replace (ofs + j - ofs) with j by lia. reflexivity.
      * assert (m <= ofs - 8) by (unfold m in *; lia).
        rewrite W2 by lia. rewrite V1. now replace ((ofs <=? j) && (j <? ofs + 8)) with false by lia.
Qed.
