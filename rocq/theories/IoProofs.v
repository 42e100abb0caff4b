(** Proofs about buffer/io_buffer.py, part 1: reading. *)
From Verif Require Import Base BaseProofs Range IoBuffer IoSpec.
From Coq Require Import ZArith List Bool Lia ZifyBool ZifyNat.
Import ListNotations.
Open Scope Z_scope.
Ltac Zify.zify_post_hook ::= Z.div_mod_to_equations.

(** ** Bit lists by position *)
Definition bnth (l : list bool) (i : Z) : bool := if i <? 0 then false else nth (Z.to_nat i) l false.

Lemma bnth_over l i : zlen l <= i -> bnth l i = false.
Proof. intros H. unfold bnth. destruct (i <? 0); auto. apply nth_overflow. unfold zlen in H. lia. Qed.
Lemma bnth_neg l i : i < 0 -> bnth l i = false.
Proof. intros H. unfold bnth. now replace (i <? 0) with true by lia. Qed.

Lemma bnth_ext l l' : zlen l = zlen l' -> (forall i, 0 <= i < zlen l -> bnth l i = bnth l' i) -> l = l'.
Proof.
  intros H E. apply (nth_ext l l' false false). { unfold zlen in H. lia. }
  intros n Hn. specialize (E (Z.of_nat n)). unfold bnth, zlen in *.
  replace (Z.of_nat n <? 0) with false in E by lia. rewrite Nat2Z.id in E. apply E. lia.
Qed.

Lemma bnth_bytes l i : bnth (bits_of_bytes l) i = bit_at l i.
Proof.
  unfold bnth. destruct (i <? 0) eqn:E.
  - symmetry. apply bit_at_neg. lia.
  - apply nth_bits_of_bytes. lia.
Qed.

Lemma bnth_app l l' i : bnth (l ++ l') i = if i <? zlen l then bnth l i else bnth l' (i - zlen l).
Proof.
  unfold bnth. pose proof (zlen_nonneg l). destruct (i <? 0) eqn:E.
  - now replace (i <? zlen l) with true by lia.
  - destruct (i <? zlen l) eqn:F.
    + apply app_nth1. unfold zlen in F. lia.
    + replace (i - zlen l <? 0) with false by lia. rewrite app_nth2 by (unfold zlen in F; lia).
      f_equal. unfold zlen. lia.
Qed.

Lemma nth_repeat_false n i : nth i (repeat false n) false = false.
Proof.
  destruct (nth_in_or_default i (repeat false n) false) as [H|H]; [|exact H].
  apply repeat_spec in H. exact H.
Qed.
Lemma bnth_repeat n i : bnth (repeat false n) i = false.
Proof. unfold bnth. destruct (i <? 0); auto using nth_repeat_false. Qed.

Lemma bnth_pad l i : bnth (pad_to_byte l) i = bnth l i.
Proof.
  unfold pad_to_byte. rewrite bnth_app, bnth_repeat. destruct (i <? zlen l) eqn:E; auto.
  symmetry. apply bnth_over. lia.
Qed.
Lemma zlen_pad l : zlen (pad_to_byte l) = 8 * cdiv8 (zlen l).
Proof. unfold pad_to_byte, cdiv8. rewrite zlen_app, zlen_repeat. lia. Qed.

Lemma py_clamp_id n i : 0 <= i <= n -> py_clamp n i = i.
Proof. unfold py_clamp. intros H. destruct (i <? 0) eqn:E; lia. Qed.

Lemma zlen_py_slice {A} (l : list A) a b :
  0 <= a <= b -> b <= zlen l -> zlen (py_slice l a b) = b - a.
Proof.
  intros H1 H2. unfold py_slice. rewrite !py_clamp_id by lia.
  rewrite zlen_firstn, zlen_skipn. lia.
Qed.
Lemma bnth_slice l a b i : 0 <= a <= b -> b <= zlen l ->
  bnth (py_slice l a b) i = if (0 <=? i) && (i <? b - a) then bnth l (a + i) else false.
Proof.
  intros H1 H2. unfold py_slice. rewrite !py_clamp_id by lia.
  destruct ((0 <=? i) && (i <? b - a)) eqn:E.
  - unfold bnth. replace (i <? 0) with false by lia. replace (a + i <? 0) with false by lia.
    assert (Hk : (Z.to_nat i < Z.to_nat (b - a))%nat) by lia.
    replace (Z.to_nat (a + i)) with (Z.to_nat a + Z.to_nat i)%nat by lia.
    revert Hk. generalize (Z.to_nat (b - a)) (Z.to_nat a) (Z.to_nat i). clear.
    intros n m k Hk.
    rewrite <- (firstn_skipn m l) at 2.
    destruct (Nat.le_gt_cases (length l) m) as [Hm|Hm].
    + rewrite skipn_all2 by lia. rewrite firstn_nil, app_nil_r.
      rewrite (nth_overflow (firstn m l)); [destruct k; reflexivity|]. rewrite firstn_length. lia.
    + rewrite app_nth2; rewrite firstn_length; [|lia].
      replace (m + k - Nat.min m (length l))%nat with k by lia.
      revert n Hk. generalize (skipn m l). clear. intros l n Hk.
      revert k l Hk; induction n as [|n IH]; intros k l Hk; [lia|].
      destruct l as [|x l]; [now destruct k|]. destruct k; [reflexivity|]. cbn. apply IH. lia.
  - destruct (Z_lt_ge_dec i 0); [now apply bnth_neg|]. apply bnth_over.
    rewrite zlen_firstn, zlen_skipn. lia.
Qed.

(** Length and bits of a buffer. *)
Lemma buf_bits_len b : buf_ok b -> zlen (buf_bits b) = blength b.
Proof.
  induction b as [l|inner IH start stop]; cbn [buf_bits blength buf_ok].
  - intros _. apply bits_of_bytes_length.
  - intros (H & H1 & H2 & H3). specialize (IH H). apply zlen_py_slice; [lia|].
    rewrite zlen_pad, IH. destruct inner; cbn [blength blen] in *; unfold cdiv8 in *; lia.
Qed.
Lemma blen_cdiv b : blen b = cdiv8 (blength b).
Proof. destruct b; cbn [blen blength]; unfold cdiv8; lia. Qed.
Lemma blength_nonneg b : buf_ok b -> 0 <= blength b.
Proof. destruct b; cbn [blength buf_ok]; intros H; [pose proof (zlen_nonneg l)|]; lia. Qed.

Lemma bnth_view inner start stop i : buf_ok (BView inner start stop) ->
  bnth (buf_bits (BView inner start stop)) i
  = if (0 <=? i) && (i <? stop - start) then bnth (buf_bits inner) (start + i) else false.
Proof.
  intros (H & H1 & H2 & H3). cbn [buf_bits]. rewrite bnth_slice; [now rewrite bnth_pad|lia|].
  rewrite zlen_pad, buf_bits_len, <- blen_cdiv by auto. lia.
Qed.

(** ** _get_byte_bits *)
Lemma testbit_255 i : 0 <= i -> Z.testbit 255 i = (i <? 8).
Proof. intros H. exact (testbit_mask 8 i ltac:(lia) H). Qed.

Lemma land_nonneg_l a b : 0 <= b -> 0 <= Z.land a b.
Proof. intros H. apply Z.land_nonneg. auto. Qed.

Lemma get_byte_bits_spec (nthf : Z -> res Z) (len : Z) (f : Z -> bool) ofs n :
  (forall i, 0 <= i < len -> exists z, nthf i = Ok z /\ is_byte z
             /\ forall j, 0 <= j < 8 -> Z.testbit z j = f (8 * i + j)) ->
  (forall i, 8 * len <= i -> f i = false) ->
  0 <= ofs < 8 * len -> 0 <= n <= 8 ->
  exists z, get_byte_bits nthf len ofs n = Ok z /\ 0 <= z < 2 ^ n
    /\ forall j, 0 <= j -> Z.testbit z j = (j <? n) && f (ofs + j).
Proof.
  intros N F Ho Hn.
  assert (Fin : forall z, (0 <= z) -> (forall j, 0 <= j -> Z.testbit z j = (j <? n) && f (ofs + j)) ->
     0 <= z < 2 ^ n /\ forall j, 0 <= j -> Z.testbit z j = (j <? n) && f (ofs + j)).
  { intros z Hz Hb. split; [split; [auto|]|auto]. apply lt_pow2_bits; [lia|auto|].
    intros i Hi. rewrite Hb by lia. now replace (i <? n) with false by lia. }
  assert (Hmask : 0 <= Z.shiftl 1 n - 1).
  { rewrite Z.shiftl_1_l. pose proof (Z.pow_pos_nonneg 2 n). lia. }
  unfold get_byte_bits.
  assert (Eq : Z.quot ofs 8 = ofs / 8) by (apply Z.quot_div_nonneg; lia).
  assert (Er : Z.rem ofs 8 = ofs mod 8) by (apply Z.rem_mod_nonneg; lia).
  rewrite Eq, Er. clear Eq Er. unfold py_shl1. replace (n <? 0) with false by lia. cbn [rbind].
  destruct (N (ofs / 8)) as (z & Z1 & Z2 & Z3); [lia|]. rewrite Z1.
  destruct (ofs mod 8 =? 0) eqn:E0; cbn [rbind].
  { eexists. split; [reflexivity|]. apply Fin; [now apply land_nonneg_l|].
    intros j Hj. rewrite Z.land_spec, testbit_mask by lia.
    destruct (j <? n) eqn:Ej; [|now rewrite andb_false_r]. rewrite andb_true_r. cbn [andb].
    rewrite Z3 by lia. f_equal. lia. }
  replace (ofs mod 8 <? 0) with false by lia.
  destruct (ofs mod 8 + n <=? 8) eqn:E1; cbn [rbind].
  { eexists. split; [reflexivity|]. apply Fin; [now apply land_nonneg_l|].
    intros j Hj. rewrite Z.land_spec, testbit_mask by lia.
    destruct (j <? n) eqn:Ej; [|now rewrite andb_false_r]. rewrite andb_true_r. cbn [andb].
    rewrite Z.shiftr_spec by lia. rewrite Z3 by lia. f_equal. lia. }
  assert (X : exists w, (if ofs / 8 + 1 <? len then nthf (ofs / 8 + 1) else Ok 0) = Ok w /\ is_byte w
              /\ forall j, 0 <= j < 8 -> Z.testbit w j = f (8 * (ofs / 8 + 1) + j)).
  { destruct (ofs / 8 + 1 <? len) eqn:E2.
    - apply N. lia.
    - exists 0. split; [auto|]. split; [unfold is_byte; lia|]. intros j Hj.
      rewrite Z.testbit_0_l. symmetry. apply F. lia. }
  destruct X as (w & W1 & W2 & W3). rewrite W1. cbn [rbind].
  eexists. split; [reflexivity|]. apply Fin; [now apply land_nonneg_l|].
  intros j Hj. rewrite Z.land_spec, testbit_mask by lia.
  destruct (j <? n) eqn:Ej; [|now rewrite andb_false_r]. rewrite andb_true_r. cbn [andb].
  rewrite Z.lor_spec, !Z.land_spec, !testbit_255 by lia.
  replace (j <? 8) with true by lia. rewrite !andb_true_r.
  rewrite Z.shiftr_spec, Z.shiftl_spec by lia.
  destruct (j + ofs mod 8 <? 8) eqn:E3.
  - assert (Hneg : j - (8 - ofs mod 8) < 0) by lia. rewrite (Z.testbit_neg_r w) by exact Hneg.
    rewrite orb_false_r, Z3 by lia. f_equal. lia.
  - rewrite (testbit_high z) by (auto; lia). cbn [orb]. rewrite W3 by lia. f_equal. lia.
Qed.

(** [b[i]] for a byte index inside the buffer. *)
Lemma buf_nth_spec b : buf_ok b -> forall i, 0 <= i < blen b ->
  exists z, buf_nth b i = Ok z /\ is_byte z
    /\ forall j, 0 <= j < 8 -> Z.testbit z j = bnth (buf_bits b) (8 * i + j).
Proof.
  induction b as [l|inner IH start stop]; intros H i Hi; cbn [buf_nth].
  - cbn [blen] in Hi. rewrite (py_nth_ok l i 0) by lia. eexists. split; [reflexivity|].
    split; [apply bytes_ok_nth; exact H|]. intros j Hj. cbn [buf_bits]. rewrite bnth_bytes.
    rewrite bit_at_nonneg by lia. f_equal; [|lia]. f_equal. lia.
  - pose proof H as (H0 & H1 & H2 & H3). cbn [blen] in Hi. unfold cdiv8 in Hi.
    unfold view_index, translate_offset. replace (8 * i <? 0) with false by lia.
    rewrite (Z.min_l (8 * i)) by lia. set (s := 8 * i + start).
    destruct (get_byte_bits_spec (buf_nth inner) (blen inner) (bnth (buf_bits inner)) s (Z.min 8 (stop - s)))
      as (z & Z1 & Z2 & Z3).
    + apply IH. exact H0.
    + intros k Hk. apply bnth_over. rewrite buf_bits_len by auto. rewrite blen_cdiv in Hk. unfold cdiv8 in Hk. lia.
    + lia.
    + lia.
    + exists z. split; [exact Z1|]. split.
      * split; [lia|]. eapply Z.lt_le_trans; [apply Z2|]. change 256 with (2 ^ 8). apply Z.pow_le_mono_r; lia.
      * intros j Hj. rewrite Z3 by lia. rewrite bnth_view by exact H.
        replace ((0 <=? 8 * i + j) && (8 * i + j <? stop - start)) with (j <? Z.min 8 (stop - s)) by lia.
        destruct (j <? Z.min 8 (stop - s)); cbn [andb]; auto. f_equal. unfold s. lia.
Qed.

Lemma bnth_over_blen b i : buf_ok b -> 8 * blen b <= i -> bnth (buf_bits b) i = false.
Proof.
  intros H Hi. apply bnth_over. rewrite buf_bits_len by auto. rewrite blen_cdiv in Hi. unfold cdiv8 in Hi. lia.
Qed.

(** Reading [n] bits anywhere in a buffer. *)
Lemma buf_get_bits_spec b ofs n : buf_ok b -> 0 <= ofs < 8 * blen b -> 0 <= n <= 8 ->
  exists z, get_byte_bits (buf_nth b) (blen b) ofs n = Ok z /\ 0 <= z < 2 ^ n
    /\ forall j, 0 <= j -> Z.testbit z j = (j <? n) && bnth (buf_bits b) (ofs + j).
Proof.
  intros H Ho Hn. apply get_byte_bits_spec; auto.
  - apply buf_nth_spec. exact H.
  - intros i Hi. now apply bnth_over_blen.
Qed.

(** ** Bytes of a bit list *)
Lemma bits_value_nonneg l : 0 <= bits_value l.
Proof. induction l as [|b l IH]; cbn [bits_value]; [lia|]. destruct b; cbn [Z.b2z]; lia. Qed.
Lemma bits_value_testbit l i : 0 <= i -> Z.testbit (bits_value l) i = bnth l i.
Proof.
  revert i; induction l as [|b l IH]; intros i Hi.
  - cbn [bits_value]. rewrite Z.testbit_0_l. unfold bnth. destruct (i <? 0); auto. now destruct (Z.to_nat i).
  - cbn [bits_value]. destruct (Z.eq_dec i 0) as [->|Hn].
    + rewrite Z.add_comm, Z.testbit_0_r. reflexivity.
    + rewrite Z.add_comm. replace i with (Z.succ (i - 1)) at 1 by lia.
      rewrite (Z.testbit_succ_r (bits_value l) b (i - 1)) by lia. rewrite IH by lia. unfold bnth.
      replace (i - 1 <? 0) with false by lia. replace (i <? 0) with false by lia.
      replace (Z.to_nat i) with (S (Z.to_nat (i - 1))) by lia. reflexivity.
Qed.
Lemma bits_value_lt l : bits_value l < 2 ^ zlen l.
Proof.
  induction l as [|b l IH]; [cbn; lia|]. cbn [bits_value]. rewrite zlen_cons, Z.pow_add_r by (pose proof (zlen_nonneg l); lia).
  change (2 ^ 1) with 2. destruct b; cbn [Z.b2z]; lia.
Qed.

Lemma bytes_of_bits_cons8 l : 8 <= zlen l ->
  bytes_of_bits l = bits_value (firstn 8 l) :: bytes_of_bits (skipn 8 l).
Proof.
  intros H. do 8 (destruct l as [|? l]; [exfalso; unfold zlen in H; cbn [length] in H; lia|]). reflexivity.
Qed.
Lemma bytes_of_bits_short l : 0 < zlen l < 8 -> bytes_of_bits l = [bits_value l].
Proof.
  intros H. do 8 (destruct l as [|? l]; [first [reflexivity | exfalso; unfold zlen in H; cbn in H; lia]|]).
  exfalso. unfold zlen in H. cbn [length] in H. lia.
Qed.

Lemma bytes_of_bits_spec l :
  bytes_ok (bytes_of_bits l) /\ zlen (bytes_of_bits l) = cdiv8 (zlen l)
  /\ forall i, bit_at (bytes_of_bits l) i = bnth l i.
Proof.
  remember (length l) as n eqn:En. revert l En. induction n as [n IH] using lt_wf_ind. intros l En.
  destruct (Z_lt_ge_dec (zlen l) 8) as [Hs|Hs].
  - destruct (Z.eq_dec (zlen l) 0) as [H0|H0].
    + apply zlen_0_nil in H0. subst l. split; [constructor|]. split; [reflexivity|].
      intros i. rewrite bit_at_nil. symmetry. unfold bnth. destruct (i <? 0); auto. now destruct (Z.to_nat i).
    + pose proof (zlen_nonneg l). rewrite bytes_of_bits_short by lia.
      pose proof (bits_value_nonneg l) as Bn. pose proof (bits_value_lt l) as Bl.
      assert (By : is_byte (bits_value l)).
      { split; [auto|]. eapply Z.lt_le_trans; [exact Bl|]. change 256 with (2 ^ 8). apply Z.pow_le_mono_r; lia. }
      split; [repeat constructor; apply By|]. split; [unfold cdiv8; rewrite zlen_cons, zlen_nil; lia|].
      intros i. destruct (Z_lt_ge_dec i 0); [now rewrite bit_at_neg, bnth_neg by lia|].
      destruct (Z_lt_ge_dec i 8).
      * rewrite bit_at_cons_lo by lia. apply bits_value_testbit. lia.
      * rewrite bit_at_cons_hi by lia. rewrite bit_at_nil. symmetry. apply bnth_over. lia.
  - rewrite bytes_of_bits_cons8 by lia.
    assert (Hl8 : zlen (firstn 8 l) = 8) by (rewrite zlen_firstn; lia).
    destruct (IH (length (skipn 8 l))) with (l := skipn 8 l) as (I1 & I2 & I3); auto.
    { rewrite skipn_length. unfold zlen in Hs. lia. }
    pose proof (bits_value_nonneg (firstn 8 l)) as Bn. pose proof (bits_value_lt (firstn 8 l)) as Bl.
    rewrite Hl8 in Bl. change (2 ^ 8) with 256 in Bl.
    split; [constructor; [split; auto|auto]|]. split.
    + rewrite zlen_cons, I2, zlen_skipn. unfold cdiv8. lia.
    + intros i. destruct (Z_lt_ge_dec i 0); [now rewrite bit_at_neg, bnth_neg by lia|].
      rewrite <- (firstn_skipn 8 l) at 3. rewrite bnth_app, Hl8.
      destruct (i <? 8) eqn:E.
      * rewrite bit_at_cons_lo by lia. apply bits_value_testbit. lia.
      * rewrite bit_at_cons_hi by lia. apply I3.
Qed.

Lemma bytes_of_bits_unique L l :
  bytes_ok L -> zlen L = cdiv8 (zlen l) -> (forall i, 0 <= i < 8 * zlen L -> bit_at L i = bnth l i) ->
  L = bytes_of_bits l.
Proof.
  intros H1 H2 H3. destruct (bytes_of_bits_spec l) as (S1 & S2 & S3).
  apply bytes_ext; auto; [lia|]. intros i Hi. rewrite S3. auto.
Qed.

Lemma bytes_of_bits_of_bytes l : bytes_ok l -> bytes_of_bits (bits_of_bytes l) = l.
Proof.
  intros H. symmetry. apply bytes_of_bits_unique; auto.
  - rewrite bits_of_bytes_length. unfold cdiv8. lia.
  - intros i _. symmetry. apply bnth_bytes.
Qed.

(** ** Iteration *)
Lemma rmap_list_ok {A B} (f : A -> res B) (P : A -> B -> Prop) l :
  (forall x, In x l -> exists y, f x = Ok y /\ P x y) ->
  exists l', rmap_list f l = Ok l' /\ Forall2 P l l'.
Proof.
  induction l as [|x l IH]; intros H; cbn [rmap_list].
  - exists []. auto.
  - destruct (H x) as (y & Hy & Py); [now left|]. rewrite Hy. cbn [rbind].
    destruct IH as (l' & Hl & Pl); [intros; apply H; now right|]. rewrite Hl. cbn [rbind].
    exists (y :: l'). split; [reflexivity|]. now constructor.
Qed.

Lemma py_range_nth n k : (k < Z.to_nat n)%nat -> nth k (py_range n) 0 = Z.of_nat k.
Proof.
  intros H. unfold py_range, py_range3. rewrite Z.sub_0_r, Z.sub_diag, Z.add_0_r, Z.div_1_r.
  rewrite (nth_indep _ 0 (0 + 1 * Z.of_nat 0)) by (rewrite map_length, seq_length; lia).
  rewrite (map_nth (fun k => 0 + 1 * Z.of_nat k)). rewrite seq_nth by lia. lia.
Qed.
Lemma py_range_In n i : In i (py_range n) -> 0 <= i < n.
Proof.
  unfold py_range, py_range3. rewrite Z.sub_0_r, Z.sub_diag, Z.add_0_r, Z.div_1_r.
  intros H. apply in_map_iff in H. destruct H as (k & <- & Hk). apply in_seq in Hk. lia.
Qed.

Lemma Forall2_nth {A B} (P : A -> B -> Prop) l l' k da db :
  Forall2 P l l' -> (k < length l)%nat -> P (nth k l da) (nth k l' db).
Proof.
  intros H. revert k; induction H as [|x y l l' Hx H IH]; intros k Hk; cbn in *; [lia|].
  destruct k; auto. apply IH. lia.
Qed.

Lemma Forall2_len {A B} (P : A -> B -> Prop) l l' : Forall2 P l l' -> length l = length l'.
Proof. induction 1; cbn; auto. Qed.

Lemma buf_bytes_spec b : buf_ok b -> buf_bytes b = Ok (bytes_of_bits (buf_bits b)).
Proof.
  destruct b as [l|inner start stop]; intros H; cbn [buf_bytes].
  - cbn [buf_bits]. now rewrite bytes_of_bits_of_bytes.
  - pose proof H as (H0 & H1 & H2 & H3). cbn [blen].
    set (n := cdiv8 (stop - start)).
    destruct (rmap_list_ok (fun i => get_byte_bits (buf_nth inner) (blen inner) (8 * i + start)
                              (Z.min (stop - 8 * i - start) 8))
                (fun i z => is_byte z /\ forall j, 0 <= j < 8 ->
                   Z.testbit z j = bnth (buf_bits (BView inner start stop)) (8 * i + j))
                (py_range n)) as (L & L1 & L2).
    { intros i Hi. apply py_range_In in Hi. unfold n, cdiv8 in Hi.
      destruct (buf_get_bits_spec inner (8 * i + start) (Z.min (stop - 8 * i - start) 8)) as (z & Z1 & Z2 & Z3);
        [auto|lia|lia|].
      exists z. split; [exact Z1|]. split.
      - split; [lia|]. eapply Z.lt_le_trans; [apply Z2|]. change 256 with (2 ^ 8). apply Z.pow_le_mono_r; lia.
      - intros j Hj. rewrite Z3 by lia. rewrite bnth_view by exact H.
        replace ((0 <=? 8 * i + j) && (8 * i + j <? stop - start)) with (j <? Z.min (stop - 8 * i - start) 8) by lia.
        destruct (j <? Z.min (stop - 8 * i - start) 8); cbn [andb]; auto. f_equal. lia. }
    rewrite L1. f_equal.
    assert (Ln : length L = Z.to_nat n).
    { rewrite <- (py_range_length n). symmetry. exact (Forall2_len _ _ _ L2). }
    assert (Hn : 0 <= n) by (unfold n, cdiv8; lia).
    apply bytes_of_bits_unique.
    + apply Forall_nth. intros k d Hk. apply (Forall2_nth _ _ _ k 0 d) in L2; [apply L2|].
      rewrite py_range_length. lia.
    + rewrite buf_bits_len by exact H. cbn [blength]. unfold zlen. fold n. lia.
    + intros i Hi. rewrite bit_at_nonneg by lia. unfold zlen in Hi.
      apply (Forall2_nth _ _ _ (Z.to_nat (i / 8)) 0 0) in L2; [|rewrite py_range_length; lia].
      destruct L2 as [_ L2]. rewrite L2 by lia. f_equal. rewrite py_range_nth by lia. lia.
Qed.

(** ** Slicing *)
Lemma buf_slice_bytes_spec b : buf_ok b -> forall i j, 0 <= i <= j -> j <= blen b ->
  exists r, buf_slice_bytes b i j = Ok r /\ buf_ok r /\ blen r = j - i
    /\ forall k, 0 <= k < 8 * (j - i) -> bnth (buf_bits r) k = bnth (buf_bits b) (8 * i + k).
Proof.
  induction b as [l|inner IH start stop]; intros H i j Hij Hj; cbn [buf_slice_bytes].
  - cbn [blen] in Hj. eexists. split; [reflexivity|]. cbn [buf_ok blen buf_bits].
    assert (Hl : zlen (py_slice l i j) = j - i) by (apply zlen_py_slice; lia).
    split; [|split; [exact Hl|]].
    { unfold py_slice. apply bytes_ok_firstn, bytes_ok_skipn. exact H. }
    intros k Hk. rewrite !bnth_bytes. rewrite <- (firstn_skipn (Z.to_nat i) l) at 2. rewrite bit_at_app.
    rewrite zlen_firstn. replace (8 * i + k <? 8 * Z.min (Z.of_nat (Z.to_nat i)) (zlen l)) with false by lia.
    replace (8 * i + k - 8 * Z.min (Z.of_nat (Z.to_nat i)) (zlen l)) with k by lia.
    unfold py_slice. rewrite !py_clamp_id by lia.
    rewrite <- (firstn_skipn (Z.to_nat (j - i)) (skipn (Z.to_nat i) l)) at 2. rewrite bit_at_app.
    rewrite zlen_firstn, zlen_skipn.
    replace (k <? 8 * Z.min (Z.of_nat (Z.to_nat (j - i))) (Z.max 0 (zlen l - Z.of_nat (Z.to_nat i)))) with true by lia.
    reflexivity.
  - pose proof H as (H0 & H1 & H2 & H3). cbn [blen] in Hj. unfold cdiv8 in Hj.
    unfold view_slice, key_to_range.
    set (s := translate_offset start stop (8 * i)). set (e := translate_offset start stop (8 * j)).
    assert (Es : (s = 8 * i + start /\ 8 * i <= stop - start) \/ (i = j /\ s = stop /\ stop - start <= 8 * i)).
    { unfold s, translate_offset. replace (8 * i <? 0) with false by lia. lia. }
    assert (Ee : e = Z.min (8 * j) (stop - start) + start).
    { unfold e, translate_offset. replace (8 * j <? 0) with false by lia. lia. }
    assert (Hse : start <= s <= e /\ e <= stop) by lia.
    replace ((s <=? e) && (0 <=? s)) with true by lia. cbn [passert rbind fst snd].
    rewrite Z.quot_div_nonneg by lia.
    destruct (IH H0 (s / 8) (cdiv8 e)) as (r & R1 & R2 & R3 & R4); [unfold cdiv8; lia|unfold cdiv8; lia|].
    rewrite R1. cbn [rbind]. unfold mk_view.
    replace (0 <=? s - 8 * (s / 8)) with true by lia.
    replace (e - 8 * (s / 8) <=? 8 * blen r) with true by (rewrite R3; unfold cdiv8; lia).
    replace (s - 8 * (s / 8) <=? e - 8 * (s / 8)) with true by lia. cbn [passert rbind].
    assert (Hok : buf_ok (BView r (s - 8 * (s / 8)) (e - 8 * (s / 8)))).
    { cbn [buf_ok]. split; [auto|]. rewrite R3. unfold cdiv8. lia. }
    eexists. split; [reflexivity|]. split; [exact Hok|]. cbn [blen]. unfold cdiv8. split; [lia|].
    intros k Hk. rewrite !bnth_view by (exact Hok || exact H).
    replace (e - 8 * (s / 8) - (s - 8 * (s / 8))) with (e - s) by lia.
    destruct ((0 <=? 8 * i + k) && (8 * i + k <? stop - start)) eqn:E.
    + replace ((0 <=? k) && (k <? e - s)) with true by lia.
      rewrite R4 by (unfold cdiv8; lia). f_equal. lia.
    + replace ((0 <=? k) && (k <? e - s)) with false by lia. reflexivity.
Qed.

Lemma translate_clamp start stop o : start <= stop ->
  translate_offset start stop o = py_clamp (stop - start) o + start.
Proof. intros H. unfold translate_offset, py_clamp. destruct (o <? 0) eqn:E; lia. Qed.

Lemma py_slice_clamped {A} (l : list A) a b :
  py_slice l a b = py_slice l (py_clamp (zlen l) a) (py_clamp (zlen l) b).
Proof.
  unfold py_slice. pose proof (zlen_nonneg l).
  assert (C : forall x, py_clamp (zlen l) (py_clamp (zlen l) x) = py_clamp (zlen l) x).
  { intros x. apply py_clamp_id. unfold py_clamp. destruct (x <? 0) eqn:E; lia. }
  now rewrite !C.
Qed.

(** The slice of a view: the slice of its bits, or AssertionError if the bounds cross. *)
Lemma buf_slice_spec v a b : buf_ok v -> is_view v ->
  (slice_in_order (buf_bits v) a b ->
     exists r, buf_slice v a b = Ok r /\ buf_ok r /\ is_view r
       /\ buf_bits r = slice_bits (buf_bits v) a b)
  /\ (~ slice_in_order (buf_bits v) a b -> buf_slice v a b = Err AssertionError).
Proof.
  intros H Hv. destruct v as [|inner start stop]; [destruct Hv|]. clear Hv.
  pose proof H as (H0 & H1 & H2 & H3).
  unfold slice_in_order. rewrite buf_bits_len by exact H. cbn [blength].
  unfold buf_slice, view_slice, key_to_range. rewrite !translate_clamp by lia.
  set (a' := match a with Some x => x | None => 0 end).
  set (b' := match b with Some x => x | None => stop - start end).
  set (ca := py_clamp (stop - start) a'). set (cb := py_clamp (stop - start) b').
  assert (Ha : 0 <= ca <= stop - start) by (unfold ca, py_clamp; destruct (a' <? 0) eqn:E; lia).
  assert (Hb : 0 <= cb <= stop - start) by (unfold cb, py_clamp; destruct (b' <? 0) eqn:E; lia).
  split; intros Ho.
  - replace ((ca + start <=? cb + start) && (0 <=? ca + start)) with true by lia. cbn [passert rbind fst snd].
    rewrite Z.quot_div_nonneg by lia.
    destruct (buf_slice_bytes_spec inner H0 ((ca + start) / 8) (cdiv8 (cb + start))) as (r & R1 & R2 & R3 & R4);
      [unfold cdiv8; lia|unfold cdiv8; lia|].
    rewrite R1. cbn [rbind]. unfold mk_view.
    set (s := ca + start) in *. set (e := cb + start) in *.
    replace (0 <=? s - 8 * (s / 8)) with true by lia.
    replace (e - 8 * (s / 8) <=? 8 * blen r) with true by (rewrite R3; unfold cdiv8; lia).
    replace (s - 8 * (s / 8) <=? e - 8 * (s / 8)) with true by lia. cbn [passert rbind].
    assert (Hok : buf_ok (BView r (s - 8 * (s / 8)) (e - 8 * (s / 8)))).
    { cbn [buf_ok]. split; [auto|]. rewrite R3. unfold cdiv8. lia. }
    eexists. split; [reflexivity|]. split; [exact Hok|]. split; [exact I|].
    unfold slice_bits. rewrite py_slice_clamped, !buf_bits_len by exact H. cbn [blength]. fold a' b' ca cb.
    assert (Hlen : zlen (buf_bits (BView inner start stop)) = stop - start) by exact (buf_bits_len _ H).
    apply bnth_ext.
    + rewrite buf_bits_len by exact Hok. cbn [blength]. rewrite zlen_py_slice; lia.
    + rewrite buf_bits_len by exact Hok. cbn [blength]. intros i Hi. rewrite bnth_slice by lia.
      rewrite !bnth_view by (exact Hok || exact H).
      replace ((0 <=? i) && (i <? e - 8 * (s / 8) - (s - 8 * (s / 8)))) with true by lia.
      replace ((0 <=? i) && (i <? cb - ca)) with true by lia.
      replace ((0 <=? ca + i) && (ca + i <? stop - start)) with true by lia.
      rewrite R4 by (unfold cdiv8; lia). f_equal. lia.
  - now replace ((ca + start <=? cb + start) && (0 <=? ca + start)) with false by lia.
Qed.

Lemma view_of_spec b : buf_ok b ->
  exists v, view_of b = Ok v /\ buf_ok v /\ is_view v /\ buf_bits v = pad_to_byte (buf_bits b).
Proof.
  intros H. unfold view_of, mk_view. pose proof (blength_nonneg b H). pose proof (blen_cdiv b) as E. unfold cdiv8 in E.
  replace (0 <=? 0) with true by lia. replace (8 * blen b <=? 8 * blen b) with true by lia.
  replace (0 <=? 8 * blen b) with true by lia. cbn [passert rbind].
  eexists. split; [reflexivity|]. split; [cbn [buf_ok]; split; [auto|lia]|]. split; [exact I|].
  cbn [buf_bits]. unfold py_slice. rewrite zlen_pad, buf_bits_len, <- blen_cdiv by auto.
  rewrite !py_clamp_id by lia. rewrite Z.sub_0_r. change (Z.to_nat 0) with 0%nat. rewrite skipn_O.
  apply firstn_all2. pose proof (zlen_pad (buf_bits b)) as Lp. rewrite buf_bits_len, <- blen_cdiv in Lp by auto.
  unfold zlen in Lp. lia.
Qed.
