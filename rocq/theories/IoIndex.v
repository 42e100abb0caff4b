(** Proofs about buffer/io_buffer.py, part 9: numbers as keys. *)
From Verif Require Import Base BaseProofs Range IoBuffer IoSpec IoProofs IoMutProofs IoInsert IoDelete IoFacts IoOutput IoViews.
From Coq Require Import ZArith List Bool Lia ZifyBool ZifyNat.
Import ListNotations.
Open Scope Z_scope.
Ltac Zify.zify_post_hook ::= Z.div_mod_to_equations.

(** io_buffer.py:34-39: [v[ofs]] for a number [ofs], in bits (Python: an int or a float). *)
Definition view_get (v : buf) (ofs : Z) : res Z :=
  match v with
  | BArr _ => Err NotModelled
  | BView inner start stop => view_index (buf_nth inner) (blen inner) start stop ofs
  end.

Lemma bits_value_unique z l : 0 <= z < 2 ^ 8 -> (forall j, 0 <= j < 8 -> Z.testbit z j = bnth l j) -> zlen l <= 8 -> z = bits_value l.
Proof.
  intros Hz H L. apply Z.bits_inj'. intros j Hj. rewrite bits_value_testbit by lia. destruct (j <? 8) eqn:E; [apply H; lia|].
  rewrite bnth_over by lia. apply testbit_high; [unfold is_byte; lia|lia].
Qed.

Lemma get_inside inner start stop ofs : buf_ok (BView inner start stop) ->
  let n := stop - start in let a := py_clamp n ofs in a < n ->
  view_get (BView inner start stop) ofs = Ok (bits_value (firstn 8 (skipn (Z.to_nat a) (buf_bits (BView inner start stop))))).
Proof.
  intros K n a Ha. pose proof K as (H0 & H1 & H2 & H3).
  pose proof (py_clamp_range n ofs ltac:(unfold n; lia)) as Hr. fold a in Hr.
  cbn [view_get]. unfold view_index. rewrite translate_clamp by lia. fold n a. rewrite (Z.add_comm a).
  destruct (get_byte_bits_spec (buf_nth inner) (blen inner) (bnth (buf_bits inner)) (start + a) (Z.min 8 (stop - (start + a)))) as (z & Z1 & Z2 & Z3).
  - apply buf_nth_spec. exact H0.
  - intros k Hk. apply bnth_over. rewrite buf_bits_len by auto. rewrite blen_cdiv in Hk. unfold cdiv8 in Hk. lia.
  - lia.
  - lia.
  - rewrite Z1. f_equal. apply bits_value_unique.
    + split; [lia|]. eapply Z.lt_le_trans; [apply Z2|]. apply Z.pow_le_mono_r; lia.
    + intros j Hj. rewrite Z3 by lia. change (firstn 8) with (@firstn bool (Z.to_nat 8)). rewrite bnth_firstn by lia.
      replace (j <? 8) with true by lia. rewrite bnth_skipn by lia. rewrite bnth_view by exact K.
      replace ((0 <=? a + j) && (a + j <? stop - start)) with (j <? Z.min 8 (stop - (start + a))) by lia.
      destruct (j <? Z.min 8 (stop - (start + a))); cbn [andb]; auto. f_equal. lia.
    + change (firstn 8) with (@firstn bool (Z.to_nat 8)). rewrite zlen_firstn. lia.
Qed.

Lemma get_zero nthf len ofs : 0 <= ofs -> (exists z, nthf (ofs / 8) = Ok z) \/ nthf (ofs / 8) = Err IndexError ->
  get_byte_bits nthf len ofs 0 = match nthf (ofs / 8) with Ok _ => Ok 0 | Err _ => Err IndexError end.
Proof.
  intros Ho H. unfold get_byte_bits. assert (Eq : Z.quot ofs 8 = ofs / 8) by (apply Z.quot_div_nonneg; lia).
  assert (Er : Z.rem ofs 8 = ofs mod 8) by (apply Z.rem_mod_nonneg; lia). rewrite Eq, Er. cbn [py_shl1 Z.ltb Z.compare rbind].
  change (Z.shiftl 1 0 - 1) with 0. replace (ofs mod 8 <? 0) with false by lia. replace (ofs mod 8 + 0 <=? 8) with true by lia.
  destruct H as [[z H]|H]; rewrite H; destruct (ofs mod 8 =? 0); cbn [rbind]; rewrite ?Z.land_0_r; reflexivity.
Qed.

Lemma nth_end b : buf_ok b -> buf_nth b (blen b) = Ok 0 \/ buf_nth b (blen b) = Err IndexError.
Proof.
  induction b as [l|inner IH start stop]; intros K.
  - right. cbn [buf_nth blen]. unfold py_nth, py_index. pose proof (zlen_nonneg l). replace (0 <=? zlen l) with true by lia.
    rewrite Z.ltb_irrefl. replace (zlen l <? 0) with false by lia. rewrite ?andb_false_l, ?andb_false_r. reflexivity.
  - pose proof K as (H0 & H1 & H2 & H3). specialize (IH H0). cbn [buf_nth]. unfold view_index, translate_offset.
    pose proof (blen_cdiv (BView inner start stop)) as B. cbn [blength] in B. unfold cdiv8 in B.
    replace (8 * blen (BView inner start stop) <? 0) with false by lia. rewrite Z.min_r by lia.
    replace (stop - start + start) with stop by lia. rewrite Z.sub_diag. change (Z.min 8 0) with 0.
    assert (D : (exists z, buf_nth inner (stop / 8) = Ok z) \/ buf_nth inner (stop / 8) = Err IndexError).
    { destruct (stop / 8 <? blen inner) eqn:E.
      - destruct (buf_nth_spec inner H0 (stop / 8)) as (z & Z1 & _); [lia|]. eauto.
      - replace (stop / 8) with (blen inner) by lia. destruct IH as [IH|IH]; rewrite IH; eauto. }
    rewrite get_zero by (auto; lia). destruct D as [[z D]|D]; rewrite D; auto.
Qed.

Lemma get_end inner start stop ofs : buf_ok (BView inner start stop) ->
  py_clamp (stop - start) ofs = stop - start ->
  let r := view_get (BView inner start stop) ofs in
  (r = Ok 0 \/ r = Err IndexError) /\ (stop / 8 < blen inner -> r = Ok 0)
  /\ (forall l, inner = BArr l -> stop = 8 * zlen l -> r = Err IndexError).
Proof.
  intros K E r. pose proof K as (H0 & H1 & H2 & H3). unfold r. cbn [view_get]. unfold view_index. rewrite translate_clamp by lia. rewrite E.
  replace (stop - start + start) with stop by lia. rewrite Z.sub_diag. change (Z.min 8 0) with 0.
  assert (D : (exists z, buf_nth inner (stop / 8) = Ok z) \/ buf_nth inner (stop / 8) = Err IndexError).
  { destruct (stop / 8 <? blen inner) eqn:F.
    - destruct (buf_nth_spec inner H0 (stop / 8)) as (z & Z1 & _); [lia|]. eauto.
    - replace (stop / 8) with (blen inner) by lia. destruct (nth_end inner H0) as [IH|IH]; rewrite IH; eauto. }
  rewrite get_zero by (auto; lia). split; [destruct D as [[z D]|D]; rewrite D; auto|]. split.
  - intros F. destruct (buf_nth_spec inner H0 (stop / 8)) as (z & Z1 & _); [lia|]. rewrite Z1. reflexivity.
  - intros l -> F. replace (stop / 8) with (zlen l) by lia. cbn [buf_nth]. unfold py_nth, py_index. pose proof (zlen_nonneg l).
    replace (0 <=? zlen l) with true by lia. rewrite Z.ltb_irrefl. replace (zlen l <? 0) with false by lia. rewrite ?andb_false_l, ?andb_false_r. reflexivity.
Qed.

(** ** Keys of arrays *)
Lemma index_range x i : ba_ok x ->
  ba_key_to_range (KIndex i) x = (Ok (ba_start x + py_clamp (ba_stop x - ba_start x) i, ba_start x + py_clamp (ba_stop x - ba_start x) i + 8), x).
Proof.
  intros K. destruct (ba_ok_elim _ K) as (B & Hs & Hl). unfold ba_key_to_range. rewrite translate_clamp by lia.
  rewrite (Z.add_comm (py_clamp _ _)). reflexivity.
Qed.
Lemma index_as_slice x i : ba_ok x -> let n := ba_stop x - ba_start x in let lo := py_clamp n i in lo + 8 <= n ->
  ba_key_to_range (KIndex i) x = ba_key_to_range (KSlice (Some lo) (Some (lo + 8))) x.
Proof.
  intros K n lo H. destruct (ba_ok_elim _ K) as (B & Hs & Hl). rewrite index_range, key_range_spec by auto. fold n. unfold lo_of, hi_of. fold lo.
  pose proof (py_clamp_range n i ltac:(unfold n; lia)) as Hr. fold lo in Hr. rewrite !py_clamp_id by lia.
  replace (lo <=? lo + 8) with true by lia. f_equal. f_equal. f_equal. lia.
Qed.

Lemma set_index_inside x i v : ba_ok x -> let n := ba_stop x - ba_start x in let lo := py_clamp n i in lo + 8 <= n ->
  ba_setitem (KIndex i) v x = ba_setitem (KSlice (Some lo) (Some (lo + 8))) v x.
Proof. intros K n lo H. unfold ba_setitem, sbind. rewrite (index_as_slice x i K H). fold n lo. reflexivity. Qed.
Lemma del_index_inside x i : ba_ok x -> let n := ba_stop x - ba_start x in let lo := py_clamp n i in lo + 8 <= n ->
  ba_delitem (KIndex i) x = ba_delitem (KSlice (Some lo) (Some (lo + 8))) x.
Proof. intros K n lo H. unfold ba_delitem, sbind. rewrite (index_as_slice x i K H). fold n lo. reflexivity. Qed.

Lemma set_index_long x i v : ba_ok x -> value_ok v -> let n := ba_stop x - ba_start x in n < py_clamp n i + 8 -> 8 < zlen (value_bits v) ->
  ba_setitem (KIndex i) v x = (Err AssertionError, x).
Proof.
  intros K V n H L. destruct (ba_ok_elim _ K) as (B & Hs & Hl). unfold ba_setitem, sbind, slift. rewrite index_range by exact K. fold n. cbn [fst snd].
  rewrite value_and_length_bits by exact V. cbn [fst snd]. unfold set_range, sbind, slift.
  pose proof (py_clamp_range n i ltac:(unfold n; lia)) as Hr. set (lo := py_clamp n i) in *. set (k := zlen (value_bits v)) in *.
  replace ((ba_start x + lo <=? ba_start x + lo + 8) && (0 <=? k)) with true by lia. cbn [passert].
  replace (ba_start x + lo + 8 - (ba_start x + lo) <? k) with true by lia. unfold insert_zeros, sbind, slift, sget.
  replace ((0 <=? ba_start x + lo + 8) && (ba_start x + lo + 8 <=? ba_start x + lo + 8 + k - (ba_start x + lo + 8 - (ba_start x + lo)))) with true by lia.
  cbn [passert]. replace (ba_start x + lo + 8 <=? ba_stop x) with false by (unfold n in *; lia). reflexivity.
Qed.

Lemma byte_range v : is_byte v -> 0 <= v < 2 ^ 8. Proof. unfold is_byte. change (2 ^ 8) with 256. lia. Qed.

Lemma store_end x v : ba_store (zlen (ba_buf x)) v x = (Err IndexError, x).
Proof.
  unfold ba_store, ba_set, py_index. pose proof (zlen_nonneg (ba_buf x)). replace (0 <=? zlen (ba_buf x)) with true by lia.
  rewrite Z.ltb_irrefl. replace (zlen (ba_buf x) <? 0) with false by lia. rewrite ?andb_false_l, ?andb_false_r. destruct (is_byteb v); reflexivity.
Qed.

(** A byte written so that it ends behind the end: the bits that lie inside are written. *)
Lemma set_index_end x i v : ba_ok x -> is_byte v -> let n := ba_stop x - ba_start x in let lo := py_clamp n i in n < lo + 8 ->
  exists x', ba_setitem (KIndex i) (BVInt v) x = (if ba_start x + lo + 8 <=? 8 * zlen (ba_buf x) then Ok tt else Err IndexError, x')
    /\ ba_ok x' /\ ba_bits x' = firstn (Z.to_nat lo) (ba_bits x) ++ firstn (Z.to_nat (n - lo)) (byte_bits v).
Proof.
  intros K V n lo H. destruct (ba_ok_elim _ K) as (B & Hs & Hl). unfold ba_setitem, sbind, slift. rewrite index_range by exact K. fold n. fold lo. cbn [fst snd].
  pose proof (py_clamp_range n i ltac:(unfold n; lia)) as Hr. fold lo in Hr.
  replace (ba_start x + lo + 8 - (ba_start x + lo)) with 8 by lia. rewrite value_and_length_byte by exact V. cbn [fst snd].
  unfold set_range, sbind, slift. replace ((ba_start x + lo <=? ba_start x + lo + 8) && (0 <=? 8)) with true by lia. cbn [passert].
  replace (ba_start x + lo + 8 - (ba_start x + lo)) with 8 by lia. cbn [Z.ltb Z.compare Pos.compare Pos.compare_cont].
  unfold copy_to_range. cbn [copy_loop]. change (Z.min 8 8) with 8. unfold sbind.
  assert (Fin : forall x' m, overwritten x x' (ba_start x + lo) m (Z.testbit v) -> n - lo <= m -> m <= 8 ->
     ba_ok x' /\ ba_bits x' = firstn (Z.to_nat lo) (ba_bits x) ++ firstn (Z.to_nat (n - lo)) (byte_bits v)).
  { intros x' m (O1 & O2 & O3 & O4 & O5) M M8. assert (K' : ba_ok x') by (apply ba_ok_intro; auto; lia). split; [exact K'|].
    assert (E : ba_bits x' = splice (ba_bits x) lo n (firstn (Z.to_nat (n - lo)) (byte_bits v))).
    { assert (L8 : zlen (byte_bits v) = 8) by reflexivity.
      apply spliced; auto; try lia; rewrite ?zlen_firstn; [lia|]. intros j Hj. rewrite O5. rewrite L8.
      destruct (j <? lo) eqn:E1; [replace (ba_start x + lo <=? ba_start x + j) with false by lia; reflexivity|].
      rewrite bnth_firstn by lia.
      replace ((ba_start x + lo <=? ba_start x + j) && (ba_start x + j <? ba_start x + lo + m)) with true by lia.
      replace (j <? lo + Z.min (Z.of_nat (Z.to_nat (n - lo))) 8) with true by lia. replace (j - lo <? n - lo) with true by lia.
      replace (ba_start x + j - (ba_start x + lo)) with (j - lo) by lia. rewrite <- (bits_value_testbit (byte_bits v)) by lia.
      f_equal. apply bits_value_unique; [exact (byte_range v V)| |lia]. intros q Hq. 
      unfold byte_bits, bnth. replace (q <? 0) with false by lia. 
      assert (D : q = 0 \/ q = 1 \/ q = 2 \/ q = 3 \/ q = 4 \/ q = 5 \/ q = 6 \/ q = 7) by lia.
      repeat (destruct D as [->|D]; [reflexivity|]). subst q. reflexivity. }
    rewrite E. unfold splice. rewrite skipn_all2, app_nil_r; [reflexivity|]. pose proof (ba_bits_len x K). unfold zlen in *. lia. }
  destruct (ba_start x + lo + 8 <=? 8 * zlen (ba_buf x)) eqn:F.
  - destruct (set_byte_bits_spec x (ba_start x + lo) 8 v) as (x' & X & O); auto; try lia.
    rewrite X. exists x'. split; [reflexivity|]. apply (Fin x' 8); auto; lia.
  - unfold set_byte_bits. assert (Eq : Z.quot (ba_start x + lo) 8 = (ba_start x + lo) / 8) by (apply Z.quot_div_nonneg; lia).
    assert (Er : Z.rem (ba_start x + lo) 8 = (ba_start x + lo) mod 8) by (apply Z.rem_mod_nonneg; lia). rewrite Eq, Er.
    destruct ((ba_start x + lo) mod 8 =? 0) eqn:A.
    + cbn [andb orb Z.eqb Pos.eqb]. unfold set_in_byte. rewrite Eq, Er, A. cbn [andb Z.eqb Pos.eqb].
      replace ((ba_start x + lo) / 8) with (zlen (ba_buf x)) by lia. rewrite store_end. exists x. split; [reflexivity|]. split; [exact K|].
      replace (n - lo) with 0 by lia. cbn [Z.to_nat firstn]. rewrite app_nil_r. symmetry. apply firstn_all2. pose proof (ba_bits_len x K). unfold zlen in *. lia.
    + cbn [andb orb]. replace ((ba_start x + lo) mod 8 + 8 <=? 8) with false by lia. unfold sbind. set (r := (ba_start x + lo) mod 8) in *.
      destruct (set_in_byte_spec x (ba_start x + lo) (8 - r) (Z.land v (Z.shiftl 1 (8 - r) - 1))) as (x' & X & O); auto; try lia.
      { split; [apply land_nonneg_l; rewrite Z.shiftl_1_l; pose proof (Z.pow_pos_nonneg 2 (8 - r)); lia|].
        apply lt_pow2_bits; [lia|apply land_nonneg_l; rewrite Z.shiftl_1_l; pose proof (Z.pow_pos_nonneg 2 (8 - r)); lia|].
        intros j Hj. rewrite Z.land_spec, testbit_mask by lia. replace (j <? 8 - r) with false by lia. apply andb_false_r. }
      rewrite X. exists x'. pose proof O as (O1 & O2 & O3 & O4 & O5). split.
      * unfold set_in_byte. rewrite Z.mul_comm, Z.quot_mul, Z.rem_mul by lia. cbn [Z.eqb andb].
        replace (8 - (8 - r) =? 8) with false by lia. unfold sbind, ba_load.
        replace ((ba_start x + lo) / 8 + 1) with (zlen (ba_buf x')) by lia. unfold py_nth, py_index. pose proof (zlen_nonneg (ba_buf x')).
        replace (0 <=? zlen (ba_buf x')) with true by lia.
        rewrite Z.ltb_irrefl. replace (zlen (ba_buf x') <? 0) with false by lia. rewrite ?andb_false_l, ?andb_false_r. reflexivity.
      * apply (Fin x' (8 - r)); [|lia|lia]. unfold overwritten. split; [auto|]. split; [auto|]. split; [auto|]. split; [auto|]. intros j. rewrite O5.
        destruct ((ba_start x + lo <=? j) && (j <? ba_start x + lo + (8 - r))) eqn:E; [|reflexivity].
        rewrite Z.land_spec, testbit_mask by lia. replace (j - (ba_start x + lo) <? 8 - r) with true by lia. apply andb_true_r.
Qed.

Lemma set_index_big x i v : ba_ok x -> 256 <= Z.abs v -> ba_setitem (KIndex i) (BVInt v) x = (Err ValueError, x).
Proof.
  intros K V. unfold ba_setitem, sbind, slift. rewrite index_range by exact K. cbn [fst snd].
  match goal with |- context [value_and_length _ ?e] => replace e with 8 by lia end. rewrite value_and_length_big by exact V. reflexivity.
Qed.

(** Deleting a byte that ends behind the end: eight bits are removed from the end, whatever is there. *)
Lemma del_index_end x i : ba_ok x -> let n := ba_stop x - ba_start x in n < py_clamp n i + 8 ->
  exists x', ba_delitem (KIndex i) x = (Ok tt, x') /\ ba_start x' = ba_start x /\ ba_stop x' = ba_stop x - 8
    /\ (8 <= n -> ba_ok x' /\ ba_bits x' = firstn (Z.to_nat (n - 8)) (ba_bits x)).
Proof.
  intros K n H. destruct (ba_ok_elim _ K) as (B & Hs & Hl). unfold ba_delitem, sbind. rewrite index_range by exact K. fold n.
  pose proof (py_clamp_range n i ltac:(unfold n; lia)) as Hr. set (lo := py_clamp n i) in *. cbn [fst snd].
  unfold del_range, sbind, slift, sget. set (a := ba_start x + lo) in *. replace (a <=? a + 8) with true by lia. cbn [passert].
  assert (Fin : forall x', ba_start x' = ba_start x -> ba_stop x' = ba_stop x - 8 -> bytes_ok (ba_buf x') -> ba_stop x' <= 8 * zlen (ba_buf x') ->
     (forall j, 0 <= j < ba_stop x' -> abit x' j = abit x j) -> 8 <= n -> ba_ok x' /\ ba_bits x' = firstn (Z.to_nat (n - 8)) (ba_bits x)).
  { intros x' S T B' L A N. assert (K' : ba_ok x') by (apply ba_ok_intro; auto; lia). split; [exact K'|].
    assert (E : ba_bits x' = splice (ba_bits x) (n - 8) n []).
    { apply spliced; auto; try lia; rewrite ?zlen_nil; [lia|]. intros j Hj. replace (j <? n - 8) with true by lia. apply A. lia. }
    rewrite E. unfold splice. rewrite skipn_all2, !app_nil_r; [reflexivity|]. pose proof (ba_bits_len x K). unfold zlen in *. lia. }
  destruct (a mod 8 =? 0) eqn:A.
  - replace ((a + 8) / 8 - cdiv8 a) with 1 by (unfold cdiv8; lia). cbn [Z.leb Z.compare Pos.compare Pos.compare_cont]. unfold ba_set_buf, ba_set_stop, sret. cbn [ba_buf ba_start ba_stop].
    change (8 * 1) with 8. replace (a + 8 - 8) with a by lia. rewrite Z.ltb_irrefl. eexists. split; [reflexivity|]. cbn [ba_start ba_stop].
    split; [auto|]. split; [auto|]. apply Fin; cbn [ba_start ba_stop ba_buf]; auto.
    + apply bytes_ok_app. split; [now apply bytes_ok_firstn|now apply bytes_ok_skipn].
    + rewrite zlen_app, zlen_firstn, zlen_skipn. unfold cdiv8, n in *. lia.
    + intros j Hj. unfold abit. cbn [ba_buf]. rewrite bit_at_app, zlen_firstn, bit_at_firstn by (unfold cdiv8, n in *; lia).
      replace (j <? 8 * Z.min (Z.of_nat (Z.to_nat (cdiv8 a))) (zlen (ba_buf x))) with true by (unfold cdiv8, n in *; lia).
      replace (j <? 8 * cdiv8 a) with true by (unfold cdiv8, n in *; lia). reflexivity.
  - replace (1 <=? (a + 8) / 8 - cdiv8 a) with false by (unfold cdiv8; lia). unfold sret. replace (a <? a + 8) with true by lia.
    replace (a + 8 - a) with 8 by lia.
    assert (SD : forall k, shift_down k a 8 x = (Ok tt, x)).
    { intros k. destruct k; cbn [shift_down]; unfold sbind, sget; replace (a + 8 <? ba_stop x) with false by (unfold n in *; lia); reflexivity. }
    rewrite SD. unfold ba_set_stop. cbn [ba_buf ba_start ba_stop].
    replace (cdiv8 (ba_stop x - 8) <? zlen (ba_buf x)) with true by (unfold cdiv8, n in *; lia).
    destruct (ba_buf x) as [|b0 l0] eqn:EB. { rewrite zlen_nil in Hl. unfold n in *. lia. }
    rewrite <- EB in *. unfold ba_set_buf. cbn [ba_start ba_stop]. eexists. split; [reflexivity|]. cbn [ba_start ba_stop].
    assert (NE : ba_buf x <> []) by (rewrite EB; discriminate).
    split; [auto|]. split; [auto|]. apply Fin; cbn [ba_start ba_stop ba_buf]; auto.
    + now apply bytes_ok_removelast.
    + rewrite zlen_removelast by exact NE. lia.
    + intros j Hj. unfold abit. cbn [ba_buf]. apply bit_at_removelast. lia.
Qed.
