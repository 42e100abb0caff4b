(** Proofs about buffer/io_buffer.py, part 7: views as bit strings, and summaries. *)
From Verif Require Import Base BaseProofs Range IoBuffer IoSpec IoProofs IoMutProofs IoInsert IoDelete IoFacts IoOutput.
From Coq Require Import ZArith List Bool Lia ZifyBool ZifyNat.
Import ListNotations.
Open Scope Z_scope.
Ltac Zify.zify_post_hook ::= Z.div_mod_to_equations.

Lemma slice_chain_spec l : forall v, buf_ok v -> is_view v ->
  (slices_in_order (buf_bits v) l ->
     exists r, slice_chain v l = Ok r /\ buf_ok r /\ is_view r /\ buf_bits r = slices_bits (buf_bits v) l
               /\ to_bytes r = Ok (bytes_of_bits (slices_bits (buf_bits v) l)))
  /\ (~ slices_in_order (buf_bits v) l -> slice_chain v l = Err AssertionError).
Proof.
  induction l as [|[a b] l IH]; intros v K V; cbn [slice_chain slices_bits slices_in_order].
  - split; [|tauto]. intros _. exists v. split; [auto|]. split; [auto|]. split; [auto|]. split; [auto|].
    unfold to_bytes. now apply buf_bytes_spec.
  - destruct (buf_slice_spec v a b K V) as [S1 S2]. split.
    + intros [H1 H2]. destruct (S1 H1) as (w & W1 & W2 & W3 & W4). rewrite W1. cbn [rbind].
      rewrite <- W4 in H2 |- *. apply (proj1 (IH w W2 W3)). exact H2.
    + intros H.
      assert (D : slice_in_order (buf_bits v) a b \/ ~ slice_in_order (buf_bits v) a b)
        by (unfold slice_in_order; lia).
      destruct D as [D|D].
      * destruct (S1 D) as (w & W1 & W2 & W3 & W4). rewrite W1. cbn [rbind]. apply (proj2 (IH w W2 W3)).
        rewrite W4. tauto.
      * rewrite S2 by auto. reflexivity.
Qed.

(** Indexing. *)
Lemma buf_index_spec b i : buf_ok b -> 0 <= i < blen b ->
  buf_nth b i = Ok (bits_value (firstn 8 (skipn (Z.to_nat (8 * i)) (buf_bits b)))).
Proof.
  intros K Hi. destruct (buf_nth_spec b K i Hi) as (z & Z1 & Z2 & Z3). rewrite Z1. f_equal.
  apply Z.bits_inj'. intros j Hj. rewrite bits_value_testbit by lia.
  change (firstn 8) with (@firstn bool (Z.to_nat 8)). rewrite bnth_firstn by lia.
  destruct (j <? 8) eqn:E.
  - rewrite Z3 by lia. rewrite bnth_skipn by lia. reflexivity.
  - apply testbit_high; [exact Z2|lia].
Qed.

Lemma py_range3_1 a b : py_range3 a b 1 = map (fun k => a + 1 * Z.of_nat k) (seq 0 (Z.to_nat (b - a))).
Proof. unfold py_range3. do 3 f_equal. rewrite Z.div_1_r. lia. Qed.

(** The textual form, most significant bit first. *)
Lemma to_bitstr_spec v : buf_ok v -> is_view v -> to_bitstr v = Ok (rev (buf_bits v)).
Proof.
  intros K V. destruct v as [|inner start stop]; [destruct V|]. pose proof K as (K0 & H1 & H2 & H3).
  unfold to_bitstr. rewrite py_range3_1.
  destruct (rmap_list_ok (fun i => let* b := buf_nth inner (i / 8) in Ok (Z.testbit b (i mod 8)))
             (fun i y => y = bnth (buf_bits inner) i) (map (fun k => start + 1 * Z.of_nat k) (seq 0 (Z.to_nat (stop - start))))) as (L & L1 & L2).
  { intros i Hi. assert (Hr : start <= i < stop).
    { apply in_map_iff in Hi. destruct Hi as (k & <- & Hk). apply in_seq in Hk. lia. }
    destruct (buf_nth_spec inner K0 (i / 8)) as (z & Z1 & Z2 & Z3); [lia|]. rewrite Z1. cbn [rbind].
    eexists. split; [reflexivity|]. rewrite Z3 by lia. f_equal. lia. }
  rewrite L1. cbn [rbind]. do 2 f_equal.
  assert (Ll : zlen L = stop - start).
  { unfold zlen. rewrite <- (Forall2_len _ _ _ L2). rewrite map_length, seq_length. lia. }
  apply bnth_ext.
  - rewrite buf_bits_len by auto. cbn [blength]. auto.
  - intros i Hi. rewrite bnth_view by auto. replace ((0 <=? i) && (i <? stop - start)) with true by lia.
    unfold bnth at 1. replace (i <? 0) with false by lia.
    rewrite (Forall2_nth _ _ _ (Z.to_nat i) 0 false L2).
    + f_equal.       rewrite (nth_indep _ 0 (start + 1 * Z.of_nat 0)) by (rewrite map_length, seq_length; lia).
      rewrite (map_nth (fun k => start + 1 * Z.of_nat k)). rewrite seq_nth by lia. lia.
    + rewrite (Forall2_len _ _ _ L2). unfold zlen in *. lia.
Qed.

(** [to_bytearray]: the bits of the view, and behind them whatever is in the last byte. *)
Lemma to_bytearray_spec v : buf_ok v -> is_view v ->
  exists r, to_bytearray v = Ok r /\ buf_ok r /\ blen r = blen v
    /\ firstn (Z.to_nat (blength v)) (pad_to_byte (buf_bits r)) = buf_bits v.
Proof.
  intros K V. destruct v as [|inner start stop]; [destruct V|]. pose proof K as (K0 & H1 & H2 & H3).
  assert (Lv : zlen (buf_bits (BView inner start stop)) = stop - start) by (rewrite buf_bits_len by auto; reflexivity).
  unfold to_bytearray. destruct (start mod 8 =? 0) eqn:E.
  - destruct (buf_slice_bytes_spec inner K0 (start / 8) (cdiv8 stop)) as (r & R1 & R2 & R3 & R4); try (unfold cdiv8; lia).
    exists r. split; [auto|]. split; [auto|]. cbn [blen blength]. split; [rewrite R3; unfold cdiv8; lia|].
    assert (Lr : zlen (pad_to_byte (buf_bits r)) = 8 * (cdiv8 stop - start / 8))
      by (rewrite zlen_pad, buf_bits_len, <- blen_cdiv by auto; lia).
    apply bnth_ext; [rewrite zlen_firstn, Lv, Lr; unfold cdiv8; lia|]. rewrite zlen_firstn. intros i Hi.
    rewrite bnth_firstn, bnth_view, bnth_pad by (auto; lia). replace (i <? stop - start) with true by lia.
    replace ((0 <=? i) && true) with true by lia. rewrite R4 by (unfold cdiv8 in *; lia). f_equal. lia.
  - rewrite buf_bytes_spec by auto. cbn [rbind].
    set (vb := buf_bits (BView inner start stop)) in *.
    destruct (bytes_of_bits_spec vb) as (B & L & W).
    eexists. split; [reflexivity|]. cbn [buf_ok blen blength]. split; [auto|]. split; [rewrite L, Lv; reflexivity|].
    assert (Lr : zlen (pad_to_byte (buf_bits (BArr (bytes_of_bits vb)))) = 8 * cdiv8 (stop - start)).
    { rewrite zlen_pad. cbn [buf_bits]. rewrite bits_of_bytes_length, L, Lv. unfold cdiv8. lia. }
    apply bnth_ext; [rewrite zlen_firstn, Lr, Lv; unfold cdiv8; lia|]. rewrite zlen_firstn. intros i Hi.
    rewrite bnth_firstn, bnth_pad by lia. replace (i <? stop - start) with true by (unfold cdiv8 in *; lia).
    cbn [buf_bits]. rewrite bnth_bytes. apply W.
Qed.

(** Sequences of extensions. *)
Lemma extend_all_spec l : forall x, ba_ok x -> Forall value_ok l ->
  exists x', extend_all l x = (Ok tt, x') /\ ba_ok x' /\ ba_start x' = ba_start x
    /\ ba_bits x' = ba_bits x ++ flat_map value_bits l /\ (ba_clean x -> ba_clean x').
Proof.
  induction l as [|v l IH]; intros x K H; cbn [extend_all flat_map].
  - exists x. rewrite app_nil_r. auto.
  - inversion H as [|? ? Hv Hl]; subst. unfold sbind.
    assert (E : exists x', ba_extend v x = (Ok tt, x') /\ ba_ok x' /\ ba_start x' = ba_start x
                 /\ ba_bits x' = ba_bits x ++ value_bits v /\ (ba_clean x -> ba_clean x')).
    { destruct v as [b|b|n]; cbn [value_ok value_bits] in *; [now apply extend_view|now apply extend_bytes|contradiction]. }
    destruct E as (x1 & X1 & K1 & S1 & V1 & C1). rewrite X1.
    destruct (IH x1 K1 Hl) as (x2 & X2 & K2 & S2 & V2 & C2). exists x2.
    split; [auto|]. split; [auto|]. split; [congruence|]. split; [|auto].
    now rewrite V2, V1, <- app_assoc.
Qed.

Lemma mk_baa_ok x : ba_ok x -> mk_baa (ba_buf x) (ba_start x) (ba_stop x) = Ok x.
Proof.
  intros K. destruct (ba_ok_elim _ K) as (B & Hs & Hl). unfold mk_baa, mk_view. cbn [blen].
  replace (0 <=? ba_start x) with true by lia. replace (ba_stop x <=? 8 * zlen (ba_buf x)) with true by lia.
  replace (ba_start x <=? ba_stop x) with true by lia. cbn [passert rbind]. destruct x; reflexivity.
Qed.
Lemma ba_add_spec x b : ba_ok x -> buf_ok b ->
  exists x', ba_add x b = Ok x' /\ ba_ok x' /\ ba_bits x' = ba_bits x ++ buf_bits b.
Proof.
  intros K H. unfold ba_add. rewrite mk_baa_ok by auto. cbn [rbind].
  destruct (extend_view x b K H) as (x' & X & K' & _ & V & _). rewrite X. exists x'. auto.
Qed.
Lemma ba_radd_spec x b : ba_ok x -> buf_ok b -> is_view b ->
  exists x', ba_radd x b = Ok x' /\ ba_ok x' /\ ba_bits x' = buf_bits b ++ ba_bits x.
Proof.
  intros K H V. destruct b as [|inner start stop]; [destruct V|]. pose proof H as (K0 & H1 & H2 & H3).
  unfold ba_radd. rewrite buf_bytes_spec by auto. cbn [rbind].
  destruct (bytes_of_bits_spec (buf_bits inner)) as (B & L & W).
  set (c := mkBa (bytes_of_bits (buf_bits inner)) start stop).
  assert (Kc : ba_ok c).
  { apply ba_ok_intro; cbn [c ba_buf ba_start ba_stop]; auto; try lia. rewrite L, buf_bits_len, <- blen_cdiv by auto. lia. }
  assert (Bc : ba_bits c = buf_bits (BView inner start stop)).
  { apply bnth_ext.
    - rewrite ba_bits_len, buf_bits_len by auto. reflexivity.
    - rewrite ba_bits_len by auto. cbn [c ba_start ba_stop]. intros i Hi. rewrite bnth_ba, bnth_view by auto.
      cbn [c ba_start ba_stop]. destruct ((0 <=? i) && (i <? stop - start)); auto. unfold abit. cbn [c ba_buf]. apply W. }
  pose proof (mk_baa_ok c Kc) as M. cbn [c ba_buf ba_start ba_stop] in M. fold c in M. rewrite M. cbn [rbind].
  destruct (extend_view c (ba_view x) Kc K) as (x' & X & K' & _ & V' & _). rewrite X. exists x'.
  split; [auto|]. split; [auto|]. rewrite V', Bc. reflexivity.
Qed.

(** Deletions that always fit. *)
Lemma deletion_fits_aligned x a b : ba_ok x -> 0 <= a <= b -> b <= ba_stop x -> a mod 8 = 0 -> deletion_fits x a b.
Proof.
  intros K Ha Hb Hm. destruct (ba_ok_elim _ K) as (B & Hs & Hl). unfold deletion_fits, whole_removed, cdiv8. lia.
Qed.
Lemma deletion_fits_tail x a b : ba_stop x <= b -> deletion_fits x a b.
Proof. intros H. right. right. exact H. Qed.
