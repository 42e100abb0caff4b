(** Proofs about buffer/io_buffer.py, part 6: integers, InputBuffer and OutputBuffer. *)
From Verif Require Import Base BaseProofs Range IoBuffer IoSpec IoProofs IoMutProofs IoInsert IoDelete IoFacts.
From Coq Require Import ZArith List Bool Lia ZifyBool ZifyNat.
Import ListNotations.
Open Scope Z_scope.
Ltac Zify.zify_post_hook ::= Z.div_mod_to_equations.

(** ** Assigning an int *)
Lemma zlen_int_bits n m : 0 <= m -> zlen (int_bits n m) = m.
Proof. intros. unfold int_bits, zlen. rewrite map_length, seq_length. lia. Qed.
Lemma bnth_int_bits n m i : 0 <= m -> bnth (int_bits n m) i = if (0 <=? i) && (i <? m) then Z.testbit n i else false.
Proof.
  intros Hm. destruct ((0 <=? i) && (i <? m)) eqn:E.
  - unfold bnth. replace (i <? 0) with false by lia. unfold int_bits.
    rewrite (nth_indep _ false (Z.testbit n (Z.of_nat 0))) by (rewrite map_length, seq_length; lia).
    rewrite (map_nth (fun j => Z.testbit n (Z.of_nat j))), seq_nth by lia. f_equal. lia.
  - destruct (i <? 0) eqn:F; [apply bnth_neg; lia|]. apply bnth_over. rewrite zlen_int_bits; lia.
Qed.

Lemma int_digits_spec k : forall v, bytes_ok (int_digits k v) /\ zlen (int_digits k v) = Z.of_nat k
  /\ forall i, bit_at (int_digits k v) i = if (0 <=? i) && (i <? 8 * Z.of_nat k) then Z.testbit v i else false.
Proof.
  induction k as [|k IH]; intros v; cbn [int_digits].
  - split; [constructor|]. split; [reflexivity|]. intros i. rewrite bit_at_nil.
    now replace ((0 <=? i) && (i <? 8 * Z.of_nat 0)) with false by lia.
  - destruct (IH (v / 256)) as (B & L & V). split; [|split].
    + constructor; auto. unfold is_byte. lia.
    + rewrite zlen_cons, L. lia.
    + intros i. destruct (Z_lt_ge_dec i 0).
      { rewrite bit_at_neg by lia. now replace (0 <=? i) with false by lia. }
      destruct (Z_lt_ge_dec i 8).
      * rewrite bit_at_cons_lo by lia. replace ((0 <=? i) && (i <? 8 * Z.of_nat (S k))) with true by lia.
        change 256 with (2 ^ 8). apply Z.mod_pow2_bits_low. lia.
      * rewrite bit_at_cons_hi by lia. rewrite V.
        replace ((0 <=? i - 8) && (i - 8 <? 8 * Z.of_nat k)) with ((0 <=? i) && (i <? 8 * Z.of_nat (S k))) by lia.
        destruct ((0 <=? i) && (i <? 8 * Z.of_nat (S k))); auto.
        change 256 with (2 ^ 8). rewrite Z.div_pow2_bits by lia. f_equal. lia.
Qed.

Lemma bit_length_top n i : 0 <= n -> bit_length n <= i -> Z.testbit n i = false.
Proof.
  intros Hn Hi. unfold bit_length in Hi. destruct (n =? 0) eqn:E.
  - replace n with 0 by lia. apply Z.testbit_0_l.
  - rewrite Z.abs_eq in Hi by lia. apply Z.bits_above_log2; lia.
Qed.
Lemma bit_length_nonneg n : 0 <= bit_length n.
Proof. unfold bit_length. destruct (n =? 0); [lia|]. pose proof (Z.log2_nonneg (Z.abs n)). lia. Qed.
Lemma bit_length_le n k : 0 <= n -> 0 <= k -> (bit_length n <= k <-> n < 2 ^ k).
Proof.
  intros Hn Hk. unfold bit_length. destruct (n =? 0) eqn:E.
  - replace n with 0 by lia. pose proof (Z.pow_pos_nonneg 2 k). lia.
  - rewrite Z.abs_eq by lia. rewrite Z.log2_lt_pow2 by lia. lia.
Qed.


Lemma setitem_int x a b n : ba_ok x ->
  let len := ba_stop x - ba_start x in let lo := lo_of len a in let hi := hi_of len b in
  lo <= hi -> 0 <= n ->
  (lo < hi -> n < 2 ^ (hi - lo) ->
   exists x', ba_setitem (KSlice a b) (BVInt n) x = (Ok tt, x') /\ ba_ok x' /\ ba_start x' = ba_start x
     /\ let m := int_reach n (hi - lo) in
        ba_bits x' = splice (ba_bits x) lo (lo + m) (int_bits n m))
  /\ (lo = hi \/ 2 ^ (hi - lo) <= n -> ba_setitem (KSlice a b) (BVInt n) x = (Err ValueError, x)).
Proof.
  intros K len lo hi Hlh Hn. destruct (ba_ok_elim _ K) as (B & Hs & Hl).
  pose proof (py_clamp_range len (match a with Some v => v | None => 0 end) ltac:(lia)) as Hlo. fold (lo_of len a) in Hlo. fold lo in Hlo.
  pose proof (py_clamp_range len (match b with Some v => v | None => len end) ltac:(lia)) as Hhi. fold (hi_of len b) in Hhi. fold hi in Hhi.
  unfold ba_setitem. unfold sbind, slift. rewrite key_range_spec by auto. fold len lo hi.
  replace (lo <=? hi) with true by lia. cbn [fst snd]. unfold value_and_length.
  replace (ba_start x + hi - (ba_start x + lo)) with (hi - lo) by lia.
  pose proof (bit_length_nonneg n) as Hb0. split.
  - intros Hlt Hfit. apply (bit_length_le n (hi - lo)) in Hfit; try lia.
    replace (hi - lo <? Z.max 1 (bit_length n)) with false by lia. cbn [fst snd].
    set (k := Z.to_nat (cdiv8 (Z.max 1 (bit_length n)))).
    replace (Z.max (Z.max 1 (bit_length n)) (hi - lo)) with (hi - lo) by lia.
    unfold set_range. unfold sbind, slift.
    replace ((ba_start x + lo <=? ba_start x + hi) && (0 <=? hi - lo)) with true by lia. cbn [passert].
    replace (ba_start x + hi - (ba_start x + lo)) with (hi - lo) by lia.
    replace (hi - lo <? hi - lo) with false by lia.
    destruct (int_digits_spec k n) as (Bd & Ld & Vd).
    assert (Hk : Z.of_nat k = cdiv8 (Z.max 1 (bit_length n))) by (unfold k; unfold cdiv8; lia).
    destruct (copy_loop_spec (int_digits k n) x (ba_start x + lo) (hi - lo)) as (x' & X' & S' & T' & L' & B' & V');
      auto; try (unfold cdiv8 in *; lia).
    { intros i Hi. rewrite Vd. destruct ((0 <=? i) && (i <? 8 * Z.of_nat k)); auto. apply bit_length_top; lia. }
    exists x'. split; [exact X'|]. assert (K' : ba_ok x') by (apply ba_ok_intro; auto; lia).
    split; [auto|]. split; [auto|]. cbv zeta. set (m := int_reach n (hi - lo)).
    assert (Em : m = Z.min (hi - lo) (8 * zlen (int_digits k n))) by (unfold m, int_reach; rewrite Ld, Hk; reflexivity).
    rewrite <- Em in V'. assert (Hm : 0 <= m <= hi - lo) by (unfold cdiv8 in *; lia).
    apply spliced; auto; try lia. { rewrite zlen_int_bits by lia. lia. }
    intros i Hi. rewrite V', zlen_int_bits by lia. destruct (i <? lo) eqn:E1.
    + now replace (ba_start x + lo <=? ba_start x + i) with false by lia.
    + destruct (i <? lo + m) eqn:E2.
      * replace ((ba_start x + lo <=? ba_start x + i) && (ba_start x + i <? ba_start x + lo + m)) with true by lia.
        rewrite Vd, bnth_int_bits by lia.
        replace ((0 <=? i - lo) && (i - lo <? m)) with true by lia.
        replace ((0 <=? ba_start x + i - (ba_start x + lo)) && (ba_start x + i - (ba_start x + lo) <? 8 * Z.of_nat k)) with true by lia.
        f_equal. lia.
      * replace ((ba_start x + lo <=? ba_start x + i) && (ba_start x + i <? ba_start x + lo + m)) with false by lia.
        f_equal. lia.
  - intros Hbad. replace (hi - lo <? Z.max 1 (bit_length n)) with true; [reflexivity|].
    destruct Hbad as [Hbad|Hbad]; [lia|]. assert (~ bit_length n <= hi - lo) by (rewrite bit_length_le by lia; lia). lia.
Qed.


Lemma closed_bounds_ok r : closed_range r -> exists e, closed_bounds r = Ok (r_start r, e) /\ r_stop r = Some e /\ 0 <= r_start r <= e.
Proof. unfold closed_range, closed_bounds. destruct (r_stop r) as [e|]; [|tauto]. intros H. exists e. auto. Qed.
Lemma closed_in_order l s e : 0 <= s <= e -> slice_in_order l (Some s) (Some e).
Proof.
  intros H. unfold slice_in_order, py_clamp.
  repeat match goal with |- context [if ?c then _ else _] => destruct c eqn:? end; lia.
Qed.

Lemma input_concat_spec b l : buf_ok b -> is_view b -> Forall closed_range l ->
  forall acc, ba_ok acc ->
  exists x, input_concat b l acc = Ok x /\ ba_ok x /\ ba_bits x = ba_bits acc ++ flat_map (range_bits (buf_bits b)) l.
Proof.
  intros K V. induction l as [|r l IH]; intros Hl acc Ka; cbn [input_concat flat_map].
  - exists acc. rewrite app_nil_r. auto.
  - inversion Hl as [|? ? Hr Hl']; subst. destruct (closed_bounds_ok r Hr) as (e & E1 & E2 & E3).
    rewrite E1. cbn [rbind fst snd].
    destruct (proj1 (buf_slice_spec b (Some (r_start r)) (Some e) K V) (closed_in_order _ _ _ E3)) as (s & S1 & S2 & S3 & S4).
    rewrite S1. cbn [rbind].
    destruct (extend_view acc s Ka S2) as (x1 & X1 & K1 & _ & V1 & _). rewrite X1.
    destruct (IH Hl' x1 K1) as (x2 & X2 & K2 & V2). exists x2. split; [auto|]. split; [auto|].
    rewrite V2, V1, S4, <- app_assoc. unfold range_bits. now rewrite E2.
Qed.

Lemma new_baa_ok l : bytes_ok l -> ba_ok (new_baa l).
Proof. intros H. pose proof (zlen_nonneg l). apply ba_ok_intro; cbn [new_baa ba_buf ba_start ba_stop]; auto; lia. Qed.
Lemma new_baa_bits l : bytes_ok l -> ba_bits (new_baa l) = bits_of_bytes l.
Proof.
  intros H. pose proof (new_baa_ok l H) as K. pose proof (zlen_nonneg l). apply bnth_ext.
  - rewrite ba_bits_len, bits_of_bytes_length by auto. cbn [new_baa ba_start ba_stop]. lia.
  - rewrite ba_bits_len by auto. cbn [new_baa ba_start ba_stop]. intros i Hi. rewrite bnth_ba, bnth_bytes by auto.
    cbn [new_baa ba_start ba_stop]. replace ((0 <=? i) && (i <? 8 * zlen l - 0)) with true by lia.
    unfold abit. cbn [new_baa ba_buf]. reflexivity.
Qed.

Lemma input_get_spec b l : buf_ok b -> is_view b -> Forall closed_range l ->
  exists r, input_get b l = Ok r /\ buf_ok r /\ buf_bits r = flat_map (range_bits (buf_bits b)) l.
Proof.
  intros K V Hl.
  assert (G : exists r, (let* x := input_concat b l (new_baa []) in Ok (ba_view x)) = Ok r /\ buf_ok r
               /\ buf_bits r = flat_map (range_bits (buf_bits b)) l).
  { assert (B0 : bytes_ok []) by constructor.
    destruct (input_concat_spec b l K V Hl (new_baa []) (new_baa_ok [] B0)) as (x & X & Kx & Vx).
    rewrite X. cbn [rbind]. exists (ba_view x). split; [auto|]. split; [auto|].
    rewrite new_baa_bits in Vx by auto. exact Vx. }
  unfold input_get. destruct l as [|r [|r2 l']]; [exact G| |exact G].
  inversion Hl as [|? ? Hr _]; subst. destruct (closed_bounds_ok r Hr) as (e & E1 & E2 & E3).
  rewrite E1. cbn [rbind fst snd flat_map].
  destruct (proj1 (buf_slice_spec b (Some (r_start r)) (Some e) K V) (closed_in_order _ _ _ E3)) as (s & S1 & S2 & S3 & S4).
  exists s. split; [auto|]. split; [auto|]. rewrite app_nil_r, S4. unfold range_bits. now rewrite E2.
Qed.

(** ** OutputBuffer *)
(** [zfill] in general: something of the right length is appended. *)
Lemma zfill_any x len : ba_ok x ->
  let n := ba_stop x - ba_start x in
  exists x' gap, ba_zfill len x = (Ok tt, x') /\ ba_ok x' /\ ba_start x' = ba_start x /\ (ba_clean x -> ba_clean x')
    /\ ba_bits x' = ba_bits x ++ gap /\ zlen gap = Z.max 0 (len - n)
    /\ (ba_clean x -> len <= n \/ gap_ok (ba_stop x) (len - n) -> gap = repeat false (Z.to_nat (len - n))).
Proof.
  intros K n. destruct (ba_ok_elim _ K) as (B & Hs & Hl).
  assert (Lb : zlen (ba_bits x) = n) by (now apply ba_bits_len).
  destruct (Z_lt_ge_dec n len) as [Hlt|Hge].
  - destruct (insert_end x (len - n) K ltac:(lia)) as (x1 & X1 & K1 & S1 & T1 & V1 & C1).
    assert (X : ba_zfill len x = (Ok tt, x1)).
    { unfold ba_zfill, sbind, sget. fold n. replace (n <? len) with true by lia.
      replace (ba_stop x + len - n) with (ba_stop x + (len - n)) by lia. exact X1. }
    assert (Hsplit : ba_bits x1 = ba_bits x ++ skipn (Z.to_nat n) (ba_bits x1)).
    { apply bnth_ext.
      - rewrite zlen_app, zlen_skipn, !ba_bits_len by auto. lia.
      - rewrite ba_bits_len by auto. intros i Hi. rewrite bnth_app, Lb. destruct (i <? n) eqn:E.
        + rewrite !bnth_ba by auto. replace ((0 <=? i) && (i <? ba_stop x1 - ba_start x1)) with true by lia.
          replace ((0 <=? i) && (i <? ba_stop x - ba_start x)) with true by lia. rewrite S1. apply V1. lia.
        + rewrite bnth_skipn by lia. f_equal. lia. }
    exists x1, (skipn (Z.to_nat n) (ba_bits x1)).
    split; [auto|]. split; [auto|]. split; [auto|]. split; [intros C; apply C1; exact C|]. split; [exact Hsplit|]. split.
    + rewrite zlen_skipn, ba_bits_len by auto. lia.
    + intros C Hg. destruct (zfill_ok x len K C Hg) as (x2 & X2 & _ & _ & _ & V2).
      rewrite X in X2. injection X2 as <-. rewrite Hsplit in V2. apply app_inv_head in V2. exact V2.
  - exists x, []. unfold ba_zfill, sbind, sget. fold n. replace (n <? len) with false by lia.
    split; [reflexivity|]. split; [auto|]. split; [auto|]. split; [auto|]. split; [now rewrite app_nil_r|].
    split; [rewrite zlen_nil; lia|]. intros _ _. now replace (Z.to_nat (len - n)) with 0%nat by lia.
Qed.



Lemma py_slice_skip {A} (l : list A) a n : 0 <= a -> 0 <= n -> a + n <= zlen l ->
  py_slice l a (a + n) = firstn (Z.to_nat n) (skipn (Z.to_nat a) l).
Proof.
  intros Ha Hn Hl. unfold py_slice. rewrite !py_clamp_id by lia. repeat f_equal. lia.
Qed.

Lemma output_set_loop_spec value l : buf_ok value -> is_view value -> blength value mod 8 = 0 -> Forall closed_range l ->
  forall vs x, out_ok x -> 0 <= vs -> vs <= blength value ->
  (vs + total_len (map bounds l) <= blength value ->
     exists x', output_set_loop value vs l x = (Ok tt, x') /\ out_ok x'
       /\ placed (skipn (Z.to_nat vs) (buf_bits value)) (map bounds l) (ba_bits x) (ba_bits x'))
  /\ (blength value < vs + total_len (map bounds l) ->
      exists x', output_set_loop value vs l x = (Err ValueError, x')).
Proof.
  intros Kv Vv Mv. induction l as [|r l IH]; intros Hl vs x Kx Hvs Hv; cbn [output_set_loop map total_len fold_right placed].
  - split; [|lia]. intros _. exists x. auto.
  - inversion Hl as [|? ? Hr Hl']; subst. destruct (closed_bounds_ok r Hr) as (e & E1 & E2 & E3).
    assert (Hb : bounds r = (r_start r, e)) by (unfold bounds; now rewrite E2).
    rewrite Hb. cbn [fst snd]. fold (total_len (map bounds l)). set (s := r_start r) in *.
    unfold sbind, slift. rewrite E1. cbn [fst snd].
    replace ((0 <=? s) && (s <=? e)) with true by lia. cbn [passert].
    assert (Hblen : 8 * blen value = blength value) by (rewrite blen_cdiv; unfold cdiv8; lia). rewrite Hblen.
    assert (Tn : 0 <= total_len (map bounds l)).
    { clear -Hl'. induction l as [|r l IH]; cbn [map total_len fold_right]; [lia|]. inversion Hl'; subst.
      destruct (closed_bounds_ok r) as (e & _ & E2 & E3); auto.
      assert (Hb : bounds r = (r_start r, e)) by (unfold bounds; now rewrite E2). rewrite Hb. cbn [fst snd].
      fold (total_len (map bounds l)). specialize (IH ltac:(auto)). lia. }
    destruct (blength value - vs <? e - s) eqn:Short.
    { split; [lia|]. intros _. eexists. reflexivity. }
    unfold sret. destruct Kx as (K & S0 & C). destruct (ba_ok_elim _ K) as (B & Hs & Hlen).
    assert (Lb : zlen (ba_bits x) = ba_stop x) by (rewrite ba_bits_len by auto; lia).
    destruct (zfill_any x s K) as (x1 & gap & X1 & K1 & S1 & C1 & V1 & G1 & G2).
    rewrite S0, Z.sub_0_r in G1, G2. rewrite X1.
    assert (Lv : zlen (buf_bits value) = blength value) by (now apply buf_bits_len).
    destruct (proj1 (buf_slice_spec value (Some vs) (Some (vs + (e - s))) Kv Vv)) as (pc & P1 & P2 & P3 & P4).
    { apply closed_in_order. lia. }
    rewrite P1.
    assert (Pb : buf_bits pc = firstn (Z.to_nat (e - s)) (skipn (Z.to_nat vs) (buf_bits value))).
    { rewrite P4. unfold slice_bits. apply py_slice_skip; lia. }
    assert (Pl : zlen (buf_bits pc) = e - s) by (rewrite Pb, zlen_firstn, zlen_skipn; lia).
    assert (L1 : zlen (ba_bits x1) = ba_stop x1 - ba_start x1) by (now apply ba_bits_len).
    assert (Hs1 : s <= zlen (ba_bits x1)) by (rewrite V1, zlen_app; lia).
    assert (Elo : lo_of (ba_stop x1 - ba_start x1) (Some s) = s).
    { unfold lo_of, py_clamp. replace (s <? 0) with false by lia. lia. }
    assert (Ehi : hi_of (ba_stop x1 - ba_start x1) (Some e) = Z.min e (zlen (ba_bits x1))).
    { unfold hi_of, py_clamp. replace (e <? 0) with false by lia. lia. }
    destruct (setitem_slice x1 (Some s) (Some e) (BVView pc) K1 P2) as [D1 _].
    { rewrite Elo, Ehi. lia. }
    cbn [value_bits] in D1. rewrite Elo, Ehi, Pl in D1.
    destruct D1 as (x2 & X2 & K2 & S2 & V2 & C2).
    { destruct (Z_le_gt_dec e (zlen (ba_bits x1))); [left|right; left]; lia. }
    rewrite X2.
    destruct (IH Hl' (vs + (e - s)) x2) as [I1 I2].
    { split; [auto|]. split; [congruence|]. apply C2; auto; lia. }
    { lia. } { lia. }
    split.
    + intros Ht. destruct I1 as (x' & X' & K' & P'); [lia|]. exists x'. split; [auto|]. split; [auto|].
      exists gap. split; [lia|]. split.
      * intros Hg. rewrite Lb in Hg |- *. apply G2; auto.
      * rewrite <- V1. rewrite <- Pb. rewrite <- V2.
        rewrite Z2Nat.inj_add in P' by lia.
        replace (skipn (Z.to_nat (e - s)) (skipn (Z.to_nat vs) (buf_bits value)))
          with (skipn (Z.to_nat vs + Z.to_nat (e - s)) (buf_bits value)); [exact P'|].
        clear. generalize (Z.to_nat vs) as k, (Z.to_nat (e - s)) as m, (buf_bits value) as L.
        induction k as [|k IHk]; intros m [|a L]; cbn [skipn Nat.add]; auto. now rewrite skipn_nil.
    + intros Ht. destruct I2 as (x' & X'); [lia|]. exists x'. exact X'.
Qed.

Lemma output_set_spec value l x : buf_ok value -> Forall closed_range l -> out_ok x ->
  let bits := pad_to_byte (buf_bits value) in
  (total_len (map bounds l) <= zlen bits ->
     exists x', output_set value l x = (Ok tt, x') /\ out_ok x'
       /\ placed bits (map bounds l) (ba_bits x) (ba_bits x'))
  /\ (zlen bits < total_len (map bounds l) -> exists x', output_set value l x = (Err ValueError, x')).
Proof.
  intros K Hl Kx bits. destruct (view_of_spec value K) as (v & V1 & V2 & V3 & V4).
  unfold output_set. unfold sbind, slift. rewrite V1.
  assert (Lv : zlen bits = blength v) by (unfold bits; rewrite <- V4; now apply buf_bits_len).
  assert (M : blength v mod 8 = 0) by (rewrite <- Lv; unfold bits; rewrite zlen_pad; lia).
  pose proof (blength_nonneg v V2).
  destruct (output_set_loop_spec v l V2 V3 M Hl 0 x Kx) as [O1 O2]; try lia.
  rewrite V4 in O1. fold bits in O1. change (skipn (Z.to_nat 0) bits) with bits in O1. rewrite Lv. exact (conj O1 O2).
Qed.
