(** Bit field groups: writing puts each value on its own bits, reading takes it from there. *)
From Verif Require Import Base BaseProofs BitStringIO BitStringIOProofs Marshal BitFieldSpec.
From Coq Require Import ZArith List Bool Lia ZifyBool ZifyNat String.
Import ListNotations.
Open Scope Z_scope.
Ltac Zify.zify_post_hook ::= Z.div_mod_to_equations.

Lemma Zeq_testbit a b : (forall i, 0 <= i -> Z.testbit a i = Z.testbit b i) -> a = b.
Proof. intros H. apply Z.bits_inj'. exact H. Qed.

Lemma sum_acc l a : fold_left Z.add l a = a + fold_left Z.add l 0.
Proof.
  revert a. induction l as [|x l IH]; intros a; cbn; [lia|].
  rewrite IH, (IH x). lia.
Qed.
Lemma sum_cons x l : fold_left Z.add (x :: l) 0 = x + fold_left Z.add l 0.
Proof. cbn [fold_left]. rewrite Z.add_0_l. apply sum_acc. Qed.

Lemma bs_write_at s value n :
  bytes_ok (bs_val s) -> 0 <= bs_pos s -> 0 <= n -> bs_pos s + n <= 8 * zlen (bs_val s) ->
  (forall i, bs_pos s <= i < bs_pos s + n -> bit_at (bs_val s) i = false) ->
  exists v, bs_write value n s = (Ok tt, mkBsio (bs_pos s + n) v)
    /\ bytes_ok v /\ zlen v = zlen (bs_val s)
    /\ forall i, 0 <= i ->
         bit_at v i = if (bs_pos s <=? i) && (i <? bs_pos s + n)
                      then Z.testbit value (i - bs_pos s) else bit_at (bs_val s) i.
Proof.
  intros Hb Hp Hn Hf Hz.
  destruct (bs_write_ok s value n) as (v & E & B & L & S); auto.
  { split; auto. lia. }
  exists v. repeat split; auto. intros i Hi. rewrite S by auto.
  destruct (Z.leb_spec (bs_pos s) i), (Z.ltb_spec i (bs_pos s + n)); cbn [andb]; try now rewrite orb_false_r.
  rewrite Hz by lia. reflexivity.
Qed.

(** ** Positional slices *)
Lemma slices_hold_ext val val' sl : forall z o,
  (forall i, existsb (fun s => (fst s <=? i) && (i <? snd s)) sl = true -> bit_at val' i = bit_at val i) ->
  slices_hold val sl z o -> slices_hold val' sl z o.
Proof.
  induction sl as [|[a b] sl IH]; intros z o E; cbn [slices_hold existsb fst snd] in *; auto.
  intros [H1 H2]. split.
  - intros i Hi. rewrite E; auto.
    replace ((a <=? a + i) && (a + i <? b)) with true by lia. reflexivity.
  - apply IH; auto. intros i Hi. apply E. rewrite Hi. apply orb_true_r.
Qed.

Lemma slices_hold_shift val sl : forall z k o,
  0 <= k -> 0 <= o -> Forall (fun s => 0 <= fst s < snd s) sl ->
  slices_hold val sl (Z.shiftr z k) o -> slices_hold val sl z (o + k).
Proof.
  induction sl as [|[a b] sl IH]; intros z k o Hk Ho F; cbn [slices_hold]; auto.
  inversion F as [|x y Hx Hy]; subst; cbn [fst snd] in *. intros [H1 H2]. split.
  - intros i Hi. rewrite H1 by auto. rewrite Z.shiftr_spec by lia. f_equal; lia.
  - replace (o + k + (b - a)) with ((o + (b - a)) + k) by lia. apply IH; auto; lia.
Qed.

Lemma bm_pos_write_ok sl : forall z s,
  Forall (fun t => 0 <= fst t < snd t) sl -> slices_disjoint sl ->
  bytes_ok (bs_val s) -> Forall (fun t => snd t <= 8 * zlen (bs_val s)) sl ->
  (forall i, existsb (fun t => (fst t <=? i) && (i <? snd t)) sl = true -> bit_at (bs_val s) i = false) ->
  exists p v, bm_pos_write sl z s = (Ok tt, mkBsio p v)
    /\ bytes_ok v /\ zlen v = zlen (bs_val s)
    /\ (forall i, existsb (fun t => (fst t <=? i) && (i <? snd t)) sl = false ->
                  bit_at v i = bit_at (bs_val s) i)
    /\ slices_hold v sl z 0.
Proof.
  induction sl as [|[a b] sl IH]; intros z s F D B L Zr.
  - cbn. exists (bs_pos s), (bs_val s). destruct s; cbn. auto 10.
  - inversion F as [|x y Hx Hy]; subst. inversion L as [|x' y' Hx' Hy']; subst.
    cbn [slices_disjoint fst snd] in *. destruct D as [D1 D2].
    cbn [bm_pos_write]. unfold sbind at 1. rewrite bs_seek_ok by lia.
    unfold py_shl1. destruct (Z.ltb_spec (b - a) 0); [lia|].
    unfold sbind at 1, slift.
    set (x := Z.land z (Z.shiftl 1 (b - a) - 1)).
    destruct (bs_write_at (mkBsio a (bs_val s)) x (b - a)) as (v & E & Bv & Lv & Sv);
      cbn [bs_pos bs_val]; auto; try lia.
    { intros i Hi. apply Zr. cbn [existsb fst snd]. replace ((a <=? i) && (i <? b)) with true by lia.
      reflexivity. }
    unfold sbind at 1. rewrite E. cbn [bs_pos bs_val] in *.
    destruct (IH (Z.shiftr z (b - a)) (mkBsio (a + (b - a)) v)) as (p & v' & E' & B' & L' & S' & H');
      cbn [bs_val]; auto.
    { rewrite Lv. auto. }
    { intros i Hi. destruct (Z.ltb_spec i 0); [now apply bit_at_neg|].
      rewrite Sv by auto.
      apply existsb_exists in Hi. destruct Hi as (t & T1 & T2).
      rewrite Forall_forall in D1. specialize (D1 t T1).
      replace ((a <=? i) && (i <? a + (b - a))) with false by lia.
      apply Zr. cbn [existsb]. apply orb_true_iff. right. apply existsb_exists. eauto. }
    exists p, v'. rewrite E'. cbn [bs_val] in *. split; [reflexivity|]. split; [auto|].
    split; [congruence|]. split; [|split].
    + intros i Hi. cbn [existsb fst snd] in Hi. apply orb_false_iff in Hi. destruct Hi as [Hi1 Hi2].
      rewrite S' by auto. cbn [bs_val]. destruct (Z.ltb_spec i 0); [now rewrite !bit_at_neg by auto|].
      rewrite Sv by auto. now replace ((a <=? i) && (i <? a + (b - a))) with false by lia.
    + intros i Hi. rewrite S'; cbn [bs_val].
      * rewrite Sv by lia. replace ((a <=? a + i) && (a + i <? a + (b - a))) with true by lia.
        replace (a + i - a) with i by lia. unfold x.
        rewrite Z.land_spec, testbit_mask by lia. replace (i <? b - a) with true by lia.
        now rewrite andb_true_r.
      * destruct (existsb _ sl) eqn:X; auto. exfalso.
        apply existsb_exists in X. destruct X as (t & T1 & T2).
        rewrite Forall_forall in D1. specialize (D1 t T1). lia.
    + apply slices_hold_shift; auto; lia.
Qed.

Lemma pos_size_nonneg sl : Forall (fun t => 0 <= fst t < snd t) sl ->
  0 <= fold_left Z.add (map (fun t => snd t - fst t) sl) 0.
Proof.
  induction 1 as [|t sl Ht _ IH]; [cbn; lia|]. cbn [map]. rewrite sum_cons. lia.
Qed.

Lemma bm_pos_read_ok sl : forall z o s acc bits,
  Forall (fun t => 0 <= fst t < snd t) sl ->
  bytes_ok (bs_val s) -> Forall (fun t => snd t <= 8 * zlen (bs_val s)) sl ->
  0 <= o -> slices_hold (bs_val s) sl z o ->
  exists p, bm_pos_read sl acc bits s
            = (Ok (acc + ((Z.shiftr z o) mod 2 ^ fold_left Z.add (map (fun t => snd t - fst t) sl) 0) * 2 ^ bits),
               mkBsio p (bs_val s)) \/ bits < 0.
Proof.
  induction sl as [|[a b] sl IH]; intros z o s acc bits F B L Ho H.
  - cbn. exists (bs_pos s). destruct (Z.ltb_spec bits 0); [right; lia|left].
    rewrite Z.mod_1_r. unfold sret. f_equal; [f_equal; lia|]. now destruct s.
  - inversion F as [|x y Hx Hy]; subst. inversion L as [|x' y' Hx' Hy']; subst.
    cbn [slices_hold fst snd] in *. destruct H as [H1 H2].
    cbn [bm_pos_read]. unfold sbind at 1. rewrite bs_seek_ok by lia. unfold sbind at 1.
    destruct (bs_read_ok (mkBsio a (bs_val s)) (b - a)) as (r & E & R & S); cbn [bs_pos bs_val]; try lia.
    { split; cbn [bs_val bs_pos]; auto. lia. }
    rewrite E. cbn [bs_pos bs_val] in *.
    destruct (Z.ltb_spec bits 0); [exists 0; right; lia|].
    destruct (IH z (o + (b - a)) (mkBsio (a + (b - a)) (bs_val s)) (acc + Z.shiftl r bits) (bits + (b - a)))
      as (p & [E'|E']); cbn [bs_val]; auto; try lia.
    exists p. left. rewrite E'. cbn [bs_val]. f_equal. f_equal.
    cbn [map fst snd]. rewrite sum_cons.
    set (n := b - a) in *. set (m := fold_left Z.add (map (fun t => snd t - fst t) sl) 0).
    assert (Hm : 0 <= m).
    { now apply pos_size_nonneg. }
    rewrite Z.shiftl_mul_pow2 by lia.
    assert (R1 : r = (Z.shiftr z o) mod 2 ^ n).
    { apply Zeq_testbit. intros i Hi. rewrite S by auto. rewrite testbit_mod_pow2 by lia.
      destruct (Z.ltb_spec i n); auto. cbn [andb]. rewrite H1 by lia. rewrite Z.shiftr_spec by lia.
      f_equal; lia. }
    rewrite R1. rewrite Z.pow_add_r by lia.
    rewrite (Z.pow_add_r 2 n m) by lia.
    rewrite (Z.rem_mul_r (Z.shiftr z o)) by (apply Z.pow_nonzero || apply Z.pow_pos_nonneg; lia).
    rewrite <- (Z.shiftr_div_pow2 (Z.shiftr z o)) by lia. rewrite Z.shiftr_shiftr by lia. ring.
Qed.

Lemma bm_size_nonneg m : bm_wf m -> 0 <= bm_size m.
Proof.
  induction m as [n|n|tbl m IH|sl]; cbn [bm_wf bm_size]; auto.
  intros [H _]. now apply pos_size_nonneg.
Qed.

(** ** One field *)
Lemma holds_ext val val' m : forall pos v,
  (forall i, owns m pos i = true -> bit_at val' i = bit_at val i) ->
  holds val pos m v -> holds val' pos m v.
Proof.
  induction m as [n|n|tbl m IH|sl]; intros pos v E; cbn [holds owns] in *.
  - intros (z & -> & H). exists z. split; auto. intros i Hi. rewrite E by lia. auto.
  - intros H i Hi. rewrite E by lia. auto.
  - intros (w & D & H). exists w. split; auto.
  - intros (z & -> & H). exists z. split; auto. eapply slices_hold_ext; eauto.
Qed.

Lemma bm_write_ok m : forall v pos s,
  bm_wf m -> bm_accepts m v ->
  (bm_sequential m = true -> bs_pos s = pos) ->
  bytes_ok (bs_val s) -> bm_fits m pos (8 * zlen (bs_val s)) ->
  (forall i, owns m pos i = true -> bit_at (bs_val s) i = false) ->
  exists p val, bm_write m v s = (Ok tt, mkBsio p val)
    /\ (bm_sequential m = true -> p = pos + bm_size m)
    /\ bytes_ok val /\ zlen val = zlen (bs_val s)
    /\ (forall i, owns m pos i = false -> bit_at val i = bit_at (bs_val s) i)
    /\ holds val pos m v.
Proof.
  induction m as [n|n|tbl m IH|sl]; intros v pos s W A P B F Zr;
    cbn [bm_wf bm_accepts bm_sequential bm_fits owns bm_write bm_size holds] in *.
  - destruct A as [z ->]. specialize (P eq_refl). cbn [as_int]. unfold slift, sbind at 1.
    destruct (bs_write_at s z n) as (val & E & Bv & Lv & Sv); auto; try lia.
    { intros i Hi. apply Zr. lia. }
    exists (bs_pos s + n), val. rewrite E. repeat split; auto; try lia.
    + intros i Hi. destruct (Z.ltb_spec i 0); [now rewrite !bit_at_neg by auto|].
      rewrite Sv by auto. rewrite P. now rewrite Hi.
    + exists z. split; auto. intros i Hi. rewrite Sv by lia. rewrite P.
      replace ((pos <=? pos + i) && (pos + i <? pos + n)) with true by lia. f_equal; lia.
  - specialize (P eq_refl).
    destruct (bs_write_at s 0 n) as (val & E & Bv & Lv & Sv); auto; try lia.
    { intros i Hi. apply Zr. lia. }
    exists (bs_pos s + n), val. rewrite E. repeat split; auto; try lia.
    + intros i Hi. destruct (Z.ltb_spec i 0); [now rewrite !bit_at_neg by auto|].
      rewrite Sv by auto. rewrite P. now rewrite Hi.
    + intros i Hi. rewrite Sv by lia. rewrite P.
      replace ((pos <=? pos + i) && (pos + i <? pos + n)) with true by lia. apply Z.testbit_0_l.
  - destruct A as (w & Dw & A). unfold slift, sbind at 1. rewrite Dw.
    destruct (IH w pos s) as (p & val & E & Pp & Bv & Lv & Sv & Hv); auto.
    exists p, val. rewrite E. repeat split; auto. eauto.
  - destruct A as [z ->]. cbn [as_int]. unfold slift, sbind at 1. destruct W as [W1 W2].
    destruct (bm_pos_write_ok sl z s) as (p & val & E & Bv & Lv & Sv & Hv); auto.
    exists p, val. rewrite E. repeat split; auto; [discriminate|]. eauto.
Qed.

Lemma bm_read_ok m : forall v pos s,
  bm_wf m -> (bm_sequential m = true -> bs_pos s = pos) ->
  bytes_ok (bs_val s) -> bm_fits m pos (8 * zlen (bs_val s)) ->
  holds (bs_val s) pos m v ->
  exists p, bm_read m s = (bm_norm m v, mkBsio p (bs_val s))
    /\ (bm_sequential m = true -> p = pos + bm_size m).
Proof.
  induction m as [n|n|tbl m IH|sl]; intros v pos s W P B F H;
    cbn [bm_wf bm_sequential bm_fits bm_read bm_size holds bm_norm] in *.
  - destruct H as (z & -> & H). specialize (P eq_refl).
    destruct (bs_read_ok s n) as (r & E & R & S); try lia.
    { split; auto. lia. }
    exists (bs_pos s + n). unfold sbind, sret. rewrite E. split; [|lia]. f_equal. f_equal. f_equal.
    apply Zeq_testbit. intros i Hi. rewrite S, testbit_mod_pow2 by lia.
    destruct (Z.ltb_spec i n); cbn [andb]; auto. rewrite P. now apply H.
  - specialize (P eq_refl). destruct (bs_read_ok s n) as (r & E & R & S); try lia.
    { split; auto. lia. }
    exists (bs_pos s + n). unfold sbind, sret. rewrite E. split; [|lia]. f_equal. f_equal. f_equal.
    apply Zeq_testbit. intros i Hi. rewrite S, Z.testbit_0_l by lia.
    destruct (Z.ltb_spec i n); cbn [andb]; auto. rewrite P. now apply H.
  - destruct H as (w & Dw & H). destruct (IH w pos s) as (p & E & Pp); auto.
    exists p. unfold sbind, slift. rewrite E, Dw. cbn [rbind].
    destruct (bm_norm m w); cbn [rbind]; auto.
  - destruct H as (z & -> & H). destruct W as [W1 W2].
    destruct (bm_pos_read_ok sl z 0 s 0 0) as (p & [E|E]); auto; try lia.
    exists p. unfold sbind, sret. rewrite E. split; [|discriminate].
    f_equal. f_equal. f_equal. rewrite Z.shiftr_0_r. cbn [Z.pow]. lia.
Qed.

(** ** Containers *)
Lemma fields_hold_ext val val' fs : forall pos a,
  (forall i, fields_own fs pos i = true -> bit_at val' i = bit_at val i) ->
  fields_hold val fs pos a -> fields_hold val' fs pos a.
Proof.
  induction fs as [|f fs IH]; intros pos a E; cbn [fields_hold fields_own] in *; auto.
  intros [H1 H2]. split.
  - eapply holds_ext; [|exact H1]. intros i Hi. apply E. now rewrite Hi.
  - apply IH; auto. intros i Hi. apply E. rewrite Hi. apply orb_true_r.
Qed.

(** [q]: are the fields of the container addressed by their order? *)
Lemma bitfields_write_ok q a fs : forall pos s,
  Forall (fun f => bm_sequential (bf_marshal f) = q) fs ->
  Forall (fun f => bm_wf (bf_marshal f)) fs ->
  Forall (fun f => bm_accepts (bf_marshal f) (bf_value f a)) fs ->
  (q = true -> bs_pos s = pos) ->
  bytes_ok (bs_val s) -> fields_fit fs pos (8 * zlen (bs_val s)) ->
  fields_disjoint fs pos ->
  (forall i, fields_own fs pos i = true -> bit_at (bs_val s) i = false) ->
  exists p val, sforeach fs (write_bitfield a) s = (Ok tt, mkBsio p val)
    /\ bytes_ok val /\ zlen val = zlen (bs_val s)
    /\ (forall i, fields_own fs pos i = false -> bit_at val i = bit_at (bs_val s) i)
    /\ fields_hold val fs pos a.
Proof.
  induction fs as [|f fs IH]; intros pos s U W A P B F D Zr.
  - cbn. exists (bs_pos s), (bs_val s). destruct s; cbn. auto 10.
  - inversion U as [|x y Uf Ur]; subst. inversion W as [|x y Wf Wr]; subst.
    inversion A as [|x y Af Ar]; subst.
    cbn [fields_fit fields_disjoint fields_own fields_hold sforeach] in *.
    destruct F as [F1 F2]. destruct D as [D1 D2].
    destruct (bm_write_ok (bf_marshal f) (bf_value f a) pos s)
      as (p & val & E & Pp & Bv & Lv & Sv & Hv); auto.
    { intros i Hi. apply Zr. now rewrite Hi. }
    unfold write_bitfield at 1. unfold sbind at 1. rewrite E.
    destruct (IH (pos + bm_size (bf_marshal f)) (mkBsio p val))
      as (p' & val' & E' & B' & L' & S' & H'); cbn [bs_val bs_pos]; auto.
    { rewrite Lv. auto. }
    { intros i Hi. destruct (owns (bf_marshal f) pos i) eqn:O.
      - rewrite D1 in Hi by auto. discriminate.
      - rewrite Sv by auto. apply Zr. rewrite Hi. apply orb_true_r. }
    cbn [bs_val] in *. exists p', val'. rewrite E'. repeat split; auto; try congruence.
    + intros i Hi. apply orb_false_iff in Hi. destruct Hi as [Hi1 Hi2].
      rewrite S' by auto. auto.
    + eapply holds_ext; [|exact Hv]. intros i Hi. apply S'. auto.
Qed.

Lemma bitfields_read_ok q a fs : forall pos s acc acc',
  Forall (fun f => bm_sequential (bf_marshal f) = q) fs ->
  Forall (fun f => bm_wf (bf_marshal f)) fs ->
  (q = true -> bs_pos s = pos) ->
  bytes_ok (bs_val s) -> fields_fit fs pos (8 * zlen (bs_val s)) ->
  fields_hold (bs_val s) fs pos a ->
  fields_norm fs a acc = Ok acc' ->
  exists p, sforeach fs read_bitfield (s, acc) = (Ok tt, (mkBsio p (bs_val s), acc')).
Proof.
  induction fs as [|f fs IH]; intros pos s acc acc' U W P B F H N.
  - cbn in *. injection N as <-. exists (bs_pos s). now destruct s.
  - inversion U as [|x y Uf Ur]; subst. inversion W as [|x y Wf Wr]; subst.
    cbn [fields_fit fields_hold fields_norm sforeach] in *.
    destruct F as [F1 F2]. destruct H as [H1 H2].
    destruct (bm_read_ok (bf_marshal f) (bf_value f a) pos s) as (p & E & Pp); auto.
    destruct (bm_norm (bf_marshal f) (bf_value f a)) as [v|e] eqn:Nv; [|discriminate].
    cbn [rbind] in N. unfold sbind at 1, read_bitfield at 1. cbn [fst snd]. rewrite E.
    destruct f as [n m d|m|n m k].
    + destruct (IH (pos + bm_size m) (mkBsio p (bs_val s)) (set_attr acc n v) acc') as (p' & E');
        cbn [bs_val bs_pos bf_marshal] in *; auto. exists p'. exact E'.
    + destruct (IH (pos + bm_size m) (mkBsio p (bs_val s)) acc acc') as (p' & E');
        cbn [bs_val bs_pos bf_marshal] in *; auto. exists p'. exact E'.
    + destruct (py_eq v k); [|discriminate].
      destruct (IH (pos + bm_size m) (mkBsio p (bs_val s)) acc acc') as (p' & E');
        cbn [bs_val bs_pos bf_marshal] in *; auto. exists p'. exact E'.
Qed.

(** *** Sequential containers *)
Lemma seq_owns_range m : bm_wf m -> bm_sequential m = true ->
  forall pos i, owns m pos i = (pos <=? i) && (i <? pos + bm_size m).
Proof. induction m; cbn [bm_sequential owns bm_size bm_wf]; auto. discriminate. Qed.

Lemma total_bits_nonneg fs : Forall (fun f => bm_wf (bf_marshal f)) fs -> 0 <= total_bits fs.
Proof.
  unfold total_bits. induction 1 as [|f fs Hf _ IH]; [cbn; lia|].
  cbn [map]. rewrite sum_cons. pose proof (bm_size_nonneg _ Hf). lia.
Qed.

Lemma seq_fields_own fs :
  Forall (fun f => bm_sequential (bf_marshal f) = true) fs ->
  Forall (fun f => bm_wf (bf_marshal f)) fs ->
  forall pos i, fields_own fs pos i = (pos <=? i) && (i <? pos + total_bits fs).
Proof.
  induction fs as [|f fs IH]; intros U W pos i; inversion U as [|x y U1 U2]; subst; inversion W as [|x' y' W1 W2]; subst.
  - cbn. lia.
  - cbn [fields_own]. rewrite seq_owns_range, IH by auto.
    unfold total_bits. cbn [map]. rewrite sum_cons. fold (total_bits fs).
    pose proof (total_bits_nonneg fs W2). pose proof (bm_size_nonneg _ W1). lia.
Qed.

Lemma seq_fields_disjoint fs :
  Forall (fun f => bm_sequential (bf_marshal f) = true) fs ->
  Forall (fun f => bm_wf (bf_marshal f)) fs ->
  forall pos, fields_disjoint fs pos.
Proof.
  induction fs as [|f fs IH]; intros U W pos; inversion U; subst; inversion W; subst; cbn; auto.
  split; auto. intros i Hi. rewrite seq_owns_range in Hi by auto. rewrite seq_fields_own by auto. lia.
Qed.

Lemma seq_bm_fits m bits : bm_sequential m = true ->
  forall pos, 0 <= pos -> pos + bm_size m <= bits -> bm_fits m pos bits.
Proof. induction m; cbn [bm_sequential bm_size bm_fits]; auto. discriminate. Qed.

Lemma seq_fields_fit fs bits :
  Forall (fun f => bm_sequential (bf_marshal f) = true) fs ->
  Forall (fun f => bm_wf (bf_marshal f)) fs ->
  forall pos, 0 <= pos -> pos + total_bits fs <= bits -> fields_fit fs pos bits.
Proof.
  induction fs as [|f fs IH]; intros U W pos Hp L; inversion U as [|x y U1 U2]; subst; inversion W as [|x' y' W1 W2]; subst; cbn; auto.
  unfold total_bits in L. cbn [map] in L. rewrite sum_cons in L. fold (total_bits fs) in L.
  pose proof (total_bits_nonneg fs W2). pose proof (bm_size_nonneg _ W1). split.
  - apply seq_bm_fits; auto; lia.
  - apply IH; auto; lia.
Qed.

Lemma bit_at_repeat0 n i : bit_at (repeat 0 n) i = false.
Proof.
  unfold bit_at. destruct (i <? 0); auto. rewrite nth_repeat. apply Z.testbit_0_l.
Qed.
