(** Bit streams and bit field groups: the facts behind C05-C08. *)
From Verif Require Import Base BaseProofs IntCodec BitStringIO BitStringIOProofs Stream StreamSpec
  StreamProofs MinMax Marshal BitFieldSpec BitFieldProofs MarshalSpec MarshalInd MarshalRT NumericFacts.
From Coq Require Import ZArith List Bool String Lia ZifyBool ZifyNat.
Import ListNotations.
Open Scope Z_scope.
Ltac Zify.zify_post_hook ::= Z.div_mod_to_equations.

Lemma bit_write pos val value n :
  bytes_ok val -> 0 <= pos -> 0 <= n -> pos + n <= 8 * zlen val ->
  exists val', bs_write value n (mkBsio pos val) = (Ok tt, mkBsio (pos + n) val')
    /\ zlen val' = zlen val /\ bytes_ok val'
    /\ forall i, 0 <= i < 8 * zlen val ->
         bit_at val' i = if (pos <=? i) && (i <? pos + n)
                         then bit_at val i || Z.testbit value (i - pos) else bit_at val i.
Proof.
  intros B P N L. destruct (bs_write_ok (mkBsio pos val) value n) as (v & E & Bv & Lv & S).
  - split; cbn [bs_pos bs_val]; auto. lia.
  - auto.
  - auto.
  - exists v. cbn [bs_pos bs_val] in *. repeat split; auto.
    intros i Hi. rewrite S by lia. destruct ((pos <=? i) && (i <? pos + n)); cbn; auto.
    now rewrite orb_false_r.
Qed.

Lemma bit_read pos val n :
  bytes_ok val -> 0 <= pos -> 0 <= n -> pos + n <= 8 * zlen val ->
  exists r, bs_read n (mkBsio pos val) = (Ok r, mkBsio (pos + n) val)
    /\ 0 <= r < 2 ^ n
    /\ forall i, 0 <= i < n -> Z.testbit r i = bit_at val (pos + i).
Proof.
  intros B P N L. destruct (bs_read_ok (mkBsio pos val) n) as (r & E & Br & S).
  - split; cbn [bs_pos bs_val]; auto. lia.
  - auto.
  - auto.
  - exists r. cbn [bs_pos bs_val] in *. repeat split; auto; try lia.
    intros i Hi. rewrite S by lia. now replace (i <? n) with true by lia.
Qed.

(** ** attributes *)
Lemma lookup_set_same a n v : lookup (set_attr a n v) n = Some v.
Proof.
  induction a as [|[k w] r IH]; cbn; [now rewrite String.eqb_refl|].
  destruct (String.eqb_spec k n); cbn.
  - subst. now rewrite String.eqb_refl.
  - destruct (String.eqb_spec k n); [congruence|auto].
Qed.
Lemma lookup_set_other a n m v : n <> m -> lookup (set_attr a n v) m = lookup a m.
Proof.
  intros H. induction a as [|[k w] r IH]; cbn.
  - destruct (String.eqb_spec n m); congruence.
  - destruct (String.eqb_spec k n); cbn.
    + subst. destruct (String.eqb_spec n m); congruence.
    + destruct (String.eqb_spec k m); auto.
Qed.

Definition bf_names (bs : list bitfield) : list name :=
  flat_map (fun b => match b with BField n _ _ => [n] | _ => [] end) bs.

Lemma fields_norm_other bs a : forall acc acc' n, ~ In n (bf_names bs) ->
  fields_norm bs a acc = Ok acc' -> lookup acc' n = lookup acc n.
Proof.
  induction bs as [|f bs IH]; intros acc acc' n N E; cbn [fields_norm] in E.
  - now injection E as <-.
  - destruct (bm_norm (bf_marshal f) (bf_value f a)) as [v|e] eqn:F; [|discriminate].
    cbn [rbind] in E. cbn [bf_names flat_map] in N. destruct f as [m mm d|mm|m mm k].
    + cbn in N. rewrite (IH _ _ n) with (2 := E) by tauto.
      apply lookup_set_other. intros ->. tauto.
    + cbn in N. eapply IH; eauto.
    + cbn in N. destruct (py_eq v k); [|discriminate]. eapply IH; eauto.
Qed.

Lemma fields_norm_lookup bs a : NoDup (bf_names bs) -> forall acc acc' n m d,
  fields_norm bs a acc = Ok acc' -> In (BField n m d) bs ->
  exists v, bm_norm m (bf_value (BField n m d) a) = Ok v /\ lookup acc' n = Some v.
Proof.
  induction bs as [|f bs IH]; intros ND acc acc' n m d E I; [destruct I|].
  cbn [fields_norm] in E.
  destruct (bm_norm (bf_marshal f) (bf_value f a)) as [v|e] eqn:F; [|discriminate].
  cbn [rbind] in E. cbn [bf_names flat_map] in ND.
  destruct I as [->|I].
  - cbn in ND. inversion ND; subst. exists v. split; auto.
    rewrite (fields_norm_other bs a _ _ n) with (2 := E) by auto. apply lookup_set_same.
  - destruct f as [n' mm d'|mm|n' mm k].
    + cbn in ND. inversion ND; subst. eapply IH; eauto.
    + cbn in ND. eapply IH; eauto.
    + cbn in ND. destruct (py_eq v k); [|discriminate]. eapply IH; eauto.
Qed.

(** ** One group: encoding, layout and decoding *)
Lemma fields_hold_nth val fs a : forall pos, fields_hold val fs pos a ->
  forall l1 f l2, fs = l1 ++ f :: l2 -> holds val (pos + total_bits l1) (bf_marshal f) (bf_value f a).
Proof.
  induction fs as [|g fs IH]; intros pos H l1 f l2 E; [destruct l1; discriminate|].
  destruct H as [H1 H2]. destruct l1 as [|g' l1]; injection E as -> E.
  - unfold total_bits. cbn. now rewrite Z.add_0_r.
  - specialize (IH _ H2 l1 f l2 E). unfold total_bits in *. cbn [map]. rewrite sum_cons.
    now rewrite Z.add_assoc.
Qed.

Lemma item_total its : total_bits (map item_field its) = widths its.
Proof.
  unfold total_bits, widths. f_equal. rewrite map_map. apply map_ext. intros []; reflexivity.
Qed.

Lemma item_bf_names its : bf_names (map item_field its) = item_names its.
Proof. unfold bf_names, item_names. induction its as [|[] its IH]; cbn in *; congruence. Qed.

Lemma items_norm_ok its a :
  Forall (fun it => match it with Named n _ => exists z, lookup a n = Some (VInt z) | _ => True end) its ->
  forall acc, exists acc', fields_norm (map item_field its) a acc = Ok acc'.
Proof.
  induction 1 as [|it its Hit _ IH]; intros acc; cbn [map fields_norm]; [eauto|].
  destruct it as [n w|w]; cbn [item_field bf_marshal bf_value].
  - destruct Hit as (z & ->). cbn [bm_norm rbind]. apply IH.
  - cbn [bm_norm rbind]. apply IH.
Qed.

Lemma bit_group its a :
  Forall (fun it => 0 <= item_width it) its ->
  widths its mod 8 = 0 -> widths its / 8 <= maxsize ->
  NoDup (item_names its) ->
  (forall n w, In (Named n w) its -> exists z, lookup a n = Some (VInt z)) ->
  exists b,
    zlen b = widths its / 8
    /\ (forall h out, write_field h (FBits (map item_field its)) a out = (Ok tt, out ++ b))
    /\ (forall l1 n w l2 z i, its = l1 ++ Named n w :: l2 -> lookup a n = Some (VInt z) ->
          0 <= i < w -> bit_at b (widths l1 + i) = Z.testbit z i)
    /\ (forall l1 w l2 i, its = l1 ++ Padding w :: l2 -> 0 <= i < w -> bit_at b (widths l1 + i) = false)
    /\ (forall h cls cctx c acc pre tail, exists acc',
          read_field h cls cctx (FBits (map item_field its)) c
            (SBytesIO (pre ++ b ++ tail) (zlen pre), acc)
          = (Ok tt, (SBytesIO (pre ++ b ++ tail) (zlen pre + zlen b), acc'))
          /\ (forall n w z, In (Named n w) its -> lookup a n = Some (VInt z) ->
                lookup acc' n = Some (VInt (z mod 2 ^ w)))
          /\ (forall n, ~ In n (item_names its) -> lookup acc' n = lookup acc n)).
Proof.
  intros W M Mx ND V. set (bs := map item_field its).
  assert (V' : Forall (fun it => match it with Named n _ => exists z, lookup a n = Some (VInt z) | _ => True end) its).
  { apply Forall_forall. intros [n w|w] I; eauto. }
  assert (Sq : Forall (fun f => bm_sequential (bf_marshal f) = true) bs).
  { apply Forall_map, Forall_forall. intros [] _; reflexivity. }
  assert (Wf : Forall (fun f => bm_wf (bf_marshal f)) bs).
  { apply Forall_map. eapply Forall_impl; [|exact W]. intros []; cbn; auto. }
  assert (Sz : bits_size bs = widths its / 8).
  { unfold bits_size. fold (total_bits bs). unfold bs. now rewrite item_total. }
  assert (T : total_bits bs = widths its) by apply item_total.
  pose proof (total_bits_nonneg bs Wf) as TN.
  assert (G : bitgroup_ok true (bits_size bs) bs).
  { unfold bitgroup_ok. rewrite Sz. repeat split; auto; try lia.
    - apply seq_fields_fit; auto; lia.
    - apply seq_fields_disjoint; auto. }
  assert (A : Forall (fun b => bm_accepts (bf_marshal b) (bf_value b a)) bs).
  { apply Forall_map. eapply Forall_impl; [|exact V']. intros [n w|w]; cbn; auto.
    intros (z & ->). eauto. }
  destruct (bit_container_ok true (bits_size bs) bs a G A) as (b & Wr & B & L & Hd & _).
  exists b. rewrite Sz in L. split; auto. split.
  { intros h out. exact (Wr out). }
  split.
  { intros l1 n w l2 z i E Lz Hi.
    pose proof (fields_hold_nth b bs a 0 Hd (map item_field l1) (item_field (Named n w)) (map item_field l2)) as H.
    rewrite item_total in H. cbn [item_field bf_marshal bf_value holds] in H. rewrite Lz in H.
    destruct H as (z' & Ez & H).
    { unfold bs. rewrite E, map_app. reflexivity. }
    injection Ez as <-. rewrite Z.add_0_l in H. now apply H. }
  split.
  { intros l1 w l2 i E Hi.
    pose proof (fields_hold_nth b bs a 0 Hd (map item_field l1) (item_field (Padding w)) (map item_field l2)) as H.
    rewrite item_total in H. cbn [item_field bf_marshal bf_value holds] in H.
    rewrite Z.add_0_l in H. apply H; auto. unfold bs. rewrite E, map_app. reflexivity. }
  intros h cls cctx c acc pre tail.
  destruct (items_norm_ok its a V' acc) as (acc' & N). exists acc'. split; [|split].
  - rewrite read_field_bits.
    rewrite (read_bit_container_ok true (bits_size bs) bs a acc acc' b _ tail); auto using mid_ok, mid_rest.
    now rewrite Sz.
  - intros n w z I Lz.
    destruct (fields_norm_lookup bs a) with (acc := acc) (acc' := acc') (n := n) (m := BMBits w) (d := VNone)
      as (v & Nv & Lv); auto.
    + unfold bs. now rewrite item_bf_names.
    + unfold bs. apply in_map_iff. now exists (Named n w).
    + cbn [bf_value bm_norm] in Nv. rewrite Lz in Nv. injection Nv as <-. exact Lv.
  - intros n I. eapply fields_norm_other; [|exact N]. now rewrite item_bf_names.
Qed.

(** ** Positional groups *)
Lemma in_slices_b sl i : existsb (fun s => (fst s <=? i) && (i <? snd s)) sl = true <-> in_slices sl i.
Proof.
  rewrite existsb_exists. unfold in_slices. split; intros (s & I & H); exists s; split; auto; lia.
Qed.

Lemma pos_own lay : forall pos i, fields_own (map pos_field lay) pos i = true ->
  exists p, In p lay /\ in_slices (snd p) i.
Proof.
  induction lay as [|p lay IH]; intros pos i H; cbn [map fields_own] in H; [discriminate|].
  apply orb_true_iff in H. destruct H as [H|H].
  - exists p. split; [now left|]. now apply in_slices_b.
  - destruct (IH _ _ H) as (q & I & S). exists q. split; auto. now right.
Qed.

Lemma pos_group lay size a :
  0 <= size <= maxsize ->
  (* every slice is non-empty and inside the container *)
  (forall n sl s, In (n, sl) lay -> In s sl -> 0 <= fst s < snd s /\ snd s <= 8 * size) ->
  (* the slices of one field do not overlap *)
  Forall (fun p => slices_disjoint (snd p)) lay ->
  (* two different fields share no bit *)
  (forall l1 n sl l2 n' sl' i, lay = l1 ++ (n, sl) :: l2 -> In (n', sl') l2 ->
      in_slices sl i -> ~ in_slices sl' i) ->
  NoDup (map fst lay) ->
  (forall n sl, In (n, sl) lay -> exists z, lookup a n = Some (VInt z)) ->
  exists b,
    zlen b = size
    /\ (forall h out, write_field h (FPosBits size (map pos_field lay)) a out = (Ok tt, out ++ b))
    /\ (forall n sl z, In (n, sl) lay -> lookup a n = Some (VInt z) -> slices_hold b sl z 0)
    /\ (forall i, (forall n sl, In (n, sl) lay -> ~ in_slices sl i) -> bit_at b i = false)
    /\ (forall h cls cctx c acc pre tail, exists acc',
          read_field h cls cctx (FPosBits size (map pos_field lay)) c
            (SBytesIO (pre ++ b ++ tail) (zlen pre), acc)
          = (Ok tt, (SBytesIO (pre ++ b ++ tail) (zlen pre + zlen b), acc'))
          /\ (forall n sl z, In (n, sl) lay -> lookup a n = Some (VInt z) ->
                lookup acc' n = Some (VInt (z mod 2 ^ slices_width sl)))
          /\ (forall n, ~ In n (map fst lay) -> lookup acc' n = lookup acc n)).
Proof.
  intros Hs In1 Dj Df ND V. set (bs := map pos_field lay).
  assert (Nm : bf_names bs = map fst lay).
  { unfold bs, bf_names. clear. induction lay as [|p r IH]; cbn in *; congruence. }
  assert (G : bitgroup_ok false size bs).
  { unfold bitgroup_ok. repeat split; try lia.
    - apply Forall_map, Forall_forall. reflexivity.
    - apply Forall_map, Forall_forall. intros [n sl] I. cbn [pos_field bf_marshal bm_wf snd]. split.
      + apply Forall_forall. intros s Is. apply (In1 n sl s I Is).
      + rewrite Forall_forall in Dj. apply (Dj _ I).
    - clear - In1. unfold bs. generalize 0 as pos.
      induction lay as [|[n sl] r IH]; intros pos; cbn [map fields_fit]; auto. split.
      + cbn. apply Forall_forall. intros s Is. apply (In1 n sl s); auto. now left.
      + apply IH. intros n' sl' s' I'. apply (In1 n' sl' s'). now right.
    - clear - Df. unfold bs. generalize 0 as pos.
      induction lay as [|[n sl] r IH]; intros pos; cbn [map fields_disjoint]; auto. split.
      + intros i Hi. cbn in Hi. apply in_slices_b in Hi.
        destruct (fields_own _ _ i) eqn:F; auto. apply pos_own in F. destruct F as ([n' sl'] & I & S).
        exfalso. exact (Df [] n sl r n' sl' i eq_refl I Hi S).
      + apply IH. intros l1 n0 sl0 l2 n' sl' i E. apply (Df ((n, sl) :: l1) n0 sl0 l2 n' sl' i).
        now rewrite E. }
  assert (A : Forall (fun b => bm_accepts (bf_marshal b) (bf_value b a)) bs).
  { apply Forall_map, Forall_forall. intros [n sl] I. cbn. destruct (V n sl I) as (z & ->). eauto. }
  destruct (bit_container_ok false size bs a G A) as (b & Wr & B & L & Hd & Z0).
  exists b. split; auto. split; [intros h out; exact (Wr out)|]. split.
  { intros n sl z I Lz. destruct (in_split _ _ I) as (l1 & l2 & E).
    pose proof (fields_hold_nth b bs a 0 Hd (map pos_field l1) (pos_field (n, sl)) (map pos_field l2)) as H.
    cbn [pos_field bf_marshal bf_value holds fst snd] in H. rewrite Lz in H.
    destruct H as (z' & Ez & H).
    { unfold bs. rewrite E, map_app. reflexivity. }
    injection Ez as <-. exact H. }
  split.
  { intros i H. apply Z0. destruct (fields_own bs 0 i) eqn:F; auto. apply pos_own in F.
    destruct F as ([n sl] & I & S). exfalso. exact (H n sl I S). }
  intros h cls cctx c acc pre tail.
  assert (N : exists acc', fields_norm bs a acc = Ok acc').
  { clear - V. unfold bs. revert acc. induction lay as [|[n sl] r IH]; intros acc; cbn [map fields_norm]; eauto.
    cbn [pos_field bf_marshal bf_value fst snd]. destruct (V n sl) as (z & ->); [now left|].
    cbn [bm_norm rbind]. apply IH. intros n' sl' I. apply (V n' sl'). now right. }
  destruct N as (acc' & N). exists acc'. split; [|split].
  - rewrite read_field_posbits.
    rewrite (read_bit_container_ok false size bs a acc acc' b _ tail); auto using mid_ok, mid_rest.
  - intros n sl z I Lz.
    destruct (fields_norm_lookup bs a) with (acc := acc) (acc' := acc') (n := n) (m := BMPos sl) (d := VNone)
      as (v & Nv & Lv); auto.
    + now rewrite Nm.
    + unfold bs. apply in_map_iff. now exists (n, sl).
    + cbn [bf_value bm_norm] in Nv. rewrite Lz in Nv. injection Nv as <-. exact Lv.
  - intros n I. eapply fields_norm_other; [|exact N]. now rewrite Nm.
Qed.
