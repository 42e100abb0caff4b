(** Proofs: what a sequence of writes to an output buffer leaves in it. *)
From Verif Require Import Base BaseProofs Range RangeSpec RangeFacts RangeArith IoBuffer IoSpec IoProofs IoFacts IoOutput BufferModel BufferSpec.
From Coq Require Import ZArith List Bool Lia ZifyBool ZifyNat.
Import ListNotations.
Open Scope list_scope.
Open Scope Z_scope.
Ltac Zify.zify_post_hook ::= Z.div_mod_to_equations.

Lemma last_write_app p l1 l2 : last_write p (l1 ++ l2) =
  match last_write p l2 with Some x => Some x | None => last_write p l1 end.
Proof.
  induction l1 as [|[q b] l1 IH]; cbn [last_write app].
  - now destruct (last_write p l2).
  - rewrite IH. now destruct (last_write p l2).
Qed.

Lemma combine_app_l {A B} (l1 l2 : list A) (v : list B) : (length l1 <= length v)%nat ->
  combine (l1 ++ l2) v = combine l1 (firstn (length l1) v) ++ combine l2 (skipn (length l1) v).
Proof.
  revert v. induction l1 as [|a l1 IH]; intros v H; cbn [app length firstn skipn combine].
  - reflexivity.
  - destruct v as [|b v]; cbn [length] in H; [lia|]. cbn [combine app firstn skipn]. now rewrite IH by lia.
Qed.

Lemma last_write_none p l (v : list bool) : ~ In p l -> last_write p (combine l v) = None.
Proof.
  revert v. induction l as [|q l IH]; intros v H; cbn [combine last_write]; [reflexivity|].
  destruct v as [|b v]; [reflexivity|]. cbn [last_write]. rewrite IH by (intros K; apply H; now right).
  destruct (q =? p) eqn:E; [|reflexivity]. exfalso. apply H. left. lia.
Qed.

Lemma last_write_seq p s n : forall v, (n <= length v)%nat ->
  last_write p (combine (map (fun k => s + Z.of_nat k) (seq 0 n)) v)
  = if (s <=? p) && (p <? s + Z.of_nat n) then Some (bnth v (p - s)) else None.
Proof.
  revert s. induction n as [|n IH]; intros s v Hv; cbn [seq map combine last_write].
  - now replace ((s <=? p) && (p <? s + Z.of_nat 0)) with false by lia.
  - destruct v as [|b v]; cbn [length] in Hv; [lia|]. cbn [combine last_write].
    rewrite <- seq_shift, map_map.
    rewrite (map_ext _ (fun k => (s + 1) + Z.of_nat k)) by (intros; lia). rewrite IH by lia.
    destruct ((s + 1 <=? p) && (p <? s + 1 + Z.of_nat n)) eqn:E.
    + replace ((s <=? p) && (p <? s + Z.of_nat (S n))) with true by lia.
      f_equal. unfold bnth. replace (p - (s + 1) <? 0) with false by lia. replace (p - s <? 0) with false by lia.
      replace (Z.to_nat (p - s)) with (S (Z.to_nat (p - (s + 1)))) by lia. reflexivity.
    + destruct (s + Z.of_nat 0 =? p) eqn:F.
      * replace ((s <=? p) && (p <? s + Z.of_nat (S n))) with true by lia.
        replace (p - s) with 0 by lia. reflexivity.
      * now replace ((s <=? p) && (p <? s + Z.of_nat (S n))) with false by lia.
Qed.

Lemma last_write_range p r v : closed r -> rlen r <= zlen v ->
  last_write p (combine (positions r) v)
  = if (r_start r <=? p) && (p <? r_start r + rlen r) then Some (bnth v (p - r_start r)) else None.
Proof.
  intros H L. destruct (closed_rlen r H) as (H1 & H2). rewrite positions_eq, last_write_seq by (unfold zlen in *; lia).
  now rewrite Z2Nat.id by lia.
Qed.

Lemma last_write_in p l (v : list bool) : (length l <= length v)%nat -> In p l -> exists x, last_write p (combine l v) = Some x.
Proof.
  revert v. induction l as [|q l IH]; intros v Hv H; [destruct H|]. destruct v as [|b v]; cbn [length] in Hv; [lia|].
  cbn [combine last_write]. destruct (last_write p (combine l v)) as [x|] eqn:E; [eauto|].
  destruct H as [->|H].
  - rewrite Z.eqb_refl. eauto.
  - destruct (IH v ltac:(lia) H) as (x & Ex). congruence.
Qed.

Definition aligned_end (n : Z) : Prop := n mod 8 = 0.

Lemma placed_spec l : forall val b b', Forall closed l -> zlen (all_positions l) <= zlen val ->
  placed val (map bounds l) b b' ->
  zlen b <= zlen b'
  /\ (zlen b' = zlen b \/ exists r, In r l /\ r_stop r = Some (zlen b'))
  /\ (forall r e, In r l -> r_stop r = Some e -> e <= zlen b')
  /\ (zlen b mod 8 = 0 -> Forall byte_aligned l -> zlen b' mod 8 = 0)
  /\ forall p, 0 <= p -> match last_write p (combine (all_positions l) val) with
     | Some x => bnth b' p = x
     | None => (p < zlen b -> bnth b' p = bnth b p)
               /\ (zlen b mod 8 = 0 -> Forall byte_aligned l -> zlen b <= p -> bnth b' p = false)
     end.
Proof.
  induction l as [|r l IH]; intros val b b' Hc Hl Hp; cbn [map placed] in Hp.
  - subst b'. split; [lia|]. split; [auto|]. split; [intros r e []|]. split; [auto|].
    intros p Hp. cbn [all_positions flat_map combine last_write]. split; [auto|]. intros _ _ H. now apply bnth_over.
  - inversion Hc as [|? ? Hr Hc']; subst.
    destruct Hr as ((R1 & R2) & R3). destruct (r_stop r) as [e|] eqn:Er; [|congruence].
    unfold bounds at 1 in Hp. rewrite Er in Hp. cbn [placed] in Hp. destruct Hp as (gap & G1 & G2 & Hp).
    assert (Hrl : rlen r = e - r_start r) by (unfold rlen; now rewrite Er).
    assert (Hcl : closed r) by (split; [split; [auto|]; now rewrite Er|now rewrite Er]).
    set (s := r_start r) in *. pose proof (zlen_nonneg b). pose proof (zlen_nonneg gap).
    rewrite all_positions_cons, zlen_app, zlen_positions in Hl by auto. pose proof (zlen_nonneg (all_positions l)).
    set (B1 := splice (b ++ gap) s (Z.min e (zlen (b ++ gap))) (firstn (Z.to_nat (e - s)) val)) in *.
    assert (Lb : zlen (b ++ gap) = Z.max (zlen b) s) by (rewrite zlen_app; lia).
    assert (Lf : zlen (firstn (Z.to_nat (e - s)) val) = e - s).
    { unfold zlen. rewrite firstn_length. unfold zlen in Hl. lia. }
    assert (L1 : zlen B1 = Z.max (zlen b) e).
    { unfold B1. rewrite zlen_splice by lia. rewrite Lf, Lb. lia. }
    assert (Ls : zlen (all_positions l) <= zlen (skipn (Z.to_nat (e - s)) val)) by (rewrite zlen_skipn; lia).
    destruct (IH _ _ _ Hc' Ls Hp) as (I1 & I2 & I3 & I4 & I5).
    split; [lia|]. split; [|split; [|split]].
    + destruct I2 as [I2|(r2 & I2 & I2')]; [|right; exists r2; split; [now right|auto]].
      destruct (Z.max_spec (zlen b) e) as [[_ M]|[_ M]].
      * right. exists r. split; [now left|]. rewrite Er. f_equal. lia.
      * left. lia.
    + intros r2 e2 [<-|Hin] E2; [|eauto]. rewrite Er in E2. inversion E2; subst. lia.
    + intros Ha Hal. inversion Hal as [|? ? Hr Hal']; subst. apply I4; [|auto]. destruct Hr as (_ & Hr). rewrite Er in Hr. lia.
    + intros p Hp0. specialize (I5 p Hp0). rewrite all_positions_cons, combine_app_l, last_write_app.
      2:{ unfold zlen in *. pose proof (zlen_positions r Hcl) as Z1. unfold zlen in Z1. lia. }
      assert (Np : length (positions r) = Z.to_nat (e - s)).
      { pose proof (zlen_positions r Hcl) as Z1. unfold zlen in Z1. lia. }
      rewrite Np. destruct (last_write p (combine (all_positions l) (skipn (Z.to_nat (e - s)) val))) as [x|]; [exact I5|].
      destruct I5 as (I5 & I6).
      rewrite last_write_range by (rewrite ?Lf; auto; lia). fold s. rewrite bnth_firstn by lia. rewrite Hrl. replace (s + (e - s)) with e by lia.
      assert (BB : bnth B1 p = if p <? s then bnth (b ++ gap) p else if p <? e then bnth val (p - s) else bnth (b ++ gap) p).
      { unfold B1. rewrite bnth_splice by lia. rewrite Lf, bnth_firstn by lia.
        destruct (p <? s) eqn:P1; [reflexivity|]. destruct (p <? s + (e - s)) eqn:P2.
        - replace (p <? e) with true by lia. replace (p - s <? e - s) with true by lia. reflexivity.
        - replace (p <? e) with false by lia. destruct (Z.min_spec e (zlen (b ++ gap))) as [[M1 M2]|[M1 M2]]; rewrite M2.
          + f_equal. lia.
          + rewrite !bnth_over by lia. reflexivity. }
      destruct ((s <=? p) && (p <? e)) eqn:E.
      * replace (p - s <? e - s) with true by lia. rewrite I5 by lia. rewrite BB. replace (p <? s) with false by lia. replace (p <? e) with true by lia. reflexivity.
      * assert (BB' : bnth B1 p = bnth (b ++ gap) p).
        { rewrite BB. destruct (p <? s) eqn:?, (p <? e) eqn:?; auto; lia. }
        split.
        -- intros Hpb. rewrite I5 by lia. rewrite BB', bnth_app. now replace (p <? zlen b) with true by lia.
        -- intros Ha Hal Hpb. inversion Hal as [|? ? Hr Hal']; subst. destruct Hr as (_ & Hr). rewrite Er in Hr.
           destruct (Z_lt_dec p (zlen B1)) as [Hlt|Hge].
           ++ rewrite I5, BB', bnth_app by lia. replace (p <? zlen b) with false by lia.
              rewrite G2; [apply bnth_repeat|]. right. left. exact Ha.
           ++ apply I6; [lia|auto|lia].
Qed.

(** ** Several parts *)
Inductive placed_all : list part -> list bool -> list bool -> Prop :=
| pa_nil b : placed_all [] b b
| pa_skip ps b b' : placed_all ps b b' -> placed_all (None :: ps) b b'
| pa_put v r ps b b1 b' : placed (pad_to_byte (buf_bits v)) (map bounds r) b b1 -> placed_all ps b1 b' ->
    placed_all (Some (v, r) :: ps) b b'.

Lemma placed_all_spec ps : forall b b', Forall part_fits ps -> placed_all ps b b' ->
  zlen b <= zlen b'
  /\ (zlen b' = zlen b \/ exists r, In r (part_ranges ps) /\ r_stop r = Some (zlen b'))
  /\ (forall r e, In r (part_ranges ps) -> r_stop r = Some e -> e <= zlen b')
  /\ (zlen b mod 8 = 0 -> Forall byte_aligned (part_ranges ps) -> zlen b' mod 8 = 0)
  /\ forall p, 0 <= p -> match last_write p (writes ps) with
     | Some x => bnth b' p = x
     | None => (p < zlen b -> bnth b' p = bnth b p)
               /\ (zlen b mod 8 = 0 -> Forall byte_aligned (part_ranges ps) -> zlen b <= p -> bnth b' p = false)
     end.
Proof.
  induction ps as [|x ps IH]; intros b b' Hf Hp.
  - inversion Hp; subst. split; [lia|]. split; [auto|]. split; [intros r e []|]. split; [auto|].
    intros p Hp0. cbn [writes flat_map last_write]. split; [auto|]. intros _ _ H. now apply bnth_over.
  - inversion Hf as [|? ? Hx Hf']; subst. inversion Hp as [|? ? ? Hq|v r ? ? b1 ? Hv Hq]; subst.
    + destruct (IH _ _ Hf' Hq) as (I1 & I2 & I3 & I4 & I5). auto.
    + destruct Hx as (Hc & Hl). destruct (IH _ _ Hf' Hq) as (I1 & I2 & I3 & I4 & I5).
      destruct (placed_spec r _ b b1 Hc Hl Hv) as (J1 & J2 & J3 & J4 & J5).
      cbn [part_ranges writes flat_map writes_of]. fold (part_ranges ps). fold (writes ps).
      split; [lia|]. split; [|split; [|split]].
      * destruct I2 as [I2|(q & I2 & I2')].
        -- destruct J2 as [J2|(q & J2 & J2')]; [left; lia|]. right. exists q. split; [apply in_or_app; auto|]. now rewrite I2.
        -- right. exists q. split; [apply in_or_app; auto|auto].
      * intros q e Hin E. apply in_app_or in Hin. destruct Hin as [Hin|Hin]; [|eauto]. specialize (J3 q e Hin E). lia.
      * intros Ha Hal. apply Forall_app in Hal. destruct Hal. auto.
      * intros p Hp0. rewrite last_write_app. specialize (I5 p Hp0). specialize (J5 p Hp0).
        destruct (last_write p (writes ps)) as [y|]; [exact I5|]. destruct I5 as (I5 & I6).
        destruct (last_write p (combine (all_positions r) (pad_to_byte (buf_bits v)))) as [y|] eqn:El.
        -- destruct (Z_lt_dec p (zlen b1)) as [Hlt|Hge]; [rewrite I5 by lia; exact J5|].
           exfalso. assert (N : ~ In p (all_positions r)).
           { intros Hin. unfold all_positions in Hin. apply in_flat_map in Hin. destruct Hin as (q & Q1 & Q2).
             pose proof (proj1 (Forall_forall _ _) Hc q Q1) as Cq. rewrite positions_eq in Q2. apply in_map_iff in Q2.
             destruct Q2 as (k & K1 & K2). apply in_seq in K2. destruct Cq as ((C1 & C2) & C3).
             unfold rlen in K2. destruct (r_stop q) as [e|] eqn:Eq; [|congruence]. specialize (J3 q e Q1 Eq). lia. }
           rewrite last_write_none in El by exact N. discriminate.
        -- destruct J5 as (J5 & J6). split.
           ++ intros Hb. rewrite I5 by lia. auto.
           ++ intros Ha Hal Hb. apply Forall_app in Hal. destruct Hal as (Hal1 & Hal2).
              destruct (Z_lt_dec p (zlen b1)) as [Hlt|Hge]; [rewrite I5 by lia; auto|]. apply I6; auto; lia.
Qed.

Lemma part_fits_positions ps p x : Forall part_fits ps -> last_write p (writes ps) = Some x -> 0 <= p.
Proof.
  induction ps as [|y ps IH]; intros Hf H; [discriminate|]. inversion Hf as [|? ? Hy Hf']; subst.
  cbn [writes flat_map] in H. fold (writes ps) in H. rewrite last_write_app in H.
  destruct (last_write p (writes ps)) as [z|] eqn:E; [eauto|].
  destruct y as [[v r]|]; [|discriminate]. cbn [writes_of] in H. destruct Hy as (Hc & Hl).
  destruct (in_dec Z.eq_dec p (all_positions r)) as [Hin|N]; [|rewrite last_write_none in H by auto; discriminate].
  unfold all_positions in Hin. apply in_flat_map in Hin. destruct Hin as (q & Q1 & Q2).
  pose proof (proj1 (Forall_forall _ _) Hc q Q1) as ((C1 & C2) & C3). rewrite positions_eq in Q2. apply in_map_iff in Q2.
  destruct Q2 as (k & K1 & K2). lia.
Qed.

Lemma output_of_placed ps bits : Forall part_fits ps -> placed_all ps [] bits -> output_of ps bits.
Proof.
  intros Hf Hp. destruct (placed_all_spec ps [] bits Hf Hp) as (I1 & I2 & I3 & I4 & I5).
  rewrite zlen_nil in *. split; [|split].
  - split; [exact I3|]. split; [exact I2|]. lia.
  - intros p x Hx. pose proof (part_fits_positions ps p x Hf Hx) as H0. specialize (I5 p H0). rewrite Hx in I5.
    unfold bnth in I5. now replace (p <? 0) with false in I5 by lia.
  - intros Hal p H0 Hx. specialize (I5 p H0). rewrite Hx in I5. destruct I5 as (_ & I5).
    specialize (I5 eq_refl Hal H0). unfold bnth in I5. now replace (p <? 0) with false in I5 by lia.
Qed.

(** ** OutputBuffer.set succeeds only with closed ranges and enough data *)
Lemma closed_closed_range r : closed r <-> closed_range r.
Proof.
  unfold closed, range_ok, closed_range. destruct (r_stop r) as [e|].
  - split; [intros ((A & B) & _); lia|intros H; split; [lia|congruence]].
  - split; [intros (_ & H); congruence|intros []].
Qed.
Lemma Forall_closed l : Forall closed l <-> Forall closed_range l.
Proof. split; apply Forall_impl; intros a; apply closed_closed_range. Qed.
Lemma total_len_positions l : Forall closed l -> total_len (map bounds l) = zlen (all_positions l).
Proof.
  induction 1 as [|r l Hr Hl IH]; [reflexivity|]. cbn [map total_len fold_right]. fold (total_len (map bounds l)).
  rewrite all_positions_cons, zlen_app, zlen_positions, IH by auto. unfold bounds, rlen. cbn [fst snd].
  destruct Hr as (_ & Hr). destruct (r_stop r); [lia|congruence].
Qed.
Lemma output_set_loop_closed value l : forall vs x x',
  output_set_loop value vs l x = (Ok tt, x') -> Forall closed_range l.
Proof.
  induction l as [|r l IH]; intros vs x x' H; [constructor|]. cbn [output_set_loop] in H.
  unfold sbind, slift in H. unfold closed_bounds in H.
  destruct (r_stop r) as [e|] eqn:Er; cbn [fst snd rbind] in H; [|discriminate].
  destruct (passert ((0 <=? r_start r) && (r_start r <=? e))) as [[]|] eqn:Ea; [|discriminate].
  unfold passert in Ea. destruct ((0 <=? r_start r) && (r_start r <=? e)) eqn:Eb; [|discriminate].
  destruct (8 * blen value - vs <? e - r_start r); [discriminate|]. cbn [sret] in H.
  destruct (ba_zfill (r_start r) x) as [[[]|] x1]; [|discriminate].
  destruct (buf_slice value (Some vs) (Some (vs + (e - r_start r)))) as [piece|]; [|discriminate].
  destruct (ba_setitem (KSlice (Some (r_start r)) (Some e)) (BVView piece) x1) as [[[]|] x2]; [|discriminate].
  constructor; [|eauto]. unfold closed_range. rewrite Er. lia.
Qed.
Lemma output_set_inv b l x x' : buf_ok b -> out_ok x -> output_set b l x = (Ok tt, x') ->
  out_ok x' /\ part_fits (Some (b, l)) /\ placed (pad_to_byte (buf_bits b)) (map bounds l) (ba_bits x) (ba_bits x').
Proof.
  intros K O H. assert (Hc : Forall closed_range l).
  { unfold output_set in H. unfold sbind, slift in H. destruct (view_of b) as [v|]; [|discriminate].
    eapply output_set_loop_closed, H. }
  pose proof (proj2 (Forall_closed l) Hc) as Hc'.
  destruct (output_set_spec b l x K Hc O) as (S1 & S2). rewrite total_len_positions in S1, S2 by auto.
  destruct (Z_le_gt_dec (zlen (all_positions l)) (zlen (pad_to_byte (buf_bits b)))) as [Hle|Hgt].
  - destruct (S1 Hle) as (y & Y1 & Y2 & Y3). rewrite Y1 in H. inversion H; subst. split; [auto|]. split; [|auto]. split; auto.
  - destruct S2 as (y & Y); [lia|]. rewrite Y in H. discriminate.
Qed.

(** ** Reading back *)
Lemma range_bits_positions bits r : closed r -> (forall e, r_stop r = Some e -> e <= zlen bits) ->
  range_bits bits r = map (bnth bits) (positions r).
Proof.
  intros Hc He. destruct Hc as ((C1 & C2) & C3). destruct (r_stop r) as [e|] eqn:Er; [|congruence].
  specialize (He e eq_refl). apply bnth_ext.
  - unfold range_bits, slice_bits. rewrite Er, zlen_py_slice by lia. unfold zlen. rewrite map_length, positions_eq, map_length, seq_length.
    unfold rlen. rewrite Er. lia.
  - unfold range_bits, slice_bits. rewrite Er, zlen_py_slice by lia. intros i Hi.
    rewrite bnth_slice by lia. replace (i <? e - r_start r) with true by lia. replace (0 <=? i) with true by lia.
    unfold bnth at 2. replace (i <? 0) with false by lia.
    rewrite positions_eq, map_map.
    rewrite (nth_indep _ false (bnth bits (r_start r + Z.of_nat 0))) by (rewrite map_length, seq_length; unfold rlen; rewrite Er; lia).
    rewrite (map_nth (fun k => bnth bits (r_start r + Z.of_nat k))), seq_nth by (unfold rlen; rewrite Er; lia).
    cbn [andb]. f_equal. lia.
Qed.
Lemma ranges_bits_positions bits l : Forall closed l -> (forall r e, In r l -> r_stop r = Some e -> e <= zlen bits) ->
  flat_map (range_bits bits) l = map (bnth bits) (all_positions l).
Proof.
  induction 1 as [|r l Hr Hl IH]; intros He; [reflexivity|]. cbn [flat_map]. rewrite all_positions_cons, map_app, <- IH.
  - f_equal. apply range_bits_positions; [auto|]. intros e E. apply (He r e); [now left|auto].
  - intros q e Hq. apply He. now right.
Qed.

Lemma last_write_nodup p x : forall l, NoDup (map fst l) -> In (p, x) l -> last_write p l = Some x.
Proof.
  induction l as [|[q b] l IH]; intros N H; [destruct H|]. cbn [map fst] in N. inversion N as [|? ? N1 N2]; subst.
  cbn [last_write]. destruct H as [H|H].
  - inversion H; subst. destruct (last_write p l) as [y|] eqn:E.
    + exfalso. apply N1. clear - E. induction l as [|[q b] l IH]; [discriminate|]. cbn [last_write] in E. cbn [map fst].
      destruct (last_write p l); [right; auto|]. destruct (q =? p) eqn:F; [|discriminate]. left. lia.
    + now rewrite Z.eqb_refl.
  - now rewrite (IH N2 H).
Qed.

Lemma map_fst_combine {A B} (l : list A) : forall (v : list B), (length l <= length v)%nat -> map fst (combine l v) = l.
Proof. induction l as [|a l IH]; intros [|b v] H; cbn [length] in H; try lia; cbn; [reflexivity|reflexivity|]. now rewrite IH by lia. Qed.

Lemma writes_keys ps : Forall part_fits ps -> map fst (writes ps) = all_positions (part_ranges ps).
Proof.
  induction 1 as [|x ps Hx Hf IH]; [reflexivity|]. cbn [writes flat_map part_ranges]. fold (writes ps). fold (part_ranges ps).
  rewrite map_app, all_positions_app, IH. f_equal. destruct x as [[v r]|]; [|reflexivity]. destruct Hx as (Hc & Hl).
  cbn [writes_of]. apply map_fst_combine. unfold zlen in Hl. lia.
Qed.

Lemma map_lookup (f : Z -> bool) l : forall v : list bool, (length l <= length v)%nat ->
  (forall p x, In (p, x) (combine l v) -> f p = x) -> map f l = firstn (length l) v.
Proof.
  induction l as [|a l IH]; intros [|b v] Hv H; cbn [length] in Hv; try lia; cbn [map length firstn]; [reflexivity|reflexivity|].
  f_equal; [apply H; now left|]. apply IH; [lia|]. intros p x Hin. apply H. now right.
Qed.

(** With all positions different, each part can be read back where it was put, also when more
    bytes follow. *)
Lemma read_back ps bits v r tail : Forall part_fits ps -> output_of ps bits -> NoDup (all_positions (part_ranges ps)) ->
  In (Some (v, r)) ps ->
  flat_map (range_bits (bits ++ tail)) r = firstn (Z.to_nat (zlen (all_positions r))) (pad_to_byte (buf_bits v)).
Proof.
  intros Hf Ho N Hin. destruct Ho as ((O1 & _ & O3) & O2 & _).
  pose proof (proj1 (Forall_forall _ _) Hf _ Hin) as (Hc & Hl).
  assert (Hr : forall q, In q r -> In q (part_ranges ps)).
  { intros q Hq. unfold part_ranges. apply in_flat_map. exists (Some (v, r)). auto. }
  rewrite ranges_bits_positions; [|auto|intros q e Hq E; rewrite zlen_app; pose proof (zlen_nonneg tail); pose proof (O1 q e (Hr q Hq) E); lia].
  unfold zlen. rewrite Nat2Z.id. apply map_lookup; [unfold zlen in Hl; lia|].
  intros p x Hp. assert (Hw : In (p, x) (writes ps)).
  { unfold writes. apply in_flat_map. exists (Some (v, r)). auto. }
  assert (Lw : last_write p (writes ps) = Some x) by (apply last_write_nodup; [rewrite writes_keys; auto|auto]).
  pose proof (part_fits_positions ps p x Hf Lw) as P0.
  assert (Pl : p < zlen bits).
  { apply in_combine_l in Hp. unfold all_positions in Hp. apply in_flat_map in Hp. destruct Hp as (q & Q1 & Q2).
    pose proof (proj1 (Forall_forall _ _) Hc q Q1) as ((C1 & C2) & C3). rewrite positions_eq in Q2. apply in_map_iff in Q2.
    destruct Q2 as (k & K1 & K2). apply in_seq in K2. unfold rlen in K2. destruct (r_stop q) as [e|] eqn:Eq; [|congruence].
    pose proof (O1 q e (Hr q Q1) Eq). lia. }
  rewrite bnth_app. replace (p <? zlen bits) with true by lia.
  unfold bnth. replace (p <? 0) with false by lia. auto.
Qed.

Lemma disjoint_nodup l : Forall closed l -> pairwise_disjoint l -> NoDup (all_positions l).
Proof.
  intros Hc Hd. induction Hd as [|r l Hr Hd IH]; [constructor|]. inversion Hc as [|? ? Cr Cl]; subst.
  rewrite all_positions_cons.
  assert (M : forall q, In q (positions r) -> in_range q r).
  { intros q Q2. rewrite positions_eq in Q2. apply in_map_iff in Q2. destruct Q2 as (k & K1 & K2). apply in_seq in K2.
    destruct Cr as ((C1 & C2) & C3). unfold rlen in K2. unfold in_range. destruct (r_stop r); [|congruence]. lia. }
  assert (Nr : NoDup (positions r)).
  { rewrite positions_eq. apply FinFun.Injective_map_NoDup; [|apply seq_NoDup]. intros a b. lia. }
  specialize (IH Cl).
  induction (positions r) as [|q P IHP]; [exact IH|]. cbn [app]. inversion Nr as [|? ? N1 N2]; subst. constructor.
  - intros Hin. apply in_app_or in Hin. destruct Hin as [Hin|Hin]; [auto|].
    unfold all_positions in Hin. apply in_flat_map in Hin. destruct Hin as (r2 & Q1 & Q2).
    apply (proj1 (Forall_forall _ _) Hr r2 Q1). exists q. split; [apply M; now left|].
    pose proof (proj1 (Forall_forall _ _) Cl r2 Q1) as ((C1 & C2) & C3).
    rewrite positions_eq in Q2. apply in_map_iff in Q2. destruct Q2 as (k & K1 & K2). apply in_seq in K2.
    unfold rlen in K2. unfold in_range. destruct (r_stop r2); [|congruence]. lia.
  - apply IHP; [|auto]. intros; apply M; now right.
Qed.
