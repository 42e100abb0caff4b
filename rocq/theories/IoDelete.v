(** Proofs about buffer/io_buffer.py, part 4: deleting. *)
From Verif Require Import Base BaseProofs Range IoBuffer IoSpec IoProofs IoMutProofs IoInsert.
From Coq Require Import ZArith List Bool Lia ZifyBool ZifyNat.
Import ListNotations.
Open Scope Z_scope.
Ltac Zify.zify_post_hook ::= Z.div_mod_to_equations.

(** Writing 8 bits that stick out of the array. *)
Lemma set_byte_bits_out x ofs v :
  bytes_ok (ba_buf x) -> 0 <= ofs < 8 * zlen (ba_buf x) -> 8 * zlen (ba_buf x) < ofs + 8 -> is_byte v ->
  exists x', set_byte_bits ofs 8 v x = (Err IndexError, x').
Proof.
  intros B Ho H8 Hv. unfold set_byte_bits. rewrite Z.quot_div_nonneg, Z.rem_mod_nonneg by lia.
  replace (((ofs mod 8 =? 0) && (8 =? 8)) || (ofs mod 8 + 8 <=? 8)) with false by lia.
  set (k := 8 - ofs mod 8).
  destruct (set_in_byte_spec x ofs k (Z.land v (Z.shiftl 1 k - 1))) as (x1 & X1 & S1 & T1 & L1 & B1 & V1); auto; try lia.
  { rewrite land_mask_mod by lia. apply Z.mod_pos_bound. apply Z.pow_pos_nonneg; lia. }
  unfold sbind. rewrite X1. exists x1. unfold set_in_byte. rewrite Z.quot_div_nonneg, Z.rem_mod_nonneg by lia.
  replace ((8 * (ofs / 8 + 1)) mod 8 =? 0) with true by lia.
  replace (8 - k =? 8) with false by lia. cbn [andb].
  unfold sbind, ba_load, py_nth, py_index.
  replace ((0 <=? 8 * (ofs / 8 + 1) / 8) && (8 * (ofs / 8 + 1) / 8 <? zlen (ba_buf x1))) with false by lia.
  replace ((8 * (ofs / 8 + 1) / 8 <? 0) && (0 <=? zlen (ba_buf x1) + 8 * (ofs / 8 + 1) / 8)) with false by lia.
  reflexivity.
Qed.

Definition end_of_shift (ofs frac stop : Z) : Z :=
  if ofs + frac <? stop then ofs + 8 * cdiv8 (stop - frac - ofs) else ofs.

Lemma shift_down_spec fuel : forall x ofs frac,
  bytes_ok (ba_buf x) -> 0 <= ofs -> 0 < frac -> ba_stop x <= 8 * zlen (ba_buf x) ->
  (Z.to_nat (ba_stop x - ofs) <= fuel)%nat ->
  (end_of_shift ofs frac (ba_stop x) <= Z.max ofs (8 * zlen (ba_buf x)) ->
    exists x', shift_down fuel ofs frac x = (Ok tt, x')
      /\ ba_start x' = ba_start x /\ ba_stop x' = ba_stop x
      /\ zlen (ba_buf x') = zlen (ba_buf x) /\ bytes_ok (ba_buf x')
      /\ forall i, abit x' i = if (ofs <=? i) && (i <? end_of_shift ofs frac (ba_stop x))
                               then abit x (i + frac) else abit x i)
  /\ (Z.max ofs (8 * zlen (ba_buf x)) < end_of_shift ofs frac (ba_stop x) ->
      exists x', shift_down fuel ofs frac x = (Err IndexError, x')).
Proof.
  induction fuel as [|k IH]; intros x ofs frac B Ho Hf Hl Hk; cbn [shift_down]; unfold sbind, sget, end_of_shift.
  - replace (ofs + frac <? ba_stop x) with false by lia. split; [|lia]. intros _. exists x.
    split; [reflexivity|]. split; [auto|]. split; [auto|]. split; [auto|]. split; [auto|].
    intros i. now replace ((ofs <=? i) && (i <? ofs)) with false by lia.
  - destruct (ofs + frac <? ba_stop x) eqn:E.
    2:{ split; [|lia]. intros _. exists x.
        split; [reflexivity|]. split; [auto|]. split; [auto|]. split; [auto|]. split; [auto|].
        intros i. now replace ((ofs <=? i) && (i <? ofs)) with false by lia. }
    destruct (arr_get_spec (ba_buf x) (ofs + frac) 8) as (z & Z1 & Z2 & Z3); auto; try lia.
    unfold ba_get_byte_bits. rewrite Z1. set (top := ofs + 8 * cdiv8 (ba_stop x - frac - ofs)).
    assert (Htop : ofs + 8 <= top /\ top < ba_stop x - frac + 8 /\ (top - ofs) mod 8 = 0 /\ ba_stop x - frac <= top)
      by (unfold top, cdiv8; lia).
    destruct (Z_le_gt_dec (ofs + 8) (8 * zlen (ba_buf x))) as [Hin|Hout].
    + destruct (set_byte_bits_spec x ofs 8 z) as (x1 & X1 & S1 & T1 & L1 & B1 & V1); auto; try lia.
      rewrite X1. specialize (IH x1 (ofs + 8) frac B1). rewrite T1, L1 in IH.
      specialize (IH ltac:(lia) Hf Hl ltac:(lia)).
      assert (Et : end_of_shift (ofs + 8) frac (ba_stop x) = top).
      { unfold end_of_shift, top, cdiv8. destruct (ofs + 8 + frac <? ba_stop x) eqn:G; lia. }
      rewrite Et in IH. destruct IH as [IH1 IH2]. split.
      * intros Ht. destruct IH1 as (x2 & X2 & S2 & T2 & L2 & B2 & V2); [lia|]. rewrite X2.
        exists x2. split; [reflexivity|]. split; [congruence|]. split; [congruence|]. split; [congruence|]. split; [auto|].
        intros i. rewrite V2, !V1.
        destruct ((ofs + 8 <=? i) && (i <? top)) eqn:G.
        -- replace ((ofs <=? i + frac) && (i + frac <? ofs + 8)) with false by lia.
           now replace ((ofs <=? i) && (i <? top)) with true by lia.
        -- destruct ((ofs <=? i) && (i <? ofs + 8)) eqn:G2.
           ++ replace ((ofs <=? i) && (i <? top)) with true by lia. rewrite Z3 by lia.
              replace (i - ofs <? 8) with true by lia. cbn [andb]. unfold abit. f_equal. lia.
           ++ now replace ((ofs <=? i) && (i <? top)) with false by lia.
      * intros Ht. destruct IH2 as (x2 & X2); [lia|]. rewrite X2. eexists. reflexivity.
    + split; [lia|]. intros _. destruct (set_byte_bits_out x ofs z) as (x1 & X1); auto; try lia.
      rewrite X1. eexists. reflexivity.
Qed.

Lemma bit_at_removelast l i : i < 8 * (zlen l - 1) -> bit_at (removelast l) i = bit_at l i.
Proof.
  intros H. destruct l as [|b l']; [reflexivity|]. set (L := b :: l') in *.
  assert (HL : L <> []) by discriminate.
  rewrite (app_removelast_last 0 HL) at 2. rewrite bit_at_app.
  assert (E : zlen L = zlen (removelast L) + 1).
  { rewrite (app_removelast_last 0 HL) at 1. rewrite zlen_app, zlen_cons, zlen_nil. lia. }
  now replace (i <? 8 * zlen (removelast L)) with true by lia.
Qed.
Lemma zlen_removelast (l : list Z) : l <> [] -> zlen (removelast l) = zlen l - 1.
Proof.
  intros HL. rewrite (app_removelast_last 0 HL) at 2. rewrite zlen_app, zlen_cons, zlen_nil. lia.
Qed.
Lemma bytes_ok_removelast l : bytes_ok l -> bytes_ok (removelast l).
Proof.
  intros H. destruct l as [|b l']; [constructor|].
  assert (HL : b :: l' <> []) by discriminate.
  rewrite (app_removelast_last 0 HL) in H. apply bytes_ok_app in H. apply H.
Qed.


Lemma del_range_spec x a b : ba_ok x -> 0 <= a <= b -> b <= ba_stop x ->
  (deletion_fits x a b ->
     exists x', del_range a b x = (Ok tt, x') /\ ba_start x' = ba_start x
       /\ ba_stop x' = ba_stop x - (b - a) /\ bytes_ok (ba_buf x') /\ ba_stop x' <= 8 * zlen (ba_buf x')
       /\ forall i, i < ba_stop x' -> abit x' i = if i <? a then abit x i else abit x (i + (b - a)))
  /\ (~ deletion_fits x a b -> exists x', del_range a b x = (Err IndexError, x')).
Proof.
  intros (B & Hst & Hse & Hlen) Ha Hb. destruct x as [l st sp]. unfold ba_view in *.
  cbn [ba_buf ba_start ba_stop buf_ok blen] in *.
  unfold del_range, deletion_fits. cbn [ba_buf ba_stop]. unfold sbind, slift, sget, sret.
  replace (a <=? b) with true by lia. cbn [passert ba_stop ba_buf].
  set (q := cdiv8 a). set (w := whole_removed a b). set (delta := b / 8 - q). set (frac := b - a - 8 * w).
  assert (Hq : 0 <= q) by (unfold q, cdiv8; lia).
  assert (Hw : 0 <= w) by (unfold w, whole_removed; lia).
  assert (Hqw : 0 < w -> q + w = b / 8 /\ q + w <= zlen l) by (unfold w, whole_removed; fold q; lia).
  assert (Hfr : 0 <= frac) by (unfold frac, w, whole_removed, cdiv8; lia).
  set (l1 := if 1 <=? delta then firstn (Z.to_nat q) l ++ skipn (Z.to_nat (b / 8)) l else l).
  match goal with |- context [match ?X with pair _ _ => _ end] =>
    replace X with (@Ok Z (a + frac), {| ba_buf := l1; ba_start := st; ba_stop := sp - 8 * w |}) end.
  2:{ unfold l1. destruct (1 <=? delta) eqn:E; cbn [ba_set_buf ba_set_stop ba_buf ba_start ba_stop].
      - replace w with delta by (unfold w, whole_removed; fold q; lia). f_equal. f_equal. unfold frac, w, whole_removed. fold q. lia.
      - assert (W0 : w = 0) by (unfold w, whole_removed; fold q; lia). rewrite W0.
        f_equal; [f_equal; unfold frac; lia|f_equal; lia]. }
  assert (L1 : zlen l1 = zlen l - w).
  { unfold l1. destruct (1 <=? delta) eqn:E.
    - destruct (Hqw ltac:(unfold w, whole_removed; fold q; lia)). rewrite zlen_app, zlen_firstn, zlen_skipn. lia.
    - assert (W0 : w = 0) by (unfold w, whole_removed; fold q; lia). lia. }
  assert (B1 : bytes_ok l1).
  { unfold l1. destruct (1 <=? delta); auto. apply bytes_ok_app. split; [now apply bytes_ok_firstn|now apply bytes_ok_skipn]. }
  assert (O1 : forall i, bit_at l1 i = if (i <? 8 * q) || (w =? 0) then bit_at l i else bit_at l (i + 8 * w)).
  { intros i. unfold l1. destruct (1 <=? delta) eqn:E.
    - destruct (Hqw ltac:(unfold w, whole_removed; fold q; lia)).
      assert (Hw1 : w =? 0 = false) by (unfold w, whole_removed; fold q; lia). rewrite Hw1, orb_false_r.
      rewrite bit_at_app, zlen_firstn. replace (8 * Z.min (Z.of_nat (Z.to_nat q)) (zlen l)) with (8 * q) by lia.
      destruct (i <? 8 * q) eqn:F; [now rewrite bit_at_firstn, F by lia|]. rewrite bit_at_skipn by lia. f_equal. lia.
    - assert (W0 : w = 0) by (unfold w, whole_removed; fold q; lia). rewrite W0. cbn [Z.eqb]. now rewrite orb_true_r. }
  assert (Hsp1 : sp - 8 * w <= 8 * zlen l1) by lia.
  (* reading behind the deleted bits *)
  assert (R1 : forall i, i < a -> bit_at l1 i = bit_at l i).
  { intros i Hi. rewrite O1. unfold q, cdiv8. now replace (i <? 8 * ((a + 7) / 8)) with true by lia. }
  assert (R2 : forall i, a <= i -> bit_at l1 (i + frac) = bit_at l (i + (b - a))).
  { intros i Hi. rewrite O1. destruct (w =? 0) eqn:W0.
    - rewrite orb_true_r. f_equal. unfold frac. lia.
    - destruct (Hqw ltac:(lia)). replace (i + frac <? 8 * q) with false by (unfold frac; lia). cbn [orb].
      f_equal. unfold frac. lia. }
  destruct (a <? a + frac) eqn:E.
  2:{ assert (F0 : frac = 0) by lia. split; [intros _|unfold frac in *; lia].
      eexists. split; [reflexivity|]. unfold abit. cbn [ba_buf ba_start ba_stop].
      split; [auto|]. split; [unfold frac in *; lia|]. split; [auto|]. split; [auto|].
      intros i Hi. destruct (i <? a) eqn:G; [apply R1; lia|]. rewrite <- R2 by lia. rewrite F0. f_equal. lia. }
  replace (a + frac - a) with frac by lia. cbn [ba_stop ba_buf].
  set (x1 := {| ba_buf := l1; ba_start := st; ba_stop := sp - 8 * w |}).
  assert (Hk : end_of_shift a frac (sp - 8 * w) = if b <? sp then a + 8 * cdiv8 (sp - b) else a).
  { unfold end_of_shift, frac. replace (a + (b - a - 8 * w) <? sp - 8 * w) with (b <? sp) by lia.
    destruct (b <? sp); auto. f_equal. f_equal. f_equal. lia. }
  destruct (shift_down_spec (Z.to_nat (sp - 8 * w - a)) x1 a frac) as [D1 D2]; cbn [ba_buf ba_stop x1]; auto; try lia.
  cbn [ba_buf ba_stop ba_start x1] in D1, D2. rewrite Hk in D1, D2. split.
  - intros Fit. destruct D1 as (x2 & X2 & S2 & T2 & L2 & B2 & V2).
    { rewrite L1. destruct (b <? sp) eqn:G; unfold frac in *; lia. }
    rewrite X2. destruct x2 as [l2 st2 sp2]. cbn [ba_buf ba_start ba_stop ba_set_stop] in *. subst st2 sp2.
    unfold abit in V2. cbn [ba_buf x1] in V2.
    assert (Fin : forall i, i < sp - (b - a) -> bit_at l2 i = if i <? a then bit_at l i else bit_at l (i + (b - a))).
    { intros i Hi. rewrite V2. destruct (i <? a) eqn:G.
      - replace (a <=? i) with false by lia. cbn [andb]. apply R1. lia.
      - replace ((a <=? i) && (i <? (if b <? sp then a + 8 * cdiv8 (sp - b) else a))) with true
          by (destruct (b <? sp) eqn:G2; unfold cdiv8; lia).
        apply R2. lia. }
    replace (sp - 8 * w - frac) with (sp - (b - a)) by (unfold frac; lia).
    destruct (cdiv8 (sp - (b - a)) <? zlen l2) eqn:C.
    + destruct l2 as [|b0 l2'] eqn:El2; [rewrite zlen_nil in C; unfold cdiv8 in C; lia|]. rewrite <- El2 in *.
      assert (Hne : l2 <> []) by (rewrite El2; discriminate).
      eexists. split; [reflexivity|]. unfold abit. cbn [ba_set_buf ba_buf ba_start ba_stop].
      split; [auto|]. split; [auto|]. split; [now apply bytes_ok_removelast|].
      rewrite zlen_removelast by auto. split; [unfold cdiv8 in C; lia|].
      intros i Hi. rewrite bit_at_removelast by (unfold cdiv8 in C; lia). apply Fin. lia.
    + eexists. split; [reflexivity|]. unfold abit. cbn [ba_buf ba_start ba_stop].
      split; [auto|]. split; [auto|]. split; [auto|]. split; [unfold frac in *; lia|].
      intros i Hi. apply Fin. lia.
  - intros Fit. destruct D2 as (x2 & X2).
    { rewrite L1. destruct (b <? sp) eqn:G; unfold frac in *; lia. }
    rewrite X2. eexists. reflexivity.
Qed.
