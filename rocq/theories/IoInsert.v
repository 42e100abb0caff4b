(** Proofs about buffer/io_buffer.py, part 3: inserting and deleting. *)
From Verif Require Import Base BaseProofs Range IoBuffer IoSpec IoProofs IoMutProofs.
From Coq Require Import ZArith List Bool Lia ZifyBool ZifyNat.
Import ListNotations.
Open Scope Z_scope.
Ltac Zify.zify_post_hook ::= Z.div_mod_to_equations.

Lemma bit_at_repeat0 n i : bit_at (repeat 0 n) i = false.
Proof.
  unfold bit_at. destruct (i <? 0); auto.
  destruct (nth_in_or_default (Z.to_nat (i / 8)) (repeat 0 n) 0) as [H|H].
  - apply repeat_spec in H. rewrite H. apply Z.testbit_0_l.
  - rewrite H. apply Z.testbit_0_l.
Qed.

Lemma bit_at_firstn l k i : 0 <= k <= zlen l ->
  bit_at (firstn (Z.to_nat k) l) i = if i <? 8 * k then bit_at l i else false.
Proof.
  intros H. assert (E : zlen (firstn (Z.to_nat k) l) = k) by (rewrite zlen_firstn; lia).
  destruct (i <? 8 * k) eqn:F.
  - rewrite <- (firstn_skipn (Z.to_nat k) l) at 2. rewrite bit_at_app, E, F. reflexivity.
  - apply bit_at_overflow. lia.
Qed.
Lemma bit_at_skipn l k i : 0 <= k <= zlen l -> 0 <= i ->
  bit_at (skipn (Z.to_nat k) l) i = bit_at l (8 * k + i).
Proof.
  intros H Hi. rewrite <- (firstn_skipn (Z.to_nat k) l) at 2. rewrite bit_at_app, zlen_firstn.
  replace (8 * k + i <? 8 * Z.min (Z.of_nat (Z.to_nat k)) (zlen l)) with false by lia. f_equal. lia.
Qed.

(** The array with [w] zero bytes inserted at byte [q]. *)
Definition opened (l : list Z) (q w : Z) : list Z :=
  firstn (Z.to_nat q) l ++ repeat 0 (Z.to_nat w) ++ skipn (Z.to_nat q) l.
Lemma opened_len l q w : 0 <= q <= zlen l -> 0 <= w -> zlen (opened l q w) = zlen l + w.
Proof. intros. unfold opened. rewrite !zlen_app, zlen_firstn, zlen_repeat, zlen_skipn. lia. Qed.
Lemma opened_ok l q w : bytes_ok l -> bytes_ok (opened l q w).
Proof.
  intros H. unfold opened. apply bytes_ok_app. split; [now apply bytes_ok_firstn|].
  apply bytes_ok_app. split; [apply bytes_ok_repeat0|now apply bytes_ok_skipn].
Qed.
Definition opened_bit (l : list Z) (q w i : Z) : bool :=
  if i <? 8 * q then bit_at l i else if i <? 8 * (q + w) then false else bit_at l (i - 8 * w).
Lemma opened_bits l q w i : 0 <= q <= zlen l -> 0 <= w -> bit_at (opened l q w) i = opened_bit l q w i.
Proof.
  intros H Hw. unfold opened, opened_bit.
  rewrite !bit_at_app, zlen_firstn, zlen_repeat, bit_at_repeat0.
  replace (8 * Z.min (Z.of_nat (Z.to_nat q)) (zlen l)) with (8 * q) by lia.
  replace (8 * Z.of_nat (Z.to_nat w)) with (8 * w) by lia.
  destruct (i <? 8 * q) eqn:E.
  - now rewrite bit_at_firstn, E by lia.
  - replace (i - 8 * q <? 8 * w) with (i <? 8 * (q + w)) by lia.
    destruct (i <? 8 * (q + w)) eqn:F; auto.
    rewrite bit_at_skipn by lia. f_equal. lia.
Qed.
Lemma opened_0 l q : opened l q 0 = l.
Proof. unfold opened. cbn [repeat Z.to_nat]. apply firstn_skipn. Qed.

(** Whole bytes inserted, and what is left. *)
Definition whole (a n : Z) : Z := Z.max 0 ((a + n) / 8 - cdiv8 a).

Lemma insert_zeros_spec x a n : ba_ok x -> 0 <= a <= ba_stop x -> 0 <= n ->
  let q := cdiv8 a in let w := whole a n in let frac := n - 8 * w in
  exists x', insert_zeros a (a + n) x = (Ok tt, x')
    /\ ba_start x' = ba_start x /\ ba_stop x' = ba_stop x + n
    /\ bytes_ok (ba_buf x') /\ zlen (ba_buf x') = Z.max (zlen (ba_buf x) + w) (cdiv8 (ba_stop x + n))
    /\ (forall i, i < a -> abit x' i = abit x i)
    /\ (frac = 0 \/ ba_stop x + 8 * w <= a -> forall i, abit x' i = opened_bit (ba_buf x) q w i)
    /\ (0 < frac -> a < ba_stop x + 8 * w ->
        let ofs := ba_stop x + 8 * w + frac - 8 in
        let low := lowest ofs a in
        (forall i, i < low \/ ofs + 8 <= i -> abit x' i = opened_bit (ba_buf x) q w i)
        /\ (forall i, low <= i < ofs + 8 -> 0 <= i - frac - (i - low) mod 8 ->
              abit x' i = opened_bit (ba_buf x) q w (i - frac))
        /\ (low < ofs + 8 -> -8 < low - frac < 0 ->
              forall j, 0 <= j < 8 -> abit x' (low + j)
               = (j <? 8 + (low - frac)) && opened_bit (ba_buf x) q w j)).
Proof.
  intros (B & Hst & Hse & Hlen) Ha Hn q w frac. destruct x as [l st sp]. unfold ba_view in *.
  cbn [ba_buf ba_start ba_stop buf_ok blen] in *.
  unfold insert_zeros. sstep. unfold sbind, slift, sget, sret.
  replace ((0 <=? a) && (a <=? a + n)) with true by lia. cbn [passert]. cbn [ba_stop ba_buf].
  replace (a <=? sp) with true by lia. cbn [passert].
  fold q. set (delta := (a + n) / 8 - q).
  assert (Hq : 0 <= q <= zlen l) by (unfold q, cdiv8; lia).
  assert (Hw : 0 <= w) by (unfold w, whole; lia).
  assert (Hfr : 0 <= frac <= 14) by (unfold frac, w, whole, cdiv8; lia).
  set (l1 := opened l q w).
  assert (Step : (if 1 <=? delta
     then fun s : baa => let '(r, s') := ba_set_buf (firstn (Z.to_nat q) l ++ repeat 0 (Z.to_nat delta) ++ skipn (Z.to_nat q) l) s in
          match r with Ok _ => let '(r0, s'0) := ba_set_stop (sp + 8 * delta) s' in
                               match r0 with Ok _ => (Ok (a + n - 8 * delta), s'0) | Err e => (Err e, s'0) end
          | Err e => (Err e, s') end
     else fun s : baa => (Ok (a + n), s)) {| ba_buf := l; ba_start := st; ba_stop := sp |}
     = (Ok (a + frac), {| ba_buf := l1; ba_start := st; ba_stop := sp + 8 * w |})).
  { destruct (1 <=? delta) eqn:E.
    - cbn [ba_set_buf ba_set_stop ba_buf ba_start ba_stop]. unfold l1, opened.
      replace w with delta by (unfold w, whole; fold q; lia). f_equal. f_equal. unfold frac, w, whole. fold q. lia.
    - assert (W0 : w = 0) by (unfold w, whole; fold q; lia). unfold l1. rewrite W0, opened_0.
      f_equal; [f_equal; unfold frac; lia|f_equal; lia]. }
  match goal with |- context [match ?X with pair _ _ => _ end] =>
    replace X with (@Ok Z (a + frac), {| ba_buf := l1; ba_start := st; ba_stop := sp + 8 * w |}) end.
  assert (L1 : zlen l1 = zlen l + w) by (unfold l1; apply opened_len; lia).
  assert (B1 : bytes_ok l1) by (unfold l1; now apply opened_ok).
  assert (O1 : forall i, bit_at l1 i = opened_bit l q w i) by (intros; apply opened_bits; lia).
  destruct (a <? a + frac) eqn:E.
  2:{ eexists. split; [reflexivity|]. cbn [ba_buf ba_start ba_stop].
      assert (F0 : frac = 0) by lia.
      split; [auto|]. split; [unfold frac in F0; lia|]. split; [auto|]. split; [rewrite L1; unfold frac, cdiv8 in *; lia|].
      split; [|split; [|lia]].
      - intros i Hi. unfold abit. cbn [ba_buf]. rewrite O1. unfold opened_bit, q, cdiv8. now replace (i <? 8 * ((a + 7) / 8)) with true by lia.
      - intros _ i. unfold abit. cbn [ba_buf]. apply O1. }
  replace (a + frac - a <=? 16) with true by lia. cbn [passert].
  replace (a + frac - a) with frac by lia. cbn [ba_set_buf ba_buf ba_start ba_stop].
  set (l2 := l1 ++ repeat 0 (Z.to_nat (cdiv8 (sp + 8 * w + frac) - zlen l1))).
  assert (L2 : zlen l2 = Z.max (zlen l + w) (cdiv8 (sp + n))).
  { unfold l2. rewrite zlen_app, zlen_repeat, L1. replace (sp + 8 * w + frac) with (sp + n) by (unfold frac; lia). lia. }
  assert (B2 : bytes_ok l2) by (unfold l2; apply bytes_ok_app; split; [auto|apply bytes_ok_repeat0]).
  assert (O2 : forall i, bit_at l2 i = opened_bit l q w i).
  { intros i. unfold l2. rewrite bit_at_app, bit_at_repeat0, <- O1. destruct (i <? 8 * zlen l1) eqn:F; auto.
    symmetry. apply bit_at_overflow. lia. }
  destruct (a <? sp + 8 * w) eqn:F.
  2:{ eexists. split; [reflexivity|]. cbn [ba_set_stop ba_buf ba_start ba_stop].
      split; [auto|]. split; [unfold frac; lia|]. split; [auto|]. split; [exact L2|].
      split; [|split; [|lia]].
      - intros i Hi. unfold abit. cbn [ba_buf]. rewrite O2. unfold opened_bit, q, cdiv8. now replace (i <? 8 * ((a + 7) / 8)) with true by lia.
      - intros _ i. unfold abit. cbn [ba_buf]. apply O2. }
  set (ofs := sp + 8 * w + frac - 8).
  destruct (shift_up_spec (Z.to_nat (ofs - a + 8)) {| ba_buf := l2; ba_start := st; ba_stop := sp + 8 * w |} ofs a frac)
    as (x3 & X3 & S3 & T3 & L3 & B3 & U3 & V3 & W3); cbn [ba_buf]; auto; try lia.
  { rewrite L2. unfold ofs, cdiv8, frac. lia. }
  rewrite X3. destruct x3 as [l3 st3 sp3]. cbn [ba_buf ba_start ba_stop ba_set_stop] in *. subst st3 sp3.
  eexists. split; [reflexivity|]. cbn [ba_buf ba_start ba_stop].
  split; [auto|]. split; [unfold frac; lia|]. split; [auto|]. split; [rewrite L3; exact L2|].
  unfold abit in *. cbn [ba_buf] in *. split; [|split; [lia|]].
  - intros i Hi. rewrite U3 by (unfold lowest; destruct (a <=? ofs) eqn:G; lia).
    rewrite O2. unfold opened_bit, q, cdiv8. now replace (i <? 8 * ((a + 7) / 8)) with true by lia.
  - intros _ _. split; [|split].
    + intros i Hi. rewrite U3 by auto. apply O2.
    + intros i Hi1 Hi2. rewrite V3 by auto. apply O2.
    + intros H1 H2 j Hj. rewrite W3 by auto. f_equal. apply O2.
Qed.
