(** Proofs about range list arithmetic and bit addressing (buffer/range.py, reference/range.py). *)
From Verif Require Import Base BaseProofs Range RangeRef RangeSpec.
From Coq Require Import ZArith List Bool Lia ZifyBool ZifyNat.
Import ListNotations.
Open Scope Z_scope.
Ltac Zify.zify_post_hook ::= Z.div_mod_to_equations.

Lemma positions_eq r : positions r = map (fun k => r_start r + Z.of_nat k) (seq 0 (Z.to_nat (rlen r))).
Proof.
  unfold positions, rlen. destruct (r_stop r) as [e|]; [|reflexivity].
  unfold py_range3. replace ((e - r_start r + (1 - 1)) / 1) with (e - r_start r) by (rewrite Z.div_1_r; lia).
  apply map_ext. intros k. lia.
Qed.
Lemma closed_rlen r : closed r -> 0 <= rlen r /\ byte_length r = Some (rlen r).
Proof. intros ((H0 & H1) & H2). unfold rlen, byte_length. destruct (r_stop r); [|congruence]. split; [lia|reflexivity]. Qed.
Lemma zlen_positions r : closed r -> zlen (positions r) = rlen r.
Proof. intros H. destruct (closed_rlen r H). rewrite positions_eq. unfold zlen. rewrite map_length, seq_length. lia. Qed.
Lemma nth_positions r k : closed r -> 0 <= k < rlen r -> nth (Z.to_nat k) (positions r) 0 = r_start r + k.
Proof.
  intros H Hk. rewrite positions_eq.
  rewrite (nth_indep _ 0 (r_start r + Z.of_nat 0)) by (rewrite map_length, seq_length; lia).
  rewrite (map_nth (fun k => r_start r + Z.of_nat k)), seq_nth by lia. lia.
Qed.

Lemma sum_length_spec l : forall acc,
  (Forall closed l -> sum_length acc l = Some (acc + zlen (all_positions l)))
  /\ (Exists (fun r => r_stop r = None) l -> sum_length acc l = None).
Proof.
  induction l as [|r l IH]; intros acc; cbn [sum_length all_positions flat_map].
  - split; [intros _; rewrite zlen_nil; f_equal; lia|intros H; inversion H].
  - split.
    + intros H. inversion H as [|? ? Hr Hl]; subst. destruct (closed_rlen r Hr) as (L1 & L2). rewrite L2.
      rewrite (proj1 (IH _) Hl), zlen_app, zlen_positions by auto. f_equal. unfold all_positions. lia.
    + intros H. unfold byte_length. destruct (r_stop r) as [e|] eqn:E; [|reflexivity].
      apply (proj2 (IH _)). inversion H; subst; auto. congruence.
Qed.
Lemma list_byte_length_spec l :
  (Forall closed l -> list_byte_length l = Some (zlen (all_positions l)))
  /\ (Exists (fun r => r_stop r = None) l -> list_byte_length l = None).
Proof. destruct (sum_length_spec l 0) as [H1 H2]. split; [intros H; rewrite <- (Z.add_0_l (zlen _)); auto|exact H2]. Qed.

Lemma max_stop_from_spec l : forall m,
  (Forall closed l -> exists k, max_stop_from m l = Some k /\ m <= k
     /\ (forall r e, In r l -> r_stop r = Some e -> e <= k)
     /\ (k = m \/ exists r, In r l /\ r_stop r = Some k))
  /\ (Exists (fun r => r_stop r = None) l -> max_stop_from m l = None).
Proof.
  induction l as [|r l IH]; intros m; cbn [max_stop_from].
  - split; [|intros H; inversion H]. intros _. exists m. split; [auto|]. split; [lia|]. split; [intros ? ? []|auto].
  - split.
    + intros H. inversion H as [|? ? Hr Hl]; subst. destruct Hr as (_ & Hr). destruct (r_stop r) as [e|] eqn:E; [|congruence].
      destruct (proj1 (IH (Z.max m e)) Hl) as (k & K1 & K2 & K3 & K4). exists k. split; [auto|]. split; [lia|]. split.
      * intros r' e' [<-|Hi] E'; [rewrite E in E'; injection E' as <-; lia|eauto].
      * destruct K4 as [->|(r' & R1 & R2)]; [|right; exists r'; split; [now right|auto]].
        destruct (Z_le_gt_dec e m); [left; lia|right; exists r; split; [now left|rewrite E; f_equal; lia]].
    + intros H. destruct (r_stop r) as [e|] eqn:E; [|reflexivity].
      apply (proj2 (IH _)). inversion H; subst; auto. congruence.
Qed.

(** ** byte_offset *)
Lemma byte_offset_spec l : Forall closed l -> forall n,
  (0 < n <= zlen (all_positions l) -> byte_offset l n = Ok (nth (Z.to_nat (n - 1)) (all_positions l) 0 + 1))
  /\ (Z.max 0 (zlen (all_positions l)) < n -> byte_offset l n = Err AssertionError).
Proof.
  induction l as [|r l IH]; intros H n; cbn [byte_offset all_positions flat_map].
  - rewrite zlen_nil. split; [lia|reflexivity].
  - inversion H as [|? ? Hr Hl]; subst. destruct (closed_rlen r Hr) as (L1 & L2). rewrite L2.
    specialize (IH Hl (n - rlen r)). pose proof (zlen_positions r Hr) as Lp. pose proof (zlen_nonneg (all_positions l)).
    rewrite zlen_app, Lp. fold (all_positions l). split.
    + intros Hn. destruct (n <=? rlen r) eqn:E.
      * rewrite app_nth1 by (unfold zlen in Lp; lia). rewrite nth_positions by (auto; lia). f_equal. lia.
      * rewrite (proj1 IH) by lia. rewrite app_nth2 by (unfold zlen in Lp; lia). do 3 f_equal. unfold zlen in Lp. lia.
    + intros Hn. replace (n <=? rlen r) with false by lia. apply IH. lia.
Qed.
Lemma byte_offset_first r l : range_ok r -> byte_offset (r :: l) 0 = Ok (r_start r).
Proof.
  intros (H0 & H1). cbn [byte_offset]. unfold byte_length. destruct (r_stop r) as [e|].
  - replace (0 <=? e - r_start r) with true by lia. f_equal. lia.
  - f_equal. lia.
Qed.
Lemma byte_offset_open l r : Forall closed l -> r_stop r = None -> forall n rest,
  zlen (all_positions l) < n -> byte_offset (l ++ r :: rest) n = Ok (r_start r + (n - zlen (all_positions l))).
Proof.
  intros H E. induction l as [|x l IH]; intros n rest Hn; cbn [byte_offset all_positions flat_map app].
  - unfold byte_length. rewrite E. cbn [flat_map] in Hn. f_equal. rewrite zlen_nil. lia.
  - inversion H as [|? ? Hr Hl]; subst. destruct (closed_rlen x Hr) as (L1 & L2). rewrite L2.
    pose proof (zlen_positions x Hr) as Lp. cbn [all_positions flat_map] in Hn. rewrite zlen_app, Lp in *.
    fold (all_positions l) in *. pose proof (zlen_nonneg (all_positions l)).
    replace (n <=? rlen x) with false by lia. rewrite IH by (auto; lia). f_equal. lia.
Qed.

(** ** Bit addressing *)
Lemma mkR_eq a b a' b' : a = a' -> b = b' -> mkR a (Some b) = mkR a' (Some b').
Proof. congruence. Qed.
Ltac okl := first [reflexivity | apply (f_equal2 cons); [first [reflexivity | apply mkR_eq; lia] | okl]].
Ltac okr := apply (f_equal Ok); okl.
Lemma mk_srange_ok a b : 0 <= a <= b -> mk_srange (Some a) (Some b) = Ok (mkR a (Some b)).
Proof.
  intros H. unfold mk_srange. replace (0 <=? a) with true by lia. replace (0 <=? b) with true by lia.
  replace (a <=? b) with true by lia. reflexivity.
Qed.

(** One contiguous range. *)
Lemma bit_num_single s e k : 0 <= s <= e -> 0 <= k ->
  bit_num_ref [mkR s (Some e)] k =
  if k <=? e - s then Ok [mkR (s + k) (Some (s + k + 1))] else Err TypeError.
Proof.
  intros H Hk. unfold bit_num_ref. change (zlen [mkR s (Some e)]) with 1. cbn [passert rbind Z.leb Z.compare Pos.compare Pos.compare_cont].
  replace (0 <=? k) with true by lia. cbn [passert rbind].
  unfold find_relative_container_index. cbn [find_container byte_length r_stop r_start].
  replace (k - 0 - (e - s) <=? 0) with (k <=? e - s) by lia. destruct (k <=? e - s) eqn:E; [|reflexivity].
  cbn [nth_error r_start]. rewrite mk_srange_ok by lia. cbn [rbind]. okr.
Qed.
Lemma bit_slice_single s e a b : 0 <= s <= e -> 0 <= a <= b ->
  bit_slice_ref [mkR s (Some e)] (Some a) (Some b) =
  if b <=? e - s then Ok [mkR (s + a) (Some (s + b))]
  else if a <=? e - s then Err ValueError else Err TypeError.
Proof.
  intros H Hab. unfold bit_slice_ref. change (zlen [mkR s (Some e)]) with 1. cbn [passert rbind Z.leb Z.compare Pos.compare Pos.compare_cont].
  rewrite mk_srange_ok by lia. cbn [rbind].
  unfold find_relative_container_index. cbn [find_container byte_length r_stop r_start].
  replace (a - 0 - (e - s) <=? 0) with (a <=? e - s) by lia.
  destruct (a <=? e - s) eqn:E; [|replace (b <=? e - s) with false by lia; reflexivity].
  cbn [skipn bit_slice_loop r_start r_stop].
  replace (b - a <=? e - (s + a - 0)) with (b <=? e - s) by lia.
  destruct (b <=? e - s) eqn:F.
  - rewrite mk_srange_ok by lia. cbn [rbind]. replace (b - a - (s + a - 0 + (b - a) - (s + a - 0)) =? 0) with true by lia.
    cbn [rbind snd fst]. change (0 <? 0) with false. cbn iota. okr.
  - rewrite mk_srange_ok by lia. cbn [rbind]. replace (b - a - (e - (s + a - 0)) =? 0) with false by lia.
    cbn [rbind snd fst]. now replace (0 <? b - a - (e - (s + a - 0))) with true by lia.
Qed.
Lemma bit_slice_open s a b : 0 <= s -> 0 <= a <= b ->
  bit_slice_ref [mkR s None] (Some a) (Some b) = Ok [mkR (s + a) (Some (s + b))].
Proof.
  intros H Hab. unfold bit_slice_ref. change (zlen [mkR s None]) with 1. cbn [passert rbind Z.leb Z.compare Pos.compare Pos.compare_cont].
  rewrite mk_srange_ok by lia. cbn [rbind].
  unfold find_relative_container_index. cbn [find_container byte_length r_stop r_start].
  cbn [skipn bit_slice_loop r_start r_stop]. rewrite mk_srange_ok by lia. cbn [rbind].
  replace (b - a - (s + a - 0 + (b - a) - (s + a - 0)) =? 0) with true by lia.
  cbn [rbind snd fst]. change (0 <? 0) with false. cbn iota. okr.
Qed.

Lemma all_positions_cons x l : all_positions (x :: l) = positions x ++ all_positions l.
Proof. reflexivity. Qed.

(** Several ranges: a bit number or a slice strictly inside one of them. *)
Lemma find_container_at l1 : forall i0 sum r l2 point, Forall closed l1 -> closed r ->
  sum + zlen (all_positions l1) < point \/ (sum = point /\ l1 = []) ->
  point <= sum + zlen (all_positions l1) + rlen r ->
  find_container (l1 ++ r :: l2) i0 sum point = Some ((i0 + length l1)%nat, sum + zlen (all_positions l1)).
Proof.
  induction l1 as [|x l1 IH]; intros i0 sum r l2 point H1 Hr Hp Hq; cbn [app find_container length].
  - change (zlen (all_positions [])) with 0 in *. destruct (closed_rlen r Hr) as (L1 & L2). rewrite L2.
    replace (point - sum - rlen r <=? 0) with true by lia. do 2 f_equal; lia.
  - inversion H1 as [|? ? Hx H1']; subst. destruct (closed_rlen x Hx) as (L1 & L2). rewrite L2.
    rewrite all_positions_cons, zlen_app, zlen_positions in * by auto. pose proof (zlen_nonneg (all_positions l1)).
    destruct Hp as [Hp|[_ Hp]]; [|discriminate].
    replace (point - sum - rlen x <=? 0) with false by lia. rewrite IH; auto; try lia. do 2 f_equal; lia.
Qed.

Lemma bit_slice_inside l1 r l2 a b : Forall closed l1 -> closed r ->
  let base := zlen (all_positions l1) in
  base < a \/ (a = 0 /\ l1 = []) -> a <= b -> b <= base + rlen r ->
  bit_slice_ref (l1 ++ r :: l2) (Some a) (Some b) = Ok [mkR (r_start r + (a - base)) (Some (r_start r + (b - base)))].
Proof.
  intros H1 Hr base Ha Hab Hb. pose proof (zlen_nonneg (all_positions l1)) as Hz. fold base in Hz.
  assert (Hba : base <= a). { destruct Ha as [|[-> ->]]; [lia|]. unfold base. cbn. lia. }
  unfold bit_slice_ref. rewrite zlen_app, zlen_cons.
  replace (1 <=? zlen l1 + (1 + zlen l2)) with true by (pose proof (zlen_nonneg l1); pose proof (zlen_nonneg l2); lia).
  cbn [passert rbind]. rewrite mk_srange_ok by lia. cbn [rbind].
  unfold find_relative_container_index.
  rewrite (find_container_at l1 0 0 r l2 a) by (auto; try lia; try (fold base; destruct Ha as [|[-> ->]]; auto; lia)).
  rewrite skipn_app, skipn_all2 by lia. replace (0 + length l1 - length l1)%nat with 0%nat by lia. cbn [app skipn bit_slice_loop].
  fold base. replace (0 + base) with base by lia.
  destruct Hr as ((R0 & R1) & R2). unfold rlen in Hb. destruct (r_stop r) as [e|]; [|congruence].
  replace (b - a <=? e - (r_start r + a - base)) with true by lia.
  rewrite mk_srange_ok by lia. cbn [rbind].
  replace (b - a - (r_start r + a - base + (b - a) - (r_start r + a - base)) =? 0) with true by lia.
  cbn [rbind snd fst]. change (0 <? 0) with false. cbn iota. okr.
Qed.

Lemma bit_num_inside l1 r l2 k : Forall closed l1 -> closed r ->
  let base := zlen (all_positions l1) in
  base < k \/ (k = 0 /\ l1 = []) -> k < base + rlen r ->
  bit_num_ref (l1 ++ r :: l2) k = Ok [mkR (r_start r + (k - base)) (Some (r_start r + (k - base) + 1))].
Proof.
  intros H1 Hr base Ha Hb. pose proof (zlen_nonneg (all_positions l1)) as Hz. fold base in Hz.
  assert (Hba : base <= k). { destruct Ha as [|[-> ->]]; [lia|]. unfold base. cbn. lia. }
  unfold bit_num_ref. rewrite zlen_app, zlen_cons.
  replace (1 <=? zlen l1 + (1 + zlen l2)) with true by (pose proof (zlen_nonneg l1); pose proof (zlen_nonneg l2); lia).
  cbn [passert rbind]. replace (0 <=? k) with true by lia. cbn [passert rbind].
  unfold find_relative_container_index.
  rewrite (find_container_at l1 0 0 r l2 k) by (auto; try lia; try (fold base; destruct Ha as [|[-> ->]]; auto; lia)).
  replace (0 + length l1)%nat with (length l1 + 0)%nat by lia. rewrite nth_error_app2 by lia.
  replace (length l1 + 0 - length l1)%nat with 0%nat by lia. cbn [nth_error]. fold base. replace (0 + base) with base by lia.
  destruct Hr as ((R0 & R1) & R2). rewrite mk_srange_ok by lia. cbn [rbind]. okr.
Qed.

(** At a boundary between two ranges the bit behind the first range is addressed instead of the
    first bit of the second one. *)
Lemma bit_num_boundary l1 r l2 : Forall closed l1 -> closed r -> 0 < rlen r ->
  let k := zlen (all_positions l1) + rlen r in
  bit_num_ref (l1 ++ r :: l2) k = Ok [mkR (r_start r + rlen r) (Some (r_start r + rlen r + 1))].
Proof.
  intros H1 Hr Hpos k. pose proof (zlen_nonneg (all_positions l1)) as Hz.
  unfold bit_num_ref. rewrite zlen_app, zlen_cons.
  replace (1 <=? zlen l1 + (1 + zlen l2)) with true by (pose proof (zlen_nonneg l1); pose proof (zlen_nonneg l2); lia).
  cbn [passert rbind]. replace (0 <=? k) with true by (unfold k; lia). cbn [passert rbind].
  unfold find_relative_container_index.
  rewrite (find_container_at l1 0 0 r l2 k) by (auto; unfold k; lia).
  replace (0 + length l1)%nat with (length l1 + 0)%nat by lia. rewrite nth_error_app2 by lia.
  replace (length l1 + 0 - length l1)%nat with 0%nat by lia. cbn [nth_error].
  destruct Hr as ((R0 & R1) & R2). rewrite mk_srange_ok by (unfold k; lia). cbn [rbind]. unfold k. okr.
Qed.

(** A slice that starts strictly inside one range and ends in the next: the second part starts too
    late, by the offset of the slice in the first range. *)
Lemma bit_slice_across l1 r1 r2 l2 a b : Forall closed l1 -> closed r1 -> closed r2 ->
  let base := zlen (all_positions l1) in let off := a - base in let rest := b - base - rlen r1 in
  0 < off < rlen r1 -> 0 < rest -> off + rest <= rlen r2 ->
  bit_slice_ref (l1 ++ r1 :: r2 :: l2) (Some a) (Some b)
  = Ok [mkR (r_start r1 + off) (r_stop r1); mkR (r_start r2 + off) (Some (r_start r2 + off + rest))].
Proof.
  intros H1 Hr1 Hr2 base off rest Ho Hre Hfit. pose proof (zlen_nonneg (all_positions l1)) as Hz. fold base in Hz.
  unfold bit_slice_ref. rewrite zlen_app, zlen_cons.
  replace (1 <=? zlen l1 + (1 + zlen (r2 :: l2))) with true by (pose proof (zlen_nonneg l1); pose proof (zlen_nonneg (r2 :: l2)); lia).
  cbn [passert rbind]. rewrite mk_srange_ok by lia. cbn [rbind].
  unfold find_relative_container_index.
  rewrite (find_container_at l1 0 0 r1 (r2 :: l2) a) by (auto; fold base; lia).
  rewrite skipn_app, skipn_all2 by lia. replace (0 + length l1 - length l1)%nat with 0%nat by lia. cbn [app skipn bit_slice_loop].
  fold base. replace (0 + base) with base by lia.
  destruct Hr1 as ((R0 & R1) & R2). destruct Hr2 as ((S0 & S1) & S2). unfold rlen in *.
  destruct (r_stop r1) as [e1|]; [|congruence]. destruct (r_stop r2) as [e2|]; [|congruence].
  replace (b - a <=? e1 - (r_start r1 + a - base)) with false by lia.
  rewrite mk_srange_ok by lia. cbn [rbind].
  set (rem := b - a - (e1 - (r_start r1 + a - base))). assert (Er : rem = rest) by (unfold rem, rest; lia).
  replace (rem =? 0) with false by lia.
  replace (rem <=? e2 - (r_start r2 + a - base)) with true by lia.
  rewrite mk_srange_ok by lia. cbn [rbind].
  match goal with |- context [if ?c =? 0 then _ else _] => replace (c =? 0) with true by lia end.
  cbn [rbind snd fst]. change (0 <? 0) with false. cbn iota. rewrite Er. unfold off.
  okr.
Qed.

(** A slice that starts at a boundary gets an empty piece first and then skips as many bits of the
    next range as the first one has. *)
Lemma bit_slice_boundary l1 r1 r2 l2 a b : Forall closed l1 -> closed r1 -> closed r2 -> 0 < rlen r1 ->
  a = zlen (all_positions l1) + rlen r1 -> a < b -> rlen r1 + (b - a) <= rlen r2 ->
  bit_slice_ref (l1 ++ r1 :: r2 :: l2) (Some a) (Some b)
  = Ok [mkR (r_start r1 + rlen r1) (r_stop r1);
        mkR (r_start r2 + rlen r1) (Some (r_start r2 + rlen r1 + (b - a)))].
Proof.
  intros H1 Hr1 Hr2 Hpos Ha Hab Hfit. pose proof (zlen_nonneg (all_positions l1)) as Hz. set (base := zlen (all_positions l1)) in *.
  unfold bit_slice_ref. rewrite zlen_app, zlen_cons.
  replace (1 <=? zlen l1 + (1 + zlen (r2 :: l2))) with true by (pose proof (zlen_nonneg l1); pose proof (zlen_nonneg (r2 :: l2)); lia).
  cbn [passert rbind]. rewrite mk_srange_ok by lia. cbn [rbind].
  unfold find_relative_container_index.
  rewrite (find_container_at l1 0 0 r1 (r2 :: l2) a) by (auto; fold base; lia).
  rewrite skipn_app, skipn_all2 by lia. replace (0 + length l1 - length l1)%nat with 0%nat by lia. cbn [app skipn bit_slice_loop].
  fold base. replace (0 + base) with base by lia.
  destruct Hr1 as ((R0 & R1) & R2). destruct Hr2 as ((S0 & S1) & S2). unfold rlen in *.
  destruct (r_stop r1) as [e1|]; [|congruence]. destruct (r_stop r2) as [e2|]; [|congruence].
  replace (b - a <=? e1 - (r_start r1 + a - base)) with false by lia.
  rewrite mk_srange_ok by lia. cbn [rbind].
  match goal with |- context [if ?c =? 0 then _ else _] => replace (c =? 0) with false by lia end.
  match goal with |- context [?c <=? e2 - ?d] => replace (c <=? e2 - d) with true by lia end.
  rewrite mk_srange_ok by lia. cbn [rbind].
  match goal with |- context [if ?c =? 0 then _ else _] => replace (c =? 0) with true by lia end.
  cbn [rbind snd fst]. change (0 <? 0) with false. cbn iota.
  okr.
Qed.

Lemma bit_slice_needs_bounds l a b : a = None \/ b = None -> l <> [] -> bit_slice_ref l a b = Err TypeError.
Proof.
  intros H Hl. unfold bit_slice_ref. destruct l as [|r l]; [congruence|]. rewrite zlen_cons.
  replace (1 <=? 1 + zlen l) with true by (pose proof (zlen_nonneg l); lia). cbn [passert rbind].
  destruct a, b; auto. destruct H; congruence.
Qed.

(** ** In terms of addressed positions *)

Lemma firstn_exact {A} (l1 l2 : list A) : firstn (length l1) (l1 ++ l2) = l1.
Proof. rewrite firstn_app, Nat.sub_diag, firstn_all. cbn [firstn]. apply app_nil_r. Qed.
Lemma skipn_exact {A} (l1 l2 : list A) : skipn (length l1) (l1 ++ l2) = l2.
Proof. rewrite skipn_app, Nat.sub_diag, skipn_all. reflexivity. Qed.

Lemma positions_sub r x y : closed r -> 0 <= x <= y -> y <= rlen r ->
  positions (mkR (r_start r + x) (Some (r_start r + y))) = pslice (positions r) x y.
Proof.
  intros Hr Hx Hy. unfold pslice. rewrite !positions_eq. cbn [r_start rlen r_stop].
  replace (Z.to_nat (rlen r)) with (Z.to_nat x + (Z.to_nat (y - x) + Z.to_nat (rlen r - y)))%nat by lia.
  rewrite seq_app, map_app, seq_app, map_app.
  set (A := map _ (seq 0 (Z.to_nat x))). set (B := map _ (seq (0 + Z.to_nat x) (Z.to_nat (y - x)))).
  replace (skipn (Z.to_nat x)) with (@skipn Z (length A)) by (unfold A; now rewrite map_length, seq_length).
  rewrite skipn_exact.
  replace (firstn (Z.to_nat (y - x))) with (@firstn Z (length B)) by (unfold B; now rewrite map_length, seq_length).
  rewrite firstn_exact. unfold B. replace (r_start r + y - (r_start r + x)) with (y - x) by lia.
  cbn [Nat.add]. rewrite <- (Nat.add_0_r (Z.to_nat x)) at 1.
  apply nth_ext with (d := 0) (d' := 0); rewrite ?map_length, ?seq_length; [reflexivity|].
  intros n Hn.
  rewrite (nth_indep _ 0 (r_start r + x + Z.of_nat 0)) by (rewrite map_length, seq_length; lia).
  rewrite (map_nth (fun k => r_start r + x + Z.of_nat k)), seq_nth by lia.
  rewrite (nth_indep _ 0 (r_start r + Z.of_nat 0)) by (rewrite map_length, seq_length; lia).
  rewrite (map_nth (fun k => r_start r + Z.of_nat k)), seq_nth by lia. lia.
Qed.

Lemma pslice_app l1 l2 l3 a b : zlen l1 <= a <= b -> b <= zlen l1 + zlen l2 ->
  pslice (l1 ++ l2 ++ l3) a b = pslice l2 (a - zlen l1) (b - zlen l1).
Proof.
  intros Ha Hb. unfold pslice. unfold zlen in *. rewrite skipn_app, skipn_all2 by lia. cbn [app].
  rewrite skipn_app. replace (Z.to_nat a - length l1 - length l2)%nat with 0%nat by lia. cbn [skipn].
  rewrite firstn_app. rewrite skipn_length.
  replace (Z.to_nat (b - a) - (length l2 - (Z.to_nat a - length l1)))%nat with 0%nat by lia. cbn [firstn].
  rewrite app_nil_r. f_equal; [lia|f_equal; lia].
Qed.

Lemma all_positions_app l1 l2 : all_positions (l1 ++ l2) = all_positions l1 ++ all_positions l2.
Proof. unfold all_positions. apply flat_map_app. Qed.

Lemma inside_positions l1 r l2 a b : Forall closed l1 -> closed r ->
  let base := zlen (all_positions l1) in
  base <= a <= b -> b <= base + rlen r ->
  all_positions [mkR (r_start r + (a - base)) (Some (r_start r + (b - base)))]
  = pslice (all_positions (l1 ++ r :: l2)) a b.
Proof.
  intros H1 Hr base Ha Hb. rewrite all_positions_app, (all_positions_cons r l2), pslice_app by (rewrite ?zlen_positions; auto).
  fold base. rewrite <- positions_sub by (auto; lia). unfold all_positions. cbn [flat_map]. now rewrite app_nil_r.
Qed.

Lemma bit_slice_inside_positions l1 r l2 a b : Forall closed l1 -> closed r ->
  zlen (all_positions l1) < a \/ (a = 0 /\ l1 = []) -> a <= b -> b <= zlen (all_positions l1) + rlen r ->
  exists l', bit_slice_ref (l1 ++ r :: l2) (Some a) (Some b) = Ok l'
    /\ all_positions l' = pslice (all_positions (l1 ++ r :: l2)) a b.
Proof.
  intros H1 Hr Ha Hab Hb. eexists. split; [apply bit_slice_inside; auto|].
  apply inside_positions; auto. destruct Ha as [|[-> ->]]; [lia|]. change (zlen (all_positions [])) with 0. lia.
Qed.
Lemma bit_num_inside_positions l1 r l2 k : Forall closed l1 -> closed r ->
  zlen (all_positions l1) < k \/ (k = 0 /\ l1 = []) -> k < zlen (all_positions l1) + rlen r ->
  exists l', bit_num_ref (l1 ++ r :: l2) k = Ok l'
    /\ all_positions l' = pslice (all_positions (l1 ++ r :: l2)) k (k + 1).
Proof.
  intros H1 Hr Ha Hb. eexists. split; [apply bit_num_inside; auto|].
  rewrite <- inside_positions; auto; try lia.
  - do 2 f_equal. f_equal. f_equal. lia.
  - destruct Ha as [|[-> ->]]; [lia|]. change (zlen (all_positions [])) with 0. lia.
Qed.

Lemma nth_pslice l a b k : 0 <= a -> 0 <= k < b - a -> nth (Z.to_nat k) (pslice l a b) 0 = nth (Z.to_nat (a + k)) l 0.
Proof.
  intros Ha Hk. unfold pslice.
  assert (N : forall (i n : nat) (m : list Z), (i < n)%nat -> nth i (firstn n m) 0 = nth i m 0).
  { induction i as [|i IH]; intros [|n] [|x m] Hi; cbn [firstn nth]; try lia; auto. apply IH. lia. }
  assert (S : forall (n : nat) (m : list Z) i, nth i (skipn n m) 0 = nth (n + i) m 0).
  { induction n as [|n IH]; intros [|x m] i; cbn [skipn nth Nat.add]; auto. destruct i; reflexivity. }
  rewrite N, S by lia. f_equal. lia.
Qed.

(** The slice across two ranges addresses the wrong bits, always. *)
Lemma bit_slice_across_wrong l1 r1 r2 l2 a b : Forall closed l1 -> closed r1 -> closed r2 ->
  let base := zlen (all_positions l1) in let off := a - base in let rest := b - base - rlen r1 in
  0 < off < rlen r1 -> 0 < rest -> off + rest <= rlen r2 ->
  exists l', bit_slice_ref (l1 ++ r1 :: r2 :: l2) (Some a) (Some b) = Ok l'
    /\ nth (Z.to_nat (rlen r1 - off)) (all_positions l') 0 = r_start r2 + off
    /\ nth (Z.to_nat (rlen r1 - off)) (pslice (all_positions (l1 ++ r1 :: r2 :: l2)) a b) 0 = r_start r2.
Proof.
  intros H1 Hr1 Hr2 base off rest Ho Hre Hfit. pose proof (zlen_nonneg (all_positions l1)) as Hz. fold base in Hz.
  eexists. split; [apply bit_slice_across; auto|]. fold base. fold off. fold rest.
  destruct (closed_rlen r1 Hr1) as (Q1 & Q2). destruct (closed_rlen r2 Hr2) as (Q3 & Q4).
  pose proof (zlen_positions r1 Hr1) as L1. pose proof (zlen_positions r2 Hr2) as L2.
  split.
  - set (p1 := mkR (r_start r1 + off) (r_stop r1)). set (p2 := mkR (r_start r2 + off) (Some (r_start r2 + off + rest))).
    assert (C1 : closed p1 /\ rlen p1 = rlen r1 - off).
    { unfold p1, closed, range_ok, rlen in *. cbn [r_start r_stop]. destruct Hr1 as ((A & B) & C).
      destruct (r_stop r1) as [e|]; [|congruence]. split; [split; [lia|discriminate]|lia]. }
    assert (C2 : closed p2 /\ rlen p2 = rest).
    { unfold p2, closed, range_ok, rlen in *. cbn [r_start r_stop]. destruct Hr2 as ((A & B) & C).
      split; [split; [lia|discriminate]|lia]. }
    destruct C1 as (C1 & E1). destruct C2 as (C2 & E2).
    rewrite all_positions_cons, all_positions_cons. cbn [all_positions flat_map]. rewrite app_nil_r.
    pose proof (zlen_positions p1 C1) as M1. unfold zlen in M1. rewrite app_nth2 by lia.
    replace (Z.to_nat (rlen r1 - off) - length (positions p1))%nat with (Z.to_nat 0) by lia.
    rewrite nth_positions by (auto; lia). unfold p2. cbn [r_start]. lia.
  - rewrite nth_pslice by (unfold off, rest in *; lia). rewrite all_positions_app, app_nth2 by (subst rest off base; unfold zlen in *; lia).
    rewrite (all_positions_cons r1), app_nth2 by (subst rest off base; unfold zlen in *; lia).
    rewrite (all_positions_cons r2), app_nth1 by (subst rest off base; unfold zlen in *; lia).
    replace (Z.to_nat (a + (rlen r1 - off)) - length (all_positions l1) - length (positions r1))%nat with (Z.to_nat 0)
      by (subst rest off base; unfold zlen in *; lia).
    rewrite nth_positions by (auto; lia). lia.
Qed.
Lemma bit_num_boundary_wrong l1 r1 r2 l2 : Forall closed l1 -> closed r1 -> closed r2 -> 0 < rlen r1 -> 0 < rlen r2 ->
  let k := zlen (all_positions l1) + rlen r1 in
  exists l', bit_num_ref (l1 ++ r1 :: r2 :: l2) k = Ok l' /\ all_positions l' = [r_start r1 + rlen r1]
    /\ nth (Z.to_nat k) (all_positions (l1 ++ r1 :: r2 :: l2)) 0 = r_start r2.
Proof.
  intros H1 Hr1 Hr2 P1 P2 k. pose proof (zlen_nonneg (all_positions l1)) as Hz.
  pose proof (zlen_positions r1 Hr1) as L1. pose proof (zlen_positions r2 Hr2) as L2.
  eexists. split; [apply bit_num_boundary; auto|]. split.
  - cbn [all_positions flat_map]. rewrite positions_eq. cbn [rlen r_start r_stop].
    replace (r_start r1 + rlen r1 + 1 - (r_start r1 + rlen r1)) with 1 by lia. change (Z.to_nat 1) with 1%nat. cbn [seq map app].
    change (Z.of_nat 0) with 0. now rewrite Z.add_0_r.
  - rewrite all_positions_app, app_nth2 by (unfold k, zlen in *; lia).
    rewrite (all_positions_cons r1), app_nth2 by (unfold k, zlen in *; lia).
    rewrite (all_positions_cons r2), app_nth1 by (unfold k, zlen in *; lia).
    replace (Z.to_nat k - length (all_positions l1) - length (positions r1))%nat with (Z.to_nat 0) by (unfold k, zlen in *; lia).
    rewrite nth_positions by (auto; lia). lia.
Qed.

(** ** Closing open ranges *)
Lemma to_closed_ok r n : range_ok r -> r_start r <= n ->
  to_closed r n = Ok (mkR (r_start r) (Some (match r_stop r with Some e => e | None => n end))).
Proof.
  intros (R0 & R1) H. unfold to_closed. replace (r_start r <=? n) with true by lia. cbn [passert rbind].
  rewrite mk_srange_ok by (destruct (r_stop r); lia). reflexivity.
Qed.
Lemma to_closed_list_spec l n : Forall range_ok l -> Forall (fun r => r_start r <= n) l ->
  list_to_closed l n = Ok (map (fun r => mkR (r_start r) (Some (match r_stop r with Some e => e | None => n end))) l).
Proof.
  unfold list_to_closed. induction 1 as [|r l R Hl IH]; intros H; [reflexivity|]. inversion H; subst.
  cbn [rmap_list map]. rewrite to_closed_ok by auto. cbn [rbind]. rewrite IH by auto. reflexivity.
Qed.
Lemma to_closed_list_fails l n : Forall range_ok l -> Exists (fun r => n < r_start r) l ->
  list_to_closed l n = Err AssertionError.
Proof.
  unfold list_to_closed. induction 1 as [|r l R Hl IH]; intros H; [inversion H|].
  cbn [rmap_list]. destruct (Z_le_gt_dec (r_start r) n) as [L|L].
  - rewrite to_closed_ok by auto. cbn [rbind]. rewrite IH; [reflexivity|]. inversion H; subst; auto. lia.
  - unfold to_closed at 1. now replace (r_start r <=? n) with false by lia.
Qed.
