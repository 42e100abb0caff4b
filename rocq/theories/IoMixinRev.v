(** Proofs about buffer/io_buffer.py, part 12: [reverse]. *)
From Verif Require Import Base BaseProofs Range IoBuffer IoSpec IoProofs IoMutProofs IoInsert IoDelete IoFacts IoOutput IoViews IoIndex IoMixin IoMixinSpec IoMixinFacts IoMixinMut PropertiesIndex.
From Coq Require Import ZArith List Bool Lia ZifyBool ZifyNat.
Import ListNotations.
Open Scope Z_scope.
Ltac Zify.zify_post_hook ::= Z.div_mod_to_equations.

Lemma splice_upd v : forall l k, (k < length l)%nat -> splice (bits_of_bytes l) (8 * Z.of_nat k) (8 * Z.of_nat k + 8) (byte_bits v) = bits_of_bytes (list_upd l k v).
Proof.
  intros l k. unfold splice. replace (Z.to_nat (8 * Z.of_nat k)) with (8 * k)%nat by lia. replace (Z.to_nat (8 * Z.of_nat k + 8)) with (8 * k + 8)%nat by lia.
  revert l. induction k as [|k IH]; intros l H; (destruct l as [|b l]; [cbn in H; lia|]).
  - reflexivity.
  - change (list_upd (b :: l) (S k) v) with (b :: list_upd l k v). change (bits_of_bytes (b :: ?r)) with (byte_bits b ++ bits_of_bytes r).
    rewrite <- IH by (cbn in H; lia). replace (8 * S k)%nat with (8 + 8 * k)%nat by lia. reflexivity.
Qed.
Lemma upd_ok l : forall k v, bytes_ok l -> is_byte v -> bytes_ok (list_upd l k v).
Proof. induction l as [|b l IH]; intros k v H V; [exact H|]. inversion H; subst. destruct k; constructor; auto. now apply IH. Qed.
Lemma upd_len {A} (l : list A) : forall k v, length (list_upd l k v) = length l.
Proof. induction l as [|b l IH]; intros k v; [reflexivity|]. destruct k; cbn; auto. Qed.
Lemma upd_nth {A} (l : list A) d v : forall k j, (k < length l)%nat -> nth j (list_upd l k v) d = if Nat.eqb j k then v else nth j l d.
Proof.
  induction l as [|b l IH]; intros k j H; [cbn in H; lia|]. destruct k, j; cbn; auto. apply IH. cbn in H. lia.
Qed.

(** An array that holds these bytes. *)
Definition holding (x : baa) (l : list Z) : Prop := ba_ok x /\ bytes_ok l /\ ba_bits x = bits_of_bytes l.
Lemma holding_len x l : holding x l -> blen (ba_view x) = zlen l /\ zlen (ba_bits x) = 8 * zlen l.
Proof.
  intros (K & B & E). assert (L : zlen (ba_bits x) = 8 * zlen l) by (rewrite E; apply bits_of_bytes_length). split; [|exact L].
  rewrite blen_cdiv. pose proof (buf_bits_len _ K) as X. fold (ba_bits x) in X. rewrite <- X, L. unfold cdiv8. lia.
Qed.
Lemma holding_get x l k : holding x l -> (k < length l)%nat -> view_get (ba_view x) (8 * Z.of_nat k) = Ok (nth k l 0).
Proof.
  intros H Hk. pose proof (holding_len x l H) as [L _]. pose proof H as (K & B & E).
  destruct (get_nth (ba_view x) (Z.of_nat k) K Logic.I) as (z & G & N); [unfold zlen in L; lia|]. rewrite G. f_equal. rewrite Nat2Z.id in N.
  unfold elements in N. fold (ba_bits x) in N. rewrite E, bytes_of_bits_of_bytes in N by exact B. symmetry. now apply nth_error_nth.
Qed.
Lemma holding_set x l k v : holding x l -> (k < length l)%nat -> is_byte v ->
  exists x', ba_setitem (KIndex (8 * Z.of_nat k)) (BVInt v) x = (Ok tt, x') /\ holding x' (list_upd l k v).
Proof.
  intros H Hk V. pose proof (holding_len x l H) as [_ L]. pose proof H as (K & B & E).
  assert (C : py_clamp (zlen (ba_bits x)) (8 * Z.of_nat k) = 8 * Z.of_nat k) by (apply py_clamp_id; rewrite L; unfold zlen; lia).
  pose proof (C84_write_inside x (8 * Z.of_nat k) K) as P. cbv zeta in P. rewrite C in P. destruct P as [P _]; [rewrite L; unfold zlen; lia|].
  destruct (P v V) as (x' & X & K' & E'). exists x'. split; [exact X|]. split; [exact K'|]. split; [now apply upd_ok|]. rewrite E', E. now apply splice_upd.
Qed.
Lemma nth_byte l k : bytes_ok l -> (k < length l)%nat -> is_byte (nth k l 0).
Proof. intros B H. unfold bytes_ok in B. rewrite Forall_forall in B. apply B. now apply nth_In. Qed.

Definition swap (l : list Z) (i j : nat) : list Z := list_upd (list_upd l i (nth j l 0)) j (nth i l 0).
Lemma swap_spec x l i j : holding x l -> (i < length l)%nat -> (j < length l)%nat ->
  exists x', ba_swap (Z.of_nat i) (Z.of_nat j) x = (Ok tt, x') /\ holding x' (swap l i j).
Proof.
  intros H Hi Hj. pose proof H as (K & B & E). unfold ba_swap, sbind, sget, slift. rewrite (holding_get x l j H Hj), (holding_get x l i H Hi).
  destruct (holding_set x l i (nth j l 0) H Hi (nth_byte l j B Hj)) as (x1 & X1 & H1). rewrite X1.
  destruct (holding_set x1 _ j (nth i l 0) H1) as (x2 & X2 & H2); [now rewrite upd_len|now apply nth_byte|]. rewrite X2. exists x2. auto.
Qed.

Fixpoint swaps (n : nat) (is : list nat) (l : list Z) : list Z := match is with [] => l | i :: r => swaps n r (swap l i (n - i - 1)) end.
Lemma swaps_spec n is : forall x l, holding x l -> length l = n -> Forall (fun i => (i < n)%nat) is ->
  exists x', sforeach (map Z.of_nat is) (fun i => ba_swap i (Z.of_nat n - i - 1)) x = (Ok tt, x') /\ holding x' (swaps n is l).
Proof.
  induction is as [|i r IH]; intros x l H L F; cbn [map sforeach swaps]; [exists x; auto|]. inversion F as [|? ? F1 F2]; subst.
  destruct (swap_spec x l i (length l - i - 1) H F1) as (x1 & X1 & H1); [lia|]. unfold sbind.
  replace (Z.of_nat (length l) - Z.of_nat i - 1) with (Z.of_nat (length l - i - 1)) by lia. rewrite X1. apply IH; [exact H1|unfold swap; now rewrite !upd_len|exact F2].
Qed.
Lemma swaps_len n is : forall l, length (swaps n is l) = length l.
Proof. induction is as [|i r IH]; intros l; cbn [swaps]; [reflexivity|]. rewrite IH. unfold swap. now rewrite !upd_len. Qed.
Lemma swaps_app n is i l : swaps n (is ++ [i]) l = swap (swaps n is l) i (n - i - 1).
Proof. revert l. induction is as [|j r IH]; intros l; cbn [app swaps]; [reflexivity|apply IH]. Qed.
Lemma swaps_nth l : forall k, (k <= length l / 2)%nat -> forall j, (j < length l)%nat ->
  nth j (swaps (length l) (seq 0 k) l) 0 = if (Nat.ltb j k || Nat.leb (length l - k) j)%bool then nth (length l - 1 - j) l 0 else nth j l 0.
Proof.
  induction k as [|k IH]; intros Hk j Hj.
  - cbn [seq swaps]. replace (Nat.ltb j 0 || Nat.leb (length l - 0) j)%bool with false by lia. reflexivity.
  - rewrite seq_S, swaps_app. cbn [Nat.add]. unfold swap. assert (2 * (length l / 2) <= length l)%nat by (apply Nat.mul_div_le; lia).
    rewrite !upd_nth by (rewrite ?upd_len, swaps_len; lia).
    rewrite !IH by lia. destruct (Nat.eqb_spec j (length l - k - 1)) as [->|N1].
    + replace (Nat.ltb k k || Nat.leb (length l - k) k)%bool with false by lia.
      replace (Nat.ltb (length l - k - 1) (S k) || Nat.leb (length l - S k) (length l - k - 1))%bool with true by lia. f_equal. lia.
    + destruct (Nat.eqb_spec j k) as [->|N2].
      * replace (Nat.ltb (length l - k - 1) k || Nat.leb (length l - k) (length l - k - 1))%bool with false by lia.
        replace (Nat.ltb k (S k) || Nat.leb (length l - S k) k)%bool with true by lia. f_equal. lia.
      * replace (Nat.ltb j (S k) || Nat.leb (length l - S k) j)%bool with (Nat.ltb j k || Nat.leb (length l - k) j)%bool by lia. reflexivity.
Qed.
Lemma swaps_rev l : swaps (length l) (seq 0 (length l / 2)) l = rev l.
Proof.
  apply (nth_ext _ _ 0 0); [now rewrite swaps_len, rev_length|]. intros j Hj. rewrite swaps_len in Hj. rewrite swaps_nth by lia. rewrite rev_nth by exact Hj.
  pose proof (Nat.div_mod (length l) 2 ltac:(lia)) as D. pose proof (Nat.mod_upper_bound (length l) 2 ltac:(lia)) as M.
  destruct (Nat.ltb j (length l / 2) || Nat.leb (length l - length l / 2) j)%bool eqn:E; [f_equal; lia|]. f_equal.
  apply orb_false_iff in E. destruct E as [E1 E2]. apply Nat.ltb_ge in E1. apply Nat.leb_gt in E2. lia.
Qed.

Lemma whole_bits l : zlen l mod 8 = 0 -> bits_of_bytes (bytes_of_bits l) = l.
Proof.
  intros H. destruct (bytes_of_bits_spec l) as (_ & L & S). apply bnth_ext.
  - rewrite bits_of_bytes_length, L. unfold cdiv8. lia.
  - intros i _. rewrite bnth_bytes. apply S.
Qed.
Lemma reverse_whole x : ba_ok x -> zlen (ba_bits x) mod 8 = 0 ->
  exists x', ba_reverse x = (Ok tt, x') /\ ba_ok x' /\ elements (ba_view x') = rev (elements (ba_view x)) /\ zlen (ba_bits x') = zlen (ba_bits x).
Proof.
  intros K W. set (l := elements (ba_view x)).
  assert (H : holding x l).
  { split; [exact K|]. unfold l, elements. fold (ba_bits x). split; [apply bytes_of_bits_spec|]. symmetry. now apply whole_bits. }
  pose proof (holding_len x l H) as [L1 L2]. unfold ba_reverse, sbind, sget. rewrite L1.
  destruct (swaps_spec (length l) (seq 0 (length l / 2)) x l H eq_refl) as (x' & X & H').
  { apply Forall_forall. intros i Hi. apply in_seq in Hi. pose proof (Nat.mul_div_le (length l) 2 ltac:(lia)). lia. }
  exists x'. rewrite swaps_rev in H'. split.
  - rewrite <- X. unfold py_range, py_range3, zlen. f_equal. rewrite Z.div_1_r.
    replace (Z.to_nat (Z.of_nat (length l) / 2 - 0 + (1 - 1))) with (length l / 2)%nat by (rewrite <- (Nat2Z.id (length l / 2)), Nat2Z.inj_div; f_equal; cbn; lia).
    apply map_ext. intros k. lia.
  - pose proof (holding_len x' _ H') as [_ L3]. destruct H' as (K' & B' & E'). split; [exact K'|]. split.
    + unfold elements. fold (ba_bits x'). now rewrite E', bytes_of_bits_of_bytes.
    + rewrite L3, L2. unfold zlen. now rewrite rev_length.
Qed.

(** ** A last element of less than eight bits *)
Lemma byte_bits_value l : zlen l <= 8 -> byte_bits (bits_value l) = l ++ repeat false (Z.to_nat (8 - zlen l)).
Proof.
  intros H. apply bnth_ext.
  - unfold zlen. rewrite byte_bits_length, app_length, repeat_length. unfold zlen in H. lia.
  - intros i Hi. unfold zlen in Hi at 1. rewrite byte_bits_length in Hi. rewrite bnth_app.
    assert (E : bnth (byte_bits (bits_value l)) i = bnth l i).
    { rewrite <- (bits_value_testbit l i) by lia. unfold bnth. replace (i <? 0) with false by lia. rewrite nth_byte_bits by lia. f_equal. lia. }
    rewrite E. destruct (i <? zlen l) eqn:F; [reflexivity|]. rewrite bnth_repeat. apply bnth_over. lia.
Qed.
Lemma bits_value_byte l : zlen l <= 8 -> is_byte (bits_value l).
Proof.
  intros H. split; [apply bits_value_nonneg|]. eapply Z.lt_le_trans; [apply bits_value_lt|]. change 256 with (2 ^ 8). apply Z.pow_le_mono_r; lia.
Qed.
Lemma reverse_two x : ba_ok x -> let n := zlen (ba_bits x) in 8 < n < 16 ->
  exists r x', ba_reverse x = (r, x') /\ (r = Ok tt \/ r = Err IndexError) /\ ba_ok x'
    /\ ba_bits x' = skipn 8 (ba_bits x) ++ repeat false (Z.to_nat (16 - n)) ++ firstn (Z.to_nat (n - 8)) (ba_bits x).
Proof.
  intros K n H. pose proof (ba_bits_len x K) as L. fold n in L.
  assert (B : blen (ba_view x) = 2) by (rewrite blen_cdiv; unfold ba_view; cbn [blength]; unfold cdiv8; lia).
  unfold ba_reverse, sbind at 1, sget at 1. rewrite B. change (py_range (2 / 2)) with [0]. cbn [sforeach]. change (2 - 0 - 1) with 1.
  unfold ba_swap, sbind, sget, slift. change (8 * 1) with 8. change (8 * 0) with 0.
  assert (C8 : py_clamp n 8 = 8) by (apply py_clamp_id; lia). assert (C0 : py_clamp n 0 = 0) by (apply py_clamp_id; lia).
  assert (G8 : view_get (ba_view x) 8 = Ok (bits_value (skipn 8 (ba_bits x)))).
  { unfold ba_view. rewrite get_inside by (try exact K; rewrite <- L, C8; lia). rewrite <- L, C8. fold (ba_view x). fold (ba_bits x). do 2 f_equal. apply firstn_all2.
    change (Z.to_nat 8) with 8%nat. rewrite skipn_length. unfold n, zlen in H. lia. }
  assert (G0 : view_get (ba_view x) 0 = Ok (bits_value (firstn 8 (ba_bits x)))).
  { unfold ba_view. rewrite get_inside by (try exact K; rewrite <- L, C0; lia). rewrite <- L, C0. reflexivity. }
  rewrite G8, G0. assert (Ls : zlen (skipn 8 (ba_bits x)) = n - 8) by (change (skipn 8 (ba_bits x)) with (skipn (Z.to_nat 8) (ba_bits x)); rewrite zlen_skipn; fold n; lia).
  assert (Lf : zlen (firstn 8 (ba_bits x)) = 8) by (change (firstn 8 (ba_bits x)) with (firstn (Z.to_nat 8) (ba_bits x)); rewrite zlen_firstn; fold n; lia).
  pose proof (C84_write_inside x 0 K) as P. cbv zeta in P. fold n in P. rewrite C0 in P. destruct P as [P _]; [lia|].
  destruct (P _ (bits_value_byte (skipn 8 (ba_bits x)) ltac:(lia))) as (x1 & X1 & K1 & E1). rewrite X1.
  unfold splice in E1. cbn [Z.add] in E1. change (firstn (Z.to_nat 0) (ba_bits x)) with (@nil bool) in E1. cbn [app] in E1. change (Z.to_nat 8) with 8%nat in E1.
  rewrite byte_bits_value in E1 by lia. rewrite Ls in E1. replace (8 - (n - 8)) with (16 - n) in E1 by lia.
  assert (L1 : zlen (ba_bits x1) = n) by (rewrite E1, !zlen_app, Ls; unfold zlen at 1; rewrite repeat_length; lia).
  pose proof (C84_write_end x1 8 K1) as Q. cbv zeta in Q. rewrite L1, C8 in Q. destruct Q as [Q _]; [lia|].
  destruct (Q _ (bits_value_byte (firstn 8 (ba_bits x)) ltac:(lia))) as (x2 & X2 & K2 & E2). rewrite X2. unfold sret.
  assert (F : ba_bits x2 = skipn 8 (ba_bits x) ++ repeat false (Z.to_nat (16 - n)) ++ firstn (Z.to_nat (n - 8)) (ba_bits x)).
  { rewrite E2, E1, byte_bits_value by lia. rewrite Lf. change (repeat false (Z.to_nat (8 - 8))) with (@nil bool). rewrite app_nil_r, firstn_firstn.
    replace (Nat.min (Z.to_nat (n - 8)) 8) with (Z.to_nat (n - 8)) by lia. rewrite app_assoc. f_equal.
    rewrite firstn_app. replace (Z.to_nat 8 - length (skipn 8 (ba_bits x) ++ repeat false (Z.to_nat (16 - n))))%nat with 0%nat.
    2: { rewrite app_length, repeat_length. unfold zlen in Ls. lia. }
    cbn [firstn]. rewrite app_nil_r. apply firstn_all2. rewrite app_length, repeat_length. unfold zlen in Ls. lia. }
  destruct (ba_start x1 + 8 + 8 <=? 8 * zlen (ba_buf x1)); eexists _, _; (split; [reflexivity|]); auto.
Qed.
