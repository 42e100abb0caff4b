(** Proofs about buffer/io_buffer.py, part 11: the methods of mutable sequences. *)
From Verif Require Import Base BaseProofs Range IoBuffer IoSpec IoProofs IoMutProofs IoInsert IoDelete IoFacts IoOutput IoViews IoIndex IoMixin IoMixinSpec IoMixinFacts PropertiesIndex.
From Coq Require Import ZArith List Bool Lia ZifyBool ZifyNat.
Import ListNotations.
Open Scope Z_scope.
Ltac Zify.zify_post_hook ::= Z.div_mod_to_equations.

Lemma del_eight x lo : ba_ok x -> 0 <= lo -> lo + 8 <= ba_stop x - ba_start x -> deletion_fits x (ba_start x + lo) (ba_start x + lo + 8) ->
  exists x', ba_delitem (KSlice (Some lo) (Some (lo + 8))) x = (Ok tt, x') /\ ba_ok x' /\ ba_start x' = ba_start x /\ ba_bits x' = splice (ba_bits x) lo (lo + 8) [].
Proof.
  intros K H0 H D. pose proof (delitem_slice x (Some lo) (Some (lo + 8)) K) as P. cbv zeta in P. unfold lo_of, hi_of in P. rewrite !py_clamp_id in P by lia.
  destruct P as [P _]; [lia|]. apply P. now rewrite Z.add_assoc.
Qed.

Lemma clamp_last n : py_clamp n (-8) = Z.max 0 (n - 8).
Proof. unfold py_clamp. cbn [Z.ltb Z.compare]. f_equal. lia. Qed.

(** ** pop *)
Lemma pop_inside x i : ba_ok x -> let n := zlen (ba_bits x) in let lo := py_clamp n i in lo + 8 <= n -> deletion_fits x (ba_start x + lo) (ba_start x + lo + 8) ->
  exists x', ba_pop i x = (Ok (bits_value (firstn 8 (skipn (Z.to_nat lo) (ba_bits x)))), x') /\ ba_ok x' /\ ba_start x' = ba_start x
    /\ ba_bits x' = firstn (Z.to_nat lo) (ba_bits x) ++ skipn (Z.to_nat (lo + 8)) (ba_bits x).
Proof.
  intros K n lo H D. subst n lo. rewrite ba_bits_len in * by exact K. destruct (ba_ok_elim _ K) as (B & Hs & Hl).
  set (n := ba_stop x - ba_start x) in *. set (lo := py_clamp n i) in *. pose proof (py_clamp_range n i ltac:(unfold n; lia)) as Hr. fold lo in Hr.
  unfold ba_pop, sbind, sget, slift. unfold ba_view at 1. rewrite get_inside by (try exact K; fold n lo; lia). fold n lo. fold (ba_view x). fold (ba_bits x).
  rewrite (del_index_inside x i K) by (fold n lo; lia). fold n lo.
  destruct (del_eight x lo K) as (x' & X & K' & S' & V); [lia|fold n; lia|exact D|]. rewrite X. exists x'. split; [reflexivity|]. split; [exact K'|]. split; [exact S'|]. exact V.
Qed.
Lemma pop_last x : ba_ok x -> let n := zlen (ba_bits x) in 8 <= n ->
  exists x', ba_pop (-8) x = (Ok (bits_value (skipn (Z.to_nat (n - 8)) (ba_bits x))), x') /\ ba_ok x' /\ ba_start x' = ba_start x
    /\ ba_bits x' = firstn (Z.to_nat (n - 8)) (ba_bits x).
Proof.
  intros K n H. assert (C : py_clamp n (-8) = n - 8) by (rewrite clamp_last; lia). pose proof (ba_bits_len x K) as L. fold n in L.
  destruct (pop_inside x (-8) K) as (x' & X & K' & S & V); fold n; rewrite ?C; [lia|right; right; lia|]. fold n in X, V. rewrite C in X, V.
  exists x'. rewrite X, V. replace (n - 8 + 8) with n by lia. split; [|split; [exact K'|split; [exact S|]]].
  - do 3 f_equal. apply firstn_all2. rewrite skipn_length. unfold n, zlen. lia.
  - rewrite skipn_all2 by (unfold n, zlen; lia). apply app_nil_r.
Qed.
Lemma pop_short x : ba_ok x -> let n := zlen (ba_bits x) in 0 < n < 8 ->
  exists x', ba_pop (-8) x = (Ok (bits_value (ba_bits x)), x') /\ ba_stop x' < ba_start x'.
Proof.
  intros K n H. subst n. rewrite ba_bits_len in * by exact K. destruct (ba_ok_elim _ K) as (B & Hs & Hl). set (n := ba_stop x - ba_start x) in *.
  assert (C : py_clamp n (-8) = 0) by (rewrite clamp_last; lia).
  unfold ba_pop, sbind, sget, slift. unfold ba_view at 1. rewrite get_inside by (try exact K; fold n; rewrite C; lia). fold n. rewrite C. fold (ba_view x). fold (ba_bits x).
  destruct (del_index_end x (-8) K) as (x' & X & S & T & _); [fold n; rewrite C; lia|]. rewrite X. exists x'. split; [|lia].
  change (skipn (Z.to_nat 0) (ba_bits x)) with (ba_bits x). unfold sret. do 3 f_equal. apply firstn_all2. pose proof (ba_bits_len x K). unfold zlen in *. lia.
Qed.
Lemma pop_empty x : ba_ok x -> ba_bits x = [] ->
  (ba_start x = 8 * zlen (ba_buf x) -> ba_pop (-8) x = (Err IndexError, x))
  /\ (ba_start x < 8 * zlen (ba_buf x) -> exists x', ba_pop (-8) x = (Ok 0, x') /\ ba_stop x' < ba_start x').
Proof.
  intros K E. pose proof (ba_bits_len x K) as L. rewrite E, zlen_nil in L. destruct (ba_ok_elim _ K) as (B & Hs & Hl).
  assert (C : py_clamp (ba_stop x - ba_start x) (-8) = ba_stop x - ba_start x) by (rewrite clamp_last; lia).
  destruct (get_end (BArr (ba_buf x)) (ba_start x) (ba_stop x) (-8) K C) as (_ & G1 & G2). unfold ba_pop, sbind, sget, slift. unfold ba_view at 1 2. split; intros H.
  - now rewrite (G2 (ba_buf x) eq_refl) by lia.
  - rewrite G1 by (cbn [blen]; lia). destruct (del_index_end x (-8) K) as (x' & X & S & T & _); [lia|]. rewrite X. exists x'. split; [reflexivity|lia].
Qed.
Lemma pop_broken x : ba_stop x < ba_start x -> ba_pop (-8) x = (Err ValueError, x).
Proof.
  intros H. unfold ba_pop, sbind, sget, slift. unfold ba_view at 1. cbn [view_get]. unfold view_index, translate_offset. cbn [Z.ltb Z.compare].
  rewrite Z.max_r by lia. unfold get_byte_bits, py_shl1. replace (Z.min 8 (ba_stop x - (0 + ba_start x)) <? 0) with true by lia. reflexivity.
Qed.

(** ** clear *)
Lemma pop_aligned x : ba_ok x -> ba_start x mod 8 = 0 -> ba_stop x = 8 * zlen (ba_buf x) -> ba_start x < ba_stop x ->
  exists v x', ba_pop (-8) x = (Ok v, x') /\ ba_ok x' /\ ba_start x' = ba_start x /\ ba_stop x' = ba_stop x - 8 /\ ba_stop x' = 8 * zlen (ba_buf x').
Proof.
  intros K A E H. destruct (ba_ok_elim _ K) as (B & Hs & Hl). set (n := ba_stop x - ba_start x) in *.
  assert (C : py_clamp n (-8) = n - 8) by (rewrite clamp_last; unfold n in *; lia).
  unfold ba_pop, sbind, sget, slift. unfold ba_view at 1. rewrite get_inside by (try exact K; fold n; rewrite C; lia).
  unfold ba_delitem, sbind. rewrite index_range by exact K. fold n. rewrite C. cbn [fst snd]. replace (ba_start x + (n - 8)) with (ba_stop x - 8) by (unfold n; lia).
  replace (ba_stop x - 8 + 8) with (ba_stop x) by lia.
  unfold del_range, sbind, slift, sget. replace (ba_stop x - 8 <=? ba_stop x) with true by lia. cbn [passert].
  replace (ba_stop x / 8 - cdiv8 (ba_stop x - 8)) with 1 by (unfold cdiv8; lia). cbn [Z.leb Z.compare Pos.compare Pos.compare_cont]. unfold ba_set_buf, ba_set_stop, sret. cbn [ba_buf ba_start ba_stop].
  change (8 * 1) with 8. rewrite Z.ltb_irrefl. eexists _, _. split; [reflexivity|]. cbn [ba_start ba_stop ba_buf].
  assert (Z1 : ba_stop x - 8 = 8 * zlen (firstn (Z.to_nat (cdiv8 (ba_stop x - 8))) (ba_buf x) ++ skipn (Z.to_nat (ba_stop x / 8)) (ba_buf x))).
  { rewrite zlen_app, zlen_firstn, zlen_skipn. unfold cdiv8. lia. }
  split; [|auto]. apply ba_ok_intro; cbn [ba_start ba_stop ba_buf]; [|unfold n in *; lia|lia].
  apply bytes_ok_app. split; [now apply bytes_ok_firstn|now apply bytes_ok_skipn].
Qed.
Lemma clear_aligned : forall k x, ba_ok x -> ba_start x mod 8 = 0 -> ba_stop x = 8 * zlen (ba_buf x) -> ba_stop x - ba_start x = 8 * Z.of_nat k ->
  exists x', (forall fuel, (k < fuel)%nat -> ba_clear fuel x = Some (Ok tt, x')) /\ ba_ok x' /\ ba_bits x' = [].
Proof.
  induction k as [|k IH]; intros x K A E N.
  - assert (Em : ba_bits x = []) by (apply zlen_0_nil; rewrite ba_bits_len by exact K; lia). exists x. split; [|auto].
    intros fuel Hf. destruct fuel as [|fuel]; [lia|]. cbn [ba_clear]. destruct (pop_empty x K Em) as [P _]. now rewrite P by lia.
  - destruct (pop_aligned x K A E) as (v & x1 & P & K1 & S1 & T1 & E1); [lia|]. destruct (IH x1 K1) as (x' & C & K' & Em); [congruence|exact E1|lia|].
    exists x'. split; [|auto]. intros fuel Hf. destruct fuel as [|fuel]; [lia|]. cbn [ba_clear]. rewrite P. apply C. lia.
Qed.
Lemma clear_broken x fuel : ba_stop x < ba_start x -> ba_clear (S fuel) x = Some (Err ValueError, x).
Proof. intros H. cbn [ba_clear]. now rewrite pop_broken by exact H. Qed.
Lemma clear_fraction : forall k x, ba_ok x -> zlen (ba_bits x) mod 8 <> 0 -> zlen (ba_bits x) / 8 = Z.of_nat k ->
  exists x', ba_stop x' < ba_start x' /\ forall fuel, (k + 1 < fuel)%nat -> ba_clear fuel x = Some (Err ValueError, x').
Proof.
  induction k as [|k IH]; intros x K N Q.
  - destruct (pop_short x K) as (x' & P & H); [lia|]. exists x'. split; [exact H|]. intros fuel Hf. destruct fuel as [|[|fuel]]; [lia|lia|].
    change (ba_clear (S (S fuel)) x) with (match ba_pop (-8) x with (Ok _, s') => ba_clear (S fuel) s' | (Err IndexError, s') => Some (Ok tt, s') | (Err e, s') => Some (Err e, s') end).
    rewrite P. now apply clear_broken.
  - destruct (pop_last x K) as (x1 & P & K1 & S1 & V1); [lia|].
    assert (L1 : zlen (ba_bits x1) = zlen (ba_bits x) - 8) by (rewrite V1, zlen_firstn; lia).
    destruct (IH x1 K1) as (x' & H & C); [lia|lia|]. exists x'. split; [exact H|]. intros fuel Hf. destruct fuel as [|fuel]; [lia|]. cbn [ba_clear]. rewrite P. apply C. lia.
Qed.

(** ** remove *)
Lemma is_view_ba x : is_view (ba_view x). Proof. exact Logic.I. Qed.
Lemma remove_spec x b p : ba_ok x -> first_at (elements (ba_view x)) b 0 p -> let n := zlen (ba_bits x) in
  (8 * p + 8 <= n -> deletion_fits x (ba_start x + 8 * p) (ba_start x + 8 * p + 8) ->
     exists x', ends (fun fuel => ba_remove fuel b x) (Ok tt, x') /\ ba_ok x' /\ ba_bits x' = firstn (Z.to_nat (8 * p)) (ba_bits x) ++ skipn (Z.to_nat (8 * p + 8)) (ba_bits x))
  /\ (n < 8 * p + 8 -> 8 <= n -> exists x', ends (fun fuel => ba_remove fuel b x) (Ok tt, x') /\ ba_ok x' /\ ba_bits x' = firstn (Z.to_nat (n - 8)) (ba_bits x)).
Proof.
  intros K F n. pose proof F as (F1 & F2 & _). subst n. rewrite ba_bits_len by exact K. set (n := ba_stop x - ba_start x).
  destruct (find_found (ba_view x) b 0 None p K (is_view_ba x) F Logic.I) as (m & M).
  pose proof (nth_in (ba_view x) K p b F1 F2) as Hp. pose proof (blen_cdiv (ba_view x)) as Bl. unfold ba_view in Bl at 2. cbn [blength] in Bl. fold n in Bl. unfold cdiv8 in Bl.
  assert (C : py_clamp n (8 * p) = 8 * p) by (apply py_clamp_id; lia). split.
  - intros H D. destruct (del_eight x (8 * p) K) as (x' & X & K' & S' & V); [lia|fold n; lia|exact D|]. exists x'. split; [|split; [exact K'|exact V]]. exists m. intros fuel Hf. unfold ba_remove. rewrite M by exact Hf.
    rewrite (del_index_inside x (8 * p) K) by (fold n; rewrite C; lia). fold n. rewrite C. now rewrite X.
  - intros H H8. destruct (del_index_end x (8 * p) K) as (x' & X & S & T & R); [fold n; rewrite C; lia|]. destruct (R H8) as [K' V]. exists x'. split; [|auto].
    exists m. intros fuel Hf. unfold ba_remove. rewrite M by exact Hf. now rewrite X.
Qed.
