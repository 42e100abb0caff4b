(** Length prefixes that do not fit the data. *)
From Verif Require Import Base IntCodec CodecSpec Stream StreamSpec MinMax Marshal MarshalInd MarshalRT SimFacts FieldSpec ArrayFacts.
From Coq Require Import ZArith List Bool String Lia.
Import ListNotations.
Open Scope Z_scope.

Lemma buffer_prefix h sz padding c s n data pos :
  read h sz c s = (Ok (VInt n), SBytesIO data pos) -> 0 <= pos <= zlen data -> - maxsize - 1 <= n <= maxsize ->
  let rest := skipn (Z.to_nat pos) data in
  let r := read h (MVarStr sz padding PNone) c s in
  (0 <= n <= zlen rest -> r = (Ok (VBytes (firstn (Z.to_nat n) rest)), SBytesIO data (pos + n)))
  /\ (zlen rest < n -> r = (Err InstructError, SBytesIO data (zlen data)))
  /\ (n < 0 -> r = (Ok (VBytes rest), SBytesIO data (zlen data))).
Proof.
  intros R P N rest r. assert (L : zlen rest = zlen data - pos).
  { subst rest. unfold zlen in *. rewrite skipn_length. lia. }
  assert (E : r = (x <- sread n ;; if zlen x <? n then sraise InstructError else sret (VBytes x)) (SBytesIO data pos)).
  { subst r. cbn [read]. unfold sbind at 1. rewrite R. reflexivity. }
  revert E. generalize r. clear r. intros r ->. unfold sread, sbind, sraise, sret. cbn [sread_].
  replace ((n <? - maxsize - 1) || (maxsize <? n)) with false.
  2: { symmetry. apply orb_false_iff. split; [apply Z.ltb_ge|apply Z.ltb_ge]; apply N. }
  fold rest. repeat split; intros H.
  - replace (n <? 0) with false by lia.
    assert (zlen (firstn (Z.to_nat n) rest) = n) as E by (unfold zlen in *; rewrite firstn_length; lia).
    rewrite E, Z.ltb_irrefl. reflexivity.
  - replace (n <? 0) with false by (pose proof (Nat2Z.is_nonneg (List.length rest)); unfold zlen in *; lia).
    assert (firstn (Z.to_nat n) rest = rest) as -> by (apply firstn_all2; unfold zlen in *; lia).
    replace (zlen rest <? n) with true by lia. do 2 f_equal. lia.
  - replace (n <? 0) with true by lia.
    replace (zlen rest <? n) with false by (unfold zlen in *; lia). do 2 f_equal. lia.
Qed.

Lemma prefix_in_selector h sz padding d c s n b m i :
  read h sz c s = (Ok (VInt n), SReadAhead b m i) -> n < 0 ->
  read h (MVarStr sz padding d) c s = (Err AssertionError, SReadAhead b m i).
Proof.
  intros R N. cbn [read]. unfold sbind at 1. rewrite R. unfold sbind, slift, sread. cbn [as_int sread_].
  now replace (n <? 0) with true by lia.
Qed.

Lemma loop_count A B n : forall (f : stM A B) s l s', stM_loop n f s = (Ok l, s') -> List.length l = n.
Proof.
  induction n as [|n IH]; intros f s l s' E; cbn [stM_loop] in E.
  - unfold sret in E. assert (l = []) by congruence. now subst.
  - apply sbind_inv in E as (x & s1 & E1 & E). apply sbind_inv in E as (r & s2 & E2 & E).
    unfold sret in E. assert (l = x :: r) by congruence. subst. cbn [List.length]. f_equal. eauto.
Qed.

Lemma array_count h sz el c s v s' : read h (MVarArr sz el) c s = (Ok v, s') ->
  exists n s1 l, read h sz c s = (Ok (VInt n), s1) /\ v = VList l /\ zlen l = Z.max 0 n.
Proof.
  cbn [read]. intros E. apply sbind_inv in E as (len & s1 & E1 & E). apply sbind_inv in E as (n & s2 & E2 & E).
  apply sbind_inv in E as (l & s3 & E3 & E). unfold slift in E2. destruct len; try discriminate. cbn [as_int] in E2.
  assert (z = n /\ s1 = s2) as [-> ->] by (split; congruence). unfold sret in E. exists n, s2, l.
  split; [exact E1|]. split; [congruence|]. apply loop_count in E3. unfold zlen. lia.
Qed.

Lemma sum_loop_bytes rd fuel : forall total s l s',
  sum_loop fuel rd total s = (Ok l, s') -> plain s -> plain s' /\ tell_of s' = tell_of s + total.
Proof.
  induction fuel as [|fuel IH]; intros total s l s' E P; cbn [sum_loop] in E; destruct (total >? 0) eqn:G.
  - discriminate.
  - unfold sbind, slift, passert, sret in E. destruct (total =? 0) eqn:Z0; [|discriminate].
    assert (s = s') by congruence. subst. split; auto. lia.
  - unfold sbind at 1, sget at 1 in E. apply sbind_inv in E as (v & s1 & E1 & E).
    unfold sbind at 1, sget in E. destruct s as [d p|]; [|discriminate P].
    destruct s1 as [d1 p1|]; cbn [stell] in E; [|discriminate].
    destruct (p1 - p =? 0); [discriminate|]. apply sbind_inv in E as (r & s2 & E2 & E).
    unfold sret in E. assert (s2 = s') by congruence. subst s2.
    destruct (IH _ _ _ _ E2 eq_refl) as [P' T]. split; auto. cbn [tell_of] in *. lia.
  - unfold sbind, slift, passert, sret in E. destruct (total =? 0) eqn:Z0; [|discriminate].
    assert (s = s') by congruence. subst. split; auto. lia.
Qed.

Lemma array_bytes h sz el c s n s1 :
  read h sz c s = (Ok (VInt n), s1) -> plain s1 ->
  (forall v s', read h (MSumArr sz el) c s = (Ok v, s') -> 0 <= n /\ plain s' /\ tell_of s' = tell_of s1 + n)
  /\ (n < 0 -> read h (MSumArr sz el) c s = (Err AssertionError, s1)).
Proof.
  intros R P.
  assert (Eq : read h (MSumArr sz el) c s = (l <- sum_loop (Z.to_nat n) (read h el c) n ;; sret (VList l)) s1).
  { cbn [read]. unfold sbind at 1. rewrite R. reflexivity. }
  rewrite Eq. clear Eq.
  assert (Neg : n < 0 -> sum_loop (Z.to_nat n) (read h el c) n s1 = (Err AssertionError, s1)).
  { intros N. replace (Z.to_nat n) with 0%nat by lia. cbn [sum_loop]. replace (n >? 0) with false by lia.
    unfold sbind, slift, passert. now replace (n =? 0) with false by lia. }
  split.
  - intros v s' E.
    apply sbind_inv in E as (l & s3 & E3 & E). unfold sret in E. assert (s3 = s') by congruence. subst s3.
    split; [|eapply sum_loop_bytes; eauto].
    destruct (Z.lt_ge_cases n 0) as [N|]; auto. rewrite (Neg N) in E3. discriminate.
  - intros N. unfold sbind. now rewrite (Neg N).
Qed.

Lemma map_not_fixed tbl m mm : min_max m = Ok mm -> mm_is_fixed mm = false -> mk_map tbl m = Err AssertionError.
Proof. intros E F. unfold mk_map, rbind. rewrite E. unfold passert. now rewrite F. Qed.
