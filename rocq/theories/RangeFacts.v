(** Proofs about buffer/range.py and buffer/reference/range.py. *)
From Verif Require Import Base BaseProofs Range RangeRef RangeSpec.
From Coq Require Import ZArith List Bool Lia ZifyBool ZifyNat Permutation.
Import ListNotations.
Open Scope Z_scope.
Ltac Zify.zify_post_hook ::= Z.div_mod_to_equations.

Lemma maxsize_pos : 0 < maxsize_bits. Proof. reflexivity. Qed.
Lemma maxsize_value : maxsize_bits = 8 * (2 ^ 63 - 1). Proof. reflexivity. Qed.
Opaque maxsize_bits.

Definition istop (r : srange) : Z := match r_stop r with Some e => e | None => maxsize_bits end.
Lemma imag_stop_ok r : nonempty_range r -> imag_stop r = Ok (istop r).
Proof.
  intros (H1 & H2). rewrite <- maxsize_value in H1. unfold imag_stop, to_closed, mk_srange, istop.
  replace (r_start r <=? maxsize_bits) with true by lia. cbn [passert rbind].
  replace (0 <=? r_start r) with true by lia. cbn [passert rbind].
  destruct (r_stop r) as [e|]; cbn [rbind r_stop].
  - replace (0 <=? e) with true by lia. replace (r_start r <=? e) with true by lia. reflexivity.
  - replace (0 <=? maxsize_bits) with true by lia. replace (r_start r <=? maxsize_bits) with true by lia. reflexivity.
Qed.
Lemma istop_gt r : nonempty_range r -> r_start r < istop r.
Proof. intros (H1 & H2). rewrite <- maxsize_value in H1. unfold istop. destruct (r_stop r); lia. Qed.

Lemma range_lt_ok a b : nonempty_range a -> nonempty_range b ->
  range_lt a b = Ok ((r_start a <? r_start b) && (istop a <? istop b)).
Proof.
  intros Ha Hb. unfold range_lt. destruct (r_start a <? r_start b); [|reflexivity].
  rewrite !imag_stop_ok by auto. reflexivity.
Qed.

Lemma overlaps_ok a b : nonempty_range a -> nonempty_range b ->
  exists o, overlaps a b = Ok o /\ (o = true <-> intersect a b).
Proof.
  intros Ha Hb. unfold overlaps.
  destruct (r_start a <=? r_start b) eqn:E; rewrite imag_stop_ok by auto; cbn [rbind]; eexists; (split; [reflexivity|]).
  - split.
    + intros H. exists (r_start b). destruct Ha as (A1 & A2), Hb as (B1 & B2). rewrite <- maxsize_value in A1, B1. unfold in_range, istop in *.
      destruct (r_stop a), (r_stop b); lia.
    + intros (p & P1 & P2). destruct Ha as (A1 & A2), Hb as (B1 & B2). rewrite <- maxsize_value in A1, B1. unfold in_range, istop in *.
      destruct (r_stop a), (r_stop b); lia.
  - split.
    + intros H. exists (r_start a). destruct Ha as (A1 & A2), Hb as (B1 & B2). rewrite <- maxsize_value in A1, B1. unfold in_range, istop in *.
      destruct (r_stop a), (r_stop b); lia.
    + intros (p & P1 & P2). destruct Ha as (A1 & A2), Hb as (B1 & B2). rewrite <- maxsize_value in A1, B1. unfold in_range, istop in *.
      destruct (r_stop a), (r_stop b); lia.
Qed.

Lemma intersect_sym a b : intersect a b -> intersect b a.
Proof. intros (p & H1 & H2). exists p. auto. Qed.

(** Disjoint and not inverted: one ends before the other starts. *)
Definition before (a b : srange) : Prop := istop a <= r_start b.
Lemma before_disjoint a b : nonempty_range a -> nonempty_range b -> before a b -> ~ intersect a b.
Proof.
  intros (A1 & A2) (B1 & B2) H (p & P1 & P2). rewrite <- maxsize_value in A1, B1. unfold before, istop, in_range in *.
  destruct (r_stop a), (r_stop b); lia.
Qed.
Lemma disjoint_before a b : nonempty_range a -> nonempty_range b ->
  ~ intersect a b -> range_lt b a = Ok false -> before a b.
Proof.
  intros Ha Hb H L. rewrite range_lt_ok in L by auto. injection L as L.
  destruct (Z_le_gt_dec (istop a) (r_start b)) as [G|G]; [exact G|]. exfalso. apply H.
  exists (Z.max (r_start a) (r_start b)). pose proof (istop_gt a Ha). pose proof (istop_gt b Hb).
  destruct Ha as (A1 & A2), Hb as (B1 & B2). rewrite <- maxsize_value in A1, B1. unfold in_range, istop in *.
  destruct (r_stop a), (r_stop b); lia.
Qed.

Lemma before_trans a b c : nonempty_range b -> before a b -> before b c -> before a c.
Proof. intros H H1 H2. pose proof (istop_gt b H). unfold before in *. lia. Qed.

Lemma adjacent_spec l : Forall nonempty_range l -> no_inversion l ->
  exists b, adjacent_overlap l = Ok b /\ (b = false <-> pairwise_disjoint l).
Proof.
  intros Hl Hn.
  assert (G : exists b, adjacent_overlap l = Ok b
     /\ (b = false -> pairwise_disjoint l /\ match l with [] => True | x :: r => Forall (before x) r end)
     /\ (b = true -> ~ pairwise_disjoint l)).
  { induction l as [|x l IH]; cbn [adjacent_overlap].
    - exists false. split; [auto|]. split; [intros _; split; [constructor|exact I]|discriminate].
    - inversion Hl as [|? ? Hx Hl']; subst. destruct l as [|y r].
      + exists false. split; [auto|]. split; [intros _; split; repeat constructor|discriminate].
      + destruct Hn as (N1 & N2). inversion Hl' as [|? ? Hy Hr]; subst.
        destruct (overlaps_ok x y Hx Hy) as (o & O1 & O2). rewrite O1. cbn [rbind]. destruct o.
        * exists true. split; [auto|]. split; [discriminate|]. intros _ D. inversion D as [|? ? D1 D2]; subst.
          inversion D1; subst. apply H1. now apply O2.
        * destruct (IH Hl' N2) as (b & B1 & B2 & B3). exists b. split; [exact B1|].
          assert (NI : ~ intersect x y) by (intros HI; apply O2 in HI; discriminate).
          pose proof (disjoint_before x y Hx Hy NI N1) as Bxy. split.
          -- intros ->. destruct (B2 eq_refl) as (D & F).
             assert (Fx : Forall (before x) (y :: r)).
             { constructor; [exact Bxy|]. eapply Forall_impl; [|exact F]. intros c Hc. eapply before_trans; eauto. }
             split; [|exact Fx]. constructor; [|exact D].
             rewrite Forall_forall in *. intros c Hc. apply before_disjoint; auto.
          -- intros ->. intros D. inversion D; subst. now apply B3. }
  destruct G as (b & B1 & B2 & B3). exists b. split; [exact B1|]. destruct b.
  - split; [discriminate|]. intros D. exfalso. now apply B3.
  - split; auto. intros _. now apply B2.
Qed.

Lemma disjoint_perm l l' : Permutation l l' -> pairwise_disjoint l -> pairwise_disjoint l'.
Proof.
  unfold pairwise_disjoint. induction 1; intros D; auto.
  - inversion D; subst. constructor; auto. eapply Permutation_Forall; eauto.
  - inversion D as [|? ? D1 D2]; subst. inversion D2 as [|? ? D3 D4]; subst. inversion D1 as [|? ? D5 D6]; subst.
    constructor; [constructor; auto; intros H; apply D5; now apply intersect_sym|]. constructor; auto.
Qed.

(** ** The sort *)
Lemma no_inversion_app l a b r : no_inversion (l ++ a :: b :: r) <->
  no_inversion (l ++ [a]) /\ range_lt b a = Ok false /\ no_inversion (b :: r).
Proof.
  induction l as [|x l IH]; cbn [app].
  - cbn. tauto.
  - destruct l as [|y l']; cbn [app] in *.
    + cbn [no_inversion]. tauto.
    + cbn [no_inversion] in *. tauto.
Qed.
Lemma no_inversion_insert l1 p l2 : no_inversion (l1 ++ l2) ->
  (forall a, l1 <> [] -> last l1 a = last l1 a -> range_lt p (last l1 a) = Ok false) ->
  (forall b r, l2 = b :: r -> range_lt b p = Ok false) ->
  no_inversion (l1 ++ p :: l2).
Proof.
  intros N H1 H2. destruct l2 as [|b r].
  - destruct l1 as [|x l1'] using rev_ind; [exact I|]. clear IHl1'. rewrite <- app_assoc. cbn [app].
    apply no_inversion_app. rewrite app_nil_r in N. split; [exact N|].
    specialize (H1 x). rewrite last_last in H1. split; [apply H1; [destruct l1'; discriminate|auto]|exact I].
  - specialize (H2 b r eq_refl). destruct l1 as [|x l1'] using rev_ind.
    + cbn [app] in *. cbn [no_inversion]. auto.
    + clear IHl1'. rewrite <- app_assoc in *. cbn [app] in *. apply no_inversion_app in N. destruct N as (N1 & N2 & N3).
      apply no_inversion_app. split; [exact N1|]. specialize (H1 x). rewrite last_last in H1.
      split; [apply H1; [destruct l1'; discriminate|auto]|]. cbn [no_inversion]. auto.
Qed.

Lemma bisect_spec fuel : forall l pivot lo hi, Forall nonempty_range l -> nonempty_range pivot ->
  (lo <= hi <= length l)%nat -> (hi - lo <= fuel)%nat ->
  (lo = 0 \/ exists x, nth_error l (lo - 1) = Some x /\ range_lt pivot x = Ok false)%nat ->
  (hi = length l \/ exists x, nth_error l hi = Some x /\ range_lt pivot x = Ok true)%nat ->
  exists k, bisect fuel l pivot lo hi = Ok k /\ (k <= length l)%nat
    /\ (k = 0 \/ exists x, nth_error l (k - 1) = Some x /\ range_lt pivot x = Ok false)%nat
    /\ (k = length l \/ exists x, nth_error l k = Some x /\ range_lt pivot x = Ok true)%nat.
Proof.
  induction fuel as [|f IH]; intros l pivot lo hi Hl Hp Hb Hf L R; cbn [bisect].
  - assert (lo = hi) by lia. subst hi. exists lo. split; [auto|]. split; [lia|]. auto.
  - destruct (lo <? hi)%nat eqn:E.
    2:{ assert (lo = hi) by lia. subst hi. exists lo. split; [auto|]. split; [lia|]. auto. }
    assert (Hdiv : (0 <= (hi - lo) / 2 < hi - lo)%nat).
    { assert ((hi - lo) / 2 < hi - lo)%nat by (apply Nat.div_lt; lia). lia. }
    set (p := (lo + (hi - lo) / 2)%nat) in *.
    destruct (nth_error l p) as [x|] eqn:Nx.
    2:{ apply nth_error_None in Nx. unfold p in Nx. lia. }
    assert (Hx : nonempty_range x) by (rewrite Forall_forall in Hl; apply Hl; eapply nth_error_In; eauto).
    pose proof (range_lt_ok pivot x Hp Hx) as Lt. rewrite Lt. cbn [rbind].
    destruct ((r_start pivot <? r_start x) && (istop pivot <? istop x)) eqn:C.
    + apply IH; auto; try (unfold p; lia). right. exists x. auto.
    + apply IH; auto; try (unfold p; lia). right. exists x. cbn [Nat.sub]. rewrite Nat.sub_0_r. auto.
Qed.

Lemma range_lt_asym a b : nonempty_range a -> nonempty_range b -> range_lt a b = Ok true -> range_lt b a = Ok false.
Proof. intros Ha Hb. rewrite !range_lt_ok by auto. intros H. injection H as H. f_equal. lia. Qed.

Lemma binarysort_spec rest : forall s, Forall nonempty_range s -> Forall nonempty_range rest -> no_inversion s ->
  exists s', binarysort s rest = Ok s' /\ Permutation (s ++ rest) s' /\ no_inversion s'.
Proof.
  induction rest as [|p rest IH]; intros s Hs Hr N; cbn [binarysort].
  - exists s. rewrite app_nil_r. auto.
  - inversion Hr as [|? ? Hp Hr']; subst.
    destruct (bisect_spec (length s) s p 0 (length s)) as (k & K1 & K2 & K3 & K4); auto; try lia.
    rewrite K1. cbn [rbind].
    set (s1 := firstn k s ++ p :: skipn k s).
    assert (P1 : Permutation (p :: s) s1).
    { unfold s1. rewrite <- (firstn_skipn k s) at 1. apply Permutation_middle. }
    assert (N1 : no_inversion s1).
    { apply no_inversion_insert.
      - now rewrite firstn_skipn.
      - intros a Hne _. destruct K3 as [->|(x & X1 & X2)]; [now destruct Hne|].
        assert (El : last (firstn k s) a = x).
        { destruct k as [|k]; [now destruct Hne|]. cbn [Nat.sub] in X1. rewrite Nat.sub_0_r in X1.
          destruct (nth_error_split s k X1) as (l1 & l2 & -> & <-).
          replace (l1 ++ x :: l2) with ((l1 ++ [x]) ++ l2) by (now rewrite <- app_assoc).
          replace (S (length l1)) with (length (l1 ++ [x]) + 0)%nat by (rewrite app_length; cbn; lia).
          rewrite firstn_app_2. cbn [firstn]. rewrite app_nil_r. apply last_last. }
        now rewrite El.
      - intros b r Eb. destruct K4 as [->|(x & X1 & X2)]; [rewrite skipn_all in Eb; discriminate|].
        destruct (nth_error_split s k X1) as (l1 & l2 & Es & El). subst k. rewrite Es in Eb.
        rewrite skipn_app, skipn_all, Nat.sub_diag in Eb. cbn [app skipn] in Eb. injection Eb as -> ->.
        apply range_lt_asym; auto. rewrite Forall_forall in Hs. apply Hs. rewrite Es. apply in_app_iff. right. now left. }
    assert (Hs1 : Forall nonempty_range s1) by (eapply Permutation_Forall; [exact P1|now constructor]).
    destruct (IH s1 Hs1 Hr' N1) as (s' & S1 & S2 & S3). exists s'. split; [auto|]. split; [|auto].
    eapply Permutation_trans; [|exact S2]. rewrite <- P1. cbn [app]. apply Permutation_sym, Permutation_middle.
Qed.

Lemma run_up_spec l : forall prev, Forall nonempty_range (prev :: l) ->
  exists a b, run_up prev l = Ok (a, b) /\ l = a ++ b /\ no_inversion (prev :: a).
Proof.
  induction l as [|x l IH]; intros prev H; cbn [run_up].
  - exists [], []. cbn. auto.
  - inversion H as [|? ? Hp H']; subst. inversion H' as [|? ? Hx Hl]; subst.
    pose proof (range_lt_ok x prev Hx Hp) as L. rewrite L. cbn [rbind].
    destruct ((r_start x <? r_start prev) && (istop x <? istop prev)) eqn:E.
    + exists [], (x :: l). cbn. auto.
    + destruct (IH x H') as (a & b & R1 & R2 & R3). rewrite R1. cbn [rbind fst snd].
      exists (x :: a), b. split; [auto|]. split; [cbn; now rewrite R2|]. cbn [no_inversion]. auto.
Qed.
Fixpoint descending (prev : srange) (l : list srange) : Prop :=
  match l with [] => True | x :: r => range_lt x prev = Ok true /\ descending x r end.
Lemma run_down_spec l : forall prev, Forall nonempty_range (prev :: l) ->
  exists a b, run_down prev l = Ok (a, b) /\ l = a ++ b /\ descending prev a.
Proof.
  induction l as [|x l IH]; intros prev H; cbn [run_down].
  - exists [], []. cbn. auto.
  - inversion H as [|? ? Hp H']; subst. inversion H' as [|? ? Hx Hl]; subst.
    pose proof (range_lt_ok x prev Hx Hp) as L. rewrite L. cbn [rbind].
    destruct ((r_start x <? r_start prev) && (istop x <? istop prev)) eqn:E.
    + destruct (IH x H') as (a & b & R1 & R2 & R3). rewrite R1. cbn [rbind fst snd].
      exists (x :: a), b. split; [auto|]. split; [cbn; now rewrite R2|]. cbn [descending]. auto.
    + exists [], (x :: l). cbn. auto.
Qed.
Lemma descending_rev l : forall prev, Forall nonempty_range (prev :: l) -> descending prev l ->
  no_inversion (rev (prev :: l)).
Proof.
  induction l as [|x l IH]; intros prev H D; [exact I|]. cbn [descending] in D. destruct D as (D1 & D2).
  inversion H as [|? ? Hp H']; subst. inversion H' as [|? ? Hx Hl]; subst.
  specialize (IH x H' D2). cbn [rev] in *. rewrite <- app_assoc. cbn [app].
  apply no_inversion_app. split; [exact IH|]. split; [|exact I]. now apply range_lt_asym.
Qed.

Lemma py_sorted_spec l : Forall nonempty_range l ->
  exists s, py_sorted l = Ok s /\ Permutation l s /\ no_inversion s.
Proof.
  intros H. destruct l as [|x [|y r]]; cbn [py_sorted].
  - exists []. repeat split; auto.
  - exists [x]. repeat split; auto.
  - inversion H as [|? ? Hx H']; subst. inversion H' as [|? ? Hy Hr]; subst.
    pose proof (range_lt_ok y x Hy Hx) as L. rewrite L. cbn [rbind].
    destruct ((r_start y <? r_start x) && (istop y <? istop x)) eqn:E.
    + destruct (run_down_spec r y H') as (a & b & R1 & R2 & R3). rewrite R1. cbn [rbind fst snd].
      assert (Ha : Forall nonempty_range (x :: y :: a)).
      { subst r. rewrite Forall_app in Hr. constructor; [auto|]. constructor; [auto|]. apply Hr. }
      assert (Hb : Forall nonempty_range b) by (subst r; rewrite Forall_app in Hr; apply Hr).
      assert (D : descending x (y :: a)) by (cbn [descending]; auto).
      destruct (binarysort_spec b (rev (x :: y :: a))) as (s & S1 & S2 & S3); auto.
      { now apply Forall_rev. } { now apply descending_rev. }
      exists s. split; [auto|]. split; [|auto]. eapply Permutation_trans; [|exact S2]. subst r.
      change (x :: y :: a ++ b) with ((x :: y :: a) ++ b). apply Permutation_app_tail. apply Permutation_rev.
    + destruct (run_up_spec r y H') as (a & b & R1 & R2 & R3). rewrite R1. cbn [rbind fst snd].
      assert (Ha : Forall nonempty_range (x :: y :: a)).
      { subst r. rewrite Forall_app in Hr. constructor; [auto|]. constructor; [auto|]. apply Hr. }
      assert (Hb : Forall nonempty_range b) by (subst r; rewrite Forall_app in Hr; apply Hr).
      destruct (binarysort_spec b (x :: y :: a)) as (s & S1 & S2 & S3); auto.
      { cbn [no_inversion]. auto. }
      exists s. split; [auto|]. split; [|auto]. subst r. exact S2.
Qed.

Lemma has_overlaps_spec l : Forall nonempty_range l ->
  exists b, has_overlaps l = Ok b /\ (b = false <-> pairwise_disjoint l).
Proof.
  intros H. destruct (py_sorted_spec l H) as (s & S1 & S2 & S3). unfold has_overlaps. rewrite S1. cbn [rbind].
  destruct (adjacent_spec s) as (b & B1 & B2); auto. { eapply Permutation_Forall; eauto. }
  exists b. split; [auto|]. rewrite B2. split; apply disjoint_perm; [now apply Permutation_sym|auto].
Qed.
Lemma any_sort_spec l s : Forall nonempty_range l -> Permutation l s -> no_inversion s ->
  exists b, adjacent_overlap s = Ok b /\ (b = false <-> pairwise_disjoint l).
Proof.
  intros H P N. destruct (adjacent_spec s) as (b & B1 & B2); auto. { eapply Permutation_Forall; eauto. }
  exists b. split; [auto|]. rewrite B2. split; apply disjoint_perm; [now apply Permutation_sym|auto].
Qed.

(** Sorting disjoint ranges gives the only order in which each ends before the next one starts. *)
Fixpoint in_order (l : list srange) : Prop :=
  match l with [] => True | x :: r => Forall (before x) r /\ in_order r end.
Lemma sorted_disjoint l s : Forall nonempty_range l -> pairwise_disjoint l -> Permutation l s -> no_inversion s -> in_order s.
Proof.
  intros H D P N. assert (Hs : Forall nonempty_range s) by (eapply Permutation_Forall; eauto).
  assert (Ds : pairwise_disjoint s) by (eapply disjoint_perm; eauto). clear l H D P.
  induction s as [|x s IH]; [exact I|]. inversion Hs; subst. inversion Ds as [|? ? D1 D2]; subst.
  assert (Ns : no_inversion s) by (destruct s; [exact I|apply N]). specialize (IH Ns ltac:(auto) D2).
  cbn [in_order]. split; [|exact IH]. destruct s as [|y s]; [constructor|].
  destruct N as (N1 & N2). inversion D1; subst.
  match goal with H : Forall nonempty_range (y :: s) |- _ => inversion H; subst end.
  assert (Bxy : before x y) by (apply disjoint_before; auto).
  constructor; [auto|]. destruct IH as (F & _). eapply Forall_impl; [|exact F].
  intros c Hc. eapply before_trans; eauto.
Qed.
