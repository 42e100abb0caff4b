(** Facts about position lists of which the last range is open. *)
From Verif Require Import Base BaseProofs FieldFacts Range RangeSpec RangeFacts RangeArith IoBuffer IoSpec IoOutput BufferModel BufferSpec BufferPlace.
From Coq Require Import ZArith List Bool Lia ZifyBool Permutation.
Import ListNotations.
Open Scope Z_scope.

Lemma pairwise_snoc {A} (R : A -> A -> Prop) l x : ForallOrdPairs R l -> Forall (fun y => R y x) l -> ForallOrdPairs R (l ++ [x]).
Proof.
  induction 1 as [|a l H1 H2 IH]; intros F; cbn [app]; [constructor; constructor|]. inversion F; subst. constructor; [|auto].
  apply Forall_app. split; [exact H1|]. constructor; [assumption|constructor].
Qed.
Lemma pairwise_prefix {A} (R : A -> A -> Prop) l r : ForallOrdPairs R (l ++ r) -> ForallOrdPairs R l.
Proof.
  induction l as [|a l IH]; intros H; [constructor|]. cbn [app] in H. inversion H as [|? ? H1 H2]; subst. constructor; [|auto].
  apply Forall_app in H1. apply H1.
Qed.
Lemma open_last l a : list_is_open (l ++ [mkR a None]) = true.
Proof. unfold list_is_open. rewrite existsb_app. cbn [existsb is_open r_stop]. apply orb_true_iff. right. reflexivity. Qed.

Lemma open_last_length l a : list_byte_length (l ++ [mkR a None]) = None.
Proof. unfold list_byte_length. generalize 0. induction l as [|r l IH]; intros c; cbn [app sum_length]; [reflexivity|]. destruct (byte_length r); auto. Qed.

(** The ranges [l] end before [a]. *)
Definition all_end_before (a : Z) (l : list srange) : Prop := Forall (fun r => exists e, r_stop r = Some e /\ e <= a) l.

Section OpenLast.
Variable l : list srange.
Variables a x : Z.
Hypothesis Hc : Forall closed (l ++ [mkR a (Some x)]).
Hypothesis He : all_end_before a l.

Lemma front_closed : Forall closed l.
Proof. apply Forall_app in Hc. apply Hc. Qed.
Lemma last_bounds : 0 <= a /\ a <= x.
Proof. apply Forall_app in Hc. destruct Hc as (_ & F). inversion F as [|? ? (H & _) _]; subst. exact H. Qed.

Lemma close_last : list_to_closed (l ++ [mkR a None]) x = Ok (l ++ [mkR a (Some x)]).
Proof.
  pose proof last_bounds as (B1 & B2). pose proof front_closed as F. unfold list_to_closed. revert He F. generalize l as m.
  induction m as [|r m IH]; intros E F; cbn [app rmap_list].
  - unfold to_closed, mk_srange. cbn [r_start r_stop]. replace (a <=? x) with true by lia. replace (0 <=? a) with true by lia.
    replace (0 <=? x) with true by lia. reflexivity.
  - inversion E as [|? ? (e & E1 & E2) E']; subst. inversion F as [|? ? ((F1 & F2) & _) F']; subst. rewrite E1 in F2.
    assert (to_closed r x = Ok r) as ->.
    { unfold to_closed, mk_srange. rewrite E1. replace (r_start r <=? x) with true by lia. replace (0 <=? r_start r) with true by lia.
      replace (0 <=? e) with true by lia. replace (r_start r <=? e) with true by lia. destruct r as [s t]. cbn [r_start r_stop] in *. now subst t. }
    cbn [rbind]. now rewrite IH.
Qed.

Lemma close_packed_last n : x = a + n - zlen (all_positions l) -> close_packed n 0 (l ++ [mkR a None]) = Ok (l ++ [mkR a (Some x)]).
Proof.
  pose proof last_bounds as (B1 & B2). pose proof front_closed as F. intros Ex.
  assert (G : forall m c, Forall closed m -> all_end_before a m -> c + zlen (all_positions m) = n - (x - a) -> close_packed n c (m ++ [mkR a None]) = Ok (m ++ [mkR a (Some x)])).
  { induction m as [|r m IH]; intros c Fm E S; cbn [app close_packed].
    - cbn in S. unfold to_closed, mk_srange. cbn [r_start r_stop]. replace (a + n - c) with x by lia. replace (a <=? x) with true by lia.
      replace (0 <=? a) with true by lia. replace (0 <=? x) with true by lia. reflexivity.
    - inversion E as [|? ? (e & E1 & E2) E']; subst. inversion Fm as [|? ? Fr F']; subst. pose proof Fr as ((F1 & F2) & _). rewrite E1 in F2.
      rewrite all_positions_cons, zlen_app, zlen_positions in S by assumption. unfold rlen in S. rewrite E1 in S.
      assert (0 <= zlen (all_positions m)) by (unfold zlen; lia).
      unfold to_closed, mk_srange. rewrite E1. replace (r_start r <=? r_start r + n - c) with true by lia. replace (0 <=? r_start r) with true by lia.
      replace (0 <=? e) with true by lia. replace (r_start r <=? e) with true by lia. cbn [passert rbind]. unfold byte_length. cbn [r_stop r_start].
      rewrite IH; [|assumption|assumption|lia]. cbn [rbind]. destruct r as [s t]. cbn [r_start r_stop] in *. now subst t. }
  apply G; [exact F|exact He|lia].
Qed.

Hypothesis Hd : pairwise_disjoint (l ++ [mkR a (Some x)]).
Hypothesis Hn : l = [] \/ Forall nonempty_range (l ++ [mkR a (Some x)]).

Lemma open_last_nonempty : l <> [] -> Forall nonempty_range (l ++ [mkR a None]) /\ pairwise_disjoint (l ++ [mkR a None]) /\ a < x.
Proof.
  intros N. destruct Hn as [E|Hn']; [contradiction|]. apply Forall_app in Hn'. destruct Hn' as (N1 & N2).
  inversion N2 as [|? ? (N3 & N4) _]; subst. cbn [r_start r_stop] in *.
  assert (N5 : nonempty_range (mkR a None)) by (split; [exact N3|exact I]). split; [|split; [|exact N4]].
  - apply Forall_app. split; [exact N1|]. constructor; [exact N5|constructor].
  - apply pairwise_snoc; [exact (pairwise_prefix _ _ _ Hd)|]. apply Forall_forall. intros r Hr.
    apply before_disjoint; [exact (proj1 (Forall_forall _ _) N1 r Hr)|exact N5|].
    destruct (proj1 (Forall_forall _ _) He r Hr) as (e & E1 & E2). unfold RangeFacts.before, istop. rewrite E1. exact E2.
Qed.
Lemma nil_or : l = [] \/ l <> [].
Proof. generalize l. intros [|r m]; [now left|right; discriminate]. Qed.
Lemma open_last_apart : has_overlaps (l ++ [mkR a None]) = Ok false.
Proof.
  destruct nil_or as [E|N]; [rewrite E; reflexivity|]. destruct (open_last_nonempty N) as (H1 & H2 & _).
  destruct (has_overlaps_spec _ H1) as (b & B1 & B2). rewrite B1. f_equal. now apply B2.
Qed.

(** The open range is the last one in the order of positions as well. *)
Lemma open_last_sorted : exists s, py_sorted (l ++ [mkR a None]) = Ok (s ++ [mkR a None]) /\ Permutation l s.
Proof.
  destruct nil_or as [E|N]; [exists []; rewrite E; split; [reflexivity|constructor]|].
  destruct (open_last_nonempty N) as (H1 & H2 & H3). destruct (py_sorted_spec _ H1) as (s & S1 & S2 & S3).
  pose proof (sorted_disjoint _ s H1 H2 S2 S3) as O. rewrite S1.
  assert (Hin : In (mkR a None) s) by (eapply Permutation_in; [exact S2|]; apply in_or_app; right; now left).
  apply in_split in Hin. destruct Hin as (s1 & s2 & ->).
  assert (Z : s2 = []).
  { assert (O' : in_order (mkR a None :: s2)) by (clear - O; induction s1 as [|y s1 IH]; [exact O|]; cbn [app in_order] in O; tauto).
    cbn [in_order] in O'. destruct s2 as [|y s2]; [reflexivity|exfalso]. destruct O' as (O1 & _). inversion O1 as [|? ? B _]; subst.
    unfold RangeFacts.before, istop in B. cbn [r_stop] in B. rewrite maxsize_value in B.
    assert (nonempty_range y) as (Y1 & _); [|lia]. apply (proj1 (Forall_forall _ _) H1). eapply Permutation_in; [apply Permutation_sym; exact S2|].
    apply in_or_app. right. right. now left. }
  subst s2. exists s1. split; [reflexivity|].
  pose proof (Permutation_app_inv l [] s1 [] (mkR a None) S2) as P. now rewrite !app_nil_r in P.
Qed.
Lemma permuted_positions m s : Permutation m s -> zlen (all_positions m) = zlen (all_positions s).
Proof.
  intros P. unfold zlen, all_positions. f_equal. apply Permutation_length. now apply Permutation_flat_map.
Qed.
Lemma last_positions : zlen (all_positions (l ++ [mkR a (Some x)])) = zlen (all_positions l) + (x - a).
Proof.
  pose proof last_bounds as (B1 & B2). unfold all_positions. rewrite flat_map_app, zlen_app. f_equal. cbn [flat_map]. rewrite app_nil_r.
  rewrite zlen_positions; [reflexivity|]. apply Forall_app in Hc. destruct Hc as (_ & F). now inversion F.
Qed.
Lemma last_offset : exists s, py_sorted (l ++ [mkR a None]) = Ok s /\ byte_offset s (zlen (all_positions (l ++ [mkR a (Some x)]))) = Ok x.
Proof.
  destruct open_last_sorted as (s & S1 & S2). exists (s ++ [mkR a None]). split; [exact S1|]. rewrite last_positions.
  pose proof last_bounds as (B1 & B2).
  destruct nil_or as [E|N].
  - rewrite E in S2. apply Permutation_nil in S2. subst s. rewrite E. cbn. unfold byte_length. cbn. f_equal. lia.
  - destruct (open_last_nonempty N) as (_ & _ & H).
    rewrite (permuted_positions _ _ S2). rewrite (byte_offset_open s (mkR a None)); [cbn [r_start]; f_equal; lia| |reflexivity|lia].
    eapply Permutation_Forall; [exact S2|exact front_closed].
Qed.
Lemma last_largest m : largest_stop (l ++ [mkR a (Some x)]) m -> m = x.
Proof.
  pose proof last_bounds as (B1 & B2). intros (H1 & H2 & H3). assert (Hx : x <= m) by (eapply H1; [apply in_or_app; right; now left|reflexivity]).
  destruct H2 as [H2|(r & Hr & Hs)]; [lia|]. apply in_app_or in Hr. destruct Hr as [Hr|[<-|[]]].
  - destruct (proj1 (Forall_forall _ _) He r Hr) as (e' & E1 & E2). rewrite E1 in Hs. injection Hs as ->. lia.
  - cbn in Hs. congruence.
Qed.
End OpenLast.
