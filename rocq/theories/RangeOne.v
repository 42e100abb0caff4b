(** Facts about a single range. *)
From Verif Require Import Base BaseProofs Range RangeSpec RangeFacts.
From Coq Require Import ZArith List Bool Lia ZifyBool.
Import ListNotations.
Open Scope Z_scope.

Lemma closed_imag r : closed r -> r_start r < maxsize_bits -> imag_stop r = Ok (r_start r + rlen r).
Proof.
  intros ((H1 & H2) & H3) H4. unfold imag_stop, to_closed, mk_srange, rlen. destruct (r_stop r) as [e|]; [|congruence].
  replace (r_start r <=? maxsize_bits) with true by lia. cbn [passert rbind].
  replace (0 <=? r_start r) with true by lia. cbn [passert rbind].
  replace (0 <=? e) with true by lia. replace (r_start r <=? e) with true by lia. cbn [passert rbind r_stop]. f_equal. lia.
Qed.
Lemma closed_lt a b : closed a -> closed b -> r_start a < maxsize_bits -> r_start b < maxsize_bits ->
  exists x, range_lt a b = Ok x /\ (x = true <-> r_start a < r_start b /\ r_start a + rlen a < r_start b + rlen b).
Proof.
  intros A B La Lb. unfold range_lt. destruct (Z.ltb_spec (r_start a) (r_start b)).
  - rewrite !closed_imag by auto. cbn [rbind]. eexists. split; [reflexivity|]. lia.
  - exists false. split; [reflexivity|]. split; [discriminate|lia].
Qed.
Lemma range_eq_iff a b : range_eq a b = true <-> a = b.
Proof.
  destruct a as [s1 [e1|]], b as [s2 [e2|]]; unfold range_eq; cbn [r_start r_stop]; split; intros H; try (injection H; intros; subst); try discriminate; try lia;
    try (f_equal; [lia|f_equal; lia]); try (f_equal; lia).
Qed.
Lemma one_range :
  (forall start stop, let s := match start with Some x => x | None => 0 end in
     mk_srange start stop = if (0 <=? s) && match stop with Some e => s <=? e | None => true end
                            then Ok (mkR s stop) else Err AssertionError)
  /\ (forall r p, contains r p = true <-> in_range p r)
  /\ (forall r, range_ok r -> (is_open r = true <-> forall p, exists q, p < q /\ in_range q r))
  /\ (forall r n, range_ok r -> byte_length r = Some n -> 0 <= n /\ forall p, in_range p r <-> r_start r <= p < r_start r + n)
  /\ (forall a b, range_eq a b = true <-> a = b)
  /\ (forall a b, nonempty_range a -> nonempty_range b ->
       exists x, overlaps a b = Ok x /\ (x = true <-> intersect a b))
  /\ (forall a b, closed a -> closed b -> r_start a < 8 * (2 ^ 63 - 1) -> r_start b < 8 * (2 ^ 63 - 1) ->
       exists x, range_lt a b = Ok x /\ (x = true <-> r_start a < r_start b /\ r_start a + rlen a < r_start b + rlen b)).
Proof.
  split; [|split; [|split; [|split; [|split; [exact range_eq_iff|split; [exact overlaps_ok|rewrite <- maxsize_value; exact closed_lt]]]]]].
  - intros start stop s. unfold mk_srange. fold s. clearbody s. destruct (Z.leb_spec 0 s); cbn [passert rbind andb]; [|reflexivity].
    destruct stop as [e|]; [|reflexivity]. destruct (Z.leb_spec 0 e), (Z.leb_spec s e); cbn [passert rbind]; try reflexivity. lia.
  - intros r p. unfold contains, in_range. destruct (r_stop r); lia.
  - intros r [H1 H2]. unfold is_open, in_range. destruct (r_stop r) as [e|]; split; intros H; try discriminate; try reflexivity.
    + destruct (H e) as (q & Q & _ & X). lia.
    + intros p. exists (Z.max (p + 1) (r_start r)). lia.
  - intros r n [H1 H2]. unfold byte_length, in_range. destruct (r_stop r) as [e|]; [|discriminate]. intros E. assert (n = e - r_start r) by congruence. subst n. split; [lia|]. intros p. lia.
Qed.
Lemma nested_not_ordered a b : closed a -> closed b ->
  r_start a < r_start b -> r_start b + rlen b <= r_start a + rlen a -> r_start b < 8 * (2 ^ 63 - 1) ->
  range_lt a b = Ok false /\ range_lt b a = Ok false /\ range_eq a b = false.
Proof.
  intros A B L1 L2 L3. rewrite <- maxsize_value in L3. destruct (closed_lt a b A B ltac:(lia) L3) as (x & E1 & X1). destruct (closed_lt b a B A L3 ltac:(lia)) as (y & E2 & X2).
  split; [rewrite E1; destruct x; [|reflexivity]; lia|]. split; [rewrite E2; destruct y; [|reflexivity]; lia|].
  unfold range_eq. lia.
Qed.
