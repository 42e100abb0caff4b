(** Properties C34-C36: lists of ranges and bit addressing.  All positions are in bits. *)
From Verif Require Import Base BaseProofs Range RangeRef RangeSpec RangeFacts RangeArith RangeOne.
From Coq Require Import ZArith List Bool Lia ZifyBool Permutation.
Import ListNotations.
Open Scope Z_scope.

(** C34.  Non-empty ranges, open or closed, in any order. *)
Theorem C34_has_overlaps : forall l, Forall nonempty_range l ->
  exists b, has_overlaps l = Ok b /\ (b = false <-> pairwise_disjoint l).
Proof. exact has_overlaps_spec. Qed.
Print Assumptions C34_has_overlaps.

(** Nothing depends on the sorting algorithm: any permutation without adjacent inversions will do. *)
Theorem C34_any_sort : forall l s, Forall nonempty_range l -> Permutation l s -> no_inversion s ->
  exists b, adjacent_overlap s = Ok b /\ (b = false <-> pairwise_disjoint l).
Proof. exact any_sort_spec. Qed.
Print Assumptions C34_any_sort.

Theorem C34_sorted : forall l, Forall nonempty_range l ->
  exists s, py_sorted l = Ok s /\ Permutation l s /\ no_inversion s.
Proof. exact py_sorted_spec. Qed.
Print Assumptions C34_sorted.

Example C34_nonvacuous :
  Forall nonempty_range [mkR 80 None; mkR 0 (Some 3); mkR 16 (Some 80); mkR 3 (Some 16)]
  /\ has_overlaps [mkR 80 None; mkR 0 (Some 3); mkR 16 (Some 80); mkR 3 (Some 16)] = Ok false
  /\ Forall nonempty_range [mkR 79 None; mkR 0 (Some 3); mkR 16 (Some 80); mkR 3 (Some 16)]
  /\ has_overlaps [mkR 79 None; mkR 0 (Some 3); mkR 16 (Some 80); mkR 3 (Some 16)] = Ok true.
Proof.
  split; [repeat apply Forall_cons; try apply Forall_nil; (split; [split; reflexivity || discriminate|first [exact I|reflexivity]])|].
  split; [vm_compute; reflexivity|].
  split; [repeat apply Forall_cons; try apply Forall_nil; (split; [split; reflexivity || discriminate|first [exact I|reflexivity]])|].
  vm_compute. reflexivity.
Qed.

(** With an empty range in the list an overlap can be missed. *)
Theorem C34_empty_ranges_refuted : exists l, Forall range_ok l /\ ~ pairwise_disjoint l /\ has_overlaps l = Ok false.
Proof.
  exists [mkR 2 (Some 4); mkR 5 (Some 5); mkR 0 (Some 5)].
  split; [repeat apply Forall_cons; try apply Forall_nil; (split; cbn; lia)|]. split; [|vm_compute; reflexivity].
  intros H. inversion H as [|? ? H1 _]; subst. inversion H1 as [|? ? _ H2]; subst. inversion H2 as [|? ? H3 _]; subst.
  apply H3. exists 3. split; split; cbn; lia.
Qed.
Print Assumptions C34_empty_ranges_refuted.

(** C35 *)
Theorem C35_byte_length : forall l,
  (Forall closed l -> list_byte_length l = Some (zlen (all_positions l)))
  /\ (Exists (fun r => r_stop r = None) l -> list_byte_length l = None).
Proof. exact list_byte_length_spec. Qed.
Print Assumptions C35_byte_length.

Theorem C35_max_stop : forall l,
  (Forall closed l -> exists k, list_max_stop l = Some k /\ 0 <= k
     /\ (forall r e, In r l -> r_stop r = Some e -> e <= k)
     /\ (k = 0 \/ exists r, In r l /\ r_stop r = Some k))
  /\ (Exists (fun r => r_stop r = None) l -> list_max_stop l = None).
Proof. intros l. exact (max_stop_from_spec l 0). Qed.
Print Assumptions C35_max_stop.

(** [byte_offset n] is one more than the [n]-th position ([n] counts from one). *)
Theorem C35_byte_offset : forall l, Forall closed l -> forall n,
  (0 < n <= zlen (all_positions l) -> byte_offset l n = Ok (nth (Z.to_nat (n - 1)) (all_positions l) 0 + 1))
  /\ (Z.max 0 (zlen (all_positions l)) < n -> byte_offset l n = Err AssertionError).
Proof. exact byte_offset_spec. Qed.
Print Assumptions C35_byte_offset.

Theorem C35_byte_offset_zero : forall r l, range_ok r -> byte_offset (r :: l) 0 = Ok (r_start r).
Proof. exact byte_offset_first. Qed.
Print Assumptions C35_byte_offset_zero.

(** Beyond the closed ranges the offset is counted from the start of the first open one. *)
Theorem C35_byte_offset_open : forall l r, Forall closed l -> r_stop r = None -> forall n rest,
  zlen (all_positions l) < n -> byte_offset (l ++ r :: rest) n = Ok (r_start r + (n - zlen (all_positions l))).
Proof. exact byte_offset_open. Qed.
Print Assumptions C35_byte_offset_open.

Theorem C35_to_closed : forall l n, Forall range_ok l ->
  (Forall (fun r => r_start r <= n) l ->
     list_to_closed l n = Ok (map (fun r => mkR (r_start r) (Some (match r_stop r with Some e => e | None => n end))) l))
  /\ (Exists (fun r => n < r_start r) l -> list_to_closed l n = Err AssertionError).
Proof. intros l n H. split; [exact (to_closed_list_spec l n H)|exact (to_closed_list_fails l n H)]. Qed.
Print Assumptions C35_to_closed.

(** One range.  The constructor takes the bounds unless they are out of order or negative; a range
    contains the points from its start up to but not including its stop; two ranges are equal exactly
    when their bounds are; non-empty ranges overlap exactly when they have a point in common; one is
    smaller than the other when it both starts and stops earlier. *)
Theorem C35_one_range :
  (forall start stop, let s := match start with Some x => x | None => 0 end in
     mk_srange start stop = if (0 <=? s) && match stop with Some e => s <=? e | None => true end
                            then Ok (mkR s stop) else Err AssertionError)
  /\ (forall r p, contains r p = true <-> in_range p r)
  /\ (forall r, range_ok r -> (is_open r = true <-> forall p, exists q, p < q /\ in_range q r))
  /\ (forall r n, range_ok r -> byte_length r = Some n -> 0 <= n /\ forall p, in_range p r <-> r_start r <= p < r_start r + n)
  /\ (forall a b, range_eq a b = true <-> a = b)
  /\ (forall a b, nonempty_range a -> nonempty_range b ->
       exists x, overlaps a b = Ok x /\ (x = true <-> intersect a b))
  /\ (forall a b, closed a -> closed b -> r_start a < 8 * (2 ^ 63 - 1) -> r_start b < 8 * (2 ^ 63 - 1) ->
       exists x, range_lt a b = Ok x /\ (x = true <-> r_start a < r_start b /\ r_start a + rlen a < r_start b + rlen b)).
Proof. exact one_range. Qed.
Print Assumptions C35_one_range.

(** The order is not total: of a range and a range strictly inside of it neither is smaller, and
    they are not equal. *)
Theorem C35_order_not_total : forall a b, closed a -> closed b ->
  r_start a < r_start b -> r_start b + rlen b <= r_start a + rlen a -> r_start b < 8 * (2 ^ 63 - 1) ->
  range_lt a b = Ok false /\ range_lt b a = Ok false /\ range_eq a b = false.
Proof. exact nested_not_ordered. Qed.
Print Assumptions C35_order_not_total.

Example C35_one_range_nonvacuous :
  nonempty_range (mkR 3 (Some 9)) /\ closed (mkR 3 (Some 9)) /\ closed (mkR 1 (Some 10))
  /\ contains (mkR 3 (Some 9)) 8 = true /\ contains (mkR 3 (Some 9)) 9 = false
  /\ overlaps (mkR 9 None) (mkR 3 (Some 9)) = Ok false /\ overlaps (mkR 8 None) (mkR 3 (Some 9)) = Ok true
  /\ range_lt (mkR 1 (Some 5)) (mkR 3 (Some 9)) = Ok true
  /\ mk_srange (Some 5) (Some 4) = Err AssertionError
  /\ range_lt (mkR 1 (Some 10)) (mkR 3 (Some 9)) = Ok false /\ range_lt (mkR 3 (Some 9)) (mkR 1 (Some 10)) = Ok false.
Proof. repeat split; try (vm_compute; congruence); try discriminate; vm_compute; reflexivity. Qed.

(** The example of the documentation of byte_offset, in bytes. *)
Definition doc_ranges : list srange := [mkR 0 (Some 2); mkR 10 (Some 11); mkR 40 (Some 45)].
Example C35_nonvacuous :
  Forall closed doc_ranges /\ list_byte_length doc_ranges = Some 8 /\ list_max_stop doc_ranges = Some 45
  /\ byte_offset doc_ranges 5 = Ok 42 /\ byte_offset doc_ranges 0 = Ok 0 /\ byte_offset doc_ranges 9 = Err AssertionError
  /\ byte_offset (doc_ranges ++ [mkR 100 None]) 10 = Ok 102
  /\ list_to_closed (doc_ranges ++ [mkR 100 None]) 102 = Ok (doc_ranges ++ [mkR 100 (Some 102)])
  /\ list_to_closed (doc_ranges ++ [mkR 100 None]) 99 = Err AssertionError.
Proof.
  split; [repeat apply Forall_cons; try apply Forall_nil; (split; [split; cbn; lia|discriminate])|].
  repeat split; vm_compute; reflexivity.
Qed.

(** C36.  A single contiguous range. *)
Theorem C36_bit_of_range : forall s e k, 0 <= s <= e -> 0 <= k ->
  bit_num_ref [mkR s (Some e)] k =
  if k <=? e - s then Ok [mkR (s + k) (Some (s + k + 1))] else Err TypeError.
Proof. exact bit_num_single. Qed.
Print Assumptions C36_bit_of_range.

Theorem C36_slice_of_range : forall s e a b, 0 <= s <= e -> 0 <= a <= b ->
  bit_slice_ref [mkR s (Some e)] (Some a) (Some b) =
  if b <=? e - s then Ok [mkR (s + a) (Some (s + b))]
  else if a <=? e - s then Err ValueError else Err TypeError.
Proof. exact bit_slice_single. Qed.
Print Assumptions C36_slice_of_range.

Theorem C36_slice_of_open_range : forall s a b, 0 <= s -> 0 <= a <= b ->
  bit_slice_ref [mkR s None] (Some a) (Some b) = Ok [mkR (s + a) (Some (s + b))].
Proof. exact bit_slice_open. Qed.
Print Assumptions C36_slice_of_open_range.

(** Any list of closed ranges: a slice, or bit, that lies strictly inside one of them addresses the
    same positions as slicing the list of all positions. *)
Theorem C36_slice_inside : forall l1 r l2 a b, Forall closed l1 -> closed r ->
  zlen (all_positions l1) < a \/ (a = 0 /\ l1 = []) -> a <= b -> b <= zlen (all_positions l1) + rlen r ->
  exists l', bit_slice_ref (l1 ++ r :: l2) (Some a) (Some b) = Ok l'
    /\ all_positions l' = pslice (all_positions (l1 ++ r :: l2)) a b.
Proof. exact bit_slice_inside_positions. Qed.
Print Assumptions C36_slice_inside.

Theorem C36_bit_inside : forall l1 r l2 k, Forall closed l1 -> closed r ->
  zlen (all_positions l1) < k \/ (k = 0 /\ l1 = []) -> k < zlen (all_positions l1) + rlen r ->
  exists l', bit_num_ref (l1 ++ r :: l2) k = Ok l'
    /\ all_positions l' = pslice (all_positions (l1 ++ r :: l2)) k (k + 1).
Proof. exact bit_num_inside_positions. Qed.
Print Assumptions C36_bit_inside.

(** A slice from strictly inside one range into the next addresses wrong positions in the second:
    they are shifted by the offset at which the slice starts in the first. *)
Theorem C36_slice_across : forall l1 r1 r2 l2 a b, Forall closed l1 -> closed r1 -> closed r2 ->
  let base := zlen (all_positions l1) in let off := a - base in let rest := b - base - rlen r1 in
  0 < off < rlen r1 -> 0 < rest -> off + rest <= rlen r2 ->
  exists l', bit_slice_ref (l1 ++ r1 :: r2 :: l2) (Some a) (Some b) = Ok l'
    /\ nth (Z.to_nat (rlen r1 - off)) (all_positions l') 0 = r_start r2 + off
    /\ nth (Z.to_nat (rlen r1 - off)) (pslice (all_positions (l1 ++ r1 :: r2 :: l2)) a b) 0 = r_start r2.
Proof. exact bit_slice_across_wrong. Qed.
Print Assumptions C36_slice_across.

(** The first bit of every range but the first is taken from behind the range before it. *)
Theorem C36_bit_at_boundary : forall l1 r1 r2 l2, Forall closed l1 -> closed r1 -> closed r2 ->
  0 < rlen r1 -> 0 < rlen r2 ->
  let k := zlen (all_positions l1) + rlen r1 in
  exists l', bit_num_ref (l1 ++ r1 :: r2 :: l2) k = Ok l' /\ all_positions l' = [r_start r1 + rlen r1]
    /\ nth (Z.to_nat k) (all_positions (l1 ++ r1 :: r2 :: l2)) 0 = r_start r2.
Proof. exact bit_num_boundary_wrong. Qed.
Print Assumptions C36_bit_at_boundary.

(** A slice that starts at a boundary. *)
Theorem C36_slice_at_boundary : forall l1 r1 r2 l2 a b, Forall closed l1 -> closed r1 -> closed r2 -> 0 < rlen r1 ->
  a = zlen (all_positions l1) + rlen r1 -> a < b -> rlen r1 + (b - a) <= rlen r2 ->
  bit_slice_ref (l1 ++ r1 :: r2 :: l2) (Some a) (Some b)
  = Ok [mkR (r_start r1 + rlen r1) (r_stop r1);
        mkR (r_start r2 + rlen r1) (Some (r_start r2 + rlen r1 + (b - a)))].
Proof. exact bit_slice_boundary. Qed.
Print Assumptions C36_slice_at_boundary.

(** Slices with an omitted bound always raise. *)
Theorem C36_omitted_bound : forall l a b, a = None \/ b = None -> l <> [] -> bit_slice_ref l a b = Err TypeError.
Proof. exact bit_slice_needs_bounds. Qed.
Print Assumptions C36_omitted_bound.

(** Bytes 0 and 4..7: bits 2:6, 10:13, 6:10, 8 and 8:12. *)
Definition two_ranges : list srange := [mkR 0 (Some 8); mkR 32 (Some 64)].
Example C36_nonvacuous :
  Forall closed two_ranges
  /\ bit_slice_ref two_ranges (Some 2) (Some 6) = Ok [mkR 2 (Some 6)]
  /\ bit_slice_ref two_ranges (Some 10) (Some 13) = Ok [mkR 34 (Some 37)]
  /\ bit_slice_ref two_ranges (Some 6) (Some 10) = Ok [mkR 6 (Some 8); mkR 38 (Some 40)]
  /\ bit_num_ref two_ranges 8 = Ok [mkR 8 (Some 9)]
  /\ bit_slice_ref two_ranges (Some 8) (Some 12) = Ok [mkR 8 (Some 8); mkR 40 (Some 44)].
Proof.
  split; [repeat apply Forall_cons; try apply Forall_nil; (split; [split; cbn; lia|discriminate])|].
  repeat split; vm_compute; reflexivity.
Qed.
