(** C115: what bit views and arrays inherit from [collections.abc.Sequence] and [MutableSequence]. *)
From Verif Require Import Base BaseProofs Range IoBuffer IoSpec IoProofs IoFacts IoIndex IoMixin IoMixinSpec IoMixinFacts IoMixinMut IoMixinRev.
From Coq Require Import ZArith List Bool Lia.
Import ListNotations.
Open Scope Z_scope.

(** C115.  [x in view], [view.count(x)] and [reversed(view)] are about the elements of the view: its bits eight by eight, the
    last ones padded with zeros. *)
Theorem C115_reading : forall v x, buf_ok v -> is_view v ->
  (exists b, view_contains v x = Ok b /\ (b = true <-> In x (elements v)))
  /\ view_count v x = Ok (Z.of_nat (count_occ Z.eq_dec (elements v) x)) /\ view_reversed v = Ok (rev (elements v)).
Proof. intros v x K V. split; [now apply contains_spec|]. split; [now apply count_spec|now apply reversed_spec]. Qed.
Print Assumptions C115_reading.

(** C115.  [view.index(x, start, stop)] is the first position from [start] on, if there is one before [stop]; negative
    bounds count from the end.  Without one before a [stop] that is not after the end, and without one for views that end with the bytes they
    are made of, it raises ValueError. *)
Theorem C115_index : forall v x start, buf_ok v -> is_view v -> let s := if start <? 0 then Z.max (zlen (elements v) + start) 0 else start in
  (forall p stop, first_at (elements v) x s p -> match stop with Some e => p < (if e <? 0 then e + zlen (elements v) else e) | None => True end ->
     ends (fun fuel => view_find fuel v x start stop) (Ok p))
  /\ (forall stop, let e := if stop <? 0 then stop + zlen (elements v) else stop in
        e <= zlen (elements v) -> (forall q, s <= q < e -> nth_error (elements v) (Z.to_nat q) <> Some x) ->
        ends (fun fuel => view_find fuel v x start (Some stop)) (Err ValueError))
  /\ (forall l b, v = BView (BArr l) b (8 * zlen l) -> absent (elements v) x s ->
        ends (fun fuel => view_find fuel v x start None) (Err ValueError)).
Proof.
  intros v x start K V s. unfold s. rewrite elements_len by exact K. fold (start_of v start). split; [|split].
  - intros p stop F E. now apply find_found.
  - intros stop E A. apply find_bounded; assumption.
  - intros l b -> A. destruct (find_absent _ x start K V A) as [P _]. apply P. pose proof K as (H0 & H1 & H2 & H3).
    pose proof (blen_cdiv (BView (BArr l) b (8 * zlen l))) as B. cbn [blength] in B. unfold cdiv8 in B.
    assert (8 * zlen l - b <= 8 * blen (BView (BArr l) b (8 * zlen l))).
    { rewrite B. pose proof (Z.div_mod (8 * zlen l - b + 7) 8 ltac:(lia)). pose proof (Z.mod_pos_bound (8 * zlen l - b + 7) 8 ltac:(lia)). lia. }
    destruct (get_end (BArr l) b (8 * zlen l) (8 * blen (BView (BArr l) b (8 * zlen l))) K) as (_ & _ & G).
    { unfold py_clamp. replace (8 * blen (BView (BArr l) b (8 * zlen l)) <? 0) with false by lia. lia. }
    exact (G l eq_refl eq_refl).
Qed.
Print Assumptions C115_index.

(** C115.  Expected and not true: [view.index(x)] always ends, with a position where [x] is or ValueError.  If the view ends before
    the bytes it is made of, a search for what it does not contain goes on for ever, and the search for zero ends with a
    position that is not in the view. *)
Theorem C115_index_refuted : forall inner a b x, buf_ok (BView inner a b) -> b < 8 * blen inner ->
  absent (elements (BView inner a b)) x 0 ->
  (x <> 0 -> hangs (fun fuel => view_find fuel (BView inner a b) x 0 None))
  /\ (x = 0 -> ends (fun fuel => view_find fuel (BView inner a b) x 0 None) (Ok (zlen (elements (BView inner a b))))).
Proof.
  intros inner a b x K H A. pose proof K as (H0 & H1 & H2 & H3).
  pose proof (blen_cdiv (BView inner a b)) as B. cbn [blength] in B. unfold cdiv8 in B.
  assert (L : b - a <= 8 * blen (BView inner a b)).
  { rewrite B. pose proof (Z.div_mod (b - a + 7) 8 ltac:(lia)). pose proof (Z.mod_pos_bound (b - a + 7) 8 ltac:(lia)). lia. }
  assert (E : view_get (BView inner a b) (8 * blen (BView inner a b)) = Ok 0).
  { destruct (get_end inner a b (8 * blen (BView inner a b)) K) as (_ & G & _); [|apply G; apply Z.div_lt_upper_bound; lia].
    unfold py_clamp. replace (8 * blen (BView inner a b) <? 0) with false by lia. lia. }
  destruct (find_absent (BView inner a b) x 0 K Logic.I A) as (_ & Z0 & N0). split; intros X.
  - now apply N0.
  - rewrite elements_len by exact K. replace (blen (BView inner a b)) with (Z.max (start_of (BView inner a b) 0) (blen (BView inner a b))); [now apply Z0|].
    unfold start_of. cbn [Z.ltb Z.compare]. lia.
Qed.
Print Assumptions C115_index_refuted.

(** C115.  [array.pop(i)] returns the eight bits from the (possibly fractional, possibly negative) offset on, if they lie inside, and removes
    them, if they can be deleted (see C33); [array.pop()] returns and removes the last eight. *)
Theorem C115_pop : forall x i, ba_ok x -> let n := zlen (ba_bits x) in let lo := py_clamp n i in
  lo + 8 <= n -> deletion_fits x (ba_start x + lo) (ba_start x + lo + 8) ->
  exists x', ba_pop i x = (Ok (bits_value (firstn 8 (skipn (Z.to_nat lo) (ba_bits x)))), x') /\ ba_ok x'
    /\ ba_bits x' = firstn (Z.to_nat lo) (ba_bits x) ++ skipn (Z.to_nat (lo + 8)) (ba_bits x).
Proof. intros x i K n lo H D. destruct (pop_inside x i K H D) as (x' & X & K' & _ & V). exists x'. auto. Qed.
Print Assumptions C115_pop.
Theorem C115_pop_last : forall x, ba_ok x -> let n := zlen (ba_bits x) in 8 <= n ->
  exists x', ba_pop (-8) x = (Ok (bits_value (skipn (Z.to_nat (n - 8)) (ba_bits x))), x') /\ ba_ok x'
    /\ ba_bits x' = firstn (Z.to_nat (n - 8)) (ba_bits x).
Proof. intros x K n H. destruct (pop_last x K H) as (x' & X & K' & _ & V). exists x'. auto. Qed.
Print Assumptions C115_pop_last.

(** C115.  Expected and not true: [pop] from an empty array raises IndexError and changes nothing, and [pop] of fewer than eight bits leaves an
    empty array.  The array ends before it starts afterwards, unless it is empty and its bytes end there, too; the next [pop] raises ValueError. *)
Theorem C115_pop_refuted : forall x, ba_ok x -> zlen (ba_bits x) < 8 ->
  (ba_start x = 8 * zlen (ba_buf x) -> ba_pop (-8) x = (Err IndexError, x))
  /\ (ba_start x < 8 * zlen (ba_buf x) ->
        exists x', ba_pop (-8) x = (Ok (bits_value (ba_bits x)), x') /\ ba_stop x' < ba_start x' /\ ba_pop (-8) x' = (Err ValueError, x')).
Proof.
  intros x K H. destruct (Z.eq_dec (zlen (ba_bits x)) 0) as [E|E].
  - apply zlen_0_nil in E. destruct (pop_empty x K E) as [P Q]. split; [exact P|]. intros S. destruct (Q S) as (x' & X & B). exists x'. rewrite E.
    split; [exact X|]. split; [exact B|]. now apply pop_broken.
  - pose proof (zlen_nonneg (ba_bits x)). split.
    + intros S. pose proof (ba_bits_len x K). destruct (ba_ok_elim _ K) as (B & Hs & Hl). lia.
    + intros _. destruct (pop_short x K) as (x' & X & B); [lia|]. exists x'. split; [exact X|]. split; [exact B|]. now apply pop_broken.
Qed.
Print Assumptions C115_pop_refuted.

(** C115.  [array.remove(x)] removes the first element [x], if it is whole and can be deleted.  Expected and not true: the same of a last element of less
    than eight bits; the last eight bits are removed. *)
Theorem C115_remove : forall x b p, ba_ok x -> first_at (elements (ba_view x)) b 0 p -> let n := zlen (ba_bits x) in
  8 * p + 8 <= n -> deletion_fits x (ba_start x + 8 * p) (ba_start x + 8 * p + 8) ->
  exists x', ends (fun fuel => ba_remove fuel b x) (Ok tt, x') /\ ba_ok x'
    /\ ba_bits x' = firstn (Z.to_nat (8 * p)) (ba_bits x) ++ skipn (Z.to_nat (8 * p + 8)) (ba_bits x).
Proof. intros x b p K F n. exact (proj1 (remove_spec x b p K F)). Qed.
Print Assumptions C115_remove.
Theorem C115_remove_refuted : forall x b p, ba_ok x -> first_at (elements (ba_view x)) b 0 p -> let n := zlen (ba_bits x) in
  n < 8 * p + 8 -> 8 <= n ->
  exists x', ends (fun fuel => ba_remove fuel b x) (Ok tt, x') /\ ba_ok x' /\ ba_bits x' = firstn (Z.to_nat (n - 8)) (ba_bits x).
Proof. intros x b p K F n. exact (proj2 (remove_spec x b p K F)). Qed.
Print Assumptions C115_remove_refuted.

(** C115.  Without such an element [remove] raises ValueError and changes nothing, if the array ends with its bytearray.  Expected and
    not true: always.  If it ends before, [remove] never ends for a value other than zero. *)
Theorem C115_remove_absent : forall x b, ba_ok x -> absent (elements (ba_view x)) b 0 ->
  (ba_stop x = 8 * zlen (ba_buf x) -> ends (fun fuel => ba_remove fuel b x) (Err ValueError, x))
  /\ (ba_stop x < 8 * zlen (ba_buf x) -> b <> 0 -> hangs (fun fuel => ba_remove fuel b x)).
Proof.
  intros x b K A. assert (KV : buf_ok (ba_view x)) by exact K. split.
  - intros E. destruct (C115_index (ba_view x) b 0 KV Logic.I) as (_ & _ & I3). destruct (I3 (ba_buf x) (ba_start x)) as (n & P).
    + unfold ba_view. now rewrite E.
    + exact A.
    + exists n. intros fuel Hf. unfold ba_remove. now rewrite (P fuel Hf).
  - intros E N fuel. destruct (C115_index_refuted (BArr (ba_buf x)) (ba_start x) (ba_stop x) b KV E A) as [H _].
    unfold ba_remove, ba_view. now rewrite (H N fuel).
Qed.
Print Assumptions C115_remove_absent.

(** C115.  [array.clear()] empties an array that consists of whole bytes up to the end of its bytearray.  Expected and not true: it
    empties every array.  With a number of bits that is no multiple of eight it raises ValueError and leaves an array that ends before it starts. *)
Theorem C115_clear : forall x, ba_ok x -> ba_start x mod 8 = 0 -> ba_stop x = 8 * zlen (ba_buf x) ->
  exists x', ends (fun fuel => ba_clear fuel x) (Ok tt, x') /\ ba_ok x' /\ ba_bits x' = [].
Proof.
  intros x K A E. destruct (ba_ok_elim _ K) as (B & Hs & Hl). destruct (clear_aligned (Z.to_nat ((ba_stop x - ba_start x) / 8)) x K A E) as (x' & C & R).
  - pose proof (Z.div_mod (ba_start x) 8 ltac:(lia)) as D. rewrite A in D.
    replace (ba_stop x - ba_start x) with ((zlen (ba_buf x) - ba_start x / 8) * 8) by lia. rewrite Z.div_mul by lia. lia.
  - exists x'. split; [|exact R]. exists (S (Z.to_nat ((ba_stop x - ba_start x) / 8))). intros fuel Hf. apply C. lia.
Qed.
Print Assumptions C115_clear.
Theorem C115_clear_refuted : forall x, ba_ok x -> zlen (ba_bits x) mod 8 <> 0 ->
  exists x', ends (fun fuel => ba_clear fuel x) (Err ValueError, x') /\ ba_stop x' < ba_start x'.
Proof.
  intros x K N. pose proof (zlen_nonneg (ba_bits x)). assert (0 <= zlen (ba_bits x) / 8) by (apply Z.div_pos; lia).
  destruct (clear_fraction (Z.to_nat (zlen (ba_bits x) / 8)) x K N) as (x' & B & C); [lia|]. exists x'. split; [|exact B].
  eexists. intros fuel Hf. apply C. exact Hf.
Qed.
Print Assumptions C115_clear_refuted.

(** C115.  [array.reverse()] reverses the elements of an array of whole bytes.  Expected and not true: reversing loses nothing.  With more than one and
    less than two bytes the last bits of the first byte are replaced by zeros, also if IndexError is raised. *)
Theorem C115_reverse : forall x, ba_ok x -> zlen (ba_bits x) mod 8 = 0 ->
  exists x', ba_reverse x = (Ok tt, x') /\ ba_ok x' /\ elements (ba_view x') = rev (elements (ba_view x)) /\ zlen (ba_bits x') = zlen (ba_bits x).
Proof. exact reverse_whole. Qed.
Print Assumptions C115_reverse.
Theorem C115_reverse_refuted : forall x, ba_ok x -> let n := zlen (ba_bits x) in 8 < n < 16 ->
  exists r x', ba_reverse x = (r, x') /\ (r = Ok tt \/ r = Err IndexError) /\ ba_ok x'
    /\ ba_bits x' = skipn 8 (ba_bits x) ++ repeat false (Z.to_nat (16 - n)) ++ firstn (Z.to_nat (n - 8)) (ba_bits x).
Proof. exact reverse_two. Qed.
Print Assumptions C115_reverse_refuted.

(** A view of twelve bits, an array of whole bytes and one of twelve bits. *)
Definition ex_v : buf := BView (BArr [85; 170]) 0 12.
Definition ex_w : baa := mkBa [1; 2; 3; 2] 8 32.
Definition ex_f : baa := mkBa [85; 170] 0 12.

Example C115_nonvacuous :
  buf_ok ex_v /\ is_view ex_v /\ elements ex_v = [85; 10] /\ view_reversed ex_v = Ok [10; 85] /\ view_count ex_v 10 = Ok 1
  /\ first_at (elements ex_v) 10 0 1 /\ absent (elements ex_v) 7 0 /\ view_find 1000 ex_v 10 0 None = Some (Ok 1) /\ view_find 1000 ex_v 7 0 None = None
  /\ view_find 1000 ex_v 0 0 None = Some (Ok 2) /\ view_find 1000 ex_v 85 (-1) (Some 2) = Some (Err ValueError)
  /\ view_find 1000 ex_v 10 0 (Some (-1)) = Some (Err ValueError)
  /\ ba_ok ex_w /\ elements (ba_view ex_w) = [2; 3; 2] /\ deletion_fits ex_w (8 + 8) (8 + 8 + 8)
  /\ ba_pop 8 ex_w = (Ok 3, mkBa [1; 2; 2] 8 24) /\ ba_pop (-8) ex_w = (Ok 2, mkBa [1; 2; 3] 8 24)
  /\ ba_remove 10 3 ex_w = Some (Ok tt, mkBa [1; 2; 2] 8 24) /\ ba_clear 10 ex_w = Some (Ok tt, mkBa [1] 8 8)
  /\ ba_reverse ex_w = (Ok tt, ex_w) /\ ba_reverse (new_baa [1; 2; 3; 4; 5]) = (Ok tt, new_baa [5; 4; 3; 2; 1])
  /\ ba_ok ex_f /\ zlen (ba_bits ex_f) = 12 /\ first_at (elements (ba_view ex_f)) 10 0 1 /\ ba_remove 10 10 ex_f = Some (Ok tt, mkBa [85] 0 4)
  /\ ba_clear 10 ex_f = Some (Err ValueError, mkBa [] 0 (-4)) /\ ba_reverse ex_f = (Ok tt, mkBa [10; 85] 0 12)
  /\ ba_pop (-8) (mkBa [7] 0 3) = (Ok 7, mkBa [] 0 (-5)).
Proof.
  assert (F : first_at [85; 10] 10 0 1).
  { split; [lia|]. split; [reflexivity|]. intros q Hq. replace q with 0 by lia. discriminate. }
  assert (A : absent [85; 10] 7 0).
  { intros q Hq. destruct (Z.to_nat q) as [|[|[|k]]]; discriminate. }
  change (elements ex_v) with [85; 10]. change (elements (ba_view ex_f)) with [85; 10].
  repeat match goal with |- _ /\ _ => split end; try exact F; try exact A; try (vm_compute; reflexivity).
  - cbn. unfold bytes_ok, is_byte. repeat split; try lia. repeat constructor; lia.
  - cbn. unfold bytes_ok, is_byte. repeat split; try lia. repeat constructor; lia.
  - left. vm_compute. reflexivity.
  - cbn. unfold bytes_ok, is_byte. repeat split; try lia. repeat constructor; lia.
Qed.
