(** Properties C30-C33 and C53-C55: bit views, bit arrays, input and output buffers.
    All offsets and lengths are in bits; least significant bit of a byte first. *)
From Verif Require Import Base BaseProofs Range IoBuffer IoSpec IoProofs IoMutProofs IoInsert IoDelete IoFacts IoOutput IoOpen IoViews.
From Coq Require Import ZArith List Bool Lia ZifyBool.
Import ListNotations.
Open Scope Z_scope.

(** C30.  Any chain of slices of any view. *)
Theorem C30_slices : forall v l, buf_ok v -> is_view v ->
  (slices_in_order (buf_bits v) l ->
     exists r, slice_chain v l = Ok r /\ buf_ok r /\ is_view r
       /\ buf_bits r = slices_bits (buf_bits v) l
       /\ to_bytes r = Ok (bytes_of_bits (slices_bits (buf_bits v) l)))
  /\ (~ slices_in_order (buf_bits v) l -> slice_chain v l = Err AssertionError).
Proof. intros v l. exact (slice_chain_spec l v). Qed.
Print Assumptions C30_slices.

Theorem C30_index : forall b i, buf_ok b -> 0 <= i < blen b ->
  buf_nth b i = Ok (bits_value (firstn 8 (skipn (Z.to_nat (8 * i)) (buf_bits b)))).
Proof. exact buf_index_spec. Qed.
Print Assumptions C30_index.

Theorem C30_to_bitstr : forall v, buf_ok v -> is_view v -> to_bitstr v = Ok (rev (buf_bits v)).
Proof. exact to_bitstr_spec. Qed.
Print Assumptions C30_to_bitstr.

(** [to_bytearray] has the right length and begins with the right bits; what follows in the last
    byte need not be zero. *)
Theorem C30_to_bytearray : forall v, buf_ok v -> is_view v ->
  exists r, to_bytearray v = Ok r /\ buf_ok r /\ blen r = blen v
    /\ firstn (Z.to_nat (blength v)) (pad_to_byte (buf_bits r)) = buf_bits v.
Proof. exact to_bytearray_spec. Qed.
Print Assumptions C30_to_bytearray.

Definition ex_view : buf := BView (BView (BArr [165; 60; 255]) 3 22) 2 17.
Example C30_nonvacuous :
  buf_ok ex_view /\ is_view ex_view
  /\ slices_in_order (buf_bits ex_view) [(Some 1, Some (-2)); (None, Some 100)]
  /\ (let* r := slice_chain ex_view [(Some 1, Some (-2)); (None, Some 100)] in to_bytes r) = Ok [242; 12]
  /\ ~ slices_in_order (buf_bits ex_view) [(Some 1, Some (-2)); (Some 5, Some 4)]
  /\ (let* r := to_bytearray (BView (BArr [255]) 0 3) in to_bytes r) = Ok [255].
Proof.
  split; [cbn [ex_view buf_ok blen]; unfold cdiv8; repeat split;
          solve [repeat constructor; unfold is_byte; lia | vm_compute; discriminate]|].
  split; [exact I|]. split; [vm_compute; repeat split; discriminate|]. split; [vm_compute; reflexivity|].
  split; [|vm_compute; reflexivity].
  intros H. vm_compute in H. destruct H as (_ & H & _). now apply H.
Qed.

(** C31.  Assigning a view or a byte string of the same length as the (clamped) slice. *)
Theorem C31_overwrite : forall x a b v, ba_ok x -> value_ok v ->
  let n := zlen (ba_bits x) in
  lo_of n a <= hi_of n b -> zlen (value_bits v) = hi_of n b - lo_of n a ->
  exists x', ba_setitem (KSlice a b) v x = (Ok tt, x') /\ ba_ok x'
    /\ ba_bits x' = firstn (Z.to_nat (lo_of n a)) (ba_bits x) ++ value_bits v
                    ++ skipn (Z.to_nat (hi_of n b)) (ba_bits x).
Proof.
  intros x a b v K Hv n Ho Hl. unfold n in *. rewrite ba_bits_len in * by auto.
  destruct (setitem_slice x a b v K Hv Ho) as [H _].
  destruct H as (x' & X & K' & _ & V & _); [left; lia|]. exists x'. auto.
Qed.
Print Assumptions C31_overwrite.

(** A shorter value shrinks the array, a longer one at the end or at a byte boundary (by at least a
    byte) grows it; the result is always the slice replaced. *)
Theorem C31_resize : forall x a b v, ba_ok x -> value_ok v ->
  let n := zlen (ba_bits x) in let lo := lo_of n a in let hi := hi_of n b in
  let d := hi - lo - zlen (value_bits v) in
  lo <= hi ->
  (d < 0 /\ hi = n) \/ (d <= -8 /\ (ba_start x + hi) mod 8 = 0)
  \/ (0 < d /\ ((ba_start x + hi - d) mod 8 = 0 \/ hi = n)) ->
  exists x', ba_setitem (KSlice a b) v x = (Ok tt, x') /\ ba_ok x'
    /\ ba_bits x' = splice (ba_bits x) lo hi (value_bits v).
Proof.
  intros x a b v K Hv n lo hi d Ho Hc. subst n lo hi d. rewrite ba_bits_len in * by auto.
  destruct (ba_ok_elim _ K) as (B & Hs & Hl).
  set (n := ba_stop x - ba_start x) in *.
  pose proof (py_clamp_range n (match b with Some v => v | None => n end) ltac:(lia)) as Hhi. fold (hi_of n b) in Hhi.
  pose proof (py_clamp_range n (match a with Some v => v | None => 0 end) ltac:(lia)) as Hlo. fold (lo_of n a) in Hlo.
  pose proof (zlen_nonneg (value_bits v)).
  destruct (setitem_slice x a b v K Hv Ho) as [H' _]. fold n in H'.
  destruct H' as (x' & X & K' & _ & V & _); [|exists x'; auto].
  destruct Hc as [Hc|[Hc|[Hd [Hm|He]]]]; [tauto|tauto| |].
  - right. right. right. split; [lia|]. apply deletion_fits_aligned; auto; lia.
  - right. right. right. split; [lia|]. apply deletion_fits_tail. lia.
Qed.
Print Assumptions C31_resize.

(** Assigning a non-negative int: only the bytes the int needs are written, the rest of the slice
    keeps its old bits; ints that do not fit are rejected and change nothing. *)
Theorem C31_int : forall x a b k, ba_ok x -> 0 <= k ->
  let n := zlen (ba_bits x) in let lo := lo_of n a in let hi := hi_of n b in
  lo <= hi ->
  (lo < hi -> k < 2 ^ (hi - lo) ->
   exists x', ba_setitem (KSlice a b) (BVInt k) x = (Ok tt, x') /\ ba_ok x'
     /\ ba_bits x' = let m := int_reach k (hi - lo) in splice (ba_bits x) lo (lo + m) (int_bits k m))
  /\ (lo = hi \/ 2 ^ (hi - lo) <= k -> ba_setitem (KSlice a b) (BVInt k) x = (Err ValueError, x)).
Proof.
  intros x a b k K Hk n lo hi Ho. subst n lo hi. rewrite ba_bits_len in * by auto.
  destruct (setitem_int x a b k K Ho Hk) as [H1 H2]. split; [|exact H2].
  intros Hlt Hf. destruct (H1 Hlt Hf) as (x' & X & K' & _ & V). exists x'. auto.
Qed.
Print Assumptions C31_int.

Definition ex_arr : baa := mkBa [85; 170; 15] 0 20.
Lemma ex_arr_ok : ba_ok ex_arr.
Proof. apply ba_ok_intro; cbn [ex_arr ba_buf ba_start ba_stop]; [repeat constructor; unfold is_byte; lia|lia|vm_compute; discriminate]. Qed.
Example C31_nonvacuous :
  ba_ok ex_arr /\ lo_of 20 (Some 5) = 5 /\ hi_of 20 (Some (-4)) = 16
  /\ ba_setitem (KSlice (Some 5) (Some (-4))) (BVView (BView (BArr [255; 7]) 0 11)) ex_arr
     = (Ok tt, mkBa [245; 255; 15] 0 20)
  /\ ba_setitem (KSlice (Some 5) (Some 13)) (BVSeq [0]) ex_arr = (Ok tt, mkBa [21; 160; 15] 0 20)
  (* the int 1 written over 16 bits leaves the second byte *)
  /\ ba_setitem (KSlice (Some 0) (Some 16)) (BVInt 1) ex_arr = (Ok tt, mkBa [1; 170; 15] 0 20)
  /\ int_reach 1 16 = 8
  (* a negative int changes bits outside of the slice *)
  /\ ba_setitem (KSlice (Some 0) (Some 4)) (BVInt (-1)) (mkBa [0; 0] 0 16) = (Ok tt, mkBa [255; 0] 0 16).
Proof. split; [exact ex_arr_ok|]. repeat split; vm_compute; reflexivity. Qed.

(** C32.  Any sequence of extensions with views (of any number of bits) and byte strings. *)
Theorem C32_extend : forall l x, ba_ok x -> Forall value_ok l ->
  exists x', extend_all l x = (Ok tt, x') /\ ba_ok x'
    /\ ba_bits x' = ba_bits x ++ flat_map value_bits l.
Proof.
  intros l x K H. destruct (extend_all_spec l x K H) as (x' & X & K' & _ & V & _). exists x'. auto.
Qed.
Print Assumptions C32_extend.

Theorem C32_add : forall x b, ba_ok x -> buf_ok b ->
  exists x', ba_add x b = Ok x' /\ ba_ok x' /\ ba_bits x' = ba_bits x ++ buf_bits b.
Proof. exact ba_add_spec. Qed.
Print Assumptions C32_add.
(** Only views can stand on the left. *)
Theorem C32_radd : forall x b, ba_ok x -> buf_ok b ->
  (is_view b -> exists x', ba_radd x b = Ok x' /\ ba_ok x' /\ ba_bits x' = buf_bits b ++ ba_bits x)
  /\ (~ is_view b -> ba_radd x b = Err TypeError).
Proof.
  intros x b K H. split; [exact (ba_radd_spec x b K H)|]. destruct b; [reflexivity|]. intros N. exfalso. apply N. exact Logic.I.
Qed.
Print Assumptions C32_radd.
Theorem C32_append : forall x v, ba_ok x -> is_byte v ->
  exists x', ba_append v x = (Ok tt, x') /\ ba_ok x' /\ ba_bits x' = ba_bits x ++ byte_bits v.
Proof. intros x v K H. destruct (append_byte x v K H) as (x' & X & K' & _ & V & _). exists x'. auto. Qed.
Print Assumptions C32_append.

Example C32_nonvacuous :
  ba_ok ex_arr /\ Forall value_ok [BVView (BView (BArr [3]) 0 3); BVSeq [129]; BVView ex_view]
  /\ extend_all [BVView (BView (BArr [3]) 0 3); BVSeq [129]; BVView ex_view] ex_arr
     = (Ok tt, mkBa [85; 170; 191; 192; 242; 60] 0 46).
Proof.
  split; [exact ex_arr_ok|]. split; [|vm_compute; reflexivity].
  constructor; [cbn [value_ok buf_ok blen]; repeat split; try (vm_compute; discriminate); repeat constructor; unfold is_byte; lia|].
  constructor; [repeat constructor; unfold is_byte; lia|].
  constructor; [exact (proj1 C30_nonvacuous)|constructor].
Qed.

(** C33.  Deleting a slice removes exactly its bits, or raises IndexError; it never raises when the
    slice starts at a byte boundary of the underlying array or reaches the end. *)
Theorem C33_delete : forall x a b, ba_ok x ->
  let n := zlen (ba_bits x) in let lo := lo_of n a in let hi := hi_of n b in
  lo <= hi ->
  (deletion_fits x (ba_start x + lo) (ba_start x + hi) ->
     exists x', ba_delitem (KSlice a b) x = (Ok tt, x') /\ ba_ok x'
       /\ ba_bits x' = firstn (Z.to_nat lo) (ba_bits x) ++ skipn (Z.to_nat hi) (ba_bits x))
  /\ (~ deletion_fits x (ba_start x + lo) (ba_start x + hi) ->
      exists x', ba_delitem (KSlice a b) x = (Err IndexError, x')).
Proof.
  intros x a b K n lo hi Ho. subst n lo hi. rewrite ba_bits_len in * by auto.
  destruct (delitem_slice x a b K Ho) as [H1 H2]. split; [|exact H2].
  intros Hf. destruct (H1 Hf) as (x' & X & K' & _ & V). exists x'. auto.
Qed.
Print Assumptions C33_delete.

Theorem C33_delete_aligned : forall x a b, ba_ok x ->
  let n := zlen (ba_bits x) in let lo := lo_of n a in let hi := hi_of n b in
  lo <= hi -> (ba_start x + lo) mod 8 = 0 \/ hi = n ->
  exists x', ba_delitem (KSlice a b) x = (Ok tt, x') /\ ba_ok x'
    /\ ba_bits x' = firstn (Z.to_nat lo) (ba_bits x) ++ skipn (Z.to_nat hi) (ba_bits x).
Proof.
  intros x a b K n lo hi Ho Hc. apply (C33_delete x a b K Ho). fold n lo hi.
  assert (En : n = ba_stop x - ba_start x) by (now apply ba_bits_len).
  destruct (ba_ok_elim _ K) as (B & Hs & Hl).
  pose proof (py_clamp_range n (match b with Some v => v | None => n end) ltac:(lia)) as Hhi. fold (hi_of n b) in Hhi. fold hi in Hhi.
  pose proof (py_clamp_range n (match a with Some v => v | None => 0 end) ltac:(lia)) as Hlo. fold (lo_of n a) in Hlo. fold lo in Hlo.
  destruct Hc; [apply deletion_fits_aligned; auto; lia|apply deletion_fits_tail; lia].
Qed.
Print Assumptions C33_delete_aligned.

(** Inserting at least 8 bits at a byte boundary of the underlying array, or anything at the end. *)
Theorem C33_insert : forall x i v, ba_ok x -> value_ok v ->
  let n := zlen (ba_bits x) in let a := py_clamp n i in
  a = n \/ (8 <= zlen (value_bits v) /\ (ba_start x + a) mod 8 = 0) ->
  exists x', ba_insert i v x = (Ok tt, x') /\ ba_ok x'
    /\ ba_bits x' = firstn (Z.to_nat a) (ba_bits x) ++ value_bits v ++ skipn (Z.to_nat a) (ba_bits x).
Proof.
  intros x i v K Hv n a Hc. subst n a. rewrite ba_bits_len in * by auto.
  destruct (ba_ok_elim _ K) as (B & Hs & Hl).
  set (n := ba_stop x - ba_start x) in *. set (a := py_clamp n i) in *.
  destruct (insert_value x i v K Hv) as (x' & X & K' & _ & V); [fold n a; tauto|].
  exists x'. split; [exact X|]. split; [exact K'|]. fold n a in V. rewrite V. f_equal. f_equal.
  assert (Lb : zlen (ba_bits x) = n) by (now apply ba_bits_len).
  set (p := 8 * cdiv8 (ba_start x + a) - (ba_start x + a)) in *.
  assert (Hp : 0 <= p) by (unfold p, cdiv8; lia).
  pose proof (py_clamp_range n i ltac:(lia)) as Ha. fold a in Ha.
  destruct Hc as [Hc|[_ Hc]].
  - replace (Z.to_nat (Z.min (n - a) p)) with 0%nat by lia. cbn [repeat app].
    rewrite !skipn_all2; auto; unfold zlen in Lb; lia.
  - replace p with 0 by (unfold p, cdiv8; lia). replace (Z.to_nat (Z.min (n - a) 0)) with 0%nat by lia.
    cbn [repeat app]. f_equal. lia.
Qed.
Print Assumptions C33_insert.

(** Inserting elsewhere loses data: if the insertion point is [r] bits into a byte and the value has
    at least [16 - r] bits, the [8 - r] bits behind the insertion point become zeros. *)
Theorem C33_insert_unaligned_loses : forall x i v, ba_ok x -> value_ok v ->
  let n := zlen (ba_bits x) in let a := py_clamp n i in let r := (ba_start x + a) mod 8 in
  a < n -> 0 < r -> 16 - r <= zlen (value_bits v) ->
  exists x', ba_insert i v x = (Ok tt, x') /\ ba_ok x'
    /\ ba_bits x' = firstn (Z.to_nat a) (ba_bits x) ++ value_bits v
                    ++ repeat false (Z.to_nat (Z.min (n - a) (8 - r)))
                    ++ skipn (Z.to_nat (a + (8 - r))) (ba_bits x).
Proof.
  intros x i v K Hv n a r. subst n a r. rewrite ba_bits_len by auto. intros Ha Hr Hl.
  destruct (insert_value x i v K Hv) as (x' & X & K' & _ & V); [lia|].
  exists x'. split; [exact X|]. split; [exact K'|]. rewrite V.
  set (t := ba_start x + py_clamp (ba_stop x - ba_start x) i) in *.
  replace (8 * cdiv8 t - t) with (8 - t mod 8) by (unfold cdiv8; lia). reflexivity.
Qed.
Print Assumptions C33_insert_unaligned_loses.

Example C33_nonvacuous :
  ba_delitem (KSlice (Some 8) (Some 13)) ex_arr = (Ok tt, mkBa [85; 125] 0 15)
  /\ deletion_fits ex_arr 8 13
  /\ ~ deletion_fits (new_baa [85; 170; 15]) 5 7 /\ fst (ba_delitem (KSlice (Some 5) (Some 7)) (new_baa [85; 170; 15])) = Err IndexError
  /\ ba_insert 8 (BVView (BView (BArr [1; 2]) 0 12)) ex_arr = (Ok tt, mkBa [85; 1; 162; 250] 0 32)
  /\ ba_insert 4 (BVSeq [255; 255]) (mkBa [255; 255] 0 16) = (Ok tt, mkBa [255; 255; 15; 255] 0 32)
  (* four bits inserted in front of four *)
  /\ ba_insert 0 (BVView (BView (BArr [1]) 0 4)) (mkBa [15] 0 4) = (Ok tt, mkBa [1] 0 8).
Proof.
  split; [vm_compute; reflexivity|]. split; [apply deletion_fits_aligned; [exact ex_arr_ok| | |]; cbn; lia|].
  split.
  { unfold deletion_fits, whole_removed, cdiv8. intros [H|[H|H]]; vm_compute in H; congruence. }
  repeat split; vm_compute; reflexivity.
Qed.

(** C53.  [zfill] appends zeros ... *)
Theorem C53_zfill : forall x len, ba_ok x -> ba_clean x ->
  let n := zlen (ba_bits x) in
  len <= n \/ gap_ok (ba_stop x) (len - n) ->
  exists x', ba_zfill len x = (Ok tt, x') /\ ba_ok x' /\ ba_clean x'
    /\ ba_bits x' = ba_bits x ++ repeat false (Z.to_nat (len - n)).
Proof.
  intros x len K C n Hg. subst n. rewrite ba_bits_len in * by auto.
  destruct (zfill_ok x len K C Hg) as (x' & X & K' & _ & C' & V). exists x'. auto.
Qed.
Print Assumptions C53_zfill.

(** ... except that in all other cases the last eight bits show up a second time. *)
Theorem C53_zfill_junk : forall x len, ba_ok x -> ba_clean x -> ba_start x = 0 ->
  let n := zlen (ba_bits x) in
  8 <= n < len -> ~ gap_ok n (len - n) ->
  let f := 8 - n mod 8 + len mod 8 in
  exists x', ba_zfill len x = (Ok tt, x') /\ ba_ok x'
    /\ ba_bits x' = ba_bits x ++ repeat false (Z.to_nat (f - 8)) ++ skipn (Z.to_nat (n - 8)) (ba_bits x)
                    ++ repeat false (Z.to_nat (len - n - f)).
Proof.
  intros x len K C S n. subst n.
  assert (L : zlen (ba_bits x) = ba_stop x) by (rewrite ba_bits_len by auto; lia). rewrite L.
  exact (zfill_junk x len K C S).
Qed.
Print Assumptions C53_zfill_junk.

Example C53_nonvacuous :
  ba_clean ex_arr /\ gap_ok 20 6 /\ gap_ok 20 13
  /\ ba_zfill 33 ex_arr = (Ok tt, mkBa [85; 170; 15; 0; 0] 0 33)
  /\ ~ gap_ok 20 17
  /\ ba_zfill 37 ex_arr = (Ok tt, mkBa [85; 170; 79; 31; 0] 0 37)
  (* three bits, the second field three bits into the third byte *)
  /\ ba_zfill 19 (mkBa [5] 0 3) = (Ok tt, mkBa [45; 0; 0] 0 19).
Proof.
  split.
  { intros i Hi. cbn [ex_arr ba_stop] in Hi. unfold abit, ex_arr. cbn [ba_buf].
    destruct (Z_lt_ge_dec i 24) as [H|H].
    - assert (E : i = 20 \/ i = 21 \/ i = 22 \/ i = 23) by lia.
      destruct E as [->|[->|[->| ->]]]; vm_compute; reflexivity.
    - apply bit_at_overflow. change (zlen [85; 170; 15]) with 3. lia. }
  split; [right; left; vm_compute; reflexivity|]. split; [right; right; vm_compute; reflexivity|].
  split; [vm_compute; reflexivity|].
  split; [unfold gap_ok; intros [H|[H|H]]; vm_compute in H; discriminate|].
  split; vm_compute; reflexivity.
Qed.

(** C54.  [InputBuffer.get]: the concatenation of the selected bits, ranges beyond the end clamped. *)
Theorem C54_input_get : forall b l, buf_ok b -> is_view b -> Forall closed_range l ->
  exists r, input_get b l = Ok r /\ buf_ok r
    /\ buf_bits r = flat_map (range_bits (buf_bits b)) l.
Proof. exact input_get_spec. Qed.
Print Assumptions C54_input_get.

Example C54_nonvacuous :
  let l := [mkR 4 (Some 12); mkR 0 (Some 3); mkR 14 (Some 40)] in
  Forall closed_range l
  /\ (let* r := input_get ex_view l in to_bytes r) = Ok [158; 13].
Proof. split; [repeat apply Forall_cons; try apply Forall_nil; cbn; lia|vm_compute; reflexivity]. Qed.

(** C54.  A range without an end is refused, wherever it stands. *)
Theorem C54_open_range : forall b l r rest, buf_ok b -> is_view b -> Forall closed_range l -> r_stop r = None ->
  input_get b (l ++ r :: rest) = Err AssertionError.
Proof. exact input_get_open. Qed.
Print Assumptions C54_open_range.
Example C54_open_range_case : input_get ex_view [mkR 4 (Some 12); mkR 14 None; mkR 0 (Some 3)] = Err AssertionError.
Proof. vm_compute. reflexivity. Qed.

(** C55.  [OutputBuffer.set]: the bits of the value go to the ranges in order; ValueError if there
    are too few of them. *)
Theorem C55_output_set : forall value l x, buf_ok value -> Forall closed_range l -> out_ok x ->
  let bits := pad_to_byte (buf_bits value) in
  (total_len (map bounds l) <= zlen bits ->
     exists x', output_set value l x = (Ok tt, x') /\ out_ok x'
       /\ placed bits (map bounds l) (ba_bits x) (ba_bits x'))
  /\ (zlen bits < total_len (map bounds l) -> exists x', output_set value l x = (Err ValueError, x')).
Proof. exact output_set_spec. Qed.
Print Assumptions C55_output_set.

(** C55.  A range without an end, of negative start or that ends before it starts is refused; the ranges
    before it have been written by then, those behind it are not touched. *)
Theorem C55_refused_range : forall value l r rest x, buf_ok value -> Forall closed_range l -> out_ok x -> ~ closed_range r ->
  let bits := pad_to_byte (buf_bits value) in
  total_len (map bounds l) <= zlen bits ->
  exists x', output_set value (l ++ r :: rest) x = (Err AssertionError, x') /\ out_ok x'
    /\ placed bits (map bounds l) (ba_bits x) (ba_bits x').
Proof. exact output_set_refused. Qed.
Print Assumptions C55_refused_range.
Example C55_refused_range_case :
  ~ closed_range (mkR 16 (Some 12))
  /\ output_set (BArr [255; 171]) [mkR 4 (Some 8); mkR 16 (Some 12); mkR 0 (Some 4)] (new_baa []) = (Err AssertionError, mkBa [240] 0 8).
Proof. split; [cbn; lia|vm_compute; reflexivity]. Qed.

Example C55_nonvacuous :
  let l := [mkR 16 (Some 28); mkR 4 (Some 8)] in
  Forall closed_range l /\ out_ok (new_baa [])
  /\ output_set (BArr [255; 171]) l (new_baa []) = (Ok tt, mkBa [160; 0; 255; 11] 0 28)
  /\ fst (output_set (BArr [255]) l (new_baa [])) = Err ValueError.
Proof.
  split; [repeat apply Forall_cons; try apply Forall_nil; cbn; lia|]. split.
  { split; [apply new_baa_ok; constructor|]. split; [reflexivity|]. intros i Hi. apply bit_at_nil. }
  split; vm_compute; reflexivity.
Qed.
