(** Property C84: numbers as keys of views and arrays. *)
From Verif Require Import Base BaseProofs Range IoBuffer IoSpec IoProofs IoMutProofs IoFacts IoOutput IoViews IoIndex.
From Coq Require Import ZArith List Bool Lia ZifyBool ZifyNat.
Import ListNotations.
Open Scope Z_scope.

(** C84.  Offsets are in bits.  An offset is clamped to the ends, it is never out of range by itself:
    reading inside gives the next eight bits, or as many as there are. *)
Theorem C84_read : forall v ofs, buf_ok v -> is_view v ->
  let n := zlen (buf_bits v) in let a := py_clamp n ofs in
  a < n -> view_get v ofs = Ok (bits_value (firstn 8 (skipn (Z.to_nat a) (buf_bits v)))).
Proof.
  intros v ofs K V. destruct v as [|inner start stop]; [destruct V|]. rewrite buf_bits_len by exact K. cbn [blength].
  exact (get_inside inner start stop ofs K).
Qed.
Print Assumptions C84_read.

(** At the end there is nothing to read, but that is noticed only if the underlying bytes end there,
    too: otherwise the result is 0. *)
Theorem C84_read_end : forall inner start stop ofs, buf_ok (BView inner start stop) -> stop - start <= ofs ->
  let r := view_get (BView inner start stop) ofs in
  (r = Ok 0 \/ r = Err IndexError)
  /\ (stop / 8 < blen inner -> r = Ok 0)
  /\ (forall l, inner = BArr l -> stop = 8 * zlen l -> r = Err IndexError).
Proof.
  intros inner start stop ofs K H. apply get_end; [exact K|]. pose proof K as (_ & _ & K2 & _). unfold py_clamp. replace (ofs <? 0) with false by lia. lia.
Qed.
Print Assumptions C84_read_end.

(** Writing a byte inside replaces exactly the eight bits from the offset on; any value is written as
    it would be for the slice of these eight bits (see C31). *)
Theorem C84_write_inside : forall x i, ba_ok x -> let n := zlen (ba_bits x) in let lo := py_clamp n i in lo + 8 <= n ->
  (forall v, is_byte v -> exists x', ba_setitem (KIndex i) (BVInt v) x = (Ok tt, x') /\ ba_ok x' /\ ba_bits x' = splice (ba_bits x) lo (lo + 8) (byte_bits v))
  /\ (forall v, ba_setitem (KIndex i) v x = ba_setitem (KSlice (Some lo) (Some (lo + 8))) v x)
  /\ ba_delitem (KIndex i) x = ba_delitem (KSlice (Some lo) (Some (lo + 8))) x.
Proof.
  intros x i K n lo H. subst n lo. rewrite ba_bits_len in * by exact K. set (n := ba_stop x - ba_start x) in *. set (lo := py_clamp n i) in *.
  destruct (ba_ok_elim _ K) as (B & Hs & Hl). pose proof (py_clamp_range n i ltac:(unfold n; lia)) as Hr. fold lo in Hr.
  split; [|split; [intros v; exact (set_index_inside x i v K H)|exact (del_index_inside x i K H)]].
  intros v V. rewrite (set_index_inside x i (BVInt v) K H). fold n lo.
  assert (E : ba_setitem (KSlice (Some lo) (Some (lo + 8))) (BVInt v) x = ba_setitem (KSlice (Some lo) (Some (lo + 8))) (BVSeq [v]) x).
  { unfold ba_setitem, sbind, slift. rewrite key_range_spec by exact K. fold n. unfold lo_of, hi_of. rewrite !py_clamp_id by lia.
    replace (lo <=? lo + 8) with true by lia. cbn [fst snd]. replace (ba_start x + (lo + 8) - (ba_start x + lo)) with 8 by lia.
    rewrite value_and_length_byte by exact V. reflexivity. }
  rewrite E. assert (VO : value_ok (BVSeq [v])) by (constructor; auto; constructor).
  destruct (setitem_slice x (Some lo) (Some (lo + 8)) (BVSeq [v]) K VO) as [S _]; unfold lo_of, hi_of in *; rewrite !py_clamp_id in * by (unfold n in *; lia); [lia|].
  destruct S as (x' & X & K' & _ & V' & _); [left; change (zlen (value_bits (BVSeq [v]))) with 8; lia|].
  exists x'. split; [exact X|]. split; [exact K'|]. exact V'.
Qed.
Print Assumptions C84_write_inside.

(** Writing a byte that would end behind the end never lengthens the array: the bits that lie inside
    are written, and IndexError is raised, after that, only if the underlying bytes end there, too. *)
Theorem C84_write_end : forall x i, ba_ok x -> let n := zlen (ba_bits x) in let lo := py_clamp n i in n < lo + 8 ->
  (forall v, is_byte v -> exists x', ba_setitem (KIndex i) (BVInt v) x = (if ba_start x + lo + 8 <=? 8 * zlen (ba_buf x) then Ok tt else Err IndexError, x')
     /\ ba_ok x' /\ ba_bits x' = firstn (Z.to_nat lo) (ba_bits x) ++ firstn (Z.to_nat (n - lo)) (byte_bits v))
  /\ (forall v, value_ok v -> 8 < zlen (value_bits v) -> ba_setitem (KIndex i) v x = (Err AssertionError, x)).
Proof.
  intros x i K n lo H. subst n lo. rewrite ba_bits_len in * by exact K. split.
  - intros v V. exact (set_index_end x i v K V H).
  - intros v V L. exact (set_index_long x i v K V H L).
Qed.
Print Assumptions C84_write_end.

Theorem C84_write_big : forall x i v, ba_ok x -> 256 <= Z.abs v -> ba_setitem (KIndex i) (BVInt v) x = (Err ValueError, x).
Proof. exact set_index_big. Qed.
Print Assumptions C84_write_big.

(** Deleting by an offset at or near the end does not raise, and does not delete what is there: it
    takes the last eight bits off; with fewer than eight, the array ends before it starts. *)
Theorem C84_delete_end_refuted : forall x i, ba_ok x -> let n := zlen (ba_bits x) in n < py_clamp n i + 8 ->
  exists x', ba_delitem (KIndex i) x = (Ok tt, x')
    /\ (8 <= n -> ba_ok x' /\ ba_bits x' = firstn (Z.to_nat (n - 8)) (ba_bits x))
    /\ (n < 8 -> ba_stop x' < ba_start x').
Proof.
  intros x i K n H. subst n. rewrite ba_bits_len in * by exact K. destruct (del_index_end x i K H) as (x' & X & S & T & F).
  exists x'. split; [exact X|]. split; [exact F|]. lia.
Qed.
Print Assumptions C84_delete_end_refuted.

Definition ex_ix : baa := mkBa [1; 2; 3] 0 24.
Example C84_nonvacuous : ba_ok ex_ix
  /\ py_clamp (zlen (ba_bits ex_ix)) 24 = 24
  /\ view_get (ba_view ex_ix) 12 = Ok 48 /\ view_get (ba_view ex_ix) (-100) = Ok 1 /\ view_get (ba_view ex_ix) 20 = Ok 0 /\ view_get (ba_view ex_ix) 24 = Err IndexError
  /\ view_get (BView (BArr [1; 2; 3]) 0 12) 16 = Ok 0
  /\ ba_setitem (KIndex (-8)) (BVInt 7) ex_ix = (Ok tt, mkBa [1; 2; 7] 0 24)
  /\ ba_setitem (KIndex 24) (BVInt 7) ex_ix = (Err IndexError, ex_ix)
  /\ ba_setitem (KIndex 20) (BVInt 255) ex_ix = (Err IndexError, mkBa [1; 2; 243] 0 24)
  /\ ba_setitem (KIndex 24) (BVSeq [7; 8]) ex_ix = (Err AssertionError, ex_ix)
  /\ ba_delitem (KIndex 24) ex_ix = (Ok tt, mkBa [1; 2; 3] 0 16)
  /\ ba_delitem (KIndex 0) (new_baa []) = (Ok tt, mkBa [] 0 (-8)).
Proof.
  split; [apply ba_ok_intro; vm_compute; repeat constructor; try discriminate; reflexivity|].
  vm_compute. repeat split; reflexivity.
Qed.
