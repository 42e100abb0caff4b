(** C109: arrays that share a bytearray, and an array that is its own argument. *)
From Verif Require Import Base BaseProofs Range IoBuffer IoSpec IoShare IoShareSpec IoShareFacts IoShareSelf IoShareSeen.
From Coq Require Import ZArith List Bool Lia.
Import ListNotations.
Open Scope list_scope.
Open Scope Z_scope.

(** As long as no statement shares a bytearray or gives an array to itself, a program has the effect it has on arrays that
    are plain values. *)
Theorem C109_values : forall ops m vs, unshared m -> Forall apart_op ops -> vruns ops (contents m) = (Ok tt, vs) ->
  exists m', aruns ops m = (Ok tt, m') /\ contents m' = vs /\ unshared m'.
Proof. exact programs_value. Qed.
Print Assumptions C109_values.

(** One statement, with its exception. *)
Theorem C109_statement : forall op m, unshared m -> apart_op op -> Forall ba_ok (contents m) ->
  Forall (fun x => (x < List.length (m_arrs m))%nat) (op_arrays op) ->
  fst (astep op m) = fst (vstep op (contents m)) /\ contents (snd (astep op m)) = snd (vstep op (contents m)) /\ unshared (snd (astep op m)).
Proof. exact statement_value. Qed.
Print Assumptions C109_statement.

(** [x.extend(y)] for another array, [x + x]: the bits of both. *)
Theorem C109_extend : forall m x y s t, unshared m -> Forall ba_ok (contents m) -> x <> y ->
  nth_error (contents m) x = Some s -> nth_error (contents m) y = Some t ->
  exists m' s', astep (AExtend x y) m = (Ok tt, m') /\ contents m' = list_upd (contents m) x s' /\ unshared m' /\ ba_ok s' /\ ba_bits s' = ba_bits s ++ ba_bits t.
Proof. exact extend_other. Qed.
Print Assumptions C109_extend.
Theorem C109_add_self : forall m x s, unshared m -> Forall ba_ok (contents m) -> nth_error (contents m) x = Some s ->
  exists m' s', astep (AAdd x x) m = (Ok tt, m') /\ contents m' = contents m ++ [s'] /\ unshared m' /\ ba_ok s' /\ ba_bits s' = ba_bits s ++ ba_bits s.
Proof. exact add_itself. Qed.
Print Assumptions C109_add_self.

(** A slice is a new array with a bytearray of its own. *)
Theorem C109_slice : forall m x s a b, unshared m -> Forall ba_ok (contents m) -> nth_error (contents m) x = Some s ->
  (slice_in_order (ba_bits s) a b -> exists m' s', astep (ASlice x a b) m = (Ok tt, m') /\ contents m' = contents m ++ [s'] /\ unshared m'
     /\ ba_ok s' /\ ba_bits s' = slice_bits (ba_bits s) a b)
  /\ (~ slice_in_order (ba_bits s) a b -> astep (ASlice x a b) m = (Err AssertionError, m)).
Proof. exact slice_made. Qed.
Print Assumptions C109_slice.

(** Expected: the same of [x.extend(x)].  The loop reads the array that it extends: it doubles the array and then goes on
    behind the end. *)
Theorem C109_extend_self_refuted : forall m x c p d, holds m x c (mkBa (p ++ d) (8 * zlen p) (8 * zlen (p ++ d))) -> d <> [] -> bytes_ok d ->
  astep (AExtend x x) m = (Err IndexError, replaced m x c (mkBa (p ++ d ++ d) (8 * zlen p) (8 * zlen (p ++ d ++ d)))).
Proof. exact extend_itself. Qed.
Print Assumptions C109_extend_self_refuted.

(** Expected: [x.insert(0, x)] doubles the array.  It inserts zeros, copies the zeros over themselves and raises. *)
Theorem C109_insert_self_refuted : forall m x c l, holds m x c (mkBa l 0 (8 * zlen l)) -> 2 <= zlen l -> bytes_ok l ->
  astep (AInsert x 0 x) m = (Err ValueError, replaced m x c (mkBa (repeat 0 (List.length l) ++ l) 0 (8 * (zlen l + zlen l)))).
Proof. exact insert_itself. Qed.
Print Assumptions C109_insert_self_refuted.

(** An array made on the bytearray of another shares it. *)
Theorem C109_share : forall m x c s start stop, holds m x c s ->
  (0 <= start <= stop /\ stop <= 8 * zlen (ba_buf s) -> exists m', astep (AShare x start stop) m = (Ok tt, m')
     /\ holds m' (List.length (m_arrs m)) c (mkBa (ba_buf s) start stop) /\ (forall y d t, holds m y d t -> holds m' y d t))
  /\ (~ (0 <= start <= stop /\ stop <= 8 * zlen (ba_buf s)) -> astep (AShare x start stop) m = (Err AssertionError, m)).
Proof. exact share_made. Qed.
Print Assumptions C109_share.

(** An assignment of the same length through one array is seen through every other on the same bytearray, bit by bit. *)
Theorem C109_shared_seen : forall m x y c s t a b l, holds m x c s -> holds m y c t -> x <> y -> ba_ok s -> ba_ok t -> bytes_ok l ->
  let n := ba_stop s - ba_start s in hi_of n b - lo_of n a = 8 * zlen l ->
  exists s' t', astep (APlain x (PSetBytes (KSlice a b) l)) m = (Ok tt, replaced m x c s') /\ holds (replaced m x c s') y c t' /\ ba_ok t'
    /\ zlen (ba_bits t') = zlen (ba_bits t)
    /\ forall i, 0 <= i < zlen (ba_bits t) ->
         nth (Z.to_nat i) (ba_bits t') false
         = let j := ba_start t + i - (ba_start s + lo_of n a) in
           if (0 <=? j) && (j <? 8 * zlen l) then nth (Z.to_nat j) (bits_of_bytes l) false else nth (Z.to_nat i) (ba_bits t) false.
Proof. exact seen_through. Qed.
Print Assumptions C109_shared_seen.

(** The other array keeps its window: when the bytes are deleted through the first it cannot be read any more. *)
Theorem C109_shared_window_refuted : forall m x y c l t, holds m x c (mkBa l 0 (8 * zlen l)) -> holds m y c t -> x <> y -> ba_ok t -> ba_start t < ba_stop t ->
  exists m', astep (APlain x (PDel (KSlice None None))) m = (Ok tt, m') /\ holds m' x c (mkBa [] 0 0)
    /\ holds m' y c (mkBa [] (ba_start t) (ba_stop t)) /\ buf_bytes (ba_view (mkBa [] (ba_start t) (ba_stop t))) = Err IndexError.
Proof. exact window_stays. Qed.
Print Assumptions C109_shared_window_refuted.

(** Examples. *)
Definition start_mem : mem := mkMem [] [].
Definition some_ops : list aop :=
  [ANew [1; 2; 3] 0 24; ANew [170; 15] 3 14; AExtend 0 1; ASet 1 (KSlice (Some 0) (Some 8)) 0; AInsert 0 8 1; AAdd 0 0; ASlice 0 (Some 4) None; APlain 1 (PAppend 7)].
Example C109_nonvacuous : exists m' vs, unshared start_mem /\ Forall apart_op some_ops /\ vruns some_ops (contents start_mem) = (Ok tt, vs)
  /\ aruns some_ops start_mem = (Ok tt, m') /\ contents m' = vs /\ List.length vs = 4%nat /\ Forall ba_ok (firstn 2 vs).
Proof.
  do 2 eexists. split; [split; constructor|]. split; [repeat constructor; cbn; lia|]. split; [vm_compute; reflexivity|]. split; [vm_compute; reflexivity|].
  split; [vm_compute; reflexivity|]. split; [reflexivity|].
  repeat constructor; cbn; unfold is_byte; try lia.
Qed.
Definition shared_mem : mem := snd (aruns [ANew [1; 2; 3] 0 24; AShare 0 4 20] start_mem).
Example C109_nonvacuous_shared : holds shared_mem 0 0 (mkBa [1; 2; 3] 0 (8 * zlen [1; 2; 3])) /\ holds shared_mem 1 0 (mkBa [1; 2; 3] 4 20)
  /\ ba_ok (mkBa [1; 2; 3] 4 20)
  /\ astep (APlain 0 (PSetBytes (KSlice (Some 8) (Some 16)) [255])) shared_mem = (Ok tt, replaced shared_mem 0 0 (mkBa [1; 255; 3] 0 24))
  /\ fst (astep (AExtend 0 0) shared_mem) = Err IndexError /\ fst (astep (AInsert 0 0 0) shared_mem) = Err ValueError.
Proof.
  split; [split; reflexivity|]. split; [split; reflexivity|]. split; [repeat constructor; cbn; unfold is_byte; lia|].
  split; [vm_compute; reflexivity|]. split; vm_compute; reflexivity.
Qed.
