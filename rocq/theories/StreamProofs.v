(** Facts about streams: every read depends only on the bytes still ahead. *)
From Verif Require Import Base BaseProofs Stream StreamSpec.
From Coq Require Import ZArith List Bool Lia ZifyBool ZifyNat.
Import ListNotations.
Open Scope Z_scope.
Ltac Zify.zify_post_hook ::= Z.div_mod_to_equations.

Lemma skipn_skipn' {A} (a b : nat) (l : list A) : skipn a (skipn b l) = skipn (b + a) l.
Proof.
  revert l; induction b; intros l; cbn; auto.
  destruct l; auto. now rewrite skipn_nil.
Qed.

Lemma firstn_add {A} (a b : nat) (l : list A) :
  firstn (a + b) l = firstn a l ++ firstn b (skipn a l).
Proof.
  revert l; induction a; intros l; cbn; auto.
  destruct l; cbn; [now rewrite firstn_nil|]. now rewrite IHa.
Qed.

Lemma skipn_firstn_len {A} (n : nat) (l : list A) :
  skipn (length (firstn n l)) l = skipn n l.
Proof.
  rewrite firstn_length. destruct (le_lt_dec n (length l)).
  - f_equal; lia.
  - rewrite Nat.min_r by lia. now rewrite skipn_all, skipn_all2 by lia.
Qed.

Lemma skipn_min {A} (n : nat) (l : list A) : skipn (Nat.min n (length l)) l = skipn n l.
Proof. rewrite <- (firstn_length n l). apply skipn_firstn_len. Qed.
Lemma firstn_min {A} (n : nat) (l : list A) : firstn (Nat.min n (length l)) l = firstn n l.
Proof.
  destruct (le_lt_dec n (length l)).
  - f_equal; lia.
  - rewrite Nat.min_r by lia. now rewrite firstn_all, firstn_all2 by lia.
Qed.

Lemma py_slice_prefix {A} (l : list A) n :
  0 <= n <= zlen l -> py_slice l 0 n = firstn (Z.to_nat n) l.
Proof.
  intros H. unfold py_slice, py_clamp.
  destruct (Z.ltb_spec 0 0); [lia|]. destruct (Z.ltb_spec n 0); [lia|].
  rewrite (Z.min_l n) by lia. rewrite Z.min_l by (unfold zlen; lia).
  cbn [Z.to_nat skipn]. f_equal; lia.
Qed.

Lemma py_slice_suffix {A} (l : list A) n :
  0 <= n <= zlen l -> py_slice l n (zlen l) = skipn (Z.to_nat n) l.
Proof.
  intros H. unfold py_slice, py_clamp.
  destruct (Z.ltb_spec n 0); [lia|]. destruct (Z.ltb_spec (zlen l) 0); [lia|].
  rewrite (Z.min_l n) by lia. rewrite Z.min_id.
  apply firstn_all2. rewrite skipn_length. unfold zlen in *; lia.
Qed.

(** ** consume *)
Lemma consume_0 s : consume 0 s = s.
Proof.
  induction s as [d p|b [] i IH]; cbn.
  - f_equal; lia.
  - now rewrite app_nil_r, IH.
  - now rewrite IH.
Qed.

Lemma rest_consume s : stream_ok s -> forall k, rest (consume k s) = skipn k (rest s).
Proof.
  induction s as [d p|b m i IH]; intros O k; cbn [consume rest stream_ok] in *.
  - rewrite skipn_skipn'. f_equal. lia.
  - destruct m; cbn [rest].
    + auto.
    + rewrite IH by auto. now rewrite skipn_app.
Qed.

Lemma consume_consume a s : stream_ok s -> forall b, consume a (consume b s) = consume (b + a) s.
Proof.
  revert a. induction s as [d p|bf m i IH]; intros a O b; cbn [consume stream_ok] in *.
  - f_equal. lia.
  - destruct m; cbn [consume].
    + rewrite IH by auto. f_equal. rewrite rest_consume by auto.
      now rewrite <- app_assoc, <- firstn_add.
    + rewrite skipn_skipn', IH by auto. f_equal. f_equal. rewrite skipn_length. lia.
Qed.

Lemma consume_ok s : stream_ok s -> forall k, (k <= length (rest s))%nat -> stream_ok (consume k s).
Proof.
  induction s as [d p|b m i IH]; intros O k L; cbn [consume rest stream_ok] in *.
  - rewrite skipn_length in L. unfold zlen in *. lia.
  - destruct m; cbn [stream_ok]; auto.
    rewrite app_length in L. apply IH; auto. lia.
Qed.

Lemma has_tell_consume k s : has_tell (consume k s) = has_tell s.
Proof. destruct s as [|b [] i]; reflexivity. Qed.

(** ** Reads *)
Lemma sread_ok s n :
  stream_ok s -> 0 <= n <= maxsize ->
  sread n s = (Ok (firstn (Z.to_nat n) (rest s)), consume (Nat.min (Z.to_nat n) (length (rest s))) s).
Proof.
  unfold sread. revert n. induction s as [data pos|buffer mode inner IH]; intros n Hok Hn; cbn [sread_].
  - replace ((n <? - maxsize - 1) || (maxsize <? n)) with false by (unfold maxsize in *; lia).
    destruct (Z.ltb_spec n 0); [lia|]. cbn [rest consume]. unfold zlen.
    now rewrite firstn_length.
  - cbn [rest stream_ok consume] in *. destruct (Z.ltb_spec n 0); [lia|]. destruct mode.
    + rewrite (IH n Hok Hn). now rewrite firstn_min.
    + set (k := Z.min (zlen buffer) n).
      assert (E1 : (if zlen buffer >? 0 then py_slice buffer 0 k else []) = firstn (Z.to_nat n) buffer).
      { destruct (Z.gtb_spec (zlen buffer) 0).
        - rewrite py_slice_prefix by lia. unfold k.
          destruct (Z.min_spec (zlen buffer) n) as [[? ->]|[? ->]]; auto.
          rewrite !firstn_all2; auto; unfold zlen in *; lia.
        - destruct buffer; [now rewrite firstn_nil|]. unfold zlen in *; cbn in *; lia. }
      assert (E2 : (if zlen buffer >? 0 then py_slice buffer k (zlen buffer) else buffer)
                   = skipn (Z.to_nat n) buffer).
      { destruct (Z.gtb_spec (zlen buffer) 0).
        - rewrite py_slice_suffix by lia. unfold k.
          destruct (Z.min_spec (zlen buffer) n) as [[? ->]|[? ->]]; auto.
          rewrite !skipn_all2; auto; unfold zlen in *; lia.
        - destruct buffer; [now rewrite skipn_nil|]. unfold zlen in *; cbn in *; lia. }
      rewrite E1, E2. set (r1 := firstn (Z.to_nat n) buffer).
      assert (L1 : zlen r1 = Z.min n (zlen buffer)).
      { unfold r1, zlen. rewrite firstn_length. lia. }
      rewrite firstn_app, app_length. fold r1.
      assert (S1 : skipn (Nat.min (Z.to_nat n) (length buffer + length (rest inner))) buffer
                   = skipn (Z.to_nat n) buffer).
      { destruct (le_lt_dec (Z.to_nat n) (length buffer)).
        - f_equal; lia.
        - rewrite !skipn_all2 by lia. reflexivity. }
      rewrite S1. pose proof (zlen_nonneg r1).
      destruct (Z.ltb_spec (zlen r1) n).
      * rewrite (IH (n - zlen r1) Hok ltac:(lia)).
        assert (Z.to_nat (n - zlen r1) = Z.to_nat n - length buffer)%nat as ->
          by (unfold zlen in *; lia).
        f_equal. f_equal. f_equal. lia.
      * replace (Z.to_nat n - length buffer)%nat with O by (unfold zlen in *; lia).
        replace (Nat.min (Z.to_nat n) (length buffer + length (rest inner)) - length buffer)%nat
          with O by (unfold zlen in *; lia).
        cbn [firstn]. now rewrite app_nil_r, consume_0.
Qed.

(** Outside read-ahead mode the buffer is used up first. *)
Lemma sread_buffered b i n : 0 <= n ->
  sread n (SReadAhead b false i)
  = match sread (n - zlen (firstn (Z.to_nat n) b)) i with
    | (r, i') => if zlen (firstn (Z.to_nat n) b) <? n
                 then (match r with Ok r2 => Ok (firstn (Z.to_nat n) b ++ r2) | Err e => Err e end,
                       SReadAhead (skipn (Z.to_nat n) b) false i')
                 else (Ok (firstn (Z.to_nat n) b), SReadAhead (skipn (Z.to_nat n) b) false i)
    end.
Proof.
  intros Hn. unfold sread. cbn [sread_]. destruct (Z.ltb_spec n 0); [lia|].
  set (k := Z.min (zlen b) n).
  assert (E1 : (if zlen b >? 0 then py_slice b 0 k else []) = firstn (Z.to_nat n) b).
  { destruct (Z.gtb_spec (zlen b) 0).
    - rewrite py_slice_prefix by lia. unfold k.
      destruct (Z.min_spec (zlen b) n) as [[? ->]|[? ->]]; auto.
      rewrite !firstn_all2; auto; unfold zlen in *; lia.
    - destruct b; [now rewrite firstn_nil|]. unfold zlen in *; cbn in *; lia. }
  assert (E2 : (if zlen b >? 0 then py_slice b k (zlen b) else b) = skipn (Z.to_nat n) b).
  { destruct (Z.gtb_spec (zlen b) 0).
    - rewrite py_slice_suffix by lia. unfold k.
      destruct (Z.min_spec (zlen b) n) as [[? ->]|[? ->]]; auto.
      rewrite !skipn_all2; auto; unfold zlen in *; lia.
    - destruct b; [now rewrite skipn_nil|]. unfold zlen in *; cbn in *; lia. }
  rewrite E1, E2.
  destruct (sread_ i (n - zlen (firstn (Z.to_nat n) b))) as [[r|e] i']; reflexivity.
Qed.

(** Whatever the size asked for, a successful read returns the bytes it takes. *)
Lemma sread_any s : stream_ok s -> forall n b s',
  sread n s = (Ok b, s') ->
  exists k, s' = consume k s /\ (k <= length (rest s))%nat /\ b = firstn k (rest s).
Proof.
  induction s as [data pos|buffer mode inner IH]; intros Hok n b s' E.
  - unfold sread in E. cbn [sread_ rest stream_ok] in *.
    destruct (_ || _); [discriminate|].
    injection E as <- <-. destruct (Z.ltb_spec n 0).
    + exists (length (skipn (Z.to_nat pos) data)). repeat split; auto. now rewrite firstn_all.
    + exists (length (firstn (Z.to_nat n) (skipn (Z.to_nat pos) data))).
      rewrite firstn_length. repeat split; auto; [|lia|now rewrite firstn_min].
      cbn [consume]. unfold zlen. now rewrite firstn_length.
  - destruct mode.
    + unfold sread in *. cbn [sread_ rest stream_ok] in *.
      destruct (Z.ltb_spec n 0); [discriminate|].
      destruct (sread_ inner n) as [[r|e] i'] eqn:F; [|discriminate].
      injection E as <- <-. destruct (IH Hok n r i' F) as (k & -> & L & ->).
      exists k. auto.
    + destruct (Z.ltb_spec n 0) as [Hn|Hn].
      { unfold sread in E. cbn [sread_] in E. destruct (Z.ltb_spec n 0); [discriminate|lia]. }
      rewrite sread_buffered in E by lia. cbn [rest stream_ok consume] in *.
      destruct (sread (n - zlen (firstn (Z.to_nat n) buffer)) inner) as [r i'] eqn:F.
      rewrite zlen_firstn in E. destruct (Z.ltb_spec (Z.min (Z.of_nat (Z.to_nat n)) (zlen buffer)) n).
      * destruct r as [r|e]; [|discriminate]. injection E as <- <-.
        destruct (IH Hok _ _ _ F) as (k & -> & L & ->).
        exists (length buffer + k)%nat. rewrite app_length. unfold zlen in *.
        rewrite !skipn_all2, firstn_all2 by lia. rewrite firstn_app_2.
        repeat split; auto; try lia. f_equal. f_equal. lia.
      * injection E as <- <-. exists (Z.to_nat n). rewrite app_length. unfold zlen in *.
        replace (Z.to_nat n - length buffer)%nat with O by lia.
        rewrite consume_0. repeat split; auto; [lia|].
        rewrite firstn_app. replace (Z.to_nat n - length buffer)%nat with O by lia.
        cbn [firstn]. now rewrite app_nil_r.
Qed.

(** Reading exactly a known prefix. *)
Lemma sread_prefix s b t :
  stream_ok s -> rest s = b ++ t -> zlen b <= maxsize ->
  sread (zlen b) s = (Ok b, consume (length b) s).
Proof.
  intros Hok R L. rewrite sread_ok by (unfold zlen in *; auto; lia).
  rewrite R. unfold zlen. rewrite Nat2Z.id, app_length.
  rewrite firstn_app, firstn_all, Nat.sub_diag, firstn_O, app_nil_r. f_equal. f_equal. lia.
Qed.

Lemma rest_after s b t : stream_ok s -> rest s = b ++ t ->
  rest (consume (length b) s) = t /\ stream_ok (consume (length b) s).
Proof.
  intros Hok R. split.
  - rewrite rest_consume, R by auto. now rewrite skipn_app, skipn_all, Nat.sub_diag.
  - apply consume_ok; auto. rewrite R, app_length. lia.
Qed.

Lemma stream_of_ok data : stream_ok (stream_of data) /\ rest (stream_of data) = data.
Proof. cbn. unfold zlen. split; auto; lia. Qed.

(** ** User programs *)
Lemma run_rprog_any {A} (p : rprog A) : forall s a s',
  stream_ok s -> run_rprog p s = (Ok a, s') ->
  exists k, s' = consume k s /\ (k <= length (rest s))%nat.
Proof.
  induction p as [r|n kk IH]; intros s a s' Hok; cbn [run_rprog].
  - unfold slift. intros E; injection E as -> <-. exists O. rewrite consume_0. split; auto; lia.
  - unfold sbind. destruct (sread n s) as [[b|e] t] eqn:F; [|discriminate].
    intros E. destruct (sread_any s Hok n b t F) as (k & -> & L & ->).
    destruct (IH _ _ _ _ (consume_ok s Hok k L) E) as (k2 & -> & L2).
    exists (k + k2)%nat. rewrite consume_consume by auto. split; auto.
    rewrite rest_consume in L2 by auto. rewrite skipn_length in L2. lia.
Qed.

(** An ordinary program depends only on the bytes ahead. *)
Lemma run_rprog_sim {A} (p : rprog A) : rprog_ok p -> forall s1 s2,
  stream_ok s1 -> stream_ok s2 -> rest s1 = rest s2 ->
  exists r k, run_rprog p s1 = (r, consume k s1) /\ run_rprog p s2 = (r, consume k s2)
    /\ (k <= length (rest s1))%nat.
Proof.
  induction 1 as [r|n kk Hn Hk IH]; intros s1 s2 O1 O2 R; cbn [run_rprog].
  - unfold slift. exists r, O. rewrite !consume_0. repeat split; auto; lia.
  - unfold sbind. rewrite !sread_ok by auto. rewrite R.
    set (k := Nat.min (Z.to_nat n) (length (rest s2))).
    destruct (IH (firstn (Z.to_nat n) (rest s2)) (consume k s1) (consume k s2)) as (r & k2 & E1 & E2 & L).
    + apply consume_ok; auto. rewrite R. unfold k; lia.
    + apply consume_ok; auto. unfold k; lia.
    + rewrite !rest_consume by auto. now rewrite R.
    + rewrite E1, E2. exists r, (k + k2)%nat. rewrite !consume_consume by auto.
      repeat split; auto. rewrite rest_consume in L by auto. rewrite skipn_length, R in L.
      unfold k in *; lia.
Qed.

(** Bytes peeked by an ordinary program end up in the buffer and stay ahead. *)
Lemma rest_after_peek k s : stream_ok s -> (k <= length (rest s))%nat ->
  rest (SReadAhead (firstn k (rest s)) false (consume k s)) = rest s.
Proof.
  intros Hok L. cbn [rest]. rewrite rest_consume by auto. apply firstn_skipn.
Qed.

(** ** Lists of reads *)
Definition read_size_ok (n : Z) : Prop := 0 <= n <= maxsize.

Lemma do_reads_sim ns : Forall read_size_ok ns -> forall s1 s2,
  stream_ok s1 -> stream_ok s2 -> rest s1 = rest s2 ->
  exists r k, do_reads ns s1 = (Ok r, consume k s1) /\ do_reads ns s2 = (Ok r, consume k s2)
    /\ (k <= length (rest s1))%nat /\ length (concat r) = k /\ concat r = firstn k (rest s1).
Proof.
  induction 1 as [|n ns Hn Hns IH]; intros s1 s2 O1 O2 R; cbn [do_reads].
  - unfold sret. exists [], O. rewrite !consume_0. repeat split; auto; cbn; lia.
  - unfold sbind, sret. rewrite !sread_ok by auto. rewrite R.
    set (k := Nat.min (Z.to_nat n) (length (rest s2))).
    destruct (IH (consume k s1) (consume k s2)) as (r & k2 & E1 & E2 & L & C & D).
    + apply consume_ok; auto. rewrite R. unfold k; lia.
    + apply consume_ok; auto. unfold k; lia.
    + rewrite !rest_consume by auto. now rewrite R.
    + rewrite E1, E2. exists (firstn (Z.to_nat n) (rest s2) :: r), (k + k2)%nat.
      rewrite !consume_consume by auto.
      rewrite rest_consume in L by auto. rewrite skipn_length, R in L.
      rewrite rest_consume, R in D by auto.
      repeat split; auto.
      * unfold k in *; lia.
      * cbn [concat]. rewrite app_length, C, firstn_length. reflexivity.
      * cbn [concat]. rewrite firstn_add, D. f_equal. unfold k. now rewrite firstn_min.
Qed.
