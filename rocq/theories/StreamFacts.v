(** Read-ahead streams: the facts behind C09 and C10. *)
From Verif Require Import Base BaseProofs Stream StreamSpec StreamProofs.
From Coq Require Import ZArith List Bool Lia ZifyBool ZifyNat.
Import ListNotations.
Open Scope Z_scope.
Ltac Zify.zify_post_hook ::= Z.div_mod_to_equations.

Lemma ra_history ops : Forall op_size_ok ops -> forall mode buf i s,
  stream_ok i -> stream_ok s -> buf ++ rest i = rest s ->
  exists l mode' buf' i' k,
    run_ops ops mode (SReadAhead buf mode i) = (Ok l, SReadAhead buf' mode' i')
    /\ do_reads (normal_sizes ops mode) s = (Ok (normal_answers l), consume k s)
    /\ stream_ok i' /\ stream_ok (consume k s) /\ buf' ++ rest i' = rest (consume k s).
Proof.
  induction 1 as [|o ops Ho _ IH]; intros mode buf i s Oi Os R.
  - exists [], mode, buf, i, O. cbn. unfold sret. rewrite consume_0. auto.
  - destruct o as [m|n]; cbn [run_ops normal_sizes op_size_ok] in *.
    + unfold sbind. cbn [set_read_ahead]. apply IH; auto.
    + destruct mode.
      * unfold sbind. rewrite sread_ok by (cbn [stream_ok]; auto). cbn [rest consume].
        set (k := Nat.min (Z.to_nat n) (length (rest i))).
        destruct (IH true (buf ++ firstn k (rest i)) (consume k i) s) as (l & m' & b' & i' & k' & E1 & E2 & P).
        -- apply consume_ok; auto. unfold k; lia.
        -- auto.
        -- rewrite rest_consume by auto. rewrite <- app_assoc, firstn_skipn. auto.
        -- rewrite E1. exists ((true, firstn (Z.to_nat n) (rest i)) :: l), m', b', i', k'.
           split; auto.
      * unfold sbind. rewrite sread_ok by (cbn [stream_ok]; auto). cbn [rest consume].
        rewrite R. set (k := Nat.min (Z.to_nat n) (length (rest s))).
        destruct (IH false (skipn k buf) (consume (k - length buf) i) (consume k s))
          as (l & m' & b' & i' & k' & E1 & E2 & O1 & O2 & E3).
        -- apply consume_ok; auto. apply (f_equal (@length Z)) in R. rewrite app_length in R.
           unfold k; lia.
        -- apply consume_ok; auto. unfold k; lia.
        -- rewrite !rest_consume by auto. rewrite <- R, skipn_app. reflexivity.
        -- rewrite E1. exists ((false, firstn (Z.to_nat n) (rest s)) :: l), m', b', i', (k + k')%nat.
           cbn [do_reads normal_answers filter map fst snd negb]. unfold sbind.
           rewrite sread_ok by auto. fold k. rewrite E2. unfold sret.
           rewrite consume_consume in * by auto. auto.
Qed.

Lemma ra_transparent ops s :
  Forall op_size_ok ops -> stream_ok s ->
  exists answers s',
    run_ops ops false (SReadAhead [] false s) = (Ok answers, s')
    /\ fst (do_reads (normal_sizes ops false) s) = Ok (normal_answers answers).
Proof.
  intros H O. destruct (ra_history ops H false [] s s O O eq_refl) as (l & m & b & i & k & E1 & E2 & _).
  exists l, (SReadAhead b m i). now rewrite E2.
Qed.

Lemma peeked_are_next peeks s : Forall read_size_ok peeks -> stream_ok s ->
  exists p k, do_reads peeks (SReadAhead [] true s) = (Ok p, SReadAhead (firstn k (rest s)) true (consume k s))
    /\ do_reads peeks s = (Ok p, consume k s)
    /\ (k <= length (rest s))%nat /\ length (concat p) = k.
Proof.
  intros H O. destruct (do_reads_sim peeks H (SReadAhead [] true s) s) as (p & k & E1 & E2 & L & C & D); auto.
  exists p, k. rewrite E1. cbn [consume app rest] in *. auto.
Qed.

Lemma do_reads_count ns : Forall read_size_ok ns -> forall s, stream_ok s -> forall r k,
  do_reads ns s = (Ok r, consume k s) -> length (concat r) = k -> (k <= length (rest s))%nat ->
  forall p, p <= Z.of_nat (length (rest s)) -> (p <= Z.of_nat k <-> p <= fold_left Z.add ns 0).
Proof.
  induction 1 as [|n ns Hn Hns IH]; intros s O r k E C L p Hp; cbn [do_reads] in E.
  - injection E as <- _. cbn in *. lia.
  - assert (F : forall l a, fold_left Z.add l a = a + fold_left Z.add l 0).
    { clear. induction l as [|x l IH]; intros a; cbn; [lia|]. rewrite IH, (IH x). lia. }
    unfold sbind in E. rewrite sread_ok in E by auto.
    set (k1 := Nat.min (Z.to_nat n) (length (rest s))) in *.
    destruct (do_reads_sim ns Hns (consume k1 s) (consume k1 s)) as (r' & k' & E1 & _ & L' & C' & _); auto;
      try (apply consume_ok; auto; unfold k1; lia).
    rewrite E1 in E. unfold sret in E. injection E as <- E.
    cbn [concat] in C. rewrite app_length, C', firstn_length in C. fold k1 in C.
    specialize (IH (consume k1 s)). rewrite rest_consume in IH, L' by auto. rewrite skipn_length in IH, L'.
    assert (O1 : stream_ok (consume k1 s)) by (apply consume_ok; auto; unfold k1; lia).
    specialize (IH O1 r' k' E1 C' L' (p - Z.of_nat k1)).
    cbn [fold_left]. rewrite F. unfold read_size_ok in Hn.
    assert (0 <= fold_left Z.add ns 0).
    { clear -Hns F. induction Hns as [|x l Hx _ IH]; cbn; [lia|]. rewrite F. unfold read_size_ok in Hx. lia. }
    unfold k1 in *. lia.
Qed.

Lemma read_ahead_empty_iff peeks reads s :
  Forall read_size_ok peeks -> Forall read_size_ok reads -> stream_ok s ->
  exists p r e buf inner,
    peek_then_read peeks reads (SReadAhead [] false s) = (Ok (p, r, e), SReadAhead buf false inner)
    /\ fst (do_reads peeks s) = Ok p
    /\ fst (do_reads reads s) = Ok r
    /\ (e = true <-> Z.of_nat (length (concat p)) <= fold_left Z.add reads 0)
    /\ (e = true -> inner = snd (do_reads reads s)).
Proof.
  intros Hp Hr O. destruct (peeked_are_next peeks s Hp O) as (p & k & E1 & E1' & L & C).
  set (w := SReadAhead (firstn k (rest s)) false (consume k s)).
  assert (Ow : stream_ok w) by (cbn; now apply consume_ok).
  destruct (do_reads_sim reads Hr w s) as (r & q & F1 & F2 & Lq & Cr & Dr); auto.
  { now apply rest_after_peek. }
  assert (Rw : rest w = rest s) by now apply rest_after_peek.
  rewrite Rw in Lq.
  exists p, r, (k <=? q)%nat, (skipn q (firstn k (rest s))), (consume (q - k) (consume k s)).
  assert (Lk : length (firstn k (rest s)) = k) by (rewrite firstn_length; lia).
  split.
  { unfold peek_then_read, sbind. cbn [set_read_ahead]. rewrite E1. cbn [set_read_ahead].
    fold w. rewrite F1. unfold w. cbn [consume is_read_ahead_empty]. rewrite Lk.
    unfold sret. do 3 f_equal. rewrite zlen_skipn. unfold zlen. rewrite Lk. lia. }
  rewrite E1', F2. cbn [fst snd]. split; auto. split; auto.
  rewrite C. split.
  - rewrite <- (do_reads_count reads Hr s O r q F2 Cr Lq) by lia. lia.
  - intros Q. rewrite consume_consume by auto. f_equal. lia.
Qed.

Lemma write_fails ops s data :
  Forall op_size_ok ops -> stream_ok s ->
  exists waiting mode inner,
    snd (run_ops ops false (SReadAhead [] false s)) = SReadAhead waiting mode inner
    /\ ra_write data (SReadAhead waiting mode inner)
       = (Err (match waiting with [] => AttributeError | _ => IOError end), SReadAhead waiting mode inner).
Proof.
  intros H O. destruct (ra_history ops H false [] s s O O eq_refl) as (l & m & b & i & k & E1 & E2 & _).
  exists b, m, i. split; [now rewrite E1|]. cbn [ra_write]. destruct b; [reflexivity|]. unfold zlen. cbn [length].
  destruct (Z.gtb_spec (Z.of_nat (S (length b))) 0); [reflexivity|lia].
Qed.
