(** Reading the same bytes from different streams: the facts behind C16, C28 and C52. *)
From Verif Require Import Base BaseProofs IntCodec IntCodecProofs FloatProofs BitStringIO BitStringIOProofs
  Stream StreamSpec StreamProofs MinMax Marshal MarshalInd MarshalSpec BitFieldSpec BitFieldProofs SimSpec.
From Coq Require Import ZArith List Bool String Lia ZifyBool ZifyNat.
Import ListNotations.
Open Scope Z_scope.
Ltac Zify.zify_post_hook ::= Z.div_mod_to_equations.

Lemma sbind_inv {S A B} (m : stM S A) (f : A -> stM S B) s b s' :
  sbind m f s = (Ok b, s') -> exists a s1, m s = (Ok a, s1) /\ f a s1 = (Ok b, s').
Proof. unfold sbind. destruct (m s) as [[a|e] s1]; [eauto|discriminate]. Qed.
Lemma slift_inv {S A} (r : res A) (s : S) a s' : slift r s = (Ok a, s') -> r = Ok a /\ s' = s.
Proof. unfold slift. intros E. injection E as -> ->. auto. Qed.

(** ** One read *)
Lemma sread_sim s1 s2 q n b s1' :
  stream_ok s1 -> stream_ok s2 -> rest s2 = rest s1 ++ q -> n <= maxsize ->
  sread n s1 = (Ok b, s1') ->
  (0 <= n /\ (q = [] \/ n <= zlen b)) \/ (n < 0 /\ q = [] /\ (has_tell s1 = true -> has_tell s2 = true)) ->
  exists k, s1' = consume k s1 /\ (k <= List.length (rest s1))%nat /\ b = firstn k (rest s1)
            /\ sread n s2 = (Ok b, consume k s2).
Proof.
  intros O1 O2 R N E [[H0 H]|(H0 & -> & T)].
  - rewrite sread_ok in E by auto. injection E as <- <-.
    exists (Nat.min (Z.to_nat n) (List.length (rest s1))). split; [auto|]. split; [lia|].
    split; [now rewrite firstn_min|].
    rewrite sread_ok by auto. rewrite R, app_length. destruct H as [->|H].
    + rewrite app_nil_r. cbn [List.length]. do 2 f_equal. lia.
    + rewrite zlen_firstn in H. unfold zlen in H.
      rewrite firstn_app. replace (Z.to_nat n - List.length (rest s1))%nat with O by lia.
      rewrite app_nil_r. do 2 f_equal. lia.
  - rewrite app_nil_r in R.
    destruct s1 as [d1 p1|]; [|cbn in E; destruct (n <? 0) eqn:Q; [discriminate|lia]].
    destruct s2 as [d2 p2|]; [|discriminate (T eq_refl)]. clear T.
    unfold sread in *. cbn [sread_] in *.
    destruct ((n <? - maxsize - 1) || (maxsize <? n)); [discriminate|].
    destruct (n <? 0) eqn:Q; [|lia]. cbn [rest stream_ok] in *. injection E as <- <-.
    exists (List.length (skipn (Z.to_nat p1) d1)). rewrite R. cbn [consume].
    unfold zlen. rewrite firstn_all. auto.
Qed.

(** ** Bit groups cannot be read from too few bytes *)
Lemma bs_read_inv n s x s' : bs_read n s = (Ok x, s') ->
  s' = mkBsio (bs_pos s + n) (bs_val s) /\ bs_pos s + n <= 8 * zlen (bs_val s).
Proof.
  unfold bs_read, sbind at 1, sget. destruct (_ <? _) eqn:Q; [discriminate|].
  unfold sbind, slift, sput, sret.
  match goal with |- (match (let (_, _) := ?r in _) with _ => _ end) = _ -> _ => idtac | _ => idtac end.
  intros E. match type of E with context [match ?r with Ok _ => _ | Err _ => _ end] => destruct r; [|discriminate] end.
  injection E as _ <-. split; [auto|lia].
Qed.

Lemma bm_read_seq m : bm_sequential m = true -> forall s v s',
  bm_read m s = (Ok v, s') -> bs_val s' = bs_val s /\ bs_pos s' = bs_pos s + bm_size m
    /\ bs_pos s + bm_size m <= 8 * zlen (bs_val s).
Proof.
  induction m; cbn [bm_sequential bm_read bm_size]; intros Q s v s' E; try discriminate.
  - apply sbind_inv in E as (x & s1 & E1 & E). injection E as _ <-.
    apply bs_read_inv in E1 as [-> ?]. auto.
  - apply sbind_inv in E as (x & s1 & E1 & E). injection E as _ <-.
    apply bs_read_inv in E1 as [-> ?]. auto.
  - apply sbind_inv in E as (x & s1 & E1 & E). apply slift_inv in E as [_ ->]. eauto.
Qed.

Lemma read_bitfield_inv f st u st' : read_bitfield f st = (Ok u, st') ->
  exists v, bm_read (bf_marshal f) (fst st) = (Ok v, fst st').
Proof.
  unfold read_bitfield. destruct (bm_read (bf_marshal f) (fst st)) as [[v|e] b']; [|discriminate].
  intros E. exists v. destruct f as [n m d|m|n m k]; [| |destruct (py_eq v k); [|discriminate]];
    injection E as _ <-; reflexivity.
Qed.

Lemma seq_bits_need fs : Forall (fun f => bm_sequential (bf_marshal f) = true
                                          /\ 0 <= bm_size (bf_marshal f)) fs ->
  forall st u st', sforeach fs read_bitfield st = (Ok u, st') -> fs <> [] ->
  bs_pos (fst st) + total_bits fs <= 8 * zlen (bs_val (fst st)).
Proof.
  unfold total_bits. induction 1 as [|f fs [Q N] _ IH]; intros st u st' E NE; [now destruct NE|].
  cbn [sforeach] in E. apply sbind_inv in E as (u1 & st1 & E1 & E).
  apply read_bitfield_inv in E1 as [v Ev]. apply bm_read_seq in Ev as (V & P & L); auto.
  cbn [map]. rewrite sum_cons. destruct fs as [|g fs]; [cbn [map fold_left]; lia|].
  specialize (IH _ _ _ E ltac:(discriminate)). rewrite V, P in IH. lia.
Qed.

Lemma bm_pos_read_reach sl : forall acc bits s x s', bm_pos_read sl acc bits s = (Ok x, s') ->
  bs_val s' = bs_val s /\ Forall (fun t => snd t <= 8 * zlen (bs_val s)) sl.
Proof.
  induction sl as [|[a b] sl IH]; intros acc bits s x s' E; cbn [bm_pos_read] in E.
  - injection E as _ <-. auto.
  - apply sbind_inv in E as (u & s1 & E1 & E).
    unfold bs_seek, sbind, sget, sput, slift, passert in E1.
    destruct (_ && _) eqn:Q; [|discriminate]. injection E1 as <- <-.
    apply sbind_inv in E as (y & s2 & E2 & E). apply bs_read_inv in E2 as [-> L].
    apply IH in E as [V F]. cbn [bs_val bs_pos] in *. split; [auto|]. constructor; auto. cbn [snd]. lia.
Qed.

Lemma bm_read_reach m k : bm_reaches m k -> forall s v s', bm_read m s = (Ok v, s') -> k < 8 * zlen (bs_val s).
Proof.
  induction m; cbn [bm_reaches bm_read]; intros R s v s' E; try contradiction.
  - apply sbind_inv in E as (x & s1 & E1 & E). eauto.
  - apply sbind_inv in E as (x & s1 & E1 & E). apply bm_pos_read_reach in E1 as [_ F].
    apply Exists_exists in R as (t & I & Q). rewrite Forall_forall in F. specialize (F t I). lia.
Qed.

Lemma bm_read_val m : forall s v s', bm_read m s = (Ok v, s') -> bs_val s' = bs_val s.
Proof.
  induction m; cbn [bm_read]; intros s v s' E.
  - apply sbind_inv in E as (x & s1 & E1 & E). injection E as _ <-. now apply bs_read_inv in E1 as [-> ?].
  - apply sbind_inv in E as (x & s1 & E1 & E). injection E as _ <-. now apply bs_read_inv in E1 as [-> ?].
  - apply sbind_inv in E as (x & s1 & E1 & E). apply slift_inv in E as [_ ->]. eauto.
  - apply sbind_inv in E as (x & s1 & E1 & E). injection E as _ <-. now apply bm_pos_read_reach in E1.
Qed.

Lemma pos_bits_need fs k : Exists (fun f => bm_reaches (bf_marshal f) k) fs ->
  forall st u st', sforeach fs read_bitfield st = (Ok u, st') -> k < 8 * zlen (bs_val (fst st)).
Proof.
  induction 1 as [f fs R|f fs _ IH]; intros st u st' E; cbn [sforeach] in E;
    apply sbind_inv in E as (u1 & st1 & E1 & E); apply read_bitfield_inv in E1 as [v Ev].
  - eapply bm_read_reach; eauto.
  - apply IH in E. now rewrite (bm_read_val _ _ _ _ Ev) in E.
Qed.

(** ** User programs *)
Lemma run_rprog_ext {A} strict (p : rprog A) : prog_okay strict p -> forall q s1 s2 a s1',
  (q = [] \/ strict = true) ->
  stream_ok s1 -> stream_ok s2 -> rest s2 = rest s1 ++ q -> run_rprog p s1 = (Ok a, s1') ->
  exists k, s1' = consume k s1 /\ (k <= List.length (rest s1))%nat /\ run_rprog p s2 = (Ok a, consume k s2).
Proof.
  destruct strict; cbn [prog_okay].
  - induction 1 as [r|n k N F _ IH]; intros q s1 s2 a s1' Q O1 O2 R E; cbn [run_rprog] in *.
    + apply slift_inv in E as [-> ->]. exists O. rewrite !consume_0. split; [auto|]. split; [lia|auto].
    + apply sbind_inv in E as (b & s3 & E1 & E).
      assert (n <= zlen b) as L.
      { destruct (Z_le_gt_dec n (zlen b)); auto. exfalso. eapply (F b); eauto. lia. }
      destruct (sread_sim s1 s2 q n b s3) as (j & -> & J & Eb & E2); auto; try lia.
      destruct (IH b q (consume j s1) (consume j s2) a s1') as (i & -> & I & E3);
        auto using consume_ok.
      { apply consume_ok; auto. rewrite R, app_length. lia. }
      { rewrite !rest_consume by auto. rewrite R, skipn_app.
        replace (j - List.length (rest s1))%nat with O by lia. auto. }
      exists (j + i)%nat. rewrite rest_consume, skipn_length in I by auto.
      rewrite !consume_consume in * by auto. split; [auto|]. split; [lia|].
      unfold sbind. now rewrite E2, E3.
  - intros P q s1 s2 a s1' [->|] O1 O2 R E; [|discriminate]. rewrite app_nil_r in R.
    destruct (run_rprog_sim p P s1 s2) as (r & k & E1 & E2 & K); auto.
    rewrite E1 in E. injection E as -> <-. exists k. auto.
Qed.

(** ** The main induction *)
Fixpoint portable_fields (h : host) (x t : bool) (fs : list field) : Prop :=
  match fs with [] => True | f :: r => portable_field h x t f /\ portable_fields h x t r end.
Lemma portable_struct h x t cls cctx fs :
  portable h x t (MStruct cls cctx fs) <-> portable_fields h x t fs.
Proof. cbn [portable]. induction fs; cbn; [tauto|]. rewrite IHfs. tauto. Qed.
Lemma portable_group h x t fs : portable_field h x t (FGroup fs) <-> portable_fields h x t fs.
Proof. cbn [portable_field]. induction fs; cbn; [tauto|]. rewrite IHfs. tauto. Qed.

Section Sim.
Variable h : host.

(** [s2] holds the bytes of [s1], followed by [q]. *)
Definition same_data (x t : bool) (q : list Z) (s1 s2 : stream) : Prop :=
  (q = [] \/ x = true) /\ stream_ok s1 /\ stream_ok s2 /\ rest s2 = rest s1 ++ q
  /\ (t = false -> has_tell s1 = true -> has_tell s2 = true)
  /\ zlen (rest s1) <= maxsize /\ bytes_ok (rest s1).

Definition Xm (m : marshal) : Prop := forall x t q s1 s2 c v s1',
  portable h x t m -> same_data x t q s1 s2 -> read h m c s1 = (Ok v, s1') ->
  exists k, s1' = consume k s1 /\ (k <= List.length (rest s1))%nat /\ read h m c s2 = (Ok v, consume k s2).
Definition Xf (f : field) : Prop := forall x t q s1 s2 cls cctx c a s1' a',
  portable_field h x t f -> same_data x t q s1 s2 ->
  read_field h cls cctx f c (s1, a) = (Ok tt, (s1', a')) ->
  exists k, s1' = consume k s1 /\ (k <= List.length (rest s1))%nat
    /\ read_field h cls cctx f c (s2, a) = (Ok tt, (consume k s2, a')).

Lemma same_data_consume x t q s1 s2 k : same_data x t q s1 s2 -> (k <= List.length (rest s1))%nat ->
  same_data x t q (consume k s1) (consume k s2).
Proof.
  intros (Q & O1 & O2 & R & T & L & B) K.
  assert (rest (consume k s1) = skipn k (rest s1)) as R1 by (apply rest_consume; auto).
  split; [auto|]. split; [apply consume_ok; auto|].
  split; [apply consume_ok; auto; rewrite R, app_length; lia|].
  split; [|split; [|split]].
  - rewrite R1, rest_consume by auto. rewrite R, skipn_app.
    now replace (k - List.length (rest s1))%nat with O by lia.
  - now rewrite !has_tell_consume.
  - rewrite R1, zlen_skipn. pose proof (zlen_nonneg (rest s1)). lia.
  - rewrite R1. now apply bytes_ok_skipn.
Qed.

Lemma then_consume s j i : stream_ok s -> (j <= List.length (rest s))%nat ->
  (i <= List.length (rest (consume j s)))%nat ->
  consume i (consume j s) = consume (j + i) s /\ (j + i <= List.length (rest s))%nat.
Proof.
  intros O J I. rewrite rest_consume, skipn_length in I by auto. rewrite consume_consume by auto.
  split; [auto|lia].
Qed.

(** A read of a fixed number of bytes that must all be there. *)
Lemma sread_full x t q s1 s2 n b s1' : same_data x t q s1 s2 ->
  sread n s1 = (Ok b, s1') -> n <= zlen b -> (x || t = true -> 0 <= n) ->
  exists k, s1' = consume k s1 /\ (k <= List.length (rest s1))%nat /\ sread n s2 = (Ok b, consume k s2).
Proof.
  intros (Q & O1 & O2 & R & T & L & B) E F N.
  destruct (sread_any _ O1 _ _ _ E) as (k' & _ & K' & Eb).
  assert (n <= maxsize).
  { subst b. rewrite zlen_firstn in F. unfold zlen in *. lia. }
  destruct (sread_sim s1 s2 q n b s1') as (k & H1 & H2 & H3 & H4); auto; [|exists k; auto].
  destruct (Z_lt_ge_dec n 0); [right|left; split; [lia|auto]].
  destruct x; [specialize (N eq_refl); lia|]. destruct t; [specialize (N eq_refl); lia|].
  destruct Q as [->|]; [auto|discriminate].
Qed.

Lemma loop_sim el x t q c : Xm el -> portable h x t el -> forall n s1 s2 l s1',
  same_data x t q s1 s2 -> stM_loop n (read h el c) s1 = (Ok l, s1') ->
  exists k, s1' = consume k s1 /\ (k <= List.length (rest s1))%nat
    /\ stM_loop n (read h el c) s2 = (Ok l, consume k s2).
Proof.
  intros X P. induction n as [|n IH]; intros s1 s2 l s1' D E.
  - injection E as <- <-. exists O. rewrite !consume_0. split; [auto|]. split; [lia|reflexivity].
  - change (stM_loop (S n) (read h el c) s1) with
      (sbind (read h el c) (fun y => sbind (stM_loop n (read h el c)) (fun r => sret (y :: r))) s1) in E.
    apply sbind_inv in E as (y & s3 & E1 & E). apply sbind_inv in E as (r & s4 & E2 & E).
    injection E as <- <-.
    destruct (X _ _ _ _ _ _ _ _ P D E1) as (j & -> & J & F1).
    pose proof (same_data_consume _ _ _ _ _ j D J) as D'.
    destruct (IH _ _ _ _ D' E2) as (i & -> & I & F2).
    destruct D as (_ & O1 & O2 & R & _). destruct (then_consume _ _ _ O1 J I) as [-> L].
    exists (j + i)%nat. split; [auto|]. split; [auto|].
    change (stM_loop (S n) (read h el c) s2) with
      (sbind (read h el c) (fun y => sbind (stM_loop n (read h el c)) (fun r => sret (y :: r))) s2).
    unfold sbind. rewrite F1, F2. unfold sret. now rewrite consume_consume by auto.
Qed.

Lemma stell_consume s k : has_tell s = true -> exists p, stell s = Some p /\ stell (consume k s) = Some (p + Z.of_nat k).
Proof. destruct s; [|discriminate]. intros _. exists pos. auto. Qed.
Lemma stell_none s : has_tell s = false -> stell s = None.
Proof. destruct s; [discriminate|auto]. Qed.

Lemma sum_sim el x q c : Xm el -> portable h x false el -> forall fuel total s1 s2 l s1',
  same_data x false q s1 s2 -> sum_loop fuel (read h el c) total s1 = (Ok l, s1') ->
  exists k, s1' = consume k s1 /\ (k <= List.length (rest s1))%nat
    /\ sum_loop fuel (read h el c) total s2 = (Ok l, consume k s2).
Proof.
  intros X P. induction fuel as [|n IH]; intros total s1 s2 l s1' D E; cbn [sum_loop] in *.
  - destruct (total >? 0); [discriminate|]. apply sbind_inv in E as (u & s3 & E1 & E).
    apply slift_inv in E1 as [E1 ->]. injection E as <- <-.
    exists O. rewrite !consume_0. split; [auto|]. split; [lia|]. unfold sbind, slift. now rewrite E1.
  - destruct (total >? 0).
    2:{ apply sbind_inv in E as (u & s3 & E1 & E).
        apply slift_inv in E1 as [E1 ->]. injection E as <- <-.
        exists O. rewrite !consume_0. split; [auto|]. split; [lia|]. unfold sbind, slift. now rewrite E1. }
    unfold sbind at 1, sget at 1 in E. apply sbind_inv in E as (y & s3 & E1 & E).
    unfold sbind at 1, sget at 1 in E.
    destruct (X _ _ _ _ _ _ _ _ P D E1) as (j & -> & J & F1).
    unfold sbind at 1, sget at 1. unfold sbind at 1. rewrite F1. unfold sbind at 1, sget at 1.
    destruct (has_tell s1) eqn:T1; [|rewrite (stell_none s1 T1) in E; discriminate].
    assert (has_tell s2 = true) as T2 by (apply D; auto).
    destruct (stell_consume s1 j T1) as (p1 & U1 & U2). destruct (stell_consume s2 j T2) as (p2 & V1 & V2).
    rewrite U1, U2 in E. rewrite V1, V2.
    replace (p1 + Z.of_nat j - p1) with (Z.of_nat j) in E by lia.
    replace (p2 + Z.of_nat j - p2) with (Z.of_nat j) by lia.
    destruct (Z.of_nat j =? 0); [discriminate|].
    apply sbind_inv in E as (r & s4 & E2 & E). injection E as <- <-.
    pose proof (same_data_consume _ _ _ _ _ j D J) as D'.
    destruct (IH _ _ _ _ _ D' E2) as (i & -> & I & F2).
    destruct D as (_ & O1 & O2 & R & _). destruct (then_consume _ _ _ O1 J I) as [-> L].
    exists (j + i)%nat. split; [auto|]. split; [auto|].
    unfold sbind. rewrite F2. unfold sret. now rewrite consume_consume by auto.
Qed.

Lemma fields_sim fs : Forall Xf fs -> forall x t q s1 s2 cls cctx c a s1' a',
  portable_fields h x t fs -> same_data x t q s1 s2 ->
  read_fields h cls cctx fs c (s1, a) = (Ok tt, (s1', a')) ->
  exists k, s1' = consume k s1 /\ (k <= List.length (rest s1))%nat
    /\ read_fields h cls cctx fs c (s2, a) = (Ok tt, (consume k s2, a')).
Proof.
  induction 1 as [|f fs Hf _ IH]; intros x t q s1 s2 cls cctx c a s1' a' P D E.
  - injection E as <- <-. exists O. rewrite !consume_0. split; [auto|]. split; [lia|reflexivity].
  - rewrite read_fields_cons in *. destruct P as [P1 P2].
    apply sbind_inv in E as ([] & [s3 a3] & E1 & E).
    destruct (Hf _ _ _ _ _ _ _ _ _ _ _ P1 D E1) as (j & -> & J & F1).
    pose proof (same_data_consume _ _ _ _ _ j D J) as D'.
    destruct (IH _ _ _ _ _ _ _ _ _ _ _ P2 D' E) as (i & -> & I & F2).
    destruct D as (_ & O1 & O2 & R & _). destruct (then_consume _ _ _ O1 J I) as [-> L].
    exists (j + i)%nat. split; [auto|]. split; [auto|].
    unfold sbind. rewrite F1, F2. now rewrite consume_consume by auto.
Qed.

Lemma bits_sim x t q s1 s2 size bs a s1' a' :
  0 <= size <= maxsize ->
  (x = true -> forall st u st', sforeach bs read_bitfield st = (Ok u, st') ->
     bs_pos (fst st) = 0 -> size <= zlen (bs_val (fst st))) ->
  same_data x t q s1 s2 -> read_bit_container size bs (s1, a) = (Ok tt, (s1', a')) ->
  exists k, s1' = consume k s1 /\ (k <= List.length (rest s1))%nat
    /\ read_bit_container size bs (s2, a) = (Ok tt, (consume k s2, a')).
Proof.
  intros N F (Q & O1 & O2 & R & T & L & B) E.
  unfold read_bit_container in *. apply sbind_inv in E as (b & [s3 a3] & E1 & E).
  unfold on_stream in E1. cbn [fst snd] in E1. destruct (sread size s1) as [r s4] eqn:E2.
  injection E1 as -> <- <-. cbn [fst snd] in E.
  destruct (sforeach bs read_bitfield (bs_new_bytes b, a)) as [r [st' a2]] eqn:E3.
  injection E as -> <- <-.
  destruct (sread_sim s1 s2 q size b s4) as (k & H1 & H2 & H3 & H4); auto; try lia.
  - left. split; [lia|]. destruct Q as [Q|Q]; [auto|]. right. exact (F Q _ _ _ E3 eq_refl).
  - exists k. split; [auto|]. split; [auto|].
    unfold sbind at 1, on_stream at 1. cbn [fst snd]. rewrite H4. cbn [fst snd]. now rewrite E3.
Qed.

(** Peeking, on two streams at once. *)
Lemma peek_consume s k : consume k (SReadAhead [] true s) = SReadAhead (firstn k (rest s)) true (consume k s).
Proof. reflexivity. Qed.

Lemma after_peek_same x t q s1 s2 k : same_data x t q s1 s2 -> (k <= List.length (rest s1))%nat ->
  same_data x false q (SReadAhead (firstn k (rest s1)) false (consume k s1))
                      (SReadAhead (firstn k (rest s2)) false (consume k s2)).
Proof.
  intros (Q & O1 & O2 & R & T & L & B) K.
  assert (K2 : (k <= List.length (rest s2))%nat) by (rewrite R, app_length; lia).
  split; [auto|]. split; [cbn; apply consume_ok; auto|]. split; [cbn; apply consume_ok; auto|].
  rewrite !rest_after_peek by auto. split; [auto|]. split; [cbn; discriminate|]. auto.
Qed.
Lemma peeking_same x t q s1 s2 : same_data x t q s1 s2 ->
  same_data x false q (SReadAhead [] true s1) (SReadAhead [] true s2).
Proof. intros (Q & O1 & O2 & R & T & L & B). repeat split; auto; discriminate. Qed.

Lemma drained_consume s j k : stream_ok s -> (j <= List.length (rest s))%nat ->
  (k <= List.length (rest s))%nat ->
  zlen (skipn k (firstn j (rest s))) = 0 ->
  consume (k - List.length (firstn j (rest s))) (consume j s) = consume k s /\ (j <= k)%nat.
Proof.
  intros O J K Z0. rewrite zlen_skipn, zlen_firstn in Z0. unfold zlen in Z0.
  rewrite firstn_length, Nat.min_l by lia. rewrite consume_consume by auto. split; [f_equal|]; lia.
Qed.

Lemma sel_tail_sim x t q s1 s2 j (rd : stM stream value) (e : exn) v s1' :
  same_data x t q s1 s2 -> (j <= List.length (rest s1))%nat ->
  (forall v s', rd (SReadAhead (firstn j (rest s1)) false (consume j s1)) = (Ok v, s') ->
     exists k, s' = consume k (SReadAhead (firstn j (rest s1)) false (consume j s1))
       /\ (k <= List.length (rest s1))%nat
       /\ rd (SReadAhead (firstn j (rest s2)) false (consume j s2))
          = (Ok v, consume k (SReadAhead (firstn j (rest s2)) false (consume j s2)))) ->
  sbind rd (fun result => sbind is_read_ahead_empty (fun empty =>
    if negb empty then sraise e else sret result))
    (SReadAhead (firstn j (rest s1)) false (consume j s1)) = (Ok v, s1') ->
  exists k, s1' = SReadAhead [] false (consume k s1) /\ (j <= k <= List.length (rest s1))%nat
    /\ sbind rd (fun result => sbind is_read_ahead_empty (fun empty =>
         if negb empty then sraise e else sret result))
         (SReadAhead (firstn j (rest s2)) false (consume j s2))
       = (Ok v, SReadAhead [] false (consume k s2))
    /\ rd (SReadAhead (firstn j (rest s1)) false (consume j s1))
       = (Ok v, SReadAhead [] false (consume k s1)).
Proof.
  intros D J S E. apply sbind_inv in E as (w & s3 & E1 & E).
  destruct (S _ _ E1) as (k & -> & K & E2). cbn [consume is_read_ahead_empty] in *.
  apply sbind_inv in E as (em & s4 & E3 & E). unfold is_read_ahead_empty in E3. injection E3 as <- <-.
  destruct (Z.eqb_spec (zlen (skipn k (firstn j (rest s1)))) 0) as [Z0|]; [|discriminate].
  cbn [negb] in E. injection E as <- <-.
  destruct D as (Q & O1 & O2 & R & T & L & B).
  destruct (drained_consume s1 j k O1 J K Z0) as [C JK].
  rewrite (zlen_0_nil _ Z0), C in *.
  exists k. split; [auto|]. split; [lia|]. split; [|auto].
  unfold sbind at 1. rewrite E2. unfold sbind, is_read_ahead_empty.
  assert (firstn j (rest s2) = firstn j (rest s1)) as F.
  { rewrite R, firstn_app. replace (j - List.length (rest s1))%nat with O by lia. apply app_nil_r. }
  assert (J2 : (j <= List.length (rest s2))%nat) by (rewrite R, app_length; lia).
  assert (K2 : (k <= List.length (rest s2))%nat) by (rewrite R, app_length; lia).
  assert (Z2 : zlen (skipn k (firstn j (rest s2))) = 0) by now rewrite F.
  destruct (drained_consume s2 j k O2 J2 K2 Z2) as [C2 _].
  rewrite Z2. cbn [Z.eqb negb]. unfold sret. now rewrite C2, (zlen_0_nil _ Z2).
Qed.

Lemma with_read_ahead_inv {A} (m : stM stream A) s v s' : with_read_ahead m s = (Ok v, s') ->
  exists w, m (SReadAhead [] false s) = (Ok v, w)
            /\ s' = match w with SReadAhead _ _ i => i | _ => w end.
Proof.
  unfold with_read_ahead. destruct (m _) as [r [d p|b mo i]]; intros E; injection E as -> <-; eauto.
Qed.

Lemma read_sel key mapping d c s :
  read h (MSel key mapping d) c s
  = with_read_ahead
      (do set_read_ahead true ;;
       k <- read h key c ;;
       do set_read_ahead false ;;
       do slift (if hashable k then Ok tt else Err TypeError) ;;
       match d with
       | None => sraise InstructError
       | Some m =>
           result <- read h m c ;;
           empty <- is_read_ahead_empty ;;
           if negb empty then sraise InstructError else sret result
       end) s.
Proof. reflexivity. Qed.


Lemma sim_all : (forall m, Xm m) /\ (forall f, Xf f).
Proof.
  apply marshal_field_ind.
  - (* MInt *) intros f x t q s1 s2 c v s1' _ D E. cbn [read] in *.
    apply sbind_inv in E as (b & s3 & E1 & E).
    pose proof (isize_bytes_pos (f_size f)) as N.
    destruct (zlen b <? _) eqn:Q; [discriminate|].
    destruct (sread_full _ _ _ _ _ _ _ _ D E1) as (k & -> & K & E2); try lia.
    destruct (struct_unpack_int h f b) eqn:U; [|discriminate]. injection E as <- <-.
    exists k. split; [auto|]. split; [auto|]. unfold sbind. rewrite E2, Q, U. reflexivity.
  - (* MFloat *) intros f x t q s1 s2 c v s1' _ D E. cbn [read] in *.
    apply sbind_inv in E as (b & s3 & E1 & E).
    pose proof (fsize_bytes_pos (ff_size f)) as N.
    destruct (zlen b <? _) eqn:Q; [discriminate|].
    destruct (sread_full _ _ _ _ _ _ _ _ D E1) as (k & -> & K & E2); try lia.
    destruct (struct_unpack_float h f b) eqn:U; [|discriminate]. injection E as <- <-.
    exists k. split; [auto|]. split; [auto|]. unfold sbind. rewrite E2, Q, U. reflexivity.
  - intros w x t q s1 s2 c v s1' _ D E. injection E as <- <-.
    exists O. rewrite !consume_0. split; [auto|]. split; [lia|reflexivity].
  - intros func x t q s1 s2 c v s1' P (Q & O1 & O2 & R & _) E. cbn [read portable] in *.
    eapply run_rprog_ext; eauto.
  - intros n x t q s1 s2 c v s1' _ D E. cbn [read] in *. apply slift_inv in E as [E ->].
    exists O. rewrite !consume_0. split; [auto|]. split; [lia|]. unfold slift. now rewrite E.
  - (* MVarStr *) intros sz pd d X x t q s1 s2 c v s1' [P NN] D E. cbn [read] in *.
    apply sbind_inv in E as (len & s3 & E1 & E).
    destruct (X _ _ _ _ _ _ _ _ P D E1) as (j & -> & J & F1).
    pose proof (same_data_consume _ _ _ _ _ j D J) as D'.
    apply sbind_inv in E as (n & s4 & E2 & E). apply slift_inv in E2 as [E2 ->].
    apply sbind_inv in E as (b & s5 & E3 & E).
    destruct (zlen b <? n) eqn:Q; [discriminate|]. apply slift_inv in E as [E ->].
    destruct len; try discriminate. injection E2 as ->.
    destruct (sread_full _ _ _ _ _ _ _ _ D' E3) as (i & -> & I & F2); try lia.
    { intros XT. eapply (NN XT); [| |apply E1]; apply D. }
    destruct D as (_ & O1 & O2 & R & _). destruct (then_consume _ _ _ O1 J I) as [-> L].
    exists (j + i)%nat. split; [auto|]. split; [auto|].
    unfold sbind. rewrite F1. cbn [slift as_int]. rewrite F2, Q. unfold slift.
    now rewrite E, consume_consume by auto.
  - (* MPadStr *) intros n pd d x t q s1 s2 c v s1' P D E. cbn [read portable] in *.
    apply sbind_inv in E as (b & s3 & E1 & E).
    destruct (zlen b <? n) eqn:Q; [discriminate|]. apply slift_inv in E as [E ->].
    destruct (sread_full _ _ _ _ _ _ _ _ D E1) as (k & -> & K & E2); try lia.
    exists k. split; [auto|]. split; [auto|]. unfold sbind. rewrite E2, Q. unfold slift. now rewrite E.
  - (* MBytePad *) intros n ch x t q s1 s2 c v s1' [P PS] (Q & O1 & O2 & R & _) E. cbn [read] in *.
    apply sbind_inv in E as (b & s3 & E1 & E). injection E as <- <-.
    destruct (sread_sim s1 s2 q n b s3) as (k & -> & K & _ & E2); auto; try lia.
    { left. split; [lia|]. destruct Q as [Q|Q]; [auto|]. right. rewrite (PS Q). apply zlen_nonneg. }
    exists k. split; [auto|]. split; [auto|]. unfold sbind. rewrite E2. reflexivity.
  - (* MVarArr *) intros sz el X Xel x t q s1 s2 c v s1' [P Pel] D E. cbn [read] in *.
    apply sbind_inv in E as (len & s3 & E1 & E).
    destruct (X _ _ _ _ _ _ _ _ P D E1) as (j & -> & J & F1).
    pose proof (same_data_consume _ _ _ _ _ j D J) as D'.
    apply sbind_inv in E as (n & s4 & E2 & E). apply slift_inv in E2 as [E2 ->].
    apply sbind_inv in E as (l & s5 & E3 & E). injection E as <- <-.
    destruct (loop_sim _ _ _ _ _ Xel Pel _ _ _ _ _ D' E3) as (i & -> & I & F2).
    destruct D as (_ & O1 & O2 & R & _). destruct (then_consume _ _ _ O1 J I) as [-> L].
    exists (j + i)%nat. split; [auto|]. split; [auto|].
    unfold sbind, slift. rewrite F1, E2, F2. unfold sret. now rewrite consume_consume by auto.
  - (* MFixArr *) intros n el Xel x t q s1 s2 c v s1' Pel D E. cbn [read] in *.
    apply sbind_inv in E as (l & s5 & E3 & E). injection E as <- <-.
    destruct (loop_sim _ _ _ _ _ Xel Pel _ _ _ _ _ D E3) as (i & -> & I & F2).
    exists i. split; [auto|]. split; [auto|].
    unfold sbind. now rewrite F2.
  - (* MSumArr *) intros sz el X Xel x t q s1 s2 c v s1' (-> & P & Pel) D E. cbn [read] in *.
    apply sbind_inv in E as (len & s3 & E1 & E).
    destruct (X _ _ _ _ _ _ _ _ P D E1) as (j & -> & J & F1).
    pose proof (same_data_consume _ _ _ _ _ j D J) as D'.
    apply sbind_inv in E as (n & s4 & E2 & E). apply slift_inv in E2 as [E2 ->].
    apply sbind_inv in E as (l & s5 & E3 & E). injection E as <- <-.
    destruct (sum_sim _ _ _ _ Xel Pel _ _ _ _ _ _ D' E3) as (i & -> & I & F2).
    destruct D as (_ & O1 & O2 & R & _). destruct (then_consume _ _ _ O1 J I) as [-> L].
    exists (j + i)%nat. split; [auto|]. split; [auto|].
    unfold sbind, slift. rewrite F1, E2, F2. unfold sret. now rewrite consume_consume by auto.
  - (* MMap *) intros tbl m X x t q s1 s2 c v s1' P D E. cbn [read] in *.
    apply sbind_inv in E as (w & s3 & E1 & E). apply slift_inv in E as [E ->].
    destruct (X _ _ _ _ _ _ _ _ P D E1) as (j & -> & J & F1).
    exists j. split; [auto|]. split; [auto|]. unfold sbind, slift. now rewrite F1, E.
  - (* MStruct *) intros cls cctx fs X x t q s1 s2 c v s1' P D E.
    rewrite read_struct in E. rewrite portable_struct in P.
    destruct (read_fields h cls cctx fs c (s1, new_attrs fs [])) as [[[]|e] [s3 a3]] eqn:E1; [|discriminate].
    injection E as <- <-.
    destruct (fields_sim fs X _ _ _ _ _ _ _ _ _ _ _ P D E1) as (j & -> & J & F1).
    exists j. split; [auto|]. split; [auto|]. now rewrite read_struct, F1.
  - (* MSel *) intros key mapping d X _ Xd x t q s1 s2 c v s1' [P Pd] D E.
    rewrite read_sel in *. apply with_read_ahead_inv in E as (w & E & ->).
    unfold sbind at 1 in E. cbn [set_read_ahead] in E.
    apply sbind_inv in E as (k & s3 & E1 & E).
    destruct (X _ _ _ _ _ _ _ _ P (peeking_same _ _ _ _ _ D) E1) as (j & -> & J & F1).
    cbn [rest] in J. rewrite peek_consume in *.
    unfold sbind at 1 in E. cbn [set_read_ahead] in E.
    apply sbind_inv in E as (u & s4 & E2 & E). apply slift_inv in E2 as [E2 ->].
    destruct d as [m|]; [|discriminate]. cbn [opt_all] in Xd.
    eapply sel_tail_sim in E; eauto.
    2:{ intros v' s' Er. destruct (Xd _ _ _ _ _ _ _ _ Pd (after_peek_same _ _ _ _ _ _ D J) Er) as (i & I1 & I2 & I3).
        destruct D as (_ & O1 & _). rewrite rest_after_peek in I2 by auto. eauto. }
    destruct E as (k' & -> & [K1 K2] & E3 & _).
    exists k'. split; [auto|]. split; [auto|].
    unfold with_read_ahead. unfold sbind at 1. cbn [set_read_ahead].
    unfold sbind at 1. rewrite F1, ?peek_consume. unfold sbind at 1. cbn [set_read_ahead].
    unfold sbind at 1, slift at 1. rewrite E2, E3. reflexivity.
  - (* MFunSel *) intros choices func mm X x t q s1 s2 c v s1' [P Pc] D E.
    rewrite read_funsel in *. apply with_read_ahead_inv in E as (w & E & ->).
    unfold sbind at 1 in E. cbn [set_read_ahead] in E.
    apply sbind_inv in E as (k & s3 & E1 & E).
    destruct (peeking_same _ _ _ _ _ D) as (Q & O1 & O2 & R & _).
    destruct (run_rprog_ext _ _ (P c) q _ _ _ _ Q O1 O2 R E1) as (j & -> & J & F1).
    cbn [rest] in J. rewrite peek_consume in *.
    unfold sbind at 1 in E. cbn [set_read_ahead] in E.
    eapply sel_tail_sim in E; eauto.
    2:{ intros v' s' Er. unfold read_choice in *. destruct (nth_error choices k) as [m|] eqn:Nk; [|discriminate].
        assert (Xm m /\ portable h x false m) as [Xk Pk].
        { clear - X Pc Nk. revert k Nk. induction X as [|m0 l Hm _ IH]; intros [|k] Nk; try discriminate;
            destruct Pc; cbn in Nk; [injection Nk as ->|]; eauto. }
        destruct (Xk _ _ _ _ _ _ _ _ Pk (after_peek_same _ _ _ _ _ _ D J) Er) as (i & I1 & I2 & I3).
        destruct D as (_ & Os & _). rewrite rest_after_peek in I2 by auto. eauto. }
    destruct E as (k' & -> & [K1 K2] & E3 & _).
    exists k'. split; [auto|]. split; [auto|].
    unfold with_read_ahead. unfold sbind at 1. cbn [set_read_ahead].
    unfold sbind at 1. rewrite F1, ?peek_consume. unfold sbind at 1. cbn [set_read_ahead].
    rewrite E3. reflexivity.
  - (* FField *) intros n m d X x t q s1 s2 cls cctx c a s1' a' P D E.
    rewrite read_field_field in *. destruct (read h m _ s1) as [[w|e] s3] eqn:E1; [|discriminate].
    injection E as <- <-. destruct (X _ _ _ _ _ _ _ _ P D E1) as (j & -> & J & F1).
    exists j. split; [auto|]. split; [auto|]. now rewrite F1.
  - intros m X x t q s1 s2 cls cctx c a s1' a' P D E.
    rewrite read_field_anon in *. destruct (read h m _ s1) as [[w|e] s3] eqn:E1; [|discriminate].
    injection E as <- <-. destruct (X _ _ _ _ _ _ _ _ P D E1) as (j & -> & J & F1).
    exists j. split; [auto|]. split; [auto|]. now rewrite F1.
  - intros n m k X x t q s1 s2 cls cctx c a s1' a' P D E.
    rewrite read_field_const in *. destruct (read h m _ s1) as [[w|e] s3] eqn:E1; [|discriminate].
    destruct (py_eq w k) eqn:Q; [|discriminate].
    injection E as <- <-. destruct (X _ _ _ _ _ _ _ _ P D E1) as (j & -> & J & F1).
    exists j. split; [auto|]. split; [auto|]. now rewrite F1, Q.
  - (* FOpt *) intros n m pr d X x t q s1 s2 cls cctx c a s1' a' [Pp P] D E.
    rewrite read_field_opt in *.
    destruct (run_rprog _ s1) as [[b|e] s3] eqn:E1; [|discriminate].
    destruct D as (Q & O1 & O2 & R & D').
    destruct (run_rprog_ext _ _ (Pp _ _) q _ _ _ _ Q O1 O2 R E1) as (j & -> & J & F1). rewrite F1.
    assert (D : same_data x t q s1 s2) by (repeat split; tauto).
    destruct b.
    + pose proof (same_data_consume _ _ _ _ _ j D J) as D2.
      destruct (read h m _ (consume j s1)) as [[w|e] s4] eqn:E2; [|discriminate]. injection E as <- <-.
      destruct (X _ _ _ _ _ _ _ _ P D2 E2) as (i & -> & I & F2).
      destruct (then_consume _ _ _ O1 J I) as [-> L].
      exists (j + i)%nat. split; [auto|]. split; [auto|]. now rewrite F2, consume_consume by auto.
    + injection E as <- <-. exists j. auto.
  - (* FGroup *) intros fs X x t q s1 s2 cls cctx c a s1' a' P D E.
    rewrite read_group in *. rewrite portable_group in P. eapply fields_sim; eauto.
  - (* FBits *) intros bs x t q s1 s2 cls cctx c a s1' a' [N F] D E.
    rewrite read_field_bits in *. eapply bits_sim; eauto.
    intros XT st u st' Es P0. destruct (F XT) as [F1 F2].
    destruct bs as [|b bs]; [cbn in *; apply zlen_nonneg|].
    pose proof (seq_bits_need _ F1 _ _ _ Es ltac:(discriminate)). rewrite F2, P0 in H. lia.
  - (* FPosBits *) intros n bs x t q s1 s2 cls cctx c a s1' a' [N F] D E.
    rewrite read_field_posbits in *. eapply bits_sim; eauto.
    intros XT st u st' Es P0. destruct (F XT) as [F1|F1].
    { subst n. apply zlen_nonneg. }
    pose proof (pos_bits_need _ _ F1 _ _ _ Es). lia.
Qed.
End Sim.
