(** Arrays as values, and an array that is its own argument. *)
From Verif Require Import Base BaseProofs Range IoBuffer IoSpec IoProofs IoShare IoShareSpec IoShareFacts.
From Coq Require Import ZArith List Bool Lia ZifyBool ZifyNat.
Import ListNotations.
Open Scope list_scope.
Open Scope Z_scope.
Ltac Zify.zify_post_hook ::= Z.div_mod_to_equations.

(** ** Programs whose statements keep the arrays apart *)
Lemma value_read (f : stM baa unit) b s s' : f s = (Ok tt, s') ->
  (exists k, f = ba_setitem k (BVView b)) \/ (exists i, f = ba_insert i (BVView b)) \/ f = ba_extend (BVView b) -> exists bs, buf_bytes b = Ok bs.
Proof.
  intros H [(k & ->)|[(i & ->)| -> ]]; destruct (buf_bytes b) as [bs|e] eqn:E; eauto; exfalso; revert H.
  - unfold ba_setitem, sbind, slift. destruct (ba_key_to_range k s) as [[p|e'] s1]; [|discriminate]. cbn [value_and_length]. rewrite E. cbn [rbind]. discriminate.
  - unfold ba_insert, sbind, slift, sget. cbn [value_and_length]. rewrite E. cbn [rbind]. discriminate.
  - unfold ba_extend, sbind, slift, sget. rewrite E. destruct (insert_zeros _ _ s) as [[u|e'] s1]; discriminate.
Qed.
Lemma with_arg_ok y (f : bvalue -> stM (list baa) unit) l l' : with_arg y f l = (Ok tt, l') ->
  exists t, nth_error l y = Some t /\ f (BVView (ba_view t)) l = (Ok tt, l').
Proof. unfold with_arg. destruct (nth_error l y) as [t|]; [|discriminate]. eauto. Qed.
Lemma von_ok {A} x (f : stM baa A) l a l' : von x f l = (Ok a, l') -> exists s s', nth_error l x = Some s /\ f s = (Ok a, s') /\ l' = list_upd l x s'.
Proof. unfold von. destruct (nth_error l x) as [s|]; [|discriminate]. destruct (f s) as [r s'] eqn:E. intros H. injection H as -> <-. eauto. Qed.
Lemma nth_lt {A} (l : list A) x s : nth_error l x = Some s -> (x < List.length l)%nat.
Proof. intros H. apply nth_error_Some. now rewrite H. Qed.

Lemma vstep_arrays op l l' : vstep op l = (Ok tt, l') -> Forall (fun x => (x < List.length l)%nat) (op_arrays op).
Proof.
  destruct op as [d start stop|x start stop|x a b|x y|x k y|x i y|x y|x p]; cbn [vstep op_arrays]; intros H.
  - constructor.
  - discriminate.
  - destruct (nth_error l x) eqn:E; [|discriminate]. apply nth_lt in E. auto.
  - destruct (nth_error l x) eqn:E; [|discriminate]. destruct (nth_error l y) eqn:E2; [|discriminate]. apply nth_lt in E, E2. auto.
  - apply with_arg_ok in H as (t & E & H). apply von_ok in H as (s & s' & E2 & _). apply nth_lt in E, E2. auto.
  - apply with_arg_ok in H as (t & E & H). apply von_ok in H as (s & s' & E2 & _). apply nth_lt in E, E2. auto.
  - apply with_arg_ok in H as (t & E & H). apply von_ok in H as (s & s' & E2 & _). apply nth_lt in E, E2. auto.
  - apply von_ok in H as (s & s' & E & _). apply nth_lt in E. auto.
Qed.
Lemma vstep_readable op l l' x y : vstep op l = (Ok tt, l') ->
  (exists k, op = ASet x k y) \/ (exists i, op = AInsert x i y) \/ op = AExtend x y \/ op = AAdd x y -> readable l y.
Proof.
  intros H O t Ht. destruct O as [(k & ->)|[(i & ->)|[-> | -> ]]]; cbn [vstep] in H.
  - apply with_arg_ok in H as (t' & E & H). rewrite Ht in E. injection E as <-. apply von_ok in H as (s & s' & _ & H & _). eapply value_read; eauto.
  - apply with_arg_ok in H as (t' & E & H). rewrite Ht in E. injection E as <-. apply von_ok in H as (s & s' & _ & H & _). eapply value_read; eauto.
  - apply with_arg_ok in H as (t' & E & H). rewrite Ht in E. injection E as <-. apply von_ok in H as (s & s' & _ & H & _). eapply value_read; eauto.
  - rewrite Ht in H. destruct (nth_error l x) as [s|]; [|discriminate]. unfold ba_add in H. destruct (mk_baa _ _ _) as [c|]; [|discriminate]. cbn [rbind] in H.
    destruct (ba_extend (BVView (ba_view t)) c) as [[u|e] c'] eqn:E; [|discriminate]. destruct u. eapply value_read; [exact E|auto].
Qed.

Theorem programs_value ops : forall m vs, unshared m -> Forall apart_op ops -> vruns ops (contents m) = (Ok tt, vs) ->
  exists m', aruns ops m = (Ok tt, m') /\ contents m' = vs /\ unshared m'.
Proof.
  induction ops as [|op ops IH]; intros m vs U F H.
  - cbn in *. injection H as <-. exists m. auto.
  - inversion F as [|? ? A F']; subst. unfold vruns, aruns in *. cbn [sforeach] in *. unfold sbind in *.
    destruct (vstep op (contents m)) as [[[]|e] l1] eqn:E; [|discriminate].
    destruct (step_value op m (contents m)) as (E1 & U1 & E2); auto; [now split|eapply vstep_arrays; eauto|intros x y O; eapply vstep_readable; eauto|].
    rewrite E in E1, E2. destruct (astep op m) as [r m1]. cbn [fst snd] in *. subst r l1.
    apply IH; auto.
Qed.
(** One statement, whatever its outcome. *)
Theorem statement_value op m : unshared m -> apart_op op -> Forall ba_ok (contents m) ->
  Forall (fun x => (x < List.length (m_arrs m))%nat) (op_arrays op) ->
  fst (astep op m) = fst (vstep op (contents m)) /\ contents (snd (astep op m)) = snd (vstep op (contents m)) /\ unshared (snd (astep op m)).
Proof.
  intros U A K F. destruct (step_value op m (contents m)) as (E1 & U1 & E2); auto; [now split| | ].
  - unfold contents. now rewrite map_length.
  - intros x y _ t Ht. eexists. apply buf_bytes_spec. apply nth_error_In in Ht. rewrite Forall_forall in K. exact (K t Ht).
Qed.

(** ** An array as its own argument *)
Lemma on_seq {A B} x (f : stM baa A) (g : A -> stM baa B) m a : nth_error (m_arrs m) x = Some a -> (a_cell a < List.length (m_cells m))%nat ->
  (v <- on_array x f ;; on_array x (g v)) m = on_array x (v <- f ;; g v) m.
Proof.
  intros H L. unfold sbind, on_array. rewrite H. destruct (f (as_baa m a)) as [[v|e] s]; [|reflexivity]. cbn [m_arrs].
  rewrite upd_at by now apply nth_lt in H. unfold as_baa at 1. cbn [a_cell a_start a_stop m_cells].
  rewrite (nth_error_nth (list_upd (m_cells m) (a_cell a) (ba_buf s)) (a_cell a) [] (upd_at _ _ _ L)).
  destruct s as [b st sp]. cbn [ba_buf ba_start ba_stop]. destruct (g v (mkBa b st sp)) as [r s2]. now rewrite !upd_upd.
Qed.
(** The iteration of copy_live with one array. *)
Fixpoint self_copy (offset remaining i : Z) (n : nat) : stM baa unit :=
  match n with
  | O => sret tt
  | S k =>
      b <- (fun s => ba_get_byte_bits (8 * i + ba_start s) (Z.min (ba_stop s - 8 * i - ba_start s) 8) s) ;;
      do set_byte_bits offset (Z.min remaining 8) b ;;
      self_copy (offset + 8) (remaining - 8) (i + 1) k
  end.
Definition self_from (offset len : Z) : stM baa unit :=
  n <- (fun s => (Ok (blen (ba_view s)), s)) ;; self_copy offset len 0 (Z.to_nat n).
Definition steady (x : nat) (m : mem) : Prop := exists a, nth_error (m_arrs m) x = Some a /\ (a_cell a < List.length (m_cells m))%nat.
Lemma on_steady {A} x (f : stM baa A) m : steady x m -> steady x (snd (on_array x f m)).
Proof.
  intros (a & H & L). unfold on_array. rewrite H. destruct (f (as_baa m a)) as [r s]. cbn [snd].
  exists (mkArr (a_cell a) (ba_start s) (ba_stop s)). cbn [m_arrs m_cells a_cell]. rewrite list_upd_length. split; [apply upd_at; now apply nth_lt in H|exact L].
Qed.
Lemma seq_on {A B} x (P : stM mem A) (K : A -> stM mem B) (f : stM baa A) (g : A -> stM baa B) m : steady x m ->
  P m = on_array x f m -> (forall v m, steady x m -> K v m = on_array x (g v) m) -> sbind P K m = on_array x (v <- f ;; g v) m.
Proof.
  intros S HP HK. destruct S as (a & H & L). rewrite <- (on_seq x f g m a H L). unfold sbind. rewrite HP.
  pose proof (on_steady x f m (ex_intro _ a (conj H L))) as S1. destruct (on_array x f m) as [[v|e] m1]; [|reflexivity]. now apply HK.
Qed.
Lemma ret_on {A} x (v : A) m : steady x m -> sret v m = on_array x (sret v) m.
Proof.
  intros (a & H & L). unfold on_array, sret. rewrite H. cbn. destruct m as [cs rs]. cbn in *. f_equal. f_equal.
  - symmetry. apply upd_same. unfold as_baa. cbn. now apply nth_error_nth'.
  - symmetry. apply upd_same. rewrite H. now destruct a.
Qed.
Lemma copy_self x n : forall offset remaining i m, steady x m -> copy_live x x offset remaining i n m = on_array x (self_copy offset remaining i n) m.
Proof.
  induction n as [|n IH]; intros offset remaining i m S; cbn [copy_live self_copy]; [now apply ret_on|].
  apply (seq_on x (byte_of x i) _ (fun s => ba_get_byte_bits (8 * i + ba_start s) (Z.min (ba_stop s - 8 * i - ba_start s) 8) s)); auto.
  intros v m1 S1. apply (seq_on x _ _ (set_byte_bits offset (Z.min remaining 8) v)); auto.
Qed.
Lemma from_self x offset len m : steady x m -> copy_from x x offset len m = on_array x (self_from offset len) m.
Proof. intros S. unfold copy_from, self_from. apply seq_on; auto. intros v m1 S1. now apply copy_self. Qed.

(** *** Whole bytes *)
Lemma get_whole pre b rest n : is_byte b -> 8 <= n -> get_byte_bits (py_nth (pre ++ b :: rest)) (zlen (pre ++ b :: rest)) (8 * zlen pre) (Z.min n 8) = Ok b.
Proof.
  intros B H. rewrite Z.min_r by lia. unfold get_byte_bits. rewrite Z.mul_comm, Z.quot_mul, Z.rem_mul by lia. cbn [py_shl1 Z.ltb Z.compare rbind Z.eqb].
  rewrite py_nth_ok with (d := 0) by (rewrite zlen_app, zlen_cons; pose proof (zlen_nonneg pre); pose proof (zlen_nonneg rest); lia).
  cbn [rbind]. unfold zlen. rewrite Nat2Z.id, nth_middle. change (Z.shiftl 1 8 - 1) with (Z.ones 8). f_equal. rewrite Z.land_ones by lia. apply Z.mod_small. exact B.
Qed.
Lemma upd_mid {A} (pre : list A) x l a : list_upd (pre ++ x :: l) (List.length pre) a = pre ++ a :: l.
Proof. induction pre as [|p pre IH]; cbn; [reflexivity|now rewrite IH]. Qed.
Lemma store_whole pre b v rest s t : is_byte v -> set_byte_bits (8 * zlen pre) 8 v (mkBa (pre ++ b :: rest) s t) = (Ok tt, mkBa (pre ++ v :: rest) s t).
Proof.
  intros B. unfold set_byte_bits, set_in_byte, ba_store. rewrite Z.mul_comm, Z.quot_mul, Z.rem_mul by lia. cbn [Z.eqb Pos.eqb andb orb ba_buf ba_start ba_stop].
  rewrite ba_set_ok; [|rewrite zlen_app, zlen_cons; pose proof (zlen_nonneg pre); pose proof (zlen_nonneg rest); lia|exact B].
  unfold zlen. now rewrite Nat2Z.id, upd_mid.
Qed.
Lemma store_end l v s t : set_byte_bits (8 * zlen l) 8 v (mkBa l s t) = (Err IndexError, mkBa l s t).
Proof.
  unfold set_byte_bits, set_in_byte, ba_store. rewrite Z.mul_comm, Z.quot_mul, Z.rem_mul by lia. cbn [Z.eqb andb orb ba_buf ba_start ba_stop Pos.eqb].
  unfold ba_set, py_index. pose proof (zlen_nonneg l).
  replace ((0 <=? zlen l) && (zlen l <? zlen l)) with false by lia. replace (zlen l <? 0) with false by lia. reflexivity.
Qed.
Lemma insert_whole pre rest s T n : (1 <= n)%nat -> zlen pre <= T ->
  insert_zeros (8 * zlen pre) (8 * zlen pre + 8 * Z.of_nat n) (mkBa (pre ++ rest) s (8 * T)) = (Ok tt, mkBa (pre ++ repeat 0 n ++ rest) s (8 * (T + Z.of_nat n))).
Proof.
  intros N H. pose proof (zlen_nonneg pre). unfold insert_zeros, sbind, slift, sget, passert, sret, ba_set_buf, ba_set_stop, cdiv8. cbn [ba_buf ba_stop ba_start].
  replace ((0 <=? 8 * zlen pre) && (8 * zlen pre <=? 8 * zlen pre + 8 * Z.of_nat n)) with true by lia.
  replace (8 * zlen pre <=? 8 * T) with true by lia. cbn [rbind].
  replace ((8 * zlen pre + 7) / 8) with (zlen pre) by lia. replace ((8 * zlen pre + 8 * Z.of_nat n) / 8 - zlen pre) with (Z.of_nat n) by lia.
  replace (1 <=? Z.of_nat n) with true by lia. cbn [fst snd].
  replace (8 * zlen pre <? 8 * zlen pre + 8 * Z.of_nat n - 8 * Z.of_nat n) with false by lia.
  unfold zlen. rewrite !Nat2Z.id, firstn_app, Nat.sub_diag, firstn_O, firstn_all, app_nil_r, skipn_app, skipn_all, Nat.sub_diag. cbn [app skipn].
  replace (8 * T + 8 * Z.of_nat n) with (8 * (T + Z.of_nat n)) by lia. reflexivity.
Qed.

Lemma extend_loop p d : d <> [] -> bytes_ok d -> forall k todo done rem, d = done ++ todo -> 8 * (zlen todo + 1) <= rem ->
  self_copy (8 * (zlen p + zlen d + zlen done)) rem (zlen done) (List.length todo + S k) (mkBa (p ++ d ++ done ++ repeat 0 (List.length todo)) (8 * zlen p) (8 * (zlen p + zlen d + zlen d)))
  = (Err IndexError, mkBa (p ++ d ++ d) (8 * zlen p) (8 * (zlen p + zlen d + zlen d))).
Proof.
  intros Nd B k. induction todo as [|b todo IH]; intros done rem E R.
  - rewrite app_nil_r in E. subst done. cbn [List.length Nat.add repeat self_copy]. rewrite app_nil_r. unfold sbind at 1, ba_get_byte_bits at 1. cbn [ba_buf ba_start ba_stop].
    destruct d as [|b0 d0]; [congruence|]. set (d := b0 :: d0) in *.
    replace (8 * zlen d + 8 * zlen p) with (8 * zlen (p ++ d)) by (rewrite zlen_app; lia).
    replace (p ++ d ++ d) with ((p ++ d) ++ b0 :: d0) by now rewrite <- app_assoc.
    rewrite get_whole; [|now inversion B|unfold d; rewrite zlen_cons; pose proof (zlen_nonneg d0); lia].
    rewrite Z.min_r by (rewrite zlen_nil in R; lia).
    replace (8 * (zlen p + zlen d + zlen d)) with (8 * zlen ((p ++ d) ++ d)) at 1 by (rewrite !zlen_app; lia).
    change (b0 :: d0) with d. unfold sbind. now rewrite store_end.
  - cbn [List.length Nat.add self_copy repeat]. unfold sbind at 1, ba_get_byte_bits at 1. cbn [ba_buf ba_start ba_stop].
    replace (8 * zlen done + 8 * zlen p) with (8 * zlen (p ++ done)) by (rewrite zlen_app; lia).
    replace (p ++ d ++ done ++ 0 :: repeat 0 (List.length todo)) with ((p ++ done) ++ b :: (todo ++ done ++ 0 :: repeat 0 (List.length todo))) at 1 2
      by (subst d; rewrite <- !app_assoc; reflexivity).
    assert (Hb : is_byte b) by (apply Forall_elt with (l1 := done) (l2 := todo); rewrite <- E; exact B).
    rewrite get_whole; [|exact Hb|subst d; rewrite zlen_app, zlen_cons; pose proof (zlen_nonneg todo); pose proof (zlen_nonneg done); lia].
    rewrite zlen_cons in R. rewrite Z.min_r by (pose proof (zlen_nonneg todo); lia).
    replace (8 * (zlen p + zlen d + zlen done)) with (8 * zlen (p ++ d ++ done)) at 1 by (rewrite !zlen_app; lia).
    replace (p ++ d ++ done ++ 0 :: repeat 0 (List.length todo)) with ((p ++ d ++ done) ++ 0 :: repeat 0 (List.length todo)) by now rewrite <- !app_assoc.
    unfold sbind. rewrite store_whole by exact Hb.
    specialize (IH (done ++ [b]) (rem - 8)). rewrite zlen_app in IH. change (zlen [b]) with 1 in IH.
    replace (8 * (zlen p + zlen d + zlen done) + 8) with (8 * (zlen p + zlen d + (zlen done + 1))) by lia.
    replace ((p ++ d ++ done) ++ b :: repeat 0 (List.length todo)) with (p ++ d ++ (done ++ [b]) ++ repeat 0 (List.length todo)) by now rewrite <- !app_assoc.
    apply IH; [subst d; now rewrite <- app_assoc|lia].
Qed.

(** [a.extend(a)] *)
Definition self_extend : stM baa unit :=
  offset <- (fun s => (Ok (ba_stop s), s)) ;;
  n <- (fun s => (Ok (ba_stop s - ba_start s), s)) ;;
  do insert_zeros offset (offset + n) ;;
  n <- (fun s => (Ok (ba_stop s - ba_start s), s)) ;;
  self_from offset n.
Lemma extend_self x m : steady x m -> extend_by x x m = on_array x self_extend m.
Proof.
  intros S. unfold extend_by, self_extend. apply seq_on; auto. intros o m1 S1. apply seq_on; auto. intros n m2 S2. apply seq_on; auto. intros [] m3 S3.
  apply seq_on; auto. intros n' m4 S4. now apply from_self.
Qed.
Lemma self_extend_whole p d : d <> [] -> bytes_ok d ->
  self_extend (mkBa (p ++ d) (8 * zlen p) (8 * zlen (p ++ d))) = (Err IndexError, mkBa (p ++ d ++ d) (8 * zlen p) (8 * zlen (p ++ d ++ d))).
Proof.
  intros Nd B. assert (Ld : (1 <= List.length d)%nat) by (destruct d; [congruence|cbn; lia]).
  unfold self_extend. unfold sbind at 1 2. cbn [ba_stop ba_start]. unfold sbind at 1.
  replace (8 * zlen (p ++ d) + (8 * zlen (p ++ d) - 8 * zlen p)) with (8 * zlen (p ++ d) + 8 * Z.of_nat (List.length d)) by (rewrite zlen_app; unfold zlen; lia).
  pose proof (insert_whole (p ++ d) [] (8 * zlen p) (zlen (p ++ d)) (List.length d) Ld ltac:(lia)) as I. rewrite !app_nil_r in I. rewrite I. clear I.
  unfold sbind at 1. cbn [ba_stop ba_start]. unfold self_from, sbind at 1. cbn [ba_view blen ba_start ba_stop]. change (Z.of_nat (List.length d)) with (zlen d).
  replace (Z.to_nat (cdiv8 (8 * (zlen (p ++ d) + zlen d) - 8 * zlen p))) with (List.length d + S (List.length d - 1))%nat
    by (unfold cdiv8; rewrite zlen_app; unfold zlen; lia).
  pose proof (extend_loop p d Nd B (List.length d - 1) d [] (8 * (zlen (p ++ d) + zlen d) - 8 * zlen p) eq_refl) as L.
  rewrite zlen_nil, Z.add_0_r in L. cbn [app] in L. rewrite <- app_assoc. rewrite !zlen_app in *.
  replace (8 * (zlen p + (zlen d + zlen d))) with (8 * (zlen p + zlen d + zlen d)) by lia. apply L. unfold zlen. lia.
Qed.

(** [a[0:0] = a] and [a.insert(0, a)] *)
Lemma store_none pre b rest s t : is_byte b -> set_byte_bits (8 * zlen pre) 0 b (mkBa (pre ++ b :: rest) s t) = (Ok tt, mkBa (pre ++ b :: rest) s t).
Proof.
  intros B. assert (L : 0 <= zlen pre < zlen (pre ++ b :: rest)) by (rewrite zlen_app, zlen_cons; pose proof (zlen_nonneg pre); pose proof (zlen_nonneg rest); lia).
  unfold set_byte_bits, set_in_byte, ba_store, ba_load, sbind, slift. rewrite Z.mul_comm, Z.quot_mul, Z.rem_mul by lia.
  cbn [Z.eqb andb orb Z.add Z.leb Z.compare py_shl1 Z.ltb ba_buf ba_start ba_stop].
  rewrite (py_nth_ok _ _ 0) by exact L. cbn beta iota.
  replace (nth (Z.to_nat (zlen pre)) (pre ++ b :: rest) 0) with b by (unfold zlen; now rewrite Nat2Z.id, nth_middle).
  change (Z.lnot (Z.shiftl (Z.shiftl 1 0 - 1) 0)) with (-1). rewrite Z.land_m1_r, ba_set_ok by (exact L || exact B).
  replace (list_upd (pre ++ b :: rest) (Z.to_nat (zlen pre)) b) with (pre ++ b :: rest) by (unfold zlen; now rewrite Nat2Z.id, upd_mid). cbn [ba_buf ba_start ba_stop].
  rewrite (py_nth_ok _ _ 0) by exact L. replace (nth (Z.to_nat (zlen pre)) (pre ++ b :: rest) 0) with b by (unfold zlen; now rewrite Nat2Z.id, nth_middle). cbn beta iota.
  rewrite Z.shiftl_0_r. replace (Z.lor b (Z.land b 255)) with b by (change 255 with (Z.ones 8); rewrite Z.land_ones, Z.mod_small, Z.lor_diag by (exact B || lia); reflexivity).
  rewrite ba_set_ok by (exact L || exact B). unfold zlen. now rewrite Nat2Z.id, upd_mid.
Qed.
Lemma store_negative pre b v rest s t : set_byte_bits (8 * zlen pre) (-8) v (mkBa (pre ++ b :: rest) s t) = (Err ValueError, mkBa (pre ++ b :: rest) s t).
Proof.
  assert (L : 0 <= zlen pre < zlen (pre ++ b :: rest)) by (rewrite zlen_app, zlen_cons; pose proof (zlen_nonneg pre); pose proof (zlen_nonneg rest); lia).
  unfold set_byte_bits, set_in_byte, ba_store, ba_load, sbind, slift. rewrite Z.mul_comm, Z.quot_mul, Z.rem_mul by lia.
  cbn [Z.eqb andb orb Z.add Z.leb Z.compare py_shl1 Z.ltb ba_buf ba_start ba_stop]. rewrite (py_nth_ok _ _ 0) by exact L. reflexivity.
Qed.
Lemma zero_loop b c d z : (z = S (S (List.length d)))%nat -> bytes_ok (b :: c :: d) -> forall k j, (j + k = z)%nat ->
  self_copy (8 * Z.of_nat j) (8 * Z.of_nat k) (Z.of_nat j) (k + S (S (List.length d))) (mkBa (repeat 0 z ++ b :: c :: d) 0 (8 * (zlen (b :: c :: d) + Z.of_nat z)))
  = (Err ValueError, mkBa (repeat 0 z ++ b :: c :: d) 0 (8 * (zlen (b :: c :: d) + Z.of_nat z))).
Proof.
  intros Z B. inversion B as [|? ? Bb B1]; subst x l. inversion B1 as [|? ? Bc Bd]; subst x l.
  assert (Lz : zlen (repeat 0 z) = Z.of_nat z) by (unfold zlen; now rewrite repeat_length).
  induction k as [|k IH]; intros j J.
  - assert (j = z) by lia. subst j. cbn [Nat.add self_copy]. unfold sbind at 1, ba_get_byte_bits at 1. cbn [ba_buf ba_start ba_stop].
    replace (8 * Z.of_nat z + 0) with (8 * zlen (repeat 0 z)) by lia. rewrite get_whole by (exact Bb || (rewrite !zlen_cons; pose proof (zlen_nonneg d); lia)).
    change (Z.min (8 * Z.of_nat 0) 8) with 0. replace (8 * Z.of_nat z) with (8 * zlen (repeat 0 z)) at 1 by lia. unfold sbind at 1. rewrite store_none by exact Bb.
    unfold sbind at 1, ba_get_byte_bits at 1. cbn [ba_buf ba_start ba_stop].
    replace (repeat 0 z ++ b :: c :: d) with ((repeat 0 z ++ [b]) ++ c :: d) by now rewrite <- app_assoc.
    replace (8 * (Z.of_nat z + 1) + 0) with (8 * zlen (repeat 0 z ++ [b])) by (rewrite zlen_app; change (zlen [b]) with 1; lia).
    rewrite get_whole by (exact Bc || (rewrite !zlen_cons; pose proof (zlen_nonneg d); lia)).
    change (Z.min (8 * Z.of_nat 0 - 8) 8) with (-8). replace (8 * Z.of_nat z + 8) with (8 * zlen (repeat 0 z ++ [b])) by (rewrite zlen_app; change (zlen [b]) with 1; lia).
    unfold sbind at 1. now rewrite store_negative.
  - specialize (IH (S j) ltac:(lia)). cbn [Nat.add self_copy]. unfold sbind at 1, ba_get_byte_bits at 1. cbn [ba_buf ba_start ba_stop].
    assert (E : repeat 0 z ++ b :: c :: d = repeat 0 j ++ 0 :: (repeat 0 k ++ b :: c :: d)).
    { replace z with (j + S k)%nat by lia. rewrite repeat_app, <- app_assoc. reflexivity. }
    assert (Lj : zlen (repeat 0 j) = Z.of_nat j) by (unfold zlen; now rewrite repeat_length).
    rewrite E in *. replace (8 * Z.of_nat j + 0) with (8 * zlen (repeat 0 j)) by lia.
    rewrite get_whole by ((unfold is_byte; lia) || (rewrite !zlen_cons; pose proof (zlen_nonneg d); lia)).
    rewrite Z.min_r by lia. replace (8 * Z.of_nat j) with (8 * zlen (repeat 0 j)) at 1 by lia. unfold sbind at 1. rewrite store_whole by (unfold is_byte; lia).
    replace (8 * Z.of_nat j + 8) with (8 * Z.of_nat (S j)) by lia. replace (8 * Z.of_nat (S k) - 8) with (8 * Z.of_nat k) by lia. replace (Z.of_nat j + 1) with (Z.of_nat (S j)) by lia.
    exact IH.
Qed.
Definition self_insert (i : Z) : stM baa unit :=
  i <- (fun s => (Ok (translate_offset (ba_start s) (ba_stop s) i), s)) ;;
  n <- (fun s => (Ok (ba_stop s - ba_start s), s)) ;;
  do insert_zeros i (i + n) ;;
  self_from i n.
Lemma insert_self x i m : steady x m -> insert_at x i x m = on_array x (self_insert i) m.
Proof.
  intros S. unfold insert_at, self_insert. apply seq_on; auto. intros o m1 S1. apply seq_on; auto. intros n m2 S2. apply seq_on; auto. intros [] m3 S3. now apply from_self.
Qed.
Lemma self_insert_whole l : 2 <= zlen l -> bytes_ok l ->
  self_insert 0 (mkBa l 0 (8 * zlen l)) = (Err ValueError, mkBa (repeat 0 (List.length l) ++ l) 0 (8 * (zlen l + zlen l))).
Proof.
  intros L B. unfold self_insert. unfold sbind at 1 2. cbn [ba_stop ba_start]. unfold translate_offset. cbn [Z.ltb Z.compare].
  replace (Z.min 0 (8 * zlen l - 0) + 0) with (8 * zlen (@nil Z)) by (rewrite zlen_nil; lia). unfold sbind at 1.
  replace (8 * zlen (@nil Z) + (8 * zlen l - 0)) with (8 * zlen (@nil Z) + 8 * Z.of_nat (List.length l)) by (unfold zlen; lia).
  pose proof (insert_whole [] l 0 (zlen l) (List.length l) ltac:(unfold zlen in L; lia) ltac:(rewrite zlen_nil; lia)) as I. cbn [app] in I. rewrite I. clear I.
  unfold self_from, sbind at 1. cbn [ba_view blen ba_start ba_stop].
  replace (Z.to_nat (cdiv8 (8 * (zlen l + Z.of_nat (List.length l)) - 0))) with (List.length l + List.length l)%nat by (unfold cdiv8, zlen; lia).
  destruct l as [|b [|c d]]; [rewrite zlen_nil in L; lia|change (zlen [b]) with 1 in L; lia|].
  change (zlen (b :: c :: d)) with (Z.of_nat (List.length (b :: c :: d))) at 4. cbn [List.length].
  pose proof (zero_loop b c d (S (S (List.length d))) eq_refl B (S (S (List.length d))) 0 eq_refl) as H. cbn [Z.of_nat] in H.
  replace (8 * Z.of_nat (S (S (List.length d)))) with (8 * zlen (b :: c :: d) - 0) in H by (unfold zlen; cbn [List.length]; lia).
  exact H.
Qed.
