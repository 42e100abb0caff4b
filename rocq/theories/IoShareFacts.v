(** Proofs: arrays that share nothing behave like values; an array that is its own argument does not. *)
From Verif Require Import Base BaseProofs Range IoBuffer IoSpec IoProofs IoShare IoShareSpec.
From Coq Require Import ZArith List Bool Lia ZifyBool ZifyNat Permutation.
Import ListNotations.
Open Scope list_scope.
Open Scope Z_scope.
Ltac Zify.zify_post_hook ::= Z.div_mod_to_equations.

Lemma upd_same {A} (l : list A) : forall k a, nth_error l k = Some a -> list_upd l k a = l.
Proof. induction l as [|x l IH]; intros [|k] a H; try discriminate; cbn in *; [congruence|f_equal; auto]. Qed.
Lemma upd_upd {A} (l : list A) : forall k a b, list_upd (list_upd l k a) k b = list_upd l k b.
Proof. induction l as [|x l IH]; intros [|k] a b; cbn; try reflexivity. now rewrite IH. Qed.
Lemma upd_at {A} (l : list A) : forall k a, (k < List.length l)%nat -> nth_error (list_upd l k a) k = Some a.
Proof. induction l as [|x l IH]; intros [|k] a H; cbn in *; try lia; [reflexivity|apply IH; lia]. Qed.
Lemma upd_else {A} (l : list A) : forall k j a, j <> k -> nth_error (list_upd l k a) j = nth_error l j.
Proof. induction l as [|x l IH]; intros [|k] [|j] a H; cbn; try reflexivity; try congruence. apply IH. congruence. Qed.
Lemma map_upd {A B} (f : A -> B) (l : list A) : forall k a, map f (list_upd l k a) = list_upd (map f l) k (f a).
Proof. induction l as [|x l IH]; intros [|k] a; cbn; try reflexivity. now rewrite IH. Qed.
Lemma map_nth_err {A B} (f : A -> B) l k : nth_error (map f l) k = match nth_error l k with Some a => Some (f a) | None => None end.
Proof. rewrite nth_error_map. now destruct (nth_error l k). Qed.

Lemma nth_upd_else {A} (l : list A) : forall k j a d, j <> k -> nth j (list_upd l k a) d = nth j l d.
Proof. induction l as [|x l IH]; intros [|k] [|j] a d H; cbn; try reflexivity; try congruence. apply IH. congruence. Qed.
Lemma nth_error_ext_like {A} (l1 : list A) : forall l2, (forall j, nth_error l1 j = nth_error l2 j) -> l1 = l2.
Proof.
  induction l1 as [|x l IH]; intros [|y l2] H; [reflexivity|specialize (H 0%nat); discriminate|specialize (H 0%nat); discriminate|].
  pose proof (H 0%nat) as H0. injection H0 as ->. f_equal. apply IH. intros j. exact (H (S j)).
Qed.

(** ** Memory and values *)
Definition corr (m : mem) (l : list baa) : Prop := unshared m /\ contents m = l.
Definition sim {A} (P : stM mem A) (Q : stM (list baa) A) : Prop :=
  forall m l, corr m l -> fst (P m) = fst (Q l) /\ corr (snd (P m)) (snd (Q l)).

Lemma sim_bind {A B} (P : stM mem A) Q (K : A -> stM mem B) K' : sim P Q -> (forall a, sim (K a) (K' a)) -> sim (sbind P K) (sbind Q K').
Proof.
  intros H1 H2 m l C. destruct (H1 m l C) as (E & C'). unfold sbind. destruct (P m) as [r m'], (Q l) as [r' l']. cbn [fst snd] in *. subst r'.
  destruct r as [a|e]; [now apply H2|]. now split.
Qed.
Lemma sim_ret {A} (a : A) : sim (sret a) (sret a).
Proof. intros m l C. now split. Qed.
Lemma sim_lift {A} (r : res A) : sim (slift r) (slift r).
Proof. intros m l C. now split. Qed.

Lemma on_mem {A} x (f : stM baa A) m a : unshared m -> nth_error (m_arrs m) x = Some a ->
  exists m', on_array x f m = (fst (f (as_baa m a)), m') /\ unshared m' /\ contents m' = list_upd (contents m) x (snd (f (as_baa m a))).
Proof.
  intros (N & F) Hx. unfold on_array. rewrite Hx. destruct (f (as_baa m a)) as [r s] eqn:E. cbn [fst snd]. eexists. split; [reflexivity|].
  assert (La : (a_cell a < List.length (m_cells m))%nat) by (exact (proj1 (Forall_forall _ _) F a (nth_error_In _ _ Hx))).
  assert (Lx : (x < List.length (m_arrs m))%nat) by (apply nth_error_Some; congruence).
  assert (Ec : map a_cell (list_upd (m_arrs m) x (mkArr (a_cell a) (ba_start s) (ba_stop s))) = map a_cell (m_arrs m)).
  { rewrite map_upd. cbn [a_cell]. apply upd_same. now rewrite map_nth_err, Hx. }
  split.
  - split; cbn [m_arrs m_cells]; [now rewrite Ec|]. rewrite list_upd_length. apply Forall_list_upd; [exact F|exact La].
  - unfold contents. cbn [m_arrs m_cells]. apply nth_error_ext_like. intros j. destruct (Nat.eq_dec j x) as [->|Ne].
    + rewrite upd_at by (rewrite map_length; exact Lx). rewrite map_nth_err, upd_at by exact Lx. f_equal. unfold as_baa. cbn [m_cells a_cell a_start a_stop].
      rewrite (nth_error_nth _ _ [] (upd_at _ _ (ba_buf s) La)). now destruct s.
    + rewrite upd_else by exact Ne. rewrite !map_nth_err. rewrite upd_else by exact Ne. destruct (nth_error (m_arrs m) j) as [b|] eqn:Eb; [|reflexivity]. f_equal. unfold as_baa. cbn [m_cells]. f_equal.
      apply nth_upd_else. intros X. apply Ne. apply (proj1 (NoDup_nth_error (map a_cell (m_arrs m))) N); [rewrite map_length; apply nth_error_Some; congruence|]. now rewrite !map_nth_err, Eb, Hx, X.
Qed.
Lemma sim_on {A} x (f : stM baa A) : sim (on_array x f) (von x f).
Proof.
  intros m l (U & <-). unfold von. assert (En : nth_error (contents m) x = match nth_error (m_arrs m) x with Some a => Some (as_baa m a) | None => None end) by apply map_nth_err.
  rewrite En. clear En. destruct (nth_error (m_arrs m) x) as [a|] eqn:E.
  - destruct (on_mem x f m a U E) as (m' & E1 & U' & C'). rewrite E1. destruct (f (as_baa m a)) as [r s]. cbn [fst snd] in *. split; [reflexivity|]. now split.
  - unfold on_array. rewrite E. cbn [fst snd]. split; [reflexivity|]. now split.
Qed.
Lemma made_alloc m b : unshared m -> unshared (alloc b m) /\ contents (alloc b m) = contents m ++ [b].
Proof.
  intros (N & F). unfold alloc. split.
  - split; cbn [m_arrs m_cells].
    + rewrite map_app. cbn [map a_cell]. apply (Permutation_NoDup (Permutation_cons_append _ _)). constructor; [|exact N]. intros I. apply in_map_iff in I. destruct I as (a & Ea & Ia).
      pose proof (proj1 (Forall_forall _ _) F a Ia) as L. cbv beta in L. lia.
    + rewrite app_length. cbn [List.length]. apply Forall_app. split; [|constructor; [cbn; lia|constructor]]. eapply Forall_impl; [|exact F]. cbv beta. intros a L. lia.
  - unfold contents. cbn [m_arrs]. rewrite map_app. cbn [map]. f_equal.
    + apply map_ext_in. intros a Ia. unfold as_baa. cbn [m_cells]. f_equal. apply app_nth1. exact (proj1 (Forall_forall _ _) F a Ia).
    + unfold as_baa. cbn [m_cells a_cell a_start a_stop]. rewrite app_nth2, Nat.sub_diag by lia. cbn [nth]. now destruct b.
Qed.
Lemma sim_made r : sim (made r) (vmade r).
Proof. intros m l (U & <-). unfold made, vmade. destruct r as [b|e]; cbn [fst snd]; [split; [reflexivity|now apply made_alloc]|now split]. Qed.

(** ** Reading byte by byte, on values *)
Fixpoint vcopy (x y : nat) (offset remaining i : Z) (n : nat) : stM (list baa) unit :=
  match n with
  | O => sret tt
  | S k =>
      b <- von y (fun s => ba_get_byte_bits (8 * i + ba_start s) (Z.min (ba_stop s - 8 * i - ba_start s) 8) s) ;;
      do von x (set_byte_bits offset (Z.min remaining 8) b) ;;
      vcopy x y (offset + 8) (remaining - 8) (i + 1) k
  end.
Definition vcopy_from (x y : nat) (offset len : Z) : stM (list baa) unit :=
  n <- von y (fun s => (Ok (blen (ba_view s)), s)) ;; vcopy x y offset len 0 (Z.to_nat n).
Lemma sim_copy x y n : forall offset remaining i, sim (copy_live x y offset remaining i n) (vcopy x y offset remaining i n).
Proof.
  induction n as [|n IH]; intros; cbn [copy_live vcopy]; [apply sim_ret|]. apply sim_bind; [apply sim_on|]. intros b. apply sim_bind; [apply sim_on|]. intros _. apply IH.
Qed.
Lemma sim_copy_from x y offset len : sim (copy_from x y offset len) (vcopy_from x y offset len).
Proof. apply sim_bind; [apply sim_on|]. intros n. apply sim_copy. Qed.

Definition vbyte (s : baa) (i : Z) : res Z := get_byte_bits (py_nth (ba_buf s)) (zlen (ba_buf s)) (8 * i + ba_start s) (Z.min (ba_stop s - 8 * i - ba_start s) 8).
Lemma von_read {A} y (g : baa -> res A) l t : nth_error l y = Some t -> von y (fun s => (g s, s)) l = (g t, l).
Proof. intros H. unfold von. rewrite H. now rewrite upd_same. Qed.
Lemma vcopy_snapshot x y t n : x <> y -> forall offset remaining i bs l s, nth_error l x = Some s -> nth_error l y = Some t ->
  rmap_list (vbyte t) (map (fun k => i + Z.of_nat k) (seq 0 n)) = Ok bs ->
  vcopy x y offset remaining i n l = let '(r, s') := copy_loop offset remaining bs s in (r, list_upd l x s').
Proof.
  intros Ne. induction n as [|n IH]; intros offset remaining i bs l s Hx Hy H.
  - cbn in H. injection H as <-. cbn [vcopy copy_loop sret]. now rewrite upd_same.
  - cbn [seq map rmap_list] in H. rewrite <- seq_shift, map_map in H. replace (i + Z.of_nat 0) with i in H by lia.
    destruct (vbyte t i) as [b|e] eqn:Eb; [|discriminate]. cbn [rbind] in H.
    rewrite (map_ext _ (fun k => (i + 1) + Z.of_nat k)) in H by (intros; lia).
    destruct (rmap_list (vbyte t) (map (fun k => i + 1 + Z.of_nat k) (seq 0 n))) as [bs'|e] eqn:Ebs; [|discriminate]. injection H as <-.
    cbn [vcopy copy_loop]. unfold sbind at 1. change (von y _ l) with (von y (fun s => (vbyte s i, s)) l). rewrite (von_read y (fun s => vbyte s i) l t Hy), Eb.
    unfold sbind. unfold von at 1. rewrite Hx. destruct (set_byte_bits offset (Z.min remaining 8) b s) as [[u|e] s1] eqn:E1; [|reflexivity].
    assert (Lx : (x < List.length l)%nat) by (apply nth_error_Some; congruence).
    rewrite (IH (offset + 8) (remaining - 8) (i + 1) bs' (list_upd l x s1) s1); [|now apply upd_at|now rewrite upd_else by auto|exact Ebs].
    destruct (copy_loop (offset + 8) (remaining - 8) bs' s1) as [r s2]. now rewrite upd_upd.
Qed.
Lemma rmap_ext {A B} (f g : A -> res B) l : (forall a, f a = g a) -> rmap_list f l = rmap_list g l.
Proof. intros H. induction l as [|a l IH]; [reflexivity|]. cbn [rmap_list]. now rewrite H, IH. Qed.
Lemma view_bytes t : buf_bytes (ba_view t) = rmap_list (vbyte t) (map (fun k => 0 + Z.of_nat k) (seq 0 (Z.to_nat (blen (ba_view t))))).
Proof.
  unfold buf_bytes, ba_view. unfold py_range, py_range3. replace ((blen (BView (BArr (ba_buf t)) (ba_start t) (ba_stop t)) - 0 + (1 - 1)) / 1) with (blen (BView (BArr (ba_buf t)) (ba_start t) (ba_stop t))) by lia.
  rewrite (map_ext (fun k => 0 + 1 * Z.of_nat k) (fun k => 0 + Z.of_nat k)) by (intros; lia). apply rmap_ext. intros i. reflexivity.
Qed.
Lemma vcopy_from_value x y t bs offset len l s : x <> y -> nth_error l x = Some s -> nth_error l y = Some t -> buf_bytes (ba_view t) = Ok bs ->
  vcopy_from x y offset len l = von x (copy_to_range offset bs len) l.
Proof.
  intros Ne Hx Hy H. unfold vcopy_from, sbind. rewrite (von_read y (fun s => Ok (blen (ba_view s))) l t Hy). rewrite view_bytes in H.
  rewrite (vcopy_snapshot x y t _ Ne _ _ _ bs l s Hx Hy H). unfold von, copy_to_range. now rewrite Hx.
Qed.

Definition vset_range (x y : nat) (start stop value_len : Z) : stM (list baa) unit :=
  do slift (passert ((start <=? stop) && (0 <=? value_len))) ;;
  let range_len := stop - start in
  if range_len <? value_len then
    do von x (insert_zeros stop (stop + value_len - range_len)) ;; vcopy_from x y start value_len
  else if value_len <? range_len then
    do von x (del_range (stop - (range_len - value_len)) stop) ;; vcopy_from x y start value_len
  else vcopy_from x y start value_len.
Definition vset_item (x : nat) (k : bkey) (y : nat) : stM (list baa) unit :=
  p <- von x (ba_key_to_range k) ;; n <- von y (fun s => (Ok (ba_stop s - ba_start s), s)) ;; vset_range x y (fst p) (snd p) n.
Definition vinsert_at (x : nat) (i : Z) (y : nat) : stM (list baa) unit :=
  i <- von x (fun s => (Ok (translate_offset (ba_start s) (ba_stop s) i), s)) ;;
  n <- von y (fun s => (Ok (ba_stop s - ba_start s), s)) ;;
  do von x (insert_zeros i (i + n)) ;; vcopy_from x y i n.
Definition vextend_by (x y : nat) : stM (list baa) unit :=
  offset <- von x (fun s => (Ok (ba_stop s), s)) ;;
  n <- von y (fun s => (Ok (ba_stop s - ba_start s), s)) ;;
  do von x (insert_zeros offset (offset + n)) ;;
  n <- von y (fun s => (Ok (ba_stop s - ba_start s), s)) ;;
  vcopy_from x y offset n.
Lemma sim_set_item x k y : sim (set_item x k y) (vset_item x k y).
Proof.
  apply sim_bind; [apply sim_on|]. intros p. apply sim_bind; [apply sim_on|]. intros n. apply sim_bind; [apply sim_lift|]. intros _. cbv zeta.
  destruct (snd p - fst p <? n); [apply sim_bind; [apply sim_on|]; intros _; apply sim_copy_from|].
  destruct (n <? snd p - fst p); [apply sim_bind; [apply sim_on|]; intros _; apply sim_copy_from|apply sim_copy_from].
Qed.
Lemma sim_insert_at x i y : sim (insert_at x i y) (vinsert_at x i y).
Proof.
  apply sim_bind; [apply sim_on|]. intros a. apply sim_bind; [apply sim_on|]. intros n. apply sim_bind; [apply sim_on|]. intros _. apply sim_copy_from.
Qed.
Lemma sim_extend_by x y : sim (extend_by x y) (vextend_by x y).
Proof.
  apply sim_bind; [apply sim_on|]. intros a. apply sim_bind; [apply sim_on|]. intros n. apply sim_bind; [apply sim_on|]. intros _. apply sim_bind; [apply sim_on|]. intros n'. apply sim_copy_from.
Qed.

(** ** The argument as a value *)
Section Arg.
Variables (x y : nat) (l : list baa) (s t : baa) (bs : list Z).
Hypothesis Ne : x <> y.
Hypothesis Hx : nth_error l x = Some s.
Hypothesis Hy : nth_error l y = Some t.
Hypothesis Hb : buf_bytes (ba_view t) = Ok bs.
Lemma von_then (f : stM baa unit) offset len : (do von x f ;; vcopy_from x y offset len) l = von x (do f ;; copy_to_range offset bs len) l.
Proof.
  unfold sbind at 1. unfold von at 1 2. rewrite Hx. unfold sbind. destruct (f s) as [[u|e] s1] eqn:E; [|reflexivity].
  assert (Lx : (x < List.length l)%nat) by (apply nth_error_Some; congruence).
  rewrite (vcopy_from_value x y t bs offset len (list_upd l x s1) s1 Ne); [|now apply upd_at|now rewrite upd_else by auto|exact Hb].
  unfold von. rewrite upd_at by exact Lx. destruct (copy_to_range offset bs len s1) as [r s2]. now rewrite upd_upd.
Qed.
Lemma von_val {A} (f : stM baa A) : von x f l = (fst (f s), list_upd l x (snd (f s))).
Proof. unfold von. rewrite Hx. now destruct (f s). Qed.
Lemma von_pass {A} (f : stM baa A) (g : A -> stM baa unit) a : f s = (Ok a, s) -> von x (sbind f g) l = von x (g a) l.
Proof. intros E. unfold von. rewrite Hx. unfold sbind. now rewrite E. Qed.
Lemma von_fail {A} (f : stM baa A) (g : A -> stM baa unit) e : f s = (Err e, s) -> von x (sbind f g) l = (Err e, l).
Proof. intros E. unfold von. rewrite Hx. unfold sbind. rewrite E. now rewrite upd_same. Qed.
Lemma bind_pass {A B} (P : stM (list baa) A) (K : A -> stM (list baa) B) a : P l = (Ok a, l) -> sbind P K l = K a l.
Proof. intros E. unfold sbind. now rewrite E. Qed.
Lemma bind_fail {A B} (P : stM (list baa) A) (K : A -> stM (list baa) B) e : P l = (Err e, l) -> sbind P K l = (Err e, l).
Proof. intros E. unfold sbind. now rewrite E. Qed.
Lemma bytes_and_length n : value_and_length (BVView (ba_view t)) n = Ok (bs, ba_stop t - ba_start t).
Proof. unfold value_and_length. now rewrite Hb. Qed.
Lemma vset_item_value k : vset_item x k y l = von x (ba_setitem k (BVView (ba_view t))) l.
Proof.
  unfold vset_item, ba_setitem.
  assert (Ek : exists r, ba_key_to_range k = (fun s => (r s, s))) by (destruct k; eexists; reflexivity). destruct Ek as (r & Ek). rewrite Ek.
  destruct (r s) as [p|e] eqn:Er.
  2:{ rewrite (bind_fail _ _ e) by (rewrite (von_read x r l s Hx); now rewrite Er). rewrite (von_fail _ _ e) by (now rewrite Er). reflexivity. }
  rewrite (bind_pass _ _ p) by (rewrite (von_read x r l s Hx); now rewrite Er). rewrite (von_pass _ _ p) by (now rewrite Er).
  rewrite (bind_pass _ _ (ba_stop t - ba_start t)) by (apply (von_read y (fun s => Ok (ba_stop s - ba_start s)) l t Hy)).
  rewrite (von_pass _ _ (bs, ba_stop t - ba_start t)) by (unfold slift; now rewrite bytes_and_length). cbn [fst snd]. unfold vset_range, set_range.
  destruct (passert ((fst p <=? snd p) && (0 <=? ba_stop t - ba_start t))) as [u|e] eqn:Ep.
  2:{ rewrite (bind_fail _ _ e) by reflexivity. rewrite (von_fail _ _ e) by reflexivity. reflexivity. }
  rewrite (bind_pass _ _ u) by reflexivity. rewrite (von_pass _ _ u) by reflexivity. cbv zeta.
  destruct (snd p - fst p <? ba_stop t - ba_start t); [apply von_then|]. destruct (ba_stop t - ba_start t <? snd p - fst p); [apply von_then|].
  now apply (vcopy_from_value x y t bs _ _ l s).
Qed.
Lemma vinsert_at_value i : vinsert_at x i y l = von x (ba_insert i (BVView (ba_view t))) l.
Proof.
  unfold vinsert_at, ba_insert. rewrite (bind_pass _ _ _ (von_read x (fun s => Ok (translate_offset (ba_start s) (ba_stop s) i)) l s Hx)).
  rewrite (bind_pass _ _ _ (von_read y (fun s => Ok (ba_stop s - ba_start s)) l t Hy)). rewrite von_then.
  rewrite (von_pass sget _ s) by reflexivity. cbv zeta. rewrite (von_pass (slift _) _ (bs, ba_stop t - ba_start t)) by (unfold slift; now rewrite bytes_and_length). reflexivity.
Qed.
Lemma vextend_by_value : vextend_by x y l = von x (ba_extend (BVView (ba_view t))) l.
Proof.
  unfold vextend_by, ba_extend. rewrite (bind_pass _ _ _ (von_read x (fun s => Ok (ba_stop s)) l s Hx)).
  rewrite (bind_pass _ _ _ (von_read y (fun s => Ok (ba_stop s - ba_start s)) l t Hy)).
  rewrite (von_pass sget _ s) by reflexivity. cbv zeta. change (blength (ba_view t)) with (ba_stop t - ba_start t).
  assert (Lx : (x < List.length l)%nat) by (apply nth_error_Some; congruence).
  rewrite von_val. unfold sbind. rewrite von_val.
  destruct (insert_zeros (ba_stop s) (ba_stop s + (ba_stop t - ba_start t)) s) as [[u|e] s1]; [|reflexivity]. cbn [fst snd].
  rewrite (von_read y (fun s => Ok (ba_stop s - ba_start s)) _ t) by (now rewrite upd_else by auto).
  rewrite (vcopy_from_value x y t bs _ _ (list_upd l x s1) s1 Ne); [|now apply upd_at|now rewrite upd_else by auto|exact Hb].
  unfold slift. rewrite Hb. unfold von. rewrite upd_at by exact Lx. destruct (copy_to_range _ bs _ s1) as [r s2]. now rewrite upd_upd.
Qed.
End Arg.

(** ** Statements and programs *)
Definition readable (l : list baa) (y : nat) : Prop := forall t, nth_error l y = Some t -> exists bs, buf_bytes (ba_view t) = Ok bs.
Lemma corr_len m l : corr m l -> List.length (m_arrs m) = List.length l.
Proof. intros (_ & <-). unfold contents. now rewrite map_length. Qed.
Lemma corr_nth m l x : corr m l -> nth_error l x = match nth_error (m_arrs m) x with Some a => Some (as_baa m a) | None => None end.
Proof. intros (_ & <-). apply map_nth_err. Qed.

Lemma arg_step (P : stM mem unit) (Q R : stM (list baa) unit) x y m l :
  sim P Q -> corr m l -> x <> y -> In x [x; y] -> (x < List.length l)%nat -> (y < List.length l)%nat ->
  (forall s t bs, nth_error l x = Some s -> nth_error l y = Some t -> buf_bytes (ba_view t) = Ok bs -> Q l = R l) -> readable l y ->
  fst (P m) = fst (R l) /\ corr (snd (P m)) (snd (R l)).
Proof.
  intros S C Ne _ Lx Ly H R'. destruct (nth_error l x) as [s|] eqn:Ex; [|apply nth_error_None in Ex; lia]. destruct (nth_error l y) as [t|] eqn:Ey; [|apply nth_error_None in Ey; lia].
  destruct (R' t Ey) as (bs & Eb). rewrite <- (H s t bs eq_refl eq_refl Eb). now apply S.
Qed.
Lemma with_arg_val y f l t : nth_error l y = Some t -> with_arg y f l = f (BVView (ba_view t)) l.
Proof. intros H. unfold with_arg. now rewrite H. Qed.
Lemma app_upd {A} (l : list A) a b : list_upd (l ++ [a]) (List.length l) b = l ++ [b].
Proof. induction l as [|x l IH]; cbn; [reflexivity|now rewrite IH]. Qed.

Theorem step_value op m l : corr m l -> apart_op op -> Forall (fun x => (x < List.length l)%nat) (op_arrays op) ->
  (forall x y, (exists k, op = ASet x k y) \/ (exists i, op = AInsert x i y) \/ op = AExtend x y \/ op = AAdd x y -> readable l y) ->
  fst (astep op m) = fst (vstep op l) /\ corr (snd (astep op m)) (snd (vstep op l)).
Proof.
  intros C A Fx R. destruct op as [d start stop|x start stop|x a b|x y|x k y|x i y|x y|x p]; cbn [astep vstep op_arrays apart_op] in *.
  - now apply sim_made.
  - contradiction.
  - rewrite (corr_nth m l x C). destruct (nth_error (m_arrs m) x) as [a0|]; [now apply sim_made|now split].
  - inversion Fx as [|? ? Lx Fy]; subst. inversion Fy as [|? ? Ly _]; subst.
    pose proof (corr_nth m l x C) as Ex. pose proof (corr_nth m l y C) as Ey.
    destruct (nth_error (m_arrs m) x) as [a|]; [|apply nth_error_None in Ex; lia]. destruct (nth_error (m_arrs m) y) as [b|]; [|apply nth_error_None in Ey; lia].
    rewrite Ex, Ey. set (s := as_baa m a) in *. set (t := as_baa m b) in *. unfold ba_add.
    destruct (mk_baa (ba_buf s) (ba_start s) (ba_stop s)) as [c|e]; [|cbn [rbind vmade fst snd]; now split]. cbn [rbind].
    assert (C' : corr (alloc c m) (l ++ [c])) by (destruct C as (U & <-); destruct (made_alloc m c U); now split).
    destruct (R x y) with (t := t) as (bs & Hb); [auto|exact Ey|].
    assert (Ny : List.length (m_arrs m) <> y) by (rewrite (corr_len m l C); lia).
    destruct (sim_extend_by (List.length (m_arrs m)) y (alloc c m) (l ++ [c]) C') as (E1 & E2).
    assert (Hn : nth_error (l ++ [c]) (List.length (m_arrs m)) = Some c) by (rewrite (corr_len m l C), nth_error_app2, Nat.sub_diag by lia; reflexivity).
    assert (Hy : nth_error (l ++ [c]) y = Some t) by (rewrite nth_error_app1 by lia; exact Ey).
    rewrite (vextend_by_value _ y (l ++ [c]) c t bs Ny Hn Hy Hb) in E1, E2. unfold von in E1, E2. rewrite Hn in E1, E2.
    destruct (extend_by (List.length (m_arrs m)) y (alloc c m)) as [r m']. destruct (ba_extend (BVView (ba_view t)) c) as [r' c']. cbn [fst snd] in *. subst r'.
    destruct r as [u|e]; cbn [vmade fst snd]; [|now split]. split; [reflexivity|]. rewrite (corr_len m l C), app_upd in E2. exact E2.
  - inversion Fx as [|? ? Lx Fy]; subst. inversion Fy as [|? ? Ly _]; subst.
    apply (arg_step _ (vset_item x k y) _ x y); auto; [apply sim_set_item|now left| |apply (R x y); eauto].
    intros s t bs Hx Hy Hb. rewrite (with_arg_val y _ l t Hy). now apply (vset_item_value x y l s t bs).
  - inversion Fx as [|? ? Lx Fy]; subst. inversion Fy as [|? ? Ly _]; subst.
    apply (arg_step _ (vinsert_at x i y) _ x y); auto; [apply sim_insert_at|now left| |apply (R x y); eauto].
    intros s t bs Hx Hy Hb. rewrite (with_arg_val y _ l t Hy). now apply (vinsert_at_value x y l s t bs).
  - inversion Fx as [|? ? Lx Fy]; subst. inversion Fy as [|? ? Ly _]; subst.
    apply (arg_step _ (vextend_by x y) _ x y); auto; [apply sim_extend_by|now left| |apply (R x y); eauto].
    intros s t bs Hx Hy Hb. rewrite (with_arg_val y _ l t Hy). now apply (vextend_by_value x y l s t bs).
  - change (von x (vplain p)) with (von x (plain_step p)). now apply sim_on.
Qed.
