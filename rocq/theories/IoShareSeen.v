(** Top-level lemmas: an array that is its own argument, and arrays on one bytearray. *)
From Verif Require Import Base BaseProofs Range IoBuffer IoSpec IoProofs IoMutProofs IoFacts IoViews IoShare IoShareSpec IoShareFacts IoShareSelf.
From Coq Require Import ZArith List Bool Lia ZifyBool ZifyNat.
Import ListNotations.
Open Scope list_scope.
Open Scope Z_scope.
Ltac Zify.zify_post_hook ::= Z.div_mod_to_equations.

Lemma holds_steady m x c s : holds m x c s -> steady x m.
Proof. intros (H & L). exists (mkArr c (ba_start s) (ba_stop s)). split; [exact H|]. cbn [a_cell]. now apply nth_lt in L. Qed.
Lemma on_holds {A} m x c s (f : stM baa A) : holds m x c s -> on_array x f m = (fst (f s), replaced m x c (snd (f s))).
Proof.
  intros (H & L). unfold on_array. rewrite H. unfold as_baa. cbn [a_cell a_start a_stop]. rewrite (nth_error_nth _ _ [] L).
  destruct s as [b st sp]. cbn [ba_buf ba_start ba_stop]. now destruct (f (mkBa b st sp)) as [r s'].
Qed.
Lemma replaced_holds m x c s s' : holds m x c s -> holds (replaced m x c s') x c s'.
Proof. intros (H & L). split; cbn [replaced m_arrs m_cells]; apply upd_at; eapply nth_lt; eauto. Qed.
Lemma replaced_else m x y c d s t s' : holds m x c s -> holds m y d t -> x <> y ->
  holds (replaced m x c s') y d (mkBa (if Nat.eqb c d then ba_buf s' else ba_buf t) (ba_start t) (ba_stop t)).
Proof.
  intros (H & L) (H2 & L2) N. split; cbn [replaced m_arrs m_cells ba_buf ba_start ba_stop]; [now rewrite upd_else by auto|].
  destruct (Nat.eqb_spec c d) as [<-|Ne]; [apply upd_at; eapply nth_lt; eauto|now rewrite upd_else by auto].
Qed.

Theorem extend_itself m x c p d : holds m x c (mkBa (p ++ d) (8 * zlen p) (8 * zlen (p ++ d))) -> d <> [] -> bytes_ok d ->
  astep (AExtend x x) m = (Err IndexError, replaced m x c (mkBa (p ++ d ++ d) (8 * zlen p) (8 * zlen (p ++ d ++ d)))).
Proof. intros H N B. cbn [astep]. rewrite extend_self by (eapply holds_steady; eauto). now rewrite (on_holds m x c _ _ H), self_extend_whole. Qed.
Theorem insert_itself m x c l : holds m x c (mkBa l 0 (8 * zlen l)) -> 2 <= zlen l -> bytes_ok l ->
  astep (AInsert x 0 x) m = (Err ValueError, replaced m x c (mkBa (repeat 0 (List.length l) ++ l) 0 (8 * (zlen l + zlen l)))).
Proof. intros H N B. cbn [astep]. rewrite insert_self by (eapply holds_steady; eauto). now rewrite (on_holds m x c _ _ H), self_insert_whole. Qed.
(** [x + x] *)
Theorem add_itself m x s : unshared m -> Forall ba_ok (contents m) -> nth_error (contents m) x = Some s ->
  exists m' s', astep (AAdd x x) m = (Ok tt, m') /\ contents m' = contents m ++ [s'] /\ unshared m' /\ ba_ok s' /\ ba_bits s' = ba_bits s ++ ba_bits s.
Proof.
  intros U K H. assert (Ks : ba_ok s) by (apply nth_error_In in H; rewrite Forall_forall in K; auto).
  assert (L : (x < List.length (m_arrs m))%nat) by (apply nth_lt in H; unfold contents in H; now rewrite map_length in H).
  destruct (statement_value (AAdd x x) m U Logic.I K) as (E1 & E2 & E3); [cbn; auto|].
  destruct (ba_add_spec s (ba_view s) Ks Ks) as (s' & A & Ks' & Bs'). cbn [vstep] in E1, E2. rewrite H, A in E1, E2. cbn [vmade fst snd] in E1, E2.
  destruct (astep (AAdd x x) m) as [r m']. cbn [fst snd] in *. subst r. exists m', s'. auto.
Qed.

(** [x.extend(y)] *)
Theorem extend_other m x y s t : unshared m -> Forall ba_ok (contents m) -> x <> y -> nth_error (contents m) x = Some s -> nth_error (contents m) y = Some t ->
  exists m' s', astep (AExtend x y) m = (Ok tt, m') /\ contents m' = list_upd (contents m) x s' /\ unshared m' /\ ba_ok s' /\ ba_bits s' = ba_bits s ++ ba_bits t.
Proof.
  intros U K N H H2. pose proof K as K'. rewrite Forall_forall in K'.
  assert (Ks : ba_ok s) by (apply nth_error_In in H; auto). assert (Kt : ba_ok t) by (apply nth_error_In in H2; auto).
  assert (L : (x < List.length (m_arrs m))%nat) by (apply nth_lt in H; unfold contents in H; now rewrite map_length in H).
  assert (L2 : (y < List.length (m_arrs m))%nat) by (apply nth_lt in H2; unfold contents in H2; now rewrite map_length in H2).
  destruct (statement_value (AExtend x y) m U N K) as (E1 & E2 & E3); [cbn; auto|].
  destruct (extend_view s (ba_view t) Ks Kt) as (s' & A & Ks' & _ & Bs' & _). cbn [vstep] in E1, E2. rewrite (with_arg_val _ _ _ _ H2) in E1, E2. unfold von in E1, E2. rewrite H, A in E1, E2.
  cbn [fst snd] in E1, E2. destruct (astep (AExtend x y) m) as [r m']. cbn [fst snd] in *. subst r. exists m', s'. auto.
Qed.

(** [x[a:b]] *)
Theorem slice_made m x s a b : unshared m -> Forall ba_ok (contents m) -> nth_error (contents m) x = Some s ->
  (slice_in_order (ba_bits s) a b -> exists m' s', astep (ASlice x a b) m = (Ok tt, m') /\ contents m' = contents m ++ [s'] /\ unshared m'
     /\ ba_ok s' /\ ba_bits s' = slice_bits (ba_bits s) a b)
  /\ (~ slice_in_order (ba_bits s) a b -> astep (ASlice x a b) m = (Err AssertionError, m)).
Proof.
  intros U K H. assert (Ks : ba_ok s) by (apply nth_error_In in H; rewrite Forall_forall in K; auto).
  pose proof H as H'. unfold contents in H'. rewrite map_nth_err in H'. destruct (nth_error (m_arrs m) x) as [a0|] eqn:E; [|discriminate]. injection H' as H'.
  destruct (buf_slice_spec (ba_view s) a b Ks Logic.I) as (G & B). cbn [astep]. rewrite E, H'. unfold slice_of. fold (ba_bits s) in G, B. split; intros O.
  - destruct (G O) as (r & Er & Kr & _ & Br). rewrite Er. cbn [rbind].
    assert (R : exists l c d, r = BView (BArr l) c d).
    { unfold ba_view, buf_slice, view_slice in Er. destruct (key_to_range _ _ _ _) as [p|]; [|discriminate]. cbn [rbind buf_slice_bytes] in Er. unfold mk_view in Er.
      destruct (passert _); [|discriminate]. destruct (passert _); [|discriminate]. destruct (passert _); [|discriminate]. cbn [rbind] in Er. injection Er as <-. eauto. }
    destruct R as (l & c & d & ->). destruct (made_alloc m (mkBa l c d) U) as (U' & C'). exists (alloc (mkBa l c d) m), (mkBa l c d). auto.
  - rewrite (B O). reflexivity.
Qed.

(** ** Two arrays on one bytearray *)
Theorem share_made m x c s start stop : holds m x c s ->
  (0 <= start <= stop /\ stop <= 8 * zlen (ba_buf s) -> exists m', astep (AShare x start stop) m = (Ok tt, m')
     /\ holds m' (List.length (m_arrs m)) c (mkBa (ba_buf s) start stop) /\ (forall y d t, holds m y d t -> holds m' y d t))
  /\ (~ (0 <= start <= stop /\ stop <= 8 * zlen (ba_buf s)) -> astep (AShare x start stop) m = (Err AssertionError, m)).
Proof.
  intros (H & L). cbn [astep]. rewrite H. cbn [a_cell]. rewrite (nth_error_nth _ _ [] L). unfold mk_baa, mk_view, passert. cbn [blen]. split; intros B.
  - replace (0 <=? start) with true by lia. replace (stop <=? 8 * zlen (ba_buf s)) with true by lia. replace (start <=? stop) with true by lia. cbn [rbind].
    eexists. split; [reflexivity|]. split.
    + split; cbn [m_arrs m_cells ba_buf ba_start ba_stop]; [|exact L]. rewrite nth_error_app2, Nat.sub_diag by lia. reflexivity.
    + intros y d t (Hy & Ly). split; cbn [m_arrs m_cells]; [|exact Ly]. rewrite nth_error_app1 by (eapply nth_lt; eauto). exact Hy.
  - destruct (0 <=? start) eqn:E1; [|reflexivity]. destruct (stop <=? 8 * zlen (ba_buf s)) eqn:E2; [|reflexivity]. destruct (start <=? stop) eqn:E3; [|reflexivity]. exfalso. apply B. lia.
Qed.
Lemma set_overwrites s a b v : ba_ok s -> value_ok v ->
  let n := ba_stop s - ba_start s in hi_of n b - lo_of n a = zlen (value_bits v) ->
  exists s', ba_setitem (KSlice a b) v s = (Ok tt, s') /\ overwritten s s' (ba_start s + lo_of n a) (zlen (value_bits v)) (bnth (value_bits v)).
Proof.
  intros K Hv n E. destruct (ba_ok_elim _ K) as (B & Hs & Hl).
  pose proof (py_clamp_range n (match a with Some v => v | None => 0 end) ltac:(lia)) as Hlo. fold (lo_of n a) in Hlo.
  pose proof (py_clamp_range n (match b with Some v => v | None => n end) ltac:(lia)) as Hhi. fold (hi_of n b) in Hhi.
  pose proof (zlen_nonneg (value_bits v)) as Hvb.
  unfold ba_setitem, sbind, slift. rewrite key_range_spec by auto. fold n.
  replace (lo_of n a <=? hi_of n b) with true by lia. cbn [fst snd]. rewrite value_and_length_bits by auto. cbn [fst snd].
  unfold set_range, sbind, slift. replace ((ba_start s + lo_of n a <=? ba_start s + hi_of n b) && (0 <=? zlen (value_bits v))) with true by lia. cbn [passert].
  replace (ba_start s + hi_of n b - (ba_start s + lo_of n a)) with (zlen (value_bits v)) by lia. rewrite Z.ltb_irrefl.
  apply copy_bits; auto; lia.
Qed.
Theorem seen_through m x y c s t a b l : holds m x c s -> holds m y c t -> x <> y -> ba_ok s -> ba_ok t -> bytes_ok l ->
  let n := ba_stop s - ba_start s in hi_of n b - lo_of n a = 8 * zlen l ->
  exists s' t', astep (APlain x (PSetBytes (KSlice a b) l)) m = (Ok tt, replaced m x c s') /\ holds (replaced m x c s') y c t' /\ ba_ok t'
    /\ zlen (ba_bits t') = zlen (ba_bits t)
    /\ forall i, 0 <= i < zlen (ba_bits t) ->
         nth (Z.to_nat i) (ba_bits t') false
         = let j := ba_start t + i - (ba_start s + lo_of n a) in
           if (0 <=? j) && (j <? 8 * zlen l) then nth (Z.to_nat j) (bits_of_bytes l) false else nth (Z.to_nat i) (ba_bits t) false.
Proof.
  intros Hx Hy N Ks Kt B n E. pose proof Hx as (_ & Lx). pose proof Hy as (_ & Ly).
  assert (Eb : ba_buf t = ba_buf s) by congruence.
  destruct (set_overwrites s a b (BVSeq l) Ks B) as (s' & X & S1 & T1 & L1 & B1 & V).
  { cbn [value_bits]. rewrite bits_of_bytes_length. exact E. }
  cbn [value_bits] in V. rewrite bits_of_bytes_length in V. fold n in V.
  exists s', (mkBa (ba_buf s') (ba_start t) (ba_stop t)). cbn [astep plain_step]. rewrite (on_holds m x c _ _ Hx), X. cbn [fst snd].
  split; [reflexivity|]. pose proof (replaced_else m x y c c s t s' Hx Hy N) as H. rewrite Nat.eqb_refl in H. split; [exact H|].
  destruct (ba_ok_elim _ Kt) as (Bt & Ht & Lt).
  assert (Kt' : ba_ok (mkBa (ba_buf s') (ba_start t) (ba_stop t))) by (apply ba_ok_intro; cbn [ba_buf ba_start ba_stop]; auto; rewrite L1, <- Eb; lia).
  split; [exact Kt'|]. split; [now rewrite !ba_bits_len by auto|]. intros i Hi. rewrite ba_bits_len in Hi by auto.
  pose proof (bnth_ba _ i Kt') as P. pose proof (bnth_ba _ i Kt) as Q. cbn [ba_start ba_stop] in P.
  replace ((0 <=? i) && (i <? ba_stop t - ba_start t)) with true in P, Q by lia.
  unfold bnth in P, Q. replace (i <? 0) with false in P, Q by lia. rewrite P, Q.
  change (abit (mkBa (ba_buf s') (ba_start t) (ba_stop t)) (ba_start t + i)) with (abit s' (ba_start t + i)). rewrite V. cbv zeta.
  replace ((0 <=? ba_start t + i - (ba_start s + lo_of n a)) && (ba_start t + i - (ba_start s + lo_of n a) <? 8 * zlen l))
    with ((ba_start s + lo_of n a <=? ba_start t + i) && (ba_start t + i <? ba_start s + lo_of n a + 8 * zlen l)) by lia.
  destruct (_ && _) eqn:F; [|unfold abit; now rewrite Eb].
  unfold bnth. now replace (ba_start t + i - (ba_start s + lo_of n a) <? 0) with false by lia.
Qed.
Lemma nth_empty k : py_nth (@nil Z) k = Err IndexError.
Proof.
  unfold py_nth, py_index. rewrite zlen_nil. replace ((0 <=? k) && (k <? 0)) with false by lia.
  replace ((k <? 0) && (0 <=? 0 + k)) with false by lia. replace ((k <? 0) && (0 <=? k + 0)) with false by lia. reflexivity.
Qed.
Lemma get_empty ofs n : 0 <= ofs -> 0 <= n -> get_byte_bits (py_nth []) 0 ofs n = Err IndexError.
Proof.
  intros H N. unfold get_byte_bits, py_shl1. rewrite !nth_empty. replace (n <? 0) with false by lia. cbn [rbind].
  pose proof (Z.rem_nonneg ofs 8 ltac:(lia) H). replace (Z.rem ofs 8 <? 0) with false by lia.
  destruct (Z.rem ofs 8 =? 0); [reflexivity|]. now destruct (Z.rem ofs 8 + n <=? 8).
Qed.
(** The window of the other array stays: bytes deleted through [x] are missing under [y]. *)
Theorem window_stays m x y c l t : holds m x c (mkBa l 0 (8 * zlen l)) -> holds m y c t -> x <> y -> ba_ok t -> ba_start t < ba_stop t ->
  exists m', astep (APlain x (PDel (KSlice None None))) m = (Ok tt, m') /\ holds m' x c (mkBa [] 0 0)
    /\ holds m' y c (mkBa [] (ba_start t) (ba_stop t)) /\ buf_bytes (ba_view (mkBa [] (ba_start t) (ba_stop t))) = Err IndexError.
Proof.
  intros Hx Hy N Kt Ht. pose proof Hx as (_ & Lx). pose proof Hy as (_ & Ly). assert (Eb : ba_buf t = l) by (cbn [ba_buf] in Lx; congruence).
  destruct (ba_ok_elim _ Kt) as (Bt & H1 & H2). rewrite Eb in *. pose proof (zlen_nonneg l).
  assert (D : ba_delitem (KSlice None None) (mkBa l 0 (8 * zlen l)) = (Ok tt, mkBa [] 0 0)).
  { unfold ba_delitem, sbind. rewrite key_range_spec by (apply ba_ok_intro; cbn [ba_buf ba_start ba_stop]; auto; lia). cbn [ba_stop ba_start ba_buf].
    replace (lo_of (8 * zlen l - 0) None) with 0 by (unfold lo_of, py_clamp; destruct (0 <? 0) eqn:?; lia).
    replace (hi_of (8 * zlen l - 0) None) with (8 * zlen l) by (unfold hi_of, py_clamp; destruct (_ <? 0) eqn:?; lia).
    replace (0 <=? 8 * zlen l) with true by lia. cbn [fst snd]. unfold del_range, sbind, slift, sget, passert, sret, ba_set_buf, ba_set_stop, cdiv8.
    replace (0 + 0 <=? 0 + 8 * zlen l) with true by lia. replace ((0 + 8 * zlen l) / 8) with (zlen l) by lia. change ((0 + 0 + 7) / 8) with 0. rewrite Z.sub_0_r.
    replace (1 <=? zlen l) with true by lia. cbn [ba_buf ba_start ba_stop fst snd]. replace (0 + 0 <? 0 + 8 * zlen l - 8 * zlen l) with false by lia.
    change (Z.to_nat 0) with 0%nat. cbn [firstn app]. replace (Z.to_nat (zlen l)) with (List.length l) by (unfold zlen; lia). rewrite skipn_all.
    now replace (8 * zlen l - 8 * zlen l) with 0 by lia. }
  eexists. cbn [astep plain_step]. rewrite (on_holds m x c _ _ Hx), D. cbn [fst snd]. split; [reflexivity|]. split; [eapply replaced_holds; eauto|].
  split. { pose proof (replaced_else m x y c c _ t (mkBa [] 0 0) Hx Hy N) as H3. rewrite Nat.eqb_refl in H3. exact H3. }
  rewrite view_bytes. cbn [ba_view ba_buf ba_start ba_stop blen].
  replace (Z.to_nat (cdiv8 (ba_stop t - ba_start t))) with (S (Z.to_nat (cdiv8 (ba_stop t - ba_start t)) - 1)) by (unfold cdiv8; lia).
  cbn [seq map rmap_list]. unfold vbyte. cbn [ba_buf ba_start ba_stop]. rewrite zlen_nil, get_empty by lia. reflexivity.
Qed.
