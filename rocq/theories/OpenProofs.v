(** Proofs: where fields with an open position are packed. *)
From Verif Require Import Base BaseProofs Marshal Range RangeSpec RangeFacts RangeArith IoBuffer IoSpec IoProofs IoOutput FieldFacts RefEngine RefSpec RefProofs RefStatic
  BufferModel BufferSpec BufferPlace BufferFacts BufferPack BufferTrip BufferErrors BufferClass BufferConds BufferHooks BufferMacros BufferCodecSpec BufferCodecs BufferBuilders BufferDep Serialize OpenRanges OpenSpec.
From Coq Require Import ZArith List Bool String Lia ZifyBool ZifyNat.
Import ListNotations.
Open Scope list_scope.
Open Scope Z_scope.
Ltac Zify.zify_post_hook ::= Z.div_mod_to_equations.

(** ** The loop that closes open ranges *)
Lemma to_closed_ok q x q' : to_closed q x = Ok q' -> q' = mkR (r_start q) (Some (match r_stop q with Some e => e | None => x end)) /\ 0 <= r_start q <= x.
Proof.
  unfold to_closed, mk_srange. destruct (r_start q <=? x) eqn:E1; cbn [passert rbind]; [|discriminate].
  destruct (0 <=? r_start q) eqn:E2; cbn [passert rbind]; [|discriminate].
  set (e := match r_stop q with Some e => e | None => x end). destruct (0 <=? e); cbn [passert rbind]; [|discriminate].
  destruct (r_start q <=? e); cbn [passert rbind]; [|discriminate]. intros H. injection H as <-. split; [reflexivity|lia].
Qed.
Lemma close_packed_cons n c q l r : close_packed n c (q :: l) = Ok r ->
  exists r', let e := match r_stop q with Some e => e | None => r_start q + n - c end in
    r = mkR (r_start q) (Some e) :: r' /\ c <= n /\ close_packed n (c + (e - r_start q)) l = Ok r'.
Proof.
  cbn [close_packed]. destruct (to_closed q (r_start q + n - c)) as [q'|] eqn:E; cbn [rbind]; [|discriminate].
  apply to_closed_ok in E. destruct E as (-> & E). unfold byte_length. cbn [r_stop r_start].
  destruct (close_packed _ _ l) as [r'|] eqn:E2; cbn [rbind]; [|discriminate]. intros H. injection H as <-. exists r'. split; [reflexivity|]. split; [lia|reflexivity].
Qed.
(** After the open range nothing is left. *)
Lemma close_rest n l : forall c r, close_packed n c l = Ok r -> n <= c -> Forall closed r -> zlen (all_positions r) <= 0 ->
  Forall (fun q => r_stop q = None \/ r_stop q = Some (r_start q)) l /\ r = map (fun q => mkR (r_start q) (Some (r_start q))) l.
Proof.
  induction l as [|q l IH]; intros c r H Hc F L; [injection H as <-; split; [constructor|reflexivity]|].
  apply close_packed_cons in H. destruct H as (r' & -> & H1 & H2). inversion F as [|? ? Fq F']; subst.
  rewrite all_positions_cons, zlen_app, zlen_positions in L by assumption. unfold rlen in L. cbn [r_start r_stop] in L.
  destruct Fq as ((_ & F1) & _). cbn [r_start r_stop] in F1. assert (0 <= zlen (all_positions r')) by (unfold zlen; lia).
  assert (E : match r_stop q with Some e => e | None => r_start q + n - c end = r_start q) by lia.
  rewrite E in *. destruct (IH _ _ H2 ltac:(lia) F' ltac:(lia)) as (I1 & I2). split.
  - constructor; [|exact I1]. destruct (r_stop q); [right; congruence|now left].
  - cbn [map]. now f_equal.
Qed.
Lemma close_fits n l : forall c r, close_packed n c l = Ok r -> list_is_open l = true -> 0 <= c -> Forall closed r -> c + zlen (all_positions r) <= n ->
  exists front a rest, l = front ++ mkR a None :: rest /\ Forall closed front /\ c + zlen (all_positions front) <= n
    /\ Forall (fun q => r_stop q = None \/ r_stop q = Some (r_start q)) rest
    /\ r = front ++ mkR a (Some (a + n - c - zlen (all_positions front))) :: map (fun q => mkR (r_start q) (Some (r_start q))) rest.
Proof.
  induction l as [|q l IH]; intros c r H Ho Hc F L; [discriminate|]. apply close_packed_cons in H. destruct H as (r' & -> & H1 & H2).
  inversion F as [|? ? Fq F']; subst. rewrite all_positions_cons, zlen_app, zlen_positions in L by assumption. unfold rlen in L. cbn [r_start r_stop] in L.
  destruct (r_stop q) as [e|] eqn:Eq.
  - assert (Ho' : list_is_open l = true) by (cbn in Ho; unfold is_open in Ho; rewrite Eq in Ho; exact Ho).
    assert (Hq : q = mkR (r_start q) (Some e)) by (destruct q; cbn in *; congruence). destruct Fq as ((Q0 & Q1) & Q2). cbn [r_start r_stop] in Q0, Q1.
    destruct (IH _ _ H2 Ho' ltac:(lia) F' ltac:(lia)) as (front & a & rest & I1 & I2 & I3 & I4 & I5).
    assert (Fc : closed q) by (rewrite Hq; split; [split; assumption|discriminate]).
    exists (q :: front), a, rest. rewrite all_positions_cons, zlen_app, zlen_positions by assumption. unfold rlen. rewrite Eq.
    split; [cbn [app]; now f_equal|]. split; [now constructor|]. split; [lia|]. split; [exact I4|].
    rewrite I5, <- Hq. cbn [app]. f_equal. f_equal. f_equal. do 2 f_equal. lia.
  - replace (r_start q + n - c - r_start q) with (n - c) in * by lia. destruct (close_rest n l _ _ H2 ltac:(lia) F' ltac:(lia)) as (R1 & R2).
    exists [], (r_start q), l. cbn [app all_positions flat_map]. change (zlen []) with 0. split; [destruct q; cbn in *; congruence|]. split; [constructor|].
    split; [lia|]. split; [exact R1|]. rewrite R2. f_equal. f_equal. f_equal. lia.
Qed.

(** ** What the context remembers about positions *)
Section Positions.
Variable C : cls.
Notation look := (RefEngine.lookup rid_eqb).

Definition placed_ok (m : memory) : Prop := forall i f r, nth_error (k_fields C) i = Some f -> look (mkRid KPackPos i) m = Some (RRanges r) ->
  exists l, look (f_where_pack f) m = Some (RRanges l) /\ has_overlaps l = Ok false
    /\ (list_is_open l = false /\ r = l
        \/ list_is_open l = true /\ exists b, look (mkRid KPack i) m = Some (RBuf b) /\ close_packed (8 * blen b) 0 l = Ok r).

Lemma run_placed (d : rid -> ctx rid rv -> bst -> option (outcome rid rv * ctx rid rv * bst)) :
  (forall r c s v c' s', d r c s = Some (OOk v, c', s') -> placed_ok (c_cache c) -> placed_ok (c_cache c')) ->
  forall p c s v c' s', run d p c s = Some (OOk v, c', s') -> placed_ok (c_cache c) -> placed_ok (c_cache c').
Proof.
  intros Hd. induction p as [v|e|r k IH|f k IH]; intros c s v' c' s' H G; cbn [run] in H.
  - inversion H; subst. exact G.
  - discriminate.
  - destruct (d r c s) as [[[o1 c1] s1]|] eqn:E; [|discriminate]. destruct o1; try discriminate. eauto.
  - destruct (f s) as [[v|e] s1] eqn:E; [|discriminate]. eapply IH; eauto.
Qed.
Lemma look_keep r r' w (m : memory) v : look r m = None -> look r' m = Some v -> look r' ((r, w) :: m) = Some v.
Proof. intros N H. rewrite look_other; [exact H|]. intros ->. congruence. Qed.

Lemma deref_placed n : forall r c s v c' s', deref rid_eqb (nodes C) n r c s = Some (OOk v, c', s') -> placed_ok (c_cache c) -> placed_ok (c_cache c').
Proof.
  induction n as [|n IH]; intros r c s v c' s' H G; [discriminate|]. cbn [RefEngine.deref] in H.
  destruct (mem rid_eqb r (c_nodes c)); [discriminate|]. destruct (look r (c_cache c)) as [w|] eqn:El; [inversion H; subst; exact G|].
  destruct (run (deref rid_eqb (nodes C) n) (nodes C r) (push r c) s) as [[[[w|e|x] c1] s1]|] eqn:E; try discriminate. inversion H; subst. clear H.
  destruct (run_kept rid_eqb rid_eqb_spec (nodes C) _ _ _ _ _ _ _ E) as (_ & _ & K3 & K4 & _). cbn [push c_cache c_nodes] in K3, K4.
  assert (N : look r (c_cache c1) = None) by (rewrite K4; [exact El|now left]).
  cbn [pop store c_cache]. change (c_cache c) with (c_cache (push r c)) in G.
  pose proof (run_placed _ IH _ _ _ _ _ _ E G) as G1.
  intros i f l0 Hf L. destruct (rid_eqb (mkRid KPackPos i) r) eqn:Er.
  - apply rid_eqb_spec in Er. subst r. rewrite look_same in L. injection L as ->.
    change (nodes C (mkRid KPackPos i)) with (match nth_error (k_fields C) i with Some f => field_node KPackPos i f | None => PRaise NotModelled end) in E.
    rewrite Hf in E. cbn [field_node] in E. unfold pack_pos in E. cbn [run] in E.
    destruct (deref rid_eqb (nodes C) n (f_where_pack f) (push (mkRid KPackPos i) c) s) as [[[[w|e|x] c2] s2]|] eqn:E2; try discriminate.
    pose proof (deref_value_cached rid_eqb rid_eqb_spec (nodes C) _ _ _ _ _ _ _ E2) as L2.
    pose proof (run_kept rid_eqb rid_eqb_spec (nodes C) _ _ _ _ _ _ _ E) as (_ & _ & K & _). specialize (K _ _ L2).
    destruct (as_ranges w) as [l|] eqn:Ew; [|discriminate]. apply as_ranges_inv in Ew. subst w.
    exists l. destruct (has_overlaps l) as [[|]|] eqn:Eo; try discriminate. split; [now apply look_keep|]. split; [reflexivity|].
    destruct (list_is_open l) eqn:Ei; [right|left; split; [reflexivity|]; cbn [run] in E; congruence]. split; [reflexivity|].
    cbn [run] in E. destruct (deref rid_eqb (nodes C) n (mkRid KPack i) c2 s2) as [[[[p|e|x] c3] s3]|] eqn:E3; try discriminate.
    pose proof (deref_value_cached rid_eqb rid_eqb_spec (nodes C) _ _ _ _ _ _ _ E3) as L3.
    apply run_ret in E. destruct E as (E & -> & ->). destruct (as_buf p) as [b|] eqn:Ep; cbn [rbind] in E; [|discriminate].
    assert (p = RBuf b) by (destruct p; cbn in Ep; congruence). subst p. exists b. split; [now apply look_keep|].
    destruct (close_packed (8 * blen b) 0 l); cbn [rbind] in E; congruence.
  - rewrite look_other in L by (intros X; subst r; rewrite (proj2 (rid_eqb_spec _ _) eq_refl) in Er; discriminate).
    destruct (G1 i f l0 Hf L) as (l & A1 & A2 & A3). exists l. split; [now apply look_keep|]. split; [exact A2|].
    destruct A3 as [A3|(A3 & b & A4 & A5)]; [now left|right]. split; [exact A3|]. exists b. split; [now apply look_keep|exact A5].
Qed.

Definition wplaced (w : world) : Prop := placed_ok (c_cache (w_ctx w)).
Lemma dref_placed r w v w' : dref C r w = (Ok v, w') -> wplaced w -> wplaced w'.
Proof.
  unfold dref, wplaced. destruct (deref rid_eqb (nodes C) (fuel C) r (w_ctx w) (w_st w)) as [[[[x|e|x] c] s]|] eqn:E; intros H; inversion H; subst. cbn [w_ctx w_st].
  eapply deref_placed; eauto.
Qed.
Lemma pack_field_placed i f w w' : pack_field C i f w = (Ok tt, w') -> wplaced w -> wplaced w'.
Proof.
  intros H G. unfold pack_field in H. apply sbind_ok in H. destruct H as (c & w1 & H1 & H).
  pose proof (dref_placed _ _ _ _ H1 G) as G1. destruct (truthy c); [|inversion H; subst; exact G1].
  apply wrap_ok in H. apply sbind_ok in H. destruct H as (p & w2 & H2 & H). pose proof (dref_placed _ _ _ _ H2 G1) as G2.
  apply sbind_ok in H. destruct H as (q & w3 & H3 & H). pose proof (dref_placed _ _ _ _ H3 G2) as G3.
  apply sbind_ok in H. destruct H as (b & w4 & H4 & H). apply sbind_ok in H. destruct H as (l & w5 & H5 & H).
  unfold slift in H4, H5. inversion H4; subst w4. inversion H5; subst w5.
  unfold out_set in H. destruct (output_set b l (w_out w3)) as [[[]|e] x]; inversion H; subst. exact G3.
Qed.
Lemma pack_fields_placed l : forall w w', sforeach l (fun p => pack_field C (fst p) (snd p)) w = (Ok tt, w') -> wplaced w -> wplaced w'.
Proof.
  induction l as [|[i f] l IH]; intros w w' H G; cbn [sforeach fst snd] in H; [inversion H; subst; exact G|].
  apply sbind_ok in H. destruct H as ([] & w1 & H1 & H). apply (IH w1 w'); [exact H|]. eapply pack_field_placed; eauto.
Qed.
End Positions.

Lemma not_open_closed l : list_is_open l = false -> Forall (fun q => r_stop q <> None) l.
Proof.
  unfold list_is_open. intros H. apply Forall_forall. intros q Hq E. assert (existsb is_open l = true); [|congruence].
  apply existsb_exists. exists q. split; [exact Hq|]. unfold is_open. now rewrite E.
Qed.

Theorem pack_positions C o bytes o' : packers_ok C -> buffer_pack C o = (Ok bytes, o') ->
  exists ps m bits, packing C (numbered C) [] (mkBst o None) ps m (mkBst o' None)
    /\ output_of ps bits /\ bytes = sized (k_size C) (bytes_of_bits bits)
    /\ Forall2 (placed_by m) (k_fields C) ps
    /\ (plain C -> NoDup (map f_name (k_fields C)) -> quiet_before C -> Forall2 (packed_from C o o' m) (k_fields C) ps).
Proof.
  intros Hk H. unfold buffer_pack in H.
  destruct (sforeach (numbered C) (fun p => pack_field C (fst p) (snd p)) (start_pack o)) as [[[]|e] w] eqn:E; [|discriminate].
  destruct (pack_fields_ok _ _ _ _ Hk (wok_new C _) out_ok_new E) as (W & O & N & ps & F & P & K).
  assert (G : placed_ok C (c_cache (w_ctx w))).
  { apply (pack_fields_placed C _ _ _ E). intros i f r _ L. discriminate. }
  cbn [start_pack w_st w_ctx w_out new_ctx c_cache s_input] in *.
  apply pair_equal_spec in H. destruct H as (H1 & H2). subst o'.
  destruct O as (KO & _). unfold ba_ok in KO. rewrite buf_bytes_spec in H1 by exact KO. cbn [rbind] in H1. fold (ba_bits (w_out w)) in H1.
  exists ps, (c_cache (w_ctx w)), (ba_bits (w_out w)).
  split; [destruct (w_st w) as [o1 i1]; cbn in *; subst; exact K|].
  split; [apply output_of_placed; [exact F|]; rewrite new_baa_bits in P by constructor; exact P|].
  destruct (fix_size_c C (bytes_of_bits (ba_bits (w_out w)))) as (S1 & S2).
  assert (T : ~ too_long (k_size C) (bytes_of_bits (ba_bits (w_out w)))) by (intros T; rewrite S2 in H1 by auto; discriminate).
  split; [rewrite S1 in H1 by auto; congruence|].
  pose proof (packing_parts _ _ _ _ _ _ _ K) as Q. apply Forall2_nth_iff in Q. destruct Q as (L & Q).
  assert (Ln : List.length (numbered C) = List.length (k_fields C)) by (unfold numbered; rewrite combine_length, seq_length; lia).
  split.
  - apply Forall2_nth_iff. split; [lia|]. intros i f p Hf Ep.
    assert (Hi : nth_error (numbered C) i = Some (i, f)) by (now apply numbered_nth).
    destruct (Q i _ _ Hi Ep) as (c & C1 & C2 & C3). cbn [fst snd] in *. destruct p as [[b r]|]; [|exact I].
    destruct (truthy c) eqn:Tc; [|specialize (C2 eq_refl); discriminate]. destruct (C3 eq_refl) as (b' & r' & [= <- <-] & B1 & B2).
    destruct (G i f r Hf B2) as (l & A1 & A2 & A3). exists l. split; [exact A1|]. split; [exact A2|].
    destruct A3 as [(A3 & ->)|(A3 & b' & A4 & A5)]; [left; split; [now apply not_open_closed|reflexivity]|right].
    assert (b' = b) by congruence. subst b'. apply nth_error_In in Ep. pose proof (proj1 (Forall_forall _ _) F _ Ep) as (Fc & Fl).
    assert (Ok_b : buf_ok b) by (destruct (proj2 W (mkRid KPack i) (RBuf b) B1) as (b' & [= <-] & X); auto).
    assert (Lb : padded_length b = 8 * blen b) by (unfold padded_length; rewrite zlen_pad, blen_cdiv, <- buf_bits_len by exact Ok_b; reflexivity).
    fold (padded_length b) in Fl. rewrite Lb in *.
    destruct (close_fits (8 * blen b) l 0 r A5 A3 ltac:(lia) Fc ltac:(lia)) as (front & a & rest & I1 & I2 & I3 & I4 & I5).
    exists front, a, rest. split; [exact I1|]. split; [exact I2|]. split; [lia|]. split; [exact I4|]. rewrite I5. do 4 f_equal. lia.
  - intros Hp Hn Hq. assert (Gd : good C o (c_cache (w_ctx w)) (w_st w)).
    { apply (pack_fields_good C Hp Hn Hq o _ _ _ (incl_refl _) E). split; [reflexivity|]. split; [intros n _; reflexivity|]. intros. split; [|split]; discriminate. }
    apply Forall2_nth_iff. split; [lia|]. intros i f p Hf Ep.
    assert (Hi : nth_error (numbered C) i = Some (i, f)) by (now apply numbered_nth).
    destruct (Q i _ _ Hi Ep) as (c & C1 & C2 & C3). cbn [fst snd] in *. destruct p as [[b r]|]; [|exact I]. cbn [packed_from].
    destruct (truthy c) eqn:Tc; [|specialize (C2 eq_refl); discriminate]. destruct (C3 eq_refl) as (b' & r' & [= <- <-] & B1 & _).
    destruct (proj2 (proj2 Gd) i f Hf) as (_ & G2 & G3). destruct (G3 b B1) as (v & args & n & V1 & V2).
    destruct (G2 _ V1) as (v' & [= <-] & V3 & V4). exists v, args, n. auto.
Qed.

(** ** Positions that do not depend on anything *)
Lemma packing_agree C l m s ps m' s' : packing C l m s ps m' s' -> RefStatic.agree rid_eqb (nodes C) m -> RefStatic.agree rid_eqb (nodes C) m'.
Proof.
  intros H. induction H as [m s|i f l m s c m1 s1 ps m' s' E T H IH|i f l m s c m1 s1 b m2 s2 r m3 s3 ps m' s' E T E2 E3 H IH]; auto; intros Ha; apply IH.
  - eapply eval_agree; eauto.
  - destruct (eval_agree _ _ _ _ _ _ _ E Ha) as (A1 & _). destruct (eval_agree _ _ _ _ _ _ _ E2 A1) as (A2 & _). eapply eval_agree; eauto.
Qed.
Lemma first_open_unique f1 : forall f2 a1 a2 r1 r2, Forall closed f1 -> Forall closed f2 ->
  f1 ++ mkR a1 None :: r1 = f2 ++ mkR a2 None :: r2 -> f1 = f2 /\ a1 = a2 /\ r1 = r2.
Proof.
  induction f1 as [|x f1 IH]; intros [|y f2] a1 a2 r1 r2 F1 F2 E; cbn [app] in E.
  - injection E as -> ->. auto.
  - injection E as E _. inversion F2 as [|? ? (_ & X) _]; subst. now contradiction X.
  - injection E as E _. inversion F1 as [|? ? (_ & X) _]; subst. now contradiction X.
  - injection E as -> E. inversion F1; subst. inversion F2; subst. destruct (IH f2 a1 a2 r1 r2 ltac:(auto) ltac:(auto) E) as (-> & -> & ->). auto.
Qed.

Section Static.
Variable C : cls.
Variables i : nat.
Variable f : field.
Variables front rest : list srange.
Variable a : Z.
Variable c : rv.
Hypothesis Hp : packers_ok C.
Hypothesis Hf : nth_error (k_fields C) i = Some f.
Hypothesis Hw : static (nodes C) (f_where_pack f) (RRanges (front ++ mkR a None :: rest)).
Hypothesis Hc : static (nodes C) (f_pack_if f) c.
Hypothesis Ht : truthy c = true.
Hypothesis Hcl : Forall closed front.

(** A successful pack puts the field where [closed_for] says. *)
Lemma static_open o bytes o' : buffer_pack C o = (Ok bytes, o') -> exists ps m bits b, packing C (numbered C) [] (mkBst o None) ps m (mkBst o' None)
  /\ output_of ps bits /\ bytes = sized (k_size C) (bytes_of_bits bits)
  /\ zlen (all_positions front) <= padded_length b /\ Forall (fun q => r_stop q = None \/ r_stop q = Some (r_start q)) rest
  /\ nth_error ps i = Some (Some (b, front ++ mkR a (Some (a + padded_length b - zlen (all_positions front))) :: map (fun q => mkR (r_start q) (Some (r_start q))) rest))
  /\ (plain C -> NoDup (map f_name (k_fields C)) -> quiet_before C -> exists v args n, value_source C o m f v /\ f_pack f args v n = Ok b).
Proof.
  intros H. destruct (pack_positions C o bytes o' Hp H) as (ps & m & bits & K & O & E & P & Q).
  pose proof (packing_agree _ _ _ _ _ _ _ K (RefStatic.agree_nil _ _)) as Ag.
  pose proof (packing_parts _ _ _ _ _ _ _ K) as Pt. apply Forall2_nth_iff in Pt. destruct Pt as (L & Pt). apply Forall2_nth_iff in P. destruct P as (L' & P).
  destruct (nth_error ps i) as [p|] eqn:Ep; [|exfalso; apply nth_error_None in Ep; assert (nth_error (k_fields C) i <> None) as X by congruence; apply nth_error_Some in X; lia].
  destruct (Pt i _ _ (numbered_nth C i f Hf) Ep) as (c' & C1 & C2 & C3). cbn [fst snd] in *. destruct Hc as (nc & Hc'). pose proof (Ag _ _ _ _ C1 Hc'). subst c'.
  destruct (C3 Ht) as (b & r & -> & _). exists ps, m, bits, b. split; [exact K|]. split; [exact O|]. split; [exact E|].
  destruct (P i f _ Hf Ep) as (l & P1 & P2 & P3). destruct Hw as (nw & Hw'). pose proof (Ag _ _ _ _ P1 Hw') as X. injection X as ->.
  destruct P3 as [(P3 & _)|(f2 & a2 & r2 & P3 & P4 & P5 & P6 & P7)].
  { exfalso. apply Forall_app in P3. destruct P3 as (_ & P3). inversion P3 as [|? ? X _]; subst. now apply X. }
  destruct (first_open_unique _ _ _ _ _ _ Hcl P4 P3) as (-> & -> & ->). split; [exact P5|]. split; [exact P6|]. split; [now rewrite Ep, P7|].
  intros Q1 Q2 Q3. specialize (Q Q1 Q2 Q3). apply Forall2_nth_iff in Q. destruct Q as (_ & Q). destruct (Q i f _ Hf Ep) as (v & args & n & _ & V1 & V2). eauto.
Qed.
Lemma open_not_last : Exists (fun q => r_stop q <> None /\ r_stop q <> Some (r_start q)) rest -> forall o bytes o', buffer_pack C o <> (Ok bytes, o').
Proof.
  intros X o bytes o' H. destruct (static_open o bytes o' H) as (ps & m & bits & b & _ & _ & _ & _ & F & _).
  apply Exists_exists in X. destruct X as (q & Q1 & Q2 & Q3). destruct (proj1 (Forall_forall _ _) F q Q1); contradiction.
Qed.
End Static.

Lemma short_payload C i k front a l c o : packers_ok C -> plain C -> NoDup (map f_name (k_fields C)) -> quiet_before C ->
  nth_error (k_fields C) i = Some (bytearray_field k) -> kw_before k = None ->
  static (nodes C) (kw_where_pack k) (RRanges (front ++ [mkR a None])) -> static (nodes C) (kw_pack_if k) c -> truthy c = true -> Forall closed front ->
  Marshal.lookup o (kw_name k) = Some (VBytes l) -> 8 * zlen l < zlen (all_positions front) -> forall bytes o', buffer_pack C o <> (Ok bytes, o').
Proof.
  intros Hp Hpl Hn Hq Hf Hb Hw Hc Ht Hcl Ho Hl bytes o' H.
  destruct (static_open C i (bytearray_field k) front [] a c Hp Hf Hw Hc Ht Hcl o bytes o' H) as (ps & m & bits & b & _ & _ & _ & B & _ & _ & V).
  destruct (V Hpl Hn Hq) as (v & args & n & V1 & V2). unfold value_source in V1. cbn [f_before bytearray_field build] in V1. rewrite Hb in V1. cbn [f_name bytearray_field build] in V1.
  assert (v = VBytes l) by congruence. subst v. cbn [f_pack bytearray_field build pack_bytearray] in V2. destruct (bytes_okb l); [|discriminate]. injection V2 as <-.
  unfold padded_length in B. rewrite zlen_pad in B. cbn [buf_bits] in B. rewrite bits_of_bytes_length in B. unfold cdiv8 in B. lia.
Qed.

(** ** A payload around other data *)
Lemma offset_last l a x : Forall closed (l ++ [mkR a (Some x)]) -> zlen (all_positions l) < zlen (all_positions (l ++ [mkR a (Some x)])) \/ l = [] ->
  byte_offset (l ++ [mkR a (Some x)]) (zlen (all_positions (l ++ [mkR a (Some x)]))) = Ok x.
Proof.
  intros F. pose proof (last_bounds l a x F) as (B1 & B2). rewrite (last_positions l a x F). intros H.
  assert (G : forall m n, Forall closed m -> (zlen (all_positions m) < n \/ m = []) -> n - zlen (all_positions m) = x - a -> byte_offset (m ++ [mkR a (Some x)]) n = Ok x).
  { induction m as [|r m IH]; intros n Fm Hm Hn; cbn [app byte_offset].
    - change (zlen (all_positions [])) with 0 in Hn. unfold byte_length. cbn [r_stop r_start]. replace (n <=? x - a) with true by lia. f_equal. lia.
    - inversion Fm as [|? ? Fr Fm']; subst. destruct (closed_rlen r Fr) as (L1 & L2). rewrite L2.
      rewrite all_positions_cons, zlen_app, zlen_positions in * by assumption. pose proof (zlen_nonneg (all_positions m)).
      destruct Hm as [Hm|Hm]; [|discriminate]. replace (n <=? rlen r) with false by lia. apply IH; [assumption|left; lia|lia]. }
  apply G; [exact (front_closed l a x F)|destruct H; [left; lia|now right]|lia].
Qed.

Theorem split_roundtrip C k front a l c1 c2 o : cls_ok C -> k_fields C = [bytearray_field k] -> k_size C = None ->
  kw_before k = None -> kw_after k = None -> kw_unpack_after k = [] ->
  static (nodes C) (kw_where_pack k) (RRanges (front ++ [mkR a None])) -> static (nodes C) (kw_where_unpack k) (RRanges (front ++ [mkR a None])) ->
  static (nodes C) (kw_pack_if k) c1 -> truthy c1 = true -> static (nodes C) (kw_unpack_if k) c2 -> truthy c2 = true ->
  Forall nonempty_range (front ++ [mkR a None]) -> pairwise_disjoint (front ++ [mkR a None]) -> Forall closed front ->
  (a - zlen (all_positions front)) mod 8 = 0 ->
  bytes_ok l -> zlen (all_positions front) < 8 * zlen l -> Marshal.lookup o (kw_name k) = Some (VBytes l) ->
  exists bytes o', buffer_pack C o = (Ok bytes, o') /\ 8 * zlen bytes = a + 8 * zlen l - zlen (all_positions front)
    /\ forall o2, exists o'', buffer_unpack C (BArr bytes) o2 = (Ok (8 * zlen bytes), o'') /\ Marshal.lookup o'' (kw_name k) = Some (VBytes l).
Proof.
  intros Hok Hf Hs Hb Haf Hu W1 W2 C1 T1 C2 T2 Hne Hd Hcl Hal Hl Hlen Ho.
  set (fl := zlen (all_positions front)) in *. set (x := a + 8 * zlen l - fl). set (L := front ++ [mkR a None]). set (P := front ++ [mkR a (Some x)]).
  assert (Ha : 0 <= a) by (apply Forall_app in Hne; destruct Hne as (_ & N); inversion N as [|? ? (N1 & _) _]; subst; cbn in N1; lia).
  assert (He : all_end_before a front).
  { apply Forall_forall. intros r Hr. pose proof (proj1 (Forall_forall _ _) Hcl r Hr) as ((R1 & R2) & R3). destruct (r_stop r) as [e|] eqn:Er; [|congruence].
    exists e. split; [reflexivity|]. apply in_split in Hr. destruct Hr as (u & w & ->). rewrite <- app_assoc in Hd. cbn [app] in Hd.
    assert (Hn : ~ intersect r (mkR a None)).
    { clear - Hd. induction u as [|y u IH]; cbn [app] in Hd; inversion Hd as [|? ? D1 D2]; subst; [|auto].
      apply Forall_app in D1. destruct D1 as (_ & D1). now inversion D1. }
    destruct (Z_le_gt_dec e a) as [G|G]; [exact G|exfalso]. apply Hn. apply Forall_app in Hne. destruct Hne as (N & _).
    pose proof (proj1 (Forall_forall _ _) N r ltac:(apply in_or_app; right; now left)) as (_ & N2). rewrite Er in N2.
    exists (Z.max (r_start r) a). unfold in_range. rewrite Er. cbn [r_start r_stop]. lia. }
  assert (Fc : Forall closed P).
  { apply Forall_app. split; [exact Hcl|]. constructor; [|constructor]. split; [split; cbn [r_start r_stop]; unfold x; lia|discriminate]. }
  assert (Lp : zlen (all_positions P) = 8 * zlen l) by (unfold P; rewrite (last_positions front a x Fc); fold fl; unfold x; lia).
  destruct (stores_packed (bytearray_field k) None [] (8 * zlen l) (VBytes l) (8 * zlen l) [] (st_bytes k None [] l Hl)) as (b & B1 & B2).
  assert (B2' : blen b = zlen l) by (rewrite B2; unfold cdiv8; lia). clear B2.
  set (lay := [Some (mkEntry L L P (VBytes l) b (Some (8 * zlen l)))] : layout).
  assert (Hlay : class_layout C lay o).
  { split; [rewrite Hf; reflexivity|]. exists (fun _ => 0%nat), (fun _ => 1%nat), (fun _ => 0%nat). rewrite Hf.
    intros [|i] f Hi; [|destruct i; discriminate]. cbn [nth_error] in Hi. injection Hi as <-. cbn [lay nth_error]. unfold laid_out.
    cbn [e_write e_read e_place e_value e_buf e_used]. cbn [f_where_pack f_where_unpack f_pack_if f_unpack_if f_after f_unpack_after f_pack_args f_unpack_args bytearray_field build].
    split; [now apply static_given|]. split.
    { right. exists front, a. split; [reflexivity|]. split; [|exact He]. unfold P. do 4 f_equal. rewrite B2'. reflexivity. }
    split; [intros _; lia|]. split; [now apply static_given|]. split; [exists c1; split; [now apply static_given|exact T1]|].
    split; [exists c2; split; [now apply static_given|exact T2]|]. split.
    { unfold value_to_pack. cbn [f_before bytearray_field build]. rewrite Hb. exact Ho. }
    split; [exact Haf|]. split; [rewrite Hu; constructor|]. exists [], []. split; [constructor|]. split; [constructor|].
    unfold given_size. cbn [f_size bytearray_field build]. unfold L. rewrite open_last_length, Lp.
    assert (list_byte_length P = Some (8 * zlen l)) as -> by (rewrite <- Lp; exact (proj1 (list_byte_length_spec _) Fc)). exact B1. }
  assert (Pl : places lay = [P]) by reflexivity.
  assert (Dp : pairwise_disjoint P).
  { apply pairwise_snoc; [exact (pairwise_prefix _ _ _ Hd)|]. apply Forall_forall. intros r Hr (p & Q1 & Q2).
    destruct (proj1 (Forall_forall _ _) He r Hr) as (e & E1 & E2). unfold in_range in *. rewrite E1 in Q1. cbn [r_start r_stop] in Q2. lia. }
  assert (Np : Forall nonempty_range P).
  { apply Forall_app in Hne. destruct Hne as (N1 & N2). apply Forall_app. split; [exact N1|]. constructor; [|constructor].
    inversion N2 as [|? ? (N3 & _) _]; subst. split; [exact N3|]. cbn [r_start r_stop]. unfold x. lia. }
  assert (Hx : largest_stop P x).
  { split; [|split].
    - intros r e Hr Hse. apply in_app_or in Hr. destruct Hr as [Hr|[<-|[]]].
      + destruct (proj1 (Forall_forall _ _) He r Hr) as (e' & E1 & E2). rewrite E1 in Hse. injection Hse as <-. unfold x. lia.
      + cbn in Hse. injection Hse as <-. lia.
    - right. eexists. split; [apply in_or_app; right; now left|reflexivity].
    - unfold x. lia. }
  destruct (layout_roundtrip C lay o x Hok Hlay) as (bytes & o' & P1 & P2 & (m & P3 & P4) & _ & P5 & P6).
  - rewrite Pl. split; [|split]; cbn [List.concat]; rewrite ?app_nil_r; [exact Fc|exact Dp|]. constructor; [right; exact Np|constructor].
  - unfold layout_size. rewrite Hs. split; [discriminate|]. exists [x]. cbn [lay flat_map app]. split; [|split].
    + constructor; [|constructor]. exists (8 * zlen l). split; [reflexivity|]. cbn [e_place]. rewrite <- Lp. apply offset_last; [exact Fc|left; fold P; rewrite Lp; exact Hlen].
    + constructor; [|constructor]. unfold x. lia.
    + left. now left.
  - rewrite Hf. cbn [map]. constructor; [intros []|constructor].
  - rewrite Pl in P3. cbn [List.concat] in P3. rewrite app_nil_r in P3. pose proof (largest_stop_unique _ _ _ P3 Hx). subst m. rewrite Hs in P4.
    assert (E : 8 * zlen bytes = x) by (rewrite P4; unfold x in *; lia).
    exists bytes, o'. split; [exact P1|]. split; [exact E|]. intros o2. destruct (P6 (BArr bytes) [] o2 P2) as (o'' & U1 & U2 & _).
    + cbn [buf_bits]. now rewrite app_nil_r.
    + intros i e Hi. destruct i as [|i]; cbn [lay nth_error] in Hi; [|destruct i; discriminate].
      apply (f_equal (fun x => match x with Some (Some e) => e | _ => e end)) in Hi. cbv beta iota in Hi. subst e.
      right. exists front, a. split; [reflexivity|]. split; [|exact He]. cbn [e_place buf_bits]. rewrite bits_of_bytes_length. unfold P. do 4 f_equal. rewrite <- E. lia.
    + exists o''. rewrite E. split; [exact U1|]. rewrite Hf in U2. inversion U2 as [|? ? ? ? V1 _]; subst. exact V1.
Qed.
