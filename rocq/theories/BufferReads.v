(** Proofs: what unpack() leaves in the object. *)
From Verif Require Import Base BaseProofs IntCodec CodecSpec Stream Marshal FieldSpec Range RangeSpec RangeFacts RangeArith IoBuffer IoSpec IoProofs IoFacts FieldFacts Serialize SerializeSpec SerializeFacts SerializeLists RefEngine RefSpec RefProofs RefStatic RefSteady
  BufferModel BufferSpec BufferMacros BufferReadSpec BufferPlace BufferFacts BufferPack BufferLayout BufferTrip BufferDep BufferErrors BufferClass BufferConds BufferHooks BufferCodecs.
From Coq Require Import ZArith List Bool String Lia ZifyBool ZifyNat.
Import ListNotations.
Open Scope list_scope.
Open Scope Z_scope.
Ltac Zify.zify_post_hook ::= Z.div_mod_to_equations.

Section Reads.
Variable C : cls.
Hypothesis Hplain : plain C.
Hypothesis Hnames : NoDup (map f_name (k_fields C)).
Variable input : buf.
Variables (i0 : nat) (f0 : field).
Hypothesis Hf0 : nth_error (k_fields C) i0 = Some f0.
Let n0 := f_name f0.
Notation look := (RefEngine.lookup rid_eqb).

(** What is known about the field number [i0]. *)
Definition sound (m : memory) : Prop :=
  (forall w, look (mkRid KPart i0) m = Some w -> exists r b, look (mkRid KUnpackPos i0) m = Some (RRanges r) /\ input_get input r = Ok b /\ w = RBuf b)
  /\ (forall w, look (mkRid KUnpackLen i0) m = Some w -> exists r, look (mkRid KUnpackPos i0) m = Some (RRanges r) /\ w = rsize (list_byte_length r))
  /\ (forall w, look (mkRid KUnpack i0) m = Some w -> exists r b args a x n, look (mkRid KUnpackPos i0) m = Some (RRanges r)
        /\ input_get input r = Ok b /\ f_unpack f0 args a b (given_size f0 r) = Ok (x, n) /\ w = RPair x n)
  /\ (forall w, look (mkRid KFieldUnpack i0) m = Some w -> exists x n, look (mkRid KUnpack i0) m = Some (RPair x n) /\ w = RVal x)
  /\ (forall w, look (mkRid KUnpackValue i0) m = Some w -> exists x, look (mkRid KFieldUnpack i0) m = Some (RVal x)
        /\ match f_after f0 with None => w = RVal x | Some g => exists y, g x = Ok y /\ w = RVal y end).
Definition stored (m : memory) (s : bst) : Prop :=
  f_after f0 = None -> forall w, look (mkRid KUnpackValue i0) m = Some w -> exists x, w = RVal x /\ Marshal.lookup (s_obj s) n0 = Some x.
Definition ready (m : memory) (s : bst) : Prop := s_input s = Some input /\ sound m.

Lemma sound_store m r w : look r m = None -> sound m ->
  (r = mkRid KPart i0 -> exists q b, look (mkRid KUnpackPos i0) m = Some (RRanges q) /\ input_get input q = Ok b /\ w = RBuf b) ->
  (r = mkRid KUnpackLen i0 -> exists q, look (mkRid KUnpackPos i0) m = Some (RRanges q) /\ w = rsize (list_byte_length q)) ->
  (r = mkRid KUnpack i0 -> exists q b args a x n, look (mkRid KUnpackPos i0) m = Some (RRanges q)
        /\ input_get input q = Ok b /\ f_unpack f0 args a b (given_size f0 q) = Ok (x, n) /\ w = RPair x n) ->
  (r = mkRid KFieldUnpack i0 -> exists x n, look (mkRid KUnpack i0) m = Some (RPair x n) /\ w = RVal x) ->
  (r = mkRid KUnpackValue i0 -> exists x, look (mkRid KFieldUnpack i0) m = Some (RVal x)
        /\ match f_after f0 with None => w = RVal x | Some g => exists y, g x = Ok y /\ w = RVal y end) ->
  sound ((r, w) :: m).
Proof.
  intros N (A1 & A2 & A3 & A4 & A5) B1 B2 B3 B4 B5.
  assert (G : forall r' x, look r' m = Some x -> look r' ((r, w) :: m) = Some x).
  { intros r' x E. rewrite (look_other r') by (intros ->; congruence). exact E. }
  assert (D : forall r', {r = r'} + {r <> r'}).
  { intros r'. destruct (rid_eqb r r') eqn:E; [left; now apply rid_eqb_spec|right; intros ->; rewrite (proj2 (rid_eqb_spec _ _) eq_refl) in E; discriminate]. }
  split; [|split; [|split; [|split]]].
  - intros w' H. destruct (D (mkRid KPart i0)) as [E|E].
    + specialize (B1 E). subst r. rewrite look_same in H. inversion H; subst. destruct B1 as (q & b & P & Q). exists q, b. auto.
    + rewrite look_other in H by congruence. destruct (A1 w' H) as (q & b & P & Q). exists q, b. auto.
  - intros w' H. destruct (D (mkRid KUnpackLen i0)) as [E|E].
    + specialize (B2 E). subst r. rewrite look_same in H. inversion H; subst. destruct B2 as (q & P & Q). exists q. auto.
    + rewrite look_other in H by congruence. destruct (A2 w' H) as (q & P & Q). exists q. auto.
  - intros w' H. destruct (D (mkRid KUnpack i0)) as [E|E].
    + specialize (B3 E). subst r. rewrite look_same in H. inversion H; subst. destruct B3 as (q & b & args & a & x & n & P & Q). exists q, b, args, a, x, n. auto.
    + rewrite look_other in H by congruence. destruct (A3 w' H) as (q & b & args & a & x & n & P & Q). exists q, b, args, a, x, n. auto.
  - intros w' H. destruct (D (mkRid KFieldUnpack i0)) as [E|E].
    + specialize (B4 E). subst r. rewrite look_same in H. inversion H; subst. destruct B4 as (x & n & P & Q). exists x, n. auto.
    + rewrite look_other in H by congruence. destruct (A4 w' H) as (x & n & P & Q). exists x, n. auto.
  - intros w' H. destruct (D (mkRid KUnpackValue i0)) as [E|E].
    + specialize (B5 E). subst r. rewrite look_same in H. inversion H; subst. destruct B5 as (x & P & Q). exists x. auto.
    + rewrite look_other in H by congruence. destruct (A5 w' H) as (x & P & Q). exists x. auto.
Qed.

Lemma run_reads (d : rid -> ctx rid rv -> bst -> option (outcome rid rv * ctx rid rv * bst)) :
  (forall r c s v c' s', d r c s = Some (OOk v, c', s') -> reading r -> ready (c_cache c) s ->
     ready (c_cache c') s' /\ (stored (c_cache c) s -> stored (c_cache c') s')) ->
  forall p c s v c' s', run d p c s = Some (OOk v, c', s') -> harmless f0 True p -> ready (c_cache c) s ->
     ready (c_cache c') s' /\ (stored (c_cache c) s -> stored (c_cache c') s').
Proof.
  intros Hd. induction p as [v|e|r k IH|f k IH]; intros c s v' c' s' H Hg G; cbn [run] in H.
  - inversion H; subst. auto.
  - discriminate.
  - inversion Hg; subst. destruct (d r c s) as [[[o1 c1] s1]|] eqn:E; [|discriminate]. destruct o1; try discriminate.
    destruct (Hd _ _ _ _ _ _ E) as (G1 & S1); [assumption|exact G|]. destruct (IH _ _ _ _ _ _ H) as (G2 & S2); auto.
  - inversion Hg as [| | |? ? Hf]; subst. destruct (f s) as [[v|e] s1] eqn:E; [|discriminate]. destruct (Hf _ _ _ _ (proj1 G) E) as (F1 & F2 & F3).
    destruct (IH _ _ _ _ _ _ H) as (G2 & S2); [auto|split; [exact F1|apply G]|]. split; [exact G2|].
    intros S. apply S2. intros Ha w Hw. destruct (S Ha w Hw) as (x & X1 & X2). exists x. split; [exact X1|]. fold n0 in F2. rewrite F2; auto.
Qed.
Lemma kept_look n r c s v c' s' r' w : deref rid_eqb (nodes C) n r c s = Some (OOk v, c', s') -> look r' (c_cache c) = Some w -> look r' (c_cache c') = Some w.
Proof. intros H. destruct (deref_kept rid_eqb rid_eqb_spec (nodes C) _ _ _ _ _ _ _ H) as (_ & _ & K & _). apply K. Qed.
Lemma value_cached n r c s v c' s' : deref rid_eqb (nodes C) n r c s = Some (OOk v, c', s') -> look r (c_cache c') = Some v.
Proof. apply (deref_value_cached rid_eqb rid_eqb_spec (nodes C)). Qed.

Lemma deref_reads n : forall r c s v c' s', deref rid_eqb (nodes C) n r c s = Some (OOk v, c', s') -> reading r -> ready (c_cache c) s ->
  ready (c_cache c') s' /\ (stored (c_cache c) s -> stored (c_cache c') s').
Proof.
  induction n as [|n IH]; intros r c s v c' s' H Hr G; [discriminate|]. cbn [RefEngine.deref] in H.
  destruct (mem rid_eqb r (c_nodes c)); [discriminate|]. destruct (look r (c_cache c)) as [w|] eqn:El; [inversion H; subst; auto|].
  destruct (run (deref rid_eqb (nodes C) n) (nodes C r) (push r c) s) as [[[[w|e|x] c1] s1]|] eqn:E; try discriminate. inversion H; subst. clear H.
  destruct (run_kept rid_eqb rid_eqb_spec (nodes C) _ _ _ _ _ _ _ E) as (_ & _ & K3 & K4 & _). cbn [push c_cache c_nodes] in K3, K4.
  assert (N : look r (c_cache c1) = None) by (rewrite K4; [exact El|now left]).
  cbn [pop store c_cache]. change (c_cache c) with (c_cache (push r c)) in G. change (c_cache c) with (c_cache (push r c)).
  destruct (rid_eqb r (mkRid KUnpackValue i0)) eqn:Er.
  { (* the attribute *)
    apply rid_eqb_spec in Er. subst r.
    change (nodes C (mkRid KUnpackValue i0)) with (match nth_error (k_fields C) i0 with Some f => field_node KUnpackValue i0 f | None => PRaise NotModelled end) in E.
    rewrite Hf0 in E. cbn [field_node] in E. unfold unpack_value in E. destruct (f_after f0) as [g|] eqn:Ha.
    - cbn [run] in E. destruct (deref rid_eqb (nodes C) n (mkRid KFieldUnpack i0) (push (mkRid KUnpackValue i0) c) s) as [[[[w|e|x] c2] s2]|] eqn:E2; try discriminate.
      destruct (IH _ _ _ _ _ _ E2 I G) as ((G1 & G2) & S1). pose proof (value_cached _ _ _ _ _ _ _ E2) as L.
      apply run_ret in E. destruct E as (E & -> & ->). destruct w as [x| | | |]; cbn [as_value rbind] in E; try discriminate.
      destruct (g x) as [y|] eqn:Eg; cbn [rbind] in E; [|discriminate]. inversion E; subst.
      split.
      + split; [exact G1|]. apply sound_store; try discriminate; auto. intros _. exists x. split; [exact L|]. rewrite Ha. eauto.
      + intros _ Ha'. congruence.
    - cbn [run] in E. destruct (deref rid_eqb (nodes C) n (mkRid KFieldUnpack i0) (push (mkRid KUnpackValue i0) c) s) as [[[[w|e|x] c2] s2]|] eqn:E2; try discriminate.
      destruct (IH _ _ _ _ _ _ E2 I G) as ((G1 & G2) & S1). pose proof (value_cached _ _ _ _ _ _ _ E2) as L.
      apply run_assign in E. destruct E as (x & -> & -> & -> & ->). split.
      + split; [exact G1|]. apply sound_store; try discriminate; auto. intros _. exists x. rewrite Ha. auto.
      + intros _ _ w Hw. rewrite look_same in Hw. inversion Hw; subst. exists x. split; [reflexivity|]. cbn [s_obj]. apply lookup_set_same. }
  assert (Hn : r <> mkRid KUnpackValue i0) by (intros ->; rewrite (proj2 (rid_eqb_spec _ _) eq_refl) in Er; discriminate). clear Er.
  destruct (run_reads _ IH _ _ _ _ _ _ E) as ((G1 & G2) & S1); [apply (node_harmless C Hplain Hnames i0 f0 Hf0); auto|exact G|].
  split; [split; [exact G1|]|intros S Ha w Hw; rewrite look_other in Hw by congruence; exact (S1 S Ha w Hw)].
  apply sound_store; auto; intros ->.
  - change (nodes C (mkRid KPart i0)) with (match nth_error (k_fields C) i0 with Some f => field_node KPart i0 f | None => PRaise NotModelled end) in E.
    rewrite Hf0 in E. cbn [field_node] in E. unfold BufferModel.part in E. cbn [run] in E.
    destruct (deref rid_eqb (nodes C) n (mkRid KUnpackPos i0) (push (mkRid KPart i0) c) s) as [[[[w|e|x] c2] s2]|] eqn:E2; try discriminate.
    destruct (IH _ _ _ _ _ _ E2 I G) as ((I2 & _) & _). pose proof (value_cached _ _ _ _ _ _ _ E2) as L. rewrite I2 in E.
    destruct w as [| |q| |]; cbn [as_ranges rbind] in E; try discriminate. destruct (input_get input q) as [b|] eqn:Eb; cbn [rbind] in E; [|discriminate].
    inversion E; subst. exists q, b. auto.
  - change (nodes C (mkRid KUnpackLen i0)) with (match nth_error (k_fields C) i0 with Some f => field_node KUnpackLen i0 f | None => PRaise NotModelled end) in E.
    rewrite Hf0 in E. cbn [field_node] in E. unfold unpack_len in E. cbn [run] in E.
    destruct (deref rid_eqb (nodes C) n (mkRid KUnpackPos i0) (push (mkRid KUnpackLen i0) c) s) as [[[[w|e|x] c2] s2]|] eqn:E2; try discriminate.
    pose proof (value_cached _ _ _ _ _ _ _ E2) as L. apply run_ret in E. destruct E as (E & -> & ->).
    destruct w as [| |q| |]; cbn [as_ranges rbind] in E; try discriminate. inversion E; subst. exists q. auto.
  - change (nodes C (mkRid KUnpack i0)) with (match nth_error (k_fields C) i0 with Some f => field_node KUnpack i0 f | None => PRaise NotModelled end) in E.
    rewrite Hf0 in E. cbn [field_node] in E. unfold unpack_ref in E. cbn [run] in E.
    destruct (deref rid_eqb (nodes C) n (mkRid KPart i0) (push (mkRid KUnpack i0) c) s) as [[[[w|e|x] c2] s2]|] eqn:E2; try discriminate.
    destruct (IH _ _ _ _ _ _ E2 I G) as ((I2 & Sd) & _). pose proof (proj1 Sd) as D1. pose proof (value_cached _ _ _ _ _ _ _ E2) as L.
    destruct (D1 _ L) as (q & b & P1 & P2 & ->).
    pose proof (run_kept rid_eqb rid_eqb_spec (nodes C) _ _ _ _ _ _ _ E) as (_ & _ & K & _).
    assert (exists z args c3 s3, opt_num_bits z = Ok (given_size f0 q)
       /\ run (deref rid_eqb (nodes C) n) (PCtx (fun s => (let* b := as_buf (RBuf b) in let* n := opt_num_bits z in
                        let* p := f_unpack f0 args (s_obj s) b n in Ok (RPair (fst p) (snd p)), s)) PRet) c3 s3 = Some (OOk v, c1, s')) as (z & args & c3 & s3 & Z & E3).
    { unfold with_size in E. unfold given_size. destruct (f_size f0) as [z|].
      - apply run_ev_list in E. destruct E as (args & c3 & s3 & E). exists (rnum z), args, c3, s3. split; [|exact E]. apply (opt_num_bits_rsize (Some z)).
      - cbn [run] in E. destruct (deref rid_eqb (nodes C) n (mkRid KUnpackLen i0) c2 s2) as [[[[z|e|x] c3] s3]|] eqn:E4; try discriminate.
        destruct (IH _ _ _ _ _ _ E4 I (conj I2 Sd)) as ((_ & _ & D2 & _) & _). pose proof (value_cached _ _ _ _ _ _ _ E4) as L4.
        destruct (D2 _ L4) as (q' & Q1 & ->). pose proof (kept_look _ _ _ _ _ _ _ _ _ E4 P1) as Q2. assert (q' = q) by congruence. subst q'.
        apply run_ev_list in E. destruct E as (args & c5 & s5 & E). exists (rsize (list_byte_length q)), args, c5, s5. split; [apply opt_num_bits_rsize|exact E]. }
    cbn [run as_buf rbind] in E3. rewrite Z in E3. cbn [rbind] in E3. destruct (f_unpack f0 args (s_obj s3) b (given_size f0 q)) as [[x u]|] eqn:Eu; cbn [rbind fst snd] in E3; [|discriminate].
    inversion E3; subst. exists q, b, args, (s_obj s'), x, u. split; [now apply K|]. auto.
  - change (nodes C (mkRid KFieldUnpack i0)) with (match nth_error (k_fields C) i0 with Some f => field_node KFieldUnpack i0 f | None => PRaise NotModelled end) in E.
    rewrite Hf0 in E. cbn [field_node] in E. unfold field_unpack in E. cbn [run] in E.
    destruct (deref rid_eqb (nodes C) n (mkRid KUnpack i0) (push (mkRid KFieldUnpack i0) c) s) as [[[[w|e|x] c2] s2]|] eqn:E2; try discriminate.
    pose proof (value_cached _ _ _ _ _ _ _ E2) as L. apply run_ret in E. destruct E as (E & -> & ->).
    destruct w as [| | | |x u]; cbn [as_pair rbind fst] in E; try discriminate. inversion E; subst. exists x, u. auto.
  - congruence.
Qed.

(** *** The loop over the fields *)
Definition wready (w : world) : Prop := ready (c_cache (w_ctx w)) (w_st w).
Definition wstored (w : world) : Prop := stored (c_cache (w_ctx w)) (w_st w).
Definition off (w : world) : Prop := exists c, look (f_unpack_if f0) (c_cache (w_ctx w)) = Some c /\ truthy c = false.
Lemma dref_reads r w v w' : dref C r w = (Ok v, w') -> reading r -> wready w ->
  wready w' /\ (wstored w -> wstored w') /\ (off w -> off w') /\ look r (c_cache (w_ctx w')) = Some v.
Proof.
  unfold dref, wready, wstored, off. destruct (deref rid_eqb (nodes C) (fuel C) r (w_ctx w) (w_st w)) as [[[[x|e|x] c] s]|] eqn:E; intros H; inversion H; subst.
  cbn [w_ctx w_st]. intros Hr G. destruct (deref_reads _ _ _ _ _ _ _ E Hr G) as (G1 & S1). split; [exact G1|]. split; [exact S1|].
  split; [|eapply value_cached; eauto]. intros (y & Y1 & Y2). exists y. split; [eapply kept_look; eauto|exact Y2].
Qed.
Lemma after_reads l : forall w w', sforeach l (fun j => do dref C (mkRid KUnpackValue j) ;; sret tt) w = (Ok tt, w') -> wready w ->
  wready w' /\ (wstored w -> wstored w') /\ (off w -> off w').
Proof.
  induction l as [|j l IH]; intros w w' H G; cbn [sforeach] in H; [inversion H; subst; auto|].
  apply sbind_ok in H. destruct H as ([] & w1 & H1 & H). apply sbind_ok in H1. destruct H1 as (v & w2 & H1 & H2). inversion H2; subst w1.
  destruct (dref_reads _ _ _ _ H1 I G) as (G1 & S1 & O1 & _). destruct (IH _ _ H G1) as (G2 & S2 & O2). auto.
Qed.
Lemma unpack_field_reads i f w w' : nth_error (k_fields C) i = Some f -> unpack_field C i f w = (Ok tt, w') -> wready w -> wstored w \/ off w ->
  wready w' /\ (wstored w' \/ off w').
Proof.
  intros Hf H G J. pose proof (field_plain C Hplain _ _ Hf) as P. unfold unpack_field in H. apply wrap_ok in H. apply sbind_ok in H. destruct H as (c & w1 & H1 & H).
  destruct (dref_reads _ _ _ _ H1) as (G1 & S1 & O1 & L1); [apply plain_reading, P|exact G|]. destruct (truthy c) eqn:Tc.
  - apply sbind_ok in H. destruct H as ([] & w2 & H2 & H). apply sbind_ok in H. destruct H as (v & w3 & H3 & H). inversion H; subst.
    destruct (after_reads _ _ _ H2 G1) as (G2 & S2 & O2). destruct (dref_reads _ _ _ _ H3 I G2) as (G3 & S3 & O3 & _). tauto.
  - unfold w_setattr in H. inversion H; subst. split; [exact G1|]. destruct (Nat.eq_dec i i0) as [->|Hi].
    + right. assert (f = f0) by congruence. subst f. exists c. auto.
    + destruct J as [J|J]; [left|right; apply O1 in J; exact J]. specialize (S1 J). intros Ha x Hx. destruct (S1 Ha x Hx) as (y & Y1 & Y2).
      exists y. split; [exact Y1|]. cbn [w_st s_obj]. rewrite lookup_set_other; [exact Y2|]. intros En. apply Hi.
      apply (proj1 (NoDup_nth_error _) Hnames); [rewrite map_length; apply nth_error_Some; congruence|]. rewrite !nth_error_map, Hf, Hf0. cbn. now f_equal.
Qed.
Lemma unpack_fields_reads l : forall w w', incl l (numbered C) -> sforeach l (fun p => unpack_field C (fst p) (snd p)) w = (Ok tt, w') ->
  wready w -> wstored w \/ off w -> wready w' /\ (wstored w' \/ off w').
Proof.
  induction l as [|[i f] l IH]; intros w w' Hl H G J; cbn [sforeach fst snd] in H; [inversion H; subst; auto|].
  apply sbind_ok in H. destruct H as ([] & w1 & H1 & H).
  destruct (unpack_field_reads i f w w1) as (G1 & J1); auto; [apply numbered_in, Hl; now left|].
  apply (IH w1 w'); auto. intros x Hx. apply Hl. now right.
Qed.
End Reads.

Lemma input_buffer_same b v : buf_ok b -> input_buffer b = Ok v -> buf_ok v /\ is_view v /\ buf_bits v = buf_bits b.
Proof.
  intros K. destruct b as [l|inner s e]; cbn [input_buffer].
  - destruct (view_of_spec (BArr l) K) as (w & V1 & V2 & V3 & V4). rewrite V1. intros [= ->]. split; [auto|]. split; [auto|].
    rewrite V4. cbn [buf_bits]. apply pad_bytes.
  - intros [= <-]. split; [exact K|]. split; [exact Logic.I|reflexivity].
Qed.

Theorem unpack_reads C b o n o' : plain C -> NoDup (map f_name (k_fields C)) -> buf_ok b -> buffer_unpack C b o = (Ok n, o') ->
  exists input m s m' s', input_buffer b = Ok input /\ unpacking C (numbered C) [] (mkBst o (Some input)) m s
    /\ eval rid_eqb (nodes C) (mkRid KTotal 0) m s (Ok (rnum n)) m' s' /\ o' = s_obj s'
    /\ forall i f, nth_error (k_fields C) i = Some f -> read_from b o' m' i f.
Proof.
  intros Hp Hn Kb H. unfold buffer_unpack in H. destruct (input_buffer b) as [v|] eqn:V1; [|discriminate].
  destruct (input_buffer_same b v Kb V1) as (Kv & Vv & Bv).
  destruct (sforeach (numbered C) (fun p => unpack_field C (fst p) (snd p)) (mkW new_ctx (mkBst o (Some v)) (new_baa []))) as [[[]|e] w] eqn:E;
    [|discriminate].
  destruct (unpack_fields_ok C _ _ _ (wok_new C _) E) as (W & U). cbn [w_ctx w_st new_ctx c_cache] in U.
  destruct (dref C (mkRid KTotal 0) w) as [[x|e] w'] eqn:D; [|discriminate].
  destruct (dref_cases C _ _ _ _ D W) as (_ & _ & _ & E1 & K1). cbn [kind_ok r_kind] in K1. destruct K1 as (k & -> & Kk).
  rewrite num_bits_rnum in H. inversion H; subst. exists v, (c_cache (w_ctx w)), (w_st w), (c_cache (w_ctx w')), (w_st w').
  split; [auto|]. split; [exact U|]. split; [exact E1|]. split; [reflexivity|]. intros i f Hf.
  destruct (unpack_fields_reads C Hp Hn v i f Hf _ _ _ (incl_refl _) E) as (G & J).
  { split; [reflexivity|]. repeat split; discriminate. }
  { left. intros _ ? [=]. }
  destruct (dref_reads C Hp Hn v i f Hf _ _ _ _ D I G) as ((G1 & D1 & D2 & D3 & D4 & D5) & S1 & O1 & _).
  assert (J1 : wstored i f w' \/ off f w') by tauto.
  destruct (unpacking_skips C Hp Hn i f Hf _ _ _ _ _ v U eq_refl (incl_refl _)) as (B1 & B2).
  { left. apply (in_map fst _ (i, f)). now apply numbered_in. }
  { unfold numbered. rewrite map_fst_combine by now rewrite seq_length. apply seq_NoDup. }
  destruct (eval_kept C Hp Hn i f Hf _ _ _ _ _ _ E1 v _ B2 eq_refl I) as (K & _).
  destruct (skipped_kept i f _ _ _ _ K B1) as (c & C1 & C2 & _). exists c. split; [exact C1|]. intros T. destruct (C2 T) as (u & Hu).
  destruct (D5 _ Hu) as (x & X1 & X2). destruct (D4 _ X1) as (x' & used & X3 & [= <-]). destruct (D3 _ X3) as (r & g & args & a & x' & used' & R1 & R2 & R3 & [= <- <-]).
  exists r, g, args, a, x, used. split; [exact R1|]. split; [|split; [exact R3|split; [exact X3|]]].
  - intros Hr. destruct (input_get_view v r Kv Vv Hr) as (g' & I1 & I2 & I3 & I4). assert (g' = g) by congruence. subst g'. unfold view_with, bits_at. rewrite <- Bv. auto.
  - destruct (f_after f) as [h|] eqn:Ha.
    + destruct X2 as (y & Y1 & ->). exists y. auto.
    + destruct J1 as [J1|(c' & Y1 & Y2)]; [|congruence]. destruct (J1 Ha _ Hu) as (y & -> & Y2). congruence.
Qed.

(** ** Fixed places *)
Lemma proper_facts r : proper_place r -> has_overlaps r = Ok false /\ list_is_open r = false.
Proof.
  intros (H1 & H2 & H3). split; [|now apply closed_not_open]. destruct H3 as [(x & ->)|H3]; [apply has_overlaps_single|].
  destruct (has_overlaps_spec _ H3) as (b & B1 & B2). rewrite B1. f_equal. now apply B2.
Qed.
Lemma static_unpack_pos C i f r : nth_error (k_fields C) i = Some f -> static (nodes C) (f_where_unpack f) (RRanges r) -> proper_place r ->
  static (nodes C) (mkRid KUnpackPos i) (RRanges r).
Proof.
  intros Hf (n & H) P. destruct (proper_facts r P) as (P1 & P2). exists (S (n + 0)). constructor.
  change (nodes C (mkRid KUnpackPos i)) with (match nth_error (k_fields C) i with Some f => field_node KUnpackPos i f | None => PRaise NotModelled end).
  rewrite Hf. cbn [field_node]. unfold unpack_pos. econstructor; [exact H|]. cbn [as_ranges]. rewrite P1, P2. constructor.
Qed.

Theorem unpack_reads_at C b o n o' i f r : plain C -> NoDup (map f_name (k_fields C)) -> buf_ok b ->
  nth_error (k_fields C) i = Some f -> always_at C f r -> buffer_unpack C b o = (Ok n, o') ->
  exists given args a x used, view_with given (bits_at b r) /\ f_unpack f args a given (given_size f r) = Ok (x, used)
    /\ Marshal.lookup o' (f_name f) = Some x.
Proof.
  intros Hp Hn Kb Hf (S1 & S2 & (c & (k & S3) & T) & S4) H.
  destruct (unpack_reads C b o n o' Hp Hn Kb H) as (input & m & s & m' & s' & A1 & A2 & A3 & A4 & R). specialize (R i f Hf).
  destruct R as (c' & C1 & C2). pose proof (unpacking_agree _ _ _ _ _ _ A2 (RefStatic.agree_nil _ _)) as G. destruct (eval_agree C _ _ _ _ _ _ A3 G) as (G' & _).
  assert (c' = c) by (exact (G' _ _ _ _ C1 S3)). subst c'. destruct (C2 T) as (r' & g & args & a & x & used & R1 & R2 & R3 & R4 & R5).
  destruct (static_unpack_pos C i f r Hf S1 S2) as (k' & S5). pose proof (G' _ _ _ _ R1 S5) as E. assert (r' = r) by congruence. subst r'. rewrite S4 in R5.
  exists g, args, a, x, used. split; [apply R2, Forall_closed, S2|]. auto.
Qed.

Section Fixed.
Variable C : cls.
Hypothesis Hok : cls_ok C.
Hypothesis Hnames : NoDup (map f_name (k_fields C)).
Variables (b input : buf).
Hypothesis Kv : buf_ok input.
Hypothesis Vv : is_view input.
Hypothesis Bv : buf_bits input = buf_bits b.
Variable lay : list (list srange * value).
Hypothesis Hlay : Forall2 (fun f x => always_at C f (fst x) /\ decodes C b f (fst x) (snd x)) (k_fields C) lay.
Variable o : attrs.
Let I (s : bst) : Prop := s_input s = Some input /\ only_fields_changed C o (s_obj s).
Definition fixed_value (i : nat) : value := match nth_error lay i with Some x => snd x | None => VNone end.
Let Post := attr_post C fixed_value.
Lemma fixed_set i f s x : nth_error (k_fields C) i = Some f -> I s -> I (mkBst (set_attr (s_obj s) (f_name f) x) (s_input s)).
Proof.
  intros Hf (H1 & H2 & H3). split; [exact H1|]. cbn [s_obj s_input]. assert (Hin : In (f_name f) (map f_name (k_fields C))).
  { apply in_map. eapply nth_error_In; eauto. }
  split.
  - intros m Hm. rewrite lookup_set_other; [auto|]. intros E. apply Hm. rewrite <- E. exact Hin.
  - intros Hi. rewrite <- (H3 Hi). apply set_attr_keys. rewrite (H3 Hi). auto.
Qed.
Lemma fixed_static r v : static (nodes C) r v -> st C I Post r v.
Proof. intros H. apply static_st; [|exact H]. intros r' v' H' s _. eapply attr_post_static; eauto. Qed.
Lemma fixed_unpack_value i f : nth_error (k_fields C) i = Some f -> st C I Post (mkRid KUnpackValue i) (RVal (fixed_value i)).
Proof.
  intros Hf. apply Forall2_nth_iff in Hlay. destruct Hlay as (L & Hl).
  destruct (nth_error lay i) as [[r v]|] eqn:El.
  2:{ apply nth_error_None in El. assert (nth_error (k_fields C) i <> None) as Q by congruence. apply nth_error_Some in Q. lia. }
  destruct (Hl i f (r, v) Hf El) as ((S1 & S2 & _ & S4) & args & used & U1 & U2). cbn [fst snd] in *.
  assert (Po : forall k s, k <> KUnpackValue -> k <> KPackValue -> k <> KPack -> Post (mkRid k i) s) by (intros k s K _ _; now apply attr_post_other).
  assert (Hi : forall s, I s -> s_input s = Some input) by (intros s Hs; apply Hs).
  destruct (proper_facts r S2) as (P1 & P2).
  assert (U : st C I Post (mkRid KUnpackPos i) (RRanges r)).
  { apply (st_unpack_pos_closed C I Post i f Hf Po); auto. now apply fixed_static. }
  destruct (input_get_view input r Kv Vv (proj1 (Forall_closed _) (proj1 S2))) as (g & Q1 & Q2 & Q3 & Q4).
  assert (K : st C I Post (mkRid KUnpack i) (RPair v used)).
  { apply (st_unpack C I Post i f Hf Po input Hi r g args
           (match f_size f with Some x => rnum x | None => rsize (list_byte_length r) end) (given_size f r)); auto.
    - destruct (f_size f); reflexivity.
    - apply (given_size_st f r). destruct (f_size f); reflexivity.
    - apply static_st_args; [|exact U1]. intros r' v' H' s _. eapply attr_post_static; eauto.
    - intros s _. apply U2. split; [exact Q2|]. split; [exact Q3|]. unfold bits_at. now rewrite <- Bv. }
  unfold fixed_value at 1. rewrite El. cbn [snd]. apply (st_unpack_value C I Post i f Hf Po v used S4 K).
  intros s Hs s'. split; [eapply fixed_set; eauto|]. pose proof (attr_post_set C fixed_value i f s Hnames Hf) as A.
  unfold fixed_value in A at 1 2. rewrite El in A. exact A.
Qed.
Lemma fixed_unpacks i f : In (i, f) (numbered C) -> field_unpacks C I Post i f.
Proof.
  intros H. apply numbered_in in H. pose proof Hlay as Hl. apply Forall2_nth_iff in Hl. destruct Hl as (L & Hl).
  destruct (nth_error lay i) as [x|] eqn:El.
  2:{ apply nth_error_None in El. assert (nth_error (k_fields C) i <> None) as Q by congruence. apply nth_error_Some in Q. lia. }
  destruct (Hl i f x H El) as ((_ & _ & (c & S3 & T) & _) & _). exists c. split; [now apply fixed_static|]. rewrite T.
  pose proof (proj1 (Forall_forall _ _) (proj2 Hok) _ (nth_error_In _ _ H)) as (F1 & F2 & F3 & F4 & F5 & F6 & _).
  split; [|eexists; eapply fixed_unpack_value; eauto].
  eapply Forall_impl; [|exact F6]. intros j Hj. unfold field_no in Hj. destruct (nth_error (k_fields C) j) as [g|] eqn:Eg.
  - eexists. eapply fixed_unpack_value; eauto.
  - apply nth_error_None in Eg. lia.
Qed.
End Fixed.

Theorem unpack_fixed C b o n lay : cls_ok C -> NoDup (map f_name (k_fields C)) -> buf_ok b -> k_size C = Some n ->
  Forall2 (fun f x => always_at C f (fst x) /\ decodes C b f (fst x) (snd x)) (k_fields C) lay ->
  exists o', buffer_unpack C b o = (Ok n, o') /\ has_values o' (k_fields C) lay /\ only_fields_changed C o o'.
Proof.
  intros Hok Hn Kb Hs Hl. destruct (input_buffer_spec b Kb) as (v & V1 & _). destruct (input_buffer_same b v Kb V1) as (Kv & Vv & Bv).
  destruct (buffer_unpack_steady C (fun s => s_input s = Some v /\ only_fields_changed C o (s_obj s)) (attr_post C (fixed_value lay)) b v o n Hok V1) as (s & E & (I1 & I2) & P).
  - split; [reflexivity|]. split; auto.
  - intros i f H. now apply (fixed_unpacks C Hok Hn b v Kv Vv Bv lay Hl o).
  - apply st_intro. change (nodes C (mkRid KTotal 0)) with (total_prog C). unfold total_prog. apply stp_read with (v := rnum n); [intros; now rewrite Hs|].
    unfold rnum. destruct (n mod 8 =? 0); apply stp_ret; intros; exact Logic.I.
  - exists (s_obj s). split; [exact E|]. split; [|exact I2]. apply Forall2_nth_iff. apply Forall2_nth_iff in Hl. destruct Hl as (L & _). split; [exact L|].
    intros i f x Hf Hx. pose proof (P i f Hf f Hf) as Q. cbn [r_no] in Q. unfold fixed_value in Q. now rewrite Hx in Q.
Qed.

(** ** What the unpackers make of the input *)
Lemma byte_bits_skip l : forall k, skipn (8 * k) (bits_of_bytes l) = bits_of_bytes (skipn k l).
Proof.
  induction l as [|x l IH]; intros k; [now rewrite !skipn_nil|]. destruct k as [|k]; [reflexivity|].
  cbn [skipn]. rewrite <- IH. replace (8 * S k)%nat with (8 + 8 * k)%nat by lia. unfold bits_of_bytes. cbn [flat_map]. reflexivity.
Qed.
Lemma byte_bits_first l : forall k, firstn (8 * k) (bits_of_bytes l) = bits_of_bytes (firstn k l).
Proof.
  induction l as [|x l IH]; intros k; [now rewrite !firstn_nil|]. destruct k as [|k]; [reflexivity|].
  cbn [firstn]. replace (8 * S k)%nat with (8 + 8 * k)%nat by lia. unfold bits_of_bytes in *. cbn [flat_map]. rewrite <- IH. reflexivity.
Qed.
Lemma bits_at_bytes l a b : 0 <= a -> a <= b -> bits_at (BArr l) (byte_place a b) = bits_of_bytes (py_slice l a b).
Proof.
  intros H1 H2. unfold bits_at, byte_place. cbn [flat_map buf_bits]. rewrite app_nil_r. unfold range_bits, slice_bits. cbn [r_start r_stop].
  unfold py_slice, py_clamp. rewrite bits_of_bytes_length. replace (8 * a <? 0) with false by lia. replace (8 * b <? 0) with false by lia.
  replace (a <? 0) with false by lia. replace (b <? 0) with false by lia. rewrite <- byte_bits_first, <- byte_bits_skip. f_equal; [lia|f_equal; lia].
Qed.
Lemma byte_place_proper a b : 0 <= a -> a <= b -> proper_place (byte_place a b).
Proof.
  intros H1 H2. split; [|split].
  - constructor; [|constructor]. split; [split; cbn [r_start r_stop]; lia|discriminate].
  - constructor; constructor.
  - left. eexists. reflexivity.
Qed.
Lemma byte_place_length a b : 0 <= a -> a <= b -> list_byte_length (byte_place a b) = Some (8 * (b - a)).
Proof.
  intros H1 H2. pose proof (byte_place_proper a b H1 H2) as (P & _). rewrite (proj1 (list_byte_length_spec _) P), <- total_len_positions by exact P.
  unfold bounds. cbn [byte_place map total_len fold_right fst snd r_start r_stop]. f_equal. lia.
Qed.
Lemma py_slice_len {A} (l : list A) a b : 0 <= a -> a <= b -> zlen (py_slice l a b) = Z.min b (zlen l) - Z.min a (zlen l).
Proof.
  intros H1 H2. pose proof (zlen_nonneg l). rewrite py_slice_clamped. rewrite zlen_py_slice; unfold py_clamp; replace (a <? 0) with false by lia; replace (b <? 0) with false by lia; lia.
Qed.
Lemma nth_first {A} (l : list A) d : forall k i, (i < k)%nat -> nth i (firstn k l) d = nth i l d.
Proof. induction l as [|x l IH]; intros [|k] [|i] H; cbn; try lia; auto. apply IH. lia. Qed.
Lemma nth_skip {A} (l : list A) d : forall k i, nth i (skipn k l) d = nth (k + i) l d.
Proof. induction l as [|x l IH]; intros [|k] i; cbn [skipn]; try reflexivity; [now destruct i, k|apply IH]. Qed.
Lemma py_slice_nth (l : list Z) a b i : 0 <= a -> 0 <= i -> a + i < b -> b <= zlen l -> nth (Z.to_nat i) (py_slice l a b) 0 = nth (Z.to_nat (a + i)) l 0.
Proof.
  intros H1 H2 H3 H4. unfold py_slice, py_clamp. replace (a <? 0) with false by lia. replace (b <? 0) with false by lia.
  rewrite nth_first by lia. rewrite nth_skip. f_equal. lia.
Qed.

Lemma slice_ok l a b : bytes_ok l -> bytes_ok (py_slice l a b).
Proof.
  intros H. unfold py_slice. set (n := Z.to_nat (_ - _)). set (k := Z.to_nat _). unfold bytes_ok in *.
  rewrite <- (firstn_skipn k l) in H. apply Forall_app in H. destruct H as (_ & H).
  rewrite <- (firstn_skipn n (skipn k l)) in H. now apply Forall_app in H.
Qed.
Lemma decodes_tolerant C b f r v : Forall closed r -> tolerant b f r v -> decodes C b f r v.
Proof.
  intros Hc H. destruct H as [k r l B E|h e signed k r O].
  - exists [], (Some (8 * zlen l)). split; [constructor|]. intros a g V. cbn. apply unpack_bytearray_bytes; [now rewrite <- E|exact B].
  - exists [], (Some (zlen (all_positions r))). split; [constructor|]. intros a g (K & V & E).
    change (unpack_int h signed e (given_size (int_field h e signed None k) r) g = Ok (VInt (bits_value (bits_at b r)), Some (zlen (all_positions r)))).
    assert (given_size (int_field h e signed None k) r = Some (zlen (all_positions r))) as -> by exact (proj1 (list_byte_length_spec _) Hc).
    rewrite bit_field_unpack by (auto; apply zlen_nonneg). rewrite E. do 4 f_equal. apply firstn_all2.
    enough (zlen (bits_at b r) <= zlen (all_positions r)) as X by (unfold zlen in *; rewrite Nat2Z.id; lia). clear - Hc.
    induction Hc as [|x r (Hx & Hs) Hc IH]; [reflexivity|]. unfold bits_at in *. cbn [flat_map].
    rewrite all_positions_cons, !zlen_app, zlen_positions by (split; assumption). enough (zlen (range_bits (buf_bits b) x) <= rlen x) by lia.
    unfold range_bits, slice_bits, rlen. destruct Hx as (H1 & H2). destruct (r_stop x) as [e|]; [|congruence]. rewrite py_slice_len by lia. lia.
Qed.

Lemma Forall2_weak {A B} (P Q : A -> B -> Prop) l l' : (forall x y, P x y -> Q x y) -> Forall2 P l l' -> Forall2 Q l l'.
Proof. intros H. induction 1; constructor; auto. Qed.
Theorem unpack_tolerant C b o n lay : cls_ok C -> NoDup (map f_name (k_fields C)) -> buf_ok b -> k_size C = Some n ->
  Forall2 (fun f x => always_at C f (fst x) /\ tolerant b f (fst x) (snd x)) (k_fields C) lay ->
  exists o', buffer_unpack C b o = (Ok n, o') /\ has_values o' (k_fields C) lay /\ only_fields_changed C o o'.
Proof.
  intros Hok Hn Kb Hs Hl. apply unpack_fixed; auto. revert Hl. apply Forall2_weak. intros f x (A & T). split; [exact A|].
  apply decodes_tolerant; [apply A|exact T].
Qed.

Theorem unpack_int_attr C l o n o' i h e signed s k a : plain C -> NoDup (map f_name (k_fields C)) -> bytes_ok l -> struct_width e s -> 0 <= a ->
  nth_error (k_fields C) i = Some (int_field h e signed None k) ->
  always_at C (int_field h e signed None k) (byte_place a (a + width_in_bytes s)) -> buffer_unpack C (BArr l) o = (Ok n, o') ->
  a + width_in_bytes s <= zlen l
  /\ exists z, Marshal.lookup o' (kw_name k) = Some (VInt z) /\ int_fits signed (8 * width_in_bytes s) z
     /\ forall j, 0 <= j < width_in_bytes s -> int_byte h e (width_in_bytes s) z j (nth (Z.to_nat (a + j)) l 0).
Proof.
  intros Hp Hn B W Ha Hf Hr H. pose proof (width_pos s) as Ws.
  destruct (unpack_reads_at C (BArr l) o n o' i _ _ Hp Hn B Hf Hr H) as (g & args & at' & x & used & (K & V & E) & U & L).
  assert (Gs : given_size (int_field h e signed None k) (byte_place a (a + width_in_bytes s)) = Some (8 * width_in_bytes s)).
  { unfold given_size, int_field, build, size_keyword. cbn [f_size]. rewrite byte_place_length by lia. f_equal. lia. }
  rewrite Gs in U. change (unpack_int h signed e (Some (8 * width_in_bytes s)) g = Ok (x, used)) in U.
  change (f_name (int_field h e signed None k)) with (kw_name k) in L. rewrite bits_at_bytes in E by lia.
  set (q := py_slice l a (a + width_in_bytes s)) in *. pose proof (py_slice_len l a (a + width_in_bytes s) Ha ltac:(lia)) as Q. fold q in Q.
  assert (Bl : blen g = zlen q). { rewrite blen_cdiv, <- buf_bits_len, E, bits_of_bytes_length by exact K. unfold cdiv8. lia. }
  destruct (Z.lt_ge_cases (blen g) (width_in_bytes s)) as [D|D]; [rewrite int_field_short in U by exact D; discriminate|].
  assert (Hl : a + width_in_bytes s <= zlen l) by lia. split; [exact Hl|].
  destruct (int_field_decodes h signed e s g W K V D) as (z & Z1 & Z2 & Z3). assert (x = VInt z) by congruence. subst x.
  exists z. split; [exact L|]. split; [exact Z2|]. intros j Hj.
  destruct (int_field_roundtrip h signed e s z W Z2) as (p & P1 & P2 & P3 & P4 & _).
  assert (Eq : p = q).
  { assert (p = firstn (Z.to_nat (width_in_bytes s)) (bytes_of_bits (buf_bits g))) as -> by congruence. rewrite E, bytes_of_bits_of_bytes by (apply slice_ok, B).
    apply firstn_all2. unfold zlen in *. lia. }
  rewrite Eq in P4. specialize (P4 j Hj). unfold q in P4. rewrite py_slice_nth in P4 by lia. exact P4.
Qed.

Theorem unpack_bytes_attr C l o n o' i k a b : plain C -> NoDup (map f_name (k_fields C)) -> bytes_ok l -> 0 <= a -> a <= b ->
  nth_error (k_fields C) i = Some (bytearray_field k) -> always_at C (bytearray_field k) (byte_place a b) ->
  buffer_unpack C (BArr l) o = (Ok n, o') -> Marshal.lookup o' (kw_name k) = Some (VBytes (py_slice l a b)).
Proof.
  intros Hp Hn B Ha Hb Hf Hr H.
  destruct (unpack_reads_at C (BArr l) o n o' i _ _ Hp Hn B Hf Hr H) as (g & args & at' & x & used & V & U & L).
  rewrite bits_at_bytes in V by lia. change (unpack_bytearray g = Ok (x, used)) in U. rewrite (unpack_bytearray_bytes g _ V) in U by (apply slice_ok, B).
  change (f_name (bytearray_field k)) with (kw_name k) in L. congruence.
Qed.

Theorem unpack_bits_attr C b o n o' i h e signed k r : plain C -> NoDup (map f_name (k_fields C)) -> buf_ok b -> odd_width (zlen (all_positions r)) ->
  nth_error (k_fields C) i = Some (int_field h e signed None k) -> always_at C (int_field h e signed None k) r ->
  buffer_unpack C b o = (Ok n, o') -> Marshal.lookup o' (kw_name k) = Some (VInt (bits_value (bits_at b r))).
Proof.
  intros Hp Hn B O Hf Hr H. destruct (unpack_reads_at C b o n o' i _ _ Hp Hn B Hf Hr H) as (g & args & at' & x & used & V & U & L).
  destruct (decodes_tolerant C b _ r _ (proj1 (proj1 (proj2 Hr))) (tolerant_int b h e signed k r O)) as (args' & used' & _ & D).
  specialize (D at' g V). change (f_name (int_field h e signed None k)) with (kw_name k) in L.
  change (unpack_int h signed e (given_size (int_field h e signed None k) r) g = Ok (x, used)) in U.
  change (unpack_int h signed e (given_size (int_field h e signed None k) r) g = Ok (VInt (bits_value (bits_at b r)), used')) in D. congruence.
Qed.
