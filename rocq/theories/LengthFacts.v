(** Proofs: positions that depend on the length of the input. *)
From Verif Require Import Base BaseProofs Marshal Range RangeSpec IoBuffer IoSpec Serialize SerializeSpec RefEngine RefSpec RefProofs RefStatic
  BufferModel BufferSpec BufferMacros BufferPlace BufferFacts BufferPack BufferErrors BufferClass BufferCodecSpec BufferBuilders BufferReadSpec BufferReads SerializeLists MemberFacts LengthSpec.
From Coq Require Import ZArith List Bool String Lia ZifyBool.
Import ListNotations.
Open Scope list_scope.
Open Scope Z_scope.
Ltac Zify.zify_post_hook ::= Z.div_mod_to_equations.

Section Length.
Variable C : cls.
Variable n : Z.
Definition agree_length (m : memory) : Prop := forall r v w, RefEngine.lookup rid_eqb r m = Some v -> of_length C n r w -> v = w.
Definition has_length (s : bst) : Prop := exists b, s_input s = Some b /\ input_length b = n.

Lemma eval_agree_length r m s x m' s' : eval rid_eqb (nodes C) r m s x m' s' -> agree_length m -> has_length s ->
  agree_length m' /\ forall w, of_length C n r w -> x = Ok w.
Proof.
  intros H.
  induction H as [r m s v L|r m s v m' s' L X IH|r m s e m' s' L X IH
                 |v m s|e m s|r k m s v m1 s1 x m' s' X1 IH1 X2 IH2|r k m s e m1 s1 X IH|f k m s v s1 x m' s' E X IH|f k m s e s1 E]
    using eval_mut with (P0 := fun p m s x m' s' _ => keeps same_input p -> agree_length m -> has_length s ->
      agree_length m' /\ forall w, of_length_prog C n p w -> x = Ok w).
  - intros Ha Hs. split; [auto|]. intros w Hp. f_equal. eapply Ha; eauto.
  - intros Ha Hs. destruct (IH (nodes_same_input C r) Ha Hs) as (A & B). split.
    + intros r2 v2 w L2 Hp. cbn [lookup] in L2. destruct (rid_eqb r2 r) eqn:Er.
      * inversion L2; subst. apply rid_eqb_spec in Er. subst r2. inversion Hp as [? ? Hq]; subst. pose proof (B _ Hq). congruence.
      * eapply A; eauto.
    + intros w Hp. inversion Hp as [? ? Hq]; subst. eauto.
  - intros Ha Hs. destruct (IH (nodes_same_input C r) Ha Hs) as (A & B). split; [exact A|]. intros w Hp. inversion Hp as [? ? Hq]; subst. eauto.
  - intros Hk Ha Hs. split; [auto|]. intros w Hp. inversion Hp; subst. reflexivity.
  - intros Hk Ha Hs. split; [auto|]. intros w Hp. inversion Hp.
  - intros Hk Ha Hs. inversion Hk as [| |? ? Hk'|]; subst. destruct (IH1 Ha Hs) as (A1 & B1).
    assert (Hs1 : has_length s1). { destruct Hs as (b & S1 & S2). exists b. rewrite (eval_input _ _ _ _ _ _ _ X1). auto. }
    destruct (IH2 (Hk' v) A1 Hs1) as (A2 & B2). split; [auto|].
    intros w Hp. inversion Hp as [|? ? v2 ? Hq1 Hq2|]; subst. pose proof (B1 _ Hq1) as E. inversion E; subst. eauto.
  - intros Hk Ha Hs. destruct (IH Ha Hs) as (A & B). split; [auto|]. intros w Hp. inversion Hp as [|? ? v2 ? Hq1 Hq2|]; subst. pose proof (B _ Hq1). discriminate.
  - intros Hk Ha Hs. inversion Hk as [| | |? ? Hf Hk']; subst.
    assert (Hs1 : has_length s1). { destruct Hs as (b & S1 & S2). exists b. rewrite (Hf _ _ _ E). auto. }
    destruct (IH (Hk' v) Ha Hs1) as (A2 & B2). split; [auto|]. intros w Hp. inversion Hp as [| |? ? v2 ? Hq1 Hq2]; subst.
    destruct Hs as (b & S1 & S2). rewrite (Hq1 _ _ S1 S2) in E. inversion E; subst. eauto.
  - intros Hk Ha Hs. split; [auto|]. intros w Hp. inversion Hp as [| |? ? v2 ? Hq1 Hq2]; subst.
    destruct Hs as (b & S1 & S2). rewrite (Hq1 _ _ S1 S2) in E. discriminate.
Qed.
Lemma evals_agree_length l m s m' s' : evals_all C l m s m' s' -> agree_length m -> has_length s -> agree_length m'.
Proof.
  induction 1 as [|r l m s v m1 s1 m' s' E H IH]; auto. intros Ha Hs. destruct (eval_agree_length _ _ _ _ _ _ E Ha Hs) as (A & _). apply IH; [exact A|].
  destruct Hs as (b & S1 & S2). exists b. rewrite (eval_input _ _ _ _ _ _ _ E). auto.
Qed.
Lemma unpacking_agree_length l m s m' s' : unpacking C l m s m' s' -> agree_length m -> has_length s -> agree_length m' /\ has_length s'.
Proof.
  intros H. induction H as [m s|i f l m s c m1 s1 m' s' E T H IH|i f l m s c m1 s1 m2 s2 m' s' E T E2 H IH]; auto; intros Ha Hs;
    destruct (eval_agree_length _ _ _ _ _ _ E Ha Hs) as (A & _);
    (assert (Hs1 : has_length s1) by (destruct Hs as (b & S1 & S2); exists b; rewrite (eval_input _ _ _ _ _ _ _ E); auto)).
  - apply IH; auto.
  - apply IH; [eapply evals_agree_length; eauto|]. destruct Hs1 as (b & S1 & S2). exists b. rewrite (evals_input _ _ _ _ _ _ E2). auto.
Qed.
Lemma length_unpack_pos i f r : nth_error (k_fields C) i = Some f -> of_length C n (f_where_unpack f) (RRanges r) -> proper_place r ->
  of_length C n (mkRid KUnpackPos i) (RRanges r).
Proof.
  intros Hf H P. destruct (proper_facts r P) as (P1 & P2). constructor.
  change (nodes C (mkRid KUnpackPos i)) with (match nth_error (k_fields C) i with Some f => field_node KUnpackPos i f | None => PRaise NotModelled end).
  rewrite Hf. cbn [field_node]. unfold unpack_pos. econstructor; [exact H|]. cbn [as_ranges]. rewrite P1, P2. constructor.
Qed.
End Length.

Lemma input_of_bytes l input : input_buffer (BArr l) = Ok input -> input_length input = zlen l.
Proof.
  intros H. pose proof (zlen_nonneg l) as N. change (input_buffer (BArr l)) with (mk_view (BArr l) 0 (8 * zlen l)) in H.
  unfold mk_view in H. cbn [blen] in H. unfold passert in H. replace (0 <=? 0) with true in H by lia.
  replace (8 * zlen l <=? 8 * zlen l) with true in H by lia. replace (0 <=? 8 * zlen l) with true in H by lia. cbn [rbind] in H.
  assert (E : input = BView (BArr l) 0 (8 * zlen l)) by congruence. rewrite E.
  change (input_length (BView (BArr l) 0 (8 * zlen l))) with ((8 * zlen l - 0 + 7) / 8). lia.
Qed.

Theorem unpack_reads_length C l o n o' i f r : plain C -> NoDup (map f_name (k_fields C)) -> bytes_ok l ->
  nth_error (k_fields C) i = Some f -> at_length C (zlen l) f r -> buffer_unpack C (BArr l) o = (Ok n, o') ->
  exists given args a x used, view_with given (bits_at (BArr l) r) /\ f_unpack f args a given (given_size f r) = Ok (x, used)
    /\ Marshal.lookup o' (f_name f) = Some x.
Proof.
  intros Hp Hn Kb Hf (S1 & S2 & (c & S3 & T) & S4) H.
  destruct (unpack_reads C (BArr l) o n o' Hp Hn Kb H) as (input & m & s & m' & s' & A1 & A2 & A3 & A4 & R). specialize (R i f Hf).
  destruct R as (c' & C1 & C2).
  assert (HL : has_length (zlen l) (mkBst o (Some input))) by (exists input; split; [reflexivity|exact (input_of_bytes l input A1)]).
  destruct (unpacking_agree_length C (zlen l) _ _ _ _ _ A2) as (G & HL'); [discriminate|exact HL|].
  destruct (eval_agree_length C (zlen l) _ _ _ _ _ _ A3 G HL') as (G' & _).
  assert (c' = c) by (exact (G' _ _ _ C1 S3)). subst c'. destruct (C2 T) as (r' & g & args & a & x & used & R1 & R2 & R3 & R4 & R5).
  pose proof (length_unpack_pos C (zlen l) i f r Hf S1 S2) as S5. pose proof (G' _ _ _ R1 S5) as E. assert (r' = r) by congruence. subst r'. rewrite S4 in R5.
  exists g, args, a, x, used. split; [apply R2, Forall_closed, S2|]. auto.
Qed.

Lemma wrote_ev C n b a k w : wrote C b a -> of_length_prog C n (k (RVal (VInt (bound_at n b)))) w -> of_length_prog C n (ev a k) w.
Proof.
  destruct b as [z|z]; cbn [wrote bound_at].
  - intros -> H. exact H.
  - intros (i & j & -> & Hi & Hj) H. cbn [ev]. econstructor; [|exact H]. constructor. unfold nodes. cbn [r_kind r_no]. rewrite Hi. cbn [user_prog ev].
    econstructor.
    + constructor. unfold nodes. cbn [r_kind r_no]. rewrite Hj. cbn [user_prog]. econstructor; [|constructor].
      intros s b Hb Hl. rewrite Hb, Hl. reflexivity.
    + unfold num_op. cbn [num_bits rbind]. replace (8 * n - 8 * z) with (8 * (n - z)) by lia.
      unfold rnum. replace ((8 * (n - z)) mod 8 =? 0) with true by lia. replace (8 * (n - z) / 8) with (n - z) by lia. constructor.
Qed.
Lemma wrote_place C n a b r : wrote_slice C a b r -> 0 <= bound_at n a -> bound_at n a <= bound_at n b ->
  of_length C n r (RRanges (byte_place (bound_at n a) (bound_at n b))).
Proof.
  intros (k & x & y & -> & Hk & Hx & Hy) H1 H2. constructor. unfold nodes. cbn [r_kind r_no]. rewrite Hk. cbn [user_prog].
  eapply wrote_ev; [exact Hx|]. eapply wrote_ev; [exact Hy|]. unfold slice_ranges, opt_num_bits, mk_srange, byte_place. cbn [num_bits rbind].
  replace (0 <=? 8 * bound_at n a) with true by lia. replace (0 <=? 8 * bound_at n b) with true by lia. replace (8 * bound_at n a <=? 8 * bound_at n b) with true by lia.
  constructor.
Qed.
Lemma byte_place_proper a b : 0 <= a -> a <= b -> proper_place (byte_place a b).
Proof.
  intros H1 H2. unfold byte_place. split; [|split].
  - constructor; [|constructor]. split; [split; cbn [r_start r_stop]; lia|discriminate].
  - repeat constructor.
  - left. eauto.
Qed.
Lemma wrote_true C n k v : nth_error (k_users C) k = Some (UConst v) -> of_length C n (mkRid KUser k) v.
Proof. intros H. constructor. unfold nodes. cbn [r_kind r_no]. rewrite H. constructor. Qed.

(** A byte array between two bounds. *)
Theorem length_bytes_attr C l o n o' i k a b t c : plain C -> NoDup (map f_name (k_fields C)) -> bytes_ok l ->
  nth_error (k_fields C) i = Some (bytearray_field k) -> wrote_slice C a b (f_where_unpack (bytearray_field k)) ->
  f_unpack_if (bytearray_field k) = mkRid KUser t -> nth_error (k_users C) t = Some (UConst c) -> truthy c = true -> f_after (bytearray_field k) = None ->
  0 <= bound_at (zlen l) a -> bound_at (zlen l) a <= bound_at (zlen l) b ->
  buffer_unpack C (BArr l) o = (Ok n, o') ->
  Marshal.lookup o' (kw_name k) = Some (VBytes (py_slice l (bound_at (zlen l) a) (bound_at (zlen l) b))).
Proof.
  intros Hp Hn B Hf Hw Hi Ht Tc Haf Ha Hb H.
  assert (Hr : at_length C (zlen l) (bytearray_field k) (byte_place (bound_at (zlen l) a) (bound_at (zlen l) b))).
  { split; [now apply wrote_place|]. split; [now apply byte_place_proper|]. split; [|exact Haf]. exists c. split; [|exact Tc]. rewrite Hi. now apply wrote_true. }
  destruct (unpack_reads_length C l o n o' i _ _ Hp Hn B Hf Hr H) as (g & args & at' & x & used & V & U & L).
  rewrite bits_at_bytes in V by lia. change (unpack_bytearray g = Ok (x, used)) in U. rewrite (unpack_bytearray_bytes g _ V) in U by (apply slice_ok, B).
  change (f_name (bytearray_field k)) with (kw_name k) in L. congruence.
Qed.
(** ** input_buffer_length while packing *)
Section NoLength.
Variable C : cls.
Definition needs (r : rid) : Prop :=
  needs_length C r \/ exists i f, r = mkRid KPackPos i /\ nth_error (k_fields C) i = Some f /\ needs_length C (f_where_pack f).
Inductive fails_prog : bprog -> Prop :=
| fp_ctx f k : (forall s, s_input s = None -> exists e, fst (f s) = Err e) -> fails_prog (PCtx f k)
| fp_ref r k : needs r -> fails_prog (PRef r k)
| fp_later r k : (forall v, fails_prog (k v)) -> fails_prog (PRef r k).
Lemma fails_ev a b k r : (a = ARef r \/ b = ARef r) -> needs r -> fails_prog (ev a (fun x => ev b (k x))).
Proof.
  intros [-> | ->] H; cbn [ev]; [now apply fp_ref|]. destruct a; cbn [ev]; [now apply fp_ref|]. apply fp_later. intros v. now apply fp_ref.
Qed.
Lemma needs_fails r : needs r -> fails_prog (nodes C r).
Proof.
  intros [H|(i & f & -> & Hf & H)].
  - inversion H as [j Hj|k op a b q Hk Hr Hq|k a b q Hk Hr Hq]; subst; unfold nodes; cbn [r_kind r_no].
    + rewrite Hj. cbn [user_prog]. apply fp_ctx. intros s Hs. rewrite Hs. cbn [fst]. eauto.
    + rewrite Hk. cbn [user_prog]. apply (fails_ev a b _ q Hr). now left.
    + rewrite Hk. cbn [user_prog]. apply (fails_ev a b _ q Hr). now left.
  - change (nodes C (mkRid KPackPos i)) with (match nth_error (k_fields C) i with Some f => field_node KPackPos i f | None => PRaise NotModelled end).
    rewrite Hf. cbn [field_node]. unfold pack_pos. apply fp_ref. now left.
Qed.
Definition unknown (m : memory) : Prop := forall r, needs r -> RefEngine.lookup rid_eqb r m = None.
Lemma eval_needs r m s x m' s' : eval rid_eqb (nodes C) r m s x m' s' -> s_input s = None -> unknown m -> unknown m' /\ (needs r -> exists e, x = Err e).
Proof.
  intros H.
  induction H as [r m s v L|r m s v m' s' L X IH|r m s e m' s' L X IH
                 |v m s|e m s|r k m s v m1 s1 x m' s' X1 IH1 X2 IH2|r k m s e m1 s1 X IH|f k m s v s1 x m' s' E X IH|f k m s e s1 E]
    using eval_mut with (P0 := fun p m s x m' s' _ => keeps same_input p -> s_input s = None -> unknown m ->
      unknown m' /\ (fails_prog p -> exists e, x = Err e)).
  - intros Hs U. split; [auto|]. intros N. rewrite (U _ N) in L. discriminate.
  - intros Hs U. destruct (IH (nodes_same_input C r) Hs U) as (A & B). split.
    + intros q N. cbn [RefEngine.lookup]. destruct (rid_eqb q r) eqn:Er; [|now apply A]. apply rid_eqb_spec in Er. subst q.
      destruct (B (needs_fails r N)). discriminate.
    + intros N. destruct (B (needs_fails r N)). discriminate.
  - intros Hs U. destruct (IH (nodes_same_input C r) Hs U) as (A & B). split; [exact A|]. eauto.
  - intros Hk Hs U. split; [auto|]. intros F. inversion F.
  - intros Hk Hs U. split; [auto|]. intros F. inversion F.
  - intros Hk Hs U. inversion Hk as [| |? ? Hk'|]; subst. destruct (IH1 Hs U) as (A1 & B1).
    destruct (IH2 (Hk' v)) as (A2 & B2); [now rewrite (eval_input _ _ _ _ _ _ _ X1)|exact A1|]. split; [exact A2|].
    intros F. inversion F as [|? ? N|? ? N]; subst; [destruct (B1 N); discriminate|auto].
  - intros Hk Hs U. destruct (IH Hs U) as (A & _). split; [exact A|eauto].
  - intros Hk Hs U. inversion Hk as [| | |? ? Hf Hk']; subst. destruct (IH (Hk' v)) as (A2 & B2); [now rewrite (Hf _ _ _ E)|exact U|].
    split; [exact A2|]. intros F. inversion F as [? ? N| |]; subst. destruct (N _ Hs) as (e & He). rewrite E in He. discriminate.
  - intros Hk Hs U. split; [auto|eauto].
Qed.
Lemma packing_needs l m s ps m' s' : packing C l m s ps m' s' -> s_input s = None -> unknown m -> agree rid_eqb (nodes C) m ->
  forall i f c, In (i, f) l -> nth_error (k_fields C) i = Some f -> static (nodes C) (f_pack_if f) c -> truthy c = true -> ~ needs_length C (f_where_pack f).
Proof.
  induction 1 as [m s|i f l m s c m1 s1 ps m' s' E T H IH|i f l m s c m1 s1 b m2 s2 r m3 s3 ps m' s' E T E2 E3 H IH]; intros Hs U Ag i0 f0 c0 Hin Hf Ht Tc N.
  - destruct Hin.
  - destruct (eval_needs _ _ _ _ _ _ E Hs U) as (A & _). destruct (eval_agree _ _ _ _ _ _ _ E Ag) as (A' & B').
    destruct Hin as [Heq|Hin].
    + inversion Heq; subst. destruct Ht as (n & Ht). pose proof (B' _ _ Ht) as Q. congruence.
    + refine (IH _ A A' i0 f0 c0 Hin Hf Ht Tc N). now rewrite (eval_input _ _ _ _ _ _ _ E).
  - destruct (eval_needs _ _ _ _ _ _ E Hs U) as (A & _). pose proof (eval_input _ _ _ _ _ _ _ E) as K1. rewrite Hs in K1.
    destruct (eval_needs _ _ _ _ _ _ E2 K1 A) as (A2 & _). pose proof (eval_input _ _ _ _ _ _ _ E2) as K2. rewrite K1 in K2.
    destruct (eval_needs _ _ _ _ _ _ E3 K2 A2) as (A3 & B3). pose proof (eval_input _ _ _ _ _ _ _ E3) as K3. rewrite K2 in K3.
    destruct Hin as [Heq|Hin].
    + inversion Heq; subst. destruct B3 as (e & He); [|discriminate]. right. eauto.
    + destruct (eval_agree _ _ _ _ _ _ _ E Ag) as (G1 & _). destruct (eval_agree _ _ _ _ _ _ _ E2 G1) as (G2 & _). destruct (eval_agree _ _ _ _ _ _ _ E3 G2) as (G3 & _).
      exact (IH K3 A3 G3 i0 f0 c0 Hin Hf Ht Tc N).
Qed.
End NoLength.
Theorem no_pack_from_length C o f c : Forall predefined (k_fields C) -> In f (k_fields C) -> static (nodes C) (f_pack_if f) c -> truthy c = true ->
  needs_length C (f_where_pack f) -> exists e o', buffer_pack C o = (Err e, o').
Proof.
  intros Hp Hin Ht Tc N. destruct (buffer_pack C o) as [[bytes|e] o'] eqn:E; [|eauto]. exfalso.
  destruct (buffer_pack_ok C o bytes o' (predefined_packers C Hp) E) as (ps & m & bits & P & _).
  apply In_nth_error in Hin. destruct Hin as (i & Hi).
  refine (packing_needs C _ _ _ _ _ _ P eq_refl _ (agree_nil _ _) i f c (proj2 (numbered_in C i f) Hi) Hi Ht Tc N). intros r _. reflexivity.
Qed.
