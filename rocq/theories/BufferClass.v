(** Proofs: the byte_size that is computed for a class. *)
From Verif Require Import Base BaseProofs Marshal Range RangeRef RangeSpec RangeArith IoBuffer IoSpec IoProofs IoFacts IoOutput
  RefEngine RefSpec RefProofs RefStatic BufferModel BufferSpec BufferPlace BufferFacts BufferPack BufferTrip BufferErrors.
From Coq Require Import ZArith List Bool String Lia ZifyBool ZifyNat.
Import ListNotations.
Open Scope list_scope.
Open Scope Z_scope.
Ltac Zify.zify_post_hook ::= Z.div_mod_to_equations.

(** ** Static references and [byte_size] *)
Section Size.
Variables (fl : list field) (ul : list uref) (n n' : option Z).
Notation C := (mkCls fl ul n).
Notation C' := (mkCls fl ul n').
Lemma nodes_size r : nodes C r = nodes C' r \/ nodes C r = total_prog C.
Proof.
  unfold nodes. destruct (r_kind r); try (left; reflexivity); [|right; reflexivity].
  cbn [k_users]. destruct (nth_error ul (r_no r)) as [[]|]; try (left; reflexivity). right. reflexivity.
Qed.
Lemma pure_size r v k : pure (nodes C) r v k -> pure (nodes C') r v k.
Proof.
  intros H. induction H as [r v k H IH|v|r kk v k w k' H1 IH1 H2 IH2] using pure_mut with (P0 := fun p v k _ => pure_prog (nodes C') p v k).
  - constructor. destruct (nodes_size r) as [E|E]; [rewrite <- E; exact IH|]. rewrite E in H. unfold total_prog in H. inversion H.
  - constructor.
  - econstructor; eauto.
Qed.
Lemma static_size_any r v : static (nodes C) r v -> static (nodes C') r v.
Proof. intros (k & H). exists k. now apply pure_size. Qed.
Lemma cls_ok_size : cls_ok C -> cls_ok C'.
Proof.
  intros (H1 & H2). split; [eapply Forall_impl; [|exact H1]|eapply Forall_impl; [|exact H2]].
  - intros u. unfold uref_in, arg_in, rid_in, field_no. destruct u; auto.
  - intros f H. exact H.
Qed.
End Size.

Lemma static_pack_value C i v : ~ static (nodes C) (mkRid KPackValue i) v.
Proof.
  intros (n & H). inversion H as [? ? m Hp]; subst. unfold nodes in Hp. cbn [r_kind r_no] in Hp.
  destruct (nth_error (k_fields C) i) as [f|]; [|inversion Hp]. cbn [field_node] in Hp. unfold pack_value in Hp.
  destruct (f_before f) as [[]|]; inversion Hp.
Qed.
Lemma static_pack C i v : ~ static (nodes C) (mkRid KPack i) v.
Proof.
  intros (n & H). inversion H as [? ? m Hp]; subst. unfold nodes in Hp. cbn [r_kind r_no] in Hp.
  destruct (nth_error (k_fields C) i) as [f|]; [|inversion Hp]. cbn [field_node] in Hp. unfold pack_ref in Hp.
  inversion Hp as [|? ? ? ? ? ? Hr Hq]; subst. eapply static_pack_value. eexists. exact Hr.
Qed.
Lemma static_pack_pos C i v : static (nodes C) (mkRid KPackPos i) v -> exists l, v = RRanges l /\ list_is_open l = false.
Proof.
  intros (n & H). inversion H as [? ? m Hp]; subst. unfold nodes in Hp. cbn [r_kind r_no] in Hp.
  destruct (nth_error (k_fields C) i) as [f|]; [|inversion Hp]. cbn [field_node] in Hp. unfold pack_pos in Hp.
  inversion Hp as [|? ? w ? ? ? Hr Hq]; subst. destruct (as_ranges w) as [l|] eqn:Ew; [|inversion Hq]. apply as_ranges_inv in Ew. subst w.
  destruct (has_overlaps l) as [[|]|]; [inversion Hq| |inversion Hq]. destruct (list_is_open l) eqn:Eo.
  - inversion Hq as [|? ? ? ? ? ? Hr2 _]; subst. exfalso. eapply static_pack. eexists. exact Hr2.
  - inversion Hq; subst. eauto.
Qed.

(** ** calc_byte_size *)
(** The positions of the fields [l]; all static. *)
Definition static_places (C : cls) (l : list (nat * field)) (pos : list (list srange)) : Prop :=
  Forall2 (fun p r => static (nodes C) (mkRid KPackPos (fst p)) (RRanges r)
                      /\ exists v, static (nodes C) (mkRid KUnpackPos (fst p)) v) l pos.

Lemma static_size_spec C l : cls_ok C -> incl l (numbered C) -> forall c acc x, static_size C l c acc = Ok x ->
  agree rid_eqb (nodes C) (c_cache c) -> c_nodes c = [] -> list_is_open acc = false ->
  match x with
  | Some n => exists pos, static_places C l pos /\ list_max_stop (acc ++ List.concat pos) = Some n
              /\ list_is_open (acc ++ List.concat pos) = false
  | None => exists i f, In (i, f) l /\ ((forall v, ~ static (nodes C) (mkRid KPackPos i) v) \/ (forall v, ~ static (nodes C) (mkRid KUnpackPos i) v))
  end.
Proof.
  intros Hok. induction l as [|[i f] l IH]; intros Hl c acc x H Ha Hc Ho; cbn [static_size] in H.
  - inversion H; subst. unfold list_max_stop in *. destruct (not_open_stop acc Ho 0) as (k & K1 & _). rewrite K1.
    exists []. cbn [List.concat]. rewrite app_nil_r. split; [constructor|]. auto.
  - assert (Hin : In (i, f) (numbered C)) by (apply Hl; now left).
    pose proof (numbered_no C _ _ Hin) as Hno.
    assert (Hfu : (List.length (all_rids C) < fuel C)%nat) by (unfold fuel; lia).
    destruct (is_static_spec rid_eqb rid_eqb_spec (nodes C) (all_rids C) (fuel C) (mkBst [] None) (mkRid KPackPos i)
                (finite_nodes C Hok) (in_field C KPackPos i eq_refl Hno) Hfu) as (x1 & X1 & Y1).
    rewrite X1 in H. destruct x1 as [[|]|e]; [| |discriminate].
    2:{ inversion H; subst. exists i, f. split; [now left|]. left. intros v Hv. assert (Ok false = Ok true) by (apply Y1; eauto). discriminate. }
    destruct (is_static_spec rid_eqb rid_eqb_spec (nodes C) (all_rids C) (fuel C) (mkBst [] None) (mkRid KUnpackPos i)
                (finite_nodes C Hok) (in_field C KUnpackPos i eq_refl Hno) Hfu) as (x2 & X2 & Y2).
    rewrite X2 in H. destruct x2 as [[|]|e]; [| |discriminate].
    2:{ inversion H; subst. exists i, f. split; [now left|]. right. intros v Hv. assert (Ok false = Ok true) by (apply Y2; eauto). discriminate. }
    destruct (proj1 Y1 eq_refl) as (v1 & S1). destruct (proj1 Y2 eq_refl) as (v2 & S2).
    destruct (deref rid_eqb (nodes C) (fuel C) (mkRid KPackPos i) c (mkBst [] None)) as [[[o c'] s']|] eqn:D; [|discriminate].
    pose proof (deref_kept rid_eqb rid_eqb_spec (nodes C) _ _ _ _ _ _ _ D) as (K & _).
    destruct (deref_static_step rid_eqb rid_eqb_spec (nodes C) _ _ _ _ _ _ _ D Ha) as (A' & V); [rewrite Hc; intros y w m []|].
    destruct S1 as (k1 & S1). destruct (V _ _ S1) as (-> & ->). destruct (static_pack_pos C i v1 (ex_intro _ k1 S1)) as (p & -> & Hp).
    assert (Ho' : list_is_open (acc ++ p) = false) by (unfold list_is_open in *; rewrite existsb_app, Ho, Hp; reflexivity).
    assert (Hl' : incl l (numbered C)) by (intros y Hy; apply Hl; now right).
    pose proof (IH Hl' c' (acc ++ p) x H A' ltac:(congruence) Ho') as G. destruct x as [n|].
    + destruct G as (pos & G1 & G2 & G3). exists (p :: pos). cbn [List.concat]. rewrite app_assoc. split; [|auto].
      constructor; [|exact G1]. cbn [fst]. split; [exists k1; exact S1|eauto].
    + destruct G as (j & g & G1 & G2). exists j, g. split; [now right|exact G2].
Qed.

Lemma make_class_spec fl ul C : cls_ok (mkCls fl ul None) -> make_class fl ul = Ok C ->
  k_fields C = fl /\ k_users C = ul
  /\ match k_size C with
     | Some n => exists pos, static_places C (numbered C) pos /\ largest_stop (List.concat pos) n
                   /\ forall r, In r (List.concat pos) -> r_stop r <> None
     | None => exists i f, nth_error fl i = Some f
          /\ ((forall v, ~ static (nodes C) (mkRid KPackPos i) v) \/ (forall v, ~ static (nodes C) (mkRid KUnpackPos i) v))
     end.
Proof.
  intros Hok H. unfold make_class in H.
  destruct (static_size (mkCls fl ul None) (numbered (mkCls fl ul None)) new_ctx []) as [x|] eqn:E; [|discriminate].
  cbn [rbind] in H. inversion H; subst. cbn [k_fields k_users k_size]. split; [reflexivity|]. split; [reflexivity|].
  pose proof (static_size_spec _ _ Hok (incl_refl _) _ _ _ E (agree_nil _ _) eq_refl eq_refl) as G. destruct x as [n|].
  - destruct G as (pos & G1 & G2 & G3). exists pos. cbn [app] in *. split; [|split].
    + unfold static_places in *. change (numbered (mkCls fl ul (Some n))) with (numbered (mkCls fl ul None)).
      clear - G1. induction G1 as [|p r l pos (A & v & B) _ IH]; constructor; [|exact IH]. split; [eapply static_size_any; eauto|].
      exists v. eapply static_size_any; eauto.
    + destruct (not_open_stop _ G3 0) as (k & K1 & K2 & K3 & K4). unfold list_max_stop in G2. rewrite G2 in K1. inversion K1; subst.
      split; [exact K3|]. split; [exact K4|exact K2].
    + intros r Hr Hs. clear - G3 Hr Hs. unfold list_is_open in G3.
      assert (existsb is_open (List.concat pos) = true) by (apply existsb_exists; exists r; split; [auto|]; unfold is_open; now rewrite Hs). congruence.
  - destruct G as (i & f & G1 & G2). exists i, f. split; [apply (numbered_in (mkCls fl ul None)) in G1; exact G1|].
    destruct G2 as [G2|G2]; [left|right]; intros v Hv; apply (G2 v); eapply static_size_any; eauto.
Qed.

Lemma firstn_incl {A} n (l : list A) : incl (firstn n l) l.
Proof. intros x Hx. rewrite <- (firstn_skipn n l). apply in_or_app. now left. Qed.
Lemma nth_error_firstn_lt {A} (l : list A) : forall n i, (i < n)%nat -> nth_error (firstn n l) i = nth_error l i.
Proof. induction l as [|x l IH]; intros [|n] [|i] H; cbn [firstn nth_error]; try reflexivity; try lia. apply IH. lia. Qed.
Lemma make_subclass_spec own inherited ul C : cls_ok (mkCls (own ++ inherited) ul None) -> make_subclass own inherited ul = Ok C ->
  k_fields C = own ++ inherited /\ k_users C = ul
  /\ match k_size C with
     | Some n => exists pos, static_places C (firstn (List.length own) (numbered C)) pos /\ largest_stop (List.concat pos) n
                   /\ forall r, In r (List.concat pos) -> r_stop r <> None
     | None => exists i f, nth_error own i = Some f
          /\ ((forall v, ~ static (nodes C) (mkRid KPackPos i) v) \/ (forall v, ~ static (nodes C) (mkRid KUnpackPos i) v))
     end.
Proof.
  intros Hok H. unfold make_subclass in H. set (fl := own ++ inherited) in *.
  destruct (static_size (mkCls fl ul None) (firstn (List.length own) (numbered (mkCls fl ul None))) new_ctx []) as [x|] eqn:E; [|discriminate].
  cbn [rbind] in H. inversion H; subst. cbn [k_fields k_users k_size]. split; [reflexivity|]. split; [reflexivity|].
  pose proof (static_size_spec _ _ Hok (firstn_incl _ _) _ _ _ E (agree_nil _ _) eq_refl eq_refl) as G. destruct x as [n|].
  - destruct G as (pos & G1 & G2 & G3). exists pos. cbn [app] in *. split; [|split].
    + unfold static_places in *. change (numbered (mkCls fl ul (Some n))) with (numbered (mkCls fl ul None)).
      clear - G1. induction G1 as [|p r l pos (A & v & B) _ IH]; constructor; [|exact IH]. split; [eapply static_size_any; eauto|].
      exists v. eapply static_size_any; eauto.
    + destruct (not_open_stop _ G3 0) as (k & K1 & K2 & K3 & K4). unfold list_max_stop in G2. rewrite G2 in K1. inversion K1; subst.
      split; [exact K3|]. split; [exact K4|exact K2].
    + intros r Hr Hs. clear - G3 Hr Hs. unfold list_is_open in G3.
      assert (existsb is_open (List.concat pos) = true) by (apply existsb_exists; exists r; split; [auto|]; unfold is_open; now rewrite Hs). congruence.
  - destruct G as (i & f & G1 & G2). exists i, f. split.
    + apply In_nth_error in G1. destruct G1 as (j & G1). assert (j < List.length own)%nat.
      { assert (L : (j < List.length (firstn (List.length own) (numbered (mkCls fl ul None))))%nat) by (apply nth_error_Some; congruence). rewrite firstn_length in L. lia. }
      rewrite nth_error_firstn_lt in G1 by assumption.
      pose proof (nth_error_In _ _ G1) as G3. pose proof (proj1 (numbered_in _ _ _) G3) as G4. cbn [k_fields] in G4.
      assert (j = i). { unfold numbered in G1. clear - G1. cbn [k_fields] in G1.
        assert (X : forall (fs : list field) k j, nth_error (combine (seq k (List.length fs)) fs) j = Some (i, f) -> i = (k + j)%nat).
        { induction fs as [|g fs IH]; intros k [|j'] Hj; cbn [List.length seq combine nth_error] in Hj; try discriminate.
          - injection Hj as <- _. lia.
          - apply IH in Hj. lia. }
        apply X in G1. lia. }
      subst j. unfold fl in G4. rewrite nth_error_app1 in G4 by assumption. exact G4.
    + destruct G2 as [G2|G2]; [left|right]; intros v Hv; apply (G2 v); eapply static_size_any; eauto.
Qed.

(** ** Packing objects of such a class *)
Lemma eval_agree C r m s x m' s' : eval rid_eqb (nodes C) r m s x m' s' -> agree rid_eqb (nodes C) m ->
  agree rid_eqb (nodes C) m' /\ forall w n, pure (nodes C) r w n -> x = Ok w.
Proof.
  intros H.
  induction H as [r m s v L|r m s v m' s' L X IH|r m s e m' s' L X IH
                 |v m s|e m s|r k m s v m1 s1 x m' s' X1 IH1 X2 IH2|r k m s e m1 s1 X IH|f k m s v s1 x m' s' E X IH|f k m s e s1 E]
    using eval_mut with (P0 := fun p m s x m' s' _ => agree rid_eqb (nodes C) m ->
      agree rid_eqb (nodes C) m' /\ forall w n, pure_prog (nodes C) p w n -> x = Ok w); intros Ha.
  - split; [auto|]. intros w n Hp. f_equal. eapply Ha; eauto.
  - destruct (IH Ha) as (A & B). split.
    + intros r2 v2 w n L2 Hp. cbn [lookup] in L2. destruct (rid_eqb r2 r) eqn:Er.
      * inversion L2; subst. apply rid_eqb_spec in Er. subst r2. inversion Hp as [? ? k Hq]; subst. pose proof (B _ _ Hq). congruence.
      * eapply A; eauto.
    + intros w n Hp. inversion Hp as [? ? k Hq]; subst. eauto.
  - destruct (IH Ha) as (A & B). split; [exact A|]. intros w n Hp. inversion Hp as [? ? k Hq]; subst. eauto.
  - split; [auto|]. intros w n Hp. inversion Hp; subst. reflexivity.
  - split; [auto|]. intros w n Hp. inversion Hp.
  - destruct (IH1 Ha) as (A1 & B1). destruct (IH2 A1) as (A2 & B2). split; [auto|].
    intros w n Hp. inversion Hp as [|? ? v2 ? ? ? Hq1 Hq2]; subst. pose proof (B1 _ _ Hq1) as E. inversion E; subst. eauto.
  - destruct (IH Ha) as (A & B). split; [auto|]. intros w n Hp. inversion Hp as [|? ? v2 ? ? ? Hq1 Hq2]; subst.
    pose proof (B _ _ Hq1). discriminate.
  - destruct (IH Ha) as (A & B). split; [auto|]. intros w n Hp. inversion Hp.
  - split; [auto|]. intros w n Hp. inversion Hp.
Qed.

Lemma packing_places C l : forall pos m s ps m' s', static_places C l pos -> packing C l m s ps m' s' ->
  agree rid_eqb (nodes C) m -> Forall2 (fun p r => p = None \/ exists b, p = Some (b, r)) ps pos.
Proof.
  intros pos m s ps m' s' Hs H. revert pos Hs. induction H as [m s|i f l m s c m1 s1 ps m' s' E1 T H IH
    |i f l m s c m1 s1 b m2 s2 r m3 s3 ps m' s' E1 T E2 E3 H IH]; intros pos Hs Ha; inversion Hs as [|? q ? pos' Hq Hs']; subst; constructor; auto.
  - apply (IH pos' Hs'). eapply eval_agree; eauto.
  - right. exists b. destruct (eval_agree _ _ _ _ _ _ _ E1 Ha) as (A1 & _). destruct (eval_agree _ _ _ _ _ _ _ E2 A1) as (A2 & _).
    destruct (eval_agree _ _ _ _ _ _ _ E3 A2) as (_ & B3). destruct Hq as ((k & Hq) & _). pose proof (B3 _ _ Hq) as E. inversion E. reflexivity.
  - apply (IH pos' Hs'). destruct (eval_agree _ _ _ _ _ _ _ E1 Ha) as (A1 & _). destruct (eval_agree _ _ _ _ _ _ _ E2 A1) as (A2 & _).
    eapply eval_agree; eauto.
Qed.

Lemma places_stop ps pos n : Forall2 (fun p r => p = None \/ exists b, p = Some (b, r)) ps pos ->
  largest_stop (List.concat pos) n -> forall bits, output_of ps bits -> zlen bits <= n.
Proof.
  intros H (L1 & _ & L3) bits ((_ & [Hz|(r & R1 & R2)] & _) & _); [lia|].
  apply (L1 r _); [|exact R2]. clear - H R1. induction H as [|p q ps pos [->|(b & ->)] H IH]; cbn [part_ranges flat_map List.concat] in *; [auto| |].
  - apply in_or_app. right. apply IH, R1.
  - apply in_app_or in R1. apply in_or_app. destruct R1; auto.
Qed.

Lemma class_pack fl ul C n : cls_ok (mkCls fl ul None) -> packers_ok C -> make_class fl ul = Ok C -> k_size C = Some n -> forall o,
  (forall bytes o', buffer_pack C o = (Ok bytes, o') -> zlen bytes = (n + 7) / 8)
  /\ (forall e o', buffer_pack C o = (Err e, o') -> e = InstructBufferError \/ no_exception e
       \/ exists pre i f post ps m s, numbered C = pre ++ (i, f) :: post /\ packing C pre [] (mkBst o None) ps m s /\ fails C (f_pack_if f) m s e).
Proof.
  intros Hok Hp Hm Hn o. destruct (make_class_spec fl ul C Hok Hm) as (E1 & E2 & K). rewrite Hn in K. destruct K as (pos & K1 & K2 & K3).
  assert (HokC : cls_ok C).
  { destruct C as [fl' ul' n']. cbn in E1, E2, Hn. subst. eapply cls_ok_size; eauto. }
  split.
  - intros bytes o' H. destruct (buffer_pack_ok C o bytes o' Hp H) as (ps & m & bits & P & F & O & T & ->).
    pose proof (packing_places _ _ _ _ _ _ _ _ K1 P (agree_nil _ _)) as G. pose proof (places_stop _ _ _ G K2 _ O) as B.
    destruct (bytes_of_bits_spec bits) as (_ & S2 & _). rewrite Hn. unfold sized, cdiv8 in *. pose proof (zlen_nonneg bits).
    destruct (n =? 0) eqn:E; [rewrite S2; lia|]. rewrite zlen_app, zlen_repeat, S2. lia.
  - intros e o' H. destruct (buffer_pack_err C o e o' HokC Hp H) as [G|[G|[G|(_ & ps & m & bits & P & F & O & T)]]]; auto.
    exfalso. pose proof (packing_places _ _ _ _ _ _ _ _ K1 P (agree_nil _ _)) as G. pose proof (places_stop _ _ _ G K2 _ O) as B.
    destruct (bytes_of_bits_spec bits) as (_ & S2 & _). rewrite Hn in T. unfold too_long, cdiv8 in *. rewrite S2 in T. lia.
Qed.
