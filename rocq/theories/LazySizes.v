(** Sizes of objects with lazy containers, and constants inside of lazy containers. *)
From Verif Require Import Base BaseProofs IntCodec BitStringIO Stream StreamSpec StreamProofs MinMax Marshal MarshalInd MarshalSpec
  FieldSpec FieldFacts SizeSpec SizeFacts MarshalFacts SimFacts Lazy LazySpec LazyProofs LazyFacts.
From Coq Require Import ZArith List Bool String Lia ZifyBool ZifyNat.
Import ListNotations.
Open Scope list_scope.
Open Scope Z_scope.

(** ** sizeof looks at the stored names only *)
Lemma sizeof_names : forall f a1 a2, same_on (stored_names f) a1 a2 -> sizeof_field f a1 = sizeof_field f a2.
Proof.
  apply (marshal_field_ind (fun _ => True) (fun f => forall a1 a2, same_on (stored_names f) a1 a2 -> sizeof_field f a1 = sizeof_field f a2)); auto.
  - intros n m d _ a1 a2 S. cbn [sizeof_field]. unfold field_value. now rewrite (S n) by now left.
  - intros n m pr d _ a1 a2 S. cbn [sizeof_field]. unfold field_value. now rewrite (S n) by now left.
  - intros fs F a1 a2 S. rewrite !sizeof_group. change (stored_names (FGroup fs)) with (flat_map stored_names fs) in S.
    assert (E : sizeof_fields fs a1 = sizeof_fields fs a2); [|now rewrite E].
    induction F as [|f r Hf _ IH]; [reflexivity|]. cbn [flat_map sizeof_fields] in *. apply same_on_app in S as [S1 S2]. now rewrite (Hf _ _ S1), (IH S2).
Qed.
Lemma fits_names st : forall f a1 a2, same_on (stored_names f) a1 a2 -> fits_field st f a1 -> fits_field st f a2.
Proof.
  apply (marshal_field_ind (fun _ => True) (fun f => forall a1 a2, same_on (stored_names f) a1 a2 -> fits_field st f a1 -> fits_field st f a2)); auto.
  - intros n m d _ a1 a2 S. cbn [fits_field]. unfold field_value. now rewrite (S n) by now left.
  - intros n m pr d _ a1 a2 S. cbn [fits_field]. unfold field_value. now rewrite (S n) by now left.
  - intros fs F a1 a2 S. change (stored_names (FGroup fs)) with (flat_map stored_names fs) in S. cbn [fits_field].
    induction F as [|f r Hf _ IH]; [auto|]. cbn [flat_map] in *. apply same_on_app in S as [S1 S2]. intros [H1 H2]. split; [exact (Hf _ _ S1 H1)|now apply IH].
Qed.
Lemma contained_honest : (forall m, self_contained m -> honest m) /\ (forall f, self_contained_field f -> honest_field f).
Proof.
  apply marshal_field_ind; try (intros; cbn [self_contained self_contained_field honest honest_field] in *; solve [tauto|lia]).
  - intros cls cctx fs F C. cbn [self_contained honest] in *. induction F as [|f r Hf _ IH]; [exact I|]. destruct C as [C1 C2]. split; [exact (Hf C1)|exact (IH C2)].
  - intros fs F C. cbn [self_contained_field honest_field] in *. induction F as [|f r Hf _ IH]; [exact I|]. destruct C as [C1 C2]. split; [exact (Hf C1)|exact (IH C2)].
Qed.

(** ** What a lazy container writes *)
Lemma fixed_sum fs : Forall lazy_field_ok fs -> forall size, lazy_size fs = Ok size -> 0 <= size.
Proof. intros F size E. rewrite (lazy_size_span fs (contained_lazy fs F) size E). apply span_fields_nonneg; [apply Forall_forall; intros; now apply span_nonneg_all|now apply contained_lazy]. Qed.
Lemma lazy_written h fs a : Forall lazy_field_ok fs -> Forall (fun f => fits_field true f a) fs -> forall size, lazy_size fs = Ok size -> size < maxsize ->
  forall out out', write_lazy_fields h fs a out = (Ok tt, out') -> zlen out' = zlen out + size.
Proof.
  intros F. induction F as [|f r Hf F IH]; intros Fi size Es Hs out out' W.
  - injection Es as <-. injection W as <-. lia.
  - inversion Fi as [|? ? F1 F2]; subst. cbn [lazy_size] in Es. destruct (min_max_field f) as [mm|e] eqn:M; cbn [rbind] in Es; [|discriminate].
    destruct (mm_is_fixed mm) eqn:X; cbn [negb] in Es; [|discriminate]. destruct (lazy_size r) as [n|e] eqn:N; cbn [rbind] in Es; [|discriminate]. injection Es as <-.
    pose proof (fixed_sum r F n N) as Nn. cbn [write_lazy_fields] in W. unfold sbind in W.
    destruct (write_lazy_field h f a out) as [[u|e] out1] eqn:W1; [|discriminate]. destruct u.
    assert (Sz : mm_min mm = span_field f) by (apply (proj2 min_is_span); [now destruct f|exact M]).
    pose proof (proj2 span_nonneg_all f) as P0.
    assert (P1 : 0 <= span_field f) by (apply P0; now destruct f). clear P0.
    specialize (IH F2 n eq_refl ltac:(lia) out1 out' W).
    assert (U : mm_is_unbounded mm = false) by (unfold mm_is_unbounded, mm_is_fixed in *; lia).
    assert (L : zlen out1 - zlen out = mm_min mm); [|lia].
    destruct f as [k m d|m| | | | |]; try easy; cbn [lazy_field_ok] in Hf; cbn [fits_field] in F1; cbn [min_max_field] in M; cbn [write_lazy_field] in W1.
    + destruct (lookup a k); [|discriminate]. cbn [write_field] in W1. eapply fixed_size_exact; eauto. now apply contained_honest.
    + cbn [write_field] in W1. eapply fixed_size_exact; eauto. now apply contained_honest.
Qed.
Lemma instantiate_off h cls cctx k fs o o' : contained_fields fs -> instantiate h cls cctx k fs o = (Ok tt, o') -> same_off (flat_map stored_names fs) (lo_attrs o) (lo_attrs o').
Proof.
  intros C E. unfold instantiate in E. destruct (pending k (lo_data o)) as [[data c]|]; [|injection E as <-; intros n _; reflexivity].
  destruct (stream_of_ok data) as [Od _]. destruct (group_local h fs C cls cctx c c (stream_of data) (stream_of data) Od Od eq_refl) as (r & j & vals & V1 & _ & _ & Ko).
  rewrite V1 in E. destruct r as [[]|e]; [|discriminate]. injection E as <-. cbn [lo_attrs]. destruct (Ko tt eq_refl) as [_ N].
  intros n Hn. symmetry. apply set_all_other. now rewrite N.
Qed.
Lemma write_items_off h cls cctx : forall l j o out o' out', Forall (item_ok h) l -> write_items h cls cctx j l (o, out) = (Ok tt, (o', out')) ->
  same_off (flat_map group_names l) (lo_attrs o) (lo_attrs o').
Proof.
  induction l as [|i l IH]; intros j o out o' out' K E; [injection E as <- <-; intros n _; reflexivity|].
  inversion K as [|? ? Ki Kl]; subst. cbn [write_items] in E. unfold sbind, write_item at 1 in E. cbn [fst snd] in E. destruct i as [f|fs].
  - destruct (write_field h f (lo_attrs o) out) as [[u|e] out1]; [|discriminate]. exact (IH _ _ _ _ _ Kl E).
  - destruct (instantiate h cls cctx j fs o) as [[[]|e] o1] eqn:I1; [|discriminate]. destruct (write_lazy_fields h fs (lo_attrs o1) out) as [[u|e] out1]; [|discriminate].
    pose proof (instantiate_off h cls cctx j fs o o1 (contained_lazy fs (proj1 Ki)) I1) as S1. pose proof (IH _ _ _ _ _ Kl E) as S2.
    intros n Hn. cbn [flat_map group_names] in Hn. rewrite S1, S2; [reflexivity|intros X; apply Hn, in_or_app; now right|intros X; apply Hn, in_or_app; now left].
Qed.
Lemma one_field h f a out out' st : fits_field st f a -> write_field h f a out = (Ok tt, out') -> sizeof_field f a = Ok (zlen out' - zlen out).
Proof. intros F W. destruct (proj2 (size_all h) f st a out out' F W) as (n & L & _ & S & _). rewrite S. f_equal. lia. Qed.

Lemma items_written h cls cctx : forall l j o out o' out', Forall (item_ok h) l -> NoDup (flat_map item_names l) ->
  (forall fs size, In (ILazy fs) l -> lazy_size fs = Ok size -> size < maxsize) ->
  Forall (fun i => fits_field true (eager i) (lo_attrs o')) l ->
  write_items h cls cctx j l (o, out) = (Ok tt, (o', out')) -> items_sizeof l (lo_attrs o') = Ok (zlen out' - zlen out).
Proof.
  induction l as [|i l IH]; intros j o out o' out' K N B F E; [injection E as <- <-; cbn; f_equal; lia|].
  inversion K as [|? ? Ki Kl]; subst. inversion F as [|? ? Fi Fl]; subst. cbn [flat_map] in N. pose proof (nodup_app_r _ _ N) as Nl.
  assert (Bl : forall fs size, In (ILazy fs) l -> lazy_size fs = Ok size -> size < maxsize) by (intros fs size H; apply B; now right).
  assert (Out : forall n, In n (stored_names (eager i)) -> ~ In n (flat_map group_names l)).
  { intros n Hn G. clear - N Hn G. assert (A : In n (item_names i)) by (unfold item_names; apply in_or_app; now left).
    assert (G' : In n (flat_map item_names l)).
    { apply in_flat_map in G as ([f|fs] & G1 & G2); [destruct G2|]. apply in_flat_map. exists (ILazy fs). split; [exact G1|]. unfold item_names. apply in_or_app. left. exact G2. }
    revert A. induction (item_names i) as [|x r IH]; [easy|]. cbn [app] in N. inversion N as [|? ? N1 N2]; subst. intros [->|A]; [apply N1, in_or_app; now right|now apply IH]. }
  cbn [write_items] in E. unfold sbind, write_item at 1 in E. cbn [fst snd] in E. destruct i as [f|fs].
  - destruct (write_field h f (lo_attrs o) out) as [[[]|e] out1] eqn:W; [|discriminate].
    pose proof (write_items_off h cls cctx l (S j) o out1 o' out' Kl E) as Off. pose proof (IH _ _ _ _ _ Kl Nl Bl Fl E) as R. cbn [items_sizeof eager] in *.
    assert (Sm : same_on (stored_names f) (lo_attrs o') (lo_attrs o)) by (intros n Hn; symmetry; apply Off, Out, Hn).
    rewrite (sizeof_names f _ _ Sm), (one_field h f (lo_attrs o) out out1 true (fits_names true f _ _ Sm Fi) W). cbn [rbind]. rewrite R. cbn [rbind]. f_equal. lia.
  - destruct (instantiate h cls cctx j fs o) as [[[]|e] o1] eqn:I1; [|discriminate]. destruct (write_lazy_fields h fs (lo_attrs o1) out) as [[[]|e] out1] eqn:W; [|discriminate].
    pose proof (write_items_off h cls cctx l (S j) o1 out1 o' out' Kl E) as Off. pose proof (IH _ _ _ _ _ Kl Nl Bl Fl E) as R. cbn [items_sizeof eager] in *.
    destruct Ki as (Kf & size & Ks & _). rewrite Ks. cbn [rbind]. rewrite R. cbn [rbind]. f_equal.
    assert (zlen out1 = zlen out + size); [|lia]. apply (lazy_written h fs (lo_attrs o1) Kf); [|exact Ks|apply (B fs); [now left|exact Ks]|exact W].
    assert (Sm : same_on (stored_names (FGroup fs)) (lo_attrs o') (lo_attrs o1)) by (intros n Hn; symmetry; apply Off, Out, Hn).
    pose proof (fits_names true (FGroup fs) _ _ Sm Fi) as Fg. cbn [fits_field] in Fg. clear - Fg. induction fs as [|f r IH]; [constructor|]. destruct Fg as [F1 F2]. constructor; auto.
Qed.
(** The bytes an object converts to are as many as sizeof says, before and after the conversion. *)
Lemma items_names_same h l a1 a2 : Forall (item_ok h) l -> (forall f, In (IField f) l -> same_on (stored_names f) a1 a2) -> items_sizeof l a1 = items_sizeof l a2.
Proof.
  induction 1 as [|i l Ki Kl IH]; intros S; [reflexivity|]. destruct i as [f|fs]; cbn [items_sizeof].
  - rewrite (sizeof_names f a1 a2) by (apply S; now left). now rewrite IH by (intros g Hg; apply S; now right).
  - now rewrite IH by (intros g Hg; apply S; now right).
Qed.
Theorem lazy_sizeof_exact h cls cctx items o bytes o' : Forall (item_ok h) items -> NoDup (flat_map item_names items) ->
  (forall fs size, In (ILazy fs) items -> lazy_size fs = Ok size -> size < maxsize) ->
  lazy_to_bytes h cls cctx items o = (Ok bytes, o') -> Forall (fun i => fits_field true (eager i) (lo_attrs o')) items ->
  lazy_sizeof items o = (Ok (zlen bytes), o) /\ lazy_sizeof items o' = (Ok (zlen bytes), o').
Proof.
  intros K N B E F. unfold lazy_to_bytes in E. destruct (write_items h cls cctx 0 items (o, [])) as [[[]|e] [o1 out]] eqn:W; [|discriminate]. injection E as -> ->.
  pose proof (items_written h cls cctx items 0 o [] o' bytes K N B F W) as R. change (zlen []) with 0 in R. rewrite Z.sub_0_r in R.
  unfold lazy_sizeof. split; [|now rewrite R]. f_equal. rewrite <- R. apply (items_names_same h items _ _ K). intros f Hf n Hn.
  apply (write_items_off h cls cctx items 0 o [] o' bytes K W). intros G. apply In_nth_error in Hf as (j & Hj). apply in_flat_map in G as ([g|fs] & G1 & G2); [destruct G2|].
  apply In_nth_error in G1 as (k & Hk). exact (field_not_lazy items N j f k fs n Hj Hk Hn G2).
Qed.

(** ** Names of lazy containers *)
Lemma owner_at n pre : (forall fs, In (ILazy fs) pre -> Forall (fun f => ~ declares n f) fs) -> forall fs post k, Exists (declares n) fs ->
  owner k (pre ++ ILazy fs :: post) n = Some ((k + List.length pre)%nat, fs).
Proof.
  induction pre as [|i pre IH]; intros Hp fs post k Hx.
  - cbn [app owner List.length]. rewrite Nat.add_0_r. assert (E : existsb (fun f => match lazy_name f with Some n' => String.eqb n' n | None => false end) fs = true).
    { apply existsb_exists. apply Exists_exists in Hx as (f & H1 & H2). exists f. split; [exact H1|]. destruct f; cbn [declares lazy_name] in *; try easy; subst; apply String.eqb_refl. }
    now rewrite E.
  - cbn [app List.length]. replace (k + S (List.length pre))%nat with (S k + List.length pre)%nat by lia. destruct i as [f|fs']; cbn [owner].
    + apply IH; [|exact Hx]. intros g Hg. apply Hp. now right.
    + assert (E : existsb (fun f => match lazy_name f with Some n' => String.eqb n' n | None => false end) fs' = false).
      { apply not_true_iff_false. intros E. apply existsb_exists in E as (f & H1 & H2). pose proof (proj1 (Forall_forall _ _) (Hp fs' (or_introl eq_refl)) f H1) as H3.
        apply H3. destruct f; cbn [declares lazy_name] in *; try discriminate; now apply String.eqb_eq. }
      rewrite E. apply IH; [|exact Hx]. intros g Hg. apply Hp. now right.
Qed.
Theorem set_declared h cls cctx pre fs post n v o : (forall gs, In (ILazy gs) pre -> Forall (fun f => ~ declares n f) gs) -> Exists (declares n) fs ->
  pending (List.length pre) (lo_data o) = None ->
  exists o', lazy_set h cls cctx (pre ++ ILazy fs :: post) n v o = (Ok tt, o') /\ fst (lazy_get h cls cctx (pre ++ ILazy fs :: post) n o') = Ok v.
Proof. intros Hp Hx P. apply (set_lazy_any h cls cctx _ n (List.length pre) fs); [now apply (owner_at n pre Hp fs post 0)|exact P]. Qed.
