(** Lazy containers and extra arguments of create_from_stream: the proofs. *)
From Verif Require Import Base BaseProofs IntCodec BitStringIO Stream StreamSpec StreamProofs MinMax Marshal MarshalInd MarshalSpec
  FieldSpec FieldFacts SizeSpec SizeFacts SimFacts Lazy LazySpec LazyProofs LazyFacts ReadArgs ReadArgsSpec ReadArgsFacts LazyArgs.
From Coq Require Import ZArith List Bool String Lia ZifyBool ZifyNat.
Import ListNotations.
Open Scope Z_scope.

Lemma contained_unconditional :
  (forall m, self_contained m -> unconditional m) /\ (forall f, self_contained_field f -> unconditional_field f).
Proof.
  apply marshal_field_ind; try (intros; exact I); try (intros; cbn [self_contained self_contained_field unconditional unconditional_field] in *; tauto).
  - intros cls cctx fs F C. cbn [unconditional]. rewrite unc_fix. rewrite contained_struct in C. clear cls cctx. induction F as [|f fs E _ IH]; constructor; cbn [contained_fields] in C; tauto.
  - intros fs F C. cbn [unconditional_field]. rewrite unc_fix. rewrite contained_group in C. induction F as [|f fs E _ IH]; constructor; cbn [contained_fields] in C; tauto.
Qed.

Lemma contained_reads h args kw m : self_contained m -> distinct_names m -> no_numbers m -> forall c s, read_kw h args kw m c s = read h m c s.
Proof. intros C D N c s. apply (proj1 (read_ignores h args kw) m); auto. now apply contained_unconditional. Qed.

Lemma lazy_group_same h args kw cls cctx fs : Forall lazy_field_ok fs -> Forall distinct_in fs -> Forall no_numbers_in fs ->
  forall c st, read_field_kw h args kw cls cctx (FGroup fs) c st = read_fields h cls cctx fs c st.
Proof.
  intros K D N c. cbn [read_field_kw].
  induction K as [|f fs Hf K IH]; intros st; [reflexivity|]. inversion D; inversion N; subst. rewrite read_fields_cons. apply sbind_same; [|intros x t; now apply IH].
  destruct f as [n m d|m| | | | |]; try contradiction; cbn [lazy_field_ok distinct_in no_numbers_in] in *; cbn [read_field_kw read_field].
  - apply sbind_same; [|reflexivity]. apply on_stream_same. intros s. now apply contained_reads.
  - apply sbind_same; [|reflexivity]. apply on_stream_same. intros s. now apply contained_reads.
Qed.

Definition item_default (kw : attrs) (i : item) : item := match i with IField f => IField (field_with_default kw f) | ILazy fs => ILazy fs end.

Section Same.
Variables (h : host) (args : list value) (kw : attrs) (cls : name) (cctx : option ctx) (items : list item).
Hypothesis Hok : Forall (item_ok h) items.
Hypothesis Hdef : Forall (item_ok h) (map (item_default kw) items).
Hypothesis Hnd : NoDup (flat_map item_names items).
Hypothesis Hdist : Forall distinct_in (map eager items).
Hypothesis Hnum : Forall no_numbers_in (map eager items).

Lemma group_parts k fs : nth_error items k = Some (ILazy fs) -> Forall lazy_field_ok fs /\ Forall distinct_in fs /\ Forall no_numbers_in fs.
Proof.
  intros H. apply nth_error_In in H. rewrite Forall_forall in Hok, Hdist, Hnum. specialize (Hok _ H). destruct Hok as [L _].
  assert (J : In (eager (ILazy fs)) (map eager items)) by now apply in_map. specialize (Hdist _ J). specialize (Hnum _ J).
  cbn [eager distinct_in no_numbers_in] in Hdist, Hnum. rewrite distinct_fix in Hdist. rewrite plain_fix in Hnum. auto.
Qed.

Lemma instantiate_same k fs : nth_error items k = Some (ILazy fs) -> forall o, instantiate_kw h args kw cls cctx k fs o = instantiate h cls cctx k fs o.
Proof.
  intros H o. destruct (group_parts k fs H) as (L & D & N). unfold instantiate_kw, instantiate. destruct (pending k (lo_data o)) as [[data c]|]; [|reflexivity].
  now rewrite lazy_group_same.
Qed.
Lemma owner_at n k fs : owner 0 items n = Some (k, fs) -> nth_error items k = Some (ILazy fs).
Proof. intros Ow. destruct (owner_some items n (ok_lazy h items Hok) _ _ _ Ow) as (_ & Hk & _). now rewrite Nat.sub_0_r in Hk. Qed.
Lemma write_same : forall l j st, skipn j items = l -> write_items_kw h args kw cls cctx j l st = write_items h cls cctx j l st.
Proof.
  induction l as [|i l IH]; intros j st El; [reflexivity|]. destruct (skipn_nth _ _ _ _ El) as [Hi El']. cbn [write_items_kw write_items].
  apply sbind_same; [|intros x t; now apply IH]. destruct i as [f|fs]; [reflexivity|]. unfold write_item_kw, write_item. now rewrite (instantiate_same j fs Hi).
Qed.
Lemma use_same u o : use_lazy_kw h args kw cls cctx items u o = use_lazy h cls cctx items u o.
Proof.
  destruct u as [n|n v|]; cbn [use_lazy_kw use_lazy].
  - unfold lazy_get_kw. destruct (owner 0 items n) as [[k fs]|] eqn:Ow; [|reflexivity]. unfold lazy_get. rewrite Ow. unfold sbind.
    now rewrite (instantiate_same k fs (owner_at n k fs Ow)).
  - unfold lazy_set_kw. destruct (owner 0 items n) as [[k fs]|] eqn:Ow; [|reflexivity]. unfold lazy_set. rewrite Ow. unfold sbind.
    now rewrite (instantiate_same k fs (owner_at n k fs Ow)).
  - unfold lazy_to_bytes_kw, lazy_to_bytes. now rewrite write_same.
Qed.
Lemma history_same us : forall o, history_lazy_kw h args kw cls cctx items us o = history_lazy h cls cctx items us o.
Proof.
  induction us as [|u us IH]; intros o; [reflexivity|]. cbn [history_lazy_kw history_lazy]. rewrite use_same. destruct (use_lazy h cls cctx items u o) as [x o']. now rewrite IH.
Qed.

(** ** Reading *)
Notation items' := (map (item_default kw) items).
Lemma read_items_same c : forall l j st, Forall distinct_in (map eager l) -> Forall no_numbers_in (map eager l) ->
  read_items_kw h args kw cls cctx c j l st = read_items h cls cctx c j (map (item_default kw) l) st.
Proof.
  induction l as [|i l IH]; intros j st D N; [reflexivity|]. cbn [map] in D, N. inversion D; inversion N; subst. cbn [read_items_kw read_items map].
  apply sbind_same; [|intros x t; now apply IH]. destruct i as [f|fs]; [|reflexivity]. cbn [item_default eager read_item_kw] in *. unfold read_item.
  now rewrite (proj2 (read_as_defaults h args kw) f).
Qed.
Lemma read_eager_same c l : incl l items -> forall st,
  (fix go (fs : list field) : stM rstate unit := match fs with [] => sret tt | f :: r => do read_field_kw h args kw cls cctx f c ;; go r end) (map eager l) st
  = read_fields h cls cctx (map eager (map (item_default kw) l)) c st.
Proof.
  induction l as [|i l IH]; intros J st; [reflexivity|]. cbn [map]. rewrite read_fields_cons.
  apply sbind_same; [|intros x t; apply IH; intros y Hy; apply J; now right].
  assert (Hi : In i items) by (apply J; now left). destruct (In_nth_error _ _ Hi) as (k & Hk).
  destruct i as [f|fs]; cbn [item_default eager].
  - assert (Q : In (eager (IField f)) (map eager items)) by now apply in_map. rewrite Forall_forall in Hdist, Hnum.
    apply (proj2 (read_as_defaults h args kw) f); [exact (Hdist _ Q)|exact (Hnum _ Q)].
  - destruct (group_parts k fs Hk) as (L & D & N). rewrite read_group. now apply lazy_group_same.
Qed.

Lemma nth_default k fs : nth_error items' k = Some (ILazy fs) <-> nth_error items k = Some (ILazy fs).
Proof.
  rewrite nth_error_map. destruct (nth_error items k) as [[f|gs]|]; cbn [option_map item_default]; split; intros E; try discriminate; congruence.
Qed.
Lemma group_names_default : flat_map group_names items' = flat_map group_names items.
Proof. induction items as [|i l IH]; [reflexivity|]. cbn [map flat_map]. rewrite IH; [now destruct i| | | | |]; clear IH.
  - now inversion Hok. - cbn [map] in Hdef. now inversion Hdef. - cbn [flat_map] in Hnd. now apply nodup_app_r in Hnd.
  - cbn [map] in Hdist. now inversion Hdist. - cbn [map] in Hnum. now inversion Hnum.
Qed.
Lemma names_items : flat_map item_names items' = flat_map item_names items.
Proof.
  clear. induction items as [|i l IH]; [reflexivity|]. cbn [map flat_map]. rewrite IH. f_equal. destruct i as [f|fs]; [|reflexivity].
  unfold item_names. cbn [item_default eager]. now rewrite names_default, class_attrs_default.
Qed.

Lemma lazy_kw_off fs : Forall lazy_field_ok fs -> forall L, incl (flat_map stored_names fs) L -> forall a a2, same_off L a a2 -> same_off L (fold_left (prepare_lazy kw) fs a) a2.
Proof.
  induction 1 as [|f fs Hf _ IH]; intros L G a a2 S; [exact S|]. cbn [fold_left flat_map] in *. apply incl_app_inv in G as [G1 G2]. apply IH; [exact G2|].
  destruct f as [n m d|m| | | | |]; try contradiction; cbn [prepare_lazy lazy_name]; [|exact S].
  destruct (lookup kw n) as [v|]; [|exact S]. intros n' Hn. rewrite lookup_set_other; [now apply S|]. intros <-. apply Hn, G1. now left.
Qed.
Lemma new_off_kw : same_off (flat_map group_names items) (lo_attrs (lazy_new items kw)) (new_attrs (map eager items) kw).
Proof.
  unfold lazy_new, new_attrs. cbn [lo_attrs]. rewrite (items_class items (ok_lazy h items Hok)).
  assert (S : same_off (flat_map group_names items) (class_attrs (map eager items)) (class_attrs (map eager items))) by (intros n _; reflexivity).
  revert S. generalize (class_attrs (map eager items)) at 1 3 as a1. generalize (class_attrs (map eager items)) as a2.
  assert (G : incl (flat_map group_names items) (flat_map group_names items)) by apply incl_refl. revert G.
  generalize (flat_map group_names items) at 2 3 4 as L. pose proof Hok as H. clear Hok Hdef Hnd Hdist Hnum. induction H as [|i r Hi _ IH]; intros L G a2 a1 S; [exact S|].
  cbn [map fold_left flat_map] in *. apply incl_app_inv in G as [G1 G2]. apply IH; [exact G2|]. destruct i as [f|fs]; cbn [prepare_item eager].
  - now apply prepare_off.
  - destruct Hi as [Hi _]. cbn [group_names prepare_instance] in *. apply lazy_kw_off; [exact Hi|exact G1|].
    clear - S Hi G1. revert a2 S. induction Hi as [|f r' Hf _ IH']; intros a2 S; [exact S|]. cbn [fold_left flat_map] in *. apply incl_app_inv in G1 as [G1 G3].
    apply IH'; [exact G3|]. intros n Hn. rewrite prepare_instance_other; [now apply S|]. intros Hin. apply Hn. now apply G1.
Qed.

Lemma lazy_kw_is_eager c s E s' : stream_ok s -> read_kw h args kw (MStruct cls cctx (map eager items)) c s = (Ok (VObj cls E), s') ->
  exists o, lazy_read_kw h args kw cls cctx items c s = (Ok o, s')
    /\ forall us, history_lazy_kw h args kw cls cctx items us o = history_eager h cls cctx (map eager items) us E.
Proof.
  intros O Er. cbn [read_kw] in Er. rewrite (read_eager_same c items (incl_refl _)) in Er.
  destruct (read_fields h cls cctx (map eager items') c (s, new_attrs (map eager items) kw)) as [[[]|e] [s1 E1]] eqn:X; [|discriminate].
  injection Er as -> ->.
  assert (Hnd' : NoDup (flat_map item_names items')) by now rewrite names_items.
  destruct (read_rest h cls cctx items' Hnd' c Hdef items' 0 s (new_attrs (map eager items) kw) (lazy_new items kw) s' E eq_refl O) as (o & Y & R); [|exact X|].
  - split; [rewrite group_names_default; exact new_off_kw|lia|]. intros k d P. discriminate.
  - exists o. split; [unfold lazy_read_kw; now rewrite read_items_same, Y|]. intros us. rewrite history_same. apply history_refines; [exact (ok_lazy h items Hok)|exact Hnd|].
    pose proof (reading_refines h cls cctx items' E o R) as [P1 P2 P3]. split.
    + intros k data c' P. destruct (P1 k data c' P) as (fs & Hk & Dc). exists fs. split; [now apply nth_default|exact Dc].
    + intros n H. apply P2. intros k fs Hk. exact (H k fs (proj1 (nth_default k fs) Hk)).
    + intros k fs n Hk. exact (P3 k fs n (proj2 (nth_default k fs) Hk)).
Qed.
End Same.

(** ** Without extra arguments *)
Lemma group_without h cls cctx fs c st : read_field_kw h [] [] cls cctx (FGroup fs) c st = read_fields h cls cctx fs c st.
Proof. rewrite (proj2 (read_without h)). apply read_group. Qed.
Lemma lazy_none h cls cctx items :
  (forall c s, lazy_read_kw h [] [] cls cctx items c s = lazy_read h cls cctx items c s)
  /\ forall us o, history_lazy_kw h [] [] cls cctx items us o = history_lazy h cls cctx items us o.
Proof.
  assert (I : forall k fs o, instantiate_kw h [] [] cls cctx k fs o = instantiate h cls cctx k fs o).
  { intros k fs o. unfold instantiate_kw, instantiate. destruct (pending k (lo_data o)) as [[data c]|]; [|reflexivity]. now rewrite group_without. }
  split.
  - intros c s. unfold lazy_read_kw, lazy_read.
    assert (R : forall l j st, read_items_kw h [] [] cls cctx c j l st = read_items h cls cctx c j l st).
    { induction l as [|i l IH]; intros j st; [reflexivity|]. cbn [read_items_kw read_items]. apply sbind_same; [|intros x t; apply IH].
      destruct i as [f|fs]; [|reflexivity]. cbn [read_item_kw]. unfold read_item. now rewrite (proj2 (read_without h)). }
    now rewrite R.
  - assert (W : forall l j st, write_items_kw h [] [] cls cctx j l st = write_items h cls cctx j l st).
    { induction l as [|i l IH]; intros j st; [reflexivity|]. cbn [write_items_kw write_items]. apply sbind_same; [|intros x t; apply IH].
      destruct i as [f|fs]; [reflexivity|]. unfold write_item_kw, write_item. now rewrite I. }
    induction us as [|u us IH]; intros o; [reflexivity|]. cbn [history_lazy_kw history_lazy].
    assert (U : use_lazy_kw h [] [] cls cctx items u o = use_lazy h cls cctx items u o).
    { destruct u as [n|n v|]; cbn [use_lazy_kw use_lazy].
      - unfold lazy_get_kw. destruct (owner 0 items n) as [[k fs]|] eqn:Ow; [|reflexivity]. unfold lazy_get. rewrite Ow. unfold sbind. now rewrite I.
      - unfold lazy_set_kw. destruct (owner 0 items n) as [[k fs]|] eqn:Ow; [|reflexivity]. unfold lazy_set. rewrite Ow. unfold sbind. now rewrite I.
      - unfold lazy_to_bytes_kw, lazy_to_bytes. now rewrite W. }
    rewrite U. destruct (use_lazy h cls cctx items u o) as [x o']. now rewrite IH.
Qed.

(** ** Numbers: the error is deferred *)
Lemma lazy_number h args kw cls cctx fs n : extra args kw = true -> Forall lazy_field_ok fs -> In n (flat_map stored_names fs) ->
  (exists size, lazy_size fs = Ok size /\ size <= maxsize) -> Exists has_number_in fs ->
  forall c s, stream_ok s -> exists o s1 e, lazy_read_kw h args kw cls cctx [ILazy fs] c s = (Ok o, s1)
    /\ fst (lazy_get_kw h args kw cls cctx [ILazy fs] n o) = Err e
    /\ (forall v, fst (lazy_set_kw h args kw cls cctx [ILazy fs] n v o) = Err e)
    /\ fst (lazy_to_bytes_kw h args kw cls cctx [ILazy fs] o) = Err e
    /\ (forall s', exists e' s'', read_kw h args kw (MStruct cls cctx [FGroup fs]) c s' = (Err e', s'')).
Proof.
  intros X Kf Hn (size & Ks & Kb) Hx c s O. pose proof (contained_lazy fs Kf) as Cf. pose proof (lazy_size_span fs Cf size Ks) as Es.
  assert (N0 : 0 <= span_fields fs) by (apply span_fields_nonneg; [apply Forall_forall; intros; now apply span_nonneg_all|exact Cf]).
  assert (G : has_number_in (FGroup fs)).
  { cbn [has_number_in]. clear - Hx. induction Hx as [f fs H|f fs H IH]; [now left|right; exact IH]. }
  set (data := firstn (Z.to_nat size) (rest s)).
  set (o := mkLobj (lo_attrs (lazy_new [ILazy fs] kw)) [(0%nat, (data, c))]).
  destruct (proj2 (numbers_fail h args kw X) (FGroup fs) G cls cctx c (stream_of data, lo_attrs o)) as (e & [t a] & F).
  exists o, (consume (Nat.min (Z.to_nat size) (List.length (rest s))) s), e.
  assert (I : instantiate_kw h args kw cls cctx 0 fs o = (Err e, mkLobj a [])) by (unfold instantiate_kw, o; cbn [lo_data pending Nat.eqb]; fold o; now rewrite F).
  assert (Ow : owner 0 [ILazy fs] n = Some (0%nat, fs)) by (cbn [owner]; now rewrite (proj2 (lazy_names_in fs n Kf) Hn)).
  split; [|split; [|split; [|split]]].
  - unfold lazy_read_kw. cbn [read_items_kw]. unfold sbind, read_item_kw, read_item. cbn [fst snd]. rewrite Ks, sread_ok by (auto; lia). reflexivity.
  - unfold lazy_get_kw. rewrite Ow. unfold sbind. now rewrite I.
  - intros v. unfold lazy_set_kw. rewrite Ow. unfold sbind. now rewrite I.
  - unfold lazy_to_bytes_kw. cbn [write_items_kw]. unfold sbind, write_item_kw. cbn [fst snd]. now rewrite I.
  - intros s'. apply (proj1 (numbers_fail h args kw X) (MStruct cls cctx [FGroup fs])). cbn [has_number]. now left.
Qed.

(** When the number comes first the error is TypeError, and afterwards the attributes are what the arguments say. *)
Lemma lookup_lazy_new fs kw : Forall lazy_field_ok fs -> forall a n, In n (flat_map stored_names fs) -> lookup a n = None ->
  lookup (fold_left (prepare_lazy kw) fs a) n = lookup kw n.
Proof.
  assert (Off : forall fs, Forall lazy_field_ok fs -> forall a n, lookup a n = lookup kw n -> lookup (fold_left (prepare_lazy kw) fs a) n = lookup kw n).
  { induction 1 as [|f r Hf _ IH]; intros a n E; [exact E|]. cbn [fold_left]. apply IH. destruct f as [m0 m d|m| | | | |]; try contradiction; cbn [prepare_lazy lazy_name prepare_instance]; [|exact E].
    destruct (lookup kw m0) as [v|] eqn:Ev; [|exact E]. destruct (String.string_dec m0 n) as [<-|N]; [rewrite lookup_set_same; congruence|now rewrite lookup_set_other]. }
  induction 1 as [|f r Hf K IH]; intros a n Hn La; [contradiction|]. cbn [fold_left flat_map] in *.
  destruct (lookup kw n) as [w|] eqn:Ew.
  - destruct f as [m0 m d|m| | | | |]; try contradiction; cbn [prepare_lazy lazy_name stored_names app prepare_instance] in *.
    + destruct (String.string_dec m0 n) as [<-|N].
      * rewrite Ew. rewrite (Off r K); [exact Ew|rewrite lookup_set_same; congruence].
      * destruct Hn as [?|Hn]; [contradiction|]. rewrite <- Ew. rewrite IH; auto. destruct (lookup kw m0); [now rewrite lookup_set_other|exact La].
    + rewrite <- Ew. now apply IH.
  - rewrite <- Ew. apply (Off r K).
    destruct f as [m0 m d|m| | | | |]; try contradiction; cbn [prepare_lazy lazy_name prepare_instance]; [|congruence].
    destruct (lookup kw m0) as [v|] eqn:Ev; [|congruence]. destruct (String.string_dec m0 n) as [<-|N]; [congruence|]. rewrite lookup_set_other by exact N. congruence.
Qed.
Lemma lazy_number_first h args kw cls cctx n0 m d fs n : extra args kw = true -> (exists f, m = MInt f) \/ (exists f, m = MFloat f) ->
  Forall lazy_field_ok fs -> In n (flat_map stored_names (FField n0 m d :: fs)) ->
  (exists size, lazy_size (FField n0 m d :: fs) = Ok size /\ size <= maxsize) ->
  forall c s, stream_ok s -> let items := [ILazy (FField n0 m d :: fs)] in
  exists o s1 o', lazy_read_kw h args kw cls cctx items c s = (Ok o, s1)
    /\ lazy_get_kw h args kw cls cctx items n o = (Err TypeError, o')
    /\ lazy_get_kw h args kw cls cctx items n o' = (match lookup kw n with Some v => Ok v | None => Err KeyError end, o').
Proof.
  intros X Hm Kf0 Hn (size & Ks & Kb) c s O items. set (fs1 := FField n0 m d :: fs) in *.
  assert (Kf : Forall lazy_field_ok fs1) by (constructor; [destruct Hm as [[f ->]|[f ->]]; exact I|exact Kf0]).
  pose proof (contained_lazy fs1 Kf) as Cf. pose proof (lazy_size_span fs1 Cf size Ks) as Es.
  assert (N0 : 0 <= span_fields fs1) by (apply span_fields_nonneg; [apply Forall_forall; intros; now apply span_nonneg_all|exact Cf]).
  set (data := firstn (Z.to_nat size) (rest s)). set (a := lo_attrs (lazy_new items kw)).
  set (o := mkLobj a [(0%nat, (data, c))]). exists o, (consume (Nat.min (Z.to_nat size) (List.length (rest s))) s), (mkLobj a []).
  assert (Ow : owner 0 items n = Some (0%nat, fs1)) by (cbn [owner items]; now rewrite (proj2 (lazy_names_in fs1 n Kf) Hn)).
  assert (F : read_field_kw h args kw cls cctx (FGroup fs1) c (stream_of data, a) = (Err TypeError, (stream_of data, a))).
  { cbn [read_field_kw fs1]. destruct Hm as [[f ->]|[f ->]]; cbn [read_kw]; rewrite X; reflexivity. }
  split; [|split].
  - unfold lazy_read_kw. cbn [read_items_kw items]. unfold sbind, read_item_kw, read_item. cbn [fst snd]. rewrite Ks, sread_ok by (auto; lia). reflexivity.
  - unfold lazy_get_kw. rewrite Ow. unfold sbind, instantiate_kw. cbn [o lo_data pending Nat.eqb lo_attrs]. now rewrite F.
  - unfold lazy_get_kw. rewrite Ow. unfold sbind, instantiate_kw. cbn [lo_data pending]. unfold sget, slift. cbn [lo_attrs].
    assert (La : lookup a n = lookup kw n).
    { unfold a, lazy_new, items. cbn [fold_left prepare_item lo_attrs]. apply lookup_lazy_new; auto.
      assert (Z0 : flat_map item_class_attrs [ILazy fs1] = []); [|now rewrite Z0].
      cbn [flat_map item_class_attrs]. rewrite app_nil_r. clear - Kf. induction Kf as [|f r Hf _ IH]; [reflexivity|]. cbn [flat_map]. rewrite IH. destruct f; try contradiction; reflexivity. }
    rewrite La. now destruct (lookup kw n).
Qed.
Lemma lazy_args h args kw cls cctx items : Forall (item_ok h) items -> (forall f, In (IField f) items -> blind h (field_with_default kw f)) ->
  distinct_names (MStruct cls cctx (map eager items)) -> no_numbers (MStruct cls cctx (map eager items)) -> NoDup (flat_map item_names items) ->
  forall c s E s', stream_ok s -> read_kw h args kw (MStruct cls cctx (map eager items)) c s = (Ok (VObj cls E), s') ->
  exists o, lazy_read_kw h args kw cls cctx items c s = (Ok o, s')
    /\ forall us, history_lazy_kw h args kw cls cctx items us o = history_eager h cls cctx (map eager items) us E.
Proof.
  intros K B [_ D] N Nd c s E s'. rewrite distinct_fix in D. cbn [no_numbers] in N. rewrite plain_fix in N.
  apply (lazy_kw_is_eager h args kw cls cctx items K); auto.
  rewrite Forall_forall in K. apply Forall_forall. intros i Hi. apply in_map_iff in Hi as ([f|fs] & <- & Hi); cbn [item_default]; [now apply B|exact (K _ Hi)].
Qed.
