(** Lemmas for property C112. *)
From Verif Require Import Base IntCodec Stream MinMax Marshal MarshalInd TypeSpec.
From Coq Require Import ZArith List Bool String Lia.
Import ListNotations.
Open Scope Z_scope.

Lemma bind_ok {S A B} (m : stM S A) (f : A -> stM S B) s b s' :
  sbind m f s = (Ok b, s') -> exists a s1, m s = (Ok a, s1) /\ f a s1 = (Ok b, s').
Proof. unfold sbind. destruct (m s) as [[a|e] s1]; intros H; [eauto|discriminate]. Qed.
Lemma lift_ok {S A} (r : res A) (s : S) a s' : slift r s = (Ok a, s') -> r = Ok a /\ s' = s.
Proof. unfold slift. intros H. inversion H; auto. Qed.

Lemma py_iter_elements v l : py_iter v = Ok l -> elements v l.
Proof. destruct v; cbn; intros H; inversion H; constructor. Qed.
Lemma dict_get_entry tbl v w : dict_get tbl v = Ok w -> entry tbl v w.
Proof.
  unfold dict_get. destruct (hashable v); [|discriminate].
  destruct (find _ tbl) as [[k x]|] eqn:E; intros H; inversion H; subst.
  apply find_some in E. exists k. exact E.
Qed.
Lemma field_value_of n d a : value_of n d a (field_value n d a).
Proof. unfold value_of, field_value. destruct (lookup a n); auto. Qed.
Lemma strip_bytes_kind v d p w : _strip v d p = Ok w -> forall b, w = VBytes b -> exists b', v = VBytes b'.
Proof.
  unfold _strip. intros H b ->.
  destruct d; [inversion H; subst; eauto| | |];
  destruct v, p; try discriminate H; try (inversion H; fail); eauto.
Qed.
Lemma write_value_kind v out out' : out_write_value v out = (Ok tt, out') -> exists b, v = VBytes b.
Proof. destruct v; cbn; intros H; inversion H; eauto. Qed.

Lemma bm_write_kind m : forall v s s', bm_write m v s = (Ok tt, s') -> bit_kind m v.
Proof.
  induction m; intros v s s' H; cbn [bm_write] in H.
  - apply bind_ok in H as (z & s1 & H & _). apply lift_ok in H as [H _].
    destruct v; try discriminate H. constructor.
  - constructor.
  - apply bind_ok in H as (w & s1 & H & H'). apply lift_ok in H as [H _].
    eapply bk_map; [apply dict_get_entry; exact H|]. eapply IHm; exact H'.
  - apply bind_ok in H as (z & s1 & H & _). apply lift_ok in H as [H _].
    destruct v; try discriminate H. constructor.
Qed.
Lemma write_bitfield_kind a f s s' : write_bitfield a f s = (Ok tt, s') -> bitfield_kind a f.
Proof.
  unfold write_bitfield. intros H. apply bm_write_kind in H. destruct f; cbn [bf_marshal bf_value] in H.
  - eapply bfk_field; [|exact H]. apply field_value_of.
  - now constructor.
  - now constructor.
Qed.
Lemma foreach_all {S A} (P : A -> Prop) (f : A -> stM S unit) :
  (forall x s s', f x s = (Ok tt, s') -> P x) ->
  forall l s s', sforeach l f s = (Ok tt, s') -> Forall P l.
Proof.
  intros K. induction l as [|x l IH]; intros s s' H; [constructor|]. cbn [sforeach] in H.
  apply bind_ok in H as ([] & s1 & H & H'). constructor; eauto.
Qed.
Lemma container_kind n a bs out out' :
  write_bit_container n a bs out = (Ok tt, out') -> Forall (bitfield_kind a) bs.
Proof.
  unfold write_bit_container. intros H. apply bind_ok in H as (b0 & s1 & _ & H).
  destruct (sforeach bs (write_bitfield a) b0) as [[[]|e] b1] eqn:E; [|discriminate H].
  revert E. apply foreach_all. apply write_bitfield_kind.
Qed.

Lemma kinds_forall m l : Forall (kind m) l -> kinds m l.
Proof. induction 1; constructor; auto. Qed.

Lemma array_kind h el : (forall v out out', write h el v out = (Ok tt, out') -> kind el v) ->
  forall l out out', sforeach l (write h el) out = (Ok tt, out') -> kinds el l.
Proof. intros K l out out' H. apply kinds_forall. revert H. now apply foreach_all. Qed.

Lemma fields_kind_of h a fs : Forall (fun f => forall a out out', write_field h f a out = (Ok tt, out') -> field_kind a f) fs ->
  forall out out', write_fields h fs a out = (Ok tt, out') -> fields_kind a fs.
Proof.
  induction 1 as [|f r K _ IH]; intros out out' H; [constructor|]. cbn [write_fields] in H.
  apply bind_ok in H as ([] & s1 & H & H'). constructor; eauto.
Qed.

Lemma write_kind_both h :
  (forall m v out out', write h m v out = (Ok tt, out') -> kind m v)
  /\ (forall f a out out', write_field h f a out = (Ok tt, out') -> field_kind a f).
Proof.
  apply marshal_field_ind; try (intros; constructor; fail).
  - intros f v out out' H. destruct v; try discriminate H. constructor.
  - intros f v out out' H. destruct v; try discriminate H; constructor.
  - intros sz p d _ v out out' H. cbn [write] in H.
    apply bind_ok in H as (w & s1 & H & H1). apply lift_ok in H as [H _].
    apply bind_ok in H1 as (n & s2 & _ & H1). apply bind_ok in H1 as ([] & s3 & _ & H1).
    apply write_value_kind in H1 as (b & ->). destruct (strip_bytes_kind _ _ _ _ H b eq_refl) as [b' ->].
    constructor.
  - intros sz p d v out out' H. cbn [write] in H.
    apply bind_ok in H as (w & s1 & H & H1). apply lift_ok in H as [H _].
    apply bind_ok in H1 as ([] & s2 & H1 & _).
    apply write_value_kind in H1 as (b & ->). destruct (strip_bytes_kind _ _ _ _ H b eq_refl) as [b' ->].
    constructor.
  - intros sz el _ K v out out' H. cbn [write] in H.
    apply bind_ok in H as (n & s1 & _ & H). apply bind_ok in H as ([] & s2 & _ & H).
    apply bind_ok in H as (l & s3 & H & H1). apply lift_ok in H as [H _].
    eapply k_vararr; [apply py_iter_elements; exact H|]. eapply array_kind; eauto.
  - intros n el K v out out' H. cbn [write] in H.
    apply bind_ok in H as (n' & s1 & _ & H).
    apply bind_ok in H as (l & s3 & H & H1). apply lift_ok in H as [H _].
    eapply k_fixarr; [apply py_iter_elements; exact H|]. eapply array_kind; eauto.
  - intros sz el _ K v out out' H. cbn [write] in H.
    apply bind_ok in H as (l & s3 & H & H1). apply lift_ok in H as [H _].
    apply bind_ok in H1 as (n & s1 & _ & H1). apply bind_ok in H1 as ([] & s2 & _ & H1).
    eapply k_sumarr; [apply py_iter_elements; exact H|]. eapply array_kind; eauto.
  - intros tbl m K v out out' H. cbn [write] in H.
    apply bind_ok in H as (w & s1 & H & H1). apply lift_ok in H as [H _].
    eapply k_map; [apply dict_get_entry; exact H|eauto].
  - intros cls c fs K v out out' H. destruct v; try discriminate H. rewrite write_struct in H.
    destruct (String.eqb_spec cls0 cls); [subst|discriminate H].
    constructor. eapply fields_kind_of; eauto.
  - intros key mapping d _ K Kd v out out' H. destruct v; try discriminate H. cbn [write] in H.
    enough (exists m, (In m (map snd mapping) \/ d = Some m) /\ kind m (VObj cls attrs)) as (m & I & Q)
      by (eapply k_sel; eauto).
    induction mapping as [|[k m] r IH].
    + destruct d; [|discriminate H]. exists m. split; [auto|]. cbn [opt_all] in Kd. eauto.
    + inversion K as [|? ? K1 K2]; subst. cbn [snd] in K1.
      assert (R : (exists m, (In m (map snd r) \/ d = Some m) /\ kind m (VObj cls attrs)) ->
                  exists m', (In m' (map snd ((k, m) :: r)) \/ d = Some m') /\ kind m' (VObj cls attrs)).
      { intros (m' & [I|I] & Q); exists m'; cbn; auto. }
      destruct m; try (now apply R, IH).
      destruct (String.eqb cls0 cls); [|now apply R, IH].
      eexists. split; [left; left; reflexivity|]. eapply K1; exact H.
  - intros choices func mm K v out out' H. destruct v; try discriminate H. cbn [write] in H.
    enough (exists m, In m choices /\ kind m (VObj cls attrs)) as (m & I & Q) by (eapply k_funsel; eauto).
    induction choices as [|m r IH]; [discriminate H|].
    inversion K as [|? ? K1 K2]; subst.
    assert (R : (exists m, In m r /\ kind m (VObj cls attrs)) ->
                exists m', In m' (m :: r) /\ kind m' (VObj cls attrs)).
    { intros (m' & I & Q); exists m'; cbn; auto. }
    destruct m; try (now apply R, IH).
    destruct (String.eqb cls0 cls); [|now apply R, IH].
    eexists. split; [left; reflexivity|]. eapply K1; exact H.
  - intros n m d K a out out' H. cbn [write_field] in H. eapply fk_field; [apply field_value_of|eauto].
  - intros m K a out out' H. cbn [write_field] in H. constructor. eauto.
  - intros n m k K a out out' H. cbn [write_field] in H. constructor. eauto.
  - intros n m p d K a out out' H. cbn [write_field] in H. pose proof (field_value_of n d a) as V.
    destruct (field_value n d a); [now apply fk_opt_none|..]; (eapply fk_opt; [exact V|eauto]).
  - intros fs K a out out' H. rewrite write_group in H. constructor. eapply fields_kind_of; eauto.
  - intros bs a out out' H. cbn [write_field] in H. constructor. eapply container_kind; exact H.
  - intros n bs a out out' H. cbn [write_field] in H. constructor. eapply container_kind; exact H.
Qed.
