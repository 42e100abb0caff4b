From Verif Require Import Base IntCodec BitStringIO Stream MinMax Marshal MarshalInd FieldSpec FieldFacts Lazy LazySpec LazyFacts.
From Coq Require Import ZArith List Bool String Lia.
Import ListNotations.
Open Scope Z_scope.

(** A constant inside of a group in a lazy container stays an ordinary constant. *)
Lemma no_owner n items : (forall gs f, In (ILazy gs) items -> In f gs -> ~ declares n f) -> forall k, owner k items n = None.
Proof.
  induction items as [|i r IH]; intros H k; [reflexivity|]. destruct i as [f|fs]; cbn [owner].
  - apply IH. intros gs f' I. apply H. now right.
  - replace (existsb _ fs) with false; [apply IH; intros gs f' I; apply H; now right|].
    symmetry. apply not_true_is_false. intros E. apply existsb_exists in E as (f & I & E). apply (H fs f (or_introl eq_refl) I).
    unfold declares. destruct (lazy_name f) as [n'|] eqn:L; [|discriminate]. apply String.eqb_eq in E. subst n'.
    destruct f; cbn in L |- *; congruence.
Qed.
Lemma class_lookup items fs gs n x : In (ILazy fs) items -> In (FGroup gs) fs -> In (n, x) (class_attrs gs) ->
  (forall y, In (n, y) (class_attrs (map eager items)) -> y = x) -> lookup (flat_map item_class_attrs items) n = Some x.
Proof.
  intros I G C U.
  assert (S : forall y, In (n, y) (flat_map item_class_attrs items) -> y = x).
  { intros y Y. apply U. unfold class_attrs. apply in_flat_map in Y as (i & Ii & Y). apply in_flat_map. exists (eager i). split; [now apply in_map|].
    destruct i as [f|l]; [exact Y|]. cbn [item_class_attrs] in Y. apply in_flat_map in Y as (f & If & Y). cbn [eager class_attrs_f]. apply in_flat_map. exists f. split; [exact If|].
    destruct (lazy_name f); [destruct Y|exact Y]. }
  assert (M : In (n, x) (flat_map item_class_attrs items)).
  { apply in_flat_map. exists (ILazy fs). split; [exact I|]. cbn [item_class_attrs]. apply in_flat_map. exists (FGroup gs). split; [exact G|]. exact C. }
  revert S M. generalize (flat_map item_class_attrs items) as l. induction l as [|[k w] l IH]; intros S M; [destruct M|]. cbn [lookup].
    destruct (String.eqb k n) eqn:K; [apply String.eqb_eq in K as ->; f_equal; apply S; now left|].
    apply IH; [intros y Y; apply S; now right|]. destruct M as [M|M]; [|exact M]. injection M as -> ->. now rewrite String.eqb_refl in K.
Qed.
Lemma grouped_constant h cls cctx items fs gs n x v o : In (ILazy fs) items -> In (FGroup gs) fs -> In (n, x) (class_attrs gs) ->
  (forall y, In (n, y) (class_attrs (map eager items)) -> y = x) ->
  (forall gs f, In (ILazy gs) items -> In f gs -> ~ declares n f) ->
  lazy_set h cls cctx items n v o = (if py_eq v x then Ok tt else Err InstructError, o).
Proof.
  intros I G C U D. unfold lazy_set. rewrite (no_owner n items D).
  pose proof (class_lookup items fs gs n x I G C U) as E.
  unfold sbind, sget. rewrite E. destruct (py_eq v x); reflexivity.
Qed.
(** ... and every new object shows it, unless one of its fields has the same name. *)
Lemma grouped_constant_new h cls cctx items fs gs n x kw : In (ILazy fs) items -> In (FGroup gs) fs -> In (n, x) (class_attrs gs) ->
  (forall y, In (n, y) (class_attrs (map eager items)) -> y = x) ->
  (forall gs f, In (ILazy gs) items -> In f gs -> ~ declares n f) ->
  ~ In n (flat_map stored_names (map eager items)) ->
  lazy_get h cls cctx items n (lazy_new items kw) = (Ok x, lazy_new items kw).
Proof.
  intros I G C U D N. unfold lazy_get. rewrite (no_owner n items D).
  assert (L : lookup (lo_attrs (lazy_new items kw)) n = Some x); [|unfold sbind, sget, slift; now rewrite L].
  unfold lazy_new. cbn [lo_attrs]. rewrite <- (class_lookup items fs gs n x I G C U).
  assert (Q : forall l a, (forall f, In f l -> ~ In n (stored_names f) /\ ~ declares n f) -> lookup (fold_left (prepare_lazy kw) l a) n = lookup a n).
  { induction l as [|f l IH]; intros a H; [reflexivity|]. cbn [fold_left]. rewrite IH by (intros f' I'; apply H; now right).
    destruct (H f (or_introl eq_refl)) as [Hf Hd]. unfold prepare_lazy. destruct (lazy_name f) as [n'|] eqn:E; [|now apply prepare_instance_other].
    destruct (lookup kw n'); [|reflexivity]. apply lookup_set_other. intros ->. apply Hd. destruct f; cbn in E |- *; congruence. }
  assert (R : forall l a, (forall i, In i l -> In i items /\ ~ In n (stored_names (eager i))) -> lookup (fold_left (prepare_item kw) l a) n = lookup a n).
  { induction l as [|i l IH]; intros a H; [reflexivity|]. cbn [fold_left]. rewrite IH by (intros i' I'; apply H; now right).
    destruct (H i (or_introl eq_refl)) as [Ii Hi]. destruct i as [f|l']; cbn [prepare_item eager] in *; [now apply prepare_instance_other|].
    apply Q. intros f If. split; [|exact (D l' f Ii If)]. intros X. apply Hi. cbn [stored_names]. apply in_flat_map. eauto. }
  apply R. intros i Ii. split; [exact Ii|]. intros X. apply N. apply in_flat_map. exists (eager i). split; [now apply in_map|exact X].
Qed.
