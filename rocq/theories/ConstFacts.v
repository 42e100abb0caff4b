(** Constants and defaults anywhere in a struct. *)
From Verif Require Import Base IntCodec BitStringIO Stream Marshal MarshalInd FieldSpec FieldFacts PolyFacts WriteFacts ConstSpec.
From Coq Require Import ZArith List Bool String.
Import ListNotations.

Lemma const_class_attr n k f : declares_const n k f -> In (n, k) (class_attrs_f f).
Proof.
  induction 1 as [m|f fs I _ IH|m bs I|m size bs I]; cbn [class_attrs_f].
  - now left.
  - apply in_flat_map. eauto.
  - apply in_flat_map. exists (BConst n m k). cbn. auto.
  - apply in_flat_map. exists (BConst n m k). cbn. auto.
Qed.
Lemma const_class_attrs n k fs : Exists (declares_const n k) fs -> In (n, k) (class_attrs fs).
Proof. intros E. apply Exists_exists in E. destruct E as (f & I & D). apply in_flat_map. exists f. split; [exact I|]. now apply const_class_attr. Qed.
Lemma const_assign_anywhere fs a n k v : NoDup (map fst (class_attrs fs)) -> Exists (declares_const n k) fs ->
  assign_attr fs a n v = if py_eq v k then Ok a else Err InstructError.
Proof. intros N E. unfold assign_attr. now rewrite (lookup_in _ n k N (const_class_attrs n k fs E)). Qed.
Lemma const_attribute_anywhere fs cls n k kwargs : NoDup (map fst (class_attrs fs)) -> Exists (declares_const n k) fs -> ~ In n (flat_map stored_names fs) ->
  py_getattr (VObj cls (new_attrs fs kwargs)) n = Ok k.
Proof.
  intros N I S. unfold py_getattr, new_attrs.
  assert (G : forall l a, ~ In n (flat_map stored_names l) -> lookup (fold_left (prepare_instance kwargs) l a) n = lookup a n).
  { induction l as [|f l IH]; intros a L; cbn; auto. cbn in L. rewrite in_app_iff in L. rewrite IH by tauto. apply prepare_instance_other. tauto. }
  rewrite G by auto. now rewrite (lookup_in _ n k N (const_class_attrs n k fs I)).
Qed.

Section Unset.
Variables (h : host) (n : name) (d : value) (a : attrs).
Hypothesis U : lookup a n = None.
Let a' := set_attr a n d.
Lemma value_unset n' d' : (n' = n -> d' = d) -> field_value n' d' a = field_value n' d' a'.
Proof.
  intros H. unfold field_value, a'. destruct (String.eqb_spec n' n) as [E|N].
  - subst n'. now rewrite U, lookup_set_same, H.
  - rewrite lookup_set_other by congruence. reflexivity.
Qed.
Lemma bits_unset size bs out : (forall m d', In (BField n m d') bs -> d' = d) -> write_bit_container size a bs out = write_bit_container size a' bs out.
Proof.
  intros H. assert (E : forall b0, sforeach bs (write_bitfield a) b0 = sforeach bs (write_bitfield a') b0).
  { induction bs as [|b bs IH]; intros b0; cbn [sforeach]; [reflexivity|]. unfold sbind.
    assert (Eb : write_bitfield a b b0 = write_bitfield a' b b0).
    { destruct b as [n' m d'| |]; try reflexivity. unfold write_bitfield, bf_value. cbn [bf_marshal].
      assert (V := value_unset n' d'). unfold field_value in V. rewrite V; [reflexivity|]. intros ->. apply (H m). now left. }
    rewrite Eb. destruct (write_bitfield a' b b0) as [[u|e] b1]; [|reflexivity]. apply IH. intros m d' I. apply (H m). now right. }
  unfold write_bit_container, sbind. destruct (slift (bs_new_size size) out) as [[b0|e] s]; [|reflexivity]. now rewrite E.
Qed.
Lemma write_unset_all : (forall m : marshal, True) /\ (forall f out, (forall d', declares_default n d' f -> d' = d) -> write_field h f a out = write_field h f a' out).
Proof.
  apply (marshal_field_ind (fun _ => True) (fun f => forall out, (forall d', declares_default n d' f -> d' = d) -> write_field h f a out = write_field h f a' out)); auto.
  - intros n' m d' _ out H. cbn [write_field]. rewrite value_unset; [reflexivity|]. intros ->. apply H. constructor.
  - intros n' m pr d' _ out H. cbn [write_field]. rewrite value_unset; [reflexivity|]. intros ->. apply H. constructor.
  - intros fs IH out H. rewrite !write_group. revert out. assert (F : forall f, In f fs -> forall d', declares_default n d' f -> d' = d) by (intros f I d' D; apply H; econstructor; eauto).
    clear H. induction IH as [|f fs Hf _ IHf]; intros out; [reflexivity|]. cbn [write_fields]. unfold sbind.
    rewrite (Hf out) by (apply F; now left). destruct (write_field h f a' out) as [[u|e] s]; [|reflexivity]. apply IHf. intros g I. apply F. now right.
  - intros bs out H. cbn [write_field]. apply bits_unset. intros m d' I. apply H. econstructor; eauto.
  - intros size bs out H. cbn [write_field]. apply bits_unset. intros m d' I. apply H. econstructor; eauto.
Qed.
Lemma write_unset cls cctx fs : (forall d', Exists (declares_default n d') fs -> d' = d) ->
  write_to_string h (MStruct cls cctx fs) (VObj cls a) = write_to_string h (MStruct cls cctx fs) (VObj cls a').
Proof.
  intros H. unfold write_to_string. rewrite !write_struct, String.eqb_refl.
  pose proof (proj2 write_unset_all (FGroup fs) []) as G. rewrite !write_group in G. rewrite G; [reflexivity|].
  intros d' D. inversion D; subst. apply H. apply Exists_exists. eauto.
Qed.
End Unset.
