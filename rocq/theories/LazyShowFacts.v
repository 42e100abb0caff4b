(** Proofs: printing objects with lazy containers. *)
From Verif Require Import Base IntCodec BitStringIO Stream StreamSpec MinMax Marshal MarshalInd FieldSpec FieldFacts Repr ReprFacts Lazy LazySpec LazyProofs LazyFacts LazyShow LazyShowSpec.
From Coq Require Import ZArith List Bool String Lia.
Import ListNotations.
Open Scope string_scope.
Open Scope Z_scope.

Section Facts.
Variables (h : host) (cls : name) (cctx : option ctx) (items : list item).
Hypothesis Hok : Forall (item_ok h) items.
Hypothesis Hnd : NoDup (flat_map item_names items).
Notation refines := (refines h cls cctx items).

(** Which containers wait to be decoded. *)
Definition waiting (t : list field -> bool) (o : lobj) : Prop :=
  forall k fs, nth_error items k = Some (ILazy fs) -> (pending k (lo_data o) = None <-> t fs = true).

Lemma instantiate_waiting o k fs : forall k', pending k' (lo_data (snd (instantiate h cls cctx k fs o))) = if Nat.eqb k' k then None else pending k' (lo_data o).
Proof.
  intros k'. unfold instantiate. destruct (pending k (lo_data o)) as [[data c]|] eqn:P.
  - destruct (read_fields h cls cctx fs c (stream_of data, lo_attrs o)) as [r [s a]]. cbn [snd lo_data]. apply pending_forget.
  - cbn [snd]. destruct (Nat.eqb_spec k' k) as [->|]; auto.
Qed.
Lemma get_state o n : snd (lazy_get h cls cctx items n o) = match owner 0 items n with Some (k, fs) => snd (instantiate h cls cctx k fs o) | None => o end.
Proof.
  unfold lazy_get. destruct (owner 0 items n) as [[k fs]|]; [|reflexivity]. unfold sbind at 1.
  destruct (instantiate h cls cctx k fs o) as [[u|e] o']; reflexivity.
Qed.
Lemma set_state o n v : lo_data (snd (lazy_set h cls cctx items n v o)) = match owner 0 items n with Some (k, fs) => lo_data (snd (instantiate h cls cctx k fs o)) | None => lo_data o end.
Proof.
  unfold lazy_set. destruct (owner 0 items n) as [[k fs]|].
  - unfold sbind at 1. destruct (instantiate h cls cctx k fs o) as [[u|e] o']; reflexivity.
  - unfold sbind, sget. destruct (lookup _ n) as [x|]; [destruct (py_eq v x); reflexivity|reflexivity].
Qed.
Lemma owner_waiting t o n d : waiting t o ->
  d = match owner 0 items n with Some (k, fs) => lo_data (snd (instantiate h cls cctx k fs o)) | None => lo_data o end ->
  forall k fs, nth_error items k = Some (ILazy fs) -> (pending k d = None <-> t fs || needs (Get n) fs = true).
Proof.
  intros Hw -> k fs Hk. rewrite orb_true_iff. assert (Kf : Forall lazy_field_ok fs).
  { apply (proj1 (Forall_forall _ _) Hok (ILazy fs) (nth_error_In _ _ Hk)). }
  cbn [needs]. rewrite (lazy_names_in fs n Kf). destruct (owner 0 items n) as [[k0 fs0]|] eqn:Ow.
  - destruct (owner_some items n (ok_lazy h items Hok) _ _ _ Ow) as (_ & Hk0 & I0). rewrite Nat.sub_0_r in Hk0. rewrite instantiate_waiting. destruct (Nat.eqb_spec k k0) as [->|N].
    + assert (fs0 = fs) as -> by congruence. split; auto.
    + rewrite (Hw k fs Hk). split; [auto|]. intros [H|H]; [exact H|]. exfalso. exact (N (group_unique items Hnd k k0 fs fs0 n Hk Hk0 H I0)).
  - pose proof (owner_none items n (ok_lazy h items Hok) 0%nat Ow) as G. rewrite (Hw k fs Hk). split; [auto|]. intros [H|H]; [exact H|]. exfalso. exact (G (not_group items n k fs Hk H)).
Qed.
Lemma write_waiting E : forall l j o out o' out', skipn j items = l -> refines E o -> write_items h cls cctx j l (o, out) = (Ok tt, (o', out')) ->
  (forall k, pending k (lo_data o) = None -> pending k (lo_data o') = None)
  /\ (forall k fs, (j <= k)%nat -> nth_error items k = Some (ILazy fs) -> pending k (lo_data o') = None).
Proof.
  induction l as [|i l IH]; intros j o out o' out' El R W.
  - cbn in W. injection W as <- <-. split; [auto|]. intros k fs L Hk. exfalso. assert (List.length (skipn j items) = 0%nat) by now rewrite El.
    rewrite skipn_length in H. assert (k < List.length items)%nat by (apply nth_error_Some; congruence). lia.
  - destruct (skipn_nth _ _ _ _ El) as [Hi El']. cbn [write_items] in W. unfold sbind in W. destruct i as [f|fs].
    + unfold write_item at 1 in W. cbn [fst snd] in W. destruct (write_field h f (lo_attrs o) out) as [[u|e] out1]; [|discriminate].
      destruct (IH (S j) o out1 o' out' El' R W) as (A & B). split; [exact A|]. intros k fs L Hk. destruct (Nat.eq_dec k j) as [->|N]; [congruence|]. apply (B k fs); [lia|exact Hk].
    + unfold write_item at 1 in W. cbn [fst snd] in W. destruct (instantiate_refines h cls cctx items Hnd E o j fs R Hi) as (o1 & X & R1 & P1). rewrite X in W.
      destruct (write_lazy_fields h fs (lo_attrs o1) out) as [[u|e] out1]; [|discriminate].
      destruct (IH (S j) o1 out1 o' out' El' R1 W) as (A & B). pose proof (instantiate_waiting o j fs) as Wt. rewrite X in Wt. cbn [snd] in Wt. split.
      * intros k Pk. apply A. rewrite Wt. destruct (Nat.eqb k j); auto.
      * intros k fs' L Hk. destruct (Nat.eq_dec k j) as [->|N]; [|apply (B k fs'); [lia|exact Hk]]. apply A. exact P1.
Qed.

Lemma use_step E o u t : refines E o -> waiting t o -> (forall e, fst (use_lazy h cls cctx items u o) <> ABytes (Err e)) ->
  refines (snd (use_eager h cls cctx (map eager items) u E)) (snd (use_lazy h cls cctx items u o))
  /\ waiting (fun fs => t fs || needs u fs) (snd (use_lazy h cls cctx items u o)).
Proof.
  intros R Hw Hb. destruct u as [n|n v|]; cbn [use_lazy use_eager] in *.
  - destruct (get_refines h cls cctx items (ok_lazy h items Hok) Hnd E o n R) as (o' & X & R'). pose proof (get_state o n) as St. rewrite X in *. cbn [snd] in *. split; [exact R'|].
    intros k fs Hk. apply (owner_waiting t o n); auto. rewrite St. now destruct (owner 0 items n) as [[? ?]|].
  - destruct (set_refines h cls cctx items (ok_lazy h items Hok) Hnd E o n v R) as (o' & r & X & Y). pose proof (set_state o n v) as St. rewrite X in *. cbn [snd] in *. split.
    + destruct (assign_attr _ E n v) as [E'|e]; destruct Y as [_ Y]; exact Y.
    + intros k fs Hk. apply (owner_waiting t o n); auto.
  - destruct (bytes_refines h cls cctx items (ok_lazy h items Hok) Hnd E o R) as (o' & X & R'). rewrite X in *. cbn [fst snd] in *. split; [exact R'|].
    unfold lazy_to_bytes in X. destruct (write_items h cls cctx 0 items (o, [])) as [[[]|e] [o1 out]] eqn:W.
    + assert (o1 = o') as -> by congruence. destruct (write_waiting E items 0 o [] o' out eq_refl R W) as (_ & B). intros k fs Hk. rewrite orb_true_r. split; [auto|]. intros _. apply (B k fs); [lia|exact Hk].
    + exfalso. apply (Hb e). f_equal. congruence.
Qed.
Lemma uses_step us : forall E o t, refines E o -> waiting t o -> (forall e, ~ In (ABytes (Err e)) (history_lazy h cls cctx items us o)) ->
  refines (after_eager h cls cctx (map eager items) us E) (after_lazy h cls cctx items us o)
  /\ waiting (fun fs => t fs || existsb (fun u => needs u fs) us) (after_lazy h cls cctx items us o).
Proof.
  induction us as [|u us IH]; intros E o t R Hw Hb.
  - cbn [after_eager after_lazy existsb]. split; [exact R|]. intros k fs Hk. rewrite orb_false_r. now apply Hw.
  - cbn [after_eager after_lazy existsb]. cbn [history_lazy] in Hb. destruct (use_step E o u t R Hw) as (R' & W').
    { intros e X. apply (Hb e). destruct (use_lazy h cls cctx items u o) as [x o']. cbn [fst] in X. subst x. now left. }
    destruct (IH _ _ _ R' W') as (R2 & W2).
    { intros e X. apply (Hb e). destruct (use_lazy h cls cctx items u o) as [x o']. cbn [snd] in X. now right. }
    split; [exact R2|]. intros k fs Hk. rewrite orb_assoc. exact (W2 k fs Hk).
Qed.

(** ** The text *)
Variables (pd pf : Z -> string) (pr : value -> res string).
Lemma field_repr_names : forall f a1 a2, same_on (stored_names f) a1 a2 -> field_repr pd pf pr f a1 = field_repr pd pf pr f a2.
Proof.
  assert (B : forall bs a1 a2, same_on (flat_map (fun b => match b with BField n _ _ => [n] | _ => [] end) bs) a1 a2 -> rmap_list (bf_repr pd pr a1) bs = rmap_list (bf_repr pd pr a2) bs).
  { induction bs as [|b bs IH]; intros a1 a2 H; cbn [rmap_list flat_map] in *; [reflexivity|]. apply same_on_app in H as [H1 H2]. rewrite (IH a1 a2 H2). f_equal.
    unfold bf_repr. destruct b as [n m d| |]; cbn [bf_value]; auto. f_equal. f_equal. assert (L : lookup a1 n = lookup a2 n) by (apply H1; now left).
    unfold bf_value. now rewrite L. }
  apply (marshal_field_ind (fun _ => True) (fun f => forall a1 a2, same_on (stored_names f) a1 a2 -> field_repr pd pf pr f a1 = field_repr pd pf pr f a2)); auto.
  - intros n m d _ a1 a2 H. rewrite !repr_named. rewrite (field_value_same n d a1 a2); [reflexivity|]. apply H. now left.
  - intros n m p d _ a1 a2 H. rewrite !repr_optional. rewrite (field_value_same n d a1 a2); [reflexivity|]. apply H. now left.
  - intros fs IH a1 a2 H. rewrite !repr_group. f_equal. cbn [stored_names] in H. induction IH as [|f r Hf _ IHr]; [reflexivity|]. cbn [fields_repr flat_map] in *.
    apply same_on_app in H as [H1 H2]. now rewrite (Hf a1 a2 H1), (IHr H2).
  - intros bs a1 a2 H. rewrite !repr_bits. now rewrite (B bs a1 a2 H).
  - intros n bs a1 a2 H. rewrite !repr_posbits. now rewrite (B bs a1 a2 H).
Qed.
Lemma fields_repr_list fs a : fields_repr pd pf pr fs a = rmap_list (fun f => field_repr pd pf pr f a) fs.
Proof. induction fs as [|f r IH]; [reflexivity|]. cbn [fields_repr rmap_list]. now rewrite IH. Qed.
Lemma rmap_ext {A B} (f g : A -> res B) l : Forall (fun x => f x = g x) l -> rmap_list f l = rmap_list g l.
Proof. induction 1 as [|x l H _ IH]; [reflexivity|]. cbn [rmap_list]. now rewrite H, IH. Qed.
Lemma item_text E o t k i : refines E o -> waiting t o -> nth_error items k = Some i ->
  item_repr pd pf pr o k i = entry_text pd pf pr (match i with ILazy fs => t fs | IField _ => true end) E i.
Proof.
  intros R Hw Hk. destruct i as [f|fs]; cbn [item_repr entry_text].
  - apply field_repr_names. intros n Hn. apply (rf_same _ _ _ _ _ _ R). intros k' fs' Hk' I'. exfalso. exact (field_not_lazy items Hnd k f k' fs' n Hk Hk' Hn I').
  - assert (Kf : Forall lazy_field_ok fs). { apply (proj1 (Forall_forall _ _) Hok (ILazy fs) (nth_error_In _ _ Hk)). }
    specialize (Hw k fs Hk). destruct (pending k (lo_data o)) as [d|] eqn:P.
    + destruct (t fs) eqn:T; [discriminate (proj2 Hw eq_refl)|]. f_equal. apply rmap_ext. apply Forall_forall. intros f Hf. pose proof (proj1 (Forall_forall _ _) Kf f Hf) as K.
      destruct f; try contradiction; reflexivity.
    + rewrite (proj1 Hw eq_refl). rewrite repr_group, fields_repr_list. f_equal. apply rmap_ext. apply Forall_forall. intros f Hf. pose proof (proj1 (Forall_forall _ _) Kf f Hf) as K.
      destruct f as [n m d|m| | | | |]; try contradiction; [|reflexivity]. cbn [lazy_field_repr].
      assert (I : In n (flat_map stored_names fs)) by (apply in_flat_map; exists (FField n m d); split; [exact Hf|now left]).
      assert (L : lookup (lo_attrs o) n = lookup E n). { apply (rf_same _ _ _ _ _ _ R). intros k' fs' Hk' I'. now rewrite (group_unique items Hnd k' k fs' fs n Hk' Hk I' I). }
      pose proof (rf_there _ _ _ _ _ _ R k fs n Hk I) as Th. rewrite L. destruct (lookup E n) eqn:En; [|contradiction]. apply field_repr_names. intros x [<-|[]]. congruence.
Qed.
Lemma items_text E o t : refines E o -> waiting t o -> forall l j, skipn j items = l ->
  items_repr pd pf pr o j l = rmap_list (fun i => entry_text pd pf pr (match i with ILazy fs => t fs | IField _ => true end) E i) l.
Proof.
  intros R Hw. induction l as [|i l IH]; intros j El; [reflexivity|]. destruct (skipn_nth _ _ _ _ El) as [Hi El']. cbn [items_repr rmap_list].
  now rewrite (item_text E o t j i R Hw Hi), (IH (S j) El').
Qed.
Theorem lazy_text c s E s' : stream_ok s -> read h (MStruct cls cctx (map eager items)) c s = (Ok (VObj cls E), s') ->
  exists o, lazy_read h cls cctx items c s = (Ok o, s')
    /\ forall us, (forall e, ~ In (ABytes (Err e)) (history_lazy h cls cctx items us o)) ->
       lazy_repr pd pf pr cls items (after_lazy h cls cctx items us o)
       = text_after pd pf pr cls items us (after_eager h cls cctx (map eager items) us E).
Proof.
  intros O Er. rewrite read_struct in Er.
  destruct (read_fields h cls cctx (map eager items) c (s, new_attrs (map eager items) [])) as [[[]|e] [s1 E1]] eqn:X; [|discriminate].
  injection Er as -> ->.
  destruct (read_rest h cls cctx items Hnd c Hok items 0 s (new_attrs (map eager items) []) (lazy_new items []) s' E eq_refl O) as (o & Y & R); [|exact X|].
  - split; [now apply new_off, (ok_lazy h)|lia|]. intros k d P. discriminate.
  - exists o. split; [unfold lazy_read; now rewrite Y|]. intros us Hb.
    assert (W0 : waiting (fun _ => false) o). { intros k fs Hk. destruct (rd_in _ _ _ _ _ _ _ R k fs) as (data & c' & P & _); [|exact Hk|rewrite P; split; discriminate].
      cbn. apply nth_error_Some. congruence. }
    destruct (uses_step us E o _ (reading_refines h cls cctx items E o R) W0 Hb) as (R' & W').
    unfold lazy_repr, text_after. rewrite (items_text _ _ _ R' W' items 0 eq_refl). reflexivity.
Qed.
End Facts.

(** ** Bit groups in a lazy container *)
Lemma prepare_keeps n v : forall f a, lookup a n = Some v -> lookup (prepare_instance [] a f) n = Some v.
Proof.
  assert (P : forall a m d, lookup a n = Some v -> lookup (prepare_field [] a m d) n = Some v).
  { intros a m d H. unfold prepare_field. cbn [lookup]. destruct (lookup a m) eqn:E; [exact H|]. rewrite lookup_set_other; [exact H|]. congruence. }
  assert (B : forall bs a, lookup a n = Some v -> lookup (fold_left (fun a b => match b with BField n _ d => prepare_field [] a n d | _ => a end) bs a) n = Some v).
  { induction bs as [|b bs IH]; intros a H; [exact H|]. cbn [fold_left]. apply IH. destruct b; auto. }
  apply (marshal_field_ind (fun _ => True) (fun f => forall a, lookup a n = Some v -> lookup (prepare_instance [] a f) n = Some v)); auto; try (intros; now apply P).
  intros fs H a L. cbn [prepare_instance]. revert a L. induction H as [|f r Hf _ IH]; intros a L; [exact L|]. cbn [fold_left]. apply IH. now apply Hf.
Qed.
Lemma lazy_keeps n v fs : forall a, lookup a n = Some v -> lookup (fold_left (prepare_lazy []) fs a) n = Some v.
Proof.
  induction fs as [|f r IH]; intros a L; [exact L|]. cbn [fold_left]. apply IH. unfold prepare_lazy. destruct (lazy_name f); [exact L|]. now apply prepare_keeps.
Qed.
Theorem lazy_bits_unprintable pd pf pr h cls cctx n w bs fs c s o s' :
  lookup (item_class_attrs (ILazy (FBits (BField n (BMBits w) VNone :: bs) :: fs))) n = None ->
  lazy_read h cls cctx [ILazy (FBits (BField n (BMBits w) VNone :: bs) :: fs)] c s = (Ok o, s') ->
  lazy_repr pd pf pr cls [ILazy (FBits (BField n (BMBits w) VNone :: bs) :: fs)] o = Err TypeError.
Proof.
  intros L E. unfold lazy_read in E. cbn [read_items] in E. unfold sbind, read_item in E. cbn [fst snd] in E.
  destruct (lazy_size _) as [size|]; [|discriminate]. destruct (sread size s) as [[data|] s1]; [|discriminate]. cbn in E.
  assert (A : lo_attrs o = lo_attrs (lazy_new [ILazy (FBits (BField n (BMBits w) VNone :: bs) :: fs)] [])) by (injection E as <- _; reflexivity). clear E.
  assert (V : lookup (lo_attrs o) n = Some VNone).
  { rewrite A. unfold lazy_new. cbn [lo_attrs fold_left prepare_item flat_map]. rewrite app_nil_r. apply lazy_keeps. cbn [prepare_lazy lazy_name].
    set (a0 := item_class_attrs _) in *. cbn [prepare_instance fold_left].
    assert (K : forall bs a, lookup a n = Some VNone -> lookup (fold_left (fun a b => match b with BField n _ d => prepare_field [] a n d | _ => a end) bs a) n = Some VNone)
      by (intros bs' a H; exact (prepare_keeps n VNone (FBits bs') a H)).
    apply K. unfold prepare_field. cbn [lookup]. rewrite L. apply lookup_set_same. }
  unfold lazy_repr. cbn [items_repr item_repr rmap_list lazy_field_repr]. rewrite repr_bits. cbn [rmap_list]. unfold bf_repr at 1. cbn [bf_value bf_marshal bm_repr]. rewrite V. reflexivity.
Qed.
Theorem lazy_touched_like_eager pd pf pr cls cctx items us a :
  Forall (fun i => match i with ILazy fs => Exists (fun u => needs u fs = true) us | IField _ => True end) items ->
  text_after pd pf pr cls items us a = to_repr pd pf pr (MStruct cls cctx (map eager items)) (VObj cls a).
Proof.
  intros H. unfold text_after. rewrite repr_struct, fields_repr_list. f_equal. induction H as [|i l Hi _ IH]; [reflexivity|]. cbn [rmap_list map]. rewrite IH. f_equal.
  destruct i as [f|fs]; [reflexivity|]. assert (T : existsb (fun u => needs u fs) us = true). { apply existsb_exists. apply Exists_exists in Hi. destruct Hi as (u & I & N). eauto. }
  rewrite T. reflexivity.
Qed.
