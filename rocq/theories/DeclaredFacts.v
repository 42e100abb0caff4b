(** Proofs for PropertiesDeclared.v. *)
From Verif Require Import Base IntCodec CodecSpec Stream StreamSpec MinMax Marshal MarshalSpec MarshalInd
  SimSpec SimFacts FieldSpec MarshalFacts FieldFacts ArrayFacts BitFieldSpec BitFacts Formats Macros MacrosSpec MacrosFacts DeclaredSpec.
From Coq Require Import ZArith List Bool String Lia.
Import ListNotations.
Open Scope Z_scope.

Lemma field_holds_of h n m d v w enc :
  (forall out, write h m v out = (Ok tt, out ++ enc)) ->
  (forall c pre tail, read h m c (SBytesIO (pre ++ enc ++ tail) (zlen pre)) = (Ok w, SBytesIO (pre ++ enc ++ tail) (zlen pre + zlen enc))) ->
  field_holds h (FField n m d) n v w enc.
Proof.
  intros W R. split.
  - intros a out E. cbn [write_field]. unfold field_value. rewrite E. apply W.
  - intros. rewrite read_field_field, R. reflexivity.
Qed.

Lemma prepare_lookup kw a n m d : lookup (prepare_field kw a m d) n
  = if String.eqb m n then match lookup kw n with Some v => Some v | None => match lookup a n with Some v => Some v | None => Some d end end
    else lookup a n.
Proof.
  unfold prepare_field. destruct (String.eqb_spec m n) as [->|N].
  - destruct (lookup kw n); [apply lookup_set_same|]. destruct (lookup a n) eqn:E; [exact E|apply lookup_set_same].
  - destruct (lookup kw m); [apply lookup_set_other; congruence|]. destruct (lookup a m); [reflexivity|apply lookup_set_other; congruence].
Qed.

Definition prepare_bit (kw a : attrs) (b : bitfield) : attrs := match b with BField n _ d => prepare_field kw a n d | _ => a end.

Lemma prepare_bits kw n d bs : forall a,
  (forall n' w' d', In (BField n' w' d') bs -> n' = n -> d' = d) ->
  lookup (fold_left (prepare_bit kw) bs a) n
  = if existsb (fun b => match b with BField m _ _ => String.eqb m n | _ => false end) bs
    then match lookup kw n with Some v => Some v | None => match lookup a n with Some v => Some v | None => Some d end end
    else lookup a n.
Proof.
  induction bs as [|b r IH]; intros a U; [reflexivity|].
  cbn [fold_left existsb]. rewrite IH by (intros n' w' d' I; apply (U n' w' d'); now right).
  destruct b as [m w d0| |]; cbn [prepare_bit]; try reflexivity.
  rewrite prepare_lookup. destruct (String.eqb_spec m n) as [->|N]; [|reflexivity].
  assert (d0 = d) by (apply (U n w d0); [now left|reflexivity]). subst d0. cbn [orb].
  destruct (existsb _ r); destruct (lookup kw n); try reflexivity; destruct (lookup a n); reflexivity.
Qed.

Lemma no_const bs n : (forall m k, ~ In (BConst n m k) bs) ->
  lookup (flat_map (fun b => match b with BConst n m v => [(n, v)] | _ => [] end) bs) n = None.
Proof.
  induction bs as [|b r IH]; intros H; [reflexivity|]. cbn [flat_map].
  assert (R : forall m k, ~ In (BConst n m k) r) by (intros m k I; apply (H m k); now right).
  destruct b as [m w d0|w|m w k]; [exact (IH R)|exact (IH R)|].
  cbn [app lookup]. destruct (String.eqb m n) eqn:Q; [|exact (IH R)].
  apply String.eqb_eq in Q. subst m. exfalso. apply (H w k). now left.
Qed.

Lemma bit_default bs n d f kw :
  BitFields bs = Ok f ->
  (exists w, In (BField n w d) bs) ->
  (forall n' w' d', In (BField n' w' d') bs -> n' = n -> d' = d) ->
  (forall m k, ~ In (BConst n m k) bs) ->
  lookup (new_attrs [f] kw) n = match lookup kw n with Some v => Some v | None => Some d end.
Proof.
  intros B (w & I) U K.
  assert (X : existsb (fun b => match b with BField m _ _ => String.eqb m n | _ => false end) bs = true).
  { apply existsb_exists. exists (BField n w d). split; [exact I|apply String.eqb_refl]. }
  assert (G : forall a, lookup a n = None -> lookup (fold_left (prepare_bit kw) bs a) n = match lookup kw n with Some v => Some v | None => Some d end).
  { intros a E. rewrite (prepare_bits kw n d bs a U), X, E. now destruct (lookup kw n). }
  assert (N := no_const bs n K).
  unfold BitFields in B. destruct (existsb is_positional bs).
  - destruct (passert _); [|discriminate]. cbn [rbind] in B. destruct (posbits_container_size None bs) as [size|]; [|discriminate].
    injection B as <-. unfold new_attrs, class_attrs. cbn [flat_map class_attrs_f fold_left prepare_instance]. rewrite app_nil_r.
    apply G, N.
  - destruct (bits_container_check bs); [|discriminate].
    injection B as <-. unfold new_attrs, class_attrs. cbn [flat_map class_attrs_f fold_left prepare_instance]. rewrite app_nil_r.
    apply G, N.
Qed.

Lemma field_default n m d kw :
  lookup (new_attrs [FField n m d] kw) n = match lookup kw n with Some v => Some v | None => Some d end.
Proof.
  unfold new_attrs. cbn [class_attrs class_attrs_f flat_map app fold_left prepare_instance].
  rewrite prepare_lookup, String.eqb_refl. destruct (lookup kw n); reflexivity.
Qed.

Lemma declared_default f n d : declares f n d ->
  forall kw, lookup (new_attrs [f] kw) n = match lookup kw n with Some v => Some v | None => Some d end.
Proof.
  intros D kw. destruct D as [m n d|n size p dir d f E|n size d f E|n sz p dir d f E|n sz d f E|n k el d f E|n sz el d f E|n sz el d f E
                         |n w d bs f E I U K|n d bs f E I U K].
  - apply field_default.
  - unfold PaddedString in E. destruct (check_default _ _); [|discriminate]. injection E as <-. apply field_default.
  - unfold FixedSizeBuffer in E. destruct (check_default _ _); [|discriminate]. injection E as <-. apply field_default.
  - injection E as <-. apply field_default.
  - injection E as <-. apply field_default.
  - unfold FixedSizeArray in E. destruct (check_default _ _); [|discriminate]. injection E as <-. apply field_default.
  - injection E as <-. apply field_default.
  - injection E as <-. apply field_default.
  - eapply bit_default; eauto. destruct w; eexists; exact I.
  - eapply bit_default; eauto.
Qed.

(** ** Groups of bits given by positions *)
Lemma fold_add_nonneg l : forall x, 0 <= x -> Forall (fun y => 0 <= y) l -> 0 <= fold_left Z.add l x.
Proof. induction l as [|y r IH]; intros x X F; [exact X|]. inversion F; subst. apply IH; auto. lia. Qed.
Lemma declared_width n w : slices_of w <> [] -> (forall s, In s (slices_of w) -> 0 <= fst s < snd s) ->
  slices_width (slices_of w) <= maxsize -> 0 <= width (BitField n w VNone) <= maxsize.
Proof.
  intros NE P M.
  assert (E : width (BitField n w VNone) = slices_width (slices_of w)) by (destruct w; [now destruct NE|reflexivity|reflexivity]).
  rewrite E. split; [|exact M]. unfold slices_width. apply fold_add_nonneg; [lia|]. apply Forall_map, Forall_forall. intros s I. specialize (P s I). lia.
Qed.
Lemma declared_places lay top size a :
  is_top (map (fun p => BitField (fst p) (snd p) VNone) lay) top ->
  top = 8 * size -> 0 <= size <= maxsize ->
  Forall (fun p => slices_width (slices_of (snd p)) <= maxsize) lay ->
  (forall n w, In (n, w) lay -> slices_of w <> []) ->
  (forall n w s, In (n, w) lay -> In s (slices_of w) -> 0 <= fst s < snd s) ->
  Forall (fun p => slices_disjoint (slices_of (snd p))) lay ->
  (forall l1 n w l2 n' w' i, lay = l1 ++ (n, w) :: l2 -> In (n', w') l2 ->
      in_slices (slices_of w) i -> ~ in_slices (slices_of w') i) ->
  NoDup (map fst lay) ->
  (forall n w, In (n, w) lay -> exists z, lookup a n = Some (VInt z)) ->
  exists f b, BitFields (map (fun p => BitField (fst p) (snd p) VNone) lay) = Ok f
    /\ zlen b = size
    /\ (forall h out, write_field h f a out = (Ok tt, out ++ b))
    /\ (forall n w z, In (n, w) lay -> lookup a n = Some (VInt z) -> slices_hold b (slices_of w) z 0)
    /\ (forall i, (forall n w, In (n, w) lay -> ~ in_slices (slices_of w) i) -> bit_at b i = false)
    /\ (forall h cls cctx c acc pre tail, exists acc',
          read_field h cls cctx f c (SBytesIO (pre ++ b ++ tail) (zlen pre), acc)
          = (Ok tt, (SBytesIO (pre ++ b ++ tail) (zlen pre + zlen b), acc'))
          /\ (forall n w z, In (n, w) lay -> lookup a n = Some (VInt z) ->
                lookup acc' n = Some (VInt (z mod 2 ^ slices_width (slices_of w))))
          /\ (forall n, ~ In n (map fst lay) -> lookup acc' n = lookup acc n)).
Proof.
  intros T TS S W NE P Dj Df ND V.
  set (sl := map (fun p : name * bitsize => (fst p, slices_of (snd p))) lay).
  assert (E : map (fun p => BitField (fst p) (snd p) VNone) lay = map pos_field sl).
  { unfold sl. rewrite map_map. apply map_ext_in. intros (n, w) I. specialize (NE _ _ I). destruct w; [now destruct NE|reflexivity|reflexivity]. }
  assert (IN : forall n s, In (n, s) sl -> exists w, In (n, w) lay /\ s = slices_of w).
  { intros n s I. apply in_map_iff in I as ((n', w) & Q & I). injection Q as <- <-. eauto. }
  assert (NI : forall n w, In (n, w) lay -> In (n, slices_of w) sl).
  { intros n w I. apply in_map_iff. exists (n, w). auto. }
  assert (Nm : map fst sl = map fst lay) by (unfold sl; rewrite map_map; now apply map_ext).
  rewrite E in *.
  destruct (pos_group sl size a S) as (b & L & Wr & H & Z0 & R).
  - intros n s t I J. destruct (IN _ _ I) as (w & I' & ->). specialize (P _ _ _ I' J). split; [lia|].
    destruct T as (_ & T). rewrite <- TS. apply (T (pos_field (n, slices_of w)) t); [now apply in_map|].
    exists (slices_of w). auto.
  - unfold sl. apply Forall_map. exact Dj.
  - intros l1 n s l2 n' s' i Q J A B. unfold sl in Q. apply map_eq_app in Q as (k1 & k2 & Q & Q1 & Q2).
    destruct k2 as [|(m, w) k2]; [discriminate|]. cbn in Q2. injection Q2 as <- <- <-.
    apply in_map_iff in J as ((n2, w2) & X & J). injection X as <- <-. exact (Df k1 m w k2 n2 w2 i Q J A B).
  - now rewrite Nm.
  - intros n s I. destruct (IN _ _ I) as (w & I' & _). eauto.
  - assert (BF : BitFields (map pos_field sl) = Ok (FPosBits size (map pos_field sl))).
    { destruct (proj1 (positional_group (map pos_field sl) top
          ltac:(apply Forall_map; apply Forall_forall; intros (n, s) I; destruct (IN _ _ I) as (w & I' & ->); exists (slices_of w); split; [reflexivity|eauto])
          T
          ltac:(rewrite <- E; apply Forall_map; rewrite Forall_forall in *; intros (n, w) I;
                exact (declared_width n w (NE _ _ I) (fun s => P n w s I) (W _ I)))) ltac:(subst top; rewrite Z.mul_comm; apply Z.mod_mul; lia)) as (k & Bk & K).
      rewrite Bk. replace k with size by lia. reflexivity. }
    exists (FPosBits size (map pos_field sl)), b. split; [exact BF|]. split; [exact L|]. split; [exact Wr|].
    split; [intros n w z I; apply H; auto|]. split.
    { intros i F. apply Z0. intros n s I. destruct (IN _ _ I) as (w & I' & ->). eauto. }
    intros. destruct (R h cls cctx c acc pre tail) as (acc' & R1 & R2 & R3). exists acc'. split; [exact R1|]. split; [intros n w z I; apply R2; auto|].
    rewrite <- Nm. exact R3.
Qed.

Lemma declared_positions lay size a :
  0 <= size <= maxsize ->
  (exists n w s, In (n, w) lay /\ In s (slices_of w) /\ snd s = 8 * size) ->
  (forall n w s, In (n, w) lay -> In s (slices_of w) -> 0 <= fst s < snd s /\ snd s <= 8 * size) ->
  (forall n w, In (n, w) lay -> slices_of w <> [] /\ slices_width (slices_of w) <= maxsize) ->
  Forall (fun p => slices_disjoint (slices_of (snd p))) lay ->
  (forall l1 n w l2 n' w' i, lay = l1 ++ (n, w) :: l2 -> In (n', w') l2 ->
      in_slices (slices_of w) i -> ~ in_slices (slices_of w') i) ->
  NoDup (map fst lay) ->
  (forall n w, In (n, w) lay -> exists z, lookup a n = Some (VInt z)) ->
  exists f b, BitFields (map (fun p => BitField (fst p) (snd p) VNone) lay) = Ok f
    /\ zlen b = size
    /\ (forall h out, write_field h f a out = (Ok tt, out ++ b))
    /\ (forall n w z, In (n, w) lay -> lookup a n = Some (VInt z) -> slices_hold b (slices_of w) z 0)
    /\ (forall i, (forall n w, In (n, w) lay -> ~ in_slices (slices_of w) i) -> bit_at b i = false)
    /\ (forall h cls cctx c acc pre tail, exists acc',
          read_field h cls cctx f c (SBytesIO (pre ++ b ++ tail) (zlen pre), acc)
          = (Ok tt, (SBytesIO (pre ++ b ++ tail) (zlen pre + zlen b), acc'))
          /\ (forall n w z, In (n, w) lay -> lookup a n = Some (VInt z) ->
                lookup acc' n = Some (VInt (z mod 2 ^ slices_width (slices_of w))))
          /\ (forall n, ~ In n (map fst lay) -> lookup acc' n = lookup acc n)).
Proof.
  intros S (n0 & w0 & s0 & I0 & J0 & E0) P NE Dj Df ND V.
  assert (SL : forall n w s, slices_of w <> [] -> slice_of (BitField n w VNone) s <-> In s (slices_of w)).
  { intros n w s N. destruct w; [now destruct N| |]; (split; [intros (sl & Q & I); cbn in Q; injection Q as <-; exact I|intros I; eexists; split; [reflexivity|exact I]]). }
  apply (declared_places lay (8 * size) size a); auto.
  - split.
    + exists (BitField n0 w0 VNone), s0. split; [apply in_map_iff; exists (n0, w0); auto|]. split; [|exact E0]. apply SL; auto. apply (NE _ _ I0).
    + intros f s I Q. apply in_map_iff in I as ((n, w) & <- & I). apply SL in Q; [|apply (NE _ _ I)]. now apply (P n w s).
  - apply Forall_forall. intros (n, w) I. apply (NE _ _ I).
  - intros n w I. apply (NE _ _ I).
  - intros n w s I J. apply (P n w s I J).
Qed.
