(** Fields that look at lazy containers: the object still behaves like the eager one. *)
From Verif Require Import Base BaseProofs IntCodec BitStringIO Stream StreamSpec StreamProofs MinMax Marshal MarshalInd MarshalSpec
  FieldSpec FieldFacts SizeSpec SizeFacts SimFacts Lazy LazySpec LazyProofs LazyFacts LazyLook.
From Coq Require Import ZArith List Bool String Lia ZifyBool ZifyNat.
Import ListNotations.
Open Scope Z_scope.
Ltac Zify.zify_post_hook ::= Z.div_mod_to_equations.

Lemma set_all_same vals n : forall a E, In n (map fst vals) -> lookup (set_all vals a) n = lookup (set_all vals E) n.
Proof.
  induction vals as [|[m v] r IH]; intros a E Hv; [easy|].
  change (set_all ((m, v) :: r) a) with (set_all r (set_attr a m v)). change (set_all ((m, v) :: r) E) with (set_all r (set_attr E m v)).
  destruct (in_dec String.string_dec n (map fst r)) as [Hr|Hr]; [now apply IH|]. rewrite !set_all_other by exact Hr.
  destruct Hv as [<-|Hv]; [|easy]. cbn [fst]. now rewrite !lookup_set_same.
Qed.

Lemma loop_same {A} (m1 m2 : stM stream A) : (forall s, m1 s = m2 s) -> forall n s, stM_loop n m1 s = stM_loop n m2 s.
Proof.
  intros H. induction n as [|n IH]; intros s; [reflexivity|].
  change (stM_loop (S n) m1) with (x <- m1 ;; r <- stM_loop n m1 ;; sret (x :: r)). change (stM_loop (S n) m2) with (x <- m2 ;; r <- stM_loop n m2 ;; sret (x :: r)).
  unfold sbind. rewrite H. destruct (m2 s) as [[x|e] s1]; [|reflexivity].
  now rewrite IH.
Qed.
Lemma sum_same (m1 m2 : stM stream value) : (forall s, m1 s = m2 s) -> forall n t s, sum_loop n m1 t s = sum_loop n m2 t s.
Proof.
  intros H. induction n as [|n IH]; intros t s; [reflexivity|]. cbn [sum_loop]. destruct (t >? 0); [|reflexivity]. unfold sbind, sget. rewrite H.
  destruct (m2 s) as [[x|e] s1]; [|reflexivity]. destruct (stell s); [|reflexivity]. destruct (stell s1); [|reflexivity]. destruct (_ =? 0); [reflexivity|]. now rewrite IH.
Qed.

Section Look.
Variables (h : host) (cls : name) (fields : list look_item).
Let items : list item := map plain fields.
Hypothesis Hok : Forall lazy_ok items.
Hypothesis Hnd : NoDup (flat_map item_names items).

Notation group k fs := (nth_error items k = Some (ILazy fs)).
Notation dec := (decodes h cls None).

(** What has been read so far, up to entry [j]. *)
Record seen (j : nat) (E : attrs) (o : lobj) : Prop := {
  sn_pending : forall k data c, pending k (lo_data o) = Some (data, c) -> (k < j)%nat /\ exists fs, group k fs /\ dec fs data c E;
  sn_same : forall n, (forall k fs, group k fs -> In n (flat_map stored_names fs) -> (k < j)%nat /\ pending k (lo_data o) = None) -> lookup (lo_attrs o) n = lookup E n;
  sn_there : forall k fs n, (k < j)%nat -> group k fs -> In n (flat_map stored_names fs) -> lookup E n <> None
}.
Lemma seen_refines E o : seen (List.length items) E o -> refines h cls None items E o.
Proof.
  intros [P1 P2 P3]. assert (L : forall k fs, group k fs -> (k < List.length items)%nat) by (intros k fs G; apply nth_error_Some; congruence). split.
  - intros k data c P. destruct (P1 k data c P) as [_ X]. exact X.
  - intros n H. apply P2. intros k fs G I. split; [eauto|eapply H; eauto].
  - intros k fs n G I. eapply P3; eauto.
Qed.
Lemma instantiate_seen j E o k fs : seen j E o -> group k fs -> exists o', instantiate h cls None k fs o = (Ok tt, o') /\ seen j E o' /\ pending k (lo_data o') = None.
Proof.
  intros [P1 P2 P3] Hk. unfold instantiate. destruct (pending k (lo_data o)) as [[data c]|] eqn:P; [|exists o; split; [reflexivity|]; split; [split; auto|exact P]].
  destruct (P1 k data c P) as (Lk & fs' & Hk' & vals & s' & R & N & V). assert (fs' = fs) as -> by congruence. rewrite R. eexists. split; [reflexivity|].
  split; [|cbn [lo_data]; rewrite pending_forget, Nat.eqb_refl; reflexivity]. pose proof (group_nodup items Hnd k fs Hk) as Nd. split; cbn [lo_attrs lo_data].
  - intros k' data' c'. rewrite pending_forget. destruct (Nat.eqb k' k); [discriminate|]. apply P1.
  - intros n H. destruct (in_dec String.string_dec n (map fst vals)) as [I|I].
    + apply in_map_iff in I as ([m v] & <- & I). cbn [fst]. rewrite (V m v I). apply set_all_in; [now rewrite N|exact I].
    + rewrite set_all_other by exact I. apply P2. intros k' fs' Hk2 I'. destruct (H k' fs' Hk2 I') as [Lk' Pk']. split; [exact Lk'|]. rewrite pending_forget in Pk'.
      destruct (Nat.eqb_spec k' k) as [Ek|]; [|exact Pk']. subst k'. assert (fs' = fs) as -> by congruence. rewrite N in I. contradiction.
  - exact P3.
Qed.
(** Access to a name that is not of a container further on. *)
Lemma get_seen j E o n : seen j E o -> (forall k fs, group k fs -> In n (flat_map stored_names fs) -> (k < j)%nat) ->
  exists o', lazy_get h cls None items n o = (py_getattr (VObj cls E) n, o') /\ seen j E o'.
Proof.
  intros R B. unfold lazy_get, py_getattr. destruct (owner 0 items n) as [[k fs]|] eqn:Ow.
  - destruct (owner_some items n Hok _ _ _ Ow) as (_ & Hk & I). rewrite Nat.sub_0_r in Hk. destruct (instantiate_seen j E o k fs R Hk) as (o' & X & R' & P).
    exists o'. split; [|exact R']. unfold sbind at 1. rewrite X. unfold sbind, sget, slift. f_equal. rewrite (sn_same _ _ _ R').
    + destruct (lookup E n) eqn:L; [reflexivity|]. now destruct (sn_there _ _ _ R' k fs n (B k fs Hk I) Hk I).
    + intros k' fs' Hk' I'. assert (k = k') as <- by (eapply (group_unique items Hnd); eauto). split; [eauto|exact P].
  - exists o. split; [|exact R]. unfold sbind, sget, slift. f_equal. rewrite (sn_same _ _ _ R); [reflexivity|].
    intros k fs Hk I. exfalso. apply (owner_none items n Hok 0 Ow). eapply not_group; eauto.
Qed.
(** A program that looks at such names only. *)
Lemma run_seen {A} j E (p : look A) later : (forall n k fs, group k fs -> In n (flat_map stored_names fs) -> ~ In n later -> (k < j)%nat) -> looks_past later p ->
  forall o, seen j E o -> exists o', run_look h cls fields p o = (look_at p (VObj cls E), o') /\ seen j E o'.
Proof.
  intros B. induction 1 as [r|n k Hn _ IH]; intros o R.
  - exists o. split; [reflexivity|exact R].
  - destruct (get_seen j E o n R) as (o1 & X & R1); [intros; eapply B; eauto|]. cbn [run_look look_at]. unfold sbind. fold items. rewrite X.
    unfold rbind. destruct (py_getattr (VObj cls E) n) as [v|e]; [apply (IH v o1 R1)|]. exists o1. split; [reflexivity|exact R1].
Qed.
(** Storing values under names of no container. *)
Lemma store_seen j E o vals : seen j E o -> (forall n k fs, In n (map fst vals) -> group k fs -> ~ In n (flat_map stored_names fs)) ->
  seen j (set_all vals E) (mkLobj (set_all vals (lo_attrs o)) (lo_data o)).
Proof.
  intros [P1 P2 P3] NG. split; cbn [lo_attrs lo_data].
  - intros k data c P. destruct (P1 k data c P) as (Lk & fs & Hk & Dc). split; [exact Lk|]. exists fs. split; [exact Hk|].
    apply (decodes_off _ _ _ _ _ _ _ _ Dc). intros n Hn. apply set_all_other. intros Hv. exact (NG n k fs Hv Hk Hn).
  - intros n H. destruct (in_dec String.string_dec n (map fst vals)) as [Hv|Hv]; [now apply set_all_same|]. rewrite !set_all_other by exact Hv. now apply P2.
  - intros k fs n Lk Hk I. rewrite set_all_other; [eapply P3; eauto|]. intros Hv. exact (NG n k fs Hv Hk I).
Qed.
Lemma seen_next j E o : (forall fs, ~ group j fs) -> seen j E o -> seen (S j) E o.
Proof.
  intros Nj [P1 P2 P3]. split.
  - intros k data c P. destruct (P1 k data c P) as [L X]. split; [lia|exact X].
  - intros n H. apply P2. intros k fs G I. destruct (H k fs G I) as [L P]. split; [|exact P]. assert (k <> j) by (intros ->; exact (Nj fs G)). lia.
  - intros k fs n L G I. apply (P3 k fs n); auto. assert (k <> j) by (intros ->; exact (Nj fs G)). lia.
Qed.
Lemma item_step j i s E o s' E' : item_ok h i -> nth_error items j = Some i -> stream_ok s -> seen j E o ->
  read_field h cls None (eager i) [] (s, E) = (Ok tt, (s', E')) ->
  exists o', read_item h cls None [] j i (s, o) = (Ok tt, (s', o')) /\ seen (S j) E' o'.
Proof.
  intros Ki Hi O R Er. destruct i as [f|fs].
  - destruct (blind_all h f Ki s) as (r & s1 & vals & I & Rb). cbn [eager] in Er. rewrite Rb in Er. apply pair_equal_spec in Er as [-> Er]. apply pair_equal_spec in Er as [-> <-].
    exists (mkLobj (set_all vals (lo_attrs o)) (lo_data o)). split; [unfold read_item; cbn [fst snd]; now rewrite Rb|].
    apply seen_next; [intros fs G; congruence|]. apply store_seen; [exact R|]. intros n k fs Hn Hk. apply (field_not_lazy items Hnd j f k fs n Hi Hk). now apply I.
  - destruct R as [P1 P2 P3]. destruct Ki as [Kf (size & Ks & Kb)]. pose proof (contained_lazy fs Kf) as Cf. pose proof (lazy_size_span fs Cf size Ks) as Es.
    assert (N0 : 0 <= span_fields fs) by (apply span_fields_nonneg; [apply Forall_forall; intros; now apply span_nonneg_all|exact Cf]).
    set (data := firstn (Z.to_nat size) (rest s)). destruct (stream_of_ok data) as [Od Rd].
    cbn [eager] in Er. rewrite read_group in Er.
    destruct (group_local h fs Cf cls None [] [] s (stream_of data) O Od) as (r & k & vals & V1 & V2 & K & Ko).
    { rewrite Rd. unfold data. rewrite Es, firstn_firstn. now rewrite Nat.min_id. }
    rewrite V1 in Er. apply pair_equal_spec in Er as [-> Er]. apply pair_equal_spec in Er as [<- <-]. destruct (Ko tt eq_refl) as [Kk Nk].
    exists (mkLobj (lo_attrs o) ((j, (data, [])) :: forget j (lo_data o))). split.
    { unfold read_item. cbn [fst snd]. rewrite Ks. rewrite sread_ok by (auto; lia). unfold data. rewrite Kk, Es. reflexivity. }
    pose proof (group_nodup items Hnd j fs Hi) as Nd.
    split; cbn [lo_attrs lo_data].
    + intros k' d c. cbn [pending]. destruct (Nat.eqb_spec j k') as [<-|Nj].
      * intros X. injection X as <- <-. split; [lia|]. exists fs. split; [exact Hi|]. eexists vals, _. split; [exact V2|]. split; [exact Nk|].
        intros n v Hin. apply set_all_in; [|exact Hin]. now rewrite Nk.
      * rewrite pending_forget. destruct (Nat.eqb_spec k' j) as [?|NN]; [lia|]. intros P. destruct (P1 k' d c P) as (L & fs' & G & Dc). split; [lia|]. exists fs'. split; [exact G|].
        apply (decodes_off _ _ _ _ _ _ _ _ Dc). intros n Hn. apply set_all_other. rewrite Nk. intros Hv. assert (j = k') by (eapply (group_unique items Hnd); eauto). lia.
    + intros n H. assert (Hn : ~ In n (map fst vals)).
      { rewrite Nk. intros Hv. destruct (H j fs Hi Hv) as [_ P]. cbn [pending] in P. rewrite Nat.eqb_refl in P. discriminate. }
      rewrite set_all_other by exact Hn. apply P2. intros k' fs' G I. destruct (H k' fs' G I) as [L P]. cbn [pending] in P.
      destruct (Nat.eqb_spec j k') as [->|Nj]; [discriminate|]. rewrite pending_forget in P. destruct (Nat.eqb_spec k' j) as [?|NN]; [lia|]. split; [lia|exact P].
    + intros k' fs' n L G I. destruct (Nat.eq_dec k' j) as [->|Nj].
      * assert (fs' = fs) as -> by congruence. rewrite <- Nk in I. apply in_map_iff in I as ([m v] & <- & I). cbn [fst].
        rewrite (set_all_in vals ltac:(now rewrite Nk) E m v I). discriminate.
      * destruct (in_dec String.string_dec n (map fst vals)) as [Hv|Hv].
        -- rewrite Nk in Hv. assert (j = k') by (eapply (group_unique items Hnd); eauto). lia.
        -- rewrite set_all_other by exact Hv. apply (P3 k' fs' n); auto. lia.
Qed.
Lemma counted_same k q v c c' s : (match k with CArray el | CSum el => input_only h el | CString _ _ => True end) -> py_getattr (ctx_get c "struct"%string) q = Ok v ->
  read h (counted_marshal k (MPtr q)) c s = read h (counted_marshal k (MConst v)) c' s.
Proof.
  intros B P. destruct k as [el|el|pd d]; cbn [counted_marshal read]; unfold sbind, slift, sret; rewrite P.
  - destruct (as_int v) as [n|e]; [|reflexivity]. now rewrite (loop_same _ _ (B c c') (Z.to_nat n) s).
  - destruct (as_int v) as [n|e]; [|reflexivity]. now rewrite (sum_same _ _ (B c c') (Z.to_nat n) n s).
  - reflexivity.
Qed.
Lemma value_step j i n m m' s E o s' E' : nth_error items j = Some (IField i) -> In n (stored_names i) -> seen j E o -> (forall c c' s, read h m c s = read h m' c' s) ->
  match read h m (get_updated_context None (VObj cls E) []) s with (Ok v, s1) => (Ok tt, (s1, set_attr E n v)) | (Err e, s1) => (Err e, (s1, E)) end = (Ok tt, (s', E')) ->
  exists o', read_value h cls n m' (s, o) = (Ok tt, (s', o')) /\ seen (S j) E' o'.
Proof.
  intros Hi Hn R B. unfold read_value. cbn [fst snd]. rewrite (B _ (get_updated_context None (VObj cls (lo_attrs o)) []) s).
  destruct (read h m' _ s) as [[v|e] s1]; [|discriminate]. intros X. injection X as <- <-. eexists. split; [reflexivity|].
  apply seen_next; [intros fs G; congruence|]. apply (store_seen j E o [(n, v)] R). cbn [map fst]. intros n' k fs [<-|[]] Hk. exact (field_not_lazy items Hnd j i k fs n Hi Hk Hn).
Qed.
Hypothesis Hlook : forall pre i post, fields = pre ++ i :: post -> look_ok h (flat_map container_names post) i.

Lemma container_group i : lazy_ok (plain i) -> container_names i = group_names (plain i).
Proof.
  destruct i as [[f|fs]|n m p d|n q k d]; try reflexivity. intros [H _]. cbn [container_names plain group_names].
  induction H as [|f r Hf _ IH]; [reflexivity|]. cbn [flat_map]. rewrite IH. f_equal. now destruct f.
Qed.
Lemma look_step pre i post s E o s' E' : fields = pre ++ i :: post -> stream_ok s -> seen (List.length pre) E o ->
  read_field h cls None (eager (plain i)) [] (s, E) = (Ok tt, (s', E')) ->
  exists o', read_look_item h cls fields (List.length pre) i (s, o) = (Ok tt, (s', o')) /\ seen (S (List.length pre)) E' o'.
Proof.
  intros F O R Er. pose proof (Hlook pre i post F) as K.
  assert (Hi : nth_error items (List.length pre) = Some (plain i)).
  { unfold items. rewrite F, map_app. cbn [map]. rewrite nth_error_app2 by (rewrite map_length; lia). now rewrite map_length, Nat.sub_diag. }
  assert (Q : forall n k fs, group k fs -> (k <> List.length pre) -> In n (flat_map stored_names fs) -> ~ In n (flat_map container_names post) -> (k < List.length pre)%nat).
  { intros n k fs G Nk I Np. destruct (Nat.lt_total k (List.length pre)) as [L|[L|L]]; [exact L|lia|]. exfalso. apply Np.
    assert (nth_error (map plain post) (k - S (List.length pre)) = Some (ILazy fs)) as G'.
    { unfold items in G. rewrite F, map_app in G. cbn [map] in G. rewrite nth_error_app2 in G by (rewrite map_length; lia). rewrite map_length in G.
      replace (k - List.length pre)%nat with (S (k - S (List.length pre))) in G by lia. exact G. }
    apply nth_error_In in G'. apply in_map_iff in G' as (i' & Ei & Ii). apply in_flat_map. exists i'. split; [exact Ii|]. rewrite container_group; [rewrite Ei; exact I|].
    apply (proj1 (Forall_forall _ _) Hok). unfold items. apply in_map. rewrite F. apply in_or_app. right. now right. }
  destruct i as [i|n m p d|n q k d]; cbn [plain eager look_ok read_look_item] in *.
  - exact (item_step _ i s E o s' E' K Hi O R Er).
  - destruct K as [K1 K2]. destruct (run_seen (List.length pre) E p (flat_map container_names post)) with (o := o) as (o1 & X & R1); [|exact K2|exact R|].
    { intros n' k fs G I Np. apply (Q n' k fs G); auto. intros ->. congruence. }
    cbn [fst snd]. rewrite X. rewrite read_field_opt in Er. cbn [run_rprog] in Er. unfold slift in Er.
    destruct (look_at p (VObj cls E)) as [[|]|e]; [| |discriminate].
    + apply (value_step _ _ n m m s E o1 s' E' Hi); [now left|exact R1|exact K1|exact Er].
    + injection Er as <- <-. exists o1. split; [reflexivity|]. apply seen_next; [intros fs G; congruence|exact R1].
  - destruct K as [K1 K2]. destruct (get_seen (List.length pre) E o q R) as (o1 & X & R1).
    { intros k' fs G I. apply (Q q k' fs G); auto. intros ->. congruence. }
    cbn [fst snd]. fold items. rewrite X. rewrite read_field_field in Er.
    assert (P : forall v, py_getattr (VObj cls E) q = Ok v -> forall c' s, read h (counted_marshal k (MPtr q)) (get_updated_context None (VObj cls E) []) s = read h (counted_marshal k (MConst v)) c' s).
    { intros v Ev c' s0. apply counted_same; [exact K2|exact Ev]. }
    destruct (py_getattr (VObj cls E) q) as [v|e] eqn:Ev.
    + rewrite (P v eq_refl (get_updated_context None (VObj cls E) []) s) in Er.
      apply (value_step _ _ n (counted_marshal k (MConst v)) (counted_marshal k (MConst v)) s E o1 s' E' Hi); [now left|exact R1| |exact Er].
      intros c c' s0. destruct k as [el|el|pd dd]; cbn [counted_marshal read]; unfold sbind, sret, slift; try reflexivity; (destruct (as_int v) as [z|e]; [|reflexivity]).
      * now rewrite (loop_same _ _ (K2 c c') (Z.to_nat z) s0).
      * now rewrite (sum_same _ _ (K2 c c') (Z.to_nat z) z s0).
    + exfalso. destruct k as [el|el|pd dd]; cbn [counted_marshal read] in Er; unfold sbind, slift, get_updated_context, ctx_get in Er; cbn [app lookup String.eqb] in Er;
        cbn in Er; unfold py_getattr in Ev; destruct (lookup E q); discriminate.
Qed.
Lemma look_rest : forall l pre s E o s' E', fields = pre ++ l -> stream_ok s -> seen (List.length pre) E o ->
  read_fields h cls None (map eager (map plain l)) [] (s, E) = (Ok tt, (s', E')) ->
  exists o', read_look_items h cls fields (List.length pre) l (s, o) = (Ok tt, (s', o')) /\ seen (List.length items) E' o'.
Proof.
  induction l as [|i l IH]; intros pre s E o s' E' F O R Er.
  - cbn in Er. injection Er as <- <-. exists o. split; [reflexivity|]. unfold items. rewrite map_length. rewrite F, app_nil_r. exact R.
  - cbn [map] in Er. rewrite read_fields_cons in Er. unfold sbind in Er.
    destruct (read_field h cls None (eager (plain i)) [] (s, E)) as [[[]|e] [s1 E1]] eqn:Ei; [|discriminate].
    assert (O1 : stream_ok s1). { pose proof (proj2 (keeps_all h) (eager (plain i)) cls None [] s E O) as K. rewrite Ei in K. exact K. }
    destruct (look_step pre i l s E o s1 E1 F O R Ei) as (o1 & X1 & R1).
    destruct (IH (pre ++ [i]) s1 E1 o1 s' E') as (o' & X2 & R2); [now rewrite <- app_assoc|exact O1|rewrite app_length; cbn [List.length]; now rewrite Nat.add_1_r|exact Er|].
    exists o'. split; [|exact R2]. rewrite app_length in X2. cbn [List.length] in X2. rewrite Nat.add_1_r in X2. cbn [read_look_items]. unfold sbind. now rewrite X1.
Qed.
Lemma look_is_eager_ s E s' : stream_ok s -> read h (MStruct cls None (map eager items)) [] s = (Ok (VObj cls E), s') ->
  exists o, look_read h cls fields s = (Ok o, s') /\ forall us, history_lazy h cls None items us o = history_eager h cls None (map eager items) us E.
Proof.
  intros O Er. rewrite read_struct in Er.
  destruct (read_fields h cls None (map eager items) [] (s, new_attrs (map eager items) [])) as [[[]|e] [s1 E1]] eqn:X; [|discriminate].
  injection Er as -> ->.
  destruct (look_rest fields [] s (new_attrs (map eager items) []) (lazy_new items []) s' E eq_refl O) as (o & Y & R); [|exact X|].
  - split; cbn [lo_data lazy_new pending List.length]; [discriminate| |lia]. intros n H. apply (new_off items Hok). intros G.
    destruct (group_of items n G) as (k & fs & Hk & I). destruct (H k fs Hk I). lia.
  - exists o. split; [unfold look_read; fold items; cbn [List.length] in Y; now rewrite Y|]. intros us. apply history_refines; auto. now apply seen_refines.
Qed.
End Look.
Lemma look_is_eager h cls fields s E s' :
  (forall pre i post, fields = pre ++ i :: post -> look_ok h (flat_map container_names post) i) ->
  NoDup (flat_map item_names (map plain fields)) -> stream_ok s ->
  read h (MStruct cls None (map eager (map plain fields))) [] s = (Ok (VObj cls E), s') ->
  exists o, look_read h cls fields s = (Ok o, s')
    /\ forall us, history_lazy h cls None (map plain fields) us o = history_eager h cls None (map eager (map plain fields)) us E.
Proof.
  intros H N. apply look_is_eager_; auto. apply Forall_forall. intros x I. apply in_map_iff in I as (i & <- & I).
  apply in_split in I as (pre & post & F). specialize (H pre i post F). destruct i as [[f|fs]|n m p d|n q k d]; cbn [plain lazy_ok]; auto.
Qed.
(** A broken container is found out when a field behind it looks. *)
Lemma look_error h cls fs post s e s' q rest_ m n d : Forall lazy_field_ok fs -> (exists size, lazy_size fs = Ok size /\ size <= maxsize) -> stream_ok s ->
  In q (flat_map stored_names fs) ->
  read h (MStruct cls None [FGroup fs]) [] s = (Err e, s') ->
  fst (look_read h cls (LItem (ILazy fs) :: LOptional n m (Look q rest_) d :: post) s) = Err e.
Proof.
  intros Kf (size & Ks & Kb) O Hn Er. pose proof (contained_lazy fs Kf) as Cf. pose proof (lazy_size_span fs Cf size Ks) as Es.
  assert (N0 : 0 <= span_fields fs) by (apply span_fields_nonneg; [apply Forall_forall; intros; now apply span_nonneg_all|exact Cf]).
  set (data := firstn (Z.to_nat size) (rest s)). destruct (stream_of_ok data) as [Od Rd].
  destruct (group_local h fs Cf cls None [] [] s (stream_of data) O Od) as (r & k & vals & V1 & V2 & K & Ko).
  { rewrite Rd. unfold data. rewrite Es, firstn_firstn. now rewrite Nat.min_id. }
  rewrite read_struct, read_fields_cons in Er. unfold sbind in Er. rewrite read_group, V1 in Er.
  destruct r as [u|e']; [discriminate|]. injection Er as -> _.
  unfold look_read. set (o0 := lazy_new _ []). cbn [read_look_items]. unfold sbind at 1. cbn [read_look_item]. unfold read_item at 1. cbn [fst snd].
  rewrite Ks, sread_ok by (auto; lia). unfold sbind at 1. cbn [read_look_item run_look fst snd]. unfold lazy_get. cbn [map plain owner].
  rewrite (proj2 (lazy_names_in fs q Kf) Hn). unfold sbind at 1 2, instantiate. cbn [lo_data pending Nat.eqb lo_attrs]. fold data. rewrite V2. reflexivity.
Qed.

(** ** Nothing is decoded before it is looked at *)
Section Untouched.
Variables (h : host) (cls : name) (fields : list look_item) (k : nat) (fs : list field).
Hypothesis Hok : Forall lazy_ok (map plain fields).
Hypothesis Hk : nth_error (map plain fields) k = Some (ILazy fs).

Lemma get_untouched n o : ~ In n (flat_map stored_names fs) -> pending k (lo_data (snd (lazy_get h cls None (map plain fields) n o))) = pending k (lo_data o).
Proof.
  intros Hn. unfold lazy_get. destruct (owner 0 (map plain fields) n) as [[k' fs']|] eqn:Ow; [|reflexivity].
  destruct (owner_some _ n Hok _ _ _ Ow) as (_ & Hk' & I). rewrite Nat.sub_0_r in Hk'.
  assert (Nk : k <> k') by (intros <-; congruence).
  unfold sbind at 1, instantiate. destruct (pending k' (lo_data o)) as [[data c]|]; [|reflexivity].
  destruct (read_fields h cls None fs' c (stream_of data, lo_attrs o)) as [[u|e] [s1 a1]]; cbn [snd lo_data]; cbn; rewrite pending_forget; destruct (Nat.eqb_spec k k'); auto; lia.
Qed.
Lemma run_untouched {A} (p : look A) : looks_past (flat_map stored_names fs) p -> forall o, pending k (lo_data (snd (run_look h cls fields p o))) = pending k (lo_data o).
Proof.
  induction 1 as [r|n c Hn _ IH]; intros o; [reflexivity|]. cbn [run_look]. unfold sbind. pose proof (get_untouched n o Hn) as G.
  destruct (lazy_get h cls None (map plain fields) n o) as [[v|e] o1]; cbn [snd] in *; [|exact G]. now rewrite IH.
Qed.
Lemma value_untouched n m st : lo_data (snd (snd (read_value h cls n m st))) = lo_data (snd st).
Proof. unfold read_value. now destruct (read h m _ (fst st)) as [[v|e] s']. Qed.
Lemma step_untouched j i st : j <> k -> item_looks_past (flat_map stored_names fs) i ->
  pending k (lo_data (snd (snd (read_look_item h cls fields j i st)))) = pending k (lo_data (snd st)).
Proof.
  intros Nj L. destruct i as [[f|gs]|n m p d|n q c d]; cbn [read_look_item item_looks_past] in *.
  - unfold read_item. destruct (read_field h cls None f [] (fst st, lo_attrs (snd st))) as [r [s' a']]. reflexivity.
  - unfold read_item. destruct (lazy_size gs) as [z|e]; [|reflexivity]. destruct (sread z (fst st)) as [[data|e] s']; [|reflexivity].
    cbn [snd lo_data pending]. destruct (Nat.eqb_spec j k); [lia|]. rewrite pending_forget. destruct (Nat.eqb_spec k j); [lia|reflexivity].
  - pose proof (run_untouched p L (snd st)) as R. destruct (run_look h cls fields p (snd st)) as [[[|]|e] o1]; cbn [snd] in *; try exact R. now rewrite value_untouched.
  - pose proof (get_untouched q (snd st) L) as R. destruct (lazy_get h cls None (map plain fields) q (snd st)) as [[v|e] o1]; cbn [snd] in *; try exact R. now rewrite value_untouched.
Qed.
Lemma rest_untouched : forall l j st, (k < j)%nat -> Forall (item_looks_past (flat_map stored_names fs)) l ->
  pending k (lo_data (snd (snd (read_look_items h cls fields j l st)))) = pending k (lo_data (snd st)).
Proof.
  induction l as [|i l IH]; intros j st L F; [reflexivity|]. inversion F as [|? ? F1 F2]; subst. cbn [read_look_items]. unfold sbind.
  pose proof (step_untouched j i st ltac:(lia) F1) as S1. destruct (read_look_item h cls fields j i st) as [[u|e] st1]; cbn [snd] in *; [|exact S1]. now rewrite IH by (auto; lia).
Qed.
End Untouched.
Lemma read_look_app h cls fields : forall l1 l2 j st, read_look_items h cls fields j (l1 ++ l2) st
  = match read_look_items h cls fields j l1 st with (Ok _, st1) => read_look_items h cls fields (j + List.length l1) l2 st1 | (Err e, st1) => (Err e, st1) end.
Proof.
  induction l1 as [|i l IH]; intros l2 j st; cbn [app read_look_items List.length]; [now rewrite Nat.add_0_r|]. unfold sbind.
  destruct (read_look_item h cls fields j i st) as [[u|e] st1]; [|reflexivity]. rewrite IH. now replace (S j + List.length l)%nat with (j + S (List.length l))%nat by lia.
Qed.
Lemma container_untouched h cls pre fs post s o s' : (forall i, In i (pre ++ LItem (ILazy fs) :: post) -> forall gs, plain i = ILazy gs -> item_ok h (ILazy gs)) ->
  Forall (item_looks_past (container_names (LItem (ILazy fs)))) post ->
  look_read h cls (pre ++ LItem (ILazy fs) :: post) s = (Ok o, s') -> is_instantiated (List.length pre) o = false.
Proof.
  intros H F. unfold look_read. set (fields := pre ++ LItem (ILazy fs) :: post) in *. unfold fields at 2.
  assert (Hok : Forall lazy_ok (map plain fields)).
  { apply Forall_forall. intros x I. apply in_map_iff in I as (i & <- & I). specialize (H i I). destruct (plain i) as [f|gs]; [exact Logic.I|]. now apply H. }
  assert (Hk : nth_error (map plain fields) (List.length pre) = Some (ILazy fs)).
  { unfold fields. rewrite map_app. cbn [map]. rewrite nth_error_app2 by (rewrite map_length; lia). now rewrite map_length, Nat.sub_diag. }
  rewrite (container_group (LItem (ILazy fs))) in F; [|apply (proj1 (Forall_forall _ _) Hok); cbn [plain]; eapply nth_error_In; exact Hk]. cbn [plain group_names] in F.
  rewrite read_look_app. destruct (read_look_items h cls fields 0 pre _) as [[u|e] st1]; [|destruct st1; cbn [fst snd]; intros X; discriminate X]. cbn [Nat.add read_look_items]. unfold sbind. cbn [read_look_item].
  unfold read_item. destruct (lazy_size fs) as [z|e]; [|destruct st1; cbn [fst snd]; intros X; discriminate X]. destruct (sread z (fst st1)) as [[data|e] s1]; [|intros X; discriminate X].
  cbn beta iota. match goal with |- context [read_look_items h cls fields (S (List.length pre)) post ?st] => set (st2 := st) end.
  pose proof (rest_untouched h cls fields (List.length pre) fs Hok Hk post (S (List.length pre)) st2 ltac:(lia) F) as P.
  destruct (read_look_items h cls fields (S (List.length pre)) post st2) as [[v|e] [s3 o3]]; [|intros X; discriminate X]. intros X. injection X as <- <-.
  unfold is_instantiated. cbn [snd] in P. rewrite P. unfold st2. cbn [snd lo_data pending]. now rewrite Nat.eqb_refl.
Qed.

(** ** What was looked at is decoded *)
Section Decoded.
Variables (h : host) (cls : name) (fields : list look_item) (k : nat) (fs : list field).
Hypothesis Hok : Forall lazy_ok (map plain fields).
Hypothesis Hk : nth_error (map plain fields) k = Some (ILazy fs).
Hypothesis Hnd : NoDup (flat_map item_names (map plain fields)).

Lemma get_decoded n o : pending k (lo_data o) = None \/ In n (flat_map stored_names fs) -> pending k (lo_data (snd (lazy_get h cls None (map plain fields) n o))) = None.
Proof.
  intros H. unfold lazy_get. destruct (owner 0 (map plain fields) n) as [[k' fs']|] eqn:Ow.
  - destruct (owner_some _ n Hok _ _ _ Ow) as (_ & Hk' & I). rewrite Nat.sub_0_r in Hk'.
    assert (D : pending k (lo_data o) = None \/ k = k').
    { destruct H as [H|H]; [now left|right]. eapply (group_unique (map plain fields) Hnd); eauto. }
    unfold sbind at 1, instantiate. destruct (pending k' (lo_data o)) as [[data c]|] eqn:P.
    + destruct (read_fields h cls None fs' c (stream_of data, lo_attrs o)) as [[u|e] [s1 a1]]; cbn [snd lo_data]; cbn; rewrite pending_forget; destruct (Nat.eqb_spec k k'); auto; destruct D; auto; lia.
    + cbn. destruct D as [D| -> ]; [exact D|exact P].
  - destruct H as [H|H]; [exact H|]. exfalso. apply (owner_none _ n Hok 0 Ow). eapply not_group; eauto.
Qed.
Lemma run_decoded {A} (p : look A) : forall o, pending k (lo_data o) = None -> pending k (lo_data (snd (run_look h cls fields p o))) = None.
Proof.
  induction p as [n c IH|r]; intros o P; [|exact P]. cbn [run_look]. unfold sbind. pose proof (get_decoded n o (or_introl P)) as G.
  destruct (lazy_get h cls None (map plain fields) n o) as [[v|e] o1]; cbn [snd] in *; [|exact G]. now apply IH.
Qed.
(** Looking at the field first. *)
Definition looks_first (i : look_item) : Prop :=
  match i with LOptional _ _ (Look q _) _ => In q (flat_map stored_names fs) | LCounted _ q _ _ => In q (flat_map stored_names fs) | _ => False end.
Lemma step_decoded j i st : j <> k -> pending k (lo_data (snd st)) = None \/ looks_first i ->
  pending k (lo_data (snd (snd (read_look_item h cls fields j i st)))) = None.
Proof.
  intros Nj L. destruct i as [[f|gs]|n m p d|n q c d]; cbn [read_look_item looks_first] in *.
  - destruct L as [L|[]]. unfold read_item. destruct (read_field h cls None f [] (fst st, lo_attrs (snd st))) as [r [s' a']]. exact L.
  - destruct L as [L|[]]. unfold read_item. destruct (lazy_size gs) as [z|e]; [|exact L]. destruct (sread z (fst st)) as [[data|e] s']; [|exact L].
    cbn [snd lo_data pending]. destruct (Nat.eqb_spec j k); [lia|]. rewrite pending_forget. destruct (Nat.eqb_spec k j); [lia|exact L].
  - assert (R : pending k (lo_data (snd (run_look h cls fields p (snd st)))) = None).
    { destruct L as [L|L]; [now apply run_decoded|]. destruct p as [q c|r]; [|contradiction]. cbn [run_look]. unfold sbind.
      pose proof (get_decoded q (snd st) (or_intror L)) as G. destruct (lazy_get h cls None (map plain fields) q (snd st)) as [[v|e] o1]; cbn [snd] in *; [|exact G]. now apply run_decoded. }
    destruct (run_look h cls fields p (snd st)) as [[[|]|e] o1]; cbn [snd] in *; try exact R. now rewrite value_untouched.
  - pose proof (get_decoded q (snd st) L) as R. destruct (lazy_get h cls None (map plain fields) q (snd st)) as [[v|e] o1]; cbn [snd] in *; try exact R. now rewrite value_untouched.
Qed.
Lemma rest_decoded : forall l j st, (k < j)%nat -> pending k (lo_data (snd st)) = None ->
  pending k (lo_data (snd (snd (read_look_items h cls fields j l st)))) = None.
Proof.
  induction l as [|i l IH]; intros j st L P; [exact P|]. cbn [read_look_items]. unfold sbind.
  pose proof (step_decoded j i st ltac:(lia) (or_introl P)) as S1. destruct (read_look_item h cls fields j i st) as [[u|e] st1]; cbn [snd] in *; [|exact S1]. apply IH; [lia|exact S1].
Qed.
End Decoded.
Lemma container_decoded h cls pre fs mid i post s o s' : let fields := pre ++ LItem (ILazy fs) :: mid ++ i :: post in
  (forall j, In j fields -> forall gs, plain j = ILazy gs -> item_ok h (ILazy gs)) -> NoDup (flat_map item_names (map plain fields)) ->
  looks_first fs i -> look_read h cls fields s = (Ok o, s') -> is_instantiated (List.length pre) o = true.
Proof.
  intros fields H N F. unfold look_read.
  assert (Hok : Forall lazy_ok (map plain fields)).
  { apply Forall_forall. intros x I. apply in_map_iff in I as (j & <- & I). specialize (H j I). destruct (plain j) as [f|gs]; [exact Logic.I|]. now apply H. }
  assert (Hk : nth_error (map plain fields) (List.length pre) = Some (ILazy fs)).
  { unfold fields. rewrite map_app. cbn [map]. rewrite nth_error_app2 by (rewrite map_length; lia). now rewrite map_length, Nat.sub_diag. }
  replace (read_look_items h cls fields 0 fields) with (read_look_items h cls fields 0 ((pre ++ LItem (ILazy fs) :: mid) ++ i :: post)) by (unfold fields; now rewrite <- app_assoc).
  rewrite read_look_app. set (q := (0 + List.length (pre ++ LItem (ILazy fs) :: mid))%nat).
  assert (Hq : (List.length pre < q)%nat) by (unfold q; rewrite app_length; cbn [List.length]; lia).
  destruct (read_look_items h cls fields 0 (pre ++ LItem (ILazy fs) :: mid) _) as [[u|e] st1]; [|destruct st1; intros X; discriminate X].
  cbn [read_look_items]. unfold sbind. pose proof (step_decoded h cls fields (List.length pre) fs Hok Hk N q i st1 ltac:(lia) (or_intror F)) as P.
  destruct (read_look_item h cls fields q i st1) as [[u'|e] st2]; [|destruct st2; intros X; discriminate X]. cbn [snd] in P.
  pose proof (rest_decoded h cls fields (List.length pre) fs Hok Hk N post (S q) st2 ltac:(lia) P) as P'.
  destruct (read_look_items h cls fields (S q) post st2) as [[v|e] [s3 o3]]; [|intros X; discriminate X]. intros X. injection X as <- <-.
  unfold is_instantiated. cbn [snd] in P'. now rewrite P'.
Qed.
