(** Objects in objects, at every depth: the same bytes, and what pack() leaves in them. *)
From Verif Require Import Base BaseProofs Marshal FieldSpec FieldFacts Range IoBuffer IoSpec IoProofs IoFacts IoOutput Serialize SerializeSpec SerializeFacts SerializeLists RefEngine RefSpec RefProofs BufferModel BufferSpec BufferMacros
  BufferFacts BufferPack BufferTrip BufferConds BufferBuilders BufferNested BufferHooks RepeatSpec RepeatFacts Deep DeepSpec DeepFacts.
From Coq Require Import ZArith List Bool String Lia.
Import ListNotations.
Open Scope list_scope.

(** ** Children *)
Section Child.
Variables K K' : cls.
Hypothesis Hres : forall a, fst (buffer_pack K' a) = fst (buffer_pack K a).
Notation D := (fun _ : name => Some K').
Lemma pack_object_result v : fst (pack_object D v) = pack_buffer K v.
Proof. destruct v; try reflexivity. cbn [pack_object pack_buffer]. rewrite <- Hres. destruct (buffer_pack K' attrs) as [[l|e] a']; reflexivity. Qed.
Lemma pack_objects_result l : forall acc, fst (pack_objects D l acc) = pack_elems (pack_buffer K) l acc.
Proof.
  induction l as [|v l IH]; intros acc; [reflexivity|]. cbn [pack_objects pack_elems]. rewrite <- pack_object_result. destruct (pack_object D v) as [[b|e] v']; cbn [fst rbind]; [|reflexivity].
  destruct (run_ba _ acc) as [acc'|e]; cbn [rbind fst]; [|reflexivity]. rewrite <- IH. destruct (pack_objects D l acc'); reflexivity.
Qed.
Lemma pack_object_list_result v : fst (pack_object_list D v) = pack_list (pack_buffer K) v.
Proof.
  destruct v; try reflexivity. cbn [pack_object_list pack_list]. rewrite <- pack_objects_result. destruct (pack_objects D l (new_baa [])) as [[x|e] l']; reflexivity.
Qed.
Lemma child_result s f : child_field s K f -> forall args v n, f_pack f args v n = fst (child_pack s K' v).
Proof.
  destruct s; cbn [child_field child_pack].
  - intros (nm & sel & z & k & ->) args v n. cbn [buffer_field build f_pack]. now rewrite pack_object_result.
  - intros (nm & m & sel & k & ->) args v n. cbn [list_field build f_pack elem_pack]. now rewrite pack_object_list_result.
Qed.
Lemma child_args s f : child_field s K f -> f_pack_args f = [].
Proof. destruct s; [intros (nm & sel & z & k & ->)|intros (nm & m & sel & k & ->)]; reflexivity. Qed.

Lemma pack_object_inv v b v' : pack_object D v = (Ok b, v') -> exists bytes, b = BArr bytes /\ object_packed K' v bytes v'.
Proof.
  destruct v as [| | | | | |nm a]; try discriminate. cbn [pack_object]. destruct (buffer_pack K' a) as [[l|e] a'] eqn:E; [|discriminate]. cbn [rmap]. intros H. injection H as <- <-.
  exists l. split; [reflexivity|]. exists nm, a, a'. auto.
Qed.
Hypothesis Hbytes : packers_ok K.
Lemma object_bytes v bytes v' : object_packed K' v bytes v' -> pack_buffer K v = Ok (BArr bytes) /\ bytes_ok bytes.
Proof.
  intros (nm & a & a' & -> & -> & H). assert (E : pack_buffer K (VObj nm a) = Ok (BArr bytes)) by (cbn [pack_buffer]; rewrite <- Hres, H; reflexivity).
  split; [exact E|]. exact (pack_buffer_bytes K Hbytes _ _ E).
Qed.
Lemma pack_objects_inv l : forall acc x l', pack_objects D l acc = (Ok x, l') -> exists bs, objects_packed K' l bs l'.
Proof.
  induction l as [|v l IH]; intros acc x l' H; cbn [pack_objects] in H; [injection H as <- <-; exists []; constructor|].
  destruct (pack_object D v) as [[b|e] v'] eqn:E; [|discriminate]. destruct (run_ba _ acc) as [acc'|e]; [|discriminate].
  destruct (pack_objects D l acc') as [y r] eqn:E2. injection H as -> <-. destruct (IH _ _ _ E2) as (bs & B). destruct (pack_object_inv _ _ _ E) as (bytes & _ & P).
  exists (bytes :: bs). now constructor.
Qed.
Lemma objects_bits l bs l' : objects_packed K' l bs l' -> Forall2 (packs_as (pack_buffer K)) l (map bits_of_bytes bs).
Proof.
  induction 1 as [|v bytes v' l bs l' P H IH]; cbn [map]; constructor; [|exact IH]. destruct (object_bytes _ _ _ P) as (E & B). exists (BArr bytes). auto.
Qed.
Lemma concat_bytes bs : concat_bits (map bits_of_bytes bs) = bits_of_bytes (List.concat bs).
Proof. unfold concat_bits. induction bs as [|x bs IH]; [reflexivity|]. cbn [map List.concat]. rewrite IH. unfold bits_of_bytes. now rewrite flat_map_app. Qed.
Lemma child_packs s v b v' : child_pack s K' v = (Ok b, v') -> child_packed s K' v b v'.
Proof.
  destruct s; cbn [child_pack child_packed]; [apply pack_object_inv|]. intros H. destruct v as [| | | | |l|]; try discriminate. pose proof (pack_object_list_result (VList l)) as R. rewrite H in R. cbn [fst] in R.
  cbn [pack_object_list] in H. destruct (pack_objects D l (new_baa [])) as [[x|e] l'] eqn:E; [|discriminate]. injection H as <- <-.
  destruct (pack_objects_inv _ _ _ _ E) as (bs & B). destruct (pack_list_spec _ _ _ (objects_bits _ _ _ B)) as (b' & P & V). rewrite P in R. injection R as R. subst b'.
  exists l, bs, l'. rewrite <- concat_bytes. auto.
Qed.

Lemma pack_objects_err l : forall acc e l', ba_ok acc -> (forall v, In v l -> exists nm a, v = VObj nm a) -> pack_objects D l acc = (Err e, l') ->
  exists nm a a' l1 bs l1' l2, buffer_pack K' a = (Err e, a') /\ l = l1 ++ VObj nm a :: l2 /\ l' = l1' ++ VObj nm a' :: l2 /\ objects_packed K' l1 bs l1'.
Proof.
  induction l as [|v l IH]; intros acc e l' Ha Ho H; cbn [pack_objects] in H; [discriminate|].
  destruct (Ho v (or_introl eq_refl)) as (nm & a & ->). cbn [pack_object] in H. destruct (buffer_pack K' a) as [[bytes|e'] a'] eqn:E; cbn [rmap] in H.
  - assert (P : object_packed K' (VObj nm a) bytes (VObj nm a')) by (exists nm, a, a'; auto). destruct (object_bytes _ _ _ P) as (_ & B).
    destruct (extend_bytes bytes acc Ha B) as (acc' & X & Ha' & _). unfold run_ba in H. rewrite X in H. destruct (pack_objects D l acc') as [y r] eqn:E2. injection H as -> <-.
    destruct (IH _ _ _ Ha' (fun v I => Ho v (or_intror I)) E2) as (nm2 & a2 & a2' & l1 & bs & l1' & l2 & Q & -> & -> & F).
    exists nm2, a2, a2', (VObj nm a :: l1), (bytes :: bs), (VObj nm a' :: l1'), l2. split; [exact Q|]. split; [reflexivity|]. split; [reflexivity|]. now constructor.
  - injection H as <- <-. exists nm, a, a', [], [], [], l. split; [exact E|]. split; [reflexivity|]. split; [reflexivity|]. constructor.
Qed.
Lemma child_fails s v e v' : objects s v -> child_pack s K' v = (Err e, v') -> child_failed s K' v e v'.
Proof.
  intros O H. destruct O as [nm a|l O]; cbn [child_pack] in H.
  - cbn [pack_object] in H. destruct (buffer_pack K' a) as [[bytes|e'] a'] eqn:E; cbn [rmap] in H; [discriminate|]. injection H as <- <-. exists nm, a, a'. auto.
  - cbn [pack_object_list] in H. destruct (pack_objects D l (new_baa [])) as [[x|e'] l'] eqn:E; cbn [rmap] in H; [discriminate|]. injection H as <- <-.
    assert (N : ba_ok (new_baa [])) by (apply new_baa_ok; constructor).
    destruct (pack_objects_err l _ _ _ N O E) as (nm & a & a' & l1 & bs & l1' & l2 & Q & -> & -> & F). exists nm, a, a'. split; [exact Q|]. exists l1, bs, l1', l2. auto.
Qed.

Hypothesis Hagain : forall a l a', buffer_pack K' a = (Ok l, a') -> buffer_pack K' a' = (Ok l, a').
Lemma pack_object_again v b w : pack_object D v = (Ok b, w) -> pack_object D w = (Ok b, w).
Proof.
  intros H. destruct (pack_object_inv _ _ _ H) as (bytes & -> & nm & a & a' & -> & -> & E). cbn [pack_object]. now rewrite (Hagain _ _ _ E).
Qed.
Lemma pack_objects_again l : forall acc x l', pack_objects D l acc = (Ok x, l') -> pack_objects D l' acc = (Ok x, l') /\ List.length l' = List.length l.
Proof.
  induction l as [|v l IH]; intros acc x l' H; cbn [pack_objects] in H; [injection H as <- <-; auto|].
  destruct (pack_object D v) as [[b|e] v'] eqn:E; [|discriminate]. destruct (run_ba _ acc) as [acc'|e] eqn:Er; [|discriminate].
  destruct (pack_objects D l acc') as [y r] eqn:E2. injection H as -> <-. destruct (IH _ _ _ E2) as (I1 & I2).
  cbn [pack_objects List.length]. rewrite (pack_object_again _ _ _ E), Er, I1. split; [reflexivity|congruence].
Qed.
Lemma child_settles s v b w : child_pack s K' v = (Ok b, w) -> child_pack s K' w = (Ok b, w) /\ py_len (RVal w) = py_len (RVal v).
Proof.
  destruct s; cbn [child_pack]; intros H.
  - split; [now apply pack_object_again in H|]. destruct (pack_object_inv _ _ _ H) as (bytes & -> & nm & a & a' & -> & -> & E). reflexivity.
  - destruct v as [| | | | |l|]; try discriminate. cbn [pack_object_list] in H. destruct (pack_objects D l (new_baa [])) as [[x|e] l'] eqn:E; [|discriminate]. injection H as <- <-.
    destruct (pack_objects_again _ _ _ _ E) as (I1 & I2). cbn [pack_object_list]. rewrite I1. split; [reflexivity|]. cbn [py_len]. unfold zlen. now rewrite I2.
Qed.
End Child.

(** ** Packing again *)
Lemma memory_alike C computed nested alike o1 o2 i : repeatable C computed nested alike -> NoDup (map f_name (k_fields C)) -> same_inputs C computed nested alike o1 o2 ->
  packed_in C o1 i <-> packed_in C o2 i.
Proof.
  intros Hr Hn Hs. assert (Hw : worlds C computed nested alike o1 o2 (start_pack o1) (start_pack o2)).
  { split; [|split; [|reflexivity]]; cbn [start_pack w_ctx w_st]; [split; [reflexivity|constructor]|]. exists []. repeat split. constructor. }
  pose proof (pack_fields_sim C computed nested alike Hr Hn o1 o2 Hs _ (incl_refl _) _ _ Hw) as H. unfold packed_in, after_pack.
  destruct (sforeach (numbered C) _ (start_pack o1)) as [[[]|e] w1], (sforeach (numbered C) _ (start_pack o2)) as [[[]|e'] w2]; try contradiction;
    destruct H as (_ & H & _); pose proof (contexts_look C nested alike _ _ (mkRid KPack i) H) as L; cbn [snd];
    destruct (RefEngine.lookup rid_eqb (mkRid KPack i) (c_cache (w_ctx w1))), (RefEngine.lookup rid_eqb (mkRid KPack i) (c_cache (w_ctx w2))); try contradiction; split; congruence.
Qed.

Section Again.
Variable C : cls.
Variable nest : nat -> option (value -> res buf * value).
Hypothesis Hfun : no_functions C.
Hypothesis Hok : cls_ok C.
Hypothesis Hnames : NoDup (map f_name (k_fields C)).
Hypothesis Hnest : forall i f pk, nth_error (k_fields C) i = Some f -> nest i = Some pk ->
  f_before f = None /\ f_pack_args f = [] /\ forall args v n, f_pack f args v n = fst (pk v).
Variable nestb : nat -> bool.
Hypothesis Hnestb : forall i pk, nest i = Some pk -> nestb i = true.
Hypothesis Hrep : repeatable C (assigned_name C) nestb (fun _ _ _ => False).
Hypothesis Hset : forall i pk v b w, nest i = Some pk -> pk v = (Ok b, w) -> pk w = (Ok b, w) /\ py_len (RVal w) = py_len (RVal v).
Notation C' := (deepen C nest).
Definition packs_to (i : nat) (v w : value) : Prop := exists pk b, nest i = Some pk /\ pk v = (Ok b, w).
Lemma rep : repeatable C (assigned_name C) nestb packs_to.
Proof.
  destruct Hrep as (Hu & Hf). split.
  - apply Forall_forall. intros u Hin. pose proof (proj1 (Forall_forall _ _) Hu u Hin) as P. pose proof (proj1 (Forall_forall _ _) (proj1 (proj1 Hfun)) u Hin) as Q.
    destruct u; cbn [repeats_user plain_user] in *; auto. contradiction.
  - intros i f E. destruct (Hf i f E) as (P1 & P2 & P3 & P4 & P5). pose proof (proj1 (Forall_forall _ _) (proj2 Hfun) f (nth_error_In _ _ E)) as B. cbv beta in B.
    split; [exact P1|]. split; [exact P2|]. split; [exact P3|]. split; [destruct (f_before f) as [[]|]; auto; contradiction|].
    intros N. split; [exact (proj1 (P5 N))|]. intros v w (pk & b & Hp & E1). destruct (Hset i pk v b w Hp E1) as (S1 & S2). destruct (Hnest i f pk E Hp) as (_ & _ & H3).
    split; [congruence|]. intros args n. rewrite !H3, E1, S1. reflexivity.
Qed.
Lemma name_cases n : (exists i f pk, nth_error (k_fields C) i = Some f /\ nest i = Some pk /\ f_name f = n) \/ flat C nest n.
Proof.
  destruct (find_field n (numbered C)) as [i|] eqn:E.
  - assert (G : exists f, nth_error (k_fields C) i = Some f /\ f_name f = n).
    { assert (X : forall l, find_field n l = Some i -> exists f, In (i, f) l /\ f_name f = n).
      { induction l as [|[j g] l IH]; cbn [find_field]; [discriminate|]. destruct (String.eqb_spec (f_name g) n) as [Eg|Ng].
        - intros H. injection H as ->. exists g. split; [now left|exact Eg].
        - intros H. destruct (IH H) as (f & F1 & F2). exists f. split; [now right|exact F2]. }
      destruct (X _ E) as (f & F1 & F2). exists f. split; [now apply numbered_in|exact F2]. }
    destruct G as (f & F1 & F2). destruct (nest i) as [pk|] eqn:Hp; [left; exists i, f, pk; auto|]. right. rewrite <- F2. eapply flat_other; eauto.
  - right. intros i f pk Hf _. apply (RepeatFacts.find_none _ _ E i f). now apply numbered_in.
Qed.
Lemma packed_dec o i : packed_in C o i \/ ~ packed_in C o i.
Proof. unfold packed_in. destruct (RefEngine.lookup rid_eqb (mkRid KPack i) _); [left; discriminate|right; auto]. Qed.
Theorem deep_again o bytes o2 : buffer_pack C' o = (Ok bytes, o2) -> buffer_pack C' o2 = (Ok bytes, o2).
Proof.
  intros H. pose proof (deep_result C nest Hfun Hok Hnames Hnest o) as R. rewrite H in R. cbn [fst] in R. destruct (buffer_pack C o) as [x o1] eqn:E1. cbn [fst] in R. subst x.
  destruct (deep_object C nest Hfun Hok Hnames Hnest o bytes o1 E1) as (o2' & X & N2 & F2 & _). rewrite H in X. injection X as <-.
  assert (S : same_inputs C (assigned_name C) nestb packs_to o o2).
  { intros n Hn. destruct (name_cases n) as [(i & f & pk & Hf & Hp & En)|F].
    - destruct (N2 i f pk Hf Hp) as (N3 & N4). rewrite En in *. destruct (packed_dec o i) as [P|P].
      + destruct (N3 P) as (v & b & V1 & V2 & V3 & _). right. exists i, f, v, (snd (pk v)). split; [exact Hf|]. split; [exact (Hnestb i pk Hp)|]. split; [exact En|].
        split; [exact V1|]. split; [exact V3|]. exists pk, b. split; [exact Hp|]. rewrite <- V2. apply surjective_pairing.
      + left. symmetry. now apply N4.
    - left. rewrite (F2 n F). destruct (pack_alike C _ _ _ rep Hnames o o (same_refl _ _ _ _ _)) as (r & W & FW & E & _). rewrite E1 in E. injection E as _ ->.
      symmetry. apply lookup_assign_other. intros Hin. apply in_map_iff in Hin. destruct Hin as (p & <- & Hp). apply Hn. exact (proj1 (Forall_forall _ _) FW p Hp). }
  destruct (pack_alike C _ _ _ rep Hnames o o2 S) as (r & W & FW & E & E2). rewrite E1 in E. injection E as <- ->.
  destruct (deep_object C nest Hfun Hok Hnames Hnest o2 bytes _ E2) as (o3 & E3 & N5 & F5 & U & EU). rewrite E3. f_equal.
  assert (L : forall n, Marshal.lookup o3 n = Marshal.lookup o2 n).
  { intros n. destruct (name_cases n) as [(i & f & pk & Hf & Hp & En)|F].
    - destruct (N5 i f pk Hf Hp) as (N6 & N7). destruct (N2 i f pk Hf Hp) as (N3 & _). rewrite En in *. destruct (packed_dec o2 i) as [P|P]; [|now apply N7].
      destruct (N6 P) as (v2 & b2 & V1 & V2 & V3 & _). apply (memory_alike C _ _ _ o o2 i rep Hnames S) in P. destruct (N3 P) as (v & b & V4 & V5 & V6 & _).
      rewrite V6 in V1. injection V1 as V1. destruct (Hset i pk v b (snd (pk v)) Hp) as (S1 & _); [rewrite <- V5; apply surjective_pairing|].
      rewrite V3, V6. rewrite <- V1, S1. reflexivity.
    - rewrite (F5 n F). destruct (in_dec String.string_dec n (map fst W)) as [D|D]; [|now apply lookup_assign_other].
      rewrite (F2 n F). now apply lookup_assign_in. }
  rewrite EU. apply assign_kept; intros n Hn; [|rewrite <- EU; apply L]. unfold has. rewrite <- (L n), EU. apply (has_assign U o2 n). now left.
Qed.
End Again.

(** ** At every depth *)
Lemma nest_ok C kids : holds_objects C kids -> (forall i s K K' a, kids i = Some (s, K, K') -> fst (buffer_pack K' a) = fst (buffer_pack K a)) ->
  forall i f pk, nth_error (k_fields C) i = Some f -> packers_of kids i = Some pk -> f_before f = None /\ f_pack_args f = [] /\ forall args v n, f_pack f args v n = fst (pk v).
Proof.
  intros (_ & _ & _ & _ & _ & H) R i f pk Hf Hp. unfold packers_of in Hp. destruct (kids i) as [[[s K] K']|] eqn:Ek; [|discriminate]. injection Hp as <-.
  destruct (H i f s K K' Hf Ek) as (F & B). split; [exact B|]. split; [exact (child_args K s f F)|]. apply (child_result K K'); [|exact F]. intros a. exact (R _ _ _ _ a Ek).
Qed.
Fixpoint with_objects_all C C' (H : with_objects C C') {struct H} :
  packers_ok C /\ (forall o, fst (buffer_pack C' o) = fst (buffer_pack C o)) /\ (forall o bytes o', buffer_pack C' o = (Ok bytes, o') -> buffer_pack C' o' = (Ok bytes, o')).
Proof.
  destruct H as [C kids Hh Hk]. assert (IH := fun i s K K' E => with_objects_all K K' (Hk i s K K' E)). clear with_objects_all Hk.
  pose proof (nest_ok C kids Hh (fun i s K K' a E => proj1 (proj2 (IH i s K K' E)) a)) as N. destruct Hh as (H1 & H2 & H3 & H4 & H5 & H6).
  split; [exact H4|]. split; [intros o; now apply deep_result|]. intros o bytes o' E. apply (deep_again C (packers_of kids)) with (o := o) (nestb := is_child kids); auto.
  - intros i pk Hp. unfold is_child, packers_of in *. now destruct (kids i).
  - intros i pk v b w Hp Ev. unfold packers_of in Hp. destruct (kids i) as [[[s K] K']|] eqn:Ek; [|discriminate]. injection Hp as <-.
    destruct (IH i s K K' Ek) as (_ & _ & A). exact (child_settles K' A s v b w Ev).
Qed.

Theorem deep_children C kids : holds_objects C kids -> (forall i s K K', kids i = Some (s, K, K') -> with_objects K K') ->
  forall o bytes o2, buffer_pack (deepen C (packers_of kids)) o = (Ok bytes, o2) ->
  exists o1 ps m, buffer_pack C o = (Ok bytes, o1) /\ packing C (numbered C) [] (mkBst o None) ps m (mkBst o1 None)
    /\ (forall n, (forall i f, nth_error (k_fields C) i = Some f -> kids i <> None -> f_name f <> n) -> Marshal.lookup o2 n = Marshal.lookup o1 n)
    /\ forall i f s K K', nth_error (k_fields C) i = Some f -> kids i = Some (s, K, K') ->
       (forall b r, nth_error ps i = Some (Some (b, r)) -> exists v v', Marshal.lookup o (f_name f) = Some v /\ child_packed s K' v b v' /\ Marshal.lookup o2 (f_name f) = Some v')
       /\ (nth_error ps i = Some None -> Marshal.lookup o2 (f_name f) = Marshal.lookup o (f_name f)
           \/ exists v b v', Marshal.lookup o (f_name f) = Some v /\ child_packed s K' v b v' /\ Marshal.lookup o2 (f_name f) = Some v').
Proof.
  intros Hh Hk o bytes o2 H. assert (IH := fun i s K K' E => with_objects_all K K' (Hk i s K K' E)).
  pose proof (nest_ok C kids Hh (fun i s K K' a E => proj1 (proj2 (IH i s K K' E)) a)) as N. destruct Hh as (H1 & H2 & H3 & H4 & H5 & H6).
  pose proof (deep_result C _ H1 H2 H3 N o) as R. rewrite H in R. cbn [fst] in R. destruct (buffer_pack C o) as [x o1] eqn:E1. cbn [fst] in R. subst x.
  destruct (deep_object C _ H1 H2 H3 N o bytes o1 E1) as (o2' & X & N2 & F2 & _). rewrite H in X. injection X as <-.
  pose proof E1 as E1'. unfold buffer_pack in E1'. unfold packed_in, after_pack in N2.
  destruct (sforeach (numbered C) (fun p => pack_field C (fst p) (snd p)) (start_pack o)) as [[[]|e] w] eqn:E; [|discriminate]. cbn [snd] in N2.
  destruct (pack_fields_ok _ _ _ _ H4 (wok_new C _) out_ok_new E) as (W & O & Ni & ps & F & P & Q). cbn [start_pack w_st w_ctx w_out new_ctx c_cache s_input] in *.
  injection E1' as _ Eo. exists o1, ps, (c_cache (w_ctx w)). split; [reflexivity|]. split; [destruct (w_st w) as [oo ii]; cbn in *; subst; exact Q|]. split.
  - intros n Hn. apply F2. intros i f pk Hf Hp. apply (Hn i f Hf). unfold packers_of in Hp. intros Z. rewrite Z in Hp. discriminate.
  - intros i f s K K' Hf Hki. assert (Hp : packers_of kids i = Some (child_pack s K')) by (unfold packers_of; now rewrite Hki).
    destruct (N2 i f _ Hf Hp) as (N3 & N4). destruct (IH i s K K' Hki) as (B & Rk & _).
    assert (Z : forall v b, fst (child_pack s K' v) = Ok b -> child_packed s K' v b (snd (child_pack s K' v))).
    { intros v b Ev. apply (child_packs K K' Rk B). rewrite <- Ev. apply surjective_pairing. }
    split.
    + intros b r Hps. pose proof (packing_parts _ _ _ _ _ _ _ Q) as Y. apply Forall2_nth_iff in Y. destruct Y as (_ & Y).
      destruct (Y i _ _ (numbered_nth C i f Hf) Hps) as (c & C1 & C2 & C3). cbn [fst snd] in *. destruct (truthy c) eqn:Tc; [|specialize (C2 eq_refl); discriminate].
      destruct (C3 eq_refl) as (b' & r' & Eb & B1 & _). injection Eb as <- <-. destruct (N3 ltac:(rewrite B1; discriminate)) as (v & b'' & V1 & V2 & V3 & V4).
      rewrite B1 in V4. injection V4 as <-. exists v, (snd (child_pack s K' v)). auto.
    + intros _. destruct (RefEngine.lookup rid_eqb (mkRid KPack i) (c_cache (w_ctx w))) as [u|] eqn:Lu.
      * right. destruct (N3 ltac:(discriminate)) as (v & b & V1 & V2 & V3 & _). exists v, b, (snd (child_pack s K' v)). auto.
      * left. apply N4. auto.
Qed.
