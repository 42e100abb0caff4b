(** Buffer objects: construction, fixed layouts made of the predefined fields, objects inside objects. *)
From Verif Require Import Base BaseProofs Marshal Range RangeRef RangeSpec RangeFacts RangeArith IoBuffer IoSpec IoProofs FieldSpec FieldFacts Serialize SerializeSpec
  RefEngine RefSpec RefProofs RefStatic RefSteady BufferModel BufferSpec SeeSpec BufferPlace BufferFacts BufferPack BufferLayout BufferTrip BufferDep
  BufferMacros BufferCodecSpec BufferCodecs BufferClass.
From Coq Require Import ZArith List Bool String Lia ZifyBool ZifyNat.
Import ListNotations.
Open Scope list_scope.
Open Scope Z_scope.
Ltac Zify.zify_post_hook ::= Z.div_mod_to_equations.

Lemma nth_error_combine {A B} (a : list A) : forall (b : list B) i x y,
  nth_error (combine a b) i = Some (x, y) <-> nth_error a i = Some x /\ nth_error b i = Some y.
Proof.
  induction a as [|u a IH]; intros b i x y; [destruct i; cbn [combine nth_error]; intuition discriminate|].
  destruct b as [|w b]; [destruct i; cbn [combine nth_error]; intuition discriminate|]. destruct i; cbn [combine nth_error]; [|apply IH].
  split; [intros E; injection E as -> ->; auto|intros (E1 & E2); congruence].
Qed.
Lemma numbered_nth C i f : nth_error (k_fields C) i = Some f -> nth_error (numbered C) i = Some (i, f).
Proof.
  intros H. apply nth_error_combine. split; [|exact H]. assert (i < List.length (k_fields C))%nat by (apply nth_error_Some; congruence).
  rewrite (nth_error_nth' _ 0%nat) by (rewrite seq_length; auto). now rewrite seq_nth.
Qed.

(** ** Construction *)
Lemma set_attr_app (a : attrs) n v : Marshal.lookup a n = None -> set_attr a n v = a ++ [(n, v)].
Proof.
  induction a as [|[k w] a IH]; cbn [Marshal.lookup set_attr app]; [reflexivity|]. destruct (String.eqb k n); [discriminate|]. intros H. now rewrite IH.
Qed.
Lemma lookup_none (a : attrs) n : Marshal.lookup a n = None <-> ~ In n (map fst a).
Proof.
  induction a as [|[k w] a IH]; cbn [Marshal.lookup map fst In]; [tauto|]. destruct (String.eqb_spec k n) as [->|N]; [split; [discriminate|tauto]|].
  rewrite IH. intuition congruence.
Qed.
Definition add_default (o : attrs) (f : field) : attrs :=
  match Marshal.lookup o (f_name f) with Some _ => o | None => set_attr o (f_name f) (f_default f) end.
Lemma add_defaults_fresh l : forall o, NoDup (map f_name l) -> (forall f, In f l -> ~ In (f_name f) (map fst o)) ->
  fold_left add_default l o = o ++ map (fun f => (f_name f, f_default f)) l.
Proof.
  induction l as [|f l IH]; intros o Hn Hf; cbn [fold_left map]; [now rewrite app_nil_r|]. cbn [map] in Hn. inversion Hn as [|? ? N1 N2]; subst.
  assert (E : Marshal.lookup o (f_name f) = None) by (apply lookup_none, Hf; now left). unfold add_default at 2. rewrite E, set_attr_app by exact E.
  rewrite IH; [rewrite <- app_assoc; reflexivity|exact N2|]. intros g Hg Hin. rewrite map_app in Hin. apply in_app_or in Hin.
  destruct Hin as [Hin|[Hin|[]]]; [apply (Hf g); [now right|exact Hin]|]. cbn [fst] in Hin. apply N1. rewrite Hin. now apply in_map.
Qed.
(** Without arguments every field has its default. *)
Lemma init_defaults C : NoDup (map f_name (k_fields C)) -> buffer_init C [] = Ok (map (fun f => (f_name f, f_default f)) (k_fields C)).
Proof.
  intros H. unfold buffer_init. cbn [init_kwargs rbind]. f_equal. exact (add_defaults_fresh (k_fields C) [] H (fun _ _ Hin => Hin)).
Qed.
Lemma add_defaults_lookup l : forall o n, Marshal.lookup (fold_left add_default l o) n =
  match Marshal.lookup o n with
  | Some v => Some v
  | None => option_map f_default (find (fun f => String.eqb (f_name f) n) l)
  end.
Proof.
  induction l as [|f l IH]; intros o n; cbn [fold_left find]; [destruct (Marshal.lookup o n); reflexivity|].
  rewrite IH. unfold add_default. destruct (Marshal.lookup o (f_name f)) eqn:E.
  - destruct (Marshal.lookup o n) eqn:E2; [reflexivity|]. destruct (String.eqb_spec (f_name f) n); [congruence|reflexivity].
  - destruct (String.eqb_spec (f_name f) n) as [<-|N].
    + rewrite lookup_set_same, E. reflexivity.
    + rewrite lookup_set_other by exact N. reflexivity.
Qed.
Lemma init_kwargs_spec C kwargs : forall o,
  (Forall (fun p => In (fst p) (map f_name (k_fields C))) kwargs /\ exists o', init_kwargs C kwargs o = Ok o'
     /\ forall n, Marshal.lookup o' n = match Marshal.lookup (rev kwargs) n with Some v => Some v | None => Marshal.lookup o n end)
  \/ (Exists (fun p => ~ In (fst p) (map f_name (k_fields C))) kwargs /\ init_kwargs C kwargs o = Err AssertionError).
Proof.
  induction kwargs as [|[n v] r IH]; intros o; cbn [init_kwargs].
  - left. split; [constructor|]. exists o. split; [reflexivity|]. intros m. reflexivity.
  - destruct (existsb (fun f => String.eqb (f_name f) n) (k_fields C)) eqn:E; cbn [passert rbind].
    + assert (Hin : In n (map f_name (k_fields C))).
      { apply existsb_exists in E. destruct E as (f & F1 & F2). apply String.eqb_eq in F2. subst. now apply in_map. }
      destruct (IH (set_attr o n v)) as [(H1 & o' & H2 & H3)|(H1 & H2)].
      * left. split; [constructor; auto|]. exists o'. split; [exact H2|]. intros m. rewrite H3. cbn [rev]. clear.
        assert (A : forall l, Marshal.lookup (l ++ [(n, v)]) m = match Marshal.lookup l m with Some x => Some x | None => Marshal.lookup [(n, v)] m end).
        { induction l as [|[k w] l IH]; cbn [app Marshal.lookup]; [reflexivity|]. destruct (String.eqb k m); auto. }
        rewrite A. destruct (Marshal.lookup (rev r) m); [reflexivity|]. cbn [Marshal.lookup]. destruct (String.eqb_spec n m) as [->|N].
        -- apply lookup_set_same.
        -- now apply lookup_set_other.
      * right. split; [now right|exact H2].
    + right. split; [left|reflexivity]. cbn [fst]. intros Hin. apply in_map_iff in Hin. destruct Hin as (f & F1 & F2).
      assert (existsb (fun f => String.eqb (f_name f) n) (k_fields C) = true) by (apply existsb_exists; exists f; split; [auto|apply String.eqb_eq; auto]). congruence.
Qed.

(** ** Attributes *)
Lemma attrs_eq (a : attrs) : forall b : attrs, NoDup (map fst a) -> map fst a = map fst b -> (forall n, In n (map fst a) -> Marshal.lookup a n = Marshal.lookup b n) -> a = b.
Proof.
  induction a as [|[n v] a IH]; intros [|[m w] b] Hn Hk Hl; cbn [map fst] in *; try discriminate; [reflexivity|].
  injection Hk as <- Hk. inversion Hn as [|? ? N1 N2]; subst. pose proof (Hl n (or_introl eq_refl)) as E. cbn [Marshal.lookup] in E.
  rewrite String.eqb_refl in E. injection E as <-. f_equal. apply (IH b N2 Hk). intros m Hm. specialize (Hl m (or_intror Hm)). cbn [Marshal.lookup] in Hl.
  destruct (String.eqb_spec n m); [congruence|exact Hl].
Qed.
Lemma holds_lookup a fs lay : holds_layout a fs lay -> forall b, holds_layout b fs lay -> forall n, In n (map f_name fs) -> Marshal.lookup a n = Marshal.lookup b n.
Proof.
  induction 1 as [|f x fs lay H1 H2 IH]; intros b Hb n Hn; [destruct Hn|]. inversion Hb as [|? ? ? ? B1 B2]; subst. destruct Hn as [<-|Hn]; [congruence|auto].
Qed.

(** ** Objects inside objects *)
Lemma layout_restores_seeing C lay o n nm : cls_ok C -> class_layout_seeing C lay o -> apart (places lay) -> layout_size C lay n ->
  NoDup (map f_name (k_fields C)) -> instance C o -> holds_layout o (k_fields C) lay ->
  exists bytes m, largest_stop (List.concat (places lay)) m /\ zlen bytes = (Z.max m (match k_size C with Some k => k | None => 0 end) + 7) / 8
    /\ object_packs C o bytes
    /\ forall b tail, view_with b (bits_of_bytes bytes ++ tail) ->
       (forall i e, nth_error lay i = Some (Some e) -> open_until (e_read e) (e_place e) (fun _ _ => 8 * zlen bytes + 8 * ((zlen tail + 7) / 8))) ->
       unpack_buffer nm C b = Ok (VObj nm o, Some n).
Proof.
  intros Hok Hlay Hap Hs Hn Hi Hh. destruct (layout_roundtrip_seeing C lay o n Hok Hlay Hap Hs Hn) as (bytes & o' & P1 & P2 & (m & P3 & P4) & _ & _ & P5).
  exists bytes, m. split; [exact P3|]. split; [exact P4|]. split; [split; [exact P2|now rewrite P1]|].
  intros b tail (B1 & B2 & B3) Hr. unfold unpack_buffer. rewrite (init_defaults C Hn). cbn [rbind].
  destruct (P5 b tail (map (fun f => (f_name f, f_default f)) (k_fields C)) B1 B3) as (o'' & U1 & U2 & U3 & U4).
  - intros i e He. destruct (Hr i e He) as [E|(l0 & a & E1 & E2 & E3)]; [now left|]. right. exists l0, a. split; [exact E1|]. split; [|exact E3].
    rewrite E2, B3, zlen_app, bits_of_bytes_length. do 4 f_equal. lia.
  - rewrite U1. f_equal. f_equal. f_equal.
    assert (K : map fst (map (fun f => (f_name f, f_default f)) (k_fields C)) = map f_name (k_fields C)) by (rewrite map_map; reflexivity).
    rewrite K in U4. specialize (U4 (incl_refl _)). symmetry. apply attrs_eq.
    + rewrite Hi. exact Hn.
    + now rewrite U4, Hi.
    + intros k Hk. rewrite Hi in Hk. eapply holds_lookup; eauto.
Qed.

Theorem layout_restores_prefix_seeing C lay o n nm : cls_ok C -> class_layout_seeing C lay o -> apart (places lay) -> layout_size C lay n ->
  NoDup (map f_name (k_fields C)) -> instance C o -> holds_layout o (k_fields C) lay ->
  (forall e, In (Some e) lay -> e_read e = e_place e) ->
  exists bytes m, largest_stop (List.concat (places lay)) m /\ zlen bytes = (Z.max m (match k_size C with Some k => k | None => 0 end) + 7) / 8
    /\ restores_prefix nm C o bytes n.
Proof.
  intros Hok Hlay Hap Hs Hn Hi Hh Hr. destruct (layout_restores_seeing C lay o n nm Hok Hlay Hap Hs Hn Hi Hh) as (bytes & m & K1 & K2 & K3 & K4).
  exists bytes, m. split; [exact K1|]. split; [exact K2|]. split; [exact K3|]. intros b rest Hv. apply (K4 b rest Hv).
  intros i e He. left. apply Hr. eapply nth_error_In; eauto.
Qed.
Theorem layout_restores_exact_seeing C lay o n nm m : cls_ok C -> class_layout_seeing C lay o -> apart (places lay) -> layout_size C lay n ->
  NoDup (map f_name (k_fields C)) -> instance C o -> holds_layout o (k_fields C) lay ->
  largest_stop (List.concat (places lay)) m ->
  (forall e, In (Some e) lay -> open_until (e_read e) (e_place e) (fun _ _ => 8 * ((Z.max m (match k_size C with Some k => k | None => 0 end) + 7) / 8))) ->
  exists bytes, zlen bytes = (Z.max m (match k_size C with Some k => k | None => 0 end) + 7) / 8 /\ restores_exact nm C o bytes n.
Proof.
  intros Hok Hlay Hap Hs Hn Hi Hh Hm Hr. destruct (layout_restores_seeing C lay o n nm Hok Hlay Hap Hs Hn Hi Hh) as (bytes & m' & K1 & K2 & K3 & K4).
  pose proof (largest_stop_unique _ _ _ Hm K1) as E. subst m'.
  exists bytes. split; [exact K2|]. split; [exact K3|]. intros b Hv. apply (K4 b []); [now rewrite app_nil_r|].
  intros i e He. apply nth_error_In in He. destruct (Hr e He) as [E|(l0 & a & E1 & E2 & E3)]; [now left|]. right. exists l0, a. split; [exact E1|]. split; [|exact E3]. rewrite E2.
  do 4 f_equal. rewrite K2. unfold zlen. cbn [List.length]. lia.
Qed.

Lemma layout_restores C lay o n nm : cls_ok C -> class_layout C lay o -> apart (places lay) -> layout_size C lay n ->
  NoDup (map f_name (k_fields C)) -> instance C o -> holds_layout o (k_fields C) lay ->
  exists bytes m, largest_stop (List.concat (places lay)) m /\ zlen bytes = (Z.max m (match k_size C with Some k => k | None => 0 end) + 7) / 8
    /\ object_packs C o bytes
    /\ forall b tail, view_with b (bits_of_bytes bytes ++ tail) ->
       (forall i e, nth_error lay i = Some (Some e) -> open_until (e_read e) (e_place e) (fun _ _ => 8 * zlen bytes + 8 * ((zlen tail + 7) / 8))) ->
       unpack_buffer nm C b = Ok (VObj nm o, Some n).
Proof. intros Hok H. exact (layout_restores_seeing C lay o n nm Hok (class_layout_sees C lay o H)). Qed.
Theorem layout_restores_prefix C lay o n nm : cls_ok C -> class_layout C lay o -> apart (places lay) -> layout_size C lay n ->
  NoDup (map f_name (k_fields C)) -> instance C o -> holds_layout o (k_fields C) lay ->
  (forall e, In (Some e) lay -> e_read e = e_place e) ->
  exists bytes m, largest_stop (List.concat (places lay)) m /\ zlen bytes = (Z.max m (match k_size C with Some k => k | None => 0 end) + 7) / 8
    /\ restores_prefix nm C o bytes n.
Proof. intros Hok H. exact (layout_restores_prefix_seeing C lay o n nm Hok (class_layout_sees C lay o H)). Qed.
Theorem layout_restores_exact C lay o n nm m : cls_ok C -> class_layout C lay o -> apart (places lay) -> layout_size C lay n ->
  NoDup (map f_name (k_fields C)) -> instance C o -> holds_layout o (k_fields C) lay ->
  largest_stop (List.concat (places lay)) m ->
  (forall e, In (Some e) lay -> open_until (e_read e) (e_place e) (fun _ _ => 8 * ((Z.max m (match k_size C with Some k => k | None => 0 end) + 7) / 8))) ->
  exists bytes, zlen bytes = (Z.max m (match k_size C with Some k => k | None => 0 end) + 7) / 8 /\ restores_exact nm C o bytes n.
Proof. intros Hok H. exact (layout_restores_exact_seeing C lay o n nm m Hok (class_layout_sees C lay o H)). Qed.

(** ** Fixed layouts *)
Definition slot_entry (x : list srange * value) (b : buf) (used : option Z) : entry := mkEntry (fst x) (fst x) (fst x) (snd x) b used.
(** The place of [x] is all of the entry. *)
Definition entry_of (x : list srange * value) (y : option entry) : Prop := exists b used, y = Some (slot_entry x b used).
Lemma entries_places lay ents : Forall2 entry_of lay ents -> places ents = map fst lay /\ Forall present ents.
Proof.
  induction 1 as [|x y lay ents (b & u & ->) H (IH1 & IH2)]; [split; [reflexivity|constructor]|]. cbn [places flat_map map slot_entry e_place app]. split.
  - f_equal. exact IH1.
  - constructor; [eexists; reflexivity|exact IH2].
Qed.
Lemma slot_laid_out C f x (Hc : Forall closed (fst x)) : slot C f (fst x) (snd x) -> exists b used,
  forall lay o vrank qrank urank i, Marshal.lookup o (f_name f) = Some (snd x) ->
    Forall (fun j => exists e', nth_error lay j = Some (Some e')) (f_unpack_after f) ->
    laid_out C lay o vrank qrank urank i f (slot_entry x b used).
Proof.
  intros (S1 & S2 & (c1 & S3 & S3') & (c2 & S4 & S4') & S5 & S6 & S7 & uargs & used & S8 & S9).
  assert (Hp : f_pack_args f = []) by (inversion S9; reflexivity).
  destruct (stores_packed f _ _ _ _ _ [] S9) as (b & B1 & B2). exists b, (Some used). intros lay o vrank qrank urank i Ho Ha.
  assert (G : given_size f (fst x) = Some (zlen (all_positions (fst x)))).
  { unfold given_size. destruct S7 as [E|E]; rewrite E; [|reflexivity]. now apply list_byte_length_spec. }
  unfold laid_out. cbn [slot_entry e_write e_read e_place e_value e_buf e_used]. split; [now apply static_given|]. split; [now left|]. split; [congruence|].
  split; [now apply static_given|]. split; [exists c1; split; [now apply static_given|exact S3']|].
  split; [exists c2; split; [now apply static_given|exact S4']|]. split; [unfold value_to_pack; rewrite S5; exact Ho|]. split; [exact S6|]. split; [exact Ha|].
  exists [], uargs. rewrite Hp. split; [constructor|]. split; [now apply static_given_args|]. rewrite G. exact B1.
Qed.

Lemma static_closed_pos C i f r : nth_error (k_fields C) i = Some f -> static (nodes C) (f_where_pack f) (RRanges r) -> static (nodes C) (f_where_unpack f) (RRanges r) ->
  has_overlaps r = Ok false -> list_is_open r = false ->
  static (nodes C) (mkRid KPackPos i) (RRanges r) /\ static (nodes C) (mkRid KUnpackPos i) (RRanges r).
Proof.
  intros Hf (n1 & H1) (n2 & H2) Ho Hc. split.
  - eexists. constructor. unfold nodes. cbn [r_kind r_no]. rewrite Hf. cbn [field_node]. unfold pack_pos. econstructor; [exact H1|].
    cbn [as_ranges]. rewrite Ho, Hc. constructor.
  - eexists. constructor. unfold nodes. cbn [r_kind r_no]. rewrite Hf. cbn [field_node]. unfold unpack_pos. econstructor; [exact H2|].
    cbn [as_ranges]. rewrite Ho, Hc. constructor.
Qed.
Lemma apart_place ls l : apart ls -> In l ls -> Forall closed l /\ has_overlaps l = Ok false /\ list_is_open l = false.
Proof.
  intros (A1 & A2 & A3) Hin.
  assert (C1 : Forall closed l).
  { apply Forall_forall. intros r Hr. apply (proj1 (Forall_forall _ _) A1). apply in_concat. eauto. }
  split; [exact C1|]. split; [|now apply closed_not_open].
  destruct (proj1 (Forall_forall _ _) A3 _ Hin) as [(x & ->)|Hne]; [apply has_overlaps_single|].
  destruct (has_overlaps_spec _ Hne) as (b & B1 & B2). rewrite B1. f_equal. apply B2. eapply pairwise_concat; eauto.
Qed.

(** The size of a class whose fields have fixed places. *)
Lemma fixed_size fl ul C lay : cls_ok (mkCls fl ul None) -> make_class fl ul = Ok C -> Forall2 (fun f x => slot C f (fst x) (snd x)) fl lay ->
  apart (map fst lay) -> exists n, k_size C = Some n /\ largest_stop (List.concat (map fst lay)) n.
Proof.
  intros Hok Hm Hs Ha. destruct (make_class_spec fl ul C Hok Hm) as (E1 & E2 & K).
  assert (P : forall i f, nth_error fl i = Some f -> exists x, nth_error lay i = Some x /\ static (nodes C) (mkRid KPackPos i) (RRanges (fst x))
                /\ static (nodes C) (mkRid KUnpackPos i) (RRanges (fst x))).
  { intros i f Hf. destruct (proj1 (Forall2_nth_iff _ _ _) Hs) as (L & Hn). assert (Hi : (i < List.length lay)%nat) by (rewrite <- L; apply nth_error_Some; congruence).
    destruct (nth_error lay i) as [x|] eqn:Hx; [|apply nth_error_None in Hx; lia]. exists x. split; [reflexivity|].
    assert (S : slot C f (fst x) (snd x)) by (eapply Hn; eauto). destruct S as (S1 & S2 & _).
    destruct (apart_place _ (fst x) Ha) as (_ & P2 & P3); [apply in_map; eapply nth_error_In; eauto|].
    apply (static_closed_pos C i f); auto. rewrite E1. exact Hf. }
  destruct (k_size C) as [n|].
  - exists n. split; [reflexivity|]. destruct K as (pos & K1 & K2 & _). assert (E : pos = map fst lay); [|rewrite <- E; exact K2].
    clear K2. unfold static_places in K1. apply Forall2_nth_iff in K1. destruct K1 as (L & K1). apply Forall2_nth_iff in Hs. destruct Hs as (L' & _).
    assert (L2 : List.length pos = List.length lay).
    { rewrite <- L, <- L'. unfold numbered. rewrite combine_length, seq_length, E1. lia. }
    apply nth_ext with (d := []) (d' := []); [rewrite map_length; exact L2|]. intros i Hi. rewrite L2 in Hi.
    destruct (nth_error fl i) as [f|] eqn:Hf; [|apply nth_error_None in Hf; lia]. destruct (P i f Hf) as (x & X1 & (k1 & X2) & _).
    destruct (nth_error pos i) as [r|] eqn:Hr; [|apply nth_error_None in Hr; lia].
    assert (Hnum : nth_error (numbered C) i = Some (i, f)) by (apply numbered_nth; rewrite E1; exact Hf).
    destruct (K1 i _ _ Hnum Hr) as ((k2 & R1) & _). cbn [fst] in R1. pose proof (pure_det _ _ _ _ X2 _ _ R1) as E. 
    rewrite (nth_error_nth _ _ _ Hr). erewrite nth_error_nth; [|rewrite nth_error_map, X1; reflexivity]. destruct E as (E & _). congruence.
  - destruct K as (i & f & Hf & H). destruct (P i f Hf) as (x & _ & X1 & X2). destruct H as [H|H]; [destruct (H _ X1)|destruct (H _ X2)].
Qed.

Lemma forall2_choose {A B} (R : A -> B -> Prop) l : (forall x, In x l -> exists y, R x y) -> exists l', Forall2 R l l'.
Proof.
  induction l as [|x l IH]; intros H; [exists []; constructor|]. destruct (H x (or_introl eq_refl)) as (y & Hy).
  destruct IH as (l' & Hl); [intros z Hz; apply H; now right|]. exists (y :: l'). now constructor.
Qed.

Section Fixed.
Variables (fl : list field) (ul : list uref) (C : cls) (lay : list (list srange * value)) (o : attrs).
Hypothesis Hok : cls_ok (mkCls fl ul None).
Hypothesis Hm : make_class fl ul = Ok C.
Hypothesis Hs : Forall2 (fun f x => slot C f (fst x) (snd x)) fl lay.
Hypothesis Ha : apart (map fst lay).
Hypothesis Hn : NoDup (map f_name fl).
Hypothesis Hv : has_values o fl lay.

Lemma fixed_fields : k_fields C = fl.
Proof. destruct (make_class_spec fl ul C Hok Hm) as (E & _). exact E. Qed.
Lemma fixed_ok : cls_ok C.
Proof.
  destruct (make_class_spec fl ul C Hok Hm) as (E1 & E2 & _). destruct C as [a b n]. cbn [k_fields k_users] in E1, E2. subst. exact (cls_ok_size fl ul None n Hok).
Qed.
Lemma fixed_layout : exists ents, Forall2 entry_of lay ents /\ class_layout C ents o.
Proof.
  assert (H : exists ents, Forall2 (fun fx y => exists b used, y = Some (slot_entry (snd fx) b used)
       /\ forall lay' vrank qrank urank i, Forall (fun j => exists e', nth_error lay' j = Some (Some e')) (f_unpack_after (fst fx)) ->
             laid_out C lay' o vrank qrank urank i (fst fx) (slot_entry (snd fx) b used)) (combine fl lay) ents).
  { apply forall2_choose. intros [f x] Hin. cbn [fst snd]. pose proof Hs as Hs'. pose proof Hv as Hv'. unfold has_values in Hv'.
    apply Forall2_nth_iff in Hs'. apply Forall2_nth_iff in Hv'. destruct Hs' as (L & Hs'). destruct Hv' as (_ & Hv').
    apply In_nth_error in Hin. destruct Hin as (i & Hi). apply nth_error_combine in Hi. destruct Hi as (Hi1 & Hi2).
    pose proof (Hs' i f x Hi1 Hi2) as S. pose proof (Hv' i f x Hi1 Hi2) as V. cbn [snd] in V.
    destruct (apart_place _ (fst x) Ha) as (P1 & _); [apply in_map; eapply nth_error_In; eauto|].
    destruct (slot_laid_out C f x P1 S) as (b & used & B). exists (Some (slot_entry x b used)), b, used. split; [reflexivity|]. intros. now apply B. }
  destruct H as (ents & H). apply Forall2_nth_iff in H. destruct H as (L & H). pose proof (Forall2_len _ _ _ Hs) as Lf. rewrite combine_length in L.
  assert (He : Forall2 entry_of lay ents).
  { apply Forall2_nth_iff. split; [lia|]. intros i x y Hx Hy. destruct (nth_error fl i) as [f|] eqn:Hf; [|apply nth_error_None in Hf; assert (i < List.length lay)%nat by (apply nth_error_Some; congruence); lia].
    destruct (H i (f, x) y) as (b & u & E & _); [now apply nth_error_combine|exact Hy|]. exists b, u. exact E. }
  exists ents. split; [exact He|]. split; [rewrite fixed_fields; lia|]. exists (fun _ => 0%nat), (fun _ => 0%nat), (fun _ => 0%nat). rewrite fixed_fields. intros i f Hf.
  assert (Hi : (i < List.length lay)%nat) by (rewrite <- Lf; apply nth_error_Some; congruence).
  destruct (nth_error lay i) as [x|] eqn:Hx; [|apply nth_error_None in Hx; lia]. destruct (nth_error ents i) as [y|] eqn:Hy; [|apply nth_error_None in Hy; lia].
  destruct (H i (f, x) y) as (b & u & E & B); [now apply nth_error_combine|exact Hy|]. subst y. cbn [fst snd] in B. apply B.
  pose proof (proj1 (Forall_forall _ _) (proj2 fixed_ok) f) as F. rewrite fixed_fields in F. specialize (F (nth_error_In _ _ Hf)). destruct F as (_ & _ & _ & _ & _ & F & _).
  eapply Forall_impl; [|exact F]. intros j Hj. unfold field_no in Hj. rewrite fixed_fields in Hj. apply entries_places in He. destruct He as (_ & He).
  destruct (nth_error ents j) as [z|] eqn:Hz; [|apply nth_error_None in Hz; lia].
  apply nth_error_In in Hz. destruct (proj1 (Forall_forall _ _) He z Hz) as (e & ->). eauto.
Qed.

Theorem fixed_roundtrip : exists n, k_size C = Some n /\ largest_stop (List.concat (map fst lay)) n
  /\ exists bytes o', buffer_pack C o = (Ok bytes, o') /\ bytes_ok bytes /\ zlen bytes = (n + 7) / 8
     /\ (forall m, Marshal.lookup o' m = Marshal.lookup o m)
     /\ forall b tail o2, buf_ok b -> buf_bits b = bits_of_bytes bytes ++ tail ->
        exists o'', buffer_unpack C b o2 = (Ok n, o'') /\ has_values o'' fl lay /\ only_fields_changed C o2 o''.
Proof.
  destruct (fixed_size fl ul C lay Hok Hm Hs Ha) as (n & N1 & N2). exists n. split; [exact N1|]. split; [exact N2|].
  destruct fixed_layout as (ents & E1 & E2). destruct (entries_places lay ents E1) as (P1 & P2).
  destruct (layout_roundtrip C ents o n fixed_ok E2) as (bytes & o' & R1 & R2 & (m & R3 & R4) & R5 & _ & R6).
  - rewrite P1. exact Ha.
  - unfold layout_size. rewrite N1, P1. split; [reflexivity|]. split; [apply N2|]. apply N2.
  - rewrite fixed_fields. exact Hn.
  - exists bytes, o'. split; [exact R1|]. split; [exact R2|]. rewrite P1 in R3. pose proof (largest_stop_unique _ _ _ N2 R3). subst m. rewrite N1, Z.max_id in R4.
    split; [exact R4|]. split.
    + intros k. apply R5. intros (f & F1 & F2 & _). rewrite fixed_fields in F1. apply F2.
      clear - F1 Hs. pose proof Hs as Hs'; clear Hs; induction Hs' as [|g x l l' S _ IH]; [destruct F1|]. destruct F1 as [->|F1]; [apply S|auto].
    + intros b tail o2 Kb Bb. destruct (R6 b tail o2 Kb Bb) as (o'' & U1 & U2 & U3).
      * intros i e He. left. apply nth_error_In in He. clear - E1 He. induction E1 as [|x y l l' (b & u & ->) _ IH]; [destruct He|].
        destruct He as [E|He]; [injection E as <-; reflexivity|auto].
      * exists o''. split; [exact U1|]. split; [|exact U3]. rewrite fixed_fields in U2. unfold has_values, holds_layout in *. clear - U2 E1.
        revert lay E1. induction U2 as [|f y fs ents U _ IH]; intros lay E1; inversion E1 as [|x ? lay' ? (b & u & E) E1']; subst; constructor; [exact U|auto].
Qed.

(** Such an object can be part of another one. *)
Theorem fixed_restores nm : instance C o -> exists n bytes, k_size C = Some n /\ zlen bytes = (n + 7) / 8 /\ restores_prefix nm C o bytes n.
Proof.
  intros Hi. destruct (fixed_size fl ul C lay Hok Hm Hs Ha) as (n & N1 & N2). exists n.
  destruct fixed_layout as (ents & E1 & E2). destruct (entries_places lay ents E1) as (P1 & P2).
  destruct (layout_restores_prefix C ents o n nm fixed_ok E2) as (bytes & m & R1 & R2 & R3).
  - rewrite P1. exact Ha.
  - unfold layout_size. rewrite N1, P1. split; [reflexivity|]. split; [apply N2|]. apply N2.
  - rewrite fixed_fields. exact Hn.
  - exact Hi.
  - rewrite fixed_fields. unfold holds_layout. clear - E1 Hv. pose proof Hv as H. unfold has_values in H. clear Hv.
    revert ents E1. induction H as [|f x fs l H _ IH]; intros ents E1; inversion E1 as [|? ? ? ? (b & u & ->) E1']; subst; constructor; auto.
  - intros e He. clear - E1 He. induction E1 as [|x y l l' (b & u & ->) _ IH]; [destruct He|].
    destruct He as [E|He]; [injection E as <-; reflexivity|auto].
  - exists bytes. split; [exact N1|]. rewrite P1 in R1. pose proof (largest_stop_unique _ _ _ N2 R1). subst m. rewrite N1, Z.max_id in R2. split; [exact R2|exact R3].
Qed.
End Fixed.

Lemma init_spec C kwargs : NoDup (map f_name (k_fields C)) ->
  (Forall (fun p => In (fst p) (map f_name (k_fields C))) kwargs /\ exists o, buffer_init C kwargs = Ok o
     /\ forall f, In f (k_fields C) -> Marshal.lookup o (f_name f) = Some (match Marshal.lookup (rev kwargs) (f_name f) with
                                                                  | Some v => v | None => f_default f end))
  \/ (Exists (fun p => ~ In (fst p) (map f_name (k_fields C))) kwargs /\ buffer_init C kwargs = Err AssertionError).
Proof.
  intros Hn. destruct (init_kwargs_spec C kwargs []) as [(H1 & o & H2 & H3)|(H1 & H2)].
  - left. split; [exact H1|]. unfold buffer_init. rewrite H2. cbn [rbind]. eexists. split; [reflexivity|].
    intros f Hf. change (Marshal.lookup (fold_left add_default (k_fields C) o) (f_name f) = Some (match Marshal.lookup (rev kwargs) (f_name f) with
      | Some v => v | None => f_default f end)). rewrite add_defaults_lookup, H3. destruct (Marshal.lookup (rev kwargs) (f_name f)); [reflexivity|].
    cbn [Marshal.lookup]. assert (E : find (fun g => String.eqb (f_name g) (f_name f)) (k_fields C) = Some f); [|now rewrite E].
    clear - Hn Hf. induction (k_fields C) as [|g l IH]; [destruct Hf|]. cbn [map] in Hn. inversion Hn as [|? ? Hni Hn']; subst. cbn [find].
    destruct Hf as [->|Hf]; [now rewrite String.eqb_refl|]. destruct (String.eqb_spec (f_name g) (f_name f)) as [E|E]; [|now apply IH].
    exfalso. apply Hni. rewrite E. now apply in_map.
  - right. split; [exact H1|]. unfold buffer_init. now rewrite H2.
Qed.
