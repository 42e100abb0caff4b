(** Lazy containers, part 2: an object with lazy containers behaves like the eager one. *)
From Verif Require Import Base BaseProofs IntCodec BitStringIO Stream StreamSpec StreamProofs MinMax Marshal MarshalInd MarshalSpec
  FieldSpec FieldFacts SizeSpec SizeFacts SimFacts Lazy LazySpec LazyProofs.
From Coq Require Import ZArith List Bool String Lia ZifyBool ZifyNat.
Import ListNotations.
Open Scope Z_scope.
Ltac Zify.zify_post_hook ::= Z.div_mod_to_equations.

(** ** Attributes *)
Lemma nodup_app_l {A} (l r : list A) : NoDup (l ++ r) -> NoDup l.
Proof. induction l as [|x l IH]; [constructor|]. cbn [app]. intros H. inversion H as [|? ? H1 H2]; subst. constructor; [|auto]. intros I. apply H1. apply in_or_app. now left. Qed.
Lemma nodup_app_r {A} (l r : list A) : NoDup (l ++ r) -> NoDup r.
Proof. induction l as [|x l IH]; [auto|]. cbn [app]. intros H. inversion H. auto. Qed.
Lemma set_all_other vals : forall a n, ~ In n (map fst vals) -> lookup (set_all vals a) n = lookup a n.
Proof.
  induction vals as [|[m v] r IH]; intros a n H; [reflexivity|]. cbn [map fst In] in H.
  change (set_all ((m, v) :: r) a) with (set_all r (set_attr a m v)). rewrite IH by tauto. apply lookup_set_other. tauto.
Qed.
Lemma set_all_in vals : NoDup (map fst vals) -> forall a n v, In (n, v) vals -> lookup (set_all vals a) n = Some v.
Proof.
  induction vals as [|[m w] r IH]; intros N a n v H; [easy|]. cbn [map fst] in N. inversion N as [|? ? N1 N2]; subst.
  change (set_all ((m, w) :: r) a) with (set_all r (set_attr a m w)). destruct H as [H|H].
  - injection H as -> ->. rewrite set_all_other by exact N1. apply lookup_set_same.
  - now apply IH.
Qed.
Lemma nodup_parts {A B} (f : A -> list B) l : NoDup (flat_map f l) -> forall i j x y b,
  nth_error l i = Some x -> nth_error l j = Some y -> In b (f x) -> In b (f y) -> i = j.
Proof.
  induction l as [|z l IH]; intros N i j x y b; [now destruct i|]. cbn [flat_map] in N.
  assert (N2 : NoDup (flat_map f l)) by (eapply nodup_app_r; exact N).
  assert (D : forall w, In w l -> In b (f w) -> ~ In b (f z)).
  { intros w Hw Hb Hz. clear IH. induction (f z) as [|q qs IHq]; [easy|]. cbn [app] in N. inversion N as [|? ? N1 N3]; subst.
    destruct Hz as [->|Hz]; [|now apply IHq]. apply N1. apply in_or_app. right. apply in_flat_map. eauto. }
  destruct i as [|i], j as [|j]; cbn [nth_error]; intros Hi Hj Bx By.
  - reflexivity.
  - injection Hi as ->. apply nth_error_In in Hj. now destruct (D y Hj By Bx).
  - injection Hj as ->. apply nth_error_In in Hi. now destruct (D x Hi Bx By).
  - f_equal. now apply (IH N2 i j x y b).
Qed.
Lemma nodup_part {A B} (f : A -> list B) l : NoDup (flat_map f l) -> forall x, In x l -> NoDup (f x).
Proof.
  induction l as [|z l IH]; intros N x; [easy|]. cbn [flat_map] in N. intros [->|H].
  - eapply nodup_app_l. exact N.
  - apply IH; [eapply nodup_app_r; exact N|exact H].
Qed.

(** ** Fields that do not look around *)
Lemma blind_group h fs : blind h (FGroup fs) <-> Forall (blind h) fs.
Proof. cbn [blind]. induction fs as [|f r IH]; [split; auto|]. split; [intros [H1 H2]; constructor; tauto|]. intros H. inversion H. tauto. Qed.
Definition blind_reads (h : host) (f : field) : Prop := blind h f -> forall s, exists r s' vals, incl (map fst vals) (stored_names f)
  /\ forall cls cctx c a, read_field h cls cctx f c (s, a) = (r, (s', set_all vals a)).
Lemma bits_blind size bs s : exists r s' vals, incl (map fst vals) (flat_map (fun b => match b with BField n _ _ => [n] | _ => [] end) bs)
  /\ forall a, read_bit_container size bs (s, a) = (r, (s', set_all vals a)).
Proof.
  destruct (sread size s) as [[d|e] s'] eqn:E.
  - assert (X : forall b, exists r b' vals, incl (map fst vals) (flat_map (fun b => match b with BField n _ _ => [n] | _ => [] end) bs)
      /\ forall a, sforeach bs read_bitfield (b, a) = (r, (b', set_all vals a))).
    { clear. induction bs as [|f bs IH]; intros b; cbn [sforeach flat_map].
      - exists (Ok tt), b, []. split; [easy|reflexivity].
      - destruct (bm_read (bf_marshal f) b) as [[v|e] b1] eqn:E.
        + destruct (IH b1) as (r & b2 & vals & R & N). destruct f as [n m d|m|n m k].
          * exists r, b2, ((n, v) :: vals). split; [|intros a; unfold sbind, read_bitfield at 1; cbn [fst snd bf_marshal] in *; rewrite E, N; reflexivity].
            cbn [map fst app]. intros x [->|Hx]; [now left|right; now apply R].
          * exists r, b2, vals. split; [exact R|]. intros a; unfold sbind, read_bitfield at 1; cbn [fst snd bf_marshal] in *; rewrite E, N; reflexivity.
          * destruct (py_eq v k) eqn:Q.
            -- exists r, b2, vals. split; [exact R|]. intros a; unfold sbind, read_bitfield at 1; cbn [fst snd bf_marshal] in *; rewrite E, Q, N; reflexivity.
            -- exists (Err InstructError), b1, []. split; [easy|]. intros a; unfold sbind, read_bitfield at 1; cbn [fst snd bf_marshal] in *; now rewrite E, Q.
        + exists (Err e), b1, []. split; [easy|]. intros a. unfold sbind, read_bitfield at 1. cbn [fst snd]. now rewrite E. }
    destruct (X (bs_new_bytes d)) as (r & b' & vals & I & V). exists r, s', vals. split; [exact I|].
    intros a. unfold read_bit_container, sbind, on_stream. cbn [fst snd]. rewrite E. cbn [fst snd]. now rewrite V.
  - exists (Err e), s', []. split; [easy|]. intros a. unfold read_bit_container, sbind, on_stream. cbn [fst snd]. now rewrite E.
Qed.
Lemma blind_fields h fs : Forall (blind_reads h) fs -> Forall (blind h) fs -> forall s, exists r s' vals, incl (map fst vals) (flat_map stored_names fs)
  /\ forall cls cctx c a, read_fields h cls cctx fs c (s, a) = (r, (s', set_all vals a)).
Proof.
  induction 1 as [|f r Hf _ IH]; intros B s.
  - exists (Ok tt), s, []. split; [easy|reflexivity].
  - inversion B as [|? ? B1 B2]; subst. destruct (Hf B1 s) as ([u|e] & s1 & v1 & I1 & R1).
    + destruct (IH B2 s1) as (r2 & s2 & v2 & I2 & R2). exists r2, s2, (v1 ++ v2). split.
      * rewrite map_app. cbn [flat_map]. apply incl_app; [now apply incl_appl|now apply incl_appr].
      * intros cls cctx c a. rewrite read_fields_cons. unfold sbind. now rewrite R1, R2, set_all_app.
    + exists (Err e), s1, v1. split; [cbn [flat_map]; now apply incl_appl|]. intros cls cctx c a. rewrite read_fields_cons. unfold sbind. now rewrite R1.
Qed.
Lemma blind_all h : forall f, blind_reads h f.
Proof.
  apply (marshal_field_ind (fun _ => True) (blind_reads h)); auto.
  - intros n m d _ B s. cbn [blind] in B. destruct (read h m [] s) as [[v|e] s'] eqn:E.
    + exists (Ok tt), s', [(n, v)]. split; [cbn; intros x [->|[]]; now left|]. intros. rewrite read_field_field, (B _ [] s), E. reflexivity.
    + exists (Err e), s', []. split; [easy|]. intros. now rewrite read_field_field, (B _ [] s), E.
  - intros m _ B s. cbn [blind] in B. destruct (read h m [] s) as [[v|e] s'] eqn:E.
    + exists (Ok tt), s', []. split; [easy|]. intros. now rewrite read_field_anon, (B _ [] s), E.
    + exists (Err e), s', []. split; [easy|]. intros. now rewrite read_field_anon, (B _ [] s), E.
  - intros n m k _ B s. cbn [blind] in B. destruct (read h m [] s) as [[v|e] s'] eqn:E.
    + exists (if py_eq v k then Ok tt else Err InstructError), s', []. split; [easy|]. intros. now rewrite read_field_const, (B _ [] s), E.
    + exists (Err e), s', []. split; [easy|]. intros. now rewrite read_field_const, (B _ [] s), E.
  - intros n m pr d _ [].
  - intros fs H B s. rewrite blind_group in B. destruct (blind_fields h fs H B s) as (r & s' & vals & I & R). exists r, s', vals. split; [exact I|].
    intros. rewrite read_group. apply R.
  - intros bs _ s. destruct (bits_blind (bits_size bs) bs s) as (r & s' & vals & I & R). exists r, s', vals. split; [exact I|]. intros. apply R.
  - intros n bs _ s. destruct (bits_blind n bs s) as (r & s' & vals & I & R). exists r, s', vals. split; [exact I|]. intros. apply R.
Qed.

(** ** Writing looks at the names of a field only *)
Definition same_on (ns : list name) (a1 a2 : attrs) : Prop := forall n, In n ns -> lookup a1 n = lookup a2 n.
Lemma same_on_app n1 n2 a1 a2 : same_on (n1 ++ n2) a1 a2 <-> same_on n1 a1 a2 /\ same_on n2 a1 a2.
Proof. unfold same_on. setoid_rewrite in_app_iff. firstorder. Qed.
Lemma write_names_bits size bs a1 a2 : same_on (flat_map (fun b => match b with BField n _ _ => [n] | _ => [] end) bs) a1 a2 ->
  forall out, write_bit_container size a1 bs out = write_bit_container size a2 bs out.
Proof.
  intros H out. unfold write_bit_container, sbind, slift. destruct (bs_new_size size) as [b0|e]; [|reflexivity].
  assert (E : forall b, sforeach bs (write_bitfield a1) b = sforeach bs (write_bitfield a2) b).
  { induction bs as [|f bs IH]; intros b; [reflexivity|]. cbn [flat_map] in H. apply same_on_app in H as [H1 H2]. cbn [sforeach]. unfold sbind, write_bitfield at 1 3.
    assert (V : bf_value f a1 = bf_value f a2). { destruct f as [n m d|m|n m k]; cbn [bf_value]; auto. rewrite (H1 n) by now left. reflexivity. }
    rewrite V. destruct (bm_write _ _ b) as [[u|e] b1]; [now apply IH|reflexivity]. }
  now rewrite E.
Qed.
Lemma write_names h : forall f a1 a2, same_on (stored_names f) a1 a2 -> forall out, write_field h f a1 out = write_field h f a2 out.
Proof.
  apply (marshal_field_ind (fun _ => True) (fun f => forall a1 a2, same_on (stored_names f) a1 a2 -> forall out, write_field h f a1 out = write_field h f a2 out)); auto.
  - intros n m d _ a1 a2 S out. cbn [write_field]. unfold field_value. now rewrite (S n) by now left.
  - intros n m pr d _ a1 a2 S out. cbn [write_field]. unfold field_value. now rewrite (S n) by now left.
  - intros fs H a1 a2 S out. rewrite !write_group. cbn [stored_names] in S. revert S out.
    induction H as [|f r Hf _ IH]; intros S out; [reflexivity|]. cbn [flat_map] in S. apply same_on_app in S as [S1 S2]. cbn [write_fields]. unfold sbind.
    rewrite (Hf _ _ S1). destruct (write_field h f a2 out) as [[u|e] out']; [now apply IH|reflexivity].
  - intros bs a1 a2 S out. now apply write_names_bits.
  - intros n bs a1 a2 S out. now apply write_names_bits.
Qed.

(** ** Construction outside of the lazy names *)
Definition same_off (ns : list name) (a1 a2 : attrs) : Prop := forall n, ~ In n ns -> lookup a1 n = lookup a2 n.
Lemma prepare_field_off L kw a1 a2 n d : same_off L a1 a2 -> same_off L (prepare_field kw a1 n d) (prepare_field kw a2 n d).
Proof.
  intros H n' Hn. destruct (String.string_dec n n') as [<-|N].
  - unfold prepare_field. destruct (lookup kw n); [now rewrite !lookup_set_same|]. rewrite (H n Hn). destruct (lookup a2 n) eqn:E; [rewrite (H n Hn); now rewrite E|now rewrite !lookup_set_same].
  - rewrite !prepare_other by exact N. now apply H.
Qed.
Lemma prepare_off L kw : forall f a1 a2, same_off L a1 a2 -> same_off L (prepare_instance kw a1 f) (prepare_instance kw a2 f).
Proof.
  assert (B : forall bs a1 a2, same_off L a1 a2 -> same_off L (fold_left (fun a b => match b with BField n _ d => prepare_field kw a n d | _ => a end) bs a1)
    (fold_left (fun a b => match b with BField n _ d => prepare_field kw a n d | _ => a end) bs a2)).
  { induction bs as [|b bs IH]; intros a1 a2 H; [exact H|]. cbn [fold_left]. apply IH. destruct b; auto. now apply prepare_field_off. }
  apply (marshal_field_ind (fun _ => True) (fun f => forall a1 a2, same_off L a1 a2 -> same_off L (prepare_instance kw a1 f) (prepare_instance kw a2 f))); auto.
  - intros n m d _ a1 a2 H. now apply prepare_field_off.
  - intros n m pr d _ a1 a2 H. now apply prepare_field_off.
  - intros fs H a1 a2 S. cbn [prepare_instance]. revert a1 a2 S. induction H as [|f r Hf _ IH]; intros a1 a2 S; [exact S|]. cbn [fold_left]. apply IH. now apply Hf.
Qed.
(** The lazy containers of a class are in order; its other fields may be any. *)
Definition lazy_ok (i : item) : Prop :=
  match i with IField _ => True | ILazy fs => Forall lazy_field_ok fs /\ exists size, lazy_size fs = Ok size /\ size <= maxsize end.
Lemma ok_lazy h items : Forall (item_ok h) items -> Forall lazy_ok items.
Proof. apply Forall_impl. now intros [f|fs]. Qed.
Definition group_names (i : item) : list name := match i with IField _ => [] | ILazy fs => flat_map stored_names fs end.
Lemma item_class i : lazy_ok i -> item_class_attrs i = class_attrs_f (eager i).
Proof.
  destruct i as [f|fs]; [reflexivity|]. intros [H _]. cbn [item_class_attrs eager class_attrs_f].
  induction H as [|f r Hf _ IH]; [reflexivity|]. cbn [flat_map]. rewrite IH. f_equal. now destruct f.
Qed.
Lemma items_class items : Forall lazy_ok items -> flat_map item_class_attrs items = class_attrs (map eager items).
Proof. unfold class_attrs. induction 1 as [|i r Hi _ IH]; [reflexivity|]. cbn [flat_map map]. now rewrite IH, (item_class i Hi). Qed.
Lemma new_off items : Forall lazy_ok items ->
  same_off (flat_map group_names items) (lo_attrs (lazy_new items [])) (new_attrs (map eager items) []).
Proof.
  intros H. unfold lazy_new, new_attrs. cbn [lo_attrs]. rewrite (items_class items H).
  assert (S : same_off (flat_map group_names items) (class_attrs (map eager items)) (class_attrs (map eager items))) by (intros n _; reflexivity).
  revert S. generalize (class_attrs (map eager items)) at 1 3 as a1. generalize (class_attrs (map eager items)) as a2.
  assert (G : incl (flat_map group_names items) (flat_map group_names items)) by apply incl_refl. revert G.
  generalize (flat_map group_names items) at 2 3 4 as L. induction H as [|i r Hi _ IH]; intros L G a2 a1 S; [exact S|].
  cbn [map fold_left flat_map] in *. apply incl_app_inv in G as [G1 G2]. apply IH; [exact G2|]. destruct i as [f|fs]; cbn [prepare_item eager].
  - now apply prepare_off.
  - destruct Hi as [Hi _]. cbn [group_names prepare_instance] in *.
    assert (E : forall a, fold_left (prepare_lazy []) fs a = a).
    { clear - Hi. induction Hi as [|f r Hf _ IH]; intros a; [reflexivity|]. cbn [fold_left]. rewrite IH. destruct f; try easy; reflexivity. }
    rewrite E. clear E. revert a2 S. induction Hi as [|f r' Hf _ IH']; intros a2 S; [exact S|]. cbn [fold_left flat_map] in *. apply incl_app_inv in G1 as [G1 G3].
    apply IH'; [exact G3|]. intros n Hn. rewrite prepare_instance_other; [now apply S|]. intros Hin. apply Hn. now apply G1.
Qed.

(** ** Owners *)
Lemma lazy_names_in fs n : Forall lazy_field_ok fs ->
  (existsb (fun f => match lazy_name f with Some n' => String.eqb n' n | None => false end) fs = true <-> In n (flat_map stored_names fs)).
Proof.
  induction 1 as [|f r Hf _ IH]; cbn [existsb flat_map]; [easy|]. rewrite orb_true_iff, in_app_iff, IH.
  destruct f; try easy; cbn [lazy_name stored_names]; [|cbn [In]; intuition discriminate]. rewrite String.eqb_eq. cbn. intuition.
Qed.
Lemma owner_some items n : Forall lazy_ok items -> forall j k fs, owner j items n = Some (k, fs) ->
  (j <= k)%nat /\ nth_error items (k - j) = Some (ILazy fs) /\ In n (flat_map stored_names fs).
Proof.
  induction 1 as [|i r Hi _ IH]; cbn [owner]; intros j k fs E; [discriminate|]. destruct i as [f|fs'].
  - destruct (IH _ _ _ E) as (L & N & I). split; [lia|]. split; [|exact I]. replace (k - j)%nat with (S (k - S j)) by lia. exact N.
  - destruct (existsb _ fs') eqn:X.
    + apply lazy_names_in in X; [|apply Hi]. injection E as <- <-. split; [lia|]. now rewrite Nat.sub_diag.
    + destruct (IH _ _ _ E) as (L & N & I). split; [lia|]. split; [|exact I]. replace (k - j)%nat with (S (k - S j)) by lia. exact N.
Qed.
Lemma owner_none items n : Forall lazy_ok items -> forall j, owner j items n = None -> ~ In n (flat_map group_names items).
Proof.
  induction 1 as [|i r Hi _ IH]; cbn [owner flat_map]; intros j E; [easy|]. rewrite in_app_iff. destruct i as [f|fs'].
  - cbn [group_names]. specialize (IH _ E). tauto.
  - destruct (existsb _ fs') eqn:X; [discriminate|]. specialize (IH _ E). intros [G|G]; [|tauto]. cbn [group_names] in G.
    apply (lazy_names_in fs' n) in G; [congruence|apply Hi].
Qed.

Lemma pending_forget k l k' : pending k' (forget k l) = if Nat.eqb k' k then None else pending k' l.
Proof.
  induction l as [|[j d] r IH]; cbn [forget filter pending fst]; [now destruct (Nat.eqb k' k)|].
  change (filter _ r) with (forget k r). destruct (Nat.eqb_spec j k) as [Ej|N]; cbn [negb pending]; rewrite ?IH.
  - destruct (Nat.eqb_spec k' k) as [E'|N']; [reflexivity|]. destruct (Nat.eqb_spec j k'); [lia|reflexivity].
  - destruct (Nat.eqb_spec j k') as [Ej|N'].
    + destruct (Nat.eqb_spec k' k); [lia|reflexivity].
    + reflexivity.
Qed.

Lemma contained_lazy fs : Forall lazy_field_ok fs -> contained_fields fs.
Proof. induction 1 as [|f r Hf _ IH]; cbn [contained_fields]; [exact I|]. split; [|exact IH]. now destruct f. Qed.

Section Refine.
Variables (h : host) (cls : name) (cctx : option ctx) (items : list item).
Hypothesis Hok : Forall lazy_ok items.
Hypothesis Hnd : NoDup (flat_map item_names items).

Lemma nth_names k fs n : nth_error items k = Some (ILazy fs) -> In n (flat_map stored_names fs) -> exists i, nth_error items k = Some i /\ In n (item_names i).
Proof. intros H I. exists (ILazy fs). split; [exact H|]. unfold item_names. apply in_or_app. now left. Qed.
Lemma group_unique k k' fs fs' n : nth_error items k = Some (ILazy fs) -> nth_error items k' = Some (ILazy fs') ->
  In n (flat_map stored_names fs) -> In n (flat_map stored_names fs') -> k = k'.
Proof.
  intros H H' I I'. apply (nodup_parts item_names items Hnd k k' _ _ n H H'); unfold item_names; apply in_or_app; now left.
Qed.
Lemma group_nodup k fs : nth_error items k = Some (ILazy fs) -> NoDup (flat_map stored_names fs).
Proof.
  intros H. apply nth_error_In in H. pose proof (nodup_part item_names items Hnd _ H) as N. unfold item_names in N. now apply nodup_app_l in N.
Qed.
Lemma field_not_lazy k f k' fs n : nth_error items k = Some (IField f) -> nth_error items k' = Some (ILazy fs) ->
  In n (stored_names f) -> ~ In n (flat_map stored_names fs).
Proof.
  intros H H' I I'. assert (k = k') as <-. { apply (nodup_parts item_names items Hnd k k' _ _ n H H'); unfold item_names; apply in_or_app; now left. }
  congruence.
Qed.
Lemma class_not_lazy k fs n : nth_error items k = Some (ILazy fs) -> In n (flat_map stored_names fs) -> lookup (class_attrs (map eager items)) n = None.
Proof.
  intros H I. destruct (lookup _ n) as [v|] eqn:E; [exfalso|reflexivity].
  assert (X : In n (map fst (class_attrs (map eager items)))).
  { clear - E. induction (class_attrs (map eager items)) as [|[m w] r IH]; [discriminate|]. cbn [lookup] in E. cbn [map fst]. destruct (String.eqb_spec m n); [now left|right; now apply IH]. }
  unfold class_attrs in X. apply in_map_iff in X as ([m w] & <- & X). apply in_flat_map in X as (f & F & X). apply in_map_iff in F as (i & <- & Hi).
  cbn [fst] in I. apply In_nth_error in Hi as (k' & Hi).
  assert (C : In m (map fst (class_attrs_f (eager i)))) by (apply in_map_iff; exists (m, w); auto).
  assert (k = k') as <-. { apply (nodup_parts item_names items Hnd k k' _ _ m H Hi); unfold item_names; apply in_or_app; [now left|now right]. }
  assert (i = ILazy fs) as -> by congruence. pose proof (nodup_part item_names items Hnd _ (nth_error_In _ _ H)) as N. unfold item_names in N.
  clear - N I C. cbn [eager] in *. change (stored_names (FGroup fs)) with (flat_map stored_names fs) in N.
  induction (flat_map stored_names fs) as [|x l IH]; [easy|]. cbn [app] in N. inversion N as [|? ? N1 N2]; subst. destruct I as [->|I]; [|now apply IH].
  apply N1. apply in_or_app. now right.
Qed.

(** The data of a container decodes to the values of the eager object. *)
Definition decodes (fs : list field) (data : list Z) (c : ctx) (E : attrs) : Prop :=
  exists vals s', (forall a, read_fields h cls cctx fs c (stream_of data, a) = (Ok tt, (s', set_all vals a)))
    /\ map fst vals = flat_map stored_names fs /\ forall n v, In (n, v) vals -> lookup E n = Some v.
Lemma decodes_off fs data c E E' : decodes fs data c E -> (forall n, In n (flat_map stored_names fs) -> lookup E' n = lookup E n) -> decodes fs data c E'.
Proof.
  intros (vals & s' & R & N & V) H. exists vals, s'. split; [exact R|]. split; [exact N|]. intros n v I. rewrite H; [now apply V|]. rewrite <- N. apply in_map_iff. now exists (n, v).
Qed.

(** ** Reading *)
Record reading (j : nat) (E : attrs) (o : lobj) : Prop := {
  rd_off : same_off (flat_map group_names items) (lo_attrs o) E;
  rd_in : forall k fs, (k < j)%nat -> nth_error items k = Some (ILazy fs) -> exists data c, pending k (lo_data o) = Some (data, c) /\ decodes fs data c E;
  rd_only : forall k d, pending k (lo_data o) = Some d -> (k < j)%nat /\ exists fs, nth_error items k = Some (ILazy fs)
}.
Lemma not_group n k fs : nth_error items k = Some (ILazy fs) -> In n (flat_map stored_names fs) -> In n (flat_map group_names items).
Proof. intros H I. apply in_flat_map. exists (ILazy fs). split; [eapply nth_error_In; exact H|exact I]. Qed.
Lemma group_of n : In n (flat_map group_names items) -> exists k fs, nth_error items k = Some (ILazy fs) /\ In n (flat_map stored_names fs).
Proof. intros H. apply in_flat_map in H as ([f|fs] & Hi & I); [easy|]. apply In_nth_error in Hi as (k & Hk). exists k, fs. auto. Qed.

Lemma read_step c j i s E o s' E' : item_ok h i -> nth_error items j = Some i -> stream_ok s -> reading j E o ->
  read_field h cls cctx (eager i) c (s, E) = (Ok tt, (s', E')) ->
  exists o', read_item h cls cctx c j i (s, o) = (Ok tt, (s', o')) /\ reading (S j) E' o' /\ stream_ok s'.
Proof.
  intros Ki Hi O [R1 R2 R3] Er.
  assert (Os : stream_ok s'). { pose proof (proj2 (keeps_all h) (eager i) cls cctx c s E O) as K. rewrite Er in K. exact K. }
  destruct i as [f|fs].
  - destruct (blind_all h f Ki s) as (r & s1 & vals & I & R). cbn [eager] in Er. rewrite R in Er. apply pair_equal_spec in Er as [-> Er]. apply pair_equal_spec in Er as [-> <-].
    exists (mkLobj (set_all vals (lo_attrs o)) (lo_data o)). split; [unfold read_item; cbn [fst snd]; now rewrite R|]. split; [|exact Os].
    assert (NG : forall n k fs, In n (map fst vals) -> nth_error items k = Some (ILazy fs) -> ~ In n (flat_map stored_names fs)).
    { intros n k fs Hn Hk. apply (field_not_lazy j f k fs n Hi Hk). now apply I. }
    split; cbn [lo_attrs lo_data].
    + intros n Hn. destruct (in_dec String.string_dec n (map fst vals)) as [Hv|Hv]; [|rewrite !set_all_other by exact Hv; now apply R1].
      clear - Hv. revert Hv. generalize (lo_attrs o) as a. revert E. induction vals as [|[m v] r IH]; intros E a Hv; [easy|].
      change (set_all ((m, v) :: r) a) with (set_all r (set_attr a m v)). change (set_all ((m, v) :: r) E) with (set_all r (set_attr E m v)).
      destruct (in_dec String.string_dec n (map fst r)) as [Hr|Hr]; [now apply IH|]. rewrite !set_all_other by exact Hr.
      destruct Hv as [<-|Hv]; [|easy]. cbn [fst]. now rewrite !lookup_set_same.
    + intros k fs Lk Hk. destruct (Nat.eq_dec k j) as [->|Nk]; [congruence|]. destruct (R2 k fs ltac:(lia) Hk) as (data & c' & P & Dc). exists data, c'. split; [exact P|].
      apply (decodes_off _ _ _ _ _ Dc). intros n Hn. apply set_all_other. intros Hv. exact (NG n k fs Hv Hk Hn).
    + intros k d P. destruct (R3 k d P) as [L X]. split; [lia|exact X].
  - destruct Ki as [Kf (size & Ks & Kb)]. pose proof (contained_lazy fs Kf) as Cf. pose proof (lazy_size_span fs Cf size Ks) as Es.
    assert (N0 : 0 <= span_fields fs) by (apply span_fields_nonneg; [apply Forall_forall; intros; now apply span_nonneg_all|exact Cf]).
    set (data := firstn (Z.to_nat size) (rest s)). destruct (stream_of_ok data) as [Od Rd].
    cbn [eager] in Er. rewrite read_group in Er.
    destruct (group_local h fs Cf cls cctx c c s (stream_of data) O Od) as (r & k & vals & V1 & V2 & K & Ko).
    { rewrite Rd. unfold data. rewrite Es, firstn_firstn. now rewrite Nat.min_id. }
    rewrite V1 in Er. apply pair_equal_spec in Er as [-> Er]. apply pair_equal_spec in Er as [<- <-]. destruct (Ko tt eq_refl) as [Kk Nk].
    exists (mkLobj (lo_attrs o) ((j, (data, c)) :: forget j (lo_data o))). split.
    { unfold read_item. cbn [fst snd]. rewrite Ks. rewrite sread_ok by (auto; lia). unfold data. rewrite Kk, Es. reflexivity. }
    split; [|exact Os]. split; cbn [lo_attrs lo_data].
    + intros n Hn. rewrite set_all_other; [now apply R1|]. rewrite Nk. intros Hin. apply Hn. eapply not_group; eauto.
    + intros k' fs' Lk Hk. cbn [pending]. destruct (Nat.eqb_spec j k') as [<-|Nj].
      * assert (fs' = fs) as -> by congruence. exists data, c. split; [reflexivity|]. eexists vals, _. split; [exact V2|]. split; [exact Nk|].
        intros n v Hin. apply set_all_in; [|exact Hin]. rewrite Nk. eapply group_nodup; eauto.
      * destruct (R2 k' fs' ltac:(lia) Hk) as (data' & c' & P & Dc). exists data', c'. rewrite pending_forget. destruct (Nat.eqb_spec k' j) as [?|NN]; [lia|]. split; [exact P|].
        apply (decodes_off _ _ _ _ _ Dc). intros n Hn. apply set_all_other. rewrite Nk. intros Hv. assert (j = k') by (eapply group_unique; eauto). lia.
    + intros k' d. cbn [pending]. destruct (Nat.eqb_spec j k') as [<-|Nj]; [intros _; split; [lia|eauto]|]. rewrite pending_forget.
      destruct (Nat.eqb_spec k' j) as [?|NN]; [lia|]. intros P. destruct (R3 k' d P) as [L X]. split; [lia|exact X].
Qed.
Lemma skipn_nth {A} (l : list A) j x r : skipn j l = x :: r -> nth_error l j = Some x /\ skipn (S j) l = r.
Proof. revert l. induction j as [|j IH]; intros [|y l] E; cbn in *; try discriminate; [injection E as -> ->; auto|now apply IH]. Qed.
Lemma read_rest c : Forall (item_ok h) items -> forall l j s E o s' E', skipn j items = l -> stream_ok s -> reading j E o ->
  read_fields h cls cctx (map eager l) c (s, E) = (Ok tt, (s', E')) ->
  exists o', read_items h cls cctx c j l (s, o) = (Ok tt, (s', o')) /\ reading (j + List.length l) E' o'.
Proof.
  intros Hall. induction l as [|i l IH]; intros j s E o s' E' El O R Er.
  - cbn in Er. injection Er as <- <-. exists o. rewrite Nat.add_0_r. auto.
  - destruct (skipn_nth _ _ _ _ El) as [Hi El']. cbn [map] in Er. rewrite read_fields_cons in Er. unfold sbind in Er.
    destruct (read_field h cls cctx (eager i) c (s, E)) as [[[]|e] [s1 E1]] eqn:Ei; [|discriminate].
    destruct (read_step c j i s E o s1 E1 (proj1 (Forall_forall _ _) Hall i (nth_error_In _ _ Hi)) Hi O R Ei) as (o1 & X1 & R1 & O1).
    destruct (IH (S j) s1 E1 o1 s' E' El' O1 R1 Er) as (o' & X2 & R2). exists o'. split; [|now replace (j + List.length (i :: l))%nat with (S j + List.length l)%nat by (cbn; lia)].
    cbn [read_items]. unfold sbind. now rewrite X1.
Qed.

(** ** Using the object *)
Record refines (E : attrs) (o : lobj) : Prop := {
  rf_pending : forall k data c, pending k (lo_data o) = Some (data, c) -> exists fs, nth_error items k = Some (ILazy fs) /\ decodes fs data c E;
  rf_same : forall n, (forall k fs, nth_error items k = Some (ILazy fs) -> In n (flat_map stored_names fs) -> pending k (lo_data o) = None) -> lookup (lo_attrs o) n = lookup E n;
  rf_there : forall k fs n, nth_error items k = Some (ILazy fs) -> In n (flat_map stored_names fs) -> lookup E n <> None
}.
Lemma reading_refines E o : reading (List.length items) E o -> refines E o.
Proof.
  intros [R1 R2 R3]. split.
  - intros k data c P. destruct (R3 k _ P) as [L (fs & Hk)]. destruct (R2 k fs L Hk) as (data' & c' & P' & Dc). exists fs. split; [exact Hk|]. congruence.
  - intros n H. apply R1. intros G. destruct (group_of n G) as (k & fs & Hk & I). assert (L : (k < List.length items)%nat) by (apply nth_error_Some; congruence).
    destruct (R2 k fs L Hk) as (data & c & P & _). rewrite (H k fs Hk I) in P. discriminate.
  - intros k fs n Hk I. assert (L : (k < List.length items)%nat) by (apply nth_error_Some; congruence).
    destruct (R2 k fs L Hk) as (data & c & _ & vals & s' & _ & N & V). rewrite <- N in I. apply in_map_iff in I as ([m v] & <- & I). cbn [fst]; now rewrite (V _ _ I).
Qed.
Lemma instantiate_refines E o k fs : refines E o -> nth_error items k = Some (ILazy fs) ->
  exists o', instantiate h cls cctx k fs o = (Ok tt, o') /\ refines E o' /\ pending k (lo_data o') = None.
Proof.
  intros [P1 P2 P3] Hk. unfold instantiate. destruct (pending k (lo_data o)) as [[data c]|] eqn:P; [|exists o; split; [reflexivity|]; split; [split; auto|exact P]].
  destruct (P1 k data c P) as (fs' & Hk' & vals & s' & R & N & V). assert (fs' = fs) as -> by congruence. rewrite R. eexists. split; [reflexivity|].
  split; [|cbn [lo_data]; rewrite pending_forget, Nat.eqb_refl; reflexivity]. pose proof (group_nodup k fs Hk) as Nd. split; cbn [lo_attrs lo_data].
  - intros k' data' c'. rewrite pending_forget. destruct (Nat.eqb k' k); [discriminate|]. apply P1.
  - intros n H. destruct (in_dec String.string_dec n (map fst vals)) as [I|I].
    + apply in_map_iff in I as ([m v] & <- & I). cbn [fst]. rewrite (V m v I). apply set_all_in; [now rewrite N|exact I].
    + rewrite set_all_other by exact I. apply P2. intros k' fs' Hk2 I'. specialize (H k' fs' Hk2 I'). rewrite pending_forget in H.
      destruct (Nat.eqb_spec k' k) as [Ek|]; [|exact H]. subst k'. assert (fs' = fs) as -> by congruence. rewrite N in I. contradiction.
  - exact P3.
Qed.
Lemma get_refines E o n : refines E o -> exists o', lazy_get h cls cctx items n o = (py_getattr (VObj cls E) n, o') /\ refines E o'.
Proof.
  intros R. unfold lazy_get, py_getattr. destruct (owner 0 items n) as [[k fs]|] eqn:Ow.
  - destruct (owner_some items n Hok _ _ _ Ow) as (_ & Hk & I). rewrite Nat.sub_0_r in Hk. destruct (instantiate_refines E o k fs R Hk) as (o' & X & R' & P).
    exists o'. split; [|exact R']. unfold sbind at 1. rewrite X. unfold sbind, sget, slift. f_equal. rewrite (rf_same _ _ R').
    + destruct (lookup E n) eqn:L; [reflexivity|]. now destruct (rf_there _ _ R' k fs n Hk I).
    + intros k' fs' Hk' I'. assert (k = k') as <- by (eapply group_unique; eauto). exact P.
  - exists o. split; [|exact R]. unfold sbind, sget, slift. f_equal. rewrite (rf_same _ _ R); [reflexivity|].
    intros k fs Hk I. exfalso. apply (owner_none items n Hok 0 Ow). eapply not_group; eauto.
Qed.
Lemma set_rel E o n v : refines E o -> (forall k fs, nth_error items k = Some (ILazy fs) -> In n (flat_map stored_names fs) -> pending k (lo_data o) = None) ->
  refines (set_attr E n v) (mkLobj (set_attr (lo_attrs o) n v) (lo_data o)).
Proof.
  intros [P1 P2 P3] H. split; cbn [lo_attrs lo_data].
  - intros k data c P. destruct (P1 k data c P) as (fs & Hk & Dc). exists fs. split; [exact Hk|]. apply (decodes_off _ _ _ _ _ Dc).
    intros m Hm. apply lookup_set_other. intros <-. rewrite (H k fs Hk Hm) in P. discriminate.
  - intros m Hm. destruct (String.string_dec n m) as [<-|N]; [now rewrite !lookup_set_same|]. rewrite !lookup_set_other by exact N. now apply P2.
  - intros k fs m Hk I. destruct (String.string_dec n m) as [<-|N]; [now rewrite lookup_set_same|]. rewrite lookup_set_other by exact N. eapply P3; eauto.
Qed.
Lemma set_refines E o n v : refines E o -> exists o' r, lazy_set h cls cctx items n v o = (r, o')
  /\ match assign_attr (map eager items) E n v with Ok E' => r = Ok tt /\ refines E' o' | Err e => r = Err e /\ refines E o' end.
Proof.
  intros R. unfold lazy_set, assign_attr. destruct (owner 0 items n) as [[k fs]|] eqn:Ow.
  - destruct (owner_some items n Hok _ _ _ Ow) as (_ & Hk & I). rewrite Nat.sub_0_r in Hk. destruct (instantiate_refines E o k fs R Hk) as (o' & X & R' & P).
    rewrite (class_not_lazy k fs n Hk I). eexists _, (Ok tt). split; [unfold sbind at 1; rewrite X; reflexivity|]. split; [reflexivity|]. apply set_rel; [exact R'|].
    intros k' fs' Hk' I'. assert (k = k') as <- by (eapply group_unique; eauto). exact P.
  - rewrite (items_class items Hok). unfold sbind, sget. destruct (lookup (class_attrs (map eager items)) n) as [w|].
    + destruct (py_eq v w); eexists _, _; (split; [reflexivity|]); auto.
    + eexists _, (Ok tt). split; [reflexivity|]. split; [reflexivity|]. apply set_rel; [exact R|].
      intros k fs Hk I. exfalso. apply (owner_none items n Hok 0 Ow). eapply not_group; eauto.
Qed.
Lemma write_lazy_same fs a E out : Forall lazy_field_ok fs -> same_on (flat_map stored_names fs) a E -> (forall n, In n (flat_map stored_names fs) -> lookup E n <> None) ->
  write_lazy_fields h fs a out = write_fields h fs E out.
Proof.
  intros H. revert out. induction H as [|f r Hf _ IH]; intros out S T; [reflexivity|]. cbn [write_lazy_fields write_fields flat_map] in *. apply same_on_app in S as [S1 S2].
  unfold sbind. assert (X : write_lazy_field h f a out = write_field h f E out).
  { destruct f as [n m d|m| | | | |]; try easy; cbn [write_lazy_field].
    - rewrite <- (write_names h (FField n m d) a E S1). rewrite (S1 n) by now left. destruct (lookup E n) eqn:L; [reflexivity|]. exfalso. apply (T n); [now left|exact L]. }
  rewrite X. destruct (write_field h f E out) as [[u|e] out']; [|reflexivity]. apply IH; [exact S2|]. intros n Hn. apply T. apply in_or_app. now right.
Qed.
Lemma write_refines E : forall l j o out, skipn j items = l -> refines E o -> exists r o' out',
  write_items h cls cctx j l (o, out) = (r, (o', out')) /\ write_fields h (map eager l) E out = (r, out') /\ refines E o'.
Proof.
  induction l as [|i l IH]; intros j o out El R.
  - exists (Ok tt), o, out. auto.
  - destruct (skipn_nth _ _ _ _ El) as [Hi El']. cbn [write_items map write_fields]. unfold sbind, write_item at 1. cbn [fst snd].
    pose proof (proj1 (Forall_forall _ _) Hok i (nth_error_In _ _ Hi)) as Ki. destruct i as [f|fs].
    + cbn [eager]. rewrite (write_names h f (lo_attrs o) E).
      * destruct (write_field h f E out) as [[u|e] out1]; [|exists (Err e), o, out1; auto]. apply (IH (S j) o out1 El' R).
      * intros n Hn. apply (rf_same _ _ R). intros k fs Hk I. now destruct (field_not_lazy j f k fs n Hi Hk Hn).
    + destruct (instantiate_refines E o j fs R Hi) as (o1 & X & R1 & P). rewrite X. cbn [eager]. rewrite write_group.
      rewrite (write_lazy_same fs (lo_attrs o1) E); [|apply Ki| |intros n Hn; exact (rf_there _ _ R1 j fs n Hi Hn)].
      * destruct (write_fields h fs E out) as [[u|e] out1]; [|exists (Err e), o1, out1; auto]. apply (IH (S j) o1 out1 El' R1).
      * intros n Hn. apply (rf_same _ _ R1). intros k' fs' Hk' I'. assert (j = k') as <- by (eapply group_unique; eauto). exact P.
Qed.
Lemma bytes_refines E o : refines E o -> exists o', lazy_to_bytes h cls cctx items o = (write_to_string h (MStruct cls cctx (map eager items)) (VObj cls E), o') /\ refines E o'.
Proof.
  intros R. destruct (write_refines E items 0 o [] eq_refl R) as (r & o' & out' & X & Y & R'). exists o'. split; [|exact R'].
  unfold lazy_to_bytes, write_to_string. rewrite X, write_struct, String.eqb_refl, Y. now destruct r.
Qed.
Lemma history_refines us : forall E o, refines E o -> history_lazy h cls cctx items us o = history_eager h cls cctx (map eager items) us E.
Proof.
  induction us as [|u us IH]; intros E o R; [reflexivity|]. cbn [history_lazy history_eager]. destruct u as [n|n v|]; cbn [use_lazy use_eager].
  - destruct (get_refines E o n R) as (o' & X & R'). rewrite X. f_equal. now apply IH.
  - destruct (set_refines E o n v R) as (o' & r & X & Y). rewrite X. destruct (assign_attr _ E n v) as [E'|e]; destruct Y as [-> R']; f_equal; now apply IH.
  - destruct (bytes_refines E o R) as (o' & X & R'). rewrite X. f_equal. now apply IH.
Qed.
Lemma lazy_is_eager_ c s E s' : Forall (item_ok h) items -> stream_ok s -> read h (MStruct cls cctx (map eager items)) c s = (Ok (VObj cls E), s') ->
  exists o, lazy_read h cls cctx items c s = (Ok o, s') /\ forall us, history_lazy h cls cctx items us o = history_eager h cls cctx (map eager items) us E.
Proof.
  intros Hall O Er. rewrite read_struct in Er.
  destruct (read_fields h cls cctx (map eager items) c (s, new_attrs (map eager items) [])) as [[[]|e] [s1 E1]] eqn:X; [|discriminate].
  injection Er as -> ->.
  destruct (read_rest c Hall items 0 s (new_attrs (map eager items) []) (lazy_new items []) s' E eq_refl O) as (o & Y & R); [|exact X|].
  - split; [now apply new_off|lia|]. intros k d P. discriminate.
  - exists o. split; [unfold lazy_read; now rewrite Y|]. intros us. apply history_refines, reading_refines, R.
Qed.
End Refine.
Lemma lazy_is_eager h cls cctx items : Forall (item_ok h) items -> NoDup (flat_map item_names items) -> forall c s E s', stream_ok s ->
  read h (MStruct cls cctx (map eager items)) c s = (Ok (VObj cls E), s') ->
  exists o, lazy_read h cls cctx items c s = (Ok o, s') /\ forall us, history_lazy h cls cctx items us o = history_eager h cls cctx (map eager items) us E.
Proof. intros H N c s E s'. exact (lazy_is_eager_ h cls cctx items (ok_lazy h items H) N c s E s' H). Qed.


(** ** Broken data *)
Lemma lazy_error h cls cctx fs c s e s' n : Forall lazy_field_ok fs -> (exists size, lazy_size fs = Ok size /\ size <= maxsize) -> stream_ok s ->
  In n (flat_map stored_names fs) ->
  read h (MStruct cls cctx [FGroup fs]) c s = (Err e, s') ->
  exists o s1, lazy_read h cls cctx [ILazy fs] c s = (Ok o, s1) /\ fst (lazy_get h cls cctx [ILazy fs] n o) = Err e
    /\ (forall v, fst (lazy_set h cls cctx [ILazy fs] n v o) = Err e) /\ fst (lazy_to_bytes h cls cctx [ILazy fs] o) = Err e.
Proof.
  intros Kf (size & Ks & Kb) O Hn Er. pose proof (contained_lazy fs Kf) as Cf. pose proof (lazy_size_span fs Cf size Ks) as Es.
  assert (N0 : 0 <= span_fields fs) by (apply span_fields_nonneg; [apply Forall_forall; intros; now apply span_nonneg_all|exact Cf]).
  set (data := firstn (Z.to_nat size) (rest s)). destruct (stream_of_ok data) as [Od Rd].
  destruct (group_local h fs Cf cls cctx c c s (stream_of data) O Od) as (r & k & vals & V1 & V2 & K & Ko).
  { rewrite Rd. unfold data. rewrite Es, firstn_firstn. now rewrite Nat.min_id. }
  rewrite read_struct, read_fields_cons in Er. unfold sbind in Er. rewrite read_group, V1 in Er.
  destruct r as [u|e']; [discriminate|]. injection Er as -> _.
  set (o := mkLobj (lo_attrs (lazy_new [ILazy fs] [])) [(0%nat, (data, c))]).
  assert (I : instantiate h cls cctx 0 fs o = (Err e, mkLobj (set_all vals (lo_attrs o)) [])) by (unfold instantiate, o; cbn [lo_data pending Nat.eqb lo_attrs]; now rewrite V2).
  exists o, (consume (Nat.min (Z.to_nat size) (List.length (rest s))) s). split.
  { unfold lazy_read. cbn [read_items]. unfold sbind, read_item. cbn [fst snd]. rewrite Ks, sread_ok by (auto; lia). reflexivity. }
  assert (Ow : owner 0 [ILazy fs] n = Some (0%nat, fs)) by (cbn [owner]; now rewrite (proj2 (lazy_names_in fs n Kf) Hn)).
  split; [|split].
  - unfold lazy_get. rewrite Ow. unfold sbind. now rewrite I.
  - intros v. unfold lazy_set. rewrite Ow. unfold sbind. now rewrite I.
  - unfold lazy_to_bytes. cbn [write_items]. unfold sbind, write_item. cbn [fst snd]. now rewrite I.
Qed.

(** ** New objects *)
Lemma new_with_values h items kw : Forall (item_ok h) items -> (forall n, In n (flat_map group_names items) -> lookup kw n <> None) ->
  lazy_new items kw = mkLobj (new_attrs (map eager items) kw) [].
Proof.
  intros H G. unfold lazy_new, new_attrs. f_equal. rewrite (items_class items (ok_lazy h items H)). generalize (class_attrs (map eager items)) as a.
  induction H as [|i r Hi _ IH]; intros a; [reflexivity|]. cbn [fold_left map flat_map] in *.
  rewrite IH by (intros n Hn; apply G, in_or_app; now right). f_equal. destruct i as [f|fs]; [reflexivity|]. destruct Hi as [Hi _].
  cbn [prepare_item eager prepare_instance]. assert (G' : forall n, In n (flat_map stored_names fs) -> lookup kw n <> None) by (intros n Hn; apply G, in_or_app; now left).
  clear - Hi G'. revert a. induction Hi as [|f r Hf _ IH]; intros a; [reflexivity|]. cbn [fold_left flat_map] in *.
  rewrite IH by (intros n Hn; apply G', in_or_app; now right). f_equal. destruct f as [n m d|m| | | | |]; try easy.
  unfold prepare_lazy. cbn [lazy_name prepare_instance]. unfold prepare_field. destruct (lookup kw n) eqn:E; [reflexivity|]. exfalso. apply (G' n); [now left|exact E].
Qed.
Lemma new_like_eager h cls cctx items kw us : Forall (item_ok h) items -> NoDup (flat_map item_names items) ->
  (forall n, In n (flat_map group_names items) -> lookup kw n <> None) ->
  history_lazy h cls cctx items us (lazy_new items kw) = history_eager h cls cctx (map eager items) us (new_attrs (map eager items) kw).
Proof.
  intros H N G. rewrite (new_with_values h items kw H G). apply history_refines; [now apply (ok_lazy h)|exact N|]. split; cbn [lo_attrs lo_data pending].
  - discriminate.
  - reflexivity.
  - intros k fs n Hk I. unfold new_attrs. assert (P : In n (flat_map group_names items)) by (eapply not_group; eauto). specialize (G n P).
    apply nth_error_In in Hk. clear - G Hk I H.
    destruct (lookup kw n) as [v|] eqn:Ev; [clear G|easy].
    assert (X : forall f a, In n (stored_names f) -> lookup (prepare_instance kw a f) n = Some v).
    { assert (B : forall bs a, In n (flat_map (fun b => match b with BField n _ _ => [n] | _ => [] end) bs) \/ lookup a n = Some v ->
        lookup (fold_left (fun a b => match b with BField n _ d => prepare_field kw a n d | _ => a end) bs a) n = Some v).
      { induction bs as [|b bs IH]; intros a; cbn [flat_map fold_left]; [intros [[]|L]; exact L|]. rewrite in_app_iff. intros [[L|L]|L]; apply IH.
        - right. destruct b as [m ? ?| |]; try easy. destruct L as [<-|[]]. unfold prepare_field. now rewrite Ev, lookup_set_same.
        - now left.
        - right. destruct b as [m ? ?| |]; try exact L. destruct (String.string_dec m n) as [->|Nm]; [unfold prepare_field; now rewrite Ev, lookup_set_same|now rewrite prepare_other]. }
      assert (Y : forall f a, In n (stored_names f) \/ lookup a n = Some v -> lookup (prepare_instance kw a f) n = Some v); [|intros f a L; apply Y; now left].
      assert (K : forall m d a, In n [m] \/ lookup a n = Some v -> lookup (prepare_field kw a m d) n = Some v).
      { intros m d a L. destruct (String.string_dec m n) as [->|Nm]; [unfold prepare_field; now rewrite Ev, lookup_set_same|rewrite prepare_other by exact Nm]. destruct L as [[->|[]]|L]; [easy|exact L]. }
      apply (marshal_field_ind (fun _ => True) (fun f => forall a, In n (stored_names f) \/ lookup a n = Some v -> lookup (prepare_instance kw a f) n = Some v)); auto; cbn [stored_names prepare_instance].
      - intros n0 m d _ a L. now apply K.
      - intros m _ a L; destruct L as [L|L]; [destruct L|exact L].
      - intros m x k0 _ a L; destruct L as [L|L]; [destruct L|exact L].
      - intros n0 m pr d _ a L. now apply K.
      - intros fs0 F. induction F as [|f r Hf _ IH]; intros a L; cbn [flat_map fold_left] in *; [destruct L as [[]|L]; exact L|]. rewrite in_app_iff in L. apply IH. destruct L as [[L|L]|L]; auto. }
    assert (Z : forall f a, lookup a n = Some v -> lookup (prepare_instance kw a f) n = Some v).
    { intros f a L. destruct (in_dec String.string_dec n (stored_names f)) as [Hin|Hin]; [now apply X|]. now rewrite prepare_instance_other. }
    assert (W : forall l a, lookup a n = Some v \/ In (ILazy fs) l -> lookup (fold_left (prepare_instance kw) (map eager l) a) n = Some v).
    { induction l as [|i l IH]; intros a L; cbn [map fold_left]; [destruct L as [L|[]]; exact L|]. apply IH. destruct L as [L|[->|L]]; [left; now apply Z| |now right]. left. apply X. exact I. }
    rewrite W by now right. discriminate.
Qed.
Lemma new_unset h cls cctx items kw n : Forall (item_ok h) items -> NoDup (flat_map item_names items) ->
  In n (flat_map group_names items) -> lookup kw n = None ->
  fst (lazy_get h cls cctx items n (lazy_new items kw)) = Err KeyError.
Proof.
  intros H N G Ev. unfold lazy_get. destruct (owner 0 items n) as [[k fs]|] eqn:Ow; [|now destruct (owner_none items n (ok_lazy h items H) 0 Ow)].
  destruct (owner_some items n (ok_lazy h items H) _ _ _ Ow) as (_ & Hk & I). rewrite Nat.sub_0_r in Hk.
  unfold sbind, instantiate, sget, slift. cbn [lo_data lazy_new pending fst lo_attrs].
  assert (L : lookup (fold_left (prepare_item kw) items (flat_map item_class_attrs items)) n = None); [|unfold lazy_new; cbn [lo_attrs]; now rewrite L].
  rewrite (items_class items (ok_lazy h items H)). pose proof (class_not_lazy items N k fs n Hk I) as C. revert C. generalize (class_attrs (map eager items)) as a.
  assert (Q : forall j f, nth_error items j = Some (IField f) -> ~ In n (stored_names f)) by (intros j f Hj Hf; exact (field_not_lazy items N j f k fs n Hj Hk Hf I)).
  assert (Q' : forall f, In (IField f) items -> ~ In n (stored_names f)) by (intros f Hf; apply In_nth_error in Hf as (j & Hj); eauto).
  clear - H Ev Q'. induction H as [|i r Hi _ IH]; intros a C; [exact C|]. cbn [fold_left]. apply IH; [intros f Hf; apply Q'; now right|].
  destruct i as [f|fs']; cbn [prepare_item].
  - rewrite prepare_instance_other; [exact C|]. apply Q'. now left.
  - destruct Hi as [Hi _]. clear - Hi Ev C. revert a C. induction Hi as [|f r Hf _ IH]; intros a C; [exact C|]. cbn [fold_left]. apply IH.
    destruct f as [m mm d|m| | | | |]; try easy. unfold prepare_lazy. cbn [lazy_name]. destruct (String.string_dec m n) as [->|Nm]; [now rewrite Ev|].
    destruct (lookup kw m); [now rewrite lookup_set_other|exact C].
Qed.
(** A LazyField accepts every assignment. *)
Lemma set_lazy_any h cls cctx items n k fs v o : owner 0 items n = Some (k, fs) -> pending k (lo_data o) = None ->
  exists o', lazy_set h cls cctx items n v o = (Ok tt, o') /\ fst (lazy_get h cls cctx items n o') = Ok v.
Proof.
  intros Ow P. unfold lazy_set, lazy_get. rewrite Ow. unfold sbind, instantiate, sget, sput, slift. rewrite P. eexists. split; [reflexivity|].
  cbn [lo_data lo_attrs]. rewrite P. cbn [fst lo_attrs]. now rewrite lookup_set_same.
Qed.
(** A constant inside of a lazy container never gets a value from the data. *)
Lemma lazy_constant h cls cctx items n k fs m x o : owner 0 items n = Some (k, fs) -> fs = [FConst n m x] -> lookup (lo_attrs o) n = None ->
  exists e, fst (lazy_get h cls cctx items n o) = Err e.
Proof.
  intros Ow -> L. unfold lazy_get. rewrite Ow. unfold sbind at 1, instantiate. destruct (pending k (lo_data o)) as [[data c]|].
  - rewrite read_fields_cons. unfold sbind at 1. rewrite read_field_const.
    destruct (read h m _ (stream_of data)) as [[v|e] s']; [|cbn; eauto]. destruct (py_eq v x); [|cbn; eauto].
    cbn. rewrite L. eauto.
  - cbn. rewrite L. eauto.
Qed.
