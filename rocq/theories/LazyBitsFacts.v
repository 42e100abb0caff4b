(** Bit fields and field lists inside of lazy containers. *)
From Verif Require Import Base BaseProofs IntCodec BitStringIO Stream StreamSpec StreamProofs MinMax Marshal MarshalInd MarshalSpec
  FieldSpec FieldFacts SizeSpec SizeFacts SimFacts Lazy LazySpec LazyProofs LazyFacts LazyBitsSpec.
From Coq Require Import ZArith List Bool String Lia ZifyBool ZifyNat.
Import ListNotations.
Open Scope Z_scope.
Ltac Zify.zify_post_hook ::= Z.div_mod_to_equations.

Lemma mem_in n l : mem n l = true <-> In n l.
Proof. unfold mem. rewrite existsb_exists. split; [intros (x & I & E); apply String.eqb_eq in E; now subst|]. intros I. exists n. split; [exact I|apply String.eqb_refl]. Qed.
Lemma members_split n fs : In n (flat_map stored_names fs) <-> In n (flat_map opening fs) \/ In n (flat_map silent fs).
Proof.
  induction fs as [|f r IH]; cbn [flat_map]; [cbn; tauto|]. rewrite !in_app_iff, IH. destruct f; cbn [opening silent stored_names In]; tauto.
Qed.
Lemma members_disjoint n fs : NoDup (flat_map stored_names fs) -> In n (flat_map opening fs) -> ~ In n (flat_map silent fs).
Proof.
  induction fs as [|f r IH]; cbn [flat_map]; [easy|]. intros N. rewrite !in_app_iff.
  assert (X : In n (stored_names f) -> ~ In n (flat_map stored_names r)).
  { intros H1 H2. clear - N H1 H2. induction (stored_names f) as [|x l IH]; [easy|]. cbn [app] in N. inversion N as [|? ? N1 N2]; subst.
    destruct H1 as [->|H1]; [|auto]. apply N1. apply in_or_app. auto. }
  specialize (IH (nodup_app_r _ _ N)).
  assert (M := members_split n r). assert (F1 : In n (opening f) -> In n (stored_names f)) by (destruct f; cbn [opening stored_names In]; tauto).
  assert (F2 : In n (silent f) -> In n (stored_names f)) by (destruct f; cbn [silent stored_names In]; tauto).
  assert (F3 : In n (opening f) -> In n (silent f) -> False) by (destruct f; cbn [opening silent In]; tauto). tauto.
Qed.

(** The containers are in order; the other fields may be any. *)
Definition box_ok (i : item) : Prop :=
  match i with IField _ => True | ILazy fs => Forall member_ok fs /\ exists size, lazy_size fs = Ok size /\ size <= maxsize end.
Lemma ok_box h items : Forall (member_item_ok h) items -> Forall box_ok items.
Proof. apply Forall_impl. now intros [f|fs]. Qed.
Lemma contained_member fs : Forall member_ok fs -> contained_fields fs.
Proof. induction 1 as [|f r Hf _ IH]; cbn [contained_fields]; [exact Logic.I|]. split; [|exact IH]. now destruct f. Qed.

Lemma box_class i : box_ok i -> item_class_attrs i = class_attrs_f (eager i).
Proof.
  destruct i as [f|fs]; [reflexivity|]. intros [H _]. cbn [item_class_attrs eager class_attrs_f].
  induction H as [|f r Hf _ IH]; [reflexivity|]. cbn [flat_map]. rewrite IH. f_equal. now destruct f.
Qed.
Lemma boxes_class items : Forall box_ok items -> flat_map item_class_attrs items = class_attrs (map eager items).
Proof. unfold class_attrs. induction 1 as [|i r Hi _ IH]; [reflexivity|]. cbn [flat_map map]. now rewrite IH, (box_class i Hi). Qed.

Definition open_names (i : item) : list name := match i with IField _ => [] | ILazy fs => flat_map opening fs end.
Lemma new_box items kw : Forall box_ok items ->
  same_off (flat_map open_names items) (lo_attrs (lazy_new items kw)) (new_attrs (map eager items) kw).
Proof.
  intros H. unfold lazy_new, new_attrs. cbn [lo_attrs]. rewrite (boxes_class items H).
  assert (S : same_off (flat_map open_names items) (class_attrs (map eager items)) (class_attrs (map eager items))) by (intros n _; reflexivity).
  revert S. generalize (class_attrs (map eager items)) at 1 3 as a1. generalize (class_attrs (map eager items)) as a2.
  assert (G : incl (flat_map open_names items) (flat_map open_names items)) by apply incl_refl. revert G.
  generalize (flat_map open_names items) at 2 3 4 as L. induction H as [|i r Hi _ IH]; intros L G a2 a1 S; [exact S|].
  cbn [map fold_left flat_map] in *. apply incl_app_inv in G as [G1 G2]. apply IH; [exact G2|]. destruct i as [f|fs]; cbn [prepare_item eager].
  - now apply prepare_off.
  - destruct Hi as [Hi _]. cbn [open_names prepare_instance] in *. clear G2 IH. revert a1 a2 S. induction Hi as [|f r' Hf _ IH]; intros a1 a2 S; [exact S|].
    cbn [fold_left flat_map] in *. apply incl_app_inv in G1 as [G1 G3]. apply IH; [exact G3|].
    destruct f as [n m d|m|n m k|n m p d|gs|bs|z bs]; try easy; unfold prepare_lazy; cbn [lazy_name]; try (now apply prepare_off).
    cbn [prepare_instance]. intros n' Hn'. assert (n <> n') by (intros ->; apply Hn'; apply G1; now left).
    rewrite prepare_other by assumption. destruct (lookup kw n); [rewrite lookup_set_other by assumption|]; now apply S.
Qed.

(** ** Owners *)
Lemma open_names_in fs n : Forall member_ok fs ->
  (existsb (fun f => match lazy_name f with Some n' => String.eqb n' n | None => false end) fs = true <-> In n (flat_map opening fs)).
Proof.
  induction 1 as [|f r Hf _ IH]; cbn [existsb flat_map]; [easy|]. rewrite orb_true_iff, in_app_iff, IH.
  destruct f; try easy; cbn [lazy_name opening In]; try rewrite String.eqb_eq; intuition discriminate.
Qed.
Lemma box_owner items n : Forall box_ok items -> forall j k fs, owner j items n = Some (k, fs) ->
  (j <= k)%nat /\ nth_error items (k - j) = Some (ILazy fs) /\ In n (flat_map opening fs).
Proof.
  induction 1 as [|i r Hi _ IH]; cbn [owner]; intros j k fs E; [discriminate|]. destruct i as [f|fs'].
  - destruct (IH _ _ _ E) as (L & N & I). split; [lia|]. split; [|exact I]. replace (k - j)%nat with (S (k - S j)) by lia. exact N.
  - destruct (existsb _ fs') eqn:X.
    + apply open_names_in in X; [|apply Hi]. injection E as <- <-. split; [lia|]. now rewrite Nat.sub_diag.
    + destruct (IH _ _ _ E) as (L & N & I). split; [lia|]. split; [|exact I]. replace (k - j)%nat with (S (k - S j)) by lia. exact N.
Qed.
Lemma box_no_owner items n : Forall box_ok items -> forall j, owner j items n = None -> ~ In n (flat_map open_names items).
Proof.
  induction 1 as [|i r Hi _ IH]; cbn [owner flat_map]; intros j E; [easy|]. rewrite in_app_iff. destruct i as [f|fs'].
  - cbn [open_names]. specialize (IH _ E). tauto.
  - destruct (existsb _ fs') eqn:X; [discriminate|]. specialize (IH _ E). intros [G|G]; [|tauto]. cbn [open_names] in G.
    apply (open_names_in fs' n) in G; [congruence|apply Hi].
Qed.

Section Boxes.
Variables (h : host) (cls : name) (cctx : option ctx) (items : list item).
Hypothesis Hok : Forall box_ok items.
Hypothesis Hnd : NoDup (flat_map item_names items).
Notation decodes := (decodes h cls cctx).

Lemma opens_names n k : opens items n k = true -> exists fs, nth_error items k = Some (ILazy fs) /\ In n (flat_map opening fs).
Proof. unfold opens. destruct (nth_error items k) as [[f|fs]|]; try discriminate. rewrite mem_in. eauto. Qed.
Lemma silent_names n k : is_silent items n k = true -> exists fs, nth_error items k = Some (ILazy fs) /\ In n (flat_map silent fs).
Proof. unfold is_silent. destruct (nth_error items k) as [[f|fs]|]; try discriminate. rewrite mem_in. eauto. Qed.
Lemma opens_intro n k fs : nth_error items k = Some (ILazy fs) -> In n (flat_map opening fs) -> opens items n k = true.
Proof. intros H I. unfold opens. rewrite H. now apply mem_in. Qed.
Lemma silent_intro n k fs : nth_error items k = Some (ILazy fs) -> In n (flat_map silent fs) -> is_silent items n k = true.
Proof. intros H I. unfold is_silent. rewrite H. now apply mem_in. Qed.

(** A name that is in no lazy container, or the number of its container. *)
Definition outside (n : name) : Prop := forall k fs, nth_error items k = Some (ILazy fs) -> ~ In n (flat_map stored_names fs).

(** ** The relation between the object and what a program sees *)
Record seen (N : attrs) (C : list nat) (E : attrs) (o : lobj) : Prop := {
  sn_closed : forall k, In k C <-> pending k (lo_data o) <> None;
  sn_pending : forall k data c, pending k (lo_data o) = Some (data, c) -> exists fs, nth_error items k = Some (ILazy fs) /\ decodes fs data c E;
  sn_same : forall n, (forall k fs, nth_error items k = Some (ILazy fs) -> In n (flat_map stored_names fs) -> pending k (lo_data o) = None) -> lookup (lo_attrs o) n = lookup E n;
  sn_front : forall n k fs, nth_error items k = Some (ILazy fs) -> In n (flat_map silent fs) -> pending k (lo_data o) <> None -> lookup (lo_attrs o) n = lookup N n;
  sn_there : forall k fs n, nth_error items k = Some (ILazy fs) -> In n (flat_map stored_names fs) -> lookup E n <> None
}.

Lemma open_box N C E o k fs : seen N C E o -> nth_error items k = Some (ILazy fs) ->
  exists o', instantiate h cls cctx k fs o = (Ok tt, o') /\ seen N (filter (fun j => negb (Nat.eqb j k)) C) E o' /\ pending k (lo_data o') = None.
Proof.
  intros [Q P1 P2 P4 P3] Hk. unfold instantiate. destruct (pending k (lo_data o)) as [[data c]|] eqn:P.
  2:{ exists o. split; [reflexivity|]. split; [|exact P]. split; auto. intros j. rewrite filter_In, Q. destruct (Nat.eqb_spec j k) as [->|NN]; cbn [negb]; [rewrite P|]; intuition discriminate. }
  destruct (P1 k data c P) as (fs' & Hk' & vals & s' & R & Nm & V). assert (fs' = fs) as -> by congruence. rewrite R. eexists. split; [reflexivity|].
  split; [|cbn [lo_data]; rewrite pending_forget, Nat.eqb_refl; reflexivity]. pose proof (group_nodup items Hnd k fs Hk) as Nd. split; cbn [lo_attrs lo_data].
  - intros j. rewrite filter_In, Q, pending_forget. destruct (Nat.eqb_spec j k) as [->|NN]; cbn [negb]; intuition discriminate.
  - intros k' data' c'. rewrite pending_forget. destruct (Nat.eqb k' k); [discriminate|]. apply P1.
  - intros n H. destruct (in_dec String.string_dec n (map fst vals)) as [I|I].
    + apply in_map_iff in I as ([m v] & <- & I). cbn [fst]. rewrite (V m v I). apply set_all_in; [now rewrite Nm|exact I].
    + rewrite set_all_other by exact I. apply P2. intros k' fs' Hk2 I'. specialize (H k' fs' Hk2 I'). rewrite pending_forget in H.
      destruct (Nat.eqb_spec k' k) as [Ek|]; [|exact H]. subst k'. assert (fs' = fs) as -> by congruence. rewrite Nm in I. contradiction.
  - intros n k' fs' Hk2 I. rewrite pending_forget. destruct (Nat.eqb_spec k' k) as [Ek|NN]; [easy|]. intros Pk. rewrite set_all_other; [eapply P4; eauto|].
    rewrite Nm. intros I'. apply NN. apply (group_unique items Hnd k' k fs' fs n Hk2 Hk); [apply members_split; auto|exact I'].
  - exact P3.
Qed.

Lemma seen_ext N C C' E o : (forall k, In k C' <-> In k C) -> seen N C E o -> seen N C' E o.
Proof. intros H [Q P1 P2 P4 P3]. split; auto. intros k. now rewrite H. Qed.

Lemma closed_lazy N C E o k : seen N C E o -> In k C -> exists fs, nth_error items k = Some (ILazy fs).
Proof. intros S I. apply (sn_closed _ _ _ _ S) in I. destruct (pending k (lo_data o)) as [[d c]|] eqn:P; [|easy]. destruct (sn_pending _ _ _ _ S k d c P) as (fs & H & _). eauto. Qed.

Lemma not_closed_silent N C E o n k fs : seen N C E o -> existsb (is_silent items n) C = false -> owner 0 items n = None ->
  nth_error items k = Some (ILazy fs) -> In n (flat_map stored_names fs) -> pending k (lo_data o) = None.
Proof.
  intros S X Ow Hk I. destruct (pending k (lo_data o)) as [d|] eqn:P; [exfalso|reflexivity].
  apply members_split in I as [I|I].
  - apply (box_no_owner items n Hok 0 Ow). apply in_flat_map. exists (ILazy fs). split; [eapply nth_error_In; eauto|exact I].
  - assert (Y : existsb (is_silent items n) C = true); [|congruence]. apply existsb_exists. exists k. split; [|eapply silent_intro; eauto].
    apply (sn_closed _ _ _ _ S). congruence.
Qed.
Lemma filter_opens N C E o n k fs : seen N C E o -> nth_error items k = Some (ILazy fs) -> In n (flat_map opening fs) ->
  forall j, In j (filter (fun k => negb (opens items n k)) C) <-> In j (filter (fun j => negb (Nat.eqb j k)) C).
Proof.
  intros S Hk I j. rewrite !filter_In. split; intros [Hj X]; (split; [exact Hj|]); apply negb_true_iff; apply negb_true_iff in X.
  - apply Nat.eqb_neq. intros ->. rewrite (opens_intro n k fs Hk I) in X. discriminate.
  - destruct (opens items n j) eqn:O; [exfalso|reflexivity]. apply opens_names in O as (fs' & Hj' & I'). apply Nat.eqb_neq in X. apply X.
    apply (group_unique items Hnd j k fs' fs n Hj' Hk); apply members_split; auto.
Qed.
Lemma filter_none n (C : list nat) : ~ In n (flat_map open_names items) -> filter (fun k => negb (opens items n k)) C = C.
Proof.
  intros H. induction C as [|k C IH]; [reflexivity|]. cbn [filter]. rewrite IH. destruct (opens items n k) eqn:O; [exfalso|reflexivity].
  apply opens_names in O as (fs & Hk & I). apply H. apply in_flat_map. exists (ILazy fs). split; [eapply nth_error_In; eauto|exact I].
Qed.
(** A name that opens a container stands behind no other. *)
Lemma opening_not_silent n k fs C : nth_error items k = Some (ILazy fs) -> In n (flat_map opening fs) -> existsb (is_silent items n) C = false.
Proof.
  intros Hk I. destruct (existsb _ C) eqn:X; [exfalso|reflexivity]. apply existsb_exists in X as (j & _ & X). apply silent_names in X as (fs' & Hj & I').
  assert (j = k) as -> by (apply (group_unique items Hnd j k fs' fs n Hj Hk); apply members_split; auto). assert (fs' = fs) as -> by congruence.
  exact (members_disjoint n fs (group_nodup items Hnd k fs Hk) I I').
Qed.
Lemma silent_no_owner n k fs : nth_error items k = Some (ILazy fs) -> In n (flat_map silent fs) -> owner 0 items n = None.
Proof.
  intros Hk I. destruct (owner 0 items n) as [[j fs']|] eqn:Ow; [exfalso|reflexivity]. destruct (box_owner items n Hok _ _ _ Ow) as (_ & Hj & I'). rewrite Nat.sub_0_r in Hj.
  pose proof (opening_not_silent n j fs' [k] Hj I') as X. cbn [existsb] in X. rewrite (silent_intro n k fs Hk I) in X. discriminate.
Qed.

Lemma get_seen V o n : seen (v_front V) (v_closed V) (v_eager V) o ->
  let '(x, V') := use_view h cls cctx items (Get n) V in
  exists o', use_lazy h cls cctx items (Get n) o = (x, o') /\ seen (v_front V') (v_closed V') (v_eager V') o'.
Proof.
  destruct V as [E N C]. cbn [use_view use_lazy v_eager v_front v_closed]. intros S. unfold lazy_get, py_getattr.
  destruct (existsb (is_silent items n) C) eqn:X.
  - apply existsb_exists in X as (k & Hk & X). apply silent_names in X as (fs & Hf & I). exists o. cbn [v_front v_closed v_eager]. split; [|exact S].
    rewrite (silent_no_owner n k fs Hf I). unfold sbind, sget, slift. rewrite (sn_front _ _ _ _ S n k fs Hf I); [reflexivity|]. now apply (sn_closed _ _ _ _ S).
  - destruct (owner 0 items n) as [[k fs]|] eqn:Ow.
    + destruct (box_owner items n Hok _ _ _ Ow) as (_ & Hk & I). rewrite Nat.sub_0_r in Hk. destruct (open_box N C E o k fs S Hk) as (o' & Y & S' & P).
      exists o'. cbn [v_front v_closed v_eager]. split; [|apply (seen_ext _ _ _ _ _ (filter_opens N C E o n k fs S Hk I)), S'].
      unfold sbind at 1. rewrite Y. unfold sbind, sget, slift. do 2 f_equal. assert (I2 : In n (flat_map stored_names fs)) by (apply members_split; auto). rewrite (sn_same _ _ _ _ S').
      * destruct (lookup E n) eqn:L; [reflexivity|]. now destruct (sn_there _ _ _ _ S' k fs n Hk I2).
      * intros k' fs' Hk' I'. assert (k = k') as <- by (eapply group_unique; eauto). exact P.
    + exists o. cbn [v_front v_closed v_eager]. rewrite filter_none by (now apply (box_no_owner items n Hok 0)). split; [|exact S]. unfold sbind, sget, slift. do 2 f_equal.
      rewrite (sn_same _ _ _ _ S); [reflexivity|]. intros k fs Hk I. eapply not_closed_silent; eauto.
Qed.

Lemma set_seen_ N C E o n v : seen N C E o -> (forall k fs, nth_error items k = Some (ILazy fs) -> In n (flat_map stored_names fs) -> pending k (lo_data o) = None) ->
  seen N C (set_attr E n v) (mkLobj (set_attr (lo_attrs o) n v) (lo_data o)).
Proof.
  intros [Q P1 P2 P4 P3] H. split; cbn [lo_attrs lo_data].
  - exact Q.
  - intros k data c P. destruct (P1 k data c P) as (fs & Hk & Dc). exists fs. split; [exact Hk|]. apply (decodes_off _ _ _ _ _ _ _ _ Dc).
    intros m Hm. apply lookup_set_other. intros <-. rewrite (H k fs Hk Hm) in P. discriminate.
  - intros m Hm. destruct (String.string_dec n m) as [<-|NN]; [now rewrite !lookup_set_same|]. rewrite !lookup_set_other by exact NN. now apply P2.
  - intros m k fs Hk I Pk. rewrite lookup_set_other; [eapply P4; eauto|]. intros <-. apply Pk. apply (H k fs Hk). apply members_split. auto.
  - intros k fs m Hk I. destruct (String.string_dec n m) as [<-|NN]; [now rewrite lookup_set_same|]. rewrite lookup_set_other by exact NN. eapply P3; eauto.
Qed.
Lemma set_seen V o n x : seen (v_front V) (v_closed V) (v_eager V) o ->
  let '(r, V') := use_view h cls cctx items (Set_ n x) V in
  exists o', use_lazy h cls cctx items (Set_ n x) o = (r, o') /\ seen (v_front V') (v_closed V') (v_eager V') o'.
Proof.
  destruct V as [E N C]. cbn [use_view use_lazy v_eager v_front v_closed]. intros S. unfold lazy_set.
  destruct (existsb (is_silent items n) C) eqn:X.
  - apply existsb_exists in X as (k & Hk & X). apply silent_names in X as (fs & Hf & I).
    assert (I2 : In n (flat_map stored_names fs)) by (apply members_split; auto).
    rewrite (silent_no_owner n k fs Hf I), (boxes_class items Hok), (class_not_lazy items Hnd k fs n Hf I2). unfold sbind, sget, sput.
    eexists. split; [reflexivity|]. cbn [v_front v_closed v_eager]. assert (Pk : pending k (lo_data o) <> None) by now apply (sn_closed _ _ _ _ S).
    destruct S as [Q P1 P2 P4 P3]. split; cbn [lo_attrs lo_data]; auto.
    + intros m Hm. rewrite lookup_set_other; [now apply P2|]. intros <-. now rewrite (Hm k fs Hf I2) in Pk.
    + intros m j gs Hj Im Pj. destruct (String.string_dec n m) as [<-|NN]; [now rewrite !lookup_set_same|]. rewrite !lookup_set_other by exact NN. eapply P4; eauto.
  - unfold assign_attr. destruct (owner 0 items n) as [[k fs]|] eqn:Ow.
    + destruct (box_owner items n Hok _ _ _ Ow) as (_ & Hk & I). rewrite Nat.sub_0_r in Hk. destruct (open_box N C E o k fs S Hk) as (o' & Y & S' & P).
      assert (I2 : In n (flat_map stored_names fs)) by (apply members_split; auto). rewrite (class_not_lazy items Hnd k fs n Hk I2).
      eexists. split; [unfold sbind at 1; rewrite Y; reflexivity|]. cbn [v_front v_closed v_eager].
      apply (seen_ext _ _ _ _ _ (filter_opens N C E o n k fs S Hk I)). apply set_seen_; [exact S'|].
      intros k' fs' Hk' I'. assert (k = k') as <- by (eapply group_unique; eauto). exact P.
    + rewrite (boxes_class items Hok). unfold sbind, sget. rewrite filter_none by (now apply (box_no_owner items n Hok 0)).
      destruct (lookup (class_attrs (map eager items)) n) as [w|].
      * destruct (py_eq x w); eexists; (split; [reflexivity|]); exact S.
      * eexists. split; [reflexivity|]. cbn [v_front v_closed v_eager]. apply set_seen_; [exact S|].
        intros k fs Hk I. eapply not_closed_silent; eauto.
Qed.

Lemma write_member_same fs a E out : Forall member_ok fs -> same_on (flat_map stored_names fs) a E -> (forall n, In n (flat_map stored_names fs) -> lookup E n <> None) ->
  write_lazy_fields h fs a out = write_fields h fs E out.
Proof.
  intros H. revert out. induction H as [|f r Hf _ IH]; intros out S T; [reflexivity|]. cbn [write_lazy_fields write_fields flat_map] in *. apply same_on_app in S as [S1 S2].
  unfold sbind. assert (X : write_lazy_field h f a out = write_field h f E out).
  { rewrite <- (write_names h f a E S1). destruct f as [n m d|m| | | | |]; try easy; cbn [write_lazy_field].
    rewrite (S1 n) by now left. destruct (lookup E n) eqn:L; [reflexivity|]. exfalso. apply (T n); [now left|exact L]. }
  rewrite X. destruct (write_field h f E out) as [[u|e] out']; [|reflexivity]. apply IH; [exact S2|]. intros n Hn. apply T. apply in_or_app. now right.
Qed.
(** The result of writing the first fields. *)
Definition wrote (fs : list field) (E : attrs) : bool := match write_fields h fs E [] with (Ok _, _) => true | _ => false end.
Lemma wrote_to k E : gets_to h cls cctx items E k = wrote (map eager (firstn k items)) E.
Proof. unfold gets_to, wrote, write_to_string. rewrite write_struct, String.eqb_refl. now destruct (write_fields h _ E []) as [[u|e] out]. Qed.
Lemma write_fields_app f1 f2 E out : write_fields h (f1 ++ f2) E out = match write_fields h f1 E out with (Ok _, o') => write_fields h f2 E o' | x => x end.
Proof.
  revert out. induction f1 as [|f r IH]; intros out; [reflexivity|]. cbn [app write_fields]. unfold sbind. destruct (write_field h f E out) as [[u|e] o']; [apply IH|reflexivity].
Qed.
Lemma firstn_S_nth {A} (l : list A) j x : nth_error l j = Some x -> firstn (S j) l = firstn j l ++ [x].
Proof. revert l. induction j as [|j IH]; intros [|y l] H; try discriminate; cbn in *; [now injection H as ->|now rewrite (IH l H)]. Qed.

(** Writing from item [j] on, when everything before it was written. *)
Lemma write_seen N E : forall l j C o out, skipn j items = l -> seen N C E o -> write_fields h (map eager (firstn j items)) E [] = (Ok tt, out) ->
  exists r o' out' C', write_items h cls cctx j l (o, out) = (r, (o', out')) /\ write_fields h (map eager items) E [] = (r, out') /\ seen N C' E o'
    /\ forall k, In k C' <-> In k C /\ (k < j \/ wrote (map eager (firstn k items)) E = false)%nat.
Proof.
  induction l as [|i l IH]; intros j C o out El S W.
  - assert (F : firstn j items = items). { apply firstn_all2. assert (L : List.length (skipn j items) = 0%nat) by now rewrite El. rewrite skipn_length in L. lia. }
    rewrite F in W. exists (Ok tt), o, out, C. split; [reflexivity|]. split; [exact W|]. split; [exact S|]. intros k. split; [|tauto]. intros I. split; [exact I|]. left.
    destruct (closed_lazy _ _ _ _ _ S I) as (fs & Hk). assert (k < List.length items)%nat by (apply nth_error_Some; congruence).
    assert (L : List.length (skipn j items) = 0%nat) by now rewrite El. rewrite skipn_length in L. lia.
  - destruct (skipn_nth _ _ _ _ El) as [Hi El']. cbn [write_items]. unfold sbind, write_item at 1. cbn [fst snd].
    assert (Wj : wrote (map eager (firstn j items)) E = true) by (unfold wrote; now rewrite W).
    pose proof (firstn_S_nth items j i Hi) as FS.
    assert (All : items = firstn (Datatypes.S j) items ++ l) by (rewrite <- El'; symmetry; apply firstn_skipn).
    pose proof (proj1 (Forall_forall _ _) Hok i (nth_error_In _ _ Hi)) as Ki.
    (* an error of this item: nothing behind it is reached *)
    assert (Stop : forall e out1, write_field h (eager i) E out = (Err e, out1) ->
      write_fields h (map eager items) E [] = (Err e, out1) /\ forall k, (j < k)%nat -> nth_error items k <> None -> wrote (map eager (firstn k items)) E = false).
    { intros e out1 X. split.
      - rewrite All, FS, !map_app, !write_fields_app, W. cbn [map write_fields]. unfold sbind. now rewrite X.
      - intros k Lk Hk. assert (Fk : firstn k items = firstn (Datatypes.S j) items ++ skipn (Datatypes.S j) (firstn k items)).
        { rewrite <- (firstn_skipn (Datatypes.S j) (firstn k items)) at 1. f_equal. rewrite firstn_firstn. f_equal. lia. }
        unfold wrote. rewrite Fk, FS, !map_app, !write_fields_app, W. cbn [map write_fields]. unfold sbind. now rewrite X. }
    assert (Go : forall out1, write_field h (eager i) E out = (Ok tt, out1) -> write_fields h (map eager (firstn (Datatypes.S j) items)) E [] = (Ok tt, out1)).
    { intros out1 X. rewrite FS, map_app, write_fields_app, W. cbn [map write_fields]. unfold sbind. now rewrite X. }
    destruct i as [f|fs].
    + cbn [eager] in Stop, Go |- *. rewrite (write_names h f (lo_attrs o) E).
      2:{ intros n Hn. apply (sn_same _ _ _ _ S). intros k fs Hk I. now destruct (field_not_lazy items Hnd j f k fs n Hi Hk Hn). }
      assert (Nj : ~ In j C) by (intros I; destruct (closed_lazy _ _ _ _ _ S I) as (fs & Hk); congruence).
      destruct (write_field h f E out) as [[[]|e] out1].
      * destruct (IH (Datatypes.S j) C o out1 El' S (Go _ eq_refl)) as (r & o' & out' & C' & A1 & A2 & A3 & A4). exists r, o', out', C'. repeat (split; [assumption|]).
        intros k. rewrite A4. split; intros [I [L|L]]; (split; [exact I|]); auto; left; (assert (k <> j) by congruence; lia).
      * destruct (Stop e out1 eq_refl) as [St Sk]. exists (Err e), o, out1, C. split; [reflexivity|]. split; [exact St|]. split; [exact S|].
        intros k. split; [|tauto]. intros I. split; [exact I|]. destruct (closed_lazy _ _ _ _ _ S I) as (fs & Hk). destruct (Nat.lt_trichotomy k j) as [L|[->|L]]; [now left|contradiction|].
        right. apply Sk; [exact L|congruence].
    + destruct (open_box N C E o j fs S Hi) as (o1 & X & S1 & P). rewrite X. cbn [eager] in Stop, Go. rewrite write_group in Stop, Go.
      rewrite (write_member_same fs (lo_attrs o1) E); [|apply Ki| |intros n Hn; exact (sn_there _ _ _ _ S1 j fs n Hi Hn)].
      2:{ intros n Hn. apply (sn_same _ _ _ _ S1). intros k' fs' Hk' I'. assert (j = k') as <- by (eapply group_unique; eauto). exact P. }
      destruct (write_fields h fs E out) as [[[]|e] out1].
      * destruct (IH (Datatypes.S j) _ o1 out1 El' S1 (Go _ eq_refl)) as (r & o' & out' & C' & A1 & A2 & A3 & A4). exists r, o', out', C'. repeat (split; [assumption|]).
        intros k. rewrite A4, filter_In, negb_true_iff, Nat.eqb_neq. split; [intros [[I NN] [L|L]]; (split; [exact I|]); auto; left; lia|].
        intros [I [L|L]]; [split; [split; [exact I|lia]|left; lia]|]. split; [split; [exact I|]|now right]. intros ->. congruence.
      * destruct (Stop e out1 eq_refl) as [St Sk]. eexists (Err e), o1, out1, _. split; [reflexivity|]. split; [exact St|]. split; [exact S1|].
        intros k. rewrite filter_In, negb_true_iff, Nat.eqb_neq. split; [intros [I NN]|intros [I [L|L]]; (split; [exact I|]); [lia|intros ->; congruence]]. split; [exact I|].
        destruct (closed_lazy _ _ _ _ _ S I) as (fs' & Hk). destruct (Nat.lt_trichotomy k j) as [L|[->|L]]; [now left|contradiction|]. right. apply Sk; [exact L|congruence].
Qed.
Lemma bytes_seen V o : seen (v_front V) (v_closed V) (v_eager V) o ->
  let '(r, V') := use_view h cls cctx items ToBytes V in
  exists o', use_lazy h cls cctx items ToBytes o = (r, o') /\ seen (v_front V') (v_closed V') (v_eager V') o'.
Proof.
  destruct V as [E N C]. cbn [use_view use_lazy v_eager v_front v_closed]. intros S.
  destruct (write_seen N E items 0 C o [] eq_refl S eq_refl) as (r & o' & out' & C' & X & Y & S' & M). exists o'. split.
  - unfold lazy_to_bytes, write_to_string. rewrite X, write_struct, String.eqb_refl, Y. now destruct r.
  - apply (seen_ext _ C'); [|exact S']. intros k. rewrite M, filter_In, negb_true_iff, wrote_to. intuition lia.
Qed.
Lemma history_seen us : forall V o, seen (v_front V) (v_closed V) (v_eager V) o -> history_lazy h cls cctx items us o = history_view h cls cctx items us V.
Proof.
  induction us as [|u us IH]; intros V o S; [reflexivity|]. cbn [history_lazy history_view].
  assert (X : let '(r, V') := use_view h cls cctx items u V in exists o', use_lazy h cls cctx items u o = (r, o') /\ seen (v_front V') (v_closed V') (v_eager V') o').
  { destruct u; [now apply get_seen|now apply set_seen|now apply bytes_seen]. }
  destruct (use_view h cls cctx items u V) as [r V']. destruct X as (o' & X & S'). rewrite X. f_equal. now apply IH.
Qed.

(** ** Reading *)
Record boxing (j : nat) (N E : attrs) (o : lobj) : Prop := {
  bx_off : same_off (flat_map group_names items) (lo_attrs o) E;
  bx_front : forall n, In n (flat_map group_names items) -> ~ In n (flat_map open_names items) -> lookup (lo_attrs o) n = lookup N n;
  bx_in : forall k fs, (k < j)%nat -> nth_error items k = Some (ILazy fs) -> exists data c, pending k (lo_data o) = Some (data, c) /\ decodes fs data c E;
  bx_only : forall k d, pending k (lo_data o) = Some d -> (k < j)%nat /\ exists fs, nth_error items k = Some (ILazy fs)
}.
Lemma box_step c j i s N E o s' E' : member_item_ok h i -> nth_error items j = Some i -> stream_ok s -> boxing j N E o ->
  read_field h cls cctx (eager i) c (s, E) = (Ok tt, (s', E')) ->
  exists o', read_item h cls cctx c j i (s, o) = (Ok tt, (s', o')) /\ boxing (S j) N E' o' /\ stream_ok s'.
Proof.
  intros Ki Hi O [R1 R0 R2 R3] Er.
  assert (Os : stream_ok s'). { pose proof (proj2 (keeps_all h) (eager i) cls cctx c s E O) as K. rewrite Er in K. exact K. }
  destruct i as [f|fs].
  - destruct (blind_all h f Ki s) as (r & s1 & vals & I & R). cbn [eager] in Er. rewrite R in Er. apply pair_equal_spec in Er as [-> Er]. apply pair_equal_spec in Er as [-> <-].
    exists (mkLobj (set_all vals (lo_attrs o)) (lo_data o)). split; [unfold read_item; cbn [fst snd]; now rewrite R|]. split; [|exact Os].
    assert (NG : forall n k fs, In n (map fst vals) -> nth_error items k = Some (ILazy fs) -> ~ In n (flat_map stored_names fs)).
    { intros n k fs Hn Hk. apply (field_not_lazy items Hnd j f k fs n Hi Hk). now apply I. }
    split; cbn [lo_attrs lo_data].
    + intros n Hn. destruct (in_dec String.string_dec n (map fst vals)) as [Hv|Hv]; [|rewrite !set_all_other by exact Hv; now apply R1].
      clear - Hv. revert Hv. generalize (lo_attrs o) as a. revert E. induction vals as [|[m v] r IH]; intros E a Hv; [easy|].
      change (set_all ((m, v) :: r) a) with (set_all r (set_attr a m v)). change (set_all ((m, v) :: r) E) with (set_all r (set_attr E m v)).
      destruct (in_dec String.string_dec n (map fst r)) as [Hr|Hr]; [now apply IH|]. rewrite !set_all_other by exact Hr.
      destruct Hv as [<-|Hv]; [|easy]. cbn [fst]. now rewrite !lookup_set_same.
    + intros n Hn Ho. rewrite set_all_other; [now apply R0|]. intros Hv. destruct (group_of items n Hn) as (k & fs & Hk & In'). exact (NG n k fs Hv Hk In').
    + intros k fs Lk Hk. destruct (Nat.eq_dec k j) as [->|Nk]; [congruence|]. destruct (R2 k fs ltac:(lia) Hk) as (data & c' & P & Dc). exists data, c'. split; [exact P|].
      apply (decodes_off _ _ _ _ _ _ _ _ Dc). intros n Hn. apply set_all_other. intros Hv. exact (NG n k fs Hv Hk Hn).
    + intros k d P. destruct (R3 k d P) as [L X]. split; [lia|exact X].
  - destruct Ki as [Kf (size & Ks & Kb)]. pose proof (contained_member fs Kf) as Cf. pose proof (lazy_size_span fs Cf size Ks) as Es.
    assert (N0 : 0 <= span_fields fs) by (apply span_fields_nonneg; [apply Forall_forall; intros; now apply span_nonneg_all|exact Cf]).
    set (data := firstn (Z.to_nat size) (rest s)). destruct (stream_of_ok data) as [Od Rd].
    cbn [eager] in Er. rewrite read_group in Er.
    destruct (group_local h fs Cf cls cctx c c s (stream_of data) O Od) as (r & k & vals & V1 & V2 & K & Ko).
    { rewrite Rd. unfold data. rewrite Es, firstn_firstn. now rewrite Nat.min_id. }
    rewrite V1 in Er. apply pair_equal_spec in Er as [-> Er]. apply pair_equal_spec in Er as [<- <-]. destruct (Ko tt eq_refl) as [Kk Nk].
    exists (mkLobj (lo_attrs o) ((j, (data, c)) :: forget j (lo_data o))). split.
    { unfold read_item. cbn [fst snd]. rewrite Ks. rewrite sread_ok by (auto; lia). unfold data. rewrite Kk, Es. reflexivity. }
    split; [|exact Os]. split; cbn [lo_attrs lo_data].
    + intros n Hn. rewrite set_all_other; [now apply R1|]. rewrite Nk. intros Hin. apply Hn. eapply not_group; eauto.
    + exact R0.
    + intros k' fs' Lk Hk. cbn [pending]. destruct (Nat.eqb_spec j k') as [<-|Nj].
      * assert (fs' = fs) as -> by congruence. exists data, c. split; [reflexivity|]. eexists vals, _. split; [exact V2|]. split; [exact Nk|].
        intros n v Hin. apply set_all_in; [|exact Hin]. rewrite Nk. eapply group_nodup; eauto.
      * destruct (R2 k' fs' ltac:(lia) Hk) as (data' & c' & P & Dc). exists data', c'. rewrite pending_forget. destruct (Nat.eqb_spec k' j) as [?|NN]; [lia|]. split; [exact P|].
        apply (decodes_off _ _ _ _ _ _ _ _ Dc). intros n Hn. apply set_all_other. rewrite Nk. intros Hv. assert (j = k') by (eapply group_unique; eauto). lia.
    + intros k' d. cbn [pending]. destruct (Nat.eqb_spec j k') as [<-|Nj]; [intros _; split; [lia|eauto]|]. rewrite pending_forget.
      destruct (Nat.eqb_spec k' j) as [?|NN]; [lia|]. intros P. destruct (R3 k' d P) as [L X]. split; [lia|exact X].
Qed.
Lemma box_rest c N : Forall (member_item_ok h) items -> forall l j s E o s' E', skipn j items = l -> stream_ok s -> boxing j N E o ->
  read_fields h cls cctx (map eager l) c (s, E) = (Ok tt, (s', E')) ->
  exists o', read_items h cls cctx c j l (s, o) = (Ok tt, (s', o')) /\ boxing (j + List.length l) N E' o'.
Proof.
  intros Hall. induction l as [|i l IH]; intros j s E o s' E' El O R Er.
  - cbn in Er. injection Er as <- <-. exists o. rewrite Nat.add_0_r. auto.
  - destruct (skipn_nth _ _ _ _ El) as [Hi El']. cbn [map] in Er. rewrite read_fields_cons in Er. unfold sbind in Er.
    destruct (read_field h cls cctx (eager i) c (s, E)) as [[[]|e] [s1 E1]] eqn:Ei; [|discriminate].
    destruct (box_step c j i s N E o s1 E1 (proj1 (Forall_forall _ _) Hall i (nth_error_In _ _ Hi)) Hi O R Ei) as (o1 & X1 & R1 & O1).
    destruct (IH (S j) s1 E1 o1 s' E' El' O1 R1 Er) as (o' & X2 & R2). exists o'. split; [|now replace (j + List.length (i :: l))%nat with (S j + List.length l)%nat by (cbn; lia)].
    cbn [read_items]. unfold sbind. now rewrite X1.
Qed.
Lemma containers_in k : In k (containers items) <-> exists fs, nth_error items k = Some (ILazy fs).
Proof.
  unfold containers. rewrite filter_In, in_seq. split.
  - intros [_ X]. destruct (nth_error items k) as [[f|fs]|]; try discriminate. eauto.
  - intros (fs & H). rewrite H. split; [|reflexivity]. assert (k < List.length items)%nat by (apply nth_error_Some; congruence). lia.
Qed.
Lemma boxing_seen N E o : boxing (List.length items) N E o -> seen N (containers items) E o.
Proof.
  intros [R1 R0 R2 R3].
  assert (L : forall k fs, nth_error items k = Some (ILazy fs) -> (k < List.length items)%nat) by (intros k fs H; apply nth_error_Some; congruence).
  split.
  - intros k. rewrite containers_in. split.
    + intros (fs & H). destruct (R2 k fs (L _ _ H) H) as (d & c & P & _). congruence.
    + intros P. destruct (pending k (lo_data o)) as [d|] eqn:Ed; [|easy]. now destruct (R3 k d Ed).
  - intros k data c P. destruct (R3 k _ P) as [Lk (fs & Hk)]. destruct (R2 k fs Lk Hk) as (data' & c' & P' & Dc). exists fs. split; [exact Hk|]. congruence.
  - intros n H. apply R1. intros G. destruct (group_of items n G) as (k & fs & Hk & I). destruct (R2 k fs (L _ _ Hk) Hk) as (data & c & P & _). rewrite (H k fs Hk I) in P. discriminate.
  - intros n k fs Hk I _. assert (I2 : In n (flat_map stored_names fs)) by (apply members_split; auto). apply R0; [eapply not_group; eauto|].
    intros G. apply in_flat_map in G as ([f|gs] & Hg & G); [easy|]. apply In_nth_error in Hg as (j & Hj). cbn [open_names] in G.
    pose proof (opening_not_silent n j gs [k] Hj G) as X. cbn [existsb] in X. rewrite (silent_intro n k fs Hk I) in X. discriminate.
  - intros k fs n Hk I. destruct (R2 k fs (L _ _ Hk) Hk) as (data & c & _ & vals & s' & _ & Nm & V). rewrite <- Nm in I. apply in_map_iff in I as ([m v] & <- & I). cbn [fst]; now rewrite (V _ _ I).
Qed.
End Boxes.

Lemma boxes_seen h cls cctx items c s E s' : Forall (member_item_ok h) items -> NoDup (flat_map item_names items) -> stream_ok s ->
  read h (MStruct cls cctx (map eager items)) c s = (Ok (VObj cls E), s') ->
  exists o, lazy_read h cls cctx items c s = (Ok o, s')
    /\ seen h cls cctx items (new_attrs (map eager items) []) (containers items) E o.
Proof.
  intros Hall Hnd O Er. rewrite read_struct in Er. pose proof (ok_box h items Hall) as Hok.
  destruct (read_fields h cls cctx (map eager items) c (s, new_attrs (map eager items) [])) as [[[]|e] [s1 E1]] eqn:X; [|discriminate].
  injection Er as -> ->. pose proof (new_box items [] Hok) as NB.
  destruct (box_rest h cls cctx items Hnd c (new_attrs (map eager items) []) Hall items 0 s (new_attrs (map eager items) []) (lazy_new items []) s' E eq_refl O) as (o & Y & R); [|exact X|].
  - split; [|now intros n Hn Ho; apply NB|lia|discriminate]. intros n Hn. apply NB. intros G. apply Hn.
    apply in_flat_map in G as ([f|gs] & Hg & G); [easy|]. apply in_flat_map. exists (ILazy gs). split; [exact Hg|]. apply members_split. now left.
  - exists o. split; [unfold lazy_read; now rewrite Y|]. now apply boxing_seen.
Qed.
Lemma boxes_history h cls cctx items c s E s' : Forall (member_item_ok h) items -> NoDup (flat_map item_names items) -> stream_ok s ->
  read h (MStruct cls cctx (map eager items)) c s = (Ok (VObj cls E), s') ->
  exists o, lazy_read h cls cctx items c s = (Ok o, s')
    /\ forall us, history_lazy h cls cctx items us o = history_view h cls cctx items us (just_read items E).
Proof.
  intros Hall Hnd O Er. destruct (boxes_seen h cls cctx items c s E s' Hall Hnd O Er) as (o & Y & S). exists o. split; [exact Y|].
  intros us. apply history_seen; [exact (ok_box h items Hall)|exact Hnd|exact S].
Qed.

(** ** Consequences *)
Definition quiet (items : list item) (C : list nat) : Prop := forall n k, In k C -> is_silent items n k = false.
Lemma quiet_exists items C n : quiet items C -> existsb (is_silent items n) C = false.
Proof. intros Q. destruct (existsb _ C) eqn:X; [|reflexivity]. apply existsb_exists in X as (k & I & X). now rewrite (Q n k I) in X. Qed.
Lemma quiet_filter items C f : quiet items C -> quiet items (filter f C).
Proof. intros Q n k I. apply filter_In in I as [I _]. now apply Q. Qed.
Lemma view_eager h cls cctx items us : forall E N C, quiet items C ->
  history_view h cls cctx items us (mkView E N C) = history_eager h cls cctx (map eager items) us E.
Proof.
  induction us as [|u us IH]; intros E N C Q; [reflexivity|]. cbn [history_view history_eager]. destruct u as [n|n x|]; cbn [use_view use_eager v_closed v_eager v_front].
  - rewrite (quiet_exists items C n Q). f_equal. apply IH. now apply quiet_filter.
  - rewrite (quiet_exists items C n Q). destruct (assign_attr (map eager items) E n x); f_equal; apply IH; [now apply quiet_filter|exact Q].
  - f_equal. apply IH. now apply quiet_filter.
Qed.
Lemma write_prefix h f1 f2 E out : write_fields h (f1 ++ f2) E [] = (Ok tt, out) -> exists out', write_fields h f1 E [] = (Ok tt, out').
Proof. rewrite write_fields_app. destruct (write_fields h f1 E []) as [[[]|e] o']; [eauto|discriminate]. Qed.
Lemma bytes_open h cls cctx items E bytes k : write_to_string h (MStruct cls cctx (map eager items)) (VObj cls E) = Ok bytes -> gets_to h cls cctx items E k = true.
Proof.
  intros W. unfold gets_to. unfold write_to_string in *. rewrite write_struct, String.eqb_refl in *.
  destruct (write_fields h (map eager items) E []) as [[[]|e] out] eqn:X; [|discriminate].
  rewrite <- (firstn_skipn k items), map_app in X. destruct (write_prefix h _ _ E out X) as (out' & ->). reflexivity.
Qed.
Lemma bits_bytes_first h cls cctx items c s E s' bytes : Forall (member_item_ok h) items -> NoDup (flat_map item_names items) -> stream_ok s ->
  read h (MStruct cls cctx (map eager items)) c s = (Ok (VObj cls E), s') ->
  write_to_string h (MStruct cls cctx (map eager items)) (VObj cls E) = Ok bytes ->
  exists o, lazy_read h cls cctx items c s = (Ok o, s')
    /\ forall us, history_lazy h cls cctx items (ToBytes :: us) o = history_eager h cls cctx (map eager items) (ToBytes :: us) E.
Proof.
  intros Hall Hnd O Er W. destruct (boxes_history h cls cctx items c s E s' Hall Hnd O Er) as (o & Y & H). exists o. split; [exact Y|].
  intros us. rewrite H. cbn [history_view history_eager use_view use_eager just_read v_eager v_front v_closed]. f_equal. apply view_eager.
  intros n k I. apply filter_In in I as [_ I]. now rewrite (bytes_open h cls cctx items E bytes k W) in I.
Qed.
Lemma touch_view h cls cctx items us : forall ds E N C,
  (forall d k, In d ds -> is_silent items d k = false) ->
  (forall k n, In k C -> is_silent items n k = true -> exists d, In d ds /\ opens items d k = true) ->
  history_view h cls cctx items (map Get ds ++ us) (mkView E N C) = history_eager h cls cctx (map eager items) (map Get ds ++ us) E.
Proof.
  induction ds as [|d ds IH]; intros E N C A B.
  - apply view_eager. intros n k I. destruct (is_silent items n k) eqn:X; [|reflexivity]. now destruct (B k n I X) as (d & [] & _).
  - cbn [map app history_view history_eager use_view use_eager v_closed v_eager v_front].
    assert (X : existsb (is_silent items d) C = false).
    { destruct (existsb _ C) eqn:X; [|reflexivity]. apply existsb_exists in X as (k & _ & X). now rewrite (A d k (or_introl eq_refl)) in X. }
    rewrite X. f_equal. apply IH.
    + intros d' k I. apply A. now right.
    + intros k n I Y. apply filter_In in I as [I Z]. destruct (B k n I Y) as (d' & [->|I'] & O); [now rewrite O in Z|]. eauto.
Qed.
Lemma bits_touched h cls cctx items c s E s' ds : Forall (member_item_ok h) items -> NoDup (flat_map item_names items) -> stream_ok s ->
  read h (MStruct cls cctx (map eager items)) c s = (Ok (VObj cls E), s') ->
  (forall d fs, In d ds -> In (ILazy fs) items -> ~ In d (flat_map silent fs)) ->
  (forall fs, In (ILazy fs) items -> flat_map silent fs <> [] -> exists d, In d ds /\ In d (flat_map opening fs)) ->
  exists o, lazy_read h cls cctx items c s = (Ok o, s')
    /\ forall us, history_lazy h cls cctx items (map Get ds ++ us) o = history_eager h cls cctx (map eager items) (map Get ds ++ us) E.
Proof.
  intros Hall Hnd O Er A B. destruct (boxes_history h cls cctx items c s E s' Hall Hnd O Er) as (o & Y & H). exists o. split; [exact Y|].
  intros us. rewrite H. apply touch_view.
  - intros d k I. destruct (is_silent items d k) eqn:X; [exfalso|reflexivity]. apply silent_names in X as (fs & Hk & X). exact (A d fs I (nth_error_In _ _ Hk) X).
  - intros k n _ X. apply silent_names in X as (fs & Hk & X). destruct (B fs (nth_error_In _ _ Hk)) as (d & I & D); [now destruct (flat_map silent fs)|].
    exists d. split; [exact I|]. eapply opens_intro; eauto.
Qed.
Lemma bits_front h cls cctx items c s E s' : Forall (member_item_ok h) items -> NoDup (flat_map item_names items) -> stream_ok s ->
  read h (MStruct cls cctx (map eager items)) c s = (Ok (VObj cls E), s') ->
  exists o, lazy_read h cls cctx items c s = (Ok o, s')
    /\ (forall fs n, In (ILazy fs) items -> In n (flat_map silent fs) ->
          lazy_get h cls cctx items n o = (py_getattr (VObj cls (new_attrs (map eager items) [])) n, o))
    /\ (forall fs n d x, In (ILazy fs) items -> In n (flat_map silent fs) -> In d (flat_map opening fs) ->
          history_lazy h cls cctx items [Set_ n x; Get n; Get d; Get n] o
          = [ADone (Ok tt); AValue (Ok x); AValue (py_getattr (VObj cls E) d); AValue (py_getattr (VObj cls E) n)])
    /\ (forall fs n x, In (ILazy fs) items -> In n (flat_map silent fs) ->
          history_lazy h cls cctx items [Set_ n x; ToBytes] o
          = [ADone (Ok tt); ABytes (write_to_string h (MStruct cls cctx (map eager items)) (VObj cls E))]).
Proof.
  intros Hall Hnd O Er. destruct (boxes_seen h cls cctx items c s E s' Hall Hnd O Er) as (o & Y & S). exists o. split; [exact Y|].
  pose proof (ok_box h items Hall) as Hok.
  assert (At : forall fs n, In (ILazy fs) items -> In n (flat_map silent fs) -> existsb (is_silent items n) (containers items) = true).
  { intros fs n Hi I. apply In_nth_error in Hi as (k & Hk). apply existsb_exists. exists k. split; [apply containers_in; eauto|eapply silent_intro; eauto]. }
  split; [|split].
  - intros fs n Hi I. apply In_nth_error in Hi as (k & Hk). unfold lazy_get. rewrite (silent_no_owner items Hok Hnd n k fs Hk I). unfold sbind, sget, slift, py_getattr.
    rewrite (sn_front _ _ _ _ _ _ _ _ S n k fs Hk I); [reflexivity|]. apply (sn_closed _ _ _ _ _ _ _ _ S). apply containers_in. eauto.
  - intros fs n d x Hi I D. rewrite (history_seen h cls cctx items Hok Hnd _ (just_read items E) o S).
    cbn [history_view use_view just_read v_closed v_eager v_front]. rewrite (At fs n Hi I). cbn [v_closed v_eager v_front]. rewrite (At fs n Hi I).
    cbn [v_closed v_eager v_front]. apply In_nth_error in Hi as (k & Hk).
    rewrite (opening_not_silent items Hnd d k fs (containers items) Hk D). cbn [v_closed v_eager v_front].
    assert (X : existsb (is_silent items n) (filter (fun k => negb (opens items d k)) (containers items)) = false).
    { destruct (existsb _ _) eqn:X; [exfalso|reflexivity]. apply existsb_exists in X as (j & Hj & X). apply filter_In in Hj as [_ Hj]. apply silent_names in X as (gs & Hg & X).
      assert (j = k) as -> by (apply (group_unique items Hnd j k gs fs n Hg Hk); apply members_split; auto). now rewrite (opens_intro items d k fs Hk D) in Hj. }
    rewrite X. unfold py_getattr. now rewrite lookup_set_same.
  - intros fs n x Hi I. rewrite (history_seen h cls cctx items Hok Hnd _ (just_read items E) o S).
    cbn [history_view use_view just_read v_closed v_eager v_front]. rewrite (At fs n Hi I). reflexivity.
Qed.
Lemma bits_new h cls cctx items kw fs n : Forall (member_item_ok h) items -> NoDup (flat_map item_names items) ->
  In (ILazy fs) items -> In n (flat_map silent fs) ->
  lazy_get h cls cctx items n (lazy_new items kw) = (py_getattr (VObj cls (new_attrs (map eager items) kw)) n, lazy_new items kw).
Proof.
  intros Hall Hnd Hi I. pose proof (ok_box h items Hall) as Hok. apply In_nth_error in Hi as (k & Hk). unfold lazy_get.
  pose proof (silent_no_owner items Hok Hnd n k fs Hk I) as Ow. rewrite Ow. unfold sbind, sget, slift, py_getattr. rewrite (new_box items kw Hok n); [reflexivity|].
  exact (box_no_owner items n Hok 0 Ow).
Qed.
