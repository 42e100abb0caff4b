(** Lazy containers inside of lazy containers. *)
From Verif Require Import Base BaseProofs IntCodec BitStringIO Stream StreamSpec StreamProofs MinMax Marshal MarshalInd MarshalSpec
  FieldSpec FieldFacts SizeSpec SizeFacts SimFacts Lazy LazySpec LazyProofs LazyFacts LazyBitsSpec LazyBitsFacts LazyNest LazyNestSpec.
From Coq Require Import ZArith List Bool String Lia ZifyBool ZifyNat.
Import ListNotations.
Open Scope Z_scope.
Ltac Zify.zify_post_hook ::= Z.div_mod_to_equations.

Definition node_ind' (P : node -> Prop) (H1 : forall n m d, P (NNamed n m d)) (H2 : forall f, P (NOther f)) (H3 : forall k ns, Forall P ns -> P (NLazy k ns)) : forall x, P x :=
  fix F (x : node) : P x :=
    match x with
    | NNamed n m d => H1 n m d
    | NOther f => H2 f
    | NLazy k ns => H3 k ns ((fix G (l : list node) : Forall P l := match l with [] => Forall_nil P | y :: r => Forall_cons y (F y) (G r) end) ns)
    end.

Lemma nodup_app_iff {A} (l r : list A) : NoDup (l ++ r) <-> NoDup l /\ NoDup r /\ forall x, In x l -> ~ In x r.
Proof.
  induction l as [|a l IH]; cbn [app].
  - split; [intros H; split; [constructor|auto]|tauto].
  - split.
    + intros H. inversion H as [|? ? N1 N2]; subst. apply IH in N2 as (A1 & A2 & A3). rewrite in_app_iff in N1. split; [constructor; tauto|]. split; [exact A2|].
      intros x [->|I]; [tauto|auto].
    + intros (H1 & H2 & H3). inversion H1 as [|? ? N1 N2]; subst. constructor; [|apply IH; repeat split; auto; intros x I; apply H3; now right].
      rewrite in_app_iff. intros [I|I]; [tauto|]. apply (H3 a); [now left|exact I].
Qed.

(** ** Names and numbers *)
Lemma inner_lazy k ns : inner_ok (NLazy k ns) <-> (exists size, lazy_size (map plain_node ns) = Ok size /\ size <= maxsize) /\ Forall inner_ok ns.
Proof.
  cbn [inner_ok]. assert (X : forall l, (fix go (l : list node) : Prop := match l with [] => True | y :: r => inner_ok y /\ go r end) l <-> Forall inner_ok l).
  { induction l as [|y r IH]; [split; auto|]. rewrite IH. split; [intros [H1 H2]; now constructor|]. intros H. inversion H; auto. }
  now rewrite X.
Qed.
Lemma inner_contained x : inner_ok x -> self_contained_field (plain_node x).
Proof.
  induction x as [n m d|f|k ns IH] using node_ind'; intros H.
  - exact H.
  - cbn [inner_ok plain_node] in *. now destruct f.
  - apply inner_lazy in H as [_ H]. cbn [plain_node]. apply contained_group. induction IH as [|y r Hy _ IH']; cbn [map contained_fields]; [exact Logic.I|].
    inversion H as [|? ? H1 H2]; subst. split; auto.
Qed.
Lemma inner_all ns : Forall inner_ok ns -> contained_fields (map plain_node ns).
Proof. induction 1 as [|y r Hy _ IH]; cbn [map contained_fields]; [exact Logic.I|]. split; [now apply inner_contained|exact IH]. Qed.
Lemma plain_names ns : flat_map stored_names (map plain_node ns) = all_names ns.
Proof. unfold all_names. induction ns as [|x r IH]; [reflexivity|]. cbn [map flat_map]. now rewrite IH. Qed.
Lemma lazy_names k ns : stored_names (plain_node (NLazy k ns)) = all_names ns.
Proof. cbn [plain_node]. change (stored_names (FGroup (map plain_node ns))) with (flat_map stored_names (map plain_node ns)). apply plain_names. Qed.
Lemma named_all ns : incl (named ns) (all_names ns).
Proof.
  intros n I. unfold named in I. apply in_flat_map in I as (x & Hx & I). apply in_flat_map. exists x. split; [exact Hx|]. destruct x; try easy.
Qed.
Definition box_named (l : list box) : list name := flat_map (fun b => named (snd b)) l.
Definition box_names (l : list box) : list name := flat_map (fun b => all_names (snd b)) l.
Lemma box_named_app l r : box_named (l ++ r) = box_named l ++ box_named r.
Proof. apply flat_map_app. Qed.
Lemma box_names_app l r : box_names (l ++ r) = box_names l ++ box_names r.
Proof. apply flat_map_app. Qed.

Lemma boxes_names x : incl (box_named (boxes_in x)) (stored_names (plain_node x)).
Proof.
  induction x as [n m d|f|k ns IH] using node_ind'; try (intros y []). rewrite lazy_names. cbn [boxes_in]. unfold box_named. cbn [flat_map snd]. apply incl_app; [apply named_all|].
  intros n I. apply in_flat_map in I as (b & Hb & I). apply in_flat_map in Hb as (y & Hy & Hb). apply in_flat_map. exists y. split; [exact Hy|].
  apply (proj1 (Forall_forall _ _) IH y Hy). apply in_flat_map. eauto.
Qed.
Lemma boxes_names_all ns : incl (box_named (flat_map boxes_in ns)) (all_names ns).
Proof.
  intros n I. apply in_flat_map in I as (b & Hb & I). apply in_flat_map in Hb as (y & Hy & Hb). apply in_flat_map. exists y. split; [exact Hy|].
  apply boxes_names. apply in_flat_map. eauto.
Qed.
Lemma boxes_nodup x : NoDup (stored_names (plain_node x)) -> NoDup (box_named (boxes_in x)).
Proof.
  induction x as [n m d|f|k ns IH] using node_ind'; try (intros _; constructor). rewrite lazy_names. cbn [boxes_in]. intros N. unfold box_named. cbn [flat_map snd]. fold (box_named (flat_map boxes_in ns)).
  induction IH as [|y r Hy _ IH']; [constructor|]. change (all_names (y :: r)) with (stored_names (plain_node y) ++ all_names r) in N.
  apply nodup_app_iff in N as (N1 & N2 & N3). specialize (IH' N2). specialize (Hy N1). cbn [flat_map]. rewrite box_named_app.
  apply nodup_app_iff in IH' as (A1 & A2 & A3). change (named (y :: r)) with ((match y with NNamed n _ _ => [n] | _ => [] end) ++ named r). rewrite <- app_assoc.
  assert (Iy : incl (match y with NNamed n _ _ => [n] | _ => [] end) (stored_names (plain_node y))) by (destruct y; first [apply incl_refl|intros z []]).
  apply nodup_app_iff. split; [destruct y; repeat constructor; easy|]. split.
  - apply nodup_app_iff. split; [exact A1|]. split.
    + apply nodup_app_iff. split; [exact Hy|]. split; [exact A2|]. intros z Hz Hr. apply (N3 z); [now apply boxes_names|now apply boxes_names_all].
    + intros z Hz. rewrite in_app_iff. intros [Hr|Hr]; [|exact (A3 z Hz Hr)]. apply (N3 z); [now apply boxes_names|now apply named_all].
  - intros z Hz. rewrite !in_app_iff. intros [Hr|[Hr|Hr]].
    + apply (N3 z); [now apply Iy|now apply named_all].
    + destruct y; try easy.
    + apply (N3 z); [now apply Iy|now apply boxes_names_all].
Qed.
Lemma boxes_nodup_all ns : NoDup (all_names ns) -> NoDup (box_named (flat_map boxes_in ns)).
Proof. intros H. pose proof (boxes_nodup (NLazy 0 ns)) as X. rewrite lazy_names in X. specialize (X H). cbn [boxes_in] in X. unfold box_named in X. cbn [flat_map snd] in X. now apply nodup_app_iff in X. Qed.

Lemma boxes_sub x k ns : In (k, ns) (boxes_in x) -> incl (flat_map boxes_in ns) (boxes_in x).
Proof.
  induction x as [n m d|f|j l IH] using node_ind'; try easy. cbn [boxes_in]. intros [E|I].
  - injection E as -> ->. now apply incl_tl, incl_refl.
  - apply incl_tl. apply in_flat_map in I as (y & Hy & I). intros b Hb. apply in_flat_map. exists y. split; [exact Hy|]. exact (proj1 (Forall_forall _ _) IH y Hy I b Hb).
Qed.
Lemma boxes_sub_all l k ns : In (k, ns) (flat_map boxes_in l) -> incl (flat_map boxes_in ns) (flat_map boxes_in l).
Proof. intros I. apply in_flat_map in I as (y & Hy & I). intros b Hb. apply in_flat_map. exists y. split; [exact Hy|]. exact (boxes_sub y k ns I b Hb). Qed.
Lemma direct_boxes ns : incl (direct ns) (flat_map boxes_in ns).
Proof. intros b I. apply in_flat_map in I as (x & Hx & I). apply in_flat_map. exists x. split; [exact Hx|]. destruct x; try easy. destruct I as [<-|[]]. now left. Qed.
Lemma boxes_inner x : inner_ok x -> forall k ns, In (k, ns) (boxes_in x) -> inner_ok (NLazy k ns).
Proof.
  induction x as [n m d|f|j l IH] using node_ind'; try easy. intros H k ns. cbn [boxes_in]. intros [E|I]; [now injection E as <- <-|].
  apply in_flat_map in I as (y & Hy & I). apply inner_lazy in H as [_ H]. exact (proj1 (Forall_forall _ _) IH y Hy (proj1 (Forall_forall _ _) H y Hy) k ns I).
Qed.
Lemma deep_nums ns : flat_map (fun b => fst b :: map fst (flat_map boxes_in (snd b))) (direct ns) = map fst (flat_map boxes_in ns).
Proof.
  unfold direct. induction ns as [|x r IH]; [reflexivity|]. cbn [flat_map]. rewrite flat_map_app, IH, map_app. f_equal. destruct x; cbn [flat_map boxes_in map fst snd]; try reflexivity. now rewrite app_nil_r.
Qed.
Definition shallow (ns : list node) : list name := flat_map (fun x => match x with NLazy _ _ => [] | _ => stored_names (plain_node x) end) ns.
Lemma names_split ns n : In n (all_names ns) <-> In n (shallow ns) \/ In n (box_names (direct ns)).
Proof.
  unfold all_names, shallow, direct. induction ns as [|x r IH]; cbn [flat_map]; [cbn; tauto|]. rewrite box_names_app, !in_app_iff, IH.
  destruct x as [m y d|f|k l]; try (cbn [box_names flat_map In]; tauto). rewrite lazy_names. unfold box_names at 2. cbn [flat_map snd]. rewrite app_nil_r. cbn [In]. tauto.
Qed.
Lemma names_nodup ns : NoDup (all_names ns) -> NoDup (box_names (direct ns)) /\ forall n, In n (shallow ns) -> ~ In n (box_names (direct ns)).
Proof.
  induction ns as [|x r IH]; [split; [constructor|easy]|]. change (all_names (x :: r)) with (stored_names (plain_node x) ++ all_names r). intros N.
  apply nodup_app_iff in N as (N1 & N2 & N3). destruct (IH N2) as [I1 I2]. change (direct (x :: r)) with ((match x with NLazy k l => [(k, l)] | _ => [] end) ++ direct r).
  change (shallow (x :: r)) with ((match x with NLazy _ _ => [] | _ => stored_names (plain_node x) end) ++ shallow r). rewrite box_names_app.
  assert (B : incl (box_names match x with NLazy k l => [(k, l)] | _ => [] end) (stored_names (plain_node x))).
  { destruct x; try easy. rewrite lazy_names. unfold box_names. cbn [flat_map snd]. now rewrite app_nil_r. }
  assert (Nb : NoDup (box_names match x with NLazy k l => [(k, l)] | _ => [] end)).
  { destruct x; try constructor. rewrite lazy_names in N1. unfold box_names. cbn [flat_map snd]. now rewrite app_nil_r. }
  split.
  - apply nodup_app_iff. split; [exact Nb|]. split; [exact I1|]. intros n H1 H2. apply (N3 n); [now apply B|]. apply names_split. now right.
  - intros n. rewrite !in_app_iff. intros [H|H] [G|G].
    + destruct x; easy.
    + apply (N3 n); [destruct x; easy|]. apply names_split. now right.
    + apply (N3 n); [now apply B|]. apply names_split. now left.
    + exact (I2 n H G).
Qed.

(** ** Attributes *)
Lemma set_all_cong vals : forall a b n, lookup a n = lookup b n -> lookup (set_all vals a) n = lookup (set_all vals b) n.
Proof.
  induction vals as [|[m v] r IH]; intros a b n H; [exact H|]. change (set_all ((m, v) :: r) a) with (set_all r (set_attr a m v)). change (set_all ((m, v) :: r) b) with (set_all r (set_attr b m v)).
  apply IH. destruct (String.string_dec m n) as [->|Nm]; [now rewrite !lookup_set_same|now rewrite !lookup_set_other].
Qed.
Lemma set_all_src vals : forall a n, lookup a n = None -> forall v, lookup (set_all vals a) n = Some v -> In (n, v) vals.
Proof.
  induction vals as [|[m w] r IH]; intros a n H v; [cbn; congruence|]. change (set_all ((m, w) :: r) a) with (set_all r (set_attr a m w)). intros E.
  destruct (in_dec String.string_dec n (map fst r)) as [I|I].
  - right. apply (IH [] n eq_refl). rewrite <- E. clear - I. revert I. generalize (set_attr a m w) as b. generalize (@nil (name * value)) as c. induction r as [|[x y] r IH]; intros c b I; [easy|].
    change (set_all ((x, y) :: r) b) with (set_all r (set_attr b x y)). change (set_all ((x, y) :: r) c) with (set_all r (set_attr c x y)).
    destruct (String.string_dec x n) as [->|Nx]; [apply set_all_cong; now rewrite !lookup_set_same|]. destruct I as [I|I]; [easy|]. now apply IH.
  - rewrite set_all_other in E by exact I. left. destruct (String.string_dec m n) as [->|Nm]; [rewrite lookup_set_same in E; congruence|]. rewrite lookup_set_other in E by exact Nm. congruence.
Qed.

Lemma in_nums k (l : list box) : In k (map fst l) <-> exists ns, In (k, ns) l.
Proof. rewrite in_map_iff. split; [intros ([j ns] & <- & I); eauto|]. intros (ns & I). exists (k, ns). auto. Qed.
Lemma nums_inj (l : list box) k ns ns' : NoDup (map fst l) -> In (k, ns) l -> In (k, ns') l -> ns = ns'.
Proof.
  induction l as [|[j m] l IH]; [easy|]. cbn [map fst]. intros N. inversion N as [|? ? N1 N2]; subst.
  intros [E|I] [E'|I']; [congruence| | |auto]; [injection E as -> ->|injection E' as -> ->]; exfalso; apply N1; apply in_nums; eauto.
Qed.

(** ** Construction *)
Lemma prepare_given kw n v : lookup kw n = Some v -> forall f a, In n (stored_names f) \/ lookup a n = Some v -> lookup (prepare_instance kw a f) n = Some v.
Proof.
  intros Ev.
  assert (K : forall m d a, In n [m] \/ lookup a n = Some v -> lookup (prepare_field kw a m d) n = Some v).
  { intros m d a L. destruct (String.string_dec m n) as [->|Nm]; [unfold prepare_field; now rewrite Ev, lookup_set_same|rewrite prepare_other by exact Nm]. destruct L as [[->|[]]|L]; [easy|exact L]. }
  assert (B : forall bs a, In n (flat_map (fun b => match b with BField n _ _ => [n] | _ => [] end) bs) \/ lookup a n = Some v ->
    lookup (fold_left (fun a b => match b with BField n _ d => prepare_field kw a n d | _ => a end) bs a) n = Some v).
  { induction bs as [|b bs IH]; intros a; cbn [flat_map fold_left]; [intros [[]|L]; exact L|]. rewrite in_app_iff. intros [[L|L]|L]; apply IH.
    - right. destruct b as [m ? ?| |]; try easy. apply K. now left.
    - now left.
    - right. destruct b as [m ? ?| |]; try exact L. apply K. now right. }
  apply (marshal_field_ind (fun _ => True) (fun f => forall a, In n (stored_names f) \/ lookup a n = Some v -> lookup (prepare_instance kw a f) n = Some v)); auto; cbn [stored_names prepare_instance].
  - intros n0 m d _ a L. now apply K.
  - intros m _ a L; destruct L as [L|L]; [destruct L|exact L].
  - intros m x k0 _ a L; destruct L as [L|L]; [destruct L|exact L].
  - intros n0 m pr d _ a L. now apply K.
  - intros fs0 F. induction F as [|f r Hf _ IH]; intros a L; cbn [flat_map fold_left] in *; [destruct L as [[]|L]; exact L|]. rewrite in_app_iff in L. apply IH. destruct L as [[L|L]|L]; auto.
Qed.
Lemma new_given kw n v fs : lookup kw n = Some v -> In n (flat_map stored_names fs) -> lookup (new_attrs fs kw) n = Some v.
Proof.
  intros Ev I. unfold new_attrs. assert (X : forall l a, In n (flat_map stored_names l) \/ lookup a n = Some v -> lookup (fold_left (prepare_instance kw) l a) n = Some v); [|apply X; now left].
  induction l as [|f l IH]; intros a L; cbn [flat_map fold_left] in *; [destruct L as [[]|L]; exact L|]. rewrite in_app_iff in L. apply IH.
  destruct L as [[L|L]|L]; [right|now left|right]; apply prepare_given; auto.
Qed.

(** Outside of the names of lazy fields without a given value. *)
Definition unset (kw : attrs) (l : list name) : list name := filter (fun n => match lookup kw n with None => true | Some _ => false end) l.
Lemma unset_app kw l r : unset kw (l ++ r) = unset kw l ++ unset kw r.
Proof. apply filter_app. Qed.
Lemma inside_off kw x : forall L a1 a2, incl (unset kw (match x with NNamed n _ _ => [n] | _ => [] end ++ box_named (boxes_in x))) L -> same_off L a1 a2 ->
  same_off L (prepare_inside kw a1 x) (prepare_instance kw a2 (plain_node x)).
Proof.
  induction x as [n m d|f|k ns IH] using node_ind'; intros L a1 a2 G S; cbn [prepare_inside plain_node].
  - cbn [prepare_instance]. cbn [boxes_in box_named flat_map app unset filter] in G. intros n' Hn'. unfold prepare_field. destruct (lookup kw n) as [v|].
    + destruct (String.string_dec n n') as [->|Nn]; [now rewrite !lookup_set_same|]. rewrite !lookup_set_other by exact Nn. now apply S.
    + assert (n <> n') by (intros ->; apply Hn', G; now left). destruct (lookup a2 n); [now apply S|]. rewrite lookup_set_other by assumption. now apply S.
  - now apply prepare_off.
  - cbn [app boxes_in] in G. unfold box_named in G. cbn [flat_map snd] in G. rewrite unset_app in G. apply incl_app_inv in G as [G1 G2]. fold (box_named (flat_map boxes_in ns)) in G2.
    cbn [prepare_instance]. revert a1 a2 S. induction IH as [|y r Hy _ IH']; intros a1 a2 S; cbn [map fold_left]; [exact S|].
    change (named (y :: r)) with ((match y with NNamed n _ _ => [n] | _ => [] end) ++ named r) in G1. cbn [flat_map] in G2. rewrite box_named_app, unset_app in G2. rewrite unset_app in G1.
    apply incl_app_inv in G1 as [G1 G3], G2 as [G2 G4]. apply IH'; auto. apply Hy; [|exact S]. rewrite unset_app. now apply incl_app.
Qed.
Lemma new_nest class kw : same_off (unset kw (box_named (flat_map boxes_in class))) (lo_attrs (nest_new class kw)) (new_attrs (map plain_node class) kw).
Proof.
  unfold nest_new, new_attrs, node_class_attrs. cbn [lo_attrs].
  assert (S : same_off (unset kw (box_named (flat_map boxes_in class))) (class_attrs (map plain_node class)) (class_attrs (map plain_node class))) by (intros n _; reflexivity).
  revert S. generalize (class_attrs (map plain_node class)) at 1 3 as a1. generalize (class_attrs (map plain_node class)) as a2.
  assert (G : incl (unset kw (box_named (flat_map boxes_in class))) (unset kw (box_named (flat_map boxes_in class)))) by apply incl_refl. revert G.
  generalize (unset kw (box_named (flat_map boxes_in class))) at 2 3 4 as L. induction class as [|x r IH]; intros L G a2 a1 S; [exact S|].
  cbn [map fold_left flat_map] in *. rewrite box_named_app, unset_app in G. apply incl_app_inv in G as [G1 G2]. apply IH; [exact G2|].
  destruct x as [n m d|f|k ns]; [now apply prepare_off|now apply prepare_off|]. exact (inside_off kw (NLazy k ns) L a1 a2 G1 S).
Qed.
(** A lazy field without a value is not there. *)
Fixpoint loose (x : node) : list name := match x with NNamed _ _ _ => [] | NOther f => stored_names f | NLazy _ ns => flat_map loose ns end.
Lemma loose_names x : incl (loose x) (stored_names (plain_node x)).
Proof.
  induction x as [n m d|f|k ns IH] using node_ind'; [easy|apply incl_refl|]. rewrite lazy_names. cbn [loose]. intros n I. apply in_flat_map in I as (y & Hy & I).
  apply in_flat_map. exists y. split; [exact Hy|]. exact (proj1 (Forall_forall _ _) IH y Hy n I).
Qed.
Lemma loose_not_named x : NoDup (stored_names (plain_node x)) -> forall n, In n (match x with NNamed n _ _ => [n] | _ => [] end ++ box_named (boxes_in x)) -> ~ In n (loose x).
Proof.
  induction x as [n m d|f|k ns IH] using node_ind'; try easy. rewrite lazy_names. intros N n. cbn [app boxes_in]. unfold box_named. cbn [flat_map snd loose].
  fold (box_named (flat_map boxes_in ns)). induction IH as [|y r Hy _ IH']; [easy|]. change (all_names (y :: r)) with (stored_names (plain_node y) ++ all_names r) in N.
  apply nodup_app_iff in N as (N1 & N2 & N3). specialize (IH' N2). specialize (Hy N1 n). change (named (y :: r)) with ((match y with NNamed n _ _ => [n] | _ => [] end) ++ named r).
  cbn [flat_map]. rewrite box_named_app. rewrite !in_app_iff in *.
  assert (R : forall z, In z (flat_map loose r) -> In z (all_names r)). { intros z I. apply in_flat_map in I as (w & Hw & I). apply in_flat_map. exists w. split; [exact Hw|]. now apply loose_names. }
  assert (Iy : forall z, In z (match y with NNamed n _ _ => [n] | _ => [] end) -> In z (stored_names (plain_node y))) by (destruct y; cbn; tauto).
  pose proof (loose_names y n) as L1. pose proof (boxes_names y n) as L2. pose proof (boxes_names_all r n) as L3. pose proof (named_all r n) as L4. pose proof (N3 n) as L5. pose proof (R n) as L6. pose proof (Iy n) as L7. tauto.
Qed.
Lemma inside_only kw n x : lookup kw n = None -> forall a, ~ In n (loose x) -> lookup (prepare_inside kw a x) n = lookup a n.
Proof.
  intros Kn. induction x as [m y d|f|k ns IH] using node_ind'; intros a H; cbn [prepare_inside loose] in *.
  - destruct (lookup kw m) eqn:Km; [|reflexivity]. apply lookup_set_other. intros ->. congruence.
  - now apply prepare_instance_other.
  - revert a H. induction IH as [|y r Hy _ IH']; intros a H; cbn [fold_left flat_map] in *; [reflexivity|]. rewrite in_app_iff in H. rewrite IH' by tauto. apply Hy. tauto.
Qed.
Lemma nest_unset class kw n : lookup kw n = None -> NoDup (all_names class) -> In n (box_named (flat_map boxes_in class)) -> lookup (node_class_attrs class) n = None -> lookup (lo_attrs (nest_new class kw)) n = None.
Proof.
  unfold nest_new. cbn [lo_attrs]. intros Kn N I. generalize (node_class_attrs class) as a.
  assert (X : forall l a, NoDup (all_names l) -> In n (box_named (flat_map boxes_in l)) \/ ~ In n (all_names l) -> lookup (fold_left (prepare_node kw) l a) n = lookup a n).
  2:{ intros a H. rewrite X; auto. }
  clear - Kn. induction l as [|x l IH]; intros a N H; [reflexivity|]. change (all_names (x :: l)) with (stored_names (plain_node x) ++ all_names l) in *. apply nodup_app_iff in N as (N1 & N2 & N3).
  cbn [fold_left flat_map] in *. rewrite box_named_app, !in_app_iff in H. rewrite (IH _ N2).
  - destruct (in_dec String.string_dec n (stored_names (plain_node x))) as [I|I].
    + destruct x as [m y d|f|k ns].
      * destruct H as [[[]|H]|H]; [|tauto]. destruct (N3 n I). now apply boxes_names_all.
      * destruct H as [[[]|H]|H]; [|tauto]. destruct (N3 n I). now apply boxes_names_all.
      * assert (J : In n (box_named (boxes_in (NLazy k ns)))). { destruct H as [[H|H]|H]; [exact H| |tauto]. destruct (N3 n I). now apply boxes_names_all. }
        pose proof (loose_not_named (NLazy k ns) N1 n J) as X. exact (inside_only kw n (NLazy k ns) Kn a X).
    + destruct x as [m y d|f|k ns]; [now apply prepare_instance_other|now apply prepare_instance_other|].
      apply (inside_only kw n (NLazy k ns) Kn). intros J. apply I. now apply loose_names.
  - destruct H as [[H|H]|H]; [right|now left|right]; [|tauto]. intros J. apply (N3 n); [now apply boxes_names|exact J].
Qed.

Section Nest.
Variables (h : host) (cls : name) (cctx : option ctx).
Notation decodes := (decodes h cls cctx).
Notation read_nodes := (read_nodes h cls cctx).
Notation open_node := (open_node h cls cctx).

(** ** Reading *)
Definition fine (inside : bool) (x : node) : Prop := if inside then inner_ok x else outer_ok h x.
Lemma lazy_fine i k ns : fine i (NLazy k ns) -> inner_ok (NLazy k ns).
Proof. now destruct i. Qed.
Lemma contained_reads c x s E0 s' E1 : inner_ok x -> stream_ok s -> read_field h cls cctx (plain_node x) c (s, E0) = (Ok tt, (s', E1)) ->
  exists vals, map fst vals = stored_names (plain_node x) /\ (forall a, read_field h cls cctx (plain_node x) c (s, a) = (Ok tt, (s', set_all vals a))).
Proof.
  intros F O Er. destruct (proj2 (local_all h) (plain_node x) (inner_contained x F) cls cls cctx cctx c c s s O O eq_refl) as (r & k & vals & V1 & _ & _ & Ko).
  rewrite V1 in Er. apply pair_equal_spec in Er as [-> Er]. apply pair_equal_spec in Er as [<- _]. destruct (Ko tt eq_refl) as [_ Nm]. exists vals. auto.
Qed.
Lemma node_reads c i x s E0 s' E1 : fine i x -> stream_ok s -> read_field h cls cctx (plain_node x) c (s, E0) = (Ok tt, (s', E1)) ->
  exists vals, incl (map fst vals) (stored_names (plain_node x))
  /\ (forall a, read_field h cls cctx (plain_node x) c (s, a) = (Ok tt, (s', set_all vals a))) /\ (i = true -> map fst vals = stored_names (plain_node x)) /\ stream_ok s'.
Proof.
  intros F O Er.
  assert (Os : stream_ok s'). { pose proof (proj2 (keeps_all h) (plain_node x) cls cctx c s E0 O) as K. rewrite Er in K. exact K. }
  assert (Cs : inner_ok x -> exists vals, incl (map fst vals) (stored_names (plain_node x))
    /\ (forall a, read_field h cls cctx (plain_node x) c (s, a) = (Ok tt, (s', set_all vals a))) /\ (i = true -> map fst vals = stored_names (plain_node x)) /\ stream_ok s').
  { intros C. destruct (contained_reads c x s E0 s' E1 C O Er) as (vals & Nm & R). exists vals. rewrite Nm. split; [apply incl_refl|]. auto. }
  assert (Bs : i = false -> blind h (plain_node x) -> exists vals, incl (map fst vals) (stored_names (plain_node x))
    /\ (forall a, read_field h cls cctx (plain_node x) c (s, a) = (Ok tt, (s', set_all vals a))) /\ (i = true -> map fst vals = stored_names (plain_node x)) /\ stream_ok s').
  { intros -> B. destruct (blind_all h (plain_node x) B s) as (r & s1 & vals & I & R). rewrite R in Er. apply pair_equal_spec in Er as [-> Er]. apply pair_equal_spec in Er as [-> _].
    exists vals. split; [exact I|]. split; [intros a; apply R|]. split; [discriminate|exact Os]. }
  destruct i; [now apply Cs|]. destruct x as [n m d|f|k ns]; [now apply Bs|now apply Bs|now apply Cs].
Qed.

(** A container that was read: its data, which decodes to some of the values. *)
Definition kept (c : ctx) (vals : list (name * value)) (o : lobj) (k : nat) (ns : list node) : Prop :=
  exists data vals' s2, pending k (lo_data o) = Some (data, c) /\ (forall a, read_fields h cls cctx (map plain_node ns) c (stream_of data, a) = (Ok tt, (s2, set_all vals' a)))
    /\ map fst vals' = all_names ns /\ forall n v, In (n, v) vals' -> forall a, lookup (set_all vals a) n = Some v.
Lemma nodes_step c i ns : Forall (fine i) ns -> NoDup (all_names ns) -> NoDup (map fst (direct ns)) -> forall s E0 s' E1 o, stream_ok s ->
  read_fields h cls cctx (map plain_node ns) c (s, E0) = (Ok tt, (s', E1)) ->
  exists o' vals, read_nodes c ns (s, o) = (Ok tt, (s', o'))
    /\ (forall a, read_fields h cls cctx (map plain_node ns) c (s, a) = (Ok tt, (s', set_all vals a)))
    /\ incl (map fst vals) (all_names ns) /\ (i = true -> map fst vals = all_names ns)
    /\ (forall n, ~ In n (shallow ns) -> lookup (lo_attrs o') n = lookup (lo_attrs o) n)
    /\ (forall n, In n (shallow ns) -> lookup (lo_attrs o') n = lookup (set_all vals (lo_attrs o)) n)
    /\ (forall k l, In (k, l) (direct ns) -> kept c vals o' k l)
    /\ (forall k, ~ In k (map fst (direct ns)) -> pending k (lo_data o') = pending k (lo_data o)).
Proof.
  induction 1 as [|x r Fx _ IH]; intros N M s E0 s' E1 o O Er.
  - cbn in Er. injection Er as <- <-. exists o, []. split; [reflexivity|]. split; [reflexivity|]. split; [apply incl_refl|]. repeat split; auto. intros k l [].
  - change (all_names (x :: r)) with (stored_names (plain_node x) ++ all_names r) in *. apply nodup_app_iff in N as (N1 & N2 & N3).
    change (direct (x :: r)) with ((match x with NLazy k l => [(k, l)] | _ => [] end) ++ direct r) in *. rewrite map_app in M. apply nodup_app_iff in M as (M1 & M2 & M3).
    change (shallow (x :: r)) with ((match x with NLazy _ _ => [] | _ => stored_names (plain_node x) end) ++ shallow r).
    cbn [map] in Er. rewrite read_fields_cons in Er. unfold sbind in Er.
    destruct (read_field h cls cctx (plain_node x) c (s, E0)) as [[[]|e] [s1 Em]] eqn:Ex; [|discriminate].
    destruct (node_reads c i x s E0 s1 Em Fx O Ex) as (v1 & I1 & R1 & Q1 & O1).
    assert (X : exists o1, read_node h cls cctx c x (s, o) = (Ok tt, (s1, o1))
      /\ lo_attrs o1 = match x with NLazy _ _ => lo_attrs o | _ => set_all v1 (lo_attrs o) end
      /\ (forall k l, In (k, l) (match x with NLazy k l => [(k, l)] | _ => [] end) -> kept c v1 o1 k l)
      /\ (forall k, ~ In k (map fst (match x with NLazy k l => [(k, l)] | _ => [] end)) -> pending k (lo_data o1) = pending k (lo_data o))).
    { clear IH Er. destruct x as [n m d|f|k l].
      - exists (mkLobj (set_all v1 (lo_attrs o)) (lo_data o)). unfold read_node. cbn [fst snd]. rewrite R1. repeat split; auto. intros k l [].
      - exists (mkLobj (set_all v1 (lo_attrs o)) (lo_data o)). unfold read_node. cbn [fst snd]. rewrite R1. repeat split; auto. intros k l [].
      - pose proof (lazy_fine _ _ _ Fx) as K. apply inner_lazy in K as [(size & Ks & Kb) Kf]. pose proof (inner_all l Kf) as Cf. pose proof (lazy_size_span _ Cf size Ks) as Es.
        assert (N0 : 0 <= span_fields (map plain_node l)) by (apply span_fields_nonneg; [apply Forall_forall; intros; now apply span_nonneg_all|exact Cf]).
        set (data := firstn (Z.to_nat size) (rest s)). destruct (stream_of_ok data) as [Od Rd].
        cbn [plain_node] in R1. setoid_rewrite read_group in R1.
        destruct (group_local h _ Cf cls cctx c c s (stream_of data) O Od) as (r0 & j & vals & V1 & V2 & K & Ko).
        { rewrite Rd. unfold data. rewrite Es, firstn_firstn. now rewrite Nat.min_id. }
        pose proof (R1 []) as R0. rewrite V1 in R0. apply pair_equal_spec in R0 as [-> R0]. apply pair_equal_spec in R0 as [<- _]. destruct (Ko tt eq_refl) as [Kk Nk].
        exists (mkLobj (lo_attrs o) ((k, (data, c)) :: forget k (lo_data o))). split; [|split; [reflexivity|]].
        { unfold read_node. cbn [fst snd]. rewrite Ks. rewrite sread_ok by (auto; lia). unfold data. rewrite Kk, Es. reflexivity. }
        split.
        + intros k' l' [E|[]]. injection E as <- <-. eexists data, vals, _. cbn [lo_data pending]. rewrite Nat.eqb_refl. split; [reflexivity|]. split; [exact V2|]. rewrite Nk, plain_names.
          split; [reflexivity|]. intros n v I a. rewrite lazy_names in N1. rewrite plain_names in Nk.
          pose proof (R1 a) as R0. rewrite V1 in R0. apply pair_equal_spec in R0 as [_ R0]. apply pair_equal_spec in R0 as [_ <-].
          apply set_all_in; [now rewrite Nk|exact I].
        + intros k' Hk'. cbn [map fst In lo_data pending] in *. destruct (Nat.eqb_spec k k'); [tauto|]. rewrite pending_forget. destruct (Nat.eqb_spec k' k); [congruence|reflexivity]. }
    destruct X as (o1 & X1 & A1 & K1 & P1).
    destruct (IH N2 M2 s1 Em s' E1 o1 O1 Er) as (o' & v2 & X2 & R2 & I2 & Q2 & U2 & S2 & K2 & P2).
    exists o', (v1 ++ v2). cbn [LazyNest.read_nodes]. unfold sbind. rewrite X1. split; [exact X2|].
    split; [intros a; cbn [map]; rewrite read_fields_cons; unfold sbind; now rewrite R1, R2, set_all_app|].
    split; [rewrite map_app; apply incl_app; [now apply incl_appl|now apply incl_appr]|]. split; [intros Hi; now rewrite map_app, Q1, Q2|].
    assert (Sh : forall n, In n (shallow r) -> In n (all_names r)) by (intros n Hn; apply names_split; now left).
    split; [|split; [|split]].
    + intros n Hn. rewrite in_app_iff in Hn. rewrite U2 by tauto. rewrite A1. destruct x; auto; apply set_all_other; intros Hv; apply Hn; left; now apply I1.
    + intros n Hn. apply in_app_iff in Hn. rewrite set_all_app. destruct (in_dec String.string_dec n (shallow r)) as [Hr|Hr].
      * rewrite S2 by exact Hr. apply set_all_cong. rewrite A1. destruct x; auto. symmetry. apply set_all_other. intros Hv. exact (N3 n (I1 n Hv) (Sh n Hr)).
      * destruct Hn as [Hn|Hn]; [|tauto]. rewrite U2 by exact Hr. rewrite A1. destruct x; [| |easy]; symmetry; apply set_all_other; intros Hv; exact (N3 n Hn (I2 n Hv)).
    + intros k l Hk. apply in_app_iff in Hk as [Hk|Hk].
      * destruct (K1 k l Hk) as (data & w & s2 & Pk & W & Nw & Iw). exists data, w, s2. rewrite P2; [|apply M3; apply in_nums; eauto]. split; [exact Pk|]. split; [exact W|]. split; [exact Nw|].
        intros n v Hv a. rewrite set_all_app, set_all_other; [now apply Iw|]. intros G. apply (N3 n); [|now apply I2]. destruct x as [m y d|f|k' l']; try easy. destruct Hk as [Hk|[]]. injection Hk as -> ->.
        rewrite lazy_names, <- Nw. apply in_map_iff. exists (n, v). auto.
      * destruct (K2 k l Hk) as (data & w & s2 & Pk & W & Nw & Iw). exists data, w, s2. split; [exact Pk|]. split; [exact W|]. split; [exact Nw|]. intros n v Hv a. rewrite set_all_app. now apply Iw.
    + intros k Hk. rewrite map_app, in_app_iff in Hk. rewrite P2, P1 by tauto. reflexivity.
Qed.

Variable class : list node.
Hypothesis Hok : forall k ns, In (k, ns) (flat_map boxes_in class) -> inner_ok (NLazy k ns).
Hypothesis Hnd : NoDup (all_names class).
Hypothesis Hcl : forall n, In n (all_names class) -> lookup (class_attrs (map plain_node class)) n = None.
Hypothesis Hnum : NoDup (map fst (flat_map boxes_in class)).

(** ** The relation between the object and what a program sees *)
(** No name outside of the closed containers is the name of one inside. *)
Fixpoint laid (L : list box) (x : node) : Prop :=
  match x with
  | NLazy k ns => In (k, ns) L \/ (fix go (l : list node) : Prop := match l with [] => True | y :: r => laid L y /\ go r end) ns
  | _ => forall n, In n (stored_names (plain_node x)) -> ~ In n (box_names L)
  end.
Lemma laid_lazy L k ns : laid L (NLazy k ns) <-> In (k, ns) L \/ Forall (laid L) ns.
Proof.
  cbn [laid]. assert (X : forall l, (fix go (l : list node) : Prop := match l with [] => True | y :: r => laid L y /\ go r end) l <-> Forall (laid L) l); [|now rewrite X].
  induction l as [|y r IH]; [split; auto|]. rewrite IH. split; [intros [H1 H2]; now constructor|]. intros H. inversion H; auto.
Qed.
Record sees (N : attrs) (L : list box) (E : attrs) (o : lobj) : Prop := {
  q_in : incl L (flat_map boxes_in class);
  q_nums : NoDup (flat_map (fun b => fst b :: map fst (flat_map boxes_in (snd b))) L);
  q_names : NoDup (box_names L);
  q_pend : forall k, In k (map fst L) <-> pending k (lo_data o) <> None;
  q_dec : forall k ns data c, In (k, ns) L -> pending k (lo_data o) = Some (data, c) -> decodes (map plain_node ns) data c E;
  q_same : forall n, ~ In n (box_names L) -> lookup (lo_attrs o) n = lookup E n;
  q_front : forall b n, In b L -> In n (all_names (snd b)) -> ~ In n (named (snd b)) -> lookup (lo_attrs o) n = lookup N n;
  q_there : forall n, In n (box_named (flat_map boxes_in class)) -> lookup E n <> None;
  q_laid : Forall (laid L) class
}.
Lemma sub_names b : In b (flat_map boxes_in class) -> NoDup (all_names (snd b)).
Proof.
  assert (X : forall x, NoDup (stored_names (plain_node x)) -> In b (boxes_in x) -> NoDup (all_names (snd b))).
  { induction x as [n m d|f|k ns IH] using node_ind'; try easy. rewrite lazy_names. intros N [E|I]; [subst b; exact N|].
    apply in_flat_map in I as (y & Hy & I). apply (proj1 (Forall_forall _ _) IH y Hy); [|exact I]. exact (nodup_part _ _ N y Hy). }
  intros I. apply in_flat_map in I as (y & Hy & I). apply (X y); [|exact I]. exact (nodup_part _ _ Hnd y Hy).
Qed.
Lemma same_box b b' n : In b (flat_map boxes_in class) -> In b' (flat_map boxes_in class) -> In n (named (snd b)) -> In n (named (snd b')) -> b = b'.
Proof.
  intros H H' I I'. apply In_nth_error in H as (i & H). apply In_nth_error in H' as (j & H').
  assert (i = j) as <- by (apply (nodup_parts _ _ (boxes_nodup_all class Hnd) i j b b' n H H' I I')). congruence.
Qed.
Lemma closed_box L b b' n : NoDup (box_names L) -> In b L -> In b' L -> In n (all_names (snd b)) -> In n (all_names (snd b')) -> b = b'.
Proof.
  intros N H H' I I'. apply In_nth_error in H as (i & H). apply In_nth_error in H' as (j & H').
  assert (i = j) as <- by (apply (nodup_parts _ _ N i j b b' n H H' I I')). congruence.
Qed.
Lemma same_num k ns ns' : In (k, ns) (flat_map boxes_in class) -> In (k, ns') (flat_map boxes_in class) -> ns = ns'.
Proof. apply nums_inj, Hnum. Qed.

Lemma opened_names L1 b L2 n : In n (box_names (L1 ++ direct (snd b) ++ L2)) -> In n (box_names (L1 ++ b :: L2)).
Proof.
  rewrite !box_names_app. change (b :: L2) with ([b] ++ L2). rewrite box_names_app. rewrite !in_app_iff. intros [H|[H|H]]; auto. right. left. unfold box_names at 1. cbn [flat_map]. rewrite app_nil_r.
  apply names_split. now right.
Qed.
Lemma opened_laid L1 k ns L2 : NoDup (box_names (L1 ++ (k, ns) :: L2)) -> forall x, laid (L1 ++ (k, ns) :: L2) x -> laid (L1 ++ direct ns ++ L2) x.
Proof.
  intros Nd.
  assert (Base : Forall (laid (L1 ++ direct ns ++ L2)) ns).
  { apply Forall_forall. intros y Hy.
    assert (Z : (match y with NLazy _ _ => False | _ => True end) -> forall n, In n (stored_names (plain_node y)) -> ~ In n (box_names (L1 ++ direct ns ++ L2))).
    { intros Ly n Hn. assert (Sn : In n (shallow ns)) by (apply in_flat_map; exists y; split; [exact Hy|now destruct y]).
      assert (An : In n (all_names ns)) by (apply names_split; now left).
      rewrite box_names_app in Nd. change ((k, ns) :: L2) with ([(k, ns)] ++ L2) in Nd. rewrite box_names_app in Nd. unfold box_names at 2 in Nd. cbn [flat_map snd] in Nd. rewrite app_nil_r in Nd.
      apply nodup_app_iff in Nd as (D1 & D2 & D3). apply nodup_app_iff in D2 as (D2 & D4 & D5). rewrite !box_names_app, !in_app_iff. intros [G|[G|G]].
      - apply (D3 n G). apply in_or_app. now left.
      - exact (proj2 (names_nodup ns D2) n Sn G).
      - exact (D5 n An G). }
    destruct y as [m z d|f|k' l]; [exact (Z Logic.I)|exact (Z Logic.I)|]. apply laid_lazy. left. rewrite !in_app_iff. right. left. apply in_flat_map. exists (NLazy k' l). split; [exact Hy|now left]. }
  induction x as [m z d|f|k' l IH] using node_ind'; intros H.
  - cbn [laid] in *. intros n Hn G. apply (H n Hn). now apply (opened_names L1 (k, ns) L2).
  - cbn [laid] in *. intros n Hn G. apply (H n Hn). now apply (opened_names L1 (k, ns) L2).
  - apply laid_lazy. apply laid_lazy in H as [H|H].
    + rewrite !in_app_iff in *. destruct H as [H|[H|H]]; [tauto| |tauto]. injection H as <- <-. now right.
    + right. rewrite Forall_forall in *. auto.
Qed.

Lemma decodes_vals ns data c E vals s2 : NoDup (all_names ns) -> decodes (map plain_node ns) data c E -> map fst vals = all_names ns ->
  (forall a, read_fields h cls cctx (map plain_node ns) c (stream_of data, a) = (Ok tt, (s2, set_all vals a))) -> forall n v, In (n, v) vals -> lookup E n = Some v.
Proof.
  intros Nd (w & s3 & W & Nw & V) Nv R n v I. apply V. rewrite plain_names in Nw. apply (set_all_src w [] n eq_refl).
  specialize (W []). rewrite R in W. apply pair_equal_spec in W as [_ W]. apply pair_equal_spec in W as [_ <-]. apply set_all_in; [now rewrite Nv|exact I].
Qed.

Lemma open_sees N L1 k ns L2 E o : sees N (L1 ++ (k, ns) :: L2) E o ->
  exists o', open_node k ns o = (Ok tt, o') /\ sees N (L1 ++ direct ns ++ L2) E o'.
Proof.
  intros S. pose proof S as [Qi Qn Qm Qp Qd Qs Qf Qt Ql]. unfold LazyNest.open_node.
  assert (In0 : In (k, ns) (L1 ++ (k, ns) :: L2)) by (apply in_or_app; right; now left).
  assert (InC : In (k, ns) (flat_map boxes_in class)) by now apply Qi.
  destruct (pending k (lo_data o)) as [[data c]|] eqn:P.
  2:{ exfalso. apply (proj1 (Qp k)); [apply in_nums; eauto|exact P]. }
  pose proof (Qd k ns data c In0 P) as D. pose proof D as (w & s2 & W & Nw & V).
  pose proof (sub_names _ InC) as Nds. cbn [snd] in Nds.
  pose proof (proj2 (proj1 (inner_lazy k ns) (Hok k ns InC))) as Fi.
  rewrite flat_map_app in Qn. cbn [flat_map fst snd] in Qn. fold (direct ns) in *.
  apply nodup_app_iff in Qn as (M1 & M2 & M3). inversion M2 as [|? ? M4 M5]; subst. rewrite in_app_iff in M4. apply nodup_app_iff in M5 as (M5 & M6 & M7).
  assert (Nums : forall j L, In j (map fst L) -> In j (flat_map (fun b : box => fst b :: map fst (flat_map boxes_in (snd b))) L)).
  { intros j L I. apply in_map_iff in I as (b & <- & I). apply in_flat_map. exists b. split; [exact I|now left]. }
  assert (Md : NoDup (map fst (direct ns))).
  { rewrite <- deep_nums in M5. clear - M5. induction (direct ns) as [|b l IH]; [constructor|]. cbn [flat_map map app] in *. inversion M5 as [|? ? A1 A2]; subst. rewrite in_app_iff in A1.
    constructor; [|apply IH; now apply nodup_app_iff in A2]. intros I. apply A1. right. apply in_map_iff in I as (b' & <- & I). apply in_flat_map. exists b'. split; [exact I|now left]. }
  destruct (nodes_step c true ns Fi Nds Md (stream_of data) [] s2 (set_all w []) (mkLobj (lo_attrs o) (forget k (lo_data o))) (proj1 (stream_of_ok data)) (W []))
    as (o' & vals & X & R & Iv & Nv & U & Sh & K & Pk). rewrite X. exists o'. split; [reflexivity|]. specialize (Nv eq_refl). cbn [lo_attrs lo_data] in *.
  pose proof (decodes_vals ns data c E vals s2 Nds D Nv R) as Vv.
  assert (Kd : ~ In k (map fst (direct ns))). { intros I. apply M4. left. rewrite <- deep_nums. now apply Nums. }
  assert (Qnm := Qm). rewrite box_names_app in Qnm. change ((k, ns) :: L2) with ([(k, ns)] ++ L2) in Qnm. rewrite box_names_app in Qnm. unfold box_names at 2 in Qnm. cbn [flat_map snd] in Qnm. rewrite app_nil_r in Qnm.
  apply nodup_app_iff in Qnm as (D1 & D2 & D3). apply nodup_app_iff in D2 as (D2 & D4 & D5). destruct (names_nodup ns Nds) as [Dn Dd].
  assert (Other : forall j, In j (map fst L1) \/ In j (map fst L2) -> j <> k /\ ~ In j (map fst (direct ns))).
  { intros j Hj. split.
    - intros ->. destruct Hj as [Hj|Hj]; apply Nums in Hj; [apply (M3 k Hj); now left|apply M4; now right].
    - intros Hd. apply Nums in Hd. rewrite deep_nums in Hd. destruct Hj as [Hj|Hj]; apply Nums in Hj.
      + apply (M3 j Hj). right. apply in_or_app. now left.
      + exact (M7 j Hd Hj). }
  assert (Shal : forall n, In n (shallow ns) -> In n (all_names ns)) by (intros n Hn; apply names_split; now left).
  split.
  - intros b Hb. rewrite !in_app_iff in Hb. destruct Hb as [Hb|[Hb|Hb]]; [apply Qi, in_or_app; now left| |apply Qi, in_or_app; right; now right].
    apply (boxes_sub_all class k ns InC). now apply direct_boxes.
  - rewrite !flat_map_app, deep_nums. apply nodup_app_iff. split; [exact M1|]. split; [apply nodup_app_iff; auto|]. intros j Hj Hk. apply (M3 j Hj). now right.
  - rewrite !box_names_app. apply nodup_app_iff. split; [exact D1|]. split.
    + apply nodup_app_iff. split; [exact Dn|]. split; [exact D4|]. intros n H1 H2. apply (D5 n); [apply names_split; now right|exact H2].
    + intros n H1 H2. apply (D3 n H1). rewrite in_app_iff in *. destruct H2 as [H2|H2]; [left; apply names_split; now right|now right].
  - intros j. rewrite !map_app, !in_app_iff. destruct (in_dec Nat.eq_dec j (map fst (direct ns))) as [Hj|Hj].
    + split; [intros _|auto]. apply in_nums in Hj as (l & Hj). destruct (K j l Hj) as (d' & w' & s3 & P' & _). congruence.
    + rewrite Pk, pending_forget by exact Hj. specialize (Qp j). rewrite map_app, in_app_iff in Qp. cbn [map fst In] in Qp. destruct (Nat.eqb_spec j k) as [->|Nj].
      * split; [|easy]. intros Hk. exfalso. destruct (Other k) as [O1 _]; tauto.
      * rewrite <- Qp. intuition congruence.
  - intros j l d' c' Hj Pj. rewrite !in_app_iff in Hj. destruct (in_dec Nat.eq_dec j (map fst (direct ns))) as [Hd|Hd].
    + assert (Hjd : In (j, l) (direct ns)). { destruct Hj as [Hj|[Hj|Hj]]; [|exact Hj|]; exfalso; apply (proj2 (Other j ltac:(rewrite !in_nums; eauto))); exact Hd. }
      destruct (K j l Hjd) as (d2 & w' & s3 & P' & W' & N' & I'). rewrite P' in Pj. injection Pj as <- <-. exists w', s3. split; [exact W'|]. rewrite plain_names. split; [exact N'|].
      intros n v Hv. apply Vv. apply (set_all_src vals [] n eq_refl). now apply I'.
    + assert (Hjl : In (j, l) L1 \/ In (j, l) L2). { destruct Hj as [Hj|[Hj|Hj]]; auto. destruct Hd. apply in_nums. eauto. }
      rewrite Pk, pending_forget in Pj by exact Hd. destruct (Nat.eqb j k); [discriminate|]. apply (Qd j l d' c'); [|exact Pj]. rewrite in_app_iff. cbn [In]. tauto.
  - intros n Hn. rewrite !box_names_app, !in_app_iff in Hn. destruct (in_dec String.string_dec n (shallow ns)) as [Hs|Hs].
    + rewrite Sh by exact Hs. assert (Hv : In n (map fst vals)) by (rewrite Nv; auto). apply in_map_iff in Hv as ([n' v] & <- & Hv). cbn [fst] in *. rewrite (Vv _ _ Hv). apply set_all_in; [now rewrite Nv|exact Hv].
    + rewrite U by exact Hs. apply Qs. change ((k, ns) :: L2) with ([(k, ns)] ++ L2). rewrite !box_names_app, !in_app_iff. unfold box_names at 2. cbn [flat_map snd]. rewrite app_nil_r, names_split. tauto.
  - intros b n Hb Hn Hm. rewrite !in_app_iff in Hb.
    assert (Hs : ~ In n (shallow ns)).
    { intros Hs. destruct Hb as [Hb|[Hb|Hb]].
      - apply (D3 n); [apply in_flat_map; eauto|]. apply in_or_app. left. auto.
      - apply (Dd n Hs). apply in_flat_map. eauto.
      - apply (D5 n); [auto|]. apply in_flat_map. eauto. }
    rewrite U by exact Hs. destruct Hb as [Hb|[Hb|Hb]].
    + apply (Qf b); auto. apply in_or_app. now left.
    + apply (Qf (k, ns) n In0); cbn [snd]; [apply names_split; right; apply in_flat_map; eauto|]. intros G. apply Hs. unfold named in G. apply in_flat_map in G as (y & Hy & G). apply in_flat_map. exists y.
      split; [exact Hy|]. destruct y; try easy.
    + apply (Qf b); auto. apply in_or_app. right. now right.
  - exact Qt.
  - rewrite Forall_forall in *. intros x Hx. apply (opened_laid L1 k ns L2 Qm x). auto.
Qed.

(** ** Getting and setting *)
Lemma box_sub_names b : In b (flat_map boxes_in class) -> incl (all_names (snd b)) (all_names class).
Proof.
  assert (X : forall x, In b (boxes_in x) -> incl (all_names (snd b)) (stored_names (plain_node x))).
  { induction x as [n m d|f|k ns IH] using node_ind'; try easy. rewrite lazy_names. intros [E|I]; [subst b; apply incl_refl|].
    apply in_flat_map in I as (y & Hy & I). intros n Hn. apply in_flat_map. exists y. split; [exact Hy|]. exact (proj1 (Forall_forall _ _) IH y Hy I n Hn). }
  intros I. apply in_flat_map in I as (y & Hy & I). intros n Hn. apply in_flat_map. exists y. split; [exact Hy|]. exact (X y I n Hn).
Qed.
Lemma owner_some n b : node_owner class n = Some b -> In b (flat_map boxes_in class) /\ In n (named (snd b)).
Proof. intros H. unfold node_owner in H. apply find_some in H as [H1 H2]. split; [exact H1|]. now apply mem_in. Qed.
Lemma owner_none n b : node_owner class n = None -> In b (flat_map boxes_in class) -> ~ In n (named (snd b)).
Proof. intros H I G. unfold node_owner in H. pose proof (find_none _ _ H b I) as X. cbn beta in X. apply mem_in in G. unfold has, mem in *. congruence. Qed.
Lemma is_named_in n : is_named class n = true <-> In n (box_named (flat_map boxes_in class)).
Proof. unfold is_named, box_named. rewrite existsb_exists, in_flat_map. split; intros (b & H & G); exists b; (split; [exact H|]); now apply mem_in. Qed.
Lemma owner_named n : is_named class n = match node_owner class n with Some _ => true | None => false end.
Proof.
  destruct (node_owner class n) as [b|] eqn:Ow.
  - apply owner_some in Ow as [H G]. apply is_named_in. apply in_flat_map. eauto.
  - destruct (is_named class n) eqn:X; [|reflexivity]. apply is_named_in in X. apply in_flat_map in X as (b & H & G). now destruct (owner_none n b Ow H).
Qed.
Lemma can_open_in n L : can_open n L = true <-> exists b, In b L /\ In n (named (snd b)).
Proof. unfold can_open. rewrite existsb_exists. split; intros (b & H & G); exists b; (split; [exact H|]); now apply mem_in. Qed.
Lemma closed_has_in n L : closed_has n L = true <-> In n (box_names L).
Proof. unfold closed_has, box_names. rewrite existsb_exists, in_flat_map. split; intros (b & H & G); exists b; (split; [exact H|]); now apply mem_in. Qed.
Lemma open_with_none n L : can_open n L = false -> open_with n L = L.
Proof.
  unfold can_open, open_with. induction L as [|b L IH]; [reflexivity|]. cbn [existsb flat_map]. intros H. apply orb_false_iff in H as [-> H]. cbn [app]. now rewrite IH.
Qed.
Lemma open_with_app n L1 L2 : open_with n (L1 ++ L2) = open_with n L1 ++ open_with n L2.
Proof. apply flat_map_app. Qed.
Lemma opened_out L1 k ns L2 n : NoDup (box_names (L1 ++ (k, ns) :: L2)) -> In n (named ns) -> ~ In n (box_names (L1 ++ direct ns ++ L2))
  /\ ~ In n (box_names L1) /\ ~ In n (box_names L2).
Proof.
  intros Nd Hn. assert (Sn : In n (shallow ns)). { unfold named in Hn. apply in_flat_map in Hn as (y & Hy & G). apply in_flat_map. exists y. split; [exact Hy|]. destruct y; try easy. }
  assert (An : In n (all_names ns)) by (apply names_split; now left).
  rewrite box_names_app in Nd. change ((k, ns) :: L2) with ([(k, ns)] ++ L2) in Nd. rewrite box_names_app in Nd. unfold box_names at 2 in Nd. cbn [flat_map snd] in Nd. rewrite app_nil_r in Nd.
  apply nodup_app_iff in Nd as (D1 & D2 & D3). apply nodup_app_iff in D2 as (D2 & D4 & D5). rewrite !box_names_app, !in_app_iff.
  assert (G1 : ~ In n (box_names L1)) by (intros G; apply (D3 n G); apply in_or_app; now left). assert (G2 : ~ In n (box_names L2)) by (intros G; exact (D5 n An G)).
  pose proof (proj2 (names_nodup ns D2) n Sn). tauto.
Qed.
Lemma cannot_open n L : ~ In n (box_names L) -> can_open n L = false.
Proof. intros H. destruct (can_open n L) eqn:X; [|reflexivity]. apply can_open_in in X as (b & Hb & G). destruct H. apply in_flat_map. exists b. split; [exact Hb|]. now apply named_all. Qed.

(** A container that is not closed, or hidden in a closed one. *)
Lemma not_closed N L E o n k ns : sees N L E o -> can_open n L = false -> node_owner class n = Some (k, ns) -> open_node k ns o = (Ok tt, o).
Proof.
  intros S X Ow. unfold LazyNest.open_node. destruct (pending k (lo_data o)) as [d|] eqn:P; [exfalso|reflexivity].
  destruct (owner_some n (k, ns) Ow) as [H G].
  assert (I : In k (map fst L)) by (apply (q_pend _ _ _ _ S); congruence). apply in_nums in I as (ns0 & I).
  assert (ns0 = ns) as -> by (apply (same_num k); [now apply (q_in _ _ _ _ S)|exact H]). assert (Y : can_open n L = true) by (apply can_open_in; exists (k, ns); auto). congruence.
Qed.
(** What opening with [n] does. *)
Lemma open_by N L E o n : sees N L E o -> can_open n L = true -> exists k ns o', node_owner class n = Some (k, ns) /\ open_node k ns o = (Ok tt, o')
  /\ sees N (open_with n L) E o' /\ ~ In n (box_names (open_with n L)) /\ In n (all_names class).
Proof.
  intros S X. apply can_open_in in X as ([k ns] & Hb & Hn). cbn [snd] in Hn. pose proof (q_in _ _ _ _ S _ Hb) as Hc. exists k, ns.
  assert (Ow : node_owner class n = Some (k, ns)).
  { destruct (node_owner class n) as [b|] eqn:Ow; [|now destruct (owner_none n (k, ns) Ow Hc)]. destruct (owner_some n b Ow) as [H G]. f_equal. apply (same_box b (k, ns) n); auto. }
  apply in_split in Hb as (L1 & L2 & EL). assert (S0 : sees N (L1 ++ (k, ns) :: L2) E o) by (rewrite EL in S; exact S). destruct (open_sees N L1 k ns L2 E o S0) as (o' & Y & S'). exists o'.
  destruct (opened_out L1 k ns L2 n (q_names _ _ _ _ S0) Hn) as (G & G1 & G2).
  assert (Eo : open_with n L = L1 ++ direct ns ++ L2).
  { rewrite EL,  open_with_app, (open_with_none n L1) by now apply cannot_open. f_equal. unfold open_with at 1. cbn [flat_map snd]. fold (open_with n L2). rewrite (open_with_none n L2) by now apply cannot_open.
    apply mem_in in Hn. now rewrite Hn. }
  rewrite Eo. split; [exact Ow|]. split; [exact Y|]. split; [exact S'|]. split; [exact G|]. apply (box_sub_names _ Hc). now apply named_all.
Qed.

Lemma get_sees V o n : sees (n_front V) (n_closed V) (n_eager V) o ->
  let '(x, V') := use_nview h cls cctx class (Get n) V in
  exists o', use_nest h cls cctx class (Get n) o = (x, o') /\ sees (n_front V') (n_closed V') (n_eager V') o'.
Proof.
  destruct V as [E N L]. cbn [use_nview use_nest n_eager n_front n_closed]. intros S. unfold nest_get, py_getattr. destruct (can_open n L) eqn:X.
  - rewrite andb_false_r. destruct (open_by N L E o n S X) as (k & ns & o' & Ow & Y & S' & G & A). rewrite Ow. exists o'. cbn [n_front n_closed n_eager]. split; [|exact S'].
    unfold sbind at 1. rewrite Y. unfold sbind, sget, slift. do 2 f_equal. rewrite (q_same _ _ _ _ S' n G). destruct (lookup E n) eqn:Le; [reflexivity|].
    destruct (q_there _ _ _ _ S' n); [|exact Le]. apply is_named_in. rewrite owner_named, Ow. reflexivity.
  - rewrite andb_true_r. destruct (closed_has n L) eqn:Y.
    + exists o. cbn [n_front n_closed n_eager]. split; [|exact S]. apply closed_has_in in Y. apply in_flat_map in Y as (b & Hb & Hn).
      assert (F : lookup (lo_attrs o) n = lookup N n). { apply (q_front _ _ _ _ S b n Hb Hn). intros G. assert (can_open n L = true) by (apply can_open_in; eauto). congruence. }
      unfold front_get. rewrite owner_named. destruct (node_owner class n) as [[k ns]|] eqn:Ow.
      * unfold sbind at 1. rewrite (not_closed N L E o n k ns S X Ow). unfold sbind, sget, slift. now rewrite F.
      * unfold sbind, sget, slift. now rewrite F.
    + exists o. cbn [n_front n_closed n_eager]. rewrite (open_with_none n L X). split; [|exact S].
      assert (F : lookup (lo_attrs o) n = lookup E n). { apply (q_same _ _ _ _ S). intros G. apply closed_has_in in G. congruence. }
      destruct (node_owner class n) as [[k ns]|] eqn:Ow.
      * unfold sbind at 1. rewrite (not_closed N L E o n k ns S X Ow). unfold sbind, sget, slift. rewrite F. destruct (lookup E n) eqn:Le; [reflexivity|].
        destruct (q_there _ _ _ _ S n); [|exact Le]. apply is_named_in. rewrite owner_named, Ow. reflexivity.
      * unfold sbind, sget, slift. now rewrite F.
Qed.

Lemma set_sees_ N L E o n v : sees N L E o -> ~ In n (box_names L) -> sees N L (set_attr E n v) (mkLobj (set_attr (lo_attrs o) n v) (lo_data o)).
Proof.
  intros [Qi Qn Qm Qp Qd Qs Qf Qt Ql] H. split; cbn [lo_attrs lo_data]; auto.
  - intros k ns data c I P. apply (decodes_off _ _ _ _ _ _ _ _ (Qd k ns data c I P)). rewrite plain_names. intros m Hm. apply lookup_set_other. intros <-. apply H. apply in_flat_map. now exists (k, ns).
  - intros m Hm. destruct (String.string_dec n m) as [<-|NN]; [now rewrite !lookup_set_same|]. rewrite !lookup_set_other by exact NN. now apply Qs.
  - intros b m Hb Hm Hf. rewrite lookup_set_other; [eapply Qf; eauto|]. intros <-. apply H. apply in_flat_map. eauto.
  - intros m Hm. destruct (String.string_dec n m) as [<-|NN]; [now rewrite lookup_set_same|]. rewrite lookup_set_other by exact NN. now apply Qt.
Qed.
Lemma set_front N L E o n v : sees N L E o -> In n (box_names L) -> sees (set_attr N n v) L E (mkLobj (set_attr (lo_attrs o) n v) (lo_data o)).
Proof.
  intros [Qi Qn Qm Qp Qd Qs Qf Qt Ql] H. split; cbn [lo_attrs lo_data]; auto.
  - intros m Hm. rewrite lookup_set_other; [now apply Qs|]. intros <-. contradiction.
  - intros b m Hb Hm Hf. destruct (String.string_dec n m) as [<-|NN]; [now rewrite !lookup_set_same|]. rewrite !lookup_set_other by exact NN. eapply Qf; eauto.
Qed.
Lemma set_sees V o n x : sees (n_front V) (n_closed V) (n_eager V) o ->
  let '(r, V') := use_nview h cls cctx class (Set_ n x) V in
  exists o', use_nest h cls cctx class (Set_ n x) o = (r, o') /\ sees (n_front V') (n_closed V') (n_eager V') o'.
Proof.
  destruct V as [E N L]. cbn [use_nview use_nest n_eager n_front n_closed]. intros S. unfold nest_set, assign_attr, node_class_attrs. destruct (can_open n L) eqn:X.
  - rewrite andb_false_r. destruct (open_by N L E o n S X) as (k & ns & o' & Ow & Y & S' & G & A). rewrite Ow, (Hcl n A).
    eexists. split; [unfold sbind at 1; rewrite Y; reflexivity|]. cbn [n_front n_closed n_eager]. now apply set_sees_.
  - rewrite andb_true_r. destruct (closed_has n L) eqn:Y.
    + apply closed_has_in in Y. assert (A : In n (all_names class)). { pose proof Y as Y'. apply in_flat_map in Y' as (b & Hb & Hn). exact (box_sub_names b (q_in _ _ _ _ S b Hb) n Hn). }
      destruct (node_owner class n) as [[k ns]|] eqn:Ow.
      * eexists. split; [unfold sbind at 1; rewrite (not_closed N L E o n k ns S X Ow); reflexivity|]. cbn [n_front n_closed n_eager]. now apply set_front.
      * rewrite (Hcl n A). eexists. split; [reflexivity|]. cbn [n_front n_closed n_eager]. now apply set_front.
    + assert (G : ~ In n (box_names L)). { intros G. apply closed_has_in in G. congruence. } rewrite (open_with_none n L X).
      destruct (node_owner class n) as [[k ns]|] eqn:Ow.
      * destruct (owner_some n _ Ow) as [H H2]. assert (A : In n (all_names class)) by (apply (box_sub_names _ H); now apply named_all). rewrite (Hcl n A).
        eexists. split; [unfold sbind at 1; rewrite (not_closed N L E o n k ns S X Ow); reflexivity|]. cbn [n_front n_closed n_eager]. now apply set_sees_.
      * unfold sbind, sget. destruct (lookup (class_attrs (map plain_node class)) n) as [w|].
        -- destruct (py_eq x w); eexists; (split; [reflexivity|]); exact S.
        -- eexists. split; [reflexivity|]. cbn [n_front n_closed n_eager]. now apply set_sees_.
Qed.

(** ** Writing *)
Lemma write_lazy i k ns st : write_node h cls cctx i (NLazy k ns) st =
  match open_node k ns (fst st) with (Err e, o) => (Err e, (o, snd st)) | (Ok _, o) => write_nodes h cls cctx true ns (o, snd st) end.
Proof.
  cbn [write_node]. destruct (LazyNest.open_node h cls cctx k ns (fst st)) as [[u|e] o]; [|reflexivity]. generalize (o, snd st) as q. clear. induction ns as [|y r IH]; intros q; [reflexivity|].
  cbn [write_nodes]. unfold sbind. destruct (write_node h cls cctx true y q) as [[u'|e] q']; [apply IH|reflexivity].
Qed.
Definition writes (i : bool) (x : node) : Prop := forall N L E o out, sees N L E o -> laid L x -> incl (boxes_in x) (flat_map boxes_in class) ->
  (i = true -> forall n, In n (match x with NNamed n _ _ => [n] | _ => [] end) -> lookup E n <> None) ->
  let L' := opened (reached h E x out) L in exists o', sees N L' E o' /\ (forall y, laid L y -> laid L' y) /\
  match write_field h (plain_node x) E out with
  | (Ok _, out') => write_node h cls cctx i x (o, out) = (Ok tt, (o', out')) /\ (forall b, In b L' -> In b L /\ ~ In b (boxes_in x))
  | (Err e, _) => exists out1, write_node h cls cctx i x (o, out) = (Err e, (o', out1))
  end.
Lemma writes_list i ns : Forall (writes i) ns -> forall N L E o out, sees N L E o -> Forall (laid L) ns -> incl (flat_map boxes_in ns) (flat_map boxes_in class) ->
  (i = true -> forall n, In n (named ns) -> lookup E n <> None) ->
  let L' := opened (reached_all h E ns out) L in exists o', sees N L' E o' /\ (forall y, laid L y -> laid L' y) /\
  match write_fields h (map plain_node ns) E out with
  | (Ok _, out') => write_nodes h cls cctx i ns (o, out) = (Ok tt, (o', out')) /\ (forall b, In b L' -> In b L /\ ~ In b (flat_map boxes_in ns))
  | (Err e, _) => exists out1, write_nodes h cls cctx i ns (o, out) = (Err e, (o', out1))
  end.
Proof.
  induction 1 as [|x r Hx _ IH]; intros N L E o out S La In_ T.
  - cbn. exists o. split; [exact S|]. split; [auto|]. split; [reflexivity|]. auto.
  - cbn [map write_fields write_nodes flat_map] in *. apply incl_app_inv in In_ as [In1 In2]. inversion La as [|? ? La1 La2]; subst. unfold sbind.
    change (named (x :: r)) with ((match x with NNamed n _ _ => [n] | _ => [] end) ++ named r) in T. setoid_rewrite in_app_iff in T.
    assert (T1 : i = true -> forall n, In n (match x with NNamed n _ _ => [n] | _ => [] end) -> lookup E n <> None) by (intros Hi n Hn; apply T; auto).
    assert (T2 : i = true -> forall n, In n (named r) -> lookup E n <> None) by (intros Hi n Hn; apply T; auto).
    specialize (Hx N L E o out S La1 In1 T1). cbn zeta in Hx. cbn [reached_all]. destruct (write_field h (plain_node x) E out) as [[u|e] out1].
    + destruct Hx as (o1 & S1 & Y1 & X1 & B1). assert (La3 : Forall (laid (opened (reached h E x out) L)) r) by (rewrite Forall_forall in *; auto). specialize (IH N _ E o1 out1 S1 La3 In2 T2). rewrite X1.
      cbn zeta in *. replace (opened (reached h E x out ++ reached_all h E r out1) L) with (opened (reached_all h E r out1) (opened (reached h E x out) L)) by (unfold opened; now rewrite fold_left_app).
      destruct IH as (o2 & S2 & Y2 & IH). exists o2. split; [exact S2|]. split; [auto|].
      destruct (write_fields h (map plain_node r) E out1) as [[u2|e] out2]; [|exact IH].
      destruct IH as [X2 B2]. split; [exact X2|]. intros b Hb. destruct (B2 b Hb) as [Hb1 Hb2]. destruct (B1 b Hb1) as [Hb3 Hb4].
      split; [exact Hb3|]. rewrite in_app_iff. tauto.
    + rewrite app_nil_r. destruct Hx as (o1 & S1 & Y1 & out2 & X). exists o1. split; [exact S1|]. split; [exact Y1|]. exists out2. now rewrite X.
Qed.
Lemma reached_lazy E k ns out : reached h E (NLazy k ns) out = k :: reached_all h E ns out.
Proof.
  cbn [reached]. f_equal. revert out. induction ns as [|y r IH]; intros out; [reflexivity|]. cbn [reached_all]. f_equal.
  destruct (write_field h (plain_node y) E out) as [[u|e] out']; [apply IH|reflexivity].
Qed.
Lemma open_box_out L k : ~ In k (map fst L) -> open_box L k = L.
Proof.
  unfold open_box. induction L as [|b L IH]; intros H; [reflexivity|]. cbn [map In flat_map] in *. destruct (Nat.eqb_spec (fst b) k) as [X|X]; [tauto|]. cbn [app]. f_equal. apply IH. tauto.
Qed.
Lemma open_box_in L1 k ns L2 : ~ In k (map fst L1) -> ~ In k (map fst L2) -> open_box (L1 ++ (k, ns) :: L2) k = L1 ++ direct ns ++ L2.
Proof.
  intros H1 H2. pose proof (open_box_out L1 k H1) as O1. pose proof (open_box_out L2 k H2) as O2. unfold open_box in *. rewrite flat_map_app. cbn [flat_map fst snd]. now rewrite O1, O2, Nat.eqb_refl.
Qed.
Lemma nums_apart L1 k ns L2 : NoDup (flat_map (fun b => fst b :: map fst (flat_map boxes_in (snd b))) (L1 ++ (k, ns) :: L2)) -> ~ In k (map fst L1) /\ ~ In k (map fst L2).
Proof.
  assert (Sub : forall L : list box, In k (map fst L) -> In k (flat_map (fun b => fst b :: map fst (flat_map boxes_in (snd b))) L)).
  { intros L H. apply in_map_iff in H as (b & <- & Hb). apply in_flat_map. exists b. split; [exact Hb|now left]. }
  rewrite flat_map_app. cbn [flat_map fst snd]. intros M. apply nodup_app_iff in M as (M1 & M2 & M3). inversion M2 as [|? ? M4 M5]; subst. rewrite in_app_iff in M4. split; intros H.
  - apply (M3 k); [now apply Sub|now left].
  - apply M4. right. now apply Sub.
Qed.
Lemma writes_all x : forall i, writes i x.
Proof.
  induction x as [n m d|f|k ns IH] using node_ind'; intros i N L E o out S La In_ T.
  - assert (W : write_node h cls cctx i (NNamed n m d) (o, out) = match write_field h (plain_node (NNamed n m d)) E out with (r, out') => (r, (o, out')) end).
    { cbn [laid] in La. assert (Ln : lookup (lo_attrs o) n = lookup E n) by (apply (q_same _ _ _ _ S), La; now left).
      assert (Wn : forall out0, write_field h (plain_node (NNamed n m d)) (lo_attrs o) out0 = write_field h (plain_node (NNamed n m d)) E out0)
        by (apply write_names; intros n' [<-|[]]; exact Ln).
      cbn [write_node fst snd]. rewrite Ln. destruct i; [|now rewrite Wn]. destruct (lookup E n) eqn:Le; [now rewrite Wn|].
      destruct (T eq_refl n); [now left|exact Le]. }
    cbn [reached opened fold_left]. exists o. split; [exact S|]. split; [auto|].
    rewrite W. destruct (write_field h (plain_node (NNamed n m d)) E out) as [[[]|e] out']; [|eauto]. split; [reflexivity|]. intros b Hb; split; [exact Hb|easy].
  - assert (W : write_node h cls cctx i (NOther f) (o, out) = match write_field h f E out with (r, out') => (r, (o, out')) end).
    { cbn [laid] in La. cbn [write_node fst snd]. now rewrite (write_names h f (lo_attrs o) E) by (intros n' Hn; apply (q_same _ _ _ _ S), La, Hn). }
    cbn [reached opened fold_left]. exists o. split; [exact S|]. split; [auto|].
    rewrite W. cbn [plain_node]. destruct (write_field h f E out) as [[[]|e] out']; [|eauto]. split; [reflexivity|]. intros b Hb; split; [exact Hb|easy].
  - rewrite write_lazy, reached_lazy. change (opened (k :: reached_all h E ns out) L) with (opened (reached_all h E ns out) (open_box L k)). cbn [plain_node fst snd]. rewrite write_group. cbn [boxes_in] in In_. assert (Hc : In (k, ns) (flat_map boxes_in class)) by (apply In_; now left).
    assert (In2 : incl (flat_map boxes_in ns) (flat_map boxes_in class)) by (intros b Hb; apply In_; now right).
    assert (Tn : forall n, In n (named ns) -> lookup E n <> None) by (intros n Hn; apply (q_there _ _ _ _ S); apply in_flat_map; exists (k, ns); auto).
    assert (All : Forall (writes true) ns) by (rewrite Forall_forall in *; auto).
    destruct (in_dec Nat.eq_dec k (map fst L)) as [Hk|Hk].
    + assert (Hb : In (k, ns) L). { apply in_nums in Hk as (ns0 & Hk). assert (ns0 = ns) as <- by (apply (same_num k); [now apply (q_in _ _ _ _ S)|exact Hc]). exact Hk. }
      clear Hk. apply in_split in Hb as (L1 & L2 & ->). destruct (open_sees N L1 k ns L2 E o S) as (o1 & Y & S1). rewrite Y.
      destruct (nums_apart L1 k ns L2 (q_nums _ _ _ _ S)) as [A1 A2]. rewrite (open_box_in L1 k ns L2 A1 A2).
      pose proof (opened_laid L1 k ns L2 (q_names _ _ _ _ S)) as Op.
      assert (La2 : Forall (laid (L1 ++ direct ns ++ L2)) ns).
      { assert (X : laid (L1 ++ direct ns ++ L2) (NLazy k ns)) by (apply Op; apply laid_lazy; left; apply in_or_app; right; now left). apply laid_lazy in X as [X|X]; [exfalso|exact X].
        pose proof (q_nums _ _ _ _ S) as M. rewrite flat_map_app in M. cbn [flat_map fst snd] in M. apply nodup_app_iff in M as (M1 & M2 & M3). inversion M2 as [|? ? M4 M5]; subst. rewrite in_app_iff in M4.
        rewrite !in_app_iff in X. destruct X as [X|[X|X]].
        - apply (M3 k); [|now left]. apply in_flat_map. exists (k, ns). split; [exact X|now left].
        - apply M4. left. apply in_map_iff. exists (k, ns). split; [reflexivity|]. now apply direct_boxes.
        - apply M4. right. apply in_flat_map. exists (k, ns). split; [exact X|now left]. }
      pose proof (writes_list true ns All N _ E o1 out S1 La2 In2 (fun _ => Tn)) as Wl. cbn zeta in Wl.
      destruct Wl as (o' & S' & Ly & Wl). exists o'. split; [exact S'|]. split; [intros y Hy; apply Ly, Op, Hy|].
      destruct (write_fields h (map plain_node ns) E out) as [[u|e] out']; [|exact Wl].
      destruct Wl as [X B]. split; [exact X|].
      intros b Hb. destruct (B b Hb) as [B1 B2]. rewrite !in_app_iff in B1. destruct B1 as [B1|[B1|B1]]; [|destruct B2; now apply direct_boxes|].
      * split; [apply in_or_app; now left|]. cbn [boxes_in]. intros [Eb|Hb2]; [|exact (B2 Hb2)]. subst b. pose proof (q_nums _ _ _ _ S) as M. rewrite flat_map_app in M. cbn [flat_map fst snd] in M.
        apply nodup_app_iff in M as (M1 & M2 & M3). apply (M3 k); [|now left]. apply in_flat_map. exists (k, ns). split; [exact B1|now left].
      * split; [apply in_or_app; right; now right|]. cbn [boxes_in]. intros [Eb|Hb2]; [|exact (B2 Hb2)]. subst b. pose proof (q_nums _ _ _ _ S) as M. rewrite flat_map_app in M. cbn [flat_map fst snd] in M.
        apply nodup_app_iff in M as (M1 & M2 & M3). inversion M2 as [|? ? M4 M5]; subst. apply M4. apply in_or_app. right. apply in_flat_map. exists (k, ns). split; [exact B1|now left].
    + assert (Y : open_node k ns o = (Ok tt, o)). { unfold LazyNest.open_node. destruct (pending k (lo_data o)) eqn:P; [|reflexivity]. destruct Hk. apply (q_pend _ _ _ _ S). congruence. }
      rewrite Y. apply laid_lazy in La as [La|La]; [destruct Hk; apply in_nums; eauto|].
      rewrite (open_box_out L k Hk). pose proof (writes_list true ns All N L E o out S La In2 (fun _ => Tn)) as Wl. cbn zeta in Wl.
      destruct Wl as (o' & S' & Ly & Wl). exists o'. split; [exact S'|]. split; [exact Ly|].
      destruct (write_fields h (map plain_node ns) E out) as [[u|e] out']; [|exact Wl].
      destruct Wl as [X B]. split; [exact X|]. intros b Hb. destruct (B b Hb) as [B1 B2]. split; [exact B1|].
      cbn [boxes_in]. intros [Eb|Hb2]; [|exact (B2 Hb2)]. subst b. apply Hk. apply in_nums. eauto.
Qed.
Lemma bytes_sees V o : sees (n_front V) (n_closed V) (n_eager V) o ->
  let '(x, V') := use_nview h cls cctx class ToBytes V in
  exists o', use_nest h cls cctx class ToBytes o = (x, o') /\ sees (n_front V') (n_closed V') (n_eager V') o'.
Proof.
  destruct V as [E N L]. cbn [use_nview use_nest n_eager n_front n_closed]. intros S. unfold nest_to_bytes, write_to_string. rewrite write_struct, String.eqb_refl.
  assert (All : Forall (writes false) class) by (apply Forall_forall; intros x _; apply writes_all).
  pose proof (writes_list false class All N L E o [] S (q_laid _ _ _ _ S) (incl_refl _) ltac:(discriminate)) as W. cbn zeta in W. destruct W as (o' & S' & _ & W).
  destruct (write_fields h (map plain_node class) E []) as [[u|e] out'].
  - destruct W as [X B]. rewrite X. exists o'. split; [reflexivity|]. cbn [n_front n_closed n_eager].
    destruct (opened (reached_all h E class []) L) as [|b L']; [exact S'|]. exfalso. destruct (B b) as [_ B2]; [now left|]. apply B2. apply (q_in _ _ _ _ S'). now left.
  - destruct W as (out1 & X). rewrite X. exists o'. split; [reflexivity|exact S'].
Qed.
Lemma history_sees us : forall V o, sees (n_front V) (n_closed V) (n_eager V) o -> history_nest h cls cctx class us o = history_nview h cls cctx class us V.
Proof.
  induction us as [|u us IH]; intros V o S; [reflexivity|]. cbn [history_nest history_nview].
  assert (X : let '(x, V') := use_nview h cls cctx class u V in exists o', use_nest h cls cctx class u o = (x, o') /\ sees (n_front V') (n_closed V') (n_eager V') o').
  { destruct u as [n|n v|].
    - pose proof (get_sees V o n S) as G. destruct (use_nview h cls cctx class (Get n) V) as [x V']. destruct G as (o' & G1 & G2). eauto.
    - pose proof (set_sees V o n v S) as G. destruct (use_nview h cls cctx class (Set_ n v) V) as [x V']. destruct G as (o' & G1 & G2). eauto.
    - now apply bytes_sees. }
  destruct (use_nview h cls cctx class u V) as [x V']. destruct X as (o' & X & S'). rewrite X. now rewrite (IH V' o' S').
Qed.
End Nest.

(** ** Objects that were just read *)
Lemma node_names_split class : NoDup (flat_map node_names class) ->
  NoDup (all_names class) /\ forall n, In n (all_names class) -> lookup (class_attrs (map plain_node class)) n = None.
Proof.
  intros N. assert (X : NoDup (all_names class) /\ forall n, In n (all_names class) -> ~ In n (map fst (class_attrs (map plain_node class)))).
  { unfold class_attrs. induction class as [|x r IH]; [split; [constructor|easy]|]. cbn [flat_map map] in *. apply nodup_app_iff in N as (N1 & N2 & N3). destruct (IH N2) as [I1 I2].
    unfold node_names in N1. apply nodup_app_iff in N1 as (A1 & A2 & A3). change (all_names (x :: r)) with (stored_names (plain_node x) ++ all_names r).
    assert (Q : forall n, In n (all_names r) \/ In n (map fst (flat_map class_attrs_f (map plain_node r))) -> In n (flat_map node_names r)).
    { intros n [H|H].
      - apply in_flat_map in H as (y & Hy & H). apply in_flat_map. exists y. split; [exact Hy|]. apply in_or_app. now left.
      - apply in_map_iff in H as (p & <- & H). apply in_flat_map in H as (f & Hf & H). apply in_map_iff in Hf as (y & <- & Hy). apply in_flat_map. exists y. split; [exact Hy|]. apply in_or_app. right. now apply in_map. }
    split.
    - apply nodup_app_iff. split; [exact A1|]. split; [exact I1|]. intros n H1 H2. apply (N3 n); [apply in_or_app; now left|apply Q; now left].
    - intros n. rewrite map_app, !in_app_iff. intros [H|H] [G|G]; [exact (A3 n H G)| | |exact (I2 n H G)].
      + apply (N3 n); [apply in_or_app; now left|apply Q; now right].
      + apply (N3 n); [apply in_or_app; now right|apply Q; now left]. }
  destruct X as [X1 X2]. split; [exact X1|]. intros n Hn. specialize (X2 n Hn). induction (class_attrs (map plain_node class)) as [|[m v] l IH]; [reflexivity|].
  cbn [map fst lookup In] in *. destruct (String.eqb_spec m n); [tauto|]. apply IH. tauto.
Qed.
Lemma outer_inner h class : Forall (outer_ok h) class -> forall k ns, In (k, ns) (flat_map boxes_in class) -> inner_ok (NLazy k ns).
Proof. intros H k ns I. apply in_flat_map in I as (x & Hx & I). rewrite Forall_forall in H. specialize (H x Hx). destruct x as [n m d|f|j l]; try easy. exact (boxes_inner (NLazy j l) H k ns I). Qed.
Lemma deep_in_direct class n : In n (box_named (flat_map boxes_in class)) -> In n (box_names (direct class)).
Proof.
  intros I. apply in_flat_map in I as (b & Hb & I). apply in_flat_map in Hb as (x & Hx & Hb). destruct x as [m y d|f|k ns]; try easy. apply in_flat_map. exists (k, ns).
  split; [apply in_flat_map; exists (NLazy k ns); split; [exact Hx|now left]|]. cbn [snd]. rewrite <- (lazy_names k ns). apply boxes_names. apply in_flat_map. eauto.
Qed.
Lemma lookup_filter (f : name -> bool) (a : attrs) n : lookup (filter (fun p => f (fst p)) a) n = if f n then lookup a n else None.
Proof.
  induction a as [|[m v] a IH]; [now destruct (f n)|]. cbn [filter fst lookup]. destruct (f m) eqn:Fm; cbn [lookup]; destruct (String.eqb_spec m n) as [->|]; rewrite ?IH, ?Fm; try reflexivity.
Qed.
Lemma nest_sees h cls cctx class c s E s' : Forall (outer_ok h) class -> NoDup (flat_map node_names class) -> NoDup (map fst (flat_map boxes_in class)) -> stream_ok s ->
  read h (MStruct cls cctx (map plain_node class)) c s = (Ok (VObj cls E), s') ->
  exists o, nest_read h cls cctx class c s = (Ok o, s') /\ sees h cls cctx class (n_front (nest_read_view class E)) (direct class) E o.
Proof.
  intros Hall Hnn Hnum O Er. rewrite read_struct in Er. destruct (node_names_split class Hnn) as [Hnd Hcl].
  destruct (read_fields h cls cctx (map plain_node class) c (s, new_attrs (map plain_node class) [])) as [[[]|e] [s1 E1]] eqn:X; [|discriminate].
  injection Er as -> ->. pose proof (new_nest class []) as NB.
  assert (Md : NoDup (map fst (direct class))).
  { rewrite <- deep_nums in Hnum. clear - Hnum. induction (direct class) as [|b l IH]; [constructor|]. cbn [flat_map map app] in *. inversion Hnum as [|? ? A1 A2]; subst. rewrite in_app_iff in A1.
    constructor; [|apply IH; now apply nodup_app_iff in A2]. intros I. apply A1. right. apply in_map_iff in I as (b' & <- & I). apply in_flat_map. exists b'. split; [exact I|now left]. }
  destruct (nodes_step h cls cctx c false class Hall Hnd Md s (new_attrs (map plain_node class) []) s' E (nest_new class []) O X) as (o & vals & Y & R & Iv & _ & U & Sh & K & P).
  exists o. unfold nest_read. rewrite Y. split; [reflexivity|]. pose proof (R (new_attrs (map plain_node class) [])) as R0. rewrite X in R0.
  apply pair_equal_spec in R0 as [_ R0]. apply pair_equal_spec in R0 as [_ ->]. destruct (names_nodup class Hnd) as [Dn Dd].
  assert (Un : forall l, unset [] l = l). { induction l as [|a l IH]; [reflexivity|]. change (unset [] (a :: l)) with (a :: unset [] l). now rewrite IH. }
  rewrite Un in NB.
  assert (Nd : forall n, In n (box_names (direct class)) -> lookup (node_class_attrs class) n = None) by (intros n Hn; apply Hcl; apply names_split; now right).
  split.
  - apply direct_boxes.
  - now rewrite deep_nums.
  - exact Dn.
  - intros k. destruct (in_dec Nat.eq_dec k (map fst (direct class))) as [Hk|Hk].
    + split; [intros _|auto]. apply in_nums in Hk as (ns & Hk). destruct (K k ns Hk) as (data & w & s2 & Pk & _). congruence.
    + rewrite P by exact Hk. split; [contradiction|]. now intros [].
  - intros k ns data c' Hk Pk. destruct (K k ns Hk) as (data' & w & s2 & Pk' & W & Nw & Iw). rewrite Pk' in Pk. injection Pk as -> ->. exists w, s2. rewrite plain_names. auto.
  - intros n Hn. assert (Hb : lookup (lo_attrs (nest_new class [])) n = lookup (new_attrs (map plain_node class) []) n) by (apply NB; intros G; apply Hn; now apply deep_in_direct).
    destruct (in_dec String.string_dec n (shallow class)) as [Hs|Hs].
    + rewrite Sh by exact Hs. now apply set_all_cong.
    + rewrite U by exact Hs. rewrite set_all_other; [exact Hb|]. intros G. apply Iv in G. apply names_split in G. tauto.
  - intros b n Hb Hn Hm. assert (Hx : In n (box_names (direct class))) by (apply in_flat_map; eauto). rewrite U by (intros G; exact (Dd n G Hx)). unfold nest_read_view. cbn [n_front].
    rewrite (lookup_filter (fun x => negb (is_named class x))). destruct (is_named class n) eqn:Nm; cbn [negb].
    + apply is_named_in in Nm. now apply nest_unset; [reflexivity| | |apply Nd].
    + apply NB. intros G. apply is_named_in in G. congruence.
  - intros n Hn. apply deep_in_direct in Hn. apply in_flat_map in Hn as ([k ns] & Hk & Hn). cbn [snd] in Hn. destruct (K k ns Hk) as (data & w & s2 & _ & _ & Nw & Iw).
    rewrite <- Nw in Hn. apply in_map_iff in Hn as ([m v] & <- & Hn). cbn [fst]. now rewrite (Iw _ _ Hn).
  - apply Forall_forall. intros x Hx. destruct x as [m y d|f|k ns].
    + cbn [laid]. intros n Hn. apply Dd. apply in_flat_map. exists (NNamed m y d). auto.
    + cbn [laid]. intros n Hn. apply Dd. apply in_flat_map. exists (NOther f). auto.
    + apply laid_lazy. left. apply in_flat_map. exists (NLazy k ns). split; [exact Hx|now left].
Qed.
Lemma nest_history h cls cctx class c s E s' : Forall (outer_ok h) class -> NoDup (flat_map node_names class) -> NoDup (map fst (flat_map boxes_in class)) -> stream_ok s ->
  read h (MStruct cls cctx (map plain_node class)) c s = (Ok (VObj cls E), s') ->
  exists o, nest_read h cls cctx class c s = (Ok o, s') /\ forall us, history_nest h cls cctx class us o = history_nview h cls cctx class us (nest_read_view class E).
Proof.
  intros Hall Hnn Hnum O Er. destruct (nest_sees h cls cctx class c s E s' Hall Hnn Hnum O Er) as (o & Y & S). exists o. split; [exact Y|]. intros us.
  destruct (node_names_split class Hnn) as [Hnd Hcl]. exact (history_sees h cls cctx class (outer_inner h class Hall) Hnd Hcl Hnum us (nest_read_view class E) o S).
Qed.

(** ** Consequences *)
Lemma opened_nil ks : opened ks [] = [].
Proof. unfold opened. induction ks as [|k ks IH]; [reflexivity|exact IH]. Qed.
Lemma nothing_closed h cls cctx class us : forall E F, history_nview h cls cctx class us (mkNView E F []) = history_eager h cls cctx (map plain_node class) us E.
Proof.
  induction us as [|u us IH]; intros E F; [reflexivity|]. cbn [history_nview history_eager]. destruct u as [n|n v|]; cbn [use_nview use_eager n_eager n_front n_closed closed_has existsb andb open_with flat_map].
  - now rewrite IH.
  - destruct (assign_attr (map plain_node class) E n v) as [E'|e]; now rewrite IH.
  - destruct (write_to_string h (MStruct cls cctx (map plain_node class)) (VObj cls E)); [now rewrite IH|]. now rewrite opened_nil, IH.
Qed.
Lemma nest_bytes_first h cls cctx class us E bytes : write_to_string h (MStruct cls cctx (map plain_node class)) (VObj cls E) = Ok bytes ->
  history_nview h cls cctx class (ToBytes :: us) (nest_read_view class E) = history_eager h cls cctx (map plain_node class) (ToBytes :: us) E.
Proof.
  intros W. cbn [history_nview history_eager use_nview use_eager nest_read_view n_eager n_front n_closed]. rewrite W. now rewrite nothing_closed.
Qed.
Lemma direct_closed class b n : In b (direct class) -> In n (all_names (snd b)) -> closed_has n (direct class) = true.
Proof. intros Hb Hn. apply closed_has_in. apply in_flat_map. eauto. Qed.
(** A field of a container inside of a closed one. *)
Lemma hidden_not_open class b b' n : NoDup (all_names class) -> In b (direct class) -> In b' (direct (snd b)) -> In n (named (snd b')) ->
  closed_has n (direct class) = true /\ can_open n (direct class) = false /\ is_named class n = true.
Proof.
  intros Nd Hb Hb' Hn. assert (Hx : In n (box_names (direct (snd b)))) by (apply in_flat_map; exists b'; split; [exact Hb'|now apply named_all]).
  assert (Ha : In n (all_names (snd b))) by (apply names_split; now right). split; [now apply (direct_closed class b)|].
  assert (Bs : In b (flat_map boxes_in class)) by now apply direct_boxes.
  destruct b as [k ns], b' as [k' ns']. cbn [snd] in *.
  assert (Bs' : In (k', ns') (flat_map boxes_in class)) by (apply (boxes_sub_all class k ns Bs); now apply direct_boxes).
  split; [|apply is_named_in; apply in_flat_map; exists (k', ns'); auto].
  destruct (can_open n (direct class)) eqn:X; [exfalso|reflexivity]. apply can_open_in in X as (b2 & H2 & N2).
  destruct (names_nodup class Nd) as [Dn _].
  assert (b2 = (k, ns)) as -> by (apply (closed_box (direct class) b2 (k, ns) n Dn H2 Hb); [now apply named_all|exact Ha]). cbn [snd] in N2.
  pose proof (sub_names class Nd _ Bs) as Ns. cbn [snd] in Ns. destruct (names_nodup ns Ns) as [_ Dd]. apply (Dd n); [|exact Hx].
  unfold named in N2. apply in_flat_map in N2 as (y & Hy & G). apply in_flat_map. exists y. split; [exact Hy|]. destruct y; try easy.
Qed.
Lemma view_hidden h cls cctx class E b b' m n x : NoDup (all_names class) -> In b (direct class) -> In b' (direct (snd b)) -> In m (named (snd b)) -> In n (named (snd b')) ->
  history_nview h cls cctx class [Get n; Set_ n x; Get n; Get m; Get n] (nest_read_view class E)
  = [AValue (Err KeyError); ADone (Ok tt); AValue (Ok x); AValue (py_getattr (VObj cls E) m); AValue (py_getattr (VObj cls E) n)].
Proof.
  intros Nd Hb Hb' Hm Hn. destruct (hidden_not_open class b b' n Nd Hb Hb' Hn) as (C1 & C2 & C3).
  assert (Om : can_open m (direct class) = true) by (apply can_open_in; eauto).
  assert (On : can_open n (open_with m (direct class)) = true).
  { apply can_open_in. exists b'. split; [|exact Hn]. unfold open_with. apply in_flat_map. exists b. split; [exact Hb|]. apply mem_in in Hm. rewrite Hm. exact Hb'. }
  assert (F : lookup (n_front (nest_read_view class E)) n = None) by (unfold nest_read_view; cbn [n_front]; now rewrite (lookup_filter (fun x => negb (is_named class x))), C3).
  revert F. unfold nest_read_view. cbn [n_front]. generalize (filter (fun p => negb (is_named class (fst p))) (new_attrs (map plain_node class) [])) as F. intros F HF.
  assert (G1 : forall F, use_nview h cls cctx class (Get n) (mkNView E F (direct class)) = (AValue (front_get class F n), mkNView E F (direct class)))
    by (intros F0; cbn [use_nview n_eager n_front n_closed]; now rewrite C1, C2).
  assert (G2 : use_nview h cls cctx class (Set_ n x) (mkNView E F (direct class)) = (ADone (Ok tt), mkNView E (set_attr F n x) (direct class)))
    by (cbn [use_nview n_eager n_front n_closed]; now rewrite C1, C2).
  assert (G3 : forall F, use_nview h cls cctx class (Get m) (mkNView E F (direct class)) = (AValue (py_getattr (VObj cls E) m), mkNView E F (open_with m (direct class))))
    by (intros F0; cbn [use_nview n_eager n_front n_closed]; now rewrite Om, andb_false_r).
  assert (G4 : forall F, exists V, use_nview h cls cctx class (Get n) (mkNView E F (open_with m (direct class))) = (AValue (py_getattr (VObj cls E) n), V))
    by (intros F0; cbn [use_nview n_eager n_front n_closed]; rewrite On, andb_false_r; eauto).
  cbn [history_nview]. rewrite G1, G2, G1, G3. destruct (G4 (set_attr F n x)) as (V & ->). unfold front_get. now rewrite HF, C3, lookup_set_same.
Qed.
Lemma nest_hidden h cls cctx class c s E s' : Forall (outer_ok h) class -> NoDup (flat_map node_names class) -> NoDup (map fst (flat_map boxes_in class)) -> stream_ok s ->
  read h (MStruct cls cctx (map plain_node class)) c s = (Ok (VObj cls E), s') ->
  exists o, nest_read h cls cctx class c s = (Ok o, s') /\ forall k ns k' ns' m n x, In (NLazy k ns) class -> In (NLazy k' ns') ns -> In m (named ns) -> In n (named ns') ->
    history_nest h cls cctx class [Get n; Set_ n x; Get n; Get m; Get n] o
    = [AValue (Err KeyError); ADone (Ok tt); AValue (Ok x); AValue (py_getattr (VObj cls E) m); AValue (py_getattr (VObj cls E) n)].
Proof.
  intros Hall Hnn Hnum O Er. destruct (nest_history h cls cctx class c s E s' Hall Hnn Hnum O Er) as (o & Y & H). exists o. split; [exact Y|]. intros k ns k' ns' m n x H1 H2 Hm Hn. rewrite H.
  apply (view_hidden h cls cctx class E (k, ns) (k', ns') m n x); [apply (node_names_split class Hnn)| | |exact Hm|exact Hn]; apply in_flat_map; [exists (NLazy k ns)|exists (NLazy k' ns')]; (split; [assumption|now left]).
Qed.
Lemma nest_bytes h cls cctx class c s E s' : Forall (outer_ok h) class -> NoDup (flat_map node_names class) -> NoDup (map fst (flat_map boxes_in class)) -> stream_ok s ->
  read h (MStruct cls cctx (map plain_node class)) c s = (Ok (VObj cls E), s') ->
  exists o, nest_read h cls cctx class c s = (Ok o, s')
    /\ forall us bytes, write_to_string h (MStruct cls cctx (map plain_node class)) (VObj cls E) = Ok bytes ->
       history_nest h cls cctx class (ToBytes :: us) o = history_eager h cls cctx (map plain_node class) (ToBytes :: us) E.
Proof.
  intros Hall Hnn Hnum O Er. destruct (nest_history h cls cctx class c s E s' Hall Hnn Hnum O Er) as (o & Y & H). exists o. split; [exact Y|]. intros us bytes W. rewrite H. now apply nest_bytes_first with bytes.
Qed.
Lemma laid_nil x : laid [] x.
Proof. induction x as [n m d|f|k ns IH] using node_ind'; [intros ? _ []|intros ? _ []|]. apply laid_lazy. now right. Qed.
Lemma nest_constructed h cls cctx class kw us : Forall (outer_ok h) class -> NoDup (flat_map node_names class) -> NoDup (map fst (flat_map boxes_in class)) ->
  (forall k ns n, In (k, ns) (flat_map boxes_in class) -> In n (named ns) -> lookup kw n <> None) ->
  history_nest h cls cctx class us (nest_new class kw) = history_eager h cls cctx (map plain_node class) us (new_attrs (map plain_node class) kw).
Proof.
  intros Hall Hnn Hnum G. destruct (node_names_split class Hnn) as [Hnd Hcl]. rewrite <- (nothing_closed h cls cctx class us _ []).
  apply (history_sees h cls cctx class (outer_inner h class Hall) Hnd Hcl Hnum us (mkNView (new_attrs (map plain_node class) kw) [] [])). cbn [n_front n_closed n_eager].
  assert (Gn : forall n, In n (box_named (flat_map boxes_in class)) -> lookup kw n <> None) by (intros n Hn; apply in_flat_map in Hn as ([k ns] & Hb & Hn); exact (G k ns n Hb Hn)).
  split; try (constructor; fail); try easy.
  - intros n _. apply new_nest. unfold unset. rewrite filter_In. intros [I X]. specialize (Gn n I). now destruct (lookup kw n).
  - intros n Hn. specialize (Gn n Hn). destruct (lookup kw n) as [v|] eqn:Ev; [|easy]. rewrite (new_given kw n v _ Ev); [discriminate|]. rewrite plain_names. now apply boxes_names_all.
  - apply Forall_forall. intros x _. apply laid_nil.
Qed.

(** ** A constructed object that lacks a value *)
Lemma nothing_opens h cls cctx k ns o : lo_data o = [] -> open_node h cls cctx k ns o = (Ok tt, o).
Proof. intros H. unfold open_node. now rewrite H. Qed.
Lemma write_keeps h cls cctx x : forall i o out o' out', lo_data o = [] -> write_node h cls cctx i x (o, out) = (Ok tt, (o', out')) -> o' = o.
Proof.
  induction x as [m y d|f|k ns IH] using node_ind'; intros i o out o' out' Hd E.
  - cbn [write_node fst snd] in E. match type of E with (let (_, _) := ?X in _) = _ => destruct X as [r q] end. congruence.
  - cbn [write_node fst snd] in E. destruct (write_field h f (lo_attrs o) out) as [r q]. congruence.
  - rewrite write_lazy in E. cbn [fst snd] in E. rewrite nothing_opens in E by exact Hd. revert o out o' out' Hd E.
    induction IH as [|y r Hy _ IHr]; intros o out o' out' Hd E; cbn [write_nodes] in E; [now inversion E|].
    unfold sbind in E. destruct (write_node h cls cctx true y (o, out)) as [[[]|e] [o1 out1]] eqn:Y; [|discriminate].
    apply Hy in Y; [|exact Hd]. subst o1. eapply IHr; eauto.
Qed.
Lemma writes_need h cls cctx n x : forall (i : bool) o out st, lo_data o = [] -> lookup (lo_attrs o) n = None ->
  In n ((if i then match x with NNamed m _ _ => [m] | _ => [] end else []) ++ box_named (boxes_in x)) ->
  write_node h cls cctx i x (o, out) <> (Ok tt, st).
Proof.
  induction x as [m y d|f|k ns IH] using node_ind'; intros i o out st Hd L I E.
  - destruct i; [|destruct I]. destruct I as [->|[]]. cbn [write_node fst snd] in E. rewrite L in E. discriminate E.
  - destruct i; destruct I.
  - rewrite write_lazy in E. cbn [fst snd] in E. rewrite nothing_opens in E by exact Hd.
    assert (J : In n (named ns ++ box_named (flat_map boxes_in ns))) by (destruct i; exact I). clear I. revert out E.
    induction IH as [|y r Hy _ IHr]; intros out E; [exact J|]. cbn [write_nodes] in E. unfold sbind in E.
    destruct (write_node h cls cctx true y (o, out)) as [[[]|e] [o1 out1]] eqn:Y; [|discriminate].
    pose proof (write_keeps _ _ _ _ _ _ _ _ _ Hd Y) as ->.
    change (named (y :: r)) with ((match y with NNamed n _ _ => [n] | _ => [] end) ++ named r) in J. cbn [flat_map] in J. rewrite box_named_app, !in_app_iff in J.
    destruct (in_dec String.string_dec n ((match y with NNamed m _ _ => [m] | _ => [] end) ++ box_named (boxes_in y))) as [K|K].
    + exact (Hy true o out _ Hd L K Y).
    + rewrite in_app_iff in K. apply (IHr ltac:(rewrite in_app_iff; tauto) out1). exact E.
Qed.
Lemma nest_missing h cls cctx class kw k ns n : Forall (outer_ok h) class -> NoDup (flat_map node_names class) ->
  In (k, ns) (flat_map boxes_in class) -> In n (named ns) -> lookup kw n = None ->
  fst (nest_get h cls cctx class n (nest_new class kw)) = Err KeyError
  /\ forall bytes, fst (nest_to_bytes h cls cctx class (nest_new class kw)) <> Ok bytes.
Proof.
  intros Hall Hn Hb In_ Kn. destruct (node_names_split class Hn) as [Hnd Hcl].
  assert (B : In n (box_named (flat_map boxes_in class))) by (apply in_flat_map; exists (k, ns); auto).
  assert (L : lookup (lo_attrs (nest_new class kw)) n = None).
  { apply nest_unset; auto. apply Hcl. now apply boxes_names_all. }
  split.
  - unfold nest_get. destruct (node_owner class n) as [[k' ns']|] eqn:Ow.
    + unfold sbind. rewrite nothing_opens by reflexivity. unfold sget, slift. rewrite L. reflexivity.
    + exfalso. eapply (owner_none class n); eauto.
  - intros bytes E. unfold nest_to_bytes in E.
    destruct (write_nodes h cls cctx false class (nest_new class kw, [])) as [[[]|e] [o' out']] eqn:W; [|discriminate E]. clear E.
    assert (Hd : lo_data (nest_new class kw) = []) by reflexivity. revert L Hd W. generalize (nest_new class kw) as o. generalize (@nil Z) as out.
    clear - B. induction class as [|x r IH]; intros out o L Hd W; [exact B|]. cbn [write_nodes] in W. unfold sbind in W.
    destruct (write_node h cls cctx false x (o, out)) as [[[]|e] [o1 out1]] eqn:Y; [|discriminate].
    cbn [flat_map] in B. rewrite box_named_app, in_app_iff in B. destruct B as [B|B].
    + exact (writes_need h cls cctx n x false o out _ Hd L B Y).
    + assert (o1 = o) as -> by (eapply write_keeps; eauto). exact (IH B out1 o L Hd W).
Qed.
